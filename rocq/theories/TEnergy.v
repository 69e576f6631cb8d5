(** C98: a vehicle left alone keeps its energy and its angular momentum. *)

From Coq Require Import ZArith List Bool Reals.
From Verif Require Import Scalar LinAlg MUtils MModel MDynamics SpecDyn SpecRun SpecMotion SpecDrift SpecEnergy
  EBase EMotion PEnergy PSpinMom EEnergy.
Import ListNotations.
Local Open Scope R_scope.

Theorem C98_work : forall {G : Gen R} n (d d' : Dyn R G) act dt ext noise p, vehicle n d act p -> 0 < dt <= 1/100 ->
  process d act dt ext noise = Ok d' ->
  let s := d_state d in let s' := d_state d' in
  (p_mass p <> 0 -> kinetic (p_mass p) (s_vel s') - kinetic (p_mass p) (s_vel s) = dt * dot3 (s_force s') (mean (s_vel s) (s_vel s'))) /\
  (det3 (p_inertia p) <> 0 -> symmetric (p_inertia p) ->
   spin_energy (p_inertia p) (s_angvel s') - spin_energy (p_inertia p) (s_angvel s) = dt * dot3 (s_torque s') (mean (s_angvel s) (s_angvel s'))).
Proof. exact @step_work. Qed.
Print Assumptions C98_work.

Theorem C98_fall_partial : forall {G : Gen R} n (D : nat -> Dyn R G) act dt ext p,
  vehicle n (D O) act p -> rotors_off n p (d_state (D O)) act -> p_drag p = 0 -> p_mass p <> 0 ->
  0 < dt <= 1/100 -> steady_flight D act dt ext -> forall k,
  let m := p_mass p in let F := together (p_grav p) ext in
  let E j := kinetic m (s_vel (d_state (D j))) + potential F (s_pos (d_state (D j))) in
  E k = E O + INR k * dt ^ 2 * dot3 F F / (2 * m).
Proof. exact @fall_energy. Qed.
Print Assumptions C98_fall_partial.

Theorem C98_tumbling : forall {G : Gen R} n (D : nat -> Dyn R G) act dt ext p lo hi,
  vehicle n (D O) act p -> rotors_off n p (d_state (D O)) act -> no_air_moment p -> moments_between (p_inertia p) lo hi ->
  0 < dt <= 1/100 -> steady_flight D act dt ext ->
  forall k, let I := p_inertia p in let w := s_angvel (d_state (D k)) in let w' := s_angvel (d_state (D (S k))) in
  spin_energy I w' = spin_energy I w + dt ^ 2 * spin_energy I (s_angacc (d_state (D (S k)))) /\ spin_energy I w <= spin_energy I w' /\
  dot3 (momentum I w) (momentum I w) <= dot3 (momentum I w') (momentum I w').
Proof. exact @tumble_grows. Qed.
Print Assumptions C98_tumbling.

Theorem C98_energy_partial : forall {G : Gen R} n (D : nat -> Dyn R G) act dt ext p lo hi,
  vehicle n (D O) act p -> rotors_off n p (d_state (D O)) act -> no_air_moment p -> moments_between (p_inertia p) lo hi ->
  0 < dt <= 1/100 -> steady_flight D act dt ext ->
  forall k, let E j := spin_energy (p_inertia p) (s_angvel (d_state (D j))) in
  4 * hi * (INR k * dt) * dt * E O <= lo ^ 2 ->
  E O <= E k <= E O + 4 * hi * (INR k * dt) * dt * (E O) ^ 2 / lo ^ 2.
Proof. exact @tumble_bound. Qed.
Print Assumptions C98_energy_partial.

Theorem C98_momentum_partial : forall {G : Gen R} n (D : nat -> Dyn R G) act dt ext p lo hi,
  vehicle n (D O) act p -> rotors_off n p (d_state (D O)) act -> no_air_moment p -> moments_between (p_inertia p) lo hi ->
  unitq (s_ori (d_state (D O))) -> 0 < dt <= 1/100 -> steady_flight D act dt ext ->
  forall k, let E0 := spin_energy (p_inertia p) (s_angvel (d_state (D O))) in
  4 * hi * (INR k * dt) * dt * E0 <= lo ^ 2 ->
  apart (world_momentum (p_inertia p) (d_state (D k))) (world_momentum (p_inertia p) (d_state (D O))) <= 4 * (INR k * dt) * dt * E0 * sqrt (hi * E0) / lo.
Proof. exact @tumble_momentum. Qed.
Print Assumptions C98_momentum_partial.

Theorem C98_kept_refuted : exists (D : nat -> Dyn R gen1) act dt p, vehicle 4 (D O) act p /\ rotors_off 4 p (d_state (D O)) act /\
  no_air_moment p /\ moments_between (p_inertia p) 1 3 /\ unitq (s_ori (d_state (D O))) /\ p_drag p = 0 /\ 0 < dt <= 1/100 /\ steady_flight D act dt (mkV 0 0 0) /\
  let s := d_state (D O) in let s' := d_state (D 1%nat) in
  spin_energy (p_inertia p) (s_angvel s) < spin_energy (p_inertia p) (s_angvel s') /\
  kinetic (p_mass p) (s_vel s) + potential (p_grav p) (s_pos s) < kinetic (p_mass p) (s_vel s') + potential (p_grav p) (s_pos s').
Proof. exact kept_refuted. Qed.
Print Assumptions C98_kept_refuted.

Example C98_case : exists D : nat -> Dyn R gen1, D O = tb_dyn /\ steady_flight D off4 (1/100) (mkV 0 0 0) /\
  vehicle 4 (D O) off4 tb_params /\ rotors_off 4 tb_params (d_state (D O)) off4 /\ no_air_moment tb_params /\ moments_between (p_inertia tb_params) 1 3 /\
  unitq (s_ori (d_state (D O))) /\ p_drag tb_params = 0 /\ p_mass tb_params = 2 /\ spin_energy (p_inertia tb_params) (s_angvel (d_state (D O))) = 3/2.
Proof. exact tumbling_case. Qed.
