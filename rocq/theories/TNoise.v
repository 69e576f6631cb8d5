(** Property theorems: the process noise. *)

From Coq Require Import ZArith List Bool Reals.
From Verif Require Import Scalar LinAlg MUtils MModel MDynamics SpecDyn SpecRun SpecMix SpecImu SpecMotion SpecNoise
  EBase EMotion PProc.
Import ListNotations.
Local Open Scope R_scope.

(** ** C77 *)
Theorem C77_noise_law :
  forall {G : Gen R} n (d d1 d0 : Dyn R G) act dt ext p,
  vehicle n d act p -> det3 (p_inertia p) <> 0 -> 0 < dt <= 1/100 ->
  process d act dt ext true = Ok d1 -> process d act dt ext false = Ok d0 ->
  (forall a, let noise := sqrt (p_fnoise p / dt) * pr a (sample G 0 (dyn_rng d) 0) in
    pr a (s_force (d_state d1)) = pr a (s_force (d_state d0)) + noise /\
    pr a (s_torque (d_state d1)) = pr a (s_torque (d_state d0)) + noise) /\
  dyn_rng d1 = rng_skip G 6 (dyn_rng d) /\ dyn_rng d0 = dyn_rng d.
Proof. exact @noise_law. Qed.
Print Assumptions C77_noise_law.

Theorem C77_draws :
  forall {G : Gen R} (d d' : Dyn R G) p l,
  get_params (d_model d) = Some p -> (forall c, In c l -> 0 < k_dt c <= 1/100) -> dyn_run d l = Some d' ->
  dyn_rng d' = rng_skip G (6 * noisy_calls l) (dyn_rng d).
Proof. exact @draws. Qed.
Print Assumptions C77_draws.

Theorem C77_random_walk :
  forall {G : Gen R} n (D : nat -> Dyn R G) act dt ext p,
  vehicle n (D O) act p -> rotors_off n p (d_state (D O)) act -> p_drag p = 0 ->
  0 < dt <= 1/100 -> noisy_flight D act dt ext ->
  forall k a, let time := INR k * dt in
    pr a (s_vel (d_state (D k))) = pr a (s_vel (d_state (D O))) + (pr a (p_grav p) + pr a ext) / p_mass p * time
      + sqrt (p_fnoise p * dt) / p_mass p * walk_sum G (dyn_rng (D O)) a k.
Proof. exact @noisy_walk. Qed.
Print Assumptions C77_random_walk.

Example C77_case : exists D : nat -> Dyn R gen1, D O = ex_dyn 1 2 ex_grav 0 3 5 (mkV 1 2 3) (mkV 0 0 1) off4 /\
  vehicle 4 (D O) off4 (ex_params 1 2 ex_grav 0 3 5) /\ rotors_off 4 (ex_params 1 2 ex_grav 0 3 5) (d_state (D O)) off4 /\
  p_drag (ex_params 1 2 ex_grav 0 3 5) = 0 /\ p_fnoise (ex_params 1 2 ex_grav 0 3 5) = 3 /\
  det3 (p_inertia (ex_params 1 2 ex_grav 0 3 5)) <> 0 /\ noisy_flight D off4 (1/100) (mkV 0 0 0).
Proof. exact gl_noisy. Qed.
