(** Property theorems: whole motions (headings, ballistic flight, spinning, drag). *)

From Coq Require Import ZArith List Bool Reals.
From Verif Require Import Scalar LinAlg MUtils MModel MDynamics SpecDyn SpecRun SpecMix SpecMotion
  EBase PMotion PGlide EMotion.
Import ListNotations.
Local Open Scope R_scope.

(** ** C70 *)
Theorem C70_heading_without_drag :
  forall {G : Gen R} (d : Dyn R G) p r (l : list (Call R)),
  get_params (d_model d) = Some p -> unitq (s_ori (d_state d)) -> p_drag p = 0 ->
  unitq r -> turn r (p_grav p) = p_grav p -> (forall c, In c l -> k_noise c = false) ->
  both (fun a b => d_state b = turned r (d_state a))
    (dyn_run d l) (dyn_run (dyn_set_state d (turned r (d_state d))) (map (turned_call r) l)).
Proof. exact @isotropic. Qed.
Print Assumptions C70_heading_without_drag.

Theorem C70_quarter_turn :
  forall {G : Gen R} (d : Dyn R G) p (l : list (Call R)),
  get_params (d_model d) = Some p -> unitq (s_ori (d_state d)) ->
  vx (p_grav p) = 0 -> vy (p_grav p) = 0 -> (forall c, In c l -> k_noise c = false) ->
  both (fun a b => d_state b = turned quarter (d_state a))
    (dyn_run d l) (dyn_run (dyn_set_state d (turned quarter (d_state d))) (map (turned_call quarter) l)).
Proof. exact @quarter_turn. Qed.
Print Assumptions C70_quarter_turn.

Theorem C70_heading_refuted :
  exists (d d1 d2 : Dyn R gen1) act p r dt,
    vehicle 4 d act p /\ unitq (s_ori (d_state d)) /\ unitq r /\ turn r (p_grav p) = p_grav p /\
    process d act dt (mkV 0 0 0) false = Ok d1 /\
    process (dyn_set_state d (turned r (d_state d))) act dt (turn r (mkV 0 0 0)) false = Ok d2 /\
    s_vel (d_state d2) <> turn r (s_vel (d_state d1)).
Proof. exact heading_refuted. Qed.
Print Assumptions C70_heading_refuted.

Example C70_case :
  get_params (d_model (gl_dyn ex_grav 0 (mkV 1 2 3) (mkV 1 0 2))) = Some (gl_params ex_grav 0) /\
  p_drag (gl_params ex_grav 0) = 0 /\ unitq r7 /\ turn r7 ex_grav = ex_grav /\
  turn r7 (mkV 1 2 3) <> mkV 1 2 3 /\
  exists d', dyn_run (gl_dyn ex_grav 0 (mkV 1 2 3) (mkV 1 0 2)) [mkCall [1;2;3;4] (1/100) (mkV 0 1 0) false; mkCall off4 (1/200) (mkV 0 0 0) false] = Some d'.
Proof. exact gl_turned. Qed.

(** ** C71 *)
Theorem C71_constant_force :
  forall {G : Gen R} n (D : nat -> Dyn R G) act dt ext p F,
  vehicle n (D O) act p -> 0 < dt <= 1/100 -> steady_flight D act dt ext ->
  (forall k, s_force (d_state (D (S k))) = F) ->
  forall k a,
    pr a (s_vel (d_state (D k))) = pr a (s_vel (d_state (D O))) + INR k * dt * (pr a F / p_mass p) /\
    pr a (s_pos (d_state (D k))) = pr a (s_pos (d_state (D O))) + INR k * dt * pr a (s_vel (d_state (D O)))
      + INR k * (INR k - 1) / 2 * dt ^ 2 * (pr a F / p_mass p).
Proof. exact @constant_force. Qed.
Print Assumptions C71_constant_force.

Theorem C71_ballistic :
  forall {G : Gen R} n (D : nat -> Dyn R G) act dt ext p,
  vehicle n (D O) act p -> rotors_off n p (d_state (D O)) act -> p_drag p = 0 ->
  0 < dt <= 1/100 -> steady_flight D act dt ext ->
  forall k a,
    let acc := (pr a (p_grav p) + pr a ext) / p_mass p in let time := INR k * dt in
    let x0 := pr a (s_pos (d_state (D O))) in let v0 := pr a (s_vel (d_state (D O))) in
    pr a (s_vel (d_state (D k))) = v0 + acc * time /\
    pr a (s_pos (d_state (D k))) = x0 + v0 * time + acc * time ^ 2 / 2 - acc * time * dt / 2.
Proof. exact @ballistic. Qed.
Print Assumptions C71_ballistic.

Example C71_case : exists D : nat -> Dyn R gen1, D O = gl_dyn ex_grav 0 (mkV 0 0 0) (mkV 1 2 3) /\
  vehicle 4 (D O) off4 (gl_params ex_grav 0) /\ rotors_off 4 (gl_params ex_grav 0) (d_state (D O)) off4 /\
  spins_freely (gl_params ex_grav 0) (s_angvel (d_state (D O))) /\ unitq (s_ori (d_state (D O))) /\
  s_angvel (d_state (D O)) <> mkV 0 0 0 /\ steady_flight D off4 (1/100) (mkV 0 0 0).
Proof. exact gl_spinning. Qed.

(** ** C72 *)
Theorem C72_spin :
  forall {G : Gen R} n (D : nat -> Dyn R G) act dt ext p,
  vehicle n (D O) act p -> rotors_off n p (d_state (D O)) act -> spins_freely p (s_angvel (d_state (D O))) ->
  unitq (s_ori (d_state (D O))) -> s_angvel (d_state (D O)) <> mkV 0 0 0 ->
  0 < dt <= 1/100 -> steady_flight D act dt ext ->
  forall k, let w := s_angvel (d_state (D O)) in
    s_angvel (d_state (D k)) = w /\
    s_ori (d_state (D k)) = turnq (s_ori (d_state (D O))) (about_axis w (INR k * (2 * atan (len3 w * dt / 2)))).
Proof. exact @spin. Qed.
Print Assumptions C72_spin.

Theorem C72_spin_lag : forall w dt, 0 <= len3 w * dt ->
  0 <= len3 w * dt - 2 * atan (len3 w * dt / 2) <= (len3 w * dt) ^ 3 / 12.
Proof. exact spin_lag. Qed.
Print Assumptions C72_spin_lag.

Theorem C72_spin_refuted :
  exists (D : nat -> Dyn R gen1) act dt p,
    vehicle 4 (D O) act p /\ rotors_off 4 p (d_state (D O)) act /\ spins_freely p (s_angvel (d_state (D O))) /\
    unitq (s_ori (d_state (D O))) /\ 0 < dt <= 1/100 /\ steady_flight D act dt (mkV 0 0 0) /\
    let w := s_angvel (d_state (D O)) in
    exists a b, rot_entry (s_ori (d_state (D 1%nat))) a b <>
                rot_entry (turnq (s_ori (d_state (D O))) (about_axis w (len3 w * dt))) a b.
Proof. exact spin_refuted. Qed.
Print Assumptions C72_spin_refuted.

Example C72_case : exists D : nat -> Dyn R gen1, D O = gl_dyn ex_grav 0 (mkV 0 0 0) (mkV 1 2 3) /\
  vehicle 4 (D O) off4 (gl_params ex_grav 0) /\ rotors_off 4 (gl_params ex_grav 0) (d_state (D O)) off4 /\
  spins_freely (gl_params ex_grav 0) (s_angvel (d_state (D O))) /\ unitq (s_ori (d_state (D O))) /\
  s_angvel (d_state (D O)) <> mkV 0 0 0 /\ steady_flight D off4 (1/100) (mkV 0 0 0).
Proof. exact gl_spinning. Qed.

(** ** C73 *)
Theorem C73_drag_slows :
  forall {G : Gen R} n (D : nat -> Dyn R G) act dt ext p a,
  vehicle n (D O) act p -> rotors_off n p (d_state (D O)) act -> 0 < dt <= 1/100 -> steady_flight D act dt ext ->
  0 < p_mass p -> 0 <= p_drag p -> pr a (p_grav p) + pr a ext = 0 ->
  p_drag p * Rabs (pr a (s_vel (d_state (D O)))) * dt <= p_mass p ->
  forall k, let v := fun j => pr a (s_vel (d_state (D j))) in
    Rabs (v (S k)) <= Rabs (v k) /\ 0 <= v k * v O /\
    Rabs (v k) * (1 + p_drag p / p_mass p * Rabs (v O) * (INR k * dt)) <= Rabs (v O).
Proof. exact @drag_slows. Qed.
Print Assumptions C73_drag_slows.

Theorem C73_runs_away :
  forall {G : Gen R} n (D : nat -> Dyn R G) act dt ext p a,
  vehicle n (D O) act p -> rotors_off n p (d_state (D O)) act -> 0 < dt <= 1/100 -> steady_flight D act dt ext ->
  0 < p_mass p -> pr a (p_grav p) + pr a ext = 0 ->
  2 * p_mass p < p_drag p * Rabs (pr a (s_vel (d_state (D O)))) * dt ->
  forall k, let v := fun j => pr a (s_vel (d_state (D j))) in
    Rabs (v O) * (p_drag p / p_mass p * Rabs (v O) * dt - 1) ^ k <= Rabs (v k) /\ v k * v (S k) < 0.
Proof. exact @drag_runs_away. Qed.
Print Assumptions C73_runs_away.

Theorem C73_drag_slows_refuted :
  exists (D : nat -> Dyn R gen1) act dt p,
    vehicle 4 (D O) act p /\ rotors_off 4 p (d_state (D O)) act /\ 0 < dt <= 1/100 /\ steady_flight D act dt (mkV 0 0 0) /\
    0 < p_mass p /\ 0 < p_drag p /\ p_grav p = mkV 0 0 0 /\
    forall k, 600 * 2 ^ k <= Rabs (vx (s_vel (d_state (D k)))) /\ vx (s_vel (d_state (D k))) * vx (s_vel (d_state (D (S k)))) < 0.
Proof. exact drag_refuted. Qed.
Print Assumptions C73_drag_slows_refuted.

Example C73_case : exists D : nat -> Dyn R gen1, D O = gl_dyn ex_grav 1 (mkV 3 0 0) (mkV 0 0 0) /\
  vehicle 4 (D O) off4 (gl_params ex_grav 1) /\ rotors_off 4 (gl_params ex_grav 1) (d_state (D O)) off4 /\
  steady_flight D off4 (1/100) (mkV 0 0 0) /\ 1 * Rabs (vx (s_vel (d_state (D O)))) * (1/100) <= 2.
Proof. exact gl_slows. Qed.

(** ** C74 *)
Theorem C74_terminal_speed :
  forall {G : Gen R} n (D : nat -> Dyn R G) act dt ext p a,
  vehicle n (D O) act p -> rotors_off n p (d_state (D O)) act -> 0 < dt <= 1/100 -> steady_flight D act dt ext ->
  0 < p_mass p -> 0 < p_drag p -> pr a (p_grav p) + pr a ext < 0 ->
  let u := fun j => - pr a (s_vel (d_state (D j))) in
  let vt := sqrt (- (pr a (p_grav p) + pr a ext) / p_drag p) in
  0 <= u O -> p_drag p * (vt + Rmax (u O) vt) * dt <= p_mass p ->
  forall k, 0 <= (u k - vt) * (u O - vt) /\ Rabs (u k - vt) <= (1 - p_drag p * vt * dt / p_mass p) ^ k * Rabs (u O - vt).
Proof. exact @terminal_speed. Qed.
Print Assumptions C74_terminal_speed.

Theorem C74_terminal_limit :
  forall {G : Gen R} n (D : nat -> Dyn R G) act dt ext p a,
  vehicle n (D O) act p -> rotors_off n p (d_state (D O)) act -> 0 < dt <= 1/100 -> steady_flight D act dt ext ->
  0 < p_mass p -> 0 < p_drag p -> pr a (p_grav p) + pr a ext < 0 ->
  let u := fun j => - pr a (s_vel (d_state (D j))) in
  let vt := sqrt (- (pr a (p_grav p) + pr a ext) / p_drag p) in
  0 <= u O -> p_drag p * (vt + Rmax (u O) vt) * dt <= p_mass p -> Un_cv u vt.
Proof. exact @terminal_limit. Qed.
Print Assumptions C74_terminal_limit.

Example C74_case : exists D : nat -> Dyn R gen1, D O = gl_dyn ex_grav 1 (mkV 0 0 (-1)) (mkV 0 0 0) /\
  vehicle 4 (D O) off4 (gl_params ex_grav 1) /\ rotors_off 4 (gl_params ex_grav 1) (d_state (D O)) off4 /\
  steady_flight D off4 (1/100) (mkV 0 0 0) /\
  0 <= - vz (s_vel (d_state (D O))) /\
  let vt := sqrt (- (vz ex_grav + 0) / 1) in 1 * (vt + Rmax (- vz (s_vel (d_state (D O)))) vt) * (1/100) <= 2.
Proof. exact gl_terminal. Qed.
