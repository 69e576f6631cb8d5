(** C97: the errors of the odometry grow no faster than those of the sensors allow. *)

From Coq Require Import ZArith List Bool Reals.
From Verif Require Import Scalar LinAlg MUtils MModel MDynamics MPid MControl MImu MSim
  SpecDyn SpecRun SpecImu SpecSim SpecNav SpecDrift PBase PDrift PDriftSim EBase ESim ENav EDrift.
Import ListNotations.
Local Open Scope R_scope.

Theorem C97_attitude : forall p l l' eg ea h A, 0 <= odp_alpha p <= 1 -> unitq (odp_ori p) -> 0 <= eg -> 0 <= ea -> 0 <= A -> 0 <= h ->
  Forall2 (close eg ea) l l' -> Forall (paced h A) l ->
  let o := odom_run (odom_new p) (odom_updates l) in let o' := odom_run (odom_new p) (odom_updates l') in
  apartq (odom_get_orientation o) (odom_get_orientation o') <= elapsed l * eg / 2 /\
  apart (odom_get_angular_velocity o) (odom_get_angular_velocity o') <= eg /\
  forall v, apart (vec_of (to_world (odom_get_orientation o) v)) (vec_of (to_world (odom_get_orientation o') v)) <= elapsed l * eg * len3 v.
Proof. exact drift_attitude. Qed.
Print Assumptions C97_attitude.

Theorem C97_place : forall p l l' eg ea h A, 0 <= odp_alpha p <= 1 -> unitq (odp_ori p) -> 0 <= eg -> 0 <= ea -> 0 <= A -> 0 <= h ->
  Forall2 (close eg ea) l l' -> Forall (paced h A) l ->
  let o := odom_run (odom_new p) (odom_updates l) in let o' := odom_run (odom_new p) (odom_updates l') in
  apart (odom_get_linear_velocity o) (odom_get_linear_velocity o') <= speed_error eg ea A (elapsed l) /\
  apart (odom_get_position o) (odom_get_position o') <= place_error eg ea A h (elapsed l).
Proof. exact drift_place. Qed.
Print Assumptions C97_place.

Theorem C97_sharp : forall ea dt k, 0 <= ea -> 0 <= dt ->
  let l := repeat (along ea dt) k in let l' := repeat (along 0 dt) k in
  Forall2 (close 0 ea) l l' /\ Forall (paced dt ea) l /\ elapsed l = INR k * dt /\
  let o := odom_run (odom_new odp0) (odom_updates l) in let o' := odom_run (odom_new odp0) (odom_updates l') in
  apart (odom_get_linear_velocity o) (odom_get_linear_velocity o') = speed_error 0 ea ea (INR k * dt) /\
  apart (odom_get_position o) (odom_get_position o') = place_error 0 ea ea dt (INR k * dt).
Proof. exact drift_sharp. Qed.
Print Assumptions C97_sharp.

Theorem C97_flight : forall (G H : Gen R) n sp dt eg ea F rounds (s : Sim R G H), 0 < dt <= 1/100 -> real_sensors sp ->
  check_params (sp_model sp) = true -> p_mass (sp_model sp) <> 0 -> 0 <= eg -> 0 <= ea -> 0 <= F ->
  Forall (Forall piloting) rounds -> Forall (Forall without_floor) rounds ->
  (forall r1 r2 (s1 : Sim R G H), rounds = r1 ++ r2 -> r1 <> [] -> sim_after n sp (flight dt r1) = Some s1 -> sensed eg ea F s1) ->
  sim_after n sp (flight dt rounds) = Some s ->
  let m := p_mass (sp_model sp) in let o := sm_odom s in let t := INR (length rounds) * dt in
  let x := s_pos (sim_state s) in let v := s_vel (sim_state s) in let x0 := s_pos (sp_state sp) in let v0 := s_vel (sp_state sp) in
  (forall s', sim_step n s (SDynamics dt) = Ok s' -> apartq (odom_get_orientation o) (s_ori (sim_state s')) <= t * eg / 2) /\
  apart (odom_get_linear_velocity o) (vec_of (fun a => m * (pr a v - pr a v0))) <= speed_error eg ea F t /\
  apart (odom_get_position o) (vec_of (fun a => m * (pr a x + pr a v * dt - pr a x0 - INR (S (length rounds)) * pr a v0 * dt))) <= place_error eg ea F dt t.
Proof. intros G H. exact (flight_drift (G := G) (H := H)). Qed.
Print Assumptions C97_flight.

Example C97_case_flight : forall G : Gen R, exists s : Sim R G gen_ones, let rounds := [[SRefVel (mkV 1 0 0)]] in
  real_sensors sp_noisy /\ check_params (sp_model sp_noisy) = true /\ p_mass (sp_model sp_noisy) = 2 /\
  Forall (Forall (piloting (G := G) (H := gen_ones))) rounds /\ Forall (Forall (without_floor (G := G) (H := gen_ones))) rounds /\
  (forall r1 r2 (s1 : Sim R G gen_ones), rounds = r1 ++ r2 -> r1 <> [] -> sim_after 4 sp_noisy (flight (1/100) r1) = Some s1 -> sensed 4 4 3 s1) /\
  sim_after 4 sp_noisy (flight (1/100) rounds) = Some s /\
  2 * vz (s_vel (sim_state s)) = -3/100 /\ vz (odom_get_linear_velocity (sm_odom s)) = -1/100.
Proof. intros G. exact (drift_case (G := G)). Qed.
Example C97_case_turn : unitq (odp_ori odp0) /\
  Forall2 (close 1 0) [(mkV 1 0 0, (mkV 0 0 0, 2)); (mkV 0 1 0, (mkV 0 0 0, 1))] [(mkV 0 0 0, (mkV 0 0 0, 2)); (mkV 0 0 0, (mkV 0 0 0, 1))] /\
  elapsed [(mkV 1 0 0, (mkV 0 0 0, 2)); (mkV 0 1 0, (mkV 0 0 0, 1))] = 3.
Proof. exact drift_turn. Qed.
