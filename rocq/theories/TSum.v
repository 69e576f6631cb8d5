(** Property theorems: rounding errors of the integration add up no faster than linearly. *)

From Coq Require Import ZArith Bool List Reals.
From Flocq Require Import Core BinarySingleNaN.
From Verif Require Import Scalar Float64 LinAlg MUtils MModel MDynamics MImu SpecDyn SpecRun SpecRound SpecSum PSum EBase ERound EImuNum ESum.
Import ListNotations.
Local Open Scope R_scope.

(** ** C106 *)
Theorem C106_position :
  forall L, let O := F64Ops L in forall (G : Gen b64) a l (d d' : Dyn b64 G) P V D, 0 <= D -> Forall (short_call L D) l ->
  seen L (fun s => within P (pr a (s_pos s)) /\ within V (pr a (s_vel s))) d l -> dyn_run d l = Some d' ->
  Rabs (val (pr a (s_pos (d_state d'))) - (val (pr a (s_pos (d_state d))) + tally L (fun s _ => pr a (s_vel s)) d l)) <= INR (length l) * rounding P (V * D).
Proof. exact (fun L G => @position_sum L G). Qed.
Print Assumptions C106_position.

Theorem C106_velocity :
  forall L, let O := F64Ops L in forall (G : Gen b64) a l (d d' : Dyn b64 G) V A D, 0 <= D -> Forall (short_call L D) l ->
  seen L (fun s => within V (pr a (s_vel s)) /\ within A (pr a (s_linacc s))) d l -> dyn_run d l = Some d' ->
  Rabs (val (pr a (s_vel (d_state d'))) - (val (pr a (s_vel (d_state d))) + tally L (fun _ s => pr a (s_linacc s)) d l)) <= INR (length l) * rounding V (A * D).
Proof. exact (fun L G => @velocity_sum L G). Qed.
Print Assumptions C106_velocity.

Theorem C106_rates :
  forall L, let O := F64Ops L in forall (G : Gen b64) a l (d d' : Dyn b64 G) W A D, 0 <= D -> Forall (short_call L D) l ->
  seen L (fun s => within W (pr a (s_angvel s)) /\ within A (pr a (s_angacc s))) d l -> dyn_run d l = Some d' ->
  Rabs (val (pr a (s_angvel (d_state d'))) - (val (pr a (s_angvel (d_state d))) + tally L (fun _ s => pr a (s_angacc s)) d l)) <= INR (length l) * rounding W (A * D).
Proof. exact (fun L G => @rate_sum L G). Qed.
Print Assumptions C106_rates.

Theorem C106_odometry :
  forall L, let O := F64Ops L in forall a l o P V A D, Forall (fun c => Rabs (val (snd c)) <= D) l ->
  odom_seen L (fun o => within P (pr a (odom_get_position o)) /\ within V (pr a (odom_get_linear_velocity o)) /\ within A (pr a (odom_get_linear_acceleration o))) o l ->
  let o' := odom_run o (odom_calls l) in
  Rabs (val (pr a (odom_get_position o')) - (val (pr a (odom_get_position o)) + odom_tally L (fun o => pr a (odom_get_linear_velocity o)) o l)) <= INR (length l) * rounding P (V * D) /\
  Rabs (val (pr a (odom_get_linear_velocity o')) - (val (pr a (odom_get_linear_velocity o)) + odom_tally L (fun o => pr a (odom_get_linear_acceleration o)) o l)) <= INR (length l) * rounding V (A * D).
Proof. exact (fun L => odometry_sums L). Qed.
Print Assumptions C106_odometry.

(** The sum is not met exactly: far from the origin a slow vehicle stays where it is. *)
Theorem C106_exact_refuted :
  forall L, let O := F64Ops L in exists d d' : Dyn b64 gen1, far_dyn L = Some d /\ process d (repeat zero 4) (ms L) v0 false = Ok d' /\
  0 < val (vx (s_vel (d_state d))) * val (ms L) /\ val (vx (s_pos (d_state d'))) = val (vx (s_pos (d_state d))).
Proof. exact far_case. Qed.
Print Assumptions C106_exact_refuted.

Example C106_case : forall L, let O := F64Ops L in
  exists d d', r_dyn L = Some d /\ Forall (short_call L (1/64)) (r_calls L) /\
  seen L (fun s => within 1 (pr AZ (s_pos s)) /\ within 1 (pr AZ (s_vel s))) d (r_calls L) /\ dyn_run d (r_calls L) = Some d' /\ Bltb (vz (s_pos (d_state d'))) (b64_ofZ 0) = true.
Proof. exact fall_case. Qed.

Example C106_odometry_case : forall L, let O := F64Ops L in let o := odom_new (odn_p L) in
  Forall (fun c => Rabs (val (snd c)) <= 1/64) (odom_l L) /\
  odom_seen L (fun o => within 1 (pr AX (odom_get_position o)) /\ within 1 (pr AX (odom_get_linear_velocity o)) /\ within 1 (pr AX (odom_get_linear_acceleration o))) o (odom_l L) /\
  Bltb (b64_ofZ 0) (vx (odom_get_position (odom_run o (odom_calls (odom_l L))))) = true.
Proof. exact odom_case. Qed.
