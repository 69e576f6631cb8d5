(** Property theorems: sensors and odometry fed with sensible numbers give numbers. *)

From Coq Require Import ZArith Bool List Reals.
From Flocq Require Import Core BinarySingleNaN.
From Verif Require Import Scalar Float64 LinAlg MUtils MImu SpecDyn SpecRound SpecNumber SpecPidNum SpecImuNum PImuNum EBase EImuNum.
Import ListNotations.
Local Open Scope R_scope.

(** ** C103 *)
Theorem C103_imu :
  forall L, let O := F64Ops L in
  forall (G : Gen b64) p ops, reasonable_gen G -> sane_imu p -> Forall sane_imu_op ops -> let i := imu_run (imu_new p : Imu b64 G) ops in
  upto3 450 (fst (imu_get_measurement i)) /\ upto3 450 (snd (imu_get_measurement i)) /\ upto3 450 (fst (imu_get_bias i)) /\ upto3 450 (snd (imu_get_bias i)).
Proof. exact (fun L G => @imu_numbers L G). Qed.
Print Assumptions C103_imu.

Theorem C103_odometry :
  forall L, let O := F64Ops L in
  forall p ops, weight (odp_alpha p) -> unit_within (1/2) (odp_ori p) -> Forall sane_odom_op ops -> let o := odom_run (odom_new p) ops in
  upto3 600 (odom_get_position o) /\ upto3 600 (odom_get_linear_velocity o) /\ upto3 600 (odom_get_angular_velocity o) /\ upto3 600 (odom_get_linear_acceleration o) /\
  unit_within (1/2) (odom_get_orientation o).
Proof. exact odom_numbers. Qed.
Print Assumptions C103_odometry.

Example C103_case : forall L, let O := F64Ops L in
  reasonable_gen gen1 /\ sane_imu (imn_p L) /\ Forall sane_imu_op (imn_ops L) /\
  Beqb (vx (fst (imu_get_measurement (imu_run (imu_new (imn_p L) : Imu b64 gen1) (imn_ops L))))) (b64_ofZ 0) = false /\
  Beqb (vx (fst (imu_get_bias (imu_run (imu_new (imn_p L) : Imu b64 gen1) (imn_ops L))))) (b64_ofZ 0) = false.
Proof. exact imn_case. Qed.
Example C103_case_odometry : forall L, let O := F64Ops L in
  weight (odp_alpha (odn_p L)) /\ unit_within (1/2) (odp_ori (odn_p L)) /\ Forall sane_odom_op (odn_ops L) /\
  Beqb (vx (odom_get_position (odom_run (odom_new (odn_p L)) (odn_ops L)))) (b64_ofZ 0) = false /\
  Beqb (qx (odom_get_orientation (odom_run (odom_new (odn_p L)) (odn_ops L)))) (b64_ofZ 0) = false.
Proof. exact odn_case. Qed.
