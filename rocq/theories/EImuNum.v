(** A concrete sensor and odometry in binary64. *)

From Coq Require Import ZArith Bool List Reals Lra Lia.
From Flocq Require Import Core BinarySingleNaN.
From Verif Require Import Scalar Float64 LinAlg MUtils MImu SpecDyn SpecRound SpecNumber SpecPidNum SpecImuNum PBase PFloat PRound PQuat64 PUnit64 PUp PNumber PExact PPidNum PImuNum
  EBase ERound ENumber EExact EPidNum.
Import ListNotations.
Local Open Scope R_scope.

Section Cases.
Variable L : Libm.
#[local] Instance FO : Ops b64 := F64Ops L.
Definition tilted : Quat b64 := mkQ (lit 8 10) zero zero (lit 6 10).
Lemma tilted_unit : unit_within (1/2) tilted.
Proof.
  destruct (x_vals L) as [[A1 A2] [C1 C2]]. split; [split; [exact A1|split; [reflexivity|split; [reflexivity|exact C1]]]|].
  unfold sqlen, tilted. cbn [qw qx qy qz]. change (val zero) with 0. assert (A3 : 79/100 <= val (lit 8 10) <= 81/100) by exact A2. assert (C3 : 59/100 <= val (lit 6 10) <= 61/100) by exact C2.
  apply Rabs_le. nra.
Qed.
Lemma densityb_ok x : uptob x && Bleb (b64_ofZ 0) x = true -> density x.
Proof. intros H. apply (awb_ok x H). Qed.
Definition imn_p : ImuParams b64 := mkIMP (lit 1 10) (lit 2 10) (lit 1 1000) (lit 1 300) tilted 7.
Definition imn_ops : list (ImuOp b64) :=
  [IUpdate (lit 1 100) (mkV (lit 1 3) (ofZ 4) (lit (-981) 100)) (mkV (lit 1 7) (lit (-1) 9) zero); IUpdate zero v0 v0; IVar (lit 1 20) (lit 1 30); IUpdate (lit 1 50) (mkV one one one) (mkV one zero one)].
Lemma imn_case : reasonable_gen gen1 /\ sane_imu imn_p /\ Forall sane_imu_op imn_ops /\
  Beqb (vx (fst (imu_get_measurement (imu_run (imu_new imn_p : Imu b64 gen1) imn_ops)))) (b64_ofZ 0) = false /\
  Beqb (vx (fst (imu_get_bias (imu_run (imu_new imn_p : Imu b64 gen1) imn_ops)))) (b64_ofZ 0) = false.
Proof.
  split; [exact (n_gen_ok L)|]. split.
  { split; [apply densityb_ok; vm_compute; reflexivity|]. split; [apply densityb_ok; vm_compute; reflexivity|]. split; [apply densityb_ok; vm_compute; reflexivity|]. split; [apply densityb_ok; vm_compute; reflexivity|exact tilted_unit]. }
  split; [|split; vm_compute; reflexivity]. unfold imn_ops.
  constructor; [split; [left; apply stepb_ok; vm_compute; reflexivity|split; apply upto3b_ok; vm_compute; reflexivity]|].
  constructor; [split; [right; split; [reflexivity|change (0 <= 0); lra]|split; apply upto3b_ok; vm_compute; reflexivity]|].
  constructor; [split; apply densityb_ok; vm_compute; reflexivity|].
  constructor; [|constructor]. split; [left; apply stepb_ok; vm_compute; reflexivity|split; apply upto3b_ok; vm_compute; reflexivity].
Qed.

Definition odn_p : OdomParams b64 := mkODP (lit 1 3) tilted.
Definition odn_ops : list (OdomOp b64) :=
  [OUpdate (mkV (lit 1 7) (lit (-1) 9) zero) (mkV (lit 1 3) (ofZ 4) (lit (-981) 100)) (lit 1 100); OUpdate (mkV one one (ofZ 1000)) (mkV one one one) (lit 1 3)].
Lemma unit_stepb dt : is_finite dt && Bltb (b64_ofZ 0) dt && Bleb dt (b64_ofZ 1) = true -> fin dt /\ 0 < val dt <= 1.
Proof.
  rewrite !andb_true_iff. intros [[F A] B]. split; [exact F|]. split; [apply pos_val; assumption|].
  rewrite Bleb_correct in B by (exact F || reflexivity). destruct (Rle_bool_spec (B2R dt) (B2R (b64_ofZ 1))) as [B'|]; [|discriminate].
  change (B2R (b64_ofZ 1)) with (val (b64_ofZ 1)) in B'. rewrite val_one in B'. exact B'.
Qed.
Lemma odn_case : weight (odp_alpha odn_p) /\ unit_within (1/2) (odp_ori odn_p) /\ Forall sane_odom_op odn_ops /\
  Beqb (vx (odom_get_position (odom_run (odom_new odn_p) odn_ops))) (b64_ofZ 0) = false /\ Beqb (qx (odom_get_orientation (odom_run (odom_new odn_p) odn_ops))) (b64_ofZ 0) = false.
Proof.
  split; [apply weightb_ok; vm_compute; reflexivity|]. split; [exact tilted_unit|]. split; [|split; vm_compute; reflexivity]. unfold odn_ops.
  constructor; [split; [apply upto3b_ok; vm_compute; reflexivity|split; [apply upto3b_ok; vm_compute; reflexivity|apply unit_stepb; vm_compute; reflexivity]]|].
  constructor; [|constructor]. split; [apply upto3b_ok; vm_compute; reflexivity|split; [apply upto3b_ok; vm_compute; reflexivity|apply unit_stepb; vm_compute; reflexivity]].
Qed.
End Cases.
