(** Opening the throttle: a vehicle whose rotors all speed up and one with a rotor that slows down. *)

From Coq Require Import ZArith List Bool Lia Reals Lra.
From Flocq Require Import Core BinarySingleNaN.
From Verif Require Import Scalar Float64 LinAlg MUtils MModel MPid MControl MCtlRun SpecDyn SpecRun SpecPid SpecCtl SpecRound SpecNumber SpecPidNum SpecCtlNum SpecThrottle
  PBase PMix PCtlMix PThrottle ECtl ECtlNum.
Import ListNotations.
Local Open Scope R_scope.

Lemma throttle_case dt :
  let w1 := get_desired_motor_angular_velocity (ctl_step c_ex (CAcro (mkV 1 0 0) 4 (mkV 1 2 3) dt)) in
  let w2 := get_desired_motor_angular_velocity (ctl_step c_ex (CAcro (mkV 1 0 0) 16 (mkV 1 2 3) dt)) in
  List.length w1 = 4%nat /\ Forall2 (fun u v => sq_signed v = sq_signed u + 3) w1 w2 /\ Forall2 Rlt w1 w2.
Proof.
  cbv zeta. destruct c_ex_inverse as [I1 I2].
  destruct (throttle_x 1 1 1 1 0 100 (1/10) 0 inv_ex c_ex (mkV 1 0 0) (mkV 1 2 3) dt 4 16 ltac:(lra) ltac:(lra) ltac:(lra) ltac:(lra) I1 I2) as [S F].
  split; [reflexivity|]. split; [|apply F; lra]. unfold shares in S. set (w1 := get_desired_motor_angular_velocity _) in *. clearbody w1.
  clear F. induction S as [|u v l1 l2 A S IH]; constructor; [lra|exact IH].
Qed.

(** Four rotors on one side of the centre of mass. *)
Definition skew_motor d px py : Motor R := mkMotor d 1 1 mI (mkV px py 0) 0 100 (1/10) 0.
Definition skew : list (Motor R) := [skew_motor 1 1 0; skew_motor 1 1 1; skew_motor 1 0 (-1); skew_motor (-1) 0 0].
Definition skew_inv : list (V3 R * V3 R) := match quad_inverse skew with Some i => i | None => [] end.
Definition c_skew : Ctl R := ctl_new 4 (mkCP ap_ex (mkIP mI skew_inv cpx_pid) cpx_pid cpx_pid cpx_pid).
Notation skew_rows := (mixer_rows4 (mixer6_col (skew_motor 1 1 0)) (mixer6_col (skew_motor 1 1 1)) (mixer6_col (skew_motor 1 0 (-1))) (mixer6_col (skew_motor (-1) 0 0))).
Lemma skew_det_val : m4det skew_rows = -2.
Proof. unfold skew_motor. rewrite !flat_col. det_solve. lra. Qed.
Lemma skew_det : m4det skew_rows <> 0.
Proof. rewrite skew_det_val. lra. Qed.
Lemma skew_cof : v4a (m4cof (r4b skew_rows) (r4c skew_rows) (r4d skew_rows)) = 1.
Proof. unfold skew_motor. rewrite !flat_col. det_solve. lra. Qed.
Lemma inv_head (m : M4 R) : v4a (r4a (m4inv m)) = v4a (m4cof (r4b m) (r4c m) (r4d m)) / m4det m.
Proof. reflexivity. Qed.
Lemma skew_head : exists r l, skew_inv = r :: l /\ vz (fst r) = -1/2.
Proof.
  unfold skew_inv, quad_inverse, skew. rewrite mixer_cols4. unfold quad_mixer_inverse. cbv zeta.
  eexists. eexists. split; [reflexivity|]. cbn [fst vz]. rewrite inv_head, skew_cof, skew_det_val. lra.
Qed.
Lemma root_lt x y : x < y -> sqrtks x < sqrtks y.
Proof.
  intros H. destruct (Rle_lt_dec (sqrtks y) (sqrtks x)) as [K|K]; [|exact K]. exfalso.
  assert (E := sq_root x). assert (F := sq_root y).
  destruct (Req_dec (sqrtks x) (sqrtks y)) as [Q|Q]; [rewrite Q in E; lra|].
  assert (N : sqrtks x <= sqrtks y) by (apply root_le; lra). lra.
Qed.
Lemma skew_refuted : exists (ms : list (Motor R)) inv (c : Ctl R) w des dt t1 t2 u v l1 l2,
  (forall th tq, exists ws, List.length ws = 4%nat /\ rotor_force ms ws AZ = th /\ forall a, rotor_torque ms ws [0; 0; 0; 0] a = pr a tq) /\
  quad_inverse ms = Some inv /\ CtlReached 4 c /\ in_minv (ct_indi c) = inv /\ t1 < t2 /\
  get_desired_motor_angular_velocity (ctl_step c (CAcro w t1 des dt)) = u :: l1 /\
  get_desired_motor_angular_velocity (ctl_step c (CAcro w t2 des dt)) = v :: l2 /\ v < u.
Proof.
  destruct skew_head as (r & l & E & V). destruct (acro_motors c_skew v0 v0 (1/100)) as [tq Q].
  assert (M : in_minv (ct_indi c_skew) = r :: l) by (rewrite <- E; reflexivity). rewrite M in Q. cbn [map] in Q.
  exists skew, skew_inv, c_skew, v0, v0, (1/100), 0, 1. do 4 eexists.
  split; [|split; [reflexivity|split; [eexists; exists []; reflexivity|split; [reflexivity|split; [lra|split; [apply Q|split; [apply Q|]]]]]]].
  - intros th tq'. eexists. exact (quad_wrench _ _ _ _ th tq' _ skew_det eq_refl).
  - apply root_lt. unfold row6. rewrite V. cbn [vx vy vz]. unR. lra.
Qed.

(** Double precision: the quadrotor of the other controller theorems. *)
Section Case64.
#[local] Instance FO : Ops b64 := F64Ops flat_libm.
Definition row_posb (r : V3 b64 * V3 b64) : bool := is_finite (vz (fst r)) && Bleb (b64_ofZ 0) (vz (fst r)).
Lemma row_posb_ok r : row_posb r = true -> 0 <= val (vz (fst r)).
Proof.
  unfold row_posb. rewrite andb_true_iff. intros [F A]. rewrite Bleb_correct in A by (exact F || reflexivity).
  destruct (Rle_bool_spec (B2R (b64_ofZ 0)) (B2R (vz (fst r)))) as [B|]; [|discriminate]. exact B.
Qed.
Definition ltb2 (a b : list b64) : bool := forallb (fun p => Bltb (fst p) (snd p)) (combine a b).
Lemma throttle64_case : trig_range flat_libm /\ sane_ctl k_ctl /\ Forall sane_ctl_op k_ops /\
  Forall (fun r => 0 <= val (vz (fst r))) (in_minv (ct_indi (ctl_run (ctl_new 4 k_ctl) k_ops))) /\
  let w t := get_desired_motor_angular_velocity (ctl_step (ctl_run (ctl_new 4 k_ctl) k_ops) (CAcro v0 t (mkV (lit 1 5) zero zero) (lit 1 100))) in
  List.length (w (ofZ 3)) = 4%nat /\ ltb2 (w (ofZ 3)) (w (ofZ 4)) = true.
Proof.
  split; [exact flat_trig|]. split; [exact k_ctl_ok|]. split; [exact k_ops_ok|]. split; [|cbv zeta; split; vm_compute; reflexivity].
  assert (E : forallb row_posb (in_minv (ct_indi (ctl_run (ctl_new 4 k_ctl) k_ops))) = true) by (vm_compute; reflexivity).
  apply Forall_forall. intros r Hr. apply row_posb_ok. exact (proj1 (forallb_forall _ _) E r Hr).
Qed.
End Case64.
