(** Concrete controllers in binary64. *)

From Coq Require Import ZArith Bool List Reals Lra Lia.
From Flocq Require Import Core BinarySingleNaN.
From Verif Require Import Scalar Float64 LinAlg MUtils MPid MPid1 SpecDyn SpecRound SpecNumber SpecPidNum PBase PFloat PRound PQuat64 PUnit64 PUp PNumber PExact PPidNum ERound ENumber.
Import ListNotations.
Local Open Scope R_scope.

Section Cases.
Variable L : Libm.
#[local] Instance FO : Ops b64 := F64Ops L.
Notation c3 x := (mkV x x x).

Definition weightb (x : b64) : bool := is_finite x && Bleb (b64_ofZ 0) x && Bleb x (b64_ofZ 1).
Lemma weightb_ok x : weightb x = true -> weight x.
Proof.
  unfold weightb. rewrite !andb_true_iff. intros [[F A] B]. split; [exact F|]. rewrite Bleb_correct in A, B by (exact F || reflexivity).
  destruct (Rle_bool_spec (B2R (b64_ofZ 0)) (B2R x)) as [A'|]; [|discriminate]. destruct (Rle_bool_spec (B2R x) (B2R (b64_ofZ 1))) as [B'|]; [|discriminate].
  change (B2R (b64_ofZ 0)) with 0 in A'. change (B2R (b64_ofZ 1)) with (val (b64_ofZ 1)) in B'. rewrite val_one in B'. unfold val. lra.
Qed.
Definition pairb (u l : b64) : bool := uptob u && uptob l && Bleb l (b64_ofZ 0) && Bleb (b64_ofZ 0) u.
Lemma pairb_ok u l : pairb u l = true -> limit_pair 64 u l.
Proof.
  unfold pairb. rewrite !andb_true_iff. intros [[[U V] A] B]. apply uptob_ok in U, V. split; [exact U|]. split; [exact V|].
  rewrite Bleb_correct in A, B by (apply U || apply V || reflexivity).
  destruct (Rle_bool_spec (B2R (b64_ofZ 0)) (B2R u)) as [A'|]; [|discriminate]. destruct (Rle_bool_spec (B2R l) (B2R (b64_ofZ 0))) as [B'|]; [|discriminate].
  change (B2R (b64_ofZ 0)) with 0 in A', B'. unfold val. lra.
Qed.
Definition stepb (x : b64) : bool := atleastb x && uptob x.
Lemma stepb_ok x : stepb x = true -> sane_step 64 x.
Proof. unfold stepb. rewrite andb_true_iff. intros [A B]. split; [apply atleastb_ok, A|apply uptob_ok, B]. Qed.

(** All terms in use, proportional saturation between -3 and 1.7, no anti-windup; two calls that saturate, a change of
    gains, a call with a derivative. *)
Definition num_pp : PidParams b64 := mkPP (c3 (lit 6 1)) (c3 (lit 1 10)) (c3 (lit 3 7)) v0 (c3 (lit 1 3)) true true (c3 (lit 17 10)) (c3 (ofZ (-3))).
Definition num_ops : list (PidOp b64) :=
  [OpCompute (lit 1 100) (mkV (lit 7 3) (lit 1 5) (ofZ (-2))); OpCompute (lit 1 50) (mkV (lit 1 9) (ofZ 4) (ofZ 1000000)); OpKi (c3 (lit 1 7));
   OpComputeD (lit 1 100) (c3 (lit 1 10)) (c3 (lit 2 10))].
Lemma num_settings : sane_settings 64 num_pp.
Proof.
  split; [apply upto3b_ok; vm_compute; reflexivity|]. split; [apply upto3b_ok; vm_compute; reflexivity|]. split; [apply upto3b_ok; vm_compute; reflexivity|].
  split; [apply upto3b_ok; vm_compute; reflexivity|]. split; [split; [|split]; apply weightb_ok; vm_compute; reflexivity|]. split; [|split]; apply pairb_ok; vm_compute; reflexivity.
Qed.
Lemma num_sane : Forall (sane_op 64 64) num_ops.
Proof.
  unfold num_ops. constructor; [split; [apply stepb_ok; vm_compute; reflexivity|apply upto3b_ok; vm_compute; reflexivity]|].
  constructor; [split; [apply stepb_ok; vm_compute; reflexivity|apply upto3b_ok; vm_compute; reflexivity]|].
  constructor; [apply upto3b_ok; vm_compute; reflexivity|].
  constructor; [|constructor]. split; [apply stepb_ok; vm_compute; reflexivity|split; apply upto3b_ok; vm_compute; reflexivity].
Qed.
Lemma num_case : sane_settings 64 num_pp /\ Forall (sane_op 64 64) num_ops /\
  Bltb (b64_ofZ 0) (vx (pid_output (pid_run (pid_new num_pp) num_ops))) = true /\ Beqb (vy (pid_int_part (pid_run (pid_new num_pp) num_ops))) (b64_ofZ 0) = false.
Proof. split; [exact num_settings|]. split; [exact num_sane|]. split; vm_compute; reflexivity. Qed.

Definition num1_pp : P1Params b64 := mkPP1 (lit 6 1) (lit 1 10) (lit 3 7) (lit 1 7) (lit 1 3) true (lit 17 10) (ofZ 1).
Definition num1_ops : list (Pid1Op b64) := [Op1Compute (lit 1 100) (lit 7 3); Op1Aw zero; Op1ComputeD (lit 1 50) (lit 1 9) (ofZ (-1))].
Lemma awb_ok x : uptob x && Bleb (b64_ofZ 0) x = true -> sane_aw 64 x.
Proof.
  rewrite andb_true_iff. intros [U A]. apply uptob_ok in U. split; [exact U|]. rewrite Bleb_correct in A by (apply U || reflexivity).
  destruct (Rle_bool_spec (B2R (b64_ofZ 0)) (B2R x)) as [A'|]; [exact A'|discriminate].
Qed.
Lemma num1_case : sane_settings1 64 num1_pp /\ Forall (sane_op1 64 64) num1_ops /\
  match pid1_run (pid1_new num1_pp) num1_ops with Some p => Bleb (b64_ofZ 1) (pid1_output p) | None => false end = true.
Proof.
  split.
  - split; [apply uptob_ok; vm_compute; reflexivity|]. split; [apply uptob_ok; vm_compute; reflexivity|]. split; [apply uptob_ok; vm_compute; reflexivity|].
    split; [apply awb_ok; vm_compute; reflexivity|]. split; [apply weightb_ok; vm_compute; reflexivity|]. split; apply uptob_ok; vm_compute; reflexivity.
  - split; [|vm_compute; reflexivity]. unfold num1_ops.
    constructor; [split; [apply stepb_ok; vm_compute; reflexivity|apply uptob_ok; vm_compute; reflexivity]|].
    constructor; [apply awb_ok; vm_compute; reflexivity|].
    constructor; [|constructor]. split; [apply stepb_ok; vm_compute; reflexivity|split; apply uptob_ok; vm_compute; reflexivity].
Qed.

(** Limits from -2 to -1 are accepted; with zero error the proportional saturation computes -1/0 times 0. *)
Definition band_pp : PidParams b64 := mkPP (c3 one) v0 v0 v0 (c3 one) false true (c3 mone) (c3 (ofZ (-2))).
Lemma band_nan : sane_step 64 one /\ upto3 64 v0 /\ upto3 64 (pp_up band_pp) /\ upto3 64 (pp_lo band_pp) /\ pid_sat_on (pid_new band_pp) = true /\
  is_nan (vx (pid_output (pid_step (pid_new band_pp) (OpCompute one v0)))) = true.
Proof.
  split; [apply stepb_ok; vm_compute; reflexivity|]. split; [apply upto3b_ok; vm_compute; reflexivity|]. split; [apply upto3b_ok; vm_compute; reflexivity|]. split; [apply upto3b_ok; vm_compute; reflexivity|].
  split; vm_compute; reflexivity.
Qed.
Lemma band_refuted : exists pp dt e, upto3 64 (pp_kp pp) /\ upto3 64 (pp_ki pp) /\ upto3 64 (pp_kd pp) /\ upto3 64 (pp_aw pp) /\ weights (pp_alpha pp) /\
  upto3 64 (pp_up pp) /\ upto3 64 (pp_lo pp) /\ pid_sat_on (pid_new pp) = true /\ sane_op 64 64 (OpCompute dt e) /\
  is_nan (vx (pid_output (pid_step (pid_new pp) (OpCompute dt e)))) = true.
Proof.
  destruct band_nan as (A & B & C & D & E & F). exists band_pp, one, v0.
  split; [apply upto3b_ok; vm_compute; reflexivity|]. split; [apply upto3b_ok; vm_compute; reflexivity|]. split; [apply upto3b_ok; vm_compute; reflexivity|]. split; [apply upto3b_ok; vm_compute; reflexivity|].
  split; [split; [|split]; apply weightb_ok; vm_compute; reflexivity|]. split; [exact C|]. split; [exact D|]. split; [exact E|]. split; [split; [exact A|exact B]|exact F].
Qed.
End Cases.
