(** A scalar controller in double precision that is given two errors with their rates. *)

From Coq Require Import ZArith Bool List Reals Lra Lia.
From Flocq Require Import Core BinarySingleNaN.
From Verif Require Import Scalar Float64 LinAlg MUtils MPid MPid1 SpecDyn SpecPid SpecRound SpecNumber SpecPidNum SpecExact SpecMono
  PBase PFloat PRound PQuat64 PUnit64 PUp PNumber PExact PPidNum EPid ERound ENumber EPidNum EMono.
Import ListNotations.
Local Open Scope R_scope.

Section Cases.
Variable L : Libm.
#[local] Instance FO : Ops b64 := F64Ops L.
Definition r_pp1 : P1Params b64 := mkPP1 (lit 6 1) (lit 1 10) (lit 3 7) (lit 1 3) (lit 1 3) true (ofZ 50) (ofZ (-50)).
Definition r_ops1 : list (Pid1Op b64) := [Op1ComputeD (lit 1 100) (lit 7 3) (lit (-1) 2); Op1Compute (lit 1 50) (lit 1 9)].
Lemma mono64_scalar_rate_case : sane_settings1 64 r_pp1 /\ Forall (sane_op1 64 64) r_ops1 /\ sane_step 64 (lit 1 100) /\ upto 64 (lit 1 10) /\ upto 64 (lit 1 9) /\
  upto 64 (lit 1 3) /\ upto 64 (lit 2 3) /\ val (lit 1 10) < val (lit 1 9) /\ val (lit 1 3) < val (lit 2 3) /\
  exists p q1 q2, pid1_run (pid1_new r_pp1) r_ops1 = Some p /\ willing641 p /\
  pid1_step p (Op1ComputeD (lit 1 100) (lit 1 10) (lit 1 3)) = Some q1 /\ pid1_step p (Op1ComputeD (lit 1 100) (lit 1 9) (lit 2 3)) = Some q2 /\ val (pid1_output q1) < val (pid1_output q2).
Proof.
  assert (S : sane_settings1 64 r_pp1).
  { split; [apply uptob_ok; vm_compute; reflexivity|]. split; [apply uptob_ok; vm_compute; reflexivity|]. split; [apply uptob_ok; vm_compute; reflexivity|].
    split; [split; [apply uptob_ok; vm_compute; reflexivity|apply (m_pos _); vm_compute; reflexivity]|]. split; [apply weightb_ok; vm_compute; reflexivity|].
    split; apply uptob_ok; vm_compute; reflexivity. }
  split; [exact S|].
  split.
  { constructor; [split; [apply stepb_ok; vm_compute; reflexivity|split; apply uptob_ok; vm_compute; reflexivity]|].
    constructor; [split; [apply stepb_ok; vm_compute; reflexivity|apply uptob_ok; vm_compute; reflexivity]|constructor]. }
  split; [apply stepb_ok; vm_compute; reflexivity|]. do 4 (split; [apply uptob_ok; vm_compute; reflexivity|]).
  split; [apply (ltb_val (lit 1 10) (lit 1 9)); vm_compute; reflexivity|]. split; [apply (ltb_val (lit 1 3) (lit 2 3)); vm_compute; reflexivity|].
  assert (K : match pid1_run (pid1_new r_pp1) r_ops1 with
    | Some p => match pid1_step p (Op1ComputeD (lit 1 100) (lit 1 10) (lit 1 3)), pid1_step p (Op1ComputeD (lit 1 100) (lit 1 9) (lit 2 3)) with
      | Some q1, Some q2 => (Bltb (pid1_output q1) (pid1_output q2) && is_finite (pid1_output q1) && is_finite (pid1_output q2)) && negb (Bltb (pp1_kp (pid1_get_params p)) (b64_ofZ 0)) && negb (Bltb (pp1_ki (pid1_get_params p)) (b64_ofZ 0)) && negb (Bltb (pp1_kd (pid1_get_params p)) (b64_ofZ 0)) && is_finite (pp1_kp (pid1_get_params p)) && is_finite (pp1_ki (pid1_get_params p)) && is_finite (pp1_kd (pid1_get_params p))
      | _, _ => false end | None => false end = true) by (vm_compute; reflexivity).
  destruct (pid1_run (pid1_new r_pp1) r_ops1) as [p|]; [|discriminate K].
  destruct (pid1_step p (Op1ComputeD (lit 1 100) (lit 1 10) (lit 1 3))) as [q1|] eqn:Q1; [|discriminate K].
  destruct (pid1_step p (Op1ComputeD (lit 1 100) (lit 1 9) (lit 2 3))) as [q2|] eqn:Q2; [|discriminate K].
  apply andb_prop in K as [K K9]. apply andb_prop in K as [K K8]. apply andb_prop in K as [K K7]. apply andb_prop in K as [K K6]. apply andb_prop in K as [K K5]. apply andb_prop in K as [K K4].
  apply andb_prop in K as [K K3]. apply andb_prop in K as [K1 K2]. apply negb_true_iff in K4, K5, K6.
  exists p, q1, q2. split; [reflexivity|]. split; [split; [exact (m_pos _ K7 K4)|split; [exact (m_pos _ K8 K5)|exact (m_pos _ K9 K6)]]|].
  split; [exact Q1|]. split; [exact Q2|]. apply (ltb_val _ _ K2 K3). exact K1.
Qed.
End Cases.
