(** Asked for more height in double precision: a quadrotor in the middle of its flight. *)

From Coq Require Import ZArith List Bool Lia Reals Lra.
From Flocq Require Import Core BinarySingleNaN.
From Verif Require Import Scalar Float64 LinAlg MUtils MPid MControl MCtlRun SpecDyn SpecPid SpecRound SpecNumber SpecPidNum SpecCtl SpecCtlNum SpecMono SpecHigher64
  PBase PRound PUp PQuat64 PNumber ENumber ECtlNum.
Import ListNotations.
Local Open Scope R_scope.

Section Case.
#[local] Instance FO : Ops b64 := F64Ops flat_libm.
Notation c3 x := (mkV x x x).
Definition hpp (kp up : b64) : PidParams b64 := mkPP (c3 kp) (c3 (lit 1 10)) (c3 (lit 1 7)) (c3 one) (c3 (lit 1 2)) false false (c3 up) (c3 (neg up)).
Definition h_ctl : CtlParams b64 :=
  mkCP (mkAP one (mkM (ofZ 5) zero zero zero (ofZ 5) zero zero zero (ofZ 5)) (mkV zero zero (lit (-981) 100)))
       (mkIP (mkM (lit 1 100) zero zero zero (lit 1 100) zero zero zero (lit 2 100)) k_rows (hpp (ofZ 20) (ofZ 1000))) (hpp one (ofZ 20)) (hpp (ofZ 2) (ofZ 20)) (hpp (ofZ 3) (ofZ 20)).
Lemma h_ctl_ok : sane_ctl h_ctl.
Proof.
  split; [split; [apply kb_ok; vm_compute; reflexivity|split; [apply k9b_ok; vm_compute; reflexivity|apply k3b_ok; vm_compute; reflexivity]]|].
  split; [split; [apply k9b_ok; vm_compute; reflexivity|split; [|apply ksetb_ok; vm_compute; reflexivity]]|].
  { apply (forallb_Forall (fun r => k3b (fst r) && k3b (snd r))); [intros r; rewrite andb_true_iff; intros [A B]; split; apply k3b_ok; assumption|vm_compute; reflexivity]. }
  split; [|split]; apply ksetb_ok; vm_compute; reflexivity.
Qed.
Definition posb (x : b64) : bool := is_finite x && negb (Bltb x (b64_ofZ 0)).
Lemma posb_ok x : posb x = true -> 0 <= val x.
Proof.
  unfold posb. rewrite andb_true_iff. intros [F B]. apply negb_true_iff in B.
  apply Rnot_lt_le. intros N. pose proof (ltb_val x (b64_ofZ 0) F eq_refl) as K. change (val (b64_ofZ 0)) with 0 in K. apply K in N. congruence.
Qed.
Definition pos3b (v : V3 b64) : bool := posb (vx v) && posb (vy v) && posb (vz v).
Lemma pos3b_ok v a : pos3b v = true -> 0 <= val (pr a v).
Proof. unfold pos3b. rewrite !andb_true_iff. intros [[A B] C]. destruct a; apply posb_ok; assumption. Qed.
Definition loopb (p : Pid b64) : bool :=
  pos3b (pid_kp p) && pos3b (pid_ki p) && pos3b (pid_kd p) && pos3b (pid_aw p) && negb (pid_prop_on p) && negb (pid_reset_flag p).
Lemma loopb_ok p : loopb p = true -> willing_loop64 p.
Proof.
  unfold loopb. rewrite !andb_true_iff, !negb_true_iff. intros [[[[[A B] C] D] E] F]. split; [|exact F].
  intros a. split; [apply pos3b_ok, A|]. split; [apply pos3b_ok, B|]. split; [apply pos3b_ok, C|]. split; [apply pos3b_ok, D|right; exact E].
Qed.
Lemma ltb_lt x y : is_finite x = true -> is_finite y = true -> Bltb x y = true -> val x < val y.
Proof. intros Fx Fy H. rewrite (Bltb_correct 53 1024 x y Fx Fy) in H. destruct (Rlt_bool_spec (B2R x) (B2R y)); [assumption|discriminate]. Qed.

Definition h_ops : list (CtlOp b64) := k_ops ++ [CReset; CVel v0 mI v0 (mkV (lit 1 5) zero (lit 1 10)) zero (lit 1 10)].
Lemma h_ops_ok : Forall sane_ctl_op h_ops.
Proof.
  apply Forall_app. split; [exact k_ops_ok|]. constructor; [exact I|]. constructor; [|constructor].
  split; [apply k3b_ok; vm_compute; reflexivity|]. split; [apply k9b_ok; vm_compute; reflexivity|]. split; [apply k3b_ok; vm_compute; reflexivity|].
  split; [apply k3b_ok; vm_compute; reflexivity|]. split; [vm_compute; reflexivity|apply kstepb_ok; vm_compute; reflexivity].
Qed.
Lemma high64_case : trig_range flat_libm /\ sane_ctl h_ctl /\ Forall sane_ctl_op h_ops /\
  let c := ctl_run (ctl_new 4 h_ctl) h_ops in
  0 <= val (ac_mass (ct_acro c)) /\ upright64 mI /\ sane_step 32 (lit 1 10) /\ willing_loop64 (get_pid WPos c) /\ willing_loop64 (get_pid WVel c) /\ willing_loop64 (get_pid WTraj c) /\
  no_lower64 (mkV one zero one) (mkV one zero (lit 3 2)) /\
  Bltb (get_desired_thrust (ctl_step c (CPos v0 mI v0 v0 (mkV one zero one) zero (lit 1 10)))) (get_desired_thrust (ctl_step c (CPos v0 mI v0 v0 (mkV one zero (lit 3 2)) zero (lit 1 10)))) = true.
Proof.
  split; [exact flat_trig|]. split; [exact h_ctl_ok|]. split; [exact h_ops_ok|]. cbv zeta.
  split; [apply posb_ok; vm_compute; reflexivity|]. split; [unfold upright64; apply posb_ok; vm_compute; reflexivity|].
  split; [apply kstepb_ok; vm_compute; reflexivity|].
  split; [apply loopb_ok; vm_compute; reflexivity|]. split; [apply loopb_ok; vm_compute; reflexivity|]. split; [apply loopb_ok; vm_compute; reflexivity|].
  split; [split; [reflexivity|split; [reflexivity|apply Rlt_le, ltb_lt; vm_compute; reflexivity]]|].
  vm_compute. reflexivity.
Qed.
End Case.
