(** Controllers that answer a larger error with a larger command, and two that do not. *)

From Coq Require Import ZArith Bool List Reals Lra Lia.
From Flocq Require Import Core BinarySingleNaN.
From Verif Require Import Scalar Float64 LinAlg MUtils MPid MPid1 SpecDyn SpecPid SpecRound SpecNumber SpecPidNum SpecExact SpecMono
  PBase PPid PPid1 PPidR PFloat PRound PQuat64 PUnit64 PUp PNumber PExact PPidNum EPid ERound ENumber EPidNum PMono.
Import ListNotations.
Local Open Scope R_scope.

(** Gain 2, output limited to 5 on each axis. *)
Definition m_pp : PidParams R := mkPP (r3 2) v0 v0 v0 v1 false false (r3 5) (r3 (-5)).
Lemma m_new : pid_new m_pp = mkPid (mkPC (vdiagm (r3 2)) (vdiagm v0) (vdiagm v0) v0 v1 false true false (r3 5) (r3 (-5))) ps0.
Proof. rewrite new_cfg_on by (intros a; cbn [m_pp pp_up pp_lo]; rewrite !pr_r3; apply wide_R; lra). reflexivity. Qed.
Lemma m_out e : pr AX (pid_output (pid_step (pid_new m_pp) (OpCompute 1 e))) = sat1 (2 * pr AX e) 5 (-5).
Proof.
  rewrite first_prop_only by (reflexivity || (rewrite m_new; reflexivity)). cbv zeta. rewrite m_new.
  cbn [pid_sat_on pid_prop_on pid_limits pid_c pc_sflag pc_pflag pc_up pc_lo fst snd]. rewrite saturate_false_pr, pr_vcmul, !pr_r3. reflexivity.
Qed.
Lemma mono_case : Reached (pid_new m_pp) /\ willing AX (pid_new m_pp) /\ pid_sat_on (pid_new m_pp) = true /\
  pr AX (pid_output (pid_step (pid_new m_pp) (OpCompute 1 (mkV 1 7 0)))) = 2 /\
  pr AX (pid_output (pid_step (pid_new m_pp) (OpCompute 1 (mkV 9 (-3) 0)))) = 5.
Proof.
  split; [exists m_pp, []; reflexivity|]. rewrite !m_out. rewrite m_new.
  split; [unfold willing; cbn; unR; split; [lra|]; split; [lra|]; split; [lra|]; split; [lra|]; split; [lra|right; reflexivity]|].
  split; [reflexivity|]. unfold sat1. cbn [pr vx]. unR. rdec. split; lra.
Qed.

(** With the limits applied to all axes together a larger error on another axis
    takes command away from this one. *)
Definition t_pp : PidParams R := mkPP (r3 1) v0 v0 v0 v1 false true (r3 1) (r3 (-1)).
Lemma together : exists (p : Pid R) e1 e2, Reached p /\ pid_prop_on p = true /\ pr AX e1 < pr AX e2 /\
  pr AX (pid_output (pid_step p (OpCompute 1 e2))) < pr AX (pid_output (pid_step p (OpCompute 1 e1))).
Proof.
  assert (N : pid_new t_pp = mkPid (mkPC (vdiagm (r3 1)) (vdiagm v0) (vdiagm v0) v0 v1 false true true (r3 1) (r3 (-1))) ps0).
  { rewrite new_cfg_on by (intros a; cbn [t_pp pp_up pp_lo]; rewrite !pr_r3; apply wide_R; lra). reflexivity. }
  exists (pid_new t_pp), (mkV (1/2) 0 0), (mkV 1 4 0). split; [exists t_pp, []; reflexivity|].
  split; [rewrite N; reflexivity|]. split; [cbn; lra|].
  rewrite !first_prop_only by (reflexivity || (rewrite N; reflexivity)). cbv zeta. rewrite N.
  cbn [pid_sat_on pid_prop_on pid_limits pid_c pc_sflag pc_pflag pc_up pc_lo fst snd t_pp pp_kp].
  unfold saturate, psat1, vcmul, vscaler, vscale, vmap, vmap2, r3. cbv zeta. cbn [negb vx vy vz pr]. unR.
  repeat (match goal with |- context [Rltb ?x ?y] => lazymatch x with context [Rltb] => fail | _ => lazymatch y with context [Rltb] => fail | _ =>
    first [ replace (Rltb x y) with true by (symmetry; apply Rltb_true; lra) | replace (Rltb x y) with false by (symmetry; apply Rltb_false; lra) ] end end end; cbn [vx vy vz]).
  lra.
Qed.

(** Gain 2 and integral gain 1 on one axis, limited to 5. *)
Definition m_pp1 : P1Params R := mkPP1 2 1 0 10 1 true 5 (-5).
Lemma m_new1 : pid1_new m_pp1 = mkPid1 (mkPC1 2 1 0 10 1 true true 5 (-5)) s10.
Proof.
  unfold pid1_new, pid1_reset, pid1_update, c1_update, m_pp1.
  cbn [pid1_c pid1_s pp1_up pp1_lo pp1_kp pp1_ki pp1_kd pp1_aw pp1_alpha pp1_rflag].
  unR. rdec. cbn [negb orb]. rewrite set_sat1_accepted by (apply sat_bad_R, wide_R; lra). reflexivity.
Qed.
Lemma mono1_case : Reached1 (pid1_new m_pp1) /\ willing1 (pid1_new m_pp1) /\
  exists q1 q2, pid1_step (pid1_new m_pp1) (Op1Compute 1 1) = Some q1 /\ pid1_step (pid1_new m_pp1) (Op1Compute 1 9) = Some q2 /\
  pid1_output q1 = 3 /\ pid1_output q2 = 5.
Proof.
  split; [exists m_pp1, []; reflexivity|]. rewrite m_new1. split; [unfold willing1; cbn; unR; lra|].
  cbn [pid1_step]. unfold pid1_compute, pid1_acc, pid1_out, saturate1, clamp, pid1_filt, rst1.
  cbn [pid1_c pid1_s c1_aw c1_rflag c1_sflag c1_kp c1_ki c1_kd c1_alpha c1_up c1_lo s1_init s10 s1_first s1_acc s1_filt s1_perr s1_derr].
  unR. rewrite Rabs_R0. rdec. cbn [negb bindo]. unR. rdec. cbn [bindo]. unR. rdec. cbn [bindo].
  eexists; eexists. split; [reflexivity|]. split; [reflexivity|]. unfold pid1_output. cbn [pid1_s s1_out]. lra.
Qed.

Section Cases.
Variable L : Libm.
#[local] Instance FO : Ops b64 := F64Ops L.
Notation c3 x := (mkV x x x).
Definition n_pp : PidParams b64 := mkPP (c3 (lit 6 1)) (c3 (lit 1 10)) (c3 (lit 3 7)) (c3 (lit 1 3)) (c3 (lit 1 3)) true false (c3 (ofZ 50)) (c3 (ofZ (-50))).
Definition n_ops : list (PidOp b64) := [OpCompute (lit 1 100) (mkV (lit 7 3) (lit 1 5) (ofZ (-2))); OpCompute (lit 1 50) (mkV (lit 1 9) (ofZ 4) (ofZ 7))].
Definition n_e1 : V3 b64 := mkV (lit 1 10) (ofZ 3) (ofZ 0).
Definition n_e2 : V3 b64 := mkV (lit 1 9) (ofZ (-8)) (ofZ 2).
Lemma m_settings : sane_settings 64 n_pp.
Proof.
  split; [apply upto3b_ok; vm_compute; reflexivity|]. split; [apply upto3b_ok; vm_compute; reflexivity|]. split; [apply upto3b_ok; vm_compute; reflexivity|].
  split; [apply upto3b_ok; vm_compute; reflexivity|]. split; [split; [|split]; apply weightb_ok; vm_compute; reflexivity|]. split; [|split]; apply pairb_ok; vm_compute; reflexivity.
Qed.
Lemma m_sane : Forall (sane_op 64 64) n_ops.
Proof.
  unfold n_ops. constructor; [split; [apply stepb_ok; vm_compute; reflexivity|apply upto3b_ok; vm_compute; reflexivity]|].
  constructor; [split; [apply stepb_ok; vm_compute; reflexivity|apply upto3b_ok; vm_compute; reflexivity]|]. constructor.
Qed.
Lemma m_pos x : fin x -> Bltb x (b64_ofZ 0) = false -> 0 <= val x.
Proof.
  intros F B. apply Rnot_lt_le. intros N. pose proof (ltb_val x (b64_ofZ 0) F eq_refl) as K. change (val (b64_ofZ 0)) with 0 in K. apply K in N. congruence.
Qed.
Lemma mono64_case : sane_settings 64 n_pp /\ Forall (sane_op 64 64) n_ops /\ sane_step 64 (lit 1 100) /\ upto3 64 n_e1 /\ upto3 64 n_e2 /\
  let p := pid_run (pid_new n_pp) n_ops in willing64 AX p /\ pid_reset_flag p = true /\ val (vx n_e1) < val (vx n_e2) /\
  Bltb (vx (pid_output (pid_step p (OpCompute (lit 1 100) n_e1)))) (vx (pid_output (pid_step p (OpCompute (lit 1 100) n_e2)))) = true.
Proof.
  split; [exact m_settings|]. split; [exact m_sane|]. split; [apply stepb_ok; vm_compute; reflexivity|].
  split; [apply upto3b_ok; vm_compute; reflexivity|]. split; [apply upto3b_ok; vm_compute; reflexivity|]. cbv zeta.
  split.
  { split; [apply m_pos; vm_compute; reflexivity|]. split; [apply m_pos; vm_compute; reflexivity|]. split; [apply m_pos; vm_compute; reflexivity|].
    split; [apply m_pos; vm_compute; reflexivity|]. right. vm_compute. reflexivity. }
  split; [vm_compute; reflexivity|]. split; [|vm_compute; reflexivity].
  apply (ltb_val (vx n_e1) (vx n_e2)); vm_compute; reflexivity.
Qed.

Definition n_pp1 : P1Params b64 := mkPP1 (lit 6 1) (lit 1 10) (lit 3 7) (lit 1 3) (lit 1 3) true (ofZ 50) (ofZ (-50)).
Definition n_ops1 : list (Pid1Op b64) := [Op1Compute (lit 1 100) (lit 7 3); Op1Compute (lit 1 50) (lit 1 9)].
Lemma mono64_scalar_case : sane_settings1 64 n_pp1 /\ Forall (sane_op1 64 64) n_ops1 /\ sane_step 64 (lit 1 100) /\ upto 64 (lit 1 10) /\ upto 64 (lit 1 9) /\
  val (lit 1 10) < val (lit 1 9) /\
  exists p q1 q2, pid1_run (pid1_new n_pp1) n_ops1 = Some p /\ willing641 p /\
  pid1_step p (Op1Compute (lit 1 100) (lit 1 10)) = Some q1 /\ pid1_step p (Op1Compute (lit 1 100) (lit 1 9)) = Some q2 /\ val (pid1_output q1) < val (pid1_output q2).
Proof.
  assert (S : sane_settings1 64 n_pp1).
  { split; [apply uptob_ok; vm_compute; reflexivity|]. split; [apply uptob_ok; vm_compute; reflexivity|]. split; [apply uptob_ok; vm_compute; reflexivity|].
    split; [split; [apply uptob_ok; vm_compute; reflexivity|apply m_pos; vm_compute; reflexivity]|]. split; [apply weightb_ok; vm_compute; reflexivity|].
    split; apply uptob_ok; vm_compute; reflexivity. }
  split; [exact S|].
  split; [constructor; [split; [apply stepb_ok; vm_compute; reflexivity|apply uptob_ok; vm_compute; reflexivity]|constructor; [split; [apply stepb_ok; vm_compute; reflexivity|apply uptob_ok; vm_compute; reflexivity]|constructor]]|].
  split; [apply stepb_ok; vm_compute; reflexivity|]. split; [apply uptob_ok; vm_compute; reflexivity|]. split; [apply uptob_ok; vm_compute; reflexivity|].
  split; [apply (ltb_val (lit 1 10) (lit 1 9)); vm_compute; reflexivity|].
  assert (K : match pid1_run (pid1_new n_pp1) n_ops1 with
    | Some p => match pid1_step p (Op1Compute (lit 1 100) (lit 1 10)), pid1_step p (Op1Compute (lit 1 100) (lit 1 9)) with
      | Some q1, Some q2 => (Bltb (pid1_output q1) (pid1_output q2) && is_finite (pid1_output q1) && is_finite (pid1_output q2)) && negb (Bltb (pp1_kp (pid1_get_params p)) (b64_ofZ 0)) && negb (Bltb (pp1_ki (pid1_get_params p)) (b64_ofZ 0)) && negb (Bltb (pp1_kd (pid1_get_params p)) (b64_ofZ 0)) && is_finite (pp1_kp (pid1_get_params p)) && is_finite (pp1_ki (pid1_get_params p)) && is_finite (pp1_kd (pid1_get_params p))
      | _, _ => false end | None => false end = true) by (vm_compute; reflexivity).
  destruct (pid1_run (pid1_new n_pp1) n_ops1) as [p|]; [|discriminate K].
  destruct (pid1_step p (Op1Compute (lit 1 100) (lit 1 10))) as [q1|] eqn:Q1; [|discriminate K].
  destruct (pid1_step p (Op1Compute (lit 1 100) (lit 1 9))) as [q2|] eqn:Q2; [|discriminate K].
  apply andb_prop in K as [K K9]. apply andb_prop in K as [K K8]. apply andb_prop in K as [K K7]. apply andb_prop in K as [K K6]. apply andb_prop in K as [K K5]. apply andb_prop in K as [K K4].
  apply andb_prop in K as [K K3]. apply andb_prop in K as [K1 K2]. apply negb_true_iff in K4, K5, K6.
  exists p, q1, q2. split; [reflexivity|]. split; [split; [exact (m_pos _ K7 K4)|split; [exact (m_pos _ K8 K5)|exact (m_pos _ K9 K6)]]|].
  split; [exact Q1|]. split; [exact Q2|]. apply (ltb_val _ _ K2 K3). exact K1.
Qed.

(** Plus and minus zero are equal errors with different commands when the
    integral is cleared on a change of sign. *)
Definition z_pp : PidParams b64 := mkPP (c3 (ofZ 0)) (c3 (ofZ 1)) (c3 (ofZ 0)) v0 (c3 (ofZ 1)) true false v0 v0.
Definition z_ops : list (PidOp b64) := [OpCompute (ofZ 1) (c3 (ofZ 1))].
Lemma minus_zero : sane_settings 64 z_pp /\ Forall (sane_op 64 64) z_ops /\ sane_step 64 (ofZ 1) /\
  exists e1 e2, upto3 64 e1 /\ upto3 64 e2 /\ let p := pid_run (pid_new z_pp) z_ops in willing64 AX p /\ val (vx e1) = val (vx e2) /\
  Bltb (vx (pid_output (pid_step p (OpCompute (ofZ 1) e2)))) (vx (pid_output (pid_step p (OpCompute (ofZ 1) e1)))) = true.
Proof.
  split.
  { split; [apply upto3b_ok; vm_compute; reflexivity|]. split; [apply upto3b_ok; vm_compute; reflexivity|]. split; [apply upto3b_ok; vm_compute; reflexivity|].
    split; [apply upto3b_ok; vm_compute; reflexivity|]. split; [split; [|split]; apply weightb_ok; vm_compute; reflexivity|]. split; [|split]; apply pairb_ok; vm_compute; reflexivity. }
  split; [constructor; [split; [apply stepb_ok; vm_compute; reflexivity|apply upto3b_ok; vm_compute; reflexivity]|constructor]|].
  split; [apply stepb_ok; vm_compute; reflexivity|].
  exists (c3 (B754_zero false)), (c3 (B754_zero true)). split; [apply upto3b_ok; vm_compute; reflexivity|]. split; [apply upto3b_ok; vm_compute; reflexivity|]. cbv zeta.
  split.
  { split; [apply m_pos; vm_compute; reflexivity|]. split; [apply m_pos; vm_compute; reflexivity|]. split; [apply m_pos; vm_compute; reflexivity|].
    split; [apply m_pos; vm_compute; reflexivity|]. right. vm_compute. reflexivity. }
  split; [reflexivity|vm_compute; reflexivity].
Qed.
End Cases.
