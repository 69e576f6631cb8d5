(** A larger error never gives a smaller command: exact arithmetic. *)

From Coq Require Import ZArith List Bool Lia Reals Lra.
From Verif Require Import Scalar LinAlg MPid MPid1 SpecDyn SpecPid SpecMono PBase PPid PPid1 PPidR.
Import ListNotations.
Local Open Scope R_scope.

Lemma sat1_le (x y u l : R) : l <= u -> x <= y -> sat1 x u l <= sat1 y u l.
Proof. intros H K. unfold sat1. unR. rcase; lra. Qed.
Lemma rst1_le b (acc aw e1 e2 : R) : 0 <= aw -> e1 <= e2 -> rst1 b acc aw e1 <= rst1 b acc aw e2.
Proof.
  intros A E. unfold rst1. destruct b; [|lra]. unR. destruct (Rltb aw (Rabs acc)); [|lra].
  rcase; cbn [xorb]; lra.
Qed.
Lemma pr_saturate (x up lo : V3 R) a : pr a (saturate x up lo false) = sat1 (pr a x) (pr a up) (pr a lo).
Proof. destruct a; reflexivity. Qed.

Section Vec.
Variables (a : Ax) (dt : R) (c : PidCfg R).
Hypotheses (Hd : 0 < dt) (I : cfg_inv c).
Hypotheses (Kp : 0 <= pr a (mdiagv (pc_kp c))) (Ki : 0 <= pr a (mdiagv (pc_ki c))) (Kd : 0 <= pr a (mdiagv (pc_kd c))) (Aw : 0 <= pr a (pc_aw c)) (Al : 0 <= pr a (pc_alpha c))
  (Sat : pc_sflag c = false \/ pc_pflag c = false).

Lemma acc_le acc e1 e2 : pr a e1 <= pr a e2 -> pr a (pid_acc c acc dt e1) <= pr a (pid_acc c acc dt e2).
Proof.
  intros E. unfold pid_acc. cbv zeta.
  assert (S : forall e : V3 R, pr a (mkV (rst1 (pc_rflag c) (vx acc) (vx (pc_aw c)) (vx e)) (rst1 (pc_rflag c) (vy acc) (vy (pc_aw c)) (vy e)) (rst1 (pc_rflag c) (vz acc) (vz (pc_aw c)) (vz e))) =
    rst1 (pc_rflag c) (pr a acc) (pr a (pc_aw c)) (pr a e)) by (intros e; destruct a; reflexivity).
  pose proof (rst1_le (pc_rflag c) (pr a acc) (pr a (pc_aw c)) (pr a e1) (pr a e2) Aw E) as M.
  assert (Ed : pr a e1 * dt <= pr a e2 * dt) by (apply Rmult_le_compat_r; lra).
  destruct (negb (veqb (pc_aw c) v0)).
  - rewrite !pr_saturate, !pr_vadd, !pr_vscaler, !S, pr_vscale. apply sat1_le; [unR; lra|lra].
  - rewrite !pr_vadd, !pr_vscaler, !S. lra.
Qed.
Lemma filt_le s e1 e2 : pr a e1 <= pr a e2 -> pr a (pid_filt c (ps_init s e1) dt e1) <= pr a (pid_filt c (ps_init s e2) dt e2).
Proof.
  intros E. unfold pid_filt, ps_init. cbv zeta. destruct (ps_first s); cbn [ps_perr ps_filt]; rewrite !pr_vadd, !pr_vcmul, !pr_vdiv, !pr_vsub.
  - replace (pr a e1 - pr a e1) with 0 by ring. replace (pr a e2 - pr a e2) with 0 by ring. lra.
  - apply Rplus_le_compat_r, Rmult_le_compat_l; [exact Al|]. apply Rmult_le_compat_r; [apply Rlt_le, Rinv_0_lt_compat, Hd|lra].
Qed.
Lemma out_le p1 p2 i1 i2 d1 d2 : pr a p1 <= pr a p2 -> pr a i1 <= pr a i2 -> pr a d1 <= pr a d2 -> pr a (pid_out c p1 i1 d1) <= pr a (pid_out c p2 i2 d2).
Proof.
  intros H1 H2 H3. destruct I as [Lm _]. unfold pid_out. cbv zeta. destruct (pc_sflag c) eqn:F; [|rewrite !pr_vadd; lra].
  destruct Sat as [Q|Q]; [congruence|]. rewrite Q, !pr_saturate, !pr_vadd. apply sat1_le; [|lra].
  specialize (Lm F a). apply sat_bad_R in Lm. unfold wide in Lm. pose proof eps_pos. lra.
Qed.
End Vec.

Lemma larger (p : Pid R) a dt e1 e2 : Reached p -> willing a p -> 0 < dt -> pr a e1 <= pr a e2 ->
  pr a (pid_output (pid_step p (OpCompute dt e1))) <= pr a (pid_output (pid_step p (OpCompute dt e2))).
Proof.
  intros Rp (Kp & Ki & Kd & Aw & Al & Sat) Hd E. pose proof (reached_inv _ Rp) as I. pose proof I as (_ & D1 & D2 & D3).
  unfold pid_kp, pid_ki, pid_kd, pid_aw, pid_alpha, pid_sat_on, pid_prop_on in *.
  cbn [pid_step pid_compute pid_output pid_s ps_out]. apply out_le; try assumption; rewrite !diag_ok_mul by assumption; (apply Rmult_le_compat_l; [assumption|]).
  - exact E.
  - assert (F : ps_acc (ps_init (pid_s p) e1) = ps_acc (ps_init (pid_s p) e2)) by (unfold ps_init; destruct (ps_first (pid_s p)); reflexivity).
    rewrite F. apply acc_le; assumption.
  - apply filt_le; assumption.
Qed.
Lemma larger_d (p : Pid R) a dt e1 e2 d1 d2 : Reached p -> willing a p -> 0 < dt -> pr a e1 <= pr a e2 -> pr a d1 <= pr a d2 ->
  pr a (pid_output (pid_step p (OpComputeD dt e1 d1))) <= pr a (pid_output (pid_step p (OpComputeD dt e2 d2))).
Proof.
  intros Rp (Kp & Ki & Kd & Aw & Al & Sat) Hd E Ed. pose proof (reached_inv _ Rp) as I. pose proof I as (_ & D1 & D2 & D3).
  unfold pid_kp, pid_ki, pid_kd, pid_aw, pid_alpha, pid_sat_on, pid_prop_on in *.
  cbn [pid_step pid_compute_d pid_output pid_s ps_out]. apply out_le; try assumption; rewrite !diag_ok_mul by assumption; (apply Rmult_le_compat_l; [assumption|]).
  - exact E.
  - assert (F : ps_acc (ps_init (pid_s p) e1) = ps_acc (ps_init (pid_s p) e2)) by (unfold ps_init; destruct (ps_first (pid_s p)); reflexivity).
    rewrite F. apply acc_le; assumption.
  - exact Ed.
Qed.

(** ** The scalar controller *)
Lemma clamp_le (x y l u x' y' : R) : x <= y -> clamp x l u = Some x' -> clamp y l u = Some y' -> x' <= y'.
Proof.
  intros H. unfold clamp. unR. destruct (Rltb u l) eqn:E; [discriminate|]. apply Rltb_false in E.
  intros A B. injection A as <-. injection B as <-. rcase; lra.
Qed.
Lemma acc1_le c acc dt e1 e2 x y : 0 < dt -> 0 <= c1_aw c -> e1 <= e2 -> pid1_acc c acc dt e1 = Some x -> pid1_acc c acc dt e2 = Some y -> x <= y.
Proof.
  intros Hd A E. unfold pid1_acc. cbv zeta. pose proof (rst1_le (c1_rflag c) acc (c1_aw c) e1 e2 A E) as M.
  assert (Ed : e1 * dt <= e2 * dt) by (apply Rmult_le_compat_r; lra). unfold saturate1.
  destruct (negb _).
  - apply clamp_le. unR. lra.
  - intros P Q. injection P as <-. injection Q as <-. unR. lra.
Qed.
Lemma filt1_le c s dt e1 e2 : 0 < dt -> 0 <= c1_alpha c -> e1 <= e2 -> pid1_filt c (s1_init s e1) dt e1 <= pid1_filt c (s1_init s e2) dt e2.
Proof.
  intros Hd A E. unfold pid1_filt, s1_init. destruct (s1_first s); cbn [s1_perr s1_filt]; unR.
  - replace (e1 - e1) with 0 by ring. replace (e2 - e2) with 0 by ring. lra.
  - apply Rplus_le_compat_r, Rmult_le_compat_l; [exact A|]. apply Rmult_le_compat_r; [apply Rlt_le, Rinv_0_lt_compat, Hd|lra].
Qed.
Lemma out1_le c p1 p2 i1 i2 d1 d2 x y : p1 <= p2 -> i1 <= i2 -> d1 <= d2 -> pid1_out c p1 i1 d1 = Some x -> pid1_out c p2 i2 d2 = Some y -> x <= y.
Proof.
  intros H1 H2 H3. unfold pid1_out, saturate1. cbv zeta. destruct (c1_sflag c).
  - apply clamp_le. unR. lra.
  - intros P Q. injection P as <-. injection Q as <-. unR. lra.
Qed.
Lemma larger1 (p q1 q2 : Pid1 R) dt e1 e2 : willing1 p -> 0 < dt -> e1 <= e2 ->
  pid1_step p (Op1Compute dt e1) = Some q1 -> pid1_step p (Op1Compute dt e2) = Some q2 -> pid1_output q1 <= pid1_output q2.
Proof.
  intros (Kp & Ki & Kd & Aw & Al) Hd E. cbn [pid1_get_params pp1_kp pp1_ki pp1_kd pp1_aw pp1_alpha] in *.
  cbn [pid1_step]. unfold pid1_compute. cbv zeta.
  assert (F : s1_acc (s1_init (pid1_s p) e1) = s1_acc (s1_init (pid1_s p) e2)) by (unfold s1_init; destruct (s1_first (pid1_s p)); reflexivity).
  rewrite F. set (acc := s1_acc _). clearbody acc.
  destruct (pid1_acc (pid1_c p) acc dt e1) as [a1|] eqn:A1; [|discriminate]. cbn [bindo].
  destruct (pid1_out _ _ _ _) as [o1|] eqn:O1; [|discriminate]. cbn [bindo]. intros Q. injection Q as <-.
  destruct (pid1_acc (pid1_c p) acc dt e2) as [a2|] eqn:A2; [|discriminate]. cbn [bindo].
  destruct (pid1_out (pid1_c p) _ (mul _ a2) _) as [o2|] eqn:O2; [|discriminate]. cbn [bindo]. intros Q. injection Q as <-.
  unfold pid1_output. cbn [pid1_s s1_out]. refine (out1_le _ _ _ _ _ _ _ _ _ _ _ _ O1 O2); (apply Rmult_le_compat_l; [assumption|]).
  - exact E.
  - exact (acc1_le _ _ _ _ _ _ _ Hd Aw E A1 A2).
  - apply filt1_le; assumption.
Qed.
Lemma larger1_d (p q1 q2 : Pid1 R) dt e1 e2 d1 d2 : willing1 p -> 0 < dt -> e1 <= e2 -> d1 <= d2 ->
  pid1_step p (Op1ComputeD dt e1 d1) = Some q1 -> pid1_step p (Op1ComputeD dt e2 d2) = Some q2 -> pid1_output q1 <= pid1_output q2.
Proof.
  intros (Kp & Ki & Kd & Aw & Al) Hd E Ed. cbn [pid1_get_params pp1_kp pp1_ki pp1_kd pp1_aw pp1_alpha] in *.
  cbn [pid1_step]. unfold pid1_compute_d. cbv zeta.
  assert (F : s1_acc (s1_init (pid1_s p) e1) = s1_acc (s1_init (pid1_s p) e2)) by (unfold s1_init; destruct (s1_first (pid1_s p)); reflexivity).
  rewrite F. set (acc := s1_acc _). clearbody acc.
  destruct (pid1_acc (pid1_c p) acc dt e1) as [a1|] eqn:A1; [|discriminate]. cbn [bindo].
  destruct (pid1_out _ _ _ _) as [o1|] eqn:O1; [|discriminate]. cbn [bindo]. intros Q. injection Q as <-.
  destruct (pid1_acc (pid1_c p) acc dt e2) as [a2|] eqn:A2; [|discriminate]. cbn [bindo].
  destruct (pid1_out (pid1_c p) _ (mul _ a2) _) as [o2|] eqn:O2; [|discriminate]. cbn [bindo]. intros Q. injection Q as <-.
  unfold pid1_output. cbn [pid1_s s1_out]. refine (out1_le _ _ _ _ _ _ _ _ _ _ _ _ O1 O2); (apply Rmult_le_compat_l; [assumption|]).
  - exact E.
  - exact (acc1_le _ _ _ _ _ _ _ Hd Aw E A1 A2).
  - exact Ed.
Qed.
Lemma larger1_defined (p : Pid1 R) dt e1 e2 : Reached1 p -> willing1 p -> 0 < dt -> e1 <= e2 ->
  exists q1 q2, pid1_step p (Op1Compute dt e1) = Some q1 /\ pid1_step p (Op1Compute dt e2) = Some q2 /\ pid1_output q1 <= pid1_output q2.
Proof.
  intros Rp W Hd E. assert (D : forall op, pid1_step p op <> None).
  { intros op N. apply (step1_undefined p op Rp) in N as [_ N]. destruct W as (_ & _ & _ & Aw & _). cbn in Aw. unfold pid1_aw in N. revert N. unR. rcase; intros; try discriminate; lra. }
  destruct (pid1_step p (Op1Compute dt e1)) as [q1|] eqn:Q1; [|exfalso; exact (D _ Q1)].
  destruct (pid1_step p (Op1Compute dt e2)) as [q2|] eqn:Q2; [|exfalso; exact (D _ Q2)].
  exists q1, q2. split; [reflexivity|]. split; [reflexivity|]. exact (larger1 p q1 q2 dt e1 e2 W Hd E Q1 Q2).
Qed.
Lemma larger1_d_defined (p : Pid1 R) dt e1 e2 d1 d2 : Reached1 p -> willing1 p -> 0 < dt -> e1 <= e2 -> d1 <= d2 ->
  exists q1 q2, pid1_step p (Op1ComputeD dt e1 d1) = Some q1 /\ pid1_step p (Op1ComputeD dt e2 d2) = Some q2 /\ pid1_output q1 <= pid1_output q2.
Proof.
  intros Rp W Hd E Ed. assert (D : forall op, pid1_step p op <> None).
  { intros op N. apply (step1_undefined p op Rp) in N as [_ N]. destruct W as (_ & _ & _ & Aw & _). cbn in Aw. unfold pid1_aw in N. revert N. unR. rcase; intros; try discriminate; lra. }
  destruct (pid1_step p (Op1ComputeD dt e1 d1)) as [q1|] eqn:Q1; [|exfalso; exact (D _ Q1)].
  destruct (pid1_step p (Op1ComputeD dt e2 d2)) as [q2|] eqn:Q2; [|exfalso; exact (D _ Q2)].
  exists q1, q2. split; [reflexivity|]. split; [reflexivity|]. exact (larger1_d p q1 q2 dt e1 e2 d1 d2 W Hd E Ed Q1 Q2).
Qed.
