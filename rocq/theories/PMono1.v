(** A larger error never gives a smaller command in double precision: given rates and the scalar controller. *)

From Coq Require Import ZArith Bool List Reals Lra Lia.
From Flocq Require Import Core BinarySingleNaN.
From Verif Require Import Scalar Float64 LinAlg MUtils MPid MPid1 SpecDyn SpecPid SpecRound SpecNumber SpecPidNum SpecExact SpecMono
  PBase PFloat PRound PQuat64 PUnit64 PUp PNumber PExact PPid PPidNum PPid64 PLag PMono PMono64.
Import ListNotations.

Section Mono1.
Variable L : Libm.
#[local] Instance FO : Ops b64 := F64Ops L.
Variables (g h : Z).
Hypothesis Hgh : (0 <= g <= h)%Z.
Hypothesis Hcap : (h + 2 * g + 60 <= 1000)%Z.
Notation big := (h + g + 56)%Z.
Notation top := (h + 2 * g + 60)%Z.
Local Notation vle x y := (Rle (val x) (val y)).
Local Open Scope sc_scope.

Lemma larger64_d pp ops dt e1 e2 d1 d2 a : sane_settings g pp -> Forall (sane_op g h) ops -> sane_step g dt -> upto3 h e1 -> upto3 h e2 -> upto3 h d1 -> upto3 h d2 ->
  let p := pid_run (pid_new pp) ops in willing64 a p -> vle (pr a e1) (pr a e2) -> vle (pr a d1) (pr a d2) ->
  (pid_reset_flag p = false \/ val (pr a e1) < val (pr a e2))%R ->
  vle (pr a (pid_output (pid_step p (OpComputeD dt e1 d1)))) (pr a (pid_output (pid_step p (OpComputeD dt e2 d2)))).
Proof.
  intros Hs Ho D E1 E2 T1 T2. cbv zeta. pose proof (run_ok L g h Hgh Hcap pp ops Hs Ho) as [C S].
  pose proof (reached_inv (pid_run (pid_new pp) ops) ltac:(exists pp, ops; reflexivity)) as (Lm & D1 & D2 & D3).
  set (p := pid_run (pid_new pp) ops) in *. clearbody p. intros (Kp & Ki & Kd & Aw & Sat) E Ed St.
  unfold pid_kp, pid_ki, pid_kd, pid_aw, pid_sat_on, pid_prop_on, pid_reset_flag in *.
  pose proof C as (G1 & G2 & G3 & _). assert (S1 : st_ok g h (ps_init (pid_s p) e1)) by exact (init_ok L g h _ _ S E1). assert (S2 : st_ok g h (ps_init (pid_s p) e2)) by exact (init_ok L g h _ _ S E2).
  pose proof (acc_ok L g h Hgh Hcap _ _ dt e1 C S1 D E1) as A1. pose proof (acc_ok L g h Hgh Hcap _ _ dt e2 C S2 D E2) as A2.
  assert (B1 : upto3 big e1) by (apply (up3_weak h); [lia|exact E1]). assert (B2 : upto3 big e2) by (apply (up3_weak h); [lia|exact E2]).
  assert (B3 : upto3 big d1) by (apply (up3_weak h); [lia|exact T1]). assert (B4 : upto3 big d2) by (apply (up3_weak h); [lia|exact T2]).
  assert (F : ps_acc (ps_init (pid_s p) e1) = ps_acc (ps_init (pid_s p) e2)) by (unfold ps_init; destruct (ps_first (pid_s p)); reflexivity).
  cbn [pid_step pid_compute_d pid_output pid_s ps_out]. rewrite F in *.
  apply (le_out L g h Hgh Hcap); try assumption; try (apply (gain_ok L g h Hgh Hcap big); [lia|assumption|assumption]); apply (le_gain L g h Hgh Hcap); try assumption.
  apply (le_acc L g h Hgh Hcap); assumption.
Qed.

(** ** The scalar controller *)
Lemma le_clamp x y l u x' y' : fin x -> fin y -> fin u -> fin l -> vle x y -> clamp x l u = Some x' -> clamp y l u = Some y' -> vle x' y'.
Proof.
  intros Fx Fy Fu Fl H. unfold clamp. destruct (u <? l) eqn:E; [discriminate|]. apply (ltb_f L) in E; [|assumption..].
  intros A B. injection A as <-. injection B as <-.
  destruct (Bltb u x) eqn:A1; [apply (ltb_t L u x Fu Fx) in A1|apply (ltb_f L) in A1; [|assumption..]];
    (destruct (Bltb u y) eqn:A2; [apply (ltb_t L u y Fu Fy) in A2|apply (ltb_f L) in A2; [|assumption..]]);
    (destruct (Bltb x l) eqn:A3; [apply (ltb_t L x l Fx Fl) in A3|apply (ltb_f L) in A3; [|assumption..]]);
    (destruct (Bltb y l) eqn:A4; [apply (ltb_t L y l Fy Fl) in A4|apply (ltb_f L) in A4; [|assumption..]]); lra.
Qed.
Lemma le_acc1 c s dt e1 e2 x y : cfg1_ok L g c -> st1_ok g h s -> sane_step g dt -> upto h e1 -> upto h e2 -> vle e1 e2 ->
  (c1_rflag c = false \/ val e1 < val e2)%R -> pid1_acc c (s1_acc s) dt e1 = Some x -> pid1_acc c (s1_acc s) dt e2 = Some y -> vle x y.
Proof.
  intros (_ & _ & _ & (Aw & Pw) & _) (Ac & _) D U1 U2 E S. unfold pid1_acc. cbv zeta. pose proof D as [Dl Du].
  assert (Pd : (0 <= val dt)%R) by (destruct Dl as [_ Dl]; pose proof (bpow_gt_0 radix2 (-g)); lra).
  set (nx := fun e : b64 => rst1 (c1_rflag c) (s1_acc s) (c1_aw c) e + e * dt).
  assert (Un : forall e, upto h e -> upto big (nx e)).
  { intros e Ue. unfold nx. apply (acc_step L g h Hgh Hcap); [apply (rst_small L g h); exact Ac|exact Ue|exact D]. }
  assert (Ln : vle (nx e1) (nx e2)).
  { unfold nx. apply (le_add L big); try lia.
    - apply (rst_small L g h); exact Ac.
    - apply (rst_small L g h); exact Ac.
    - apply (up_weak (h + g)); [lia|apply (up_mul L h g); [exact U1|exact Du|lia]].
    - apply (up_weak (h + g)); [lia|apply (up_mul L h g); [exact U2|exact Du|lia]].
    - apply (le_rst1 L); [apply Ac|apply U1|apply U2|exact E|exact S].
    - apply (le_mulr L h g); [exact Du|exact U1|exact U2|lia|exact Pd|exact E]. }
  change (rst1 (c1_rflag c) (s1_acc s) (c1_aw c) e1 + e1 * dt) with (nx e1). change (rst1 (c1_rflag c) (s1_acc s) (c1_aw c) e2 + e2 * dt) with (nx e2).
  destruct (negb _); [|intros P Q; injection P as <-; injection Q as <-; exact Ln]. unfold saturate1.
  destruct (mone_mul L g h Hgh Hcap (c1_aw c) Aw) as [Fm _].
  apply le_clamp; [apply (Un _ U1)|apply (Un _ U2)|apply Aw|exact Fm|exact Ln].
Qed.
Lemma le_filt1 c s dt e1 e2 : cfg1_ok L g c -> st1_ok g h s -> sane_step g dt -> upto h e1 -> upto h e2 -> vle e1 e2 ->
  vle (pid1_filt c (s1_init s e1) dt e1) (pid1_filt c (s1_init s e2) dt e2).
Proof.
  intros (_ & _ & _ & _ & W & _) S0 D U1 U2 E.
  assert (I1 : st1_ok g h (s1_init s e1)) by exact (init1_ok L g h s e1 S0 U1). assert (I2 : st1_ok g h (s1_init s e2)) by exact (init1_ok L g h s e2 S0 U2).
  destruct I1 as (_ & F1 & V1 & _), I2 as (_ & F2 & V2 & _). destruct D as [Dl Du].
  assert (Pd : (0 < val dt)%R) by (destruct Dl as [_ Dl]; pose proof (bpow_gt_0 radix2 (-g)); lra).
  unfold pid1_filt.
  assert (Hf : s1_filt (s1_init s e1) = s1_filt (s1_init s e2)) by (unfold s1_init; destruct (s1_first s); reflexivity).
  assert (Hs : vle (e1 - s1_perr (s1_init s e1)) (e2 - s1_perr (s1_init s e2))).
  { eapply Rle_trans; [right; exact (v_sub_at L h _ _ U1 V1 ltac:(lia))|]. eapply Rle_trans; [|right; symmetry; exact (v_sub_at L h _ _ U2 V2 ltac:(lia))].
    apply rnd_le. unfold s1_init. destruct (s1_first s); cbn [s1_perr]; lra. }
  assert (S1 : upto (h + 1) (e1 - s1_perr (s1_init s e1))) by (apply (up_sub L h); [exact U1|exact V1|lia]).
  assert (S2 : upto (h + 1) (e2 - s1_perr (s1_init s e2))) by (apply (up_sub L h); [exact U2|exact V2|lia]).
  assert (T1 : upto (h + 1 - - g) ((e1 - s1_perr (s1_init s e1)) / dt)) by (apply (up_div L (h + 1) (- g)); [exact S1|exact Dl|lia]).
  assert (T2 : upto (h + 1 - - g) ((e2 - s1_perr (s1_init s e2)) / dt)) by (apply (up_div L (h + 1) (- g)); [exact S2|exact Dl|lia]).
  assert (Ht : vle ((e1 - s1_perr (s1_init s e1)) / dt) ((e2 - s1_perr (s1_init s e2)) / dt)).
  { eapply Rle_trans; [right; exact (v_div_at L (h + 1) (- g) _ _ S1 Dl ltac:(lia))|]. eapply Rle_trans; [|right; symmetry; exact (v_div_at L (h + 1) (- g) _ _ S2 Dl ltac:(lia))].
    apply rnd_le. apply Rmult_le_compat_r; [apply Rlt_le, Rinv_0_lt_compat, Pd|exact Hs]. }
  pose proof (weight_up _ W) as Wu. pose proof (weight_up _ (weight_rest L _ W)) as Wr.
  rewrite Hf. apply (le_add L big); try lia.
  - apply (up_weak (0 + (h + 1 - - g))); [lia|apply (up_mul L 0 (h + 1 - - g)); [exact Wu|exact T1|lia]].
  - apply (up_weak (0 + (h + 1 - - g))); [lia|apply (up_mul L 0 (h + 1 - - g)); [exact Wu|exact T2|lia]].
  - apply (up_mul L 0 big); [exact Wr|exact F2|lia].
  - apply (up_mul L 0 big); [exact Wr|exact F2|lia].
  - apply (le_mul L (h + 1 - - g) 0); [exact Wu|exact T1|exact T2|lia|apply W|exact Ht].
  - apply Rle_refl.
Qed.
Lemma le_out1 c p1 p2 i1 i2 d1 d2 x y : cfg1_ok L g c ->
  upto (big + g + 2) p1 -> upto (big + g + 2) p2 -> upto (big + g + 2) i1 -> upto (big + g + 2) i2 -> upto (big + g + 2) d1 -> upto (big + g + 2) d2 ->
  vle p1 p2 -> vle i1 i2 -> vle d1 d2 -> pid1_out c p1 i1 d1 = Some x -> pid1_out c p2 i2 d2 = Some y -> vle x y.
Proof.
  intros (_ & _ & _ & _ & _ & Lu & Ll & _) A1 A2 B1 B2 C1 C2 H1 H2 H3.
  assert (T1 : upto (big + g + 2 + 1) (p1 + i1)) by (apply (up_add L (big + g + 2)); (assumption || lia)).
  assert (T2 : upto (big + g + 2 + 1) (p2 + i2)) by (apply (up_add L (big + g + 2)); (assumption || lia)).
  apply (up_weak (big + g + 2) (big + g + 2 + 1) _ ltac:(lia)) in C1, C2.
  assert (M : vle (p1 + i1 + d1) (p2 + i2 + d2)).
  { apply (le_add L (big + g + 2 + 1)); [exact T1|exact T2|exact C1|exact C2|lia| |exact H3]. apply (le_add L (big + g + 2)); (assumption || lia). }
  unfold pid1_out. cbv zeta. destruct (c1_sflag c); [|intros P Q; injection P as <-; injection Q as <-; exact M].
  unfold saturate1. apply le_clamp; [| |apply Lu|apply Ll|exact M].
  - apply (up_fin (big + g + 2 + 1 + 1)), (up_add L (big + g + 2 + 1)); [exact T1|exact C1|lia].
  - apply (up_fin (big + g + 2 + 1 + 1)), (up_add L (big + g + 2 + 1)); [exact T2|exact C2|lia].
Qed.
Lemma run1_ok pp ops p : sane_settings1 g pp -> Forall (sane_op1 g h) ops -> pid1_run (pid1_new pp) ops = Some p -> pid1_ok L g h p.
Proof.
  intros H Hl. assert (N : pid1_ok L g h (pid1_new pp)) by exact (new1_ok L g h pp H). revert N. generalize (pid1_new pp). induction Hl as [|o r Ho _ IH]; intros q Nq; cbn [pid1_run].
  - intros Q. injection Q as <-. exact Nq.
  - destruct (step1_ok L g h Hgh Hcap q o Nq Ho) as (q' & Eq & Hq'). assert (Eq' : pid1_step q o = Some q') by exact Eq. intros Q. rewrite Eq' in Q. cbn [bindo] in Q. exact (IH q' Hq' Q).
Qed.
Lemma larger64_1 pp ops p dt e1 e2 : sane_settings1 g pp -> Forall (sane_op1 g h) ops -> sane_step g dt -> upto h e1 -> upto h e2 ->
  pid1_run (pid1_new pp) ops = Some p -> willing641 p -> vle e1 e2 -> (pp1_rflag (pid1_get_params p) = false \/ val e1 < val e2)%R ->
  exists q1 q2, pid1_step p (Op1Compute dt e1) = Some q1 /\ pid1_step p (Op1Compute dt e2) = Some q2 /\ vle (pid1_output q1) (pid1_output q2).
Proof.
  intros Hs Ho D U1 U2 Hr W E St. pose proof (run1_ok pp ops p Hs Ho Hr) as Hp. pose proof Hp as [C S]. clear pp ops Hs Ho Hr.
  destruct W as (Kp & Ki & Kd). cbn [pid1_get_params pp1_kp pp1_ki pp1_kd pp1_rflag] in *.
  assert (S1 : st1_ok g h (s1_init (pid1_s p) e1)) by exact (init1_ok L g h _ _ S U1). assert (S2 : st1_ok g h (s1_init (pid1_s p) e2)) by exact (init1_ok L g h _ _ S U2).
  assert (F : s1_acc (s1_init (pid1_s p) e1) = s1_acc (s1_init (pid1_s p) e2)) by (unfold s1_init; destruct (s1_first (pid1_s p)); reflexivity).
  destruct (acc1_ok L g h Hgh Hcap _ _ dt e1 C S1 D U1) as (a1 & A1 & B1). destruct (acc1_ok L g h Hgh Hcap _ _ dt e2 C S2 D U2) as (a2 & A2 & B2).
  pose proof C as (K1 & K2 & K3 & K4 & K5 & _).
  assert (F1 : upto big (pid1_filt (pid1_c p) (s1_init (pid1_s p) e1) dt e1)) by (destruct S1 as (_ & X & Y & _); apply (filt_step L g h Hgh Hcap); assumption).
  assert (F2 : upto big (pid1_filt (pid1_c p) (s1_init (pid1_s p) e2) dt e2)) by (destruct S2 as (_ & X & Y & _); apply (filt_step L g h Hgh Hcap); assumption).
  pose proof (le_filt1 _ _ dt e1 e2 C S D U1 U2 E) as Lf.
  assert (La : vle a1 a2). { assert (A1c : pid1_acc (pid1_c p) (s1_acc (s1_init (pid1_s p) e1)) dt e1 = Some a1) by exact A1. rewrite F in A1c. exact (le_acc1 _ _ dt e1 e2 a1 a2 C S2 D U1 U2 E St A1c A2). }
  set (f1 := pid1_filt (pid1_c p) (s1_init (pid1_s p) e1) dt e1) in *. set (f2 := pid1_filt (pid1_c p) (s1_init (pid1_s p) e2) dt e2) in *.
  pose proof (gain1_ok L g h Hgh Hcap h _ _ ltac:(lia) K1 U1) as P1. pose proof (gain1_ok L g h Hgh Hcap h _ _ ltac:(lia) K1 U2) as P2.
  pose proof (gain1_ok L g h Hgh Hcap big _ _ ltac:(lia) K2 B1) as I1. pose proof (gain1_ok L g h Hgh Hcap big _ _ ltac:(lia) K2 B2) as I2.
  pose proof (gain1_ok L g h Hgh Hcap big _ _ ltac:(lia) K3 F1) as Q1. pose proof (gain1_ok L g h Hgh Hcap big _ _ ltac:(lia) K3 F2) as Q2.
  destruct (out1_ok L g h Hgh Hcap _ _ _ _ C P1 I1 Q1) as (o1 & O1 & _). destruct (out1_ok L g h Hgh Hcap _ _ _ _ C P2 I2 Q2) as (o2 & O2 & _).
  assert (A1' : pid1_acc (pid1_c p) (s1_acc (s1_init (pid1_s p) e1)) dt e1 = Some a1) by exact A1.
  assert (A2' : pid1_acc (pid1_c p) (s1_acc (s1_init (pid1_s p) e2)) dt e2 = Some a2) by exact A2.
  assert (O1' : pid1_out (pid1_c p) (c1_kp (pid1_c p) * e1) (c1_ki (pid1_c p) * a1) (c1_kd (pid1_c p) * f1) = Some o1) by exact O1.
  assert (O2' : pid1_out (pid1_c p) (c1_kp (pid1_c p) * e2) (c1_ki (pid1_c p) * a2) (c1_kd (pid1_c p) * f2) = Some o2) by exact O2.
  assert (Z1 : pid1_step p (Op1Compute dt e1) = Some (mkPid1 (pid1_c p) (mkPS1 false a1 f1 e1 (s1_derr (s1_init (pid1_s p) e1)) (c1_kp (pid1_c p) * e1) (c1_ki (pid1_c p) * a1) (c1_kd (pid1_c p) * f1) o1))).
  { cbn [pid1_step]. unfold pid1_compute. cbv zeta. fold f1. rewrite A1'. cbn [bindo]. rewrite O1'. reflexivity. }
  assert (Z2 : pid1_step p (Op1Compute dt e2) = Some (mkPid1 (pid1_c p) (mkPS1 false a2 f2 e2 (s1_derr (s1_init (pid1_s p) e2)) (c1_kp (pid1_c p) * e2) (c1_ki (pid1_c p) * a2) (c1_kd (pid1_c p) * f2) o2))).
  { cbn [pid1_step]. unfold pid1_compute. cbv zeta. fold f2. rewrite A2'. cbn [bindo]. rewrite O2'. reflexivity. }
  eexists; eexists. split; [exact Z1|]. split; [exact Z2|]. unfold pid1_output. cbn [pid1_s s1_out].
  refine (le_out1 _ _ _ _ _ _ _ _ _ C P1 P2 I1 I2 Q1 Q2 _ _ _ O1 O2).
  - apply (le_mul L h g); [exact K1|exact U1|exact U2|lia|exact Kp|exact E].
  - apply (le_mul L big g); [exact K2|exact B1|exact B2|lia|exact Ki|exact La].
  - apply (le_mul L big g); [exact K3|exact F1|exact F2|lia|exact Kd|exact Lf].
Qed.
End Mono1.
