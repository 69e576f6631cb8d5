(** A larger error never gives a smaller command: double precision. *)

From Coq Require Import ZArith Bool List Reals Lra Lia.
From Flocq Require Import Core BinarySingleNaN.
From Verif Require Import Scalar Float64 LinAlg MUtils MPid MPid1 SpecDyn SpecPid SpecRound SpecNumber SpecPidNum SpecExact SpecMono
  PBase PFloat PRound PQuat64 PUnit64 PUp PNumber PExact PPid PPidNum PPid64 PLag PMono.
Import ListNotations.

Section Mono64.
Variable L : Libm.
#[local] Instance FO : Ops b64 := F64Ops L.
Variables (g h : Z).
Hypothesis Hgh : (0 <= g <= h)%Z.
Hypothesis Hcap : (h + 2 * g + 60 <= 1000)%Z.
Notation big := (h + g + 56)%Z.
Notation top := (h + 2 * g + 60)%Z.
Local Open Scope sc_scope.

Local Notation vle x y := (Rle (val x) (val y)).

(** ** Rounding keeps the order *)
Lemma w_add e (x y : b64) : upto e x -> upto e y -> (-1000 <= e <= 1022)%Z -> val (x + y) = rnd (val x + val y).
Proof. exact (v_add L e x y). Qed.
Lemma w_mul e f (x y : b64) : upto e x -> upto f y -> (-1000 <= e + f <= 1023)%Z -> val (x * y) = rnd (val x * val y).
Proof. exact (v_mul L e f x y). Qed.
Lemma le_add e x1 x2 y1 y2 : upto e x1 -> upto e x2 -> upto e y1 -> upto e y2 -> (-1000 <= e <= 1022)%Z ->
  (val x1 <= val x2)%R -> (val y1 <= val y2)%R -> vle (x1 + y1) (x2 + y2).
Proof. intros A B C D He H K. rewrite (w_add e x1 y1 A C He), (w_add e x2 y2 B D He). apply rnd_le. lra. Qed.
Lemma le_mul e f k x y : upto f k -> upto e x -> upto e y -> (-1000 <= f + e <= 1023)%Z -> (0 <= val k)%R -> (val x <= val y)%R -> vle (k * x) (k * y).
Proof. intros A B C He K H. rewrite (w_mul f e k x A B He), (w_mul f e k y A C He). apply rnd_le, Rmult_le_compat_l; assumption. Qed.
Lemma le_mulr e f k x y : upto f k -> upto e x -> upto e y -> (-1000 <= e + f <= 1023)%Z -> (0 <= val k)%R -> (val x <= val y)%R -> vle (x * k) (y * k).
Proof. intros A B C He K H. rewrite (w_mul e f x k B A He), (w_mul e f y k C A He). apply rnd_le, Rmult_le_compat_r; assumption. Qed.
Lemma v_sub_at e (x y : b64) : upto e x -> upto e y -> (-1000 <= e <= 1022)%Z -> val (x - y) = rnd (val x - val y).
Proof.
  intros [Fx Ax] [Fy Ay] He. pose proof (Bminus_correct 53 1024 _ _ mode_NE x y Fx Fy) as C.
  destruct (rnd_up (e + 1) (val x - val y)) as [U V]; [lia| |].
  { rewrite pow_S. unfold Rminus. eapply Rle_trans; [apply Rabs_triang|]. rewrite Rabs_Ropp. lra. }
  unfold val in U, V. rewrite V in C. destruct C as (C & _). exact C.
Qed.
Lemma v_div_at e f (x y : b64) : upto e x -> atleast f y -> (-1000 <= e - f <= 1023)%Z -> val (x / y) = rnd (val x / val y).
Proof.
  intros [Fx Ax] [Fy Ay] He. pose proof (bpow_gt_0 radix2 f) as Pg. assert (Ny : B2R y <> 0%R) by (unfold val in Ay; lra).
  pose proof (Bdiv_correct 53 1024 _ _ mode_NE x y Ny) as C.
  destruct (rnd_up (e - f) (val x / val y)) as [U V]; [lia| |].
  { unfold Rdiv, Z.sub. rewrite bpow_plus, Rabs_mult, bpow_opp. apply Rmult_le_compat; try apply Rabs_pos; [exact Ax|].
    rewrite Rabs_pos_eq; [apply Rinv_le_contravar; assumption|]. apply Rlt_le, Rinv_0_lt_compat. lra. }
  unfold val in U, V. rewrite V in C. destruct C as (C & _). exact C.
Qed.
Lemma ltb_t x y : fin x -> fin y -> (x <? y) = true <-> (val x < val y)%R.
Proof. exact (ltb_of L x y). Qed.
Lemma ltb_f x y : fin x -> fin y -> (x <? y) = false -> (val y <= val x)%R.
Proof. intros A B E. apply Rnot_lt_le. intros N. apply (ltb_t x y A B) in N. congruence. Qed.
Lemma le_sat1 x y u l : fin x -> fin y -> fin u -> fin l -> (val l <= val u)%R -> (val x <= val y)%R -> vle (sat1 x u l) (sat1 y u l).
Proof.
  intros Fx Fy Fu Fl H K. unfold sat1.
  destruct (u <? x) eqn:A1; [apply (ltb_t u x Fu Fx) in A1|apply ltb_f in A1; [|assumption..]];
    (destruct (u <? y) eqn:A2; [apply (ltb_t u y Fu Fy) in A2|apply ltb_f in A2; [|assumption..]]);
    (destruct (x <? l) eqn:A3; [apply (ltb_t x l Fx Fl) in A3|apply ltb_f in A3; [|assumption..]]);
    (destruct (y <? l) eqn:A4; [apply (ltb_t y l Fy Fl) in A4|apply ltb_f in A4; [|assumption..]]); lra.
Qed.

(** ** The sign bit *)
Lemma sign_neg x : fin x -> signbitT x = true -> (val x <= 0)%R.
Proof.
  destruct x as [s|s| |s m e Hb]; intros F S; try discriminate F; cbn in S; subst; [unfold val; cbn; lra|].
  unfold val, B2R. apply F2R_le_0. cbn. lia.
Qed.
Lemma sign_pos x : fin x -> signbitT x = false -> (0 <= val x)%R.
Proof.
  destruct x as [s|s| |s m e Hb]; intros F S; try discriminate F; cbn in S; subst; [unfold val; cbn; lra|].
  unfold val, B2R. apply F2R_ge_0. cbn. lia.
Qed.
Lemma val_zero : val zero = 0%R. Proof. reflexivity. Qed.
Lemma le_rst1 b acc aw e1 e2 : fin acc -> fin e1 -> fin e2 -> (val e1 <= val e2)%R -> (b = false \/ val e1 < val e2)%R ->
  vle (rst1 b acc aw e1) (rst1 b acc aw e2).
Proof.
  intros Fa F1 F2 E S. unfold rst1. destruct b; [|lra]. destruct S as [S|S]; [discriminate|].
  destruct (aw <? absT acc); [|lra].
  destruct (signbitT acc) eqn:A; [apply sign_neg in A; [|exact Fa]|apply sign_pos in A; [|exact Fa]];
    (destruct (signbitT e1) eqn:B; [apply sign_neg in B; [|exact F1]|apply sign_pos in B; [|exact F1]]);
    (destruct (signbitT e2) eqn:C; [apply sign_neg in C; [|exact F2]|apply sign_pos in C; [|exact F2]]);
    cbn [xorb]; rewrite ?val_zero; lra.
Qed.

(** ** The controller *)
Lemma pr_up e v a : upto3 e v -> upto e (pr a v).
Proof. intros (A & B & C). destruct a; assumption. Qed.
Lemma le_acc c s dt e1 e2 a : cfg_ok g c -> st_ok g h s -> sane_step g dt -> upto3 h e1 -> upto3 h e2 -> (0 <= val (pr a (pc_aw c)))%R ->
  vle (pr a e1) (pr a e2) -> (pc_rflag c = false \/ val (pr a e1) < val (pr a e2))%R ->
  vle (pr a (pid_acc c (ps_acc s) dt e1)) (pr a (pid_acc c (ps_acc s) dt e2)).
Proof.
  intros (_ & _ & _ & Aw & _) (Ac & _) D E1 E2 P E S. pose proof (pr_up _ _ a Aw) as Ua. pose proof (pr_up _ _ a Ac) as Uc.
  pose proof (pr_up _ _ a E1) as U1. pose proof (pr_up _ _ a E2) as U2. pose proof D as [Dl Du].
  assert (Pd : (0 <= val dt)%R) by (destruct Dl as [_ Dl]; pose proof (bpow_gt_0 radix2 (-g)); lra).
  set (nx := fun e : b64 => rst1 (pc_rflag c) (pr a (ps_acc s)) (pr a (pc_aw c)) e + e * dt).
  assert (Un : forall e, upto h e -> upto big (nx e)).
  { intros e Ue. unfold nx. apply (acc_step L g h Hgh Hcap); [apply (rst_small L g h); exact Uc|exact Ue|exact D]. }
  assert (Ln : vle (nx (pr a e1)) (nx (pr a e2))).
  { unfold nx. apply (le_add big); try lia.
    - apply (rst_small L g h); exact Uc.
    - apply (rst_small L g h); exact Uc.
    - apply (up_weak (h + g)); [lia|apply (up_mul L h g); [exact U1|exact Du|lia]].
    - apply (up_weak (h + g)); [lia|apply (up_mul L h g); [exact U2|exact Du|lia]].
    - apply le_rst1; [apply Uc|apply U1|apply U2|exact E|exact S].
    - apply (le_mulr h g); [exact Du|exact U1|exact U2|lia|exact Pd|exact E]. }
  assert (Q : forall e, pr a (pid_acc c (ps_acc s) dt e) = if negb (veqb (pc_aw c) v0) then sat1 (nx (pr a e)) (pr a (pc_aw c)) (mone * pr a (pc_aw c)) else nx (pr a e)).
  { intros e. unfold pid_acc, nx. cbv zeta. destruct (negb _); destruct a; reflexivity. }
  rewrite !Q. destruct (negb _); [|exact Ln]. destruct (mone_mul L g h Hgh Hcap (pr a (pc_aw c)) Ua) as [Fm Vm].
  apply le_sat1; [apply (Un _ U1)|apply (Un _ U2)|apply Ua|exact Fm| |exact Ln].
  eapply Rle_trans; [right; exact Vm|]. lra.
Qed.
Lemma le_filt c s dt e1 e2 a : cfg_ok g c -> st_ok g h s -> sane_step g dt -> upto3 h e1 -> upto3 h e2 ->
  vle (pr a e1) (pr a e2) ->
  vle (pr a (pid_filt c (ps_init s e1) dt e1)) (pr a (pid_filt c (ps_init s e2) dt e2)).
Proof.
  intros (_ & _ & _ & _ & Wt & _) S0 D E1 E2 E.
  assert (I1 : st_ok g h (ps_init s e1)) by exact (init_ok L g h s e1 S0 E1). assert (I2 : st_ok g h (ps_init s e2)) by exact (init_ok L g h s e2 S0 E2).
  destruct I1 as (_ & G1 & P1 & _), I2 as (_ & G2 & P2 & _).
  assert (W : weight (pr a (pc_alpha c))) by (destruct Wt as (X & Y & Z); destruct a; assumption).
  pose proof (pr_up _ _ a E1) as U1. pose proof (pr_up _ _ a E2) as U2. pose proof (pr_up _ _ a P1) as V1. pose proof (pr_up _ _ a P2) as V2.
  pose proof (pr_up _ _ a G1) as F1. pose proof (pr_up _ _ a G2) as F2. destruct D as [Dl Du].
  assert (Pd : (0 < val dt)%R) by (destruct Dl as [_ Dl]; pose proof (bpow_gt_0 radix2 (-g)); lra).
  assert (Q : forall s e, pr a (pid_filt c s dt e) = pr a (pc_alpha c) * ((pr a e - pr a (ps_perr s)) / dt) + (one - pr a (pc_alpha c)) * pr a (ps_filt s)).
  { intros s' e. destruct a; reflexivity. }
  rewrite !Q. clear Q.
  assert (Hf : pr a (ps_filt (ps_init s e1)) = pr a (ps_filt (ps_init s e2))) by (unfold ps_init; destruct (ps_first s); reflexivity).
  assert (Hs : vle (pr a e1 - pr a (ps_perr (ps_init s e1))) (pr a e2 - pr a (ps_perr (ps_init s e2)))).
  { rewrite (v_sub_at h _ _ U1 V1), (v_sub_at h _ _ U2 V2) by lia. apply rnd_le. unfold ps_init. destruct (ps_first s); cbn [ps_perr]; lra. }
  assert (S1 : upto (h + 1) (pr a e1 - pr a (ps_perr (ps_init s e1)))) by (apply (up_sub L h); [exact U1|exact V1|lia]).
  assert (S2 : upto (h + 1) (pr a e2 - pr a (ps_perr (ps_init s e2)))) by (apply (up_sub L h); [exact U2|exact V2|lia]).
  pose proof (up_div L (h + 1) (- g) _ _ S1 Dl ltac:(lia)) as T1. pose proof (up_div L (h + 1) (- g) _ _ S2 Dl ltac:(lia)) as T2.
  assert (Ht : vle ((pr a e1 - pr a (ps_perr (ps_init s e1))) / dt) ((pr a e2 - pr a (ps_perr (ps_init s e2))) / dt)).
  { rewrite (v_div_at (h + 1) (- g) _ _ S1 Dl), (v_div_at (h + 1) (- g) _ _ S2 Dl) by lia. apply rnd_le.
    apply Rmult_le_compat_r; [apply Rlt_le, Rinv_0_lt_compat, Pd|exact Hs]. }
  pose proof (weight_up _ W) as Wu. pose proof (weight_up _ (weight_rest L _ W)) as Wr.
  rewrite Hf. apply (le_add big); try lia.
  - apply (up_weak (0 + (h + 1 - - g))); [lia|apply (up_mul L 0 (h + 1 - - g)); [exact Wu|exact T1|lia]].
  - apply (up_weak (0 + (h + 1 - - g))); [lia|apply (up_mul L 0 (h + 1 - - g)); [exact Wu|exact T2|lia]].
  - apply (up_mul L 0 big); [exact Wr|exact F2|lia].
  - apply (up_mul L 0 big); [exact Wr|exact F2|lia].
  - apply (le_mul (h + 1 - - g) 0); [exact Wu|exact T1|exact T2|lia|apply W|exact Ht].
  - apply Rle_refl.
Qed.
Lemma le_gain m v1 v2 a : diag_ok m -> upto9 g m -> upto3 big v1 -> upto3 big v2 -> (0 <= val (pr a (mdiagv m)))%R -> vle (pr a v1) (pr a v2) ->
  vle (pr a (mmulv m v1)) (pr a (mmulv m v2)).
Proof.
  intros D M V1 V2 K E. pose proof (diag_row L g h Hgh Hcap m v1 a D M V1) as Q1. pose proof (diag_row L g h Hgh Hcap m v2 a D M V2) as Q2.
  eapply Rle_trans; [right; exact Q1|]. eapply Rle_trans; [|right; symmetry; exact Q2]. apply rnd_le, Rmult_le_compat_l; assumption.
Qed.
Lemma le_out c p1 p2 i1 i2 d1 d2 a : cfg_ok g c -> lim_ok c -> (pc_sflag c = false \/ pc_pflag c = false) ->
  upto3 (big + g + 2) p1 -> upto3 (big + g + 2) p2 -> upto3 (big + g + 2) i1 -> upto3 (big + g + 2) i2 -> upto3 (big + g + 2) d1 -> upto3 (big + g + 2) d2 ->
  vle (pr a p1) (pr a p2) -> vle (pr a i1) (pr a i2) -> vle (pr a d1) (pr a d2) ->
  vle (pr a (pid_out c p1 i1 d1)) (pr a (pid_out c p2 i2 d2)).
Proof.
  intros (_ & _ & _ & _ & _ & Lp) Lm Sat A1 A2 B1 B2 C1 C2 H1 H2 H3.
  apply (pr_up _ _ a) in A1, A2, B1, B2, C1, C2.
  assert (Q : forall x y z : V3 b64, pr a (vadd (vadd x y) z) = pr a x + pr a y + pr a z) by (intros; destruct a; reflexivity).
  pose proof (up_add L (big + g + 2) _ _ A1 B1 ltac:(lia)) as T1. pose proof (up_add L (big + g + 2) _ _ A2 B2 ltac:(lia)) as T2.
  apply (up_weak (big + g + 2) (big + g + 2 + 1) _ ltac:(lia)) in C1, C2.
  assert (M : vle (pr a p1 + pr a i1 + pr a d1) (pr a p2 + pr a i2 + pr a d2)).
  { apply (le_add (big + g + 2 + 1)); [exact T1|exact T2|exact C1|exact C2|lia| |exact H3]. apply (le_add (big + g + 2)); (assumption || lia). }
  unfold pid_out. cbv zeta. destruct (pc_sflag c) eqn:F; [|rewrite !Q; exact M].
  destruct Sat as [Z|Z]; [congruence|]. rewrite Z, !saturate_false_pr, !Q.
  assert (Fl : fin (pr a (pc_up c)) /\ fin (pr a (pc_lo c))).
  { destruct Lp as (((X1 & _) & (X2 & _) & _) & ((Y1 & _) & (Y2 & _) & _) & ((Z1 & _) & (Z2 & _) & _)). destruct a; split; assumption. }
  apply le_sat1; [apply (up_fin _ _ (up_add L _ _ _ T1 C1 ltac:(lia)))|apply (up_fin _ _ (up_add L _ _ _ T2 C2 ltac:(lia)))|apply Fl|apply Fl| |exact M].
  apply ltb_f; [apply Fl|apply Fl|]. exact (sat_bad_ltb _ _ (Lm F a)).
Qed.

Lemma larger64 pp ops dt e1 e2 a : sane_settings g pp -> Forall (sane_op g h) ops -> sane_step g dt -> upto3 h e1 -> upto3 h e2 ->
  let p := pid_run (pid_new pp) ops in willing64 a p -> vle (pr a e1) (pr a e2) ->
  (pid_reset_flag p = false \/ val (pr a e1) < val (pr a e2))%R ->
  vle (pr a (pid_output (pid_step p (OpCompute dt e1)))) (pr a (pid_output (pid_step p (OpCompute dt e2)))).
Proof.
  intros Hs Ho D E1 E2. cbv zeta. pose proof (run_ok L g h Hgh Hcap pp ops Hs Ho) as [C S].
  pose proof (reached_inv (pid_run (pid_new pp) ops) ltac:(exists pp, ops; reflexivity)) as (Lm & D1 & D2 & D3).
  set (p := pid_run (pid_new pp) ops) in *. clearbody p. intros (Kp & Ki & Kd & Aw & Sat) E St.
  unfold pid_kp, pid_ki, pid_kd, pid_aw, pid_sat_on, pid_prop_on, pid_reset_flag in *.
  pose proof C as (G1 & G2 & G3 & _). assert (S1 : st_ok g h (ps_init (pid_s p) e1)) by exact (init_ok L g h _ _ S E1). assert (S2 : st_ok g h (ps_init (pid_s p) e2)) by exact (init_ok L g h _ _ S E2).
  pose proof (acc_ok L g h Hgh Hcap _ _ dt e1 C S1 D E1) as A1. pose proof (acc_ok L g h Hgh Hcap _ _ dt e2 C S2 D E2) as A2.
  pose proof (filt_ok L g h Hgh Hcap _ _ dt e1 C S1 D E1) as T1. pose proof (filt_ok L g h Hgh Hcap _ _ dt e2 C S2 D E2) as T2.
  assert (B1 : upto3 big e1) by (apply (up3_weak h); [lia|exact E1]). assert (B2 : upto3 big e2) by (apply (up3_weak h); [lia|exact E2]).
  assert (F : ps_acc (ps_init (pid_s p) e1) = ps_acc (ps_init (pid_s p) e2)) by (unfold ps_init; destruct (ps_first (pid_s p)); reflexivity).
  cbn [pid_step pid_compute pid_output pid_s ps_out]. rewrite F in *.
  apply le_out; try assumption; try (apply (gain_ok L g h Hgh Hcap big); [lia|assumption|assumption]); apply le_gain; try assumption.
  - apply le_acc; assumption.
  - apply le_filt; assumption.
Qed.
End Mono64.
