(** Proofs: a controller fed with sensible numbers gives numbers, whatever its history. *)

From Coq Require Import ZArith Bool List Reals Lra Lia.
From Flocq Require Import Core BinarySingleNaN.
From Verif Require Import Scalar Float64 LinAlg MUtils MPid MPid1 SpecDyn SpecRound SpecNumber SpecPidNum PBase PFloat PRound PQuat64 PUnit64 PUp PNumber PExact.
Import ListNotations.
Local Open Scope R_scope.

Section Stag.
(** A small addend cannot push a sum beyond a power of two. *)
Lemma rnd_stag e f x y : (0 <= e <= 1000)%Z -> (f <= e - 55)%Z -> Rabs x <= 2^e -> Rabs y <= 2^f -> Rabs (rnd (x + y)) <= 2^e.
Proof.
  intros He Hf Hx Hy. pose proof (bpow_le radix2 f (e - 55) Hf) as Hp.
  assert (Fm : generic_format radix2 (SpecFloat.fexp 53 1024) (2^e)) by (apply fmt_pow2; lia).
  assert (S1 : succ radix2 (SpecFloat.fexp 53 1024) (2^e) = 2^e + 2^(e - 52)).
  { rewrite succ_eq_pos by apply bpow_ge_0. rewrite ulp_bpow. unfold SpecFloat.fexp, SpecFloat.emin. do 2 f_equal. lia. }
  assert (Q : 2^(e - 52) = 8 * 2^(e - 55)) by (replace (e - 52)%Z with (3 + (e - 55))%Z by lia; rewrite bpow_plus; change (2^3) with 8; ring).
  assert (K : forall z, z <= 2^e + 2^(e - 55) -> rnd z <= 2^e).
  { intros z Hz. apply (round_N_le_midp radix2 (SpecFloat.fexp 53 1024) (fun x => negb (Z.even x)) (2^e) z Fm).
    rewrite S1, Q. pose proof (pow_pos (e - 55)). lra. }
  apply Rabs_le_inv in Hx. apply Rabs_le_inv in Hy. apply Rabs_le. split; [|apply K; lra].
  replace (x + y) with (- (- x - y)) by ring. rewrite PExact.rnd_opp. apply Ropp_le_contravar. apply K. lra.
Qed.
End Stag.

Section Num.
Variable L : Libm.
#[local] Instance FO : Ops b64 := F64Ops L.
Local Open Scope sc_scope.

Lemma up_stag e f x y : upto e x -> upto f y -> (0 <= e <= 1000)%Z -> (f <= e - 55)%Z -> upto e (x + y).
Proof.
  intros [Fx Ax] [Fy Ay] He Hf. pose proof (Bplus_correct 53 1024 _ _ mode_NE x y Fx Fy) as C. pose proof (rnd_stag e f (val x) (val y) He Hf Ax Ay) as K.
  unfold val in K. rewrite Rlt_bool_true in C; [|eapply Rle_lt_trans; [exact K|]; apply bpow_lt; lia].
  destruct C as (C & F & _). split; [exact F|]. unfold val. change (Rabs (B2R (Bplus mode_NE x y)) <= 2^e)%R. rewrite C. exact K.
Qed.
Lemma up_stag' e f x y : upto f x -> upto e y -> (0 <= e <= 1000)%Z -> (f <= e - 55)%Z -> upto e (x + y).
Proof.
  intros [Fx Ax] [Fy Ay] He Hf. pose proof (Bplus_correct 53 1024 _ _ mode_NE x y Fx Fy) as C. pose proof (rnd_stag e f (val y) (val x) He Hf Ay Ax) as K.
  rewrite Rplus_comm in K. unfold val in K. rewrite Rlt_bool_true in C; [|eapply Rle_lt_trans; [exact K|]; apply bpow_lt; lia].
  destruct C as (C & F & _). split; [exact F|]. unfold val. change (Rabs (B2R (Bplus mode_NE x y)) <= 2^e)%R. rewrite C. exact K.
Qed.
Lemma rnd_mono x y : (x <= y)%R -> (rnd x <= rnd y)%R.
Proof. intros H. apply round_le; [apply fexp_correct; exact prec53|apply valid_rnd_N|exact H]. Qed.
Lemma rnd_one : rnd 1 = 1%R. Proof. rewrite <- val_one. apply rnd_val. Qed.
Lemma rnd_zero : rnd 0 = 0%R. Proof. apply round_0, valid_rnd_N. Qed.

Lemma weight_up x : weight x -> upto 0 x.
Proof. intros [F [A B]]. split; [exact F|]. change (2^0) with 1%R. apply Rabs_le. lra. Qed.
Lemma weight_rest x : weight x -> weight (one - x).
Proof.
  intros [F [A B]]. pose proof (Bminus_correct 53 1024 _ _ mode_NE (b64_ofZ 1) x eq_refl F) as C.
  change (B2R (b64_ofZ 1)) with (val (b64_ofZ 1)) in C. rewrite val_one in C.
  assert (K : (0 <= rnd (1 - B2R x) <= 1)%R).
  { unfold val in *. split; [rewrite <- rnd_zero|rewrite <- rnd_one at 2]; apply rnd_mono; lra. }
  assert (K2 : (Rabs (rnd (1 - B2R x)) <= 1)%R) by (apply Rabs_le; lra).
  rewrite Rlt_bool_true in C; [|eapply Rle_lt_trans; [exact K2|]; change 1%R with (2^0); apply bpow_lt; lia].
  destruct C as (C & Fc & _). split; [exact Fc|]. unfold val. change (0 <= B2R (Bminus mode_NE (b64_ofZ 1) x) <= 1)%R. rewrite C. exact K.
Qed.

Variables (g h : Z).
Hypothesis Hgh : (0 <= g <= h)%Z.
Hypothesis Hcap : (h + 2 * g + 60 <= 1000)%Z.
Notation big := (h + g + 56)%Z.
Notation top := (h + 2 * g + 60)%Z.

(** ** Scalars *)
Definition small (x : b64) : Prop := upto big x.
Lemma acc_step a1 e dt : small a1 -> upto h e -> sane_step g dt -> small (a1 + e * dt).
Proof. intros A E [_ D]. apply (up_stag big (h + g)); [exact A|apply (up_mul L h g); [exact E|exact D|lia]|lia|lia]. Qed.
Lemma filt_step al e pe dt f : weight al -> upto h e -> upto h pe -> sane_step g dt -> small f -> small (al * ((e - pe) / dt) + (one - al) * f).
Proof.
  intros A E P [D _] F. apply (up_stag' big (h + 1 + g)); [| |lia|lia].
  - apply (up_mul L 0 (h + 1 + g)); [apply weight_up, A| |lia]. replace (h + 1 + g)%Z with ((h + 1) - (- g))%Z by lia; apply (up_div L (h + 1) (- g)); [|exact D|lia]. apply (up_sub L h); [exact E|exact P|lia].
  - apply (up_mul L 0 big); [apply weight_up, weight_rest, A|exact F|lia].
Qed.
Lemma rst_small b acc aw e : small acc -> small (rst1 b acc aw e).
Proof.
  intros A. unfold rst1. destruct b; [|exact A]. destruct (aw <? absT acc); [|exact A]. destruct (xorb _ _); [|exact A].
  apply up_zero; reflexivity.
Qed.
Lemma up_mone : upto 0 mone.
Proof. split; [reflexivity|]. change (val mone) with (val (Bopp (b64_ofZ 1))). unfold val. rewrite B2R_Bopp. change (B2R (b64_ofZ 1)) with (val (b64_ofZ 1)). rewrite val_one, Rabs_Ropp, Rabs_R1. change (2^0) with 1%R. lra. Qed.
Lemma sat1_up e x u l : upto e x -> upto e u -> upto e l -> upto e (sat1 x u l).
Proof. intros A B C. unfold sat1. destruct (u <? x); [exact B|]. destruct (x <? l); [exact C|exact A]. Qed.
Lemma ltb_r x y : fin x -> fin y -> (x <? y) = true -> (val x < val y)%R.
Proof. intros A B. apply (ltb_val x y A B). Qed.
(** The factor of the proportional saturation lies between 0 and 1. *)
Lemma ratio_weight x y : fin x -> fin y -> (0 <= val x < val y \/ val y < val x <= 0)%R -> weight (x / y).
Proof.
  intros Fx Fy H. assert (Ny : B2R y <> 0%R) by (unfold val in H; lra).
  pose proof (Bdiv_correct 53 1024 _ _ mode_NE x y Ny) as C.
  assert (Q : (0 <= B2R x / B2R y <= 1)%R).
  { unfold val in H. destruct H as [H|H].
    - assert (0 < / B2R y)%R by (apply Rinv_0_lt_compat; lra). split; [unfold Rdiv; nra|]. apply (Rmult_le_reg_r (B2R y)); [lra|]. unfold Rdiv. rewrite Rmult_assoc, Rinv_l by exact Ny. lra.
    - replace (B2R x / B2R y)%R with (- B2R x / - B2R y)%R by (field; exact Ny).
      assert (0 < / - B2R y)%R by (apply Rinv_0_lt_compat; lra). split; [unfold Rdiv; nra|]. apply (Rmult_le_reg_r (- B2R y)); [lra|]. unfold Rdiv. rewrite Rmult_assoc, Rinv_l by lra. lra. }
  assert (K : (0 <= rnd (B2R x / B2R y) <= 1)%R) by (split; [rewrite <- rnd_zero|rewrite <- rnd_one]; apply rnd_mono; lra).
  assert (K2 : (Rabs (rnd (B2R x / B2R y)) <= 1)%R) by (apply Rabs_le; lra).
  rewrite Rlt_bool_true in C; [|eapply Rle_lt_trans; [exact K2|]; change 1%R with (2^0); apply bpow_lt; lia].
  destruct C as (C & Fc & _). split; [exact (eq_trans Fc Fx)|]. unfold val. change (0 <= B2R (Bdiv mode_NE x y) <= 1)%R. rewrite C. exact K.
Qed.
Lemma weight_one : weight one. Proof. split; [reflexivity|]. change (val one) with (val (b64_ofZ 1)). rewrite val_one. lra. Qed.
Lemma psat_up e (get : V3 b64 -> b64) up lo s : (0 <= e <= 1000)%Z -> fin (get s) -> limit_pair g (get up) (get lo) -> upto3 e s -> upto3 e (psat1 get up lo s).
Proof.
  intros He Fs ((Fu & _) & (Fl & _) & Hz) Us. unfold psat1. cbv zeta.
  assert (W : weight (if get up <? get s then get up / get s else if get s <? get lo then get lo / get s else one)).
  { destruct (get up <? get s) eqn:E1; [apply ratio_weight; [exact Fu|exact Fs|]; apply ltb_r in E1; [left; lra|exact Fu|exact Fs]|].
    destruct (get s <? get lo) eqn:E2; [apply ratio_weight; [exact Fl|exact Fs|]; apply ltb_r in E2; [right; lra|exact Fs|exact Fl]|]. exact weight_one. }
  pose proof (up3_scale L e 0 s _ (weight_up _ W) Us ltac:(lia)) as K. exact K.
Qed.
Lemma saturate_up e x up lo b : (g <= e <= 1000)%Z -> upto3 e x -> limit_pairs g up lo -> upto3 e (saturate x up lo b).
Proof.
  intros He U (A & B & C). unfold saturate. destruct b; cbn [negb].
  - assert (H1 : upto3 e (psat1 vx up lo x)) by (apply psat_up; [lia|apply U|exact A|exact U]).
    assert (H2 : upto3 e (psat1 vy up lo (psat1 vx up lo x))) by (apply psat_up; [lia|apply H1|exact B|exact H1]).
    apply psat_up; [lia|apply H2|exact C|exact H2].
  - destruct U as (U1 & U2 & U3). destruct A as (A1 & A2 & _). destruct B as (B1 & B2 & _). destruct C as (C1 & C2 & _).
    split; [|split]; cbn [vx vy vz]; (apply sat1_up; [assumption| |]); (apply (up_weak g); [lia|assumption]).
Qed.

(** ** The vector controller *)
Definition cfg_ok (c : PidCfg b64) : Prop :=
  upto9 g (pc_kp c) /\ upto9 g (pc_ki c) /\ upto9 g (pc_kd c) /\ upto3 g (pc_aw c) /\ weights (pc_alpha c) /\ limit_pairs g (pc_up c) (pc_lo c).
Definition st_ok (s : PidSt b64) : Prop :=
  upto3 big (ps_acc s) /\ upto3 big (ps_filt s) /\ upto3 h (ps_perr s) /\
  upto3 top (ps_cp s) /\ upto3 top (ps_ci s) /\ upto3 top (ps_cd s) /\ upto3 top (ps_out s).
Definition pid_ok (p : Pid b64) : Prop := cfg_ok (pid_c p) /\ st_ok (pid_s p).

Lemma diag_up k : upto3 g k -> upto9 g (vdiagm k).
Proof. intros (A & B & C). assert (Z : upto g zero) by (apply up_zero; reflexivity). split; [|split]; (split; [|split]); assumption. Qed.
Lemma up3_v0 e : upto3 e v0. Proof. split; [|split]; apply up_zero; reflexivity. Qed.

Lemma set_sat_ok c u l b : cfg_ok c -> limit_pairs g u l -> cfg_ok (pc_set_sat c u l b).
Proof.
  intros (A & B & C & D & E & F) H. unfold pc_set_sat. repeat match goal with |- context [sat_bad ?x ?y] => destruct (sat_bad x y) end;
    (split; [exact A|]; split; [exact B|]; split; [exact C|]; split; [exact D|]; split; [exact E|]; first [exact H|exact F]).
Qed.
Lemma update_ok c p : cfg_ok c -> sane_settings g p -> cfg_ok (pc_update c p).
Proof.
  intros (A & B & C & D & E & F) (Kp & Ki & Kd & Ka & Kw & Kl). unfold pc_update. cbv zeta.
  set (c1 := pc_set_pflag _ _). assert (H : cfg_ok c1).
  { split; [exact (diag_up _ Kp)|]. split; [exact (diag_up _ Ki)|]. split; [exact (diag_up _ Kd)|]. split; [exact Ka|]. split; [exact Kw|exact F]. }
  destruct (_ || _); [apply set_sat_ok; assumption|]. exact H.
Qed.
Lemma init_ok s e : st_ok s -> upto3 h e -> st_ok (ps_init s e).
Proof.
  intros (A & B & C & D) E. unfold ps_init. destruct (ps_first s); [|split; [exact A|split; [exact B|split; [exact C|exact D]]]].
  split; [apply up3_v0|]. split; [apply up3_v0|]. split; [exact E|exact D].
Qed.
Lemma acc_ok c s dt e : cfg_ok c -> st_ok s -> sane_step g dt -> upto3 h e -> upto3 big (pid_acc c (ps_acc s) dt e).
Proof.
  intros (_ & _ & _ & Aw & _) ((A1 & A2 & A3) & _) D (E1 & E2 & E3). unfold pid_acc. cbv zeta.
  set (a2 := vadd _ _). assert (H : upto3 big a2) by (split; [|split]; (apply acc_step; [apply rst_small; assumption|assumption|exact D])).
  destruct (negb _); [|exact H]. unfold saturate. cbn [negb]. destruct H as (H1 & H2 & H3). pose proof Aw as (W1 & W2 & W3). pose proof (up3_scale L g 0 _ _ up_mone Aw ltac:(lia)) as (N1 & N2 & N3).
  split; [|split]; cbn [vx vy vz]; (apply sat1_up; [assumption| |]); (apply (up_weak g); [lia|assumption]).
Qed.
Lemma filt_ok c s dt e : cfg_ok c -> st_ok s -> sane_step g dt -> upto3 h e -> upto3 big (pid_filt c s dt e).
Proof.
  intros (_ & _ & _ & _ & (W1 & W2 & W3) & _) (_ & (F1 & F2 & F3) & (P1 & P2 & P3) & _) D (E1 & E2 & E3). unfold pid_filt. cbv zeta.
  split; [|split]; (apply filt_step; assumption).
Qed.
Lemma out_ok c cp ci cd : cfg_ok c -> upto3 (big + g + 2) cp -> upto3 (big + g + 2) ci -> upto3 (big + g + 2) cd -> upto3 top (pid_out c cp ci cd).
Proof.
  intros (_ & _ & _ & _ & _ & Lm) A B C. unfold pid_out. cbv zeta.
  assert (H : upto3 top (vadd (vadd cp ci) cd)).
  { apply (up3_weak (big + g + 2 + 1 + 1)); [lia|]. apply (up3_add L (big + g + 2 + 1)); [apply (up3_add L (big + g + 2)); [exact A|exact B|lia]|apply (up3_weak (big + g + 2)); [lia|exact C]|lia]. }
  destruct (pc_sflag c); [|exact H]. apply saturate_up; [lia|exact H|exact Lm].
Qed.
Lemma gain_ok e m v : (g <= e <= big)%Z -> upto9 g m -> upto3 e v -> upto3 (big + g + 2) (mmulv m v).
Proof. intros He M V. apply (up3_weak (g + e + 2)); [lia|]. apply (up3_mmulv L); [exact M|exact V|lia]. Qed.
Lemma compute_ok p dt e : pid_ok p -> sane_step g dt -> upto3 h e -> pid_ok (pid_compute p dt e).
Proof.
  intros [C S0] D E. pose proof (init_ok _ _ S0 E) as S. unfold pid_compute. cbv zeta. set (s := ps_init _ _) in *. clearbody s.
  pose proof C as (Kp & Ki & Kd & _).
  pose proof (acc_ok _ _ dt e C S D E) as A. pose proof (filt_ok _ _ dt e C S D E) as F.
  pose proof (gain_ok h _ _ ltac:(lia) Kp E) as Cp. pose proof (gain_ok big _ _ ltac:(lia) Ki A) as Ci. pose proof (gain_ok big _ _ ltac:(lia) Kd F) as Cd.
  split; [exact C|]. cbn [pid_s]. unfold st_ok. cbn [ps_acc ps_filt ps_perr ps_cp ps_ci ps_cd ps_out].
  split; [exact A|]. split; [exact F|]. split; [exact E|]. split; [apply (up3_weak (big + g + 2)); [lia|exact Cp]|]. split; [apply (up3_weak (big + g + 2)); [lia|exact Ci]|]. split; [apply (up3_weak (big + g + 2)); [lia|exact Cd]|].
  apply out_ok; assumption.
Qed.
Lemma compute_d_ok p dt e de : pid_ok p -> sane_step g dt -> upto3 h e -> upto3 h de -> pid_ok (pid_compute_d p dt e de).
Proof.
  intros [C S0] D E De. pose proof (init_ok _ _ S0 E) as S. unfold pid_compute_d. cbv zeta. set (s := ps_init _ _) in *. clearbody s.
  pose proof C as (Kp & Ki & Kd & _).
  pose proof (acc_ok _ _ dt e C S D E) as A. destruct S as (_ & F & _).
  pose proof (gain_ok h _ _ ltac:(lia) Kp E) as Cp. pose proof (gain_ok big _ _ ltac:(lia) Ki A) as Ci. pose proof (gain_ok h _ _ ltac:(lia) Kd De) as Cd.
  split; [exact C|]. cbn [pid_s]. unfold st_ok. cbn [ps_acc ps_filt ps_perr ps_cp ps_ci ps_cd ps_out].
  split; [exact A|]. split; [exact F|]. split; [exact E|]. split; [apply (up3_weak (big + g + 2)); [lia|exact Cp]|]. split; [apply (up3_weak (big + g + 2)); [lia|exact Ci]|]. split; [apply (up3_weak (big + g + 2)); [lia|exact Cd]|].
  apply out_ok; assumption.
Qed.
Lemma step_ok p op : pid_ok p -> sane_op g h op -> pid_ok (pid_step p op).
Proof.
  intros H Ho. pose proof H as [C S]. pose proof C as (K1 & K2 & K3 & K4 & K5 & K6).
  destruct op as [pp| |u l b| |kp ki kd|k|k|k|k|al|b|b|dt e|dt e de]; cbn [sane_op pid_step] in *.
  - split; [apply update_ok; assumption|exact S].
  - split; [exact C|exact S].
  - split; [apply set_sat_ok; assumption|exact S].
  - split; [exact C|exact S].
  - destruct Ho as (A & B & D). split; [|exact S]. split; [exact (diag_up _ A)|]. split; [exact (diag_up _ B)|]. split; [exact (diag_up _ D)|]. split; [exact K4|split; [exact K5|exact K6]].
  - split; [|exact S]. split; [exact (diag_up _ Ho)|]. split; [exact K2|]. split; [exact K3|]. split; [exact K4|split; [exact K5|exact K6]].
  - split; [|exact S]. split; [exact K1|]. split; [exact (diag_up _ Ho)|]. split; [exact K3|]. split; [exact K4|split; [exact K5|exact K6]].
  - split; [|exact S]. split; [exact K1|]. split; [exact K2|]. split; [exact (diag_up _ Ho)|]. split; [exact K4|split; [exact K5|exact K6]].
  - split; [|exact S]. split; [exact K1|]. split; [exact K2|]. split; [exact K3|]. split; [exact Ho|split; [exact K5|exact K6]].
  - split; [|exact S]. split; [exact K1|]. split; [exact K2|]. split; [exact K3|]. split; [exact K4|split; [exact Ho|exact K6]].
  - split; [exact C|exact S].
  - split; [exact C|exact S].
  - destruct Ho as [A B]. apply compute_ok; assumption.
  - destruct Ho as (A & B & D). apply compute_d_ok; assumption.
Qed.
Lemma new_ok pp : sane_settings g pp -> pid_ok (pid_new pp).
Proof.
  intros H. unfold pid_new, pid_reset, pid_update. cbn [pid_c pid_s]. split; cbn [pid_c pid_s].
  - apply update_ok; [|exact H]. assert (Z : upto g zero) by (apply up_zero; reflexivity). assert (I1 : upto g one) by (apply (up_weak 0); [lia|apply weight_up, weight_one]).
    assert (I9 : upto9 g mI) by (split; [|split]; (split; [|split]); assumption).
    assert (W : weight zero) by (split; [reflexivity|]; change (val zero) with 0%R; lra).
    assert (P : limit_pair g zero zero) by (split; [exact Z|split; [exact Z|]]; change (val zero) with 0%R; lra).
    split; [exact I9|]. split; [exact I9|]. split; [exact I9|]. split; [apply up3_v0|]. split; [split; [exact W|split; exact W]|]. split; [exact P|split; exact P].
  - unfold st_ok, ps_reset, ps0. cbn [ps_acc ps_filt ps_perr ps_cp ps_ci ps_cd ps_out].
    split; [apply up3_v0|]. split; [apply up3_v0|]. split; [apply up3_v0|]. split; [apply up3_v0|]. split; [apply up3_v0|]. split; apply up3_v0.
Qed.
Theorem history_numbers pp ops : sane_settings g pp -> Forall (sane_op g h) ops -> let p := pid_run (pid_new pp) ops in
  upto3 top (pid_output p) /\ upto3 top (pid_prop_part p) /\ upto3 top (pid_int_part p) /\ upto3 top (pid_der_part p).
Proof.
  intros H Hl. cbv zeta. unfold pid_run. assert (K : forall l q, pid_ok q -> Forall (sane_op g h) l -> pid_ok (fold_left pid_step l q)).
  { induction l as [|o r IH]; intros q Hq Hf; cbn [fold_left]; [exact Hq|]. apply Forall_cons_iff in Hf as [Ho Hf]. apply IH; [apply step_ok; assumption|exact Hf]. }
  destruct (K ops _ (new_ok pp H) Hl) as [_ (_ & _ & _ & A & B & C & D)]. split; [exact D|]. split; [exact A|]. split; [exact B|exact C].
Qed.

(** ** The scalar controller *)
Definition cfg1_ok (c : P1Cfg b64) : Prop :=
  upto g (c1_kp c) /\ upto g (c1_ki c) /\ upto g (c1_kd c) /\ sane_aw g (c1_aw c) /\ weight (c1_alpha c) /\ upto g (c1_up c) /\ upto g (c1_lo c) /\
  (c1_sflag c = true -> ltb (c1_up c) (c1_lo c) = false).
Definition st1_ok (s : P1St b64) : Prop :=
  small (s1_acc s) /\ small (s1_filt s) /\ upto h (s1_perr s) /\ upto top (s1_ci s) /\ upto top (s1_out s).
Definition pid1_ok (p : Pid1 b64) : Prop := cfg1_ok (pid1_c p) /\ st1_ok (pid1_s p).
Lemma clamp_up e x l u : upto e x -> upto e l -> upto e u -> ltb u l = false -> exists y, clamp x l u = Some y /\ upto e y.
Proof.
  intros A B C H. unfold clamp. rewrite H. destruct (x <? l); [exists l; split; [reflexivity|exact B]|]. destruct (u <? x); [exists u; split; [reflexivity|exact C]|exists x; split; [reflexivity|exact A]].
Qed.
Lemma set_sat1_ok c u l : cfg1_ok c -> upto g u -> upto g l -> cfg1_ok (c1_set_sat c u l).
Proof.
  intros (A & B & C & D & E & F & G & H) Hu Hl. unfold c1_set_sat.
  assert (N : cfg1_ok (c1_disable_sat c)) by (split; [exact A|]; split; [exact B|]; split; [exact C|]; split; [exact D|]; split; [exact E|]; split; [exact F|]; split; [exact G|]; intros X; discriminate X).
  destruct (_ <? eps); [exact N|]. destruct (u <? l) eqn:Eu; [exact N|].
  split; [exact A|]; split; [exact B|]; split; [exact C|]; split; [exact D|]; split; [exact E|]; split; [exact Hu|]; split; [exact Hl|]. intros _. exact Eu.
Qed.
Lemma update1_ok c p : cfg1_ok c -> sane_settings1 g p -> cfg1_ok (c1_update c p).
Proof.
  intros (A & B & C & D & E & F & G & H) (Kp & Ki & Kd & Ka & Kw & Ku & Kl). unfold c1_update. cbv zeta.
  set (c1 := c1_set_rflag _ _). assert (N : cfg1_ok c1).
  { split; [exact Kp|]. split; [exact Ki|]. split; [exact Kd|]. split; [exact Ka|]. split; [exact Kw|]. split; [exact F|]. split; [exact G|exact H]. }
  destruct (_ || _); [apply set_sat1_ok; assumption|].
  destruct N as (N1 & N2 & N3 & N4 & N5 & N6 & N7 & _). split; [exact N1|]; split; [exact N2|]; split; [exact N3|]; split; [exact N4|]; split; [exact N5|]; split; [exact N6|]; split; [exact N7|]; intros X; discriminate X.
Qed.
Lemma init1_ok s e : st1_ok s -> upto h e -> st1_ok (s1_init s e).
Proof.
  intros (A & B & C & D) E. unfold s1_init. destruct (s1_first s); [|split; [exact A|split; [exact B|split; [exact C|exact D]]]].
  split; [apply up_zero; reflexivity|]. split; [apply up_zero; reflexivity|]. split; [exact E|exact D].
Qed.
Lemma acc1_ok c s dt e : cfg1_ok c -> st1_ok s -> sane_step g dt -> upto h e -> exists a, pid1_acc c (s1_acc s) dt e = Some a /\ small a.
Proof.
  intros (_ & _ & _ & (Aw & Pw) & _) (A & _) D E. unfold pid1_acc. cbv zeta.
  assert (H : small (rst1 (c1_rflag c) (s1_acc s) (c1_aw c) e + e * dt)) by (apply acc_step; [apply rst_small; exact A|exact E|exact D]).
  destruct (negb _); [|eexists; split; [reflexivity|exact H]]. unfold saturate1.
  assert (Un : upto g (mone * c1_aw c)) by (apply (up_mul L 0 g); [exact up_mone|exact Aw|lia]).
  apply clamp_up; [exact H|apply (up_weak g); [lia|exact Un]|apply (up_weak g); [lia|exact Aw]|].
  destruct (c1_aw c <? mone * c1_aw c) eqn:Eb; [|reflexivity]. exfalso. apply ltb_r in Eb; [|apply Aw|apply Un].
  assert (V : val (mone * c1_aw c) = rnd (val mone * val (c1_aw c))%R) by exact (v_mul L 0 g mone (c1_aw c) up_mone Aw ltac:(lia)).
  assert (M1 : val mone = (-1)%R). { change (val mone) with (val (Bopp (b64_ofZ 1))). unfold val. rewrite B2R_Bopp. change (B2R (b64_ofZ 1)) with (val (b64_ofZ 1)). rewrite val_one. reflexivity. }
  rewrite M1 in V. assert (K : (rnd (-1 * val (c1_aw c)) <= 0)%R) by (rewrite <- rnd_zero; apply rnd_mono; lra). lra.
Qed.
Lemma out1_ok c cp ci cd : cfg1_ok c -> upto (big + g + 2) cp -> upto (big + g + 2) ci -> upto (big + g + 2) cd -> exists o, pid1_out c cp ci cd = Some o /\ upto top o.
Proof.
  intros (_ & _ & _ & _ & _ & Lu & Ll & Hs) A B C. unfold pid1_out. cbv zeta.
  assert (H : upto top (cp + ci + cd)).
  { apply (up_weak (big + g + 2 + 1 + 1)); [lia|]. apply (up_add L (big + g + 2 + 1)); [apply (up_add L (big + g + 2)); [exact A|exact B|lia]|apply (up_weak (big + g + 2)); [lia|exact C]|lia]. }
  destruct (c1_sflag c); [|eexists; split; [reflexivity|exact H]]. unfold saturate1.
  apply clamp_up; [exact H|apply (up_weak g); [lia|exact Ll]|apply (up_weak g); [lia|exact Lu]|exact (Hs eq_refl)].
Qed.
Lemma gain1_ok e m v : (g <= e <= big)%Z -> upto g m -> upto e v -> upto (big + g + 2) (m * v).
Proof. intros He M V. apply (up_weak (g + e)); [lia|]. apply (up_mul L); [exact M|exact V|lia]. Qed.
Lemma step1_ok p op : pid1_ok p -> sane_op1 g h op -> exists p', pid1_step p op = Some p' /\ pid1_ok p'.
Proof.
  intros Hp Ho. pose proof Hp as [C S]. pose proof C as (K1 & K2 & K3 & K4 & K5 & K6 & K7 & K8).
  destruct op as [pp| |u l| |kp ki kd|k|k|k|k|al|b|dt e|dt e de]; cbn [sane_op1 pid1_step] in *; try (eexists; split; [reflexivity|]).
  - split; [apply update1_ok; assumption|exact S].
  - split; [exact C|exact S].
  - destruct Ho. split; [apply set_sat1_ok; assumption|exact S].
  - split; [|exact S]. split; [exact K1|]; split; [exact K2|]; split; [exact K3|]; split; [exact K4|]; split; [exact K5|]; split; [exact K6|]; split; [exact K7|]; intros X; discriminate X.
  - destruct Ho as (A & B & D). split; [|exact S]. split; [exact A|]; split; [exact B|]; split; [exact D|]; split; [exact K4|]; split; [exact K5|]; split; [exact K6|]; split; [exact K7|exact K8].
  - split; [|exact S]. split; [exact Ho|]; split; [exact K2|]; split; [exact K3|]; split; [exact K4|]; split; [exact K5|]; split; [exact K6|]; split; [exact K7|exact K8].
  - split; [|exact S]. split; [exact K1|]; split; [exact Ho|]; split; [exact K3|]; split; [exact K4|]; split; [exact K5|]; split; [exact K6|]; split; [exact K7|exact K8].
  - split; [|exact S]. split; [exact K1|]; split; [exact K2|]; split; [exact Ho|]; split; [exact K4|]; split; [exact K5|]; split; [exact K6|]; split; [exact K7|exact K8].
  - split; [|exact S]. split; [exact K1|]; split; [exact K2|]; split; [exact K3|]; split; [exact Ho|]; split; [exact K5|]; split; [exact K6|]; split; [exact K7|exact K8].
  - split; [|exact S]. split; [exact K1|]; split; [exact K2|]; split; [exact K3|]; split; [exact K4|]; split; [exact Ho|]; split; [exact K6|]; split; [exact K7|exact K8].
  - split; [exact C|exact S].
  - destruct Ho as [D E]. pose proof (init1_ok _ _ S E) as S'. unfold pid1_compute. cbv zeta. set (s := s1_init _ _) in *. clearbody s.
    destruct (acc1_ok _ _ dt e C S' D E) as (a & -> & A). cbn [bindo].
    assert (F : small (pid1_filt (pid1_c p) s dt e)) by (destruct S' as (_ & F & P & _); apply filt_step; assumption).
    pose proof (gain1_ok h _ _ ltac:(lia) K1 E) as Cp. pose proof (gain1_ok big _ _ ltac:(lia) K2 A) as Ci. pose proof (gain1_ok big _ _ ltac:(lia) K3 F) as Cd.
    destruct (out1_ok (pid1_c p) _ _ _ C Cp Ci Cd) as (o & -> & Uo). cbn [bindo]. eexists. split; [reflexivity|]. split; [exact C|].
    split; [exact A|]. split; [exact F|]. split; [exact E|]. split; [apply (up_weak (big + g + 2)); [lia|exact Ci]|exact Uo].
  - destruct Ho as (D & E & De). pose proof (init1_ok _ _ S E) as S'. unfold pid1_compute_d. cbv zeta. set (s := s1_init _ _) in *. clearbody s.
    destruct (acc1_ok _ _ dt e C S' D E) as (a & -> & A). cbn [bindo]. destruct S' as (_ & F & _).
    pose proof (gain1_ok h _ _ ltac:(lia) K1 E) as Cp. pose proof (gain1_ok big _ _ ltac:(lia) K2 A) as Ci. pose proof (gain1_ok h _ _ ltac:(lia) K3 De) as Cd.
    destruct (out1_ok (pid1_c p) _ _ _ C Cp Ci Cd) as (o & -> & Uo). cbn [bindo]. eexists. split; [reflexivity|]. split; [exact C|].
    split; [exact A|]. split; [exact F|]. split; [exact E|]. split; [apply (up_weak (big + g + 2)); [lia|exact Ci]|exact Uo].
Qed.
Lemma new1_ok pp : sane_settings1 g pp -> pid1_ok (pid1_new pp).
Proof.
  intros H. assert (Z : forall e, upto e zero) by (intros e; apply up_zero; reflexivity). split.
  - cbn [pid1_new pid1_reset pid1_update pid1_c]. apply update1_ok; [|exact H].
    split; [apply Z|]. split; [apply Z|]. split; [apply Z|]. split; [split; [apply Z|change (0 <= 0)%R; lra]|]. split; [exact weight_one|]. split; [apply Z|]. split; [apply Z|]. intros X; discriminate X.
  - split; [apply Z|]. split; [apply Z|]. split; [apply Z|]. split; apply Z.
Qed.
Theorem history1_numbers pp ops : sane_settings1 g pp -> Forall (sane_op1 g h) ops -> exists p, pid1_run (pid1_new pp) ops = Some p /\
  upto top (pid1_output p) /\ upto top (pid1_int_part p).
Proof.
  intros H Hl. assert (K : forall l q, pid1_ok q -> Forall (sane_op1 g h) l -> exists p, pid1_run q l = Some p /\ pid1_ok p).
  { induction l as [|o r IH]; intros q Hq Hf; cbn [pid1_run]; [exists q; split; [reflexivity|exact Hq]|]. apply Forall_cons_iff in Hf as [Ho Hf].
    destruct (step1_ok q o Hq Ho) as (q' & -> & Hq'). cbn [bindo]. exact (IH q' Hq' Hf). }
  destruct (K ops _ (new1_ok pp H) Hl) as (p & E & [_ (_ & _ & _ & A & B)]). exists p. split; [exact E|]. split; [exact B|exact A].
Qed.
End Num.
