(** Proofs: signed square and signed root in binary64. *)

From Coq Require Import ZArith Bool Reals Lra Lia Psatz.
From Flocq Require Import Core BinarySingleNaN Relative.
From Verif Require Import Scalar Float64 MUtils SpecDyn SpecRound PBase PFloat PRound PUnit64.
Local Open Scope R_scope.

#[local] Instance vexp : Valid_exp (SpecFloat.fexp 53 1024) := fexp_correct 53 1024 prec53.

(** ** Real rounding *)
Lemma ulp_at x k : (-1022 <= k)%Z -> bpow radix2 k <= x < bpow radix2 (k + 1) -> ulp radix2 (SpecFloat.fexp 53 1024) x = bpow radix2 (k - 52).
Proof.
  intros K B. assert (x <> 0) by (pose proof (bpow_gt_0 radix2 k); lra). rewrite ulp_neq_0 by assumption. unfold cexp.
  rewrite (mag_unique_pos radix2 x (k + 1)) by (replace (k + 1 - 1)%Z with k by ring; exact B).
  f_equal. unfold SpecFloat.fexp, SpecFloat.emin. lia.
Qed.
Lemma rnd_half x k : (-1022 <= k)%Z -> bpow radix2 k <= x < bpow radix2 (k + 1) -> Rabs (rnd x - x) <= bpow radix2 (k - 53).
Proof.
  intros K B. pose proof (error_le_half_ulp radix2 (SpecFloat.fexp 53 1024) (fun z => negb (Z.even z)) x) as E. rewrite (ulp_at x k K B) in E.
  change (Znearest (fun z => negb (Z.even z))) with (round_mode mode_NE) in E. eapply Rle_trans; [exact E|]. apply Req_le.
  replace (k - 52)%Z with (1 + (k - 53))%Z by ring. rewrite bpow_plus. change (bpow radix2 1) with 2. field.
Qed.
Lemma rnd_low x k : (-1074 <= k <= 1000)%Z -> bpow radix2 k <= x -> bpow radix2 k <= rnd x.
Proof. intros K B. apply round_ge_generic; [apply vexp|apply valid_rnd_N|apply fmt_pow; exact K|exact B]. Qed.
Lemma rnd_high x k : (-1074 <= k <= 1000)%Z -> x <= bpow radix2 k -> rnd x <= bpow radix2 k.
Proof. intros K B. apply round_le_generic; [apply vexp|apply valid_rnd_N|apply fmt_pow; exact K|exact B]. Qed.

Lemma root_off (x y q E : R) : 0 < q -> 0 <= y -> q <= sqrt y + x -> Rabs (y - x * x) <= E -> Rabs (sqrt y - x) <= E / q.
Proof.
  intros Q Y S B. assert (N : (sqrt y - x) * (sqrt y + x) = y - x * x) by (rewrite <- (sqrt_sqrt y Y) at 3; ring).
  rewrite <- N, Rabs_mult, (Rabs_right (sqrt y + x)) in B by lra. apply Rmult_le_reg_r with q; [exact Q|].
  replace (E / q * q) with E by (field; lra). eapply Rle_trans; [|exact B]. apply Rmult_le_compat_l; [apply Rabs_pos|exact S].
Qed.

Lemma root_of_square_R x : fmt x -> bpow radix2 (-511) <= x < bpow radix2 499 -> rnd (sqrt (rnd (x * x))) = x.
Proof.
  intros Fx [B1 B2]. assert (P : 0 < x) by (pose proof (bpow_gt_0 radix2 (-511)); lra).
  destruct (mag radix2 x) as [m Hm]. specialize (Hm ltac:(lra)). rewrite Rabs_right in Hm by lra. set (e := (m - 1)%Z).
  assert (Be : bpow radix2 e <= x < bpow radix2 (e + 1)) by (unfold e; replace (m - 1 + 1)%Z with m by ring; exact Hm).
  assert (Re : (-511 <= e <= 498)%Z).
  { split.
    - assert (-511 < e + 1)%Z; [|lia]. apply (lt_bpow radix2). lra.
    - assert (e < 499)%Z; [|lia]. apply (lt_bpow radix2). lra. }
  clearbody e. clear Hm m.
  assert (Sq : bpow radix2 e * bpow radix2 e = bpow radix2 (2 * e)) by (rewrite <- bpow_plus; f_equal; ring).
  assert (Pe : 0 < bpow radix2 e) by apply bpow_gt_0.
  set (y := rnd (x * x)).
  destruct (Req_dec x (bpow radix2 e)) as [Ex|Ex].
  { unfold y. rewrite Ex, Sq. rewrite (round_generic radix2 (SpecFloat.fexp 53 1024) _ (bpow radix2 (2 * e))) by (apply fmt_pow; lia).
    rewrite <- Sq, sqrt_square by lra. apply round_generic; [apply valid_rnd_N|apply fmt_pow; lia]. }
  assert (Mx : bpow radix2 e < x) by lra.
  assert (S1 : bpow radix2 (e + 1) = 2 * bpow radix2 e) by (rewrite bpow_plus; change (bpow radix2 1) with 2; ring).
  assert (Xl : bpow radix2 (2 * e) <= x * x) by (rewrite <- Sq; nra).
  assert (Yl : bpow radix2 (2 * e) <= y) by (apply rnd_low; [lia|exact Xl]).
  assert (Sl : bpow radix2 e <= sqrt y).
  { rewrite <- (sqrt_square (bpow radix2 e)) by lra. apply sqrt_le_1_alt. rewrite Sq. exact Yl. }
  assert (Y0 : 0 <= y) by (pose proof (bpow_gt_0 radix2 (2 * e)); lra).
  assert (Half : Rabs (sqrt y - x) < bpow radix2 (e - 53)).
  { destruct (Rlt_le_dec (x * x) (bpow radix2 (2 * e + 1))) as [C|C].
    - assert (H1 : Rabs (y - x * x) <= bpow radix2 (2 * e - 53)) by (apply rnd_half; [lia|split; assumption]).
      assert (H2 : Rabs (sqrt y - x) <= bpow radix2 (2 * e - 53) / bpow radix2 (e + 1)) by (apply root_off; [apply bpow_gt_0|exact Y0|lra|exact H1]).
      eapply Rle_lt_trans; [exact H2|]. unfold Rdiv. rewrite <- bpow_opp, <- bpow_plus. apply bpow_lt. lia.
    - assert (Xh : x * x < bpow radix2 (2 * e + 1 + 1)).
      { replace (2 * e + 1 + 1)%Z with ((e + 1) + (e + 1))%Z by ring. rewrite bpow_plus. nra. }
      assert (H1 : Rabs (y - x * x) <= bpow radix2 (2 * e + 1 - 53)) by (apply rnd_half; [lia|split; assumption]).
      assert (Yl2 : bpow radix2 (2 * e + 1) <= y) by (apply rnd_low; [lia|exact C]).
      assert (T : bpow radix2 (2 * e + 1) = 2 * (bpow radix2 e * bpow radix2 e)) by (rewrite bpow_plus, <- Sq; change (bpow radix2 1) with 2; ring).
      assert (Q1 : 5 / 4 * bpow radix2 e <= sqrt y).
      { rewrite <- (sqrt_square (5 / 4 * bpow radix2 e)) by lra. apply sqrt_le_1_alt. nra. }
      assert (Q2 : 5 / 4 * bpow radix2 e <= x) by nra.
      assert (H2 : Rabs (sqrt y - x) <= bpow radix2 (2 * e + 1 - 53) / (5 / 2 * bpow radix2 e)) by (apply root_off; [lra|exact Y0|lra|exact H1]).
      eapply Rle_lt_trans; [exact H2|]. apply Rmult_lt_reg_r with (5 / 2 * bpow radix2 e); [lra|].
      replace (bpow radix2 (2 * e + 1 - 53) / (5 / 2 * bpow radix2 e) * (5 / 2 * bpow radix2 e)) with (bpow radix2 (2 * e + 1 - 53)) by (field; lra).
      replace (2 * e + 1 - 53)%Z with (e + (e - 53) + 1)%Z by ring. rewrite !bpow_plus. change (bpow radix2 1) with 2.
      pose proof (bpow_gt_0 radix2 (e - 53)). nra. }
  assert (Ux : ulp radix2 (SpecFloat.fexp 53 1024) x = 2 * bpow radix2 (e - 53)).
  { rewrite (ulp_at x e) by (lia || exact Be). replace (e - 52)%Z with (1 + (e - 53))%Z by ring. rewrite bpow_plus. change (bpow radix2 1) with 2. ring. }
  apply Rabs_def2 in Half as [Hu Hl].
  apply Rle_antisym.
  - apply (round_N_le_midp radix2 (SpecFloat.fexp 53 1024) (fun z => negb (Z.even z)) x (sqrt y)); [exact Fx|].
    rewrite succ_eq_pos by lra. rewrite Ux. lra.
  - apply (round_N_ge_midp radix2 (SpecFloat.fexp 53 1024) (fun z => negb (Z.even z)) x (sqrt y)); [exact Fx|].
    rewrite pred_eq_pos by lra. unfold pred_pos.
    assert (Mg : (mag radix2 x : Z) = (e + 1)%Z) by (apply mag_unique_pos; replace (e + 1 - 1)%Z with e by ring; exact Be).
    rewrite Mg. replace (e + 1 - 1)%Z with e by ring. rewrite Req_bool_false by exact Ex. rewrite Ux. lra.
Qed.

(** ** Doubles *)
Lemma mul_sign (y s : b64) : fin y -> fin s -> val s = 1 \/ val s = -1 -> fin (Bmult mode_NE y s) /\ val (Bmult mode_NE y s) = val y * val s.
Proof.
  intros Fy Fs S. pose proof (Bmult_correct 53 1024 _ _ mode_NE y s) as C.
  assert (R : rnd (B2R y * B2R s) = B2R y * B2R s).
  { apply round_generic; [apply valid_rnd_N|]. unfold val in S. destruct S as [-> | ->].
    - rewrite Rmult_1_r. apply generic_format_B2R.
    - replace (B2R y * -1) with (- B2R y) by ring. apply generic_format_opp, generic_format_B2R. }
  rewrite R in C. assert (B : Rlt_bool (Rabs (B2R y * B2R s)) (bpow radix2 1024) = true).
  { apply Rlt_bool_true. replace (Rabs (B2R y * B2R s)) with (Rabs (B2R y)); [apply abs_B2R_lt_emax|].
    unfold val in S. rewrite Rabs_mult. destruct S as [-> | ->]; [rewrite Rabs_R1; ring|rewrite (Rabs_left (-1)) by lra; ring]. }
  rewrite B in C. destruct C as (C & F & _). rewrite Fy, Fs in F. split; [exact F|exact C].
Qed.
Lemma val_mone : val (b64_ofZ (-1)) = -1.
Proof.
  assert (E1 : B2SF (b64_ofZ (-1)) = SpecFloat.S754_finite true 4503599627370496 (-52)) by (vm_compute; reflexivity).
  unfold val. rewrite <- SF2R_B2SF, E1. cbn [SF2R cond_Zopp]. unfold F2R. cbn [Fnum Fexp Z.opp].
  change (bpow radix2 (-52)) with (/ IZR (Z.pow_pos 2 52)). replace (IZR (Z.pow_pos 2 52)) with 4503599627370496 by (f_equal; reflexivity). lra.
Qed.

Section Doubles.
Variable L : Libm.
Let O := F64Ops L.
Existing Instance O.

Lemma sign_cases (x : b64) : fin x -> fin (signT x) /\
  ((0 < val x /\ val (signT x) = 1) \/ (val x < 0 /\ val (signT x) = -1) \/ (val x = 0 /\ val (signT x) = 0)).
Proof.
  intros F. unfold signT. cbn [ltb zero one mone O F64Ops]. change (@zero b64 O) with (b64_ofZ 0). change (@one b64 O) with (b64_ofZ 1). change (@mone b64 O) with (b64_ofZ (-1)).
  pose proof (ltb_val (b64_ofZ 0) x fin_zero F) as A. pose proof (ltb_val x (b64_ofZ 0) F fin_zero) as B. rewrite val_zero in A, B.
  change (ltb (b64_ofZ 0) x) with (Bltb (b64_ofZ 0) x). change (ltb x (b64_ofZ 0)) with (Bltb x (b64_ofZ 0)).
  destruct (Bltb (b64_ofZ 0) x) eqn:E1; [split; [reflexivity|left; split; [apply A; reflexivity|exact val_one]]|].
  destruct (Bltb x (b64_ofZ 0)) eqn:E2; [split; [reflexivity|right; left; split; [apply B; reflexivity|exact val_mone]]|].
  split; [reflexivity|]. right. right. split; [|exact val_zero].
  destruct (Rtotal_order (val x) 0) as [K|[K|K]]; [apply B in K; discriminate K|exact K|apply A in K; discriminate K].
Qed.

(** Square: the rounded square with the sign of the number. *)
Lemma square64 (x : b64) : fin x -> Rabs (val x) <= bpow radix2 500 ->
  fin (sqks x) /\ ((0 < val x /\ val (sqks x) = rnd (val x * val x)) \/ (val x < 0 /\ val (sqks x) = - rnd (val x * val x)) \/ (val x = 0 /\ val (sqks x) = 0)).
Proof.
  intros F B. pose proof (Bmult_correct 53 1024 _ _ mode_NE x x) as C.
  assert (Big : Rlt_bool (Rabs (rnd (B2R x * B2R x))) (bpow radix2 1024) = true).
  { apply rnd_big. unfold huge. replace 1000%Z with (500 + 500)%Z by ring. rewrite bpow_plus, Rabs_mult. pose proof (Rabs_pos (val x)). unfold val in *.
    apply Rmult_le_compat; assumption. }
  rewrite Big in C. destruct C as (C & Fm & _). rewrite F in Fm. cbn in Fm.
  destruct (sign_cases x F) as (Fs & Cs). unfold sqks. change (mul (mul x x) (signT x)) with (Bmult mode_NE (Bmult mode_NE x x) (signT x)).
  set (m := Bmult mode_NE x x) in *. change (B2R m) with (val m) in C. change (B2R x) with (val x) in C.
  destruct Cs as [[P S]|[[P S]|[P S]]].
  - destruct (mul_sign m (signT x) Fm Fs (or_introl S)) as [K1 K2]. split; [exact K1|]. left. split; [exact P|]. rewrite K2, S, C. ring.
  - destruct (mul_sign m (signT x) Fm Fs (or_intror S)) as [K1 K2]. split; [exact K1|]. right. left. split; [exact P|]. rewrite K2, S, C. ring.
  - pose proof (Bmult_correct 53 1024 _ _ mode_NE m (signT x)) as K. change (B2R (signT x)) with (val (signT x)) in K. rewrite S, Rmult_0_r, round_0 in K by apply valid_rnd_N.
    rewrite Rabs_R0, Rlt_bool_true in K by apply bpow_gt_0. destruct K as (K1 & K2 & _). rewrite Fm, Fs in K2.
    split; [exact K2|]. right. right. split; [exact P|exact K1].
Qed.
Lemma root64 (x : b64) : fin x ->
  fin (sqrtks x) /\ ((0 < val x /\ val (sqrtks x) = rnd (sqrt (val x))) \/ (val x < 0 /\ val (sqrtks x) = - rnd (sqrt (- val x))) \/ (val x = 0 /\ val (sqrtks x) = 0)).
Proof.
  intros F. assert (Fa : fin (Babs x)) by (unfold fin; rewrite is_finite_Babs; exact F).
  assert (Va : val (Babs x) = Rabs (val x)) by apply B2R_Babs.
  destruct (ok_sqrt (Babs x) Fa) as [Fr _]; [rewrite Va; apply Rabs_pos|].
  pose proof (Bsqrt_correct 53 1024 _ _ mode_NE (Babs x)) as (C & _). change (B2R (Babs x)) with (val (Babs x)) in C. rewrite Va in C.
  destruct (sign_cases x F) as (Fs & Cs). unfold sqrtks. change (mul (sqrtT (absT x)) (signT x)) with (Bmult mode_NE (Bsqrt mode_NE (Babs x)) (signT x)).
  set (m := Bsqrt mode_NE (Babs x)) in *. change (B2R m) with (val m) in C.
  destruct Cs as [[P S]|[[P S]|[P S]]].
  - destruct (mul_sign m (signT x) Fr Fs (or_introl S)) as [K1 K2]. split; [exact K1|]. left. split; [exact P|]. rewrite K2, S, C, Rabs_right by lra. ring.
  - destruct (mul_sign m (signT x) Fr Fs (or_intror S)) as [K1 K2]. split; [exact K1|]. right. left. split; [exact P|]. rewrite K2, S, C, Rabs_left by lra. ring.
  - pose proof (Bmult_correct 53 1024 _ _ mode_NE m (signT x)) as K. change (B2R (signT x)) with (val (signT x)) in K. rewrite S, Rmult_0_r, round_0 in K by apply valid_rnd_N.
    rewrite Rabs_R0, Rlt_bool_true in K by apply bpow_gt_0. destruct K as (K1 & K2 & _). rewrite Fr, Fs in K2.
    split; [exact K2|]. right. right. split; [exact P|exact K1].
Qed.

Definition ordinary (x : R) : Prop := x = 0 \/ bpow radix2 (-511) <= Rabs x < bpow radix2 499.
Lemma ordinary_small x : ordinary x -> Rabs x <= bpow radix2 500.
Proof.
  intros [-> | [_ B]]; [rewrite Rabs_R0; apply bpow_ge_0|]. left. eapply Rlt_trans; [exact B|]. apply bpow_lt. lia.
Qed.

Lemma root_of_square64 (x : b64) : fin x -> ordinary (val x) -> fin (sqrtks (sqks x)) /\ val (sqrtks (sqks x)) = val x.
Proof.
  intros F Od. destruct (square64 x F (ordinary_small _ Od)) as (Fq & Cs). destruct (root64 _ Fq) as (Fr & Cr). split; [exact Fr|].
  assert (Pos : forall z, fmt z -> bpow radix2 (-511) <= z < bpow radix2 499 -> 0 < rnd (z * z)).
  { intros z Fz [B1 B2]. eapply Rlt_le_trans; [apply (bpow_gt_0 radix2 (-1022))|]. apply rnd_low; [lia|].
    replace (-1022)%Z with (-511 + -511)%Z by ring. rewrite bpow_plus. pose proof (bpow_ge_0 radix2 (-511)). apply Rmult_le_compat; assumption. }
  destruct Cs as [[P S]|[[P S]|[P S]]].
  - destruct Od as [Z|B]; [lra|]. rewrite Rabs_right in B by lra. pose proof (Pos _ (fmt_val x) B) as Q.
    destruct Cr as [[P' ->]|[[P' _]|[P' _]]]; [|lra|lra]. rewrite S. apply root_of_square_R; [apply fmt_val|exact B].
  - destruct Od as [Z|B]; [lra|]. rewrite Rabs_left in B by lra.
    assert (Fo : fmt (- val x)) by (apply generic_format_opp, fmt_val). pose proof (Pos _ Fo B) as Q.
    replace (- val x * - val x) with (val x * val x) in Q by ring.
    destruct Cr as [[P' _]|[[P' ->]|[P' _]]]; [lra| |lra]. rewrite S, Ropp_involutive.
    pose proof (root_of_square_R (- val x) Fo B) as K. replace (- val x * - val x) with (val x * val x) in K by ring. rewrite K. ring.
  - rewrite S in Cr. destruct Cr as [[P' _]|[[P' _]|[_ ->]]]; lra.
Qed.

Lemma square_rises64 (x y : b64) : fin x -> fin y -> Rabs (val x) <= bpow radix2 500 -> Rabs (val y) <= bpow radix2 500 -> val x <= val y -> val (sqks x) <= val (sqks y).
Proof.
  intros Fx Fy Bx By Le. destruct (square64 x Fx Bx) as (_ & Cx). destruct (square64 y Fy By) as (_ & Cy).
  assert (Mon : forall a b, a <= b -> rnd a <= rnd b) by (intros a b; apply round_le; [apply vexp|apply valid_rnd_N]).
  assert (Z : rnd 0 = 0) by (apply round_0; apply valid_rnd_N).
  assert (N : forall a, 0 <= rnd (a * a)) by (intros a; rewrite <- Z; apply Mon; nra).
  pose proof (N (val x)) as Nx. pose proof (N (val y)) as Ny.
  destruct Cx as [[P ->]|[[P ->]|[P ->]]], Cy as [[P' ->]|[[P' ->]|[P' ->]]]; try lra.
  - apply Mon. nra.
  - apply Ropp_le_contravar, Mon. nra.
Qed.
Lemma square_strict64 (x y : b64) : fin x -> fin y -> ordinary (val x) -> ordinary (val y) -> val x < val y -> val (sqks x) < val (sqks y).
Proof.
  intros Fx Fy Ox Oy Lt. destruct (square_rises64 x y Fx Fy (ordinary_small _ Ox) (ordinary_small _ Oy) ltac:(lra)) as [H|H]; [exact H|exfalso].
  destruct (root_of_square64 x Fx Ox) as (_ & Vx). destruct (root_of_square64 y Fy Oy) as (_ & Vy).
  destruct (square64 x Fx (ordinary_small _ Ox)) as (Qx & _). destruct (square64 y Fy (ordinary_small _ Oy)) as (Qy & _).
  destruct (root64 _ Qx) as (_ & Rx). destruct (root64 _ Qy) as (_ & Ry). rewrite Vx in Rx. rewrite Vy in Ry. rewrite <- H in Ry.
  destruct Rx as [[P E]|[[P E]|[P E]]], Ry as [[P' E']|[[P' E']|[P' E']]]; lra.
Qed.
Lemma square_odd64 (x : b64) : fin x -> Rabs (val x) <= bpow radix2 500 -> val (sqks (neg x)) = - val (sqks x).
Proof.
  intros F B. assert (Fn : fin (neg x)) by (unfold fin; change (neg x) with (Bopp x); rewrite is_finite_Bopp; exact F).
  assert (Vn : val (neg x) = - val x) by apply B2R_Bopp.
  destruct (square64 x F B) as (_ & Cx). destruct (square64 (neg x) Fn) as (_ & Cn); [rewrite Vn, Rabs_Ropp; exact B|]. rewrite Vn in Cn.
  replace (- val x * - val x) with (val x * val x) in Cn by ring.
  destruct Cx as [[P ->]|[[P ->]|[P ->]]], Cn as [[P' ->]|[[P' ->]|[P' ->]]]; lra.
Qed.

(** Root first: exact up to four units of roundoff. *)
Lemma square_of_root_R x : bpow radix2 (-900) <= x <= bpow radix2 900 -> Rabs (rnd (rnd (sqrt x) * rnd (sqrt x)) - x) <= 4 * uu * x.
Proof.
  intros [B1 B2]. assert (P : 0 < x) by (pose proof (bpow_gt_0 radix2 (-900)); lra).
  set (s := sqrt x). assert (Ss : s * s = x) by (apply sqrt_sqrt; lra). assert (Sp : 0 < s) by (apply sqrt_lt_R0; exact P).
  assert (Sl : bpow radix2 (-450) <= s).
  { unfold s. rewrite <- (sqrt_square (bpow radix2 (-450))) by apply bpow_ge_0. apply sqrt_le_1_alt. rewrite <- bpow_plus. exact B1. }
  assert (Tn : tiny <= uu * uu * uu * bpow radix2 (-900)).
  { unfold tiny. assert (uu = bpow radix2 (-53)) as -> by (change (bpow radix2 (-53)) with (/ IZR (Z.pow_pos 2 53)); f_equal; f_equal; reflexivity).
    rewrite <- !bpow_plus. change (/ 2) with (bpow radix2 (-1)). rewrite <- bpow_plus. apply bpow_le. lia. }
  pose proof tiny_pos as Tp.
  assert (T1 : tiny <= uu * uu * s).
  { eapply Rle_trans; [exact Tn|]. assert (bpow radix2 (-900) <= bpow radix2 (-450)) by (apply bpow_le; lia). pose proof (bpow_gt_0 radix2 (-900)). lra. }
  assert (T2 : tiny <= uu * uu * x) by (pose proof (bpow_gt_0 radix2 (-900)); lra).
  pose proof (rnd_err s) as E1. rewrite (Rabs_right s) in E1 by lra. set (r := rnd s) in *. apply Rabs_le_inv in E1.
  pose proof (rnd_err (r * r)) as E2. rewrite (Rabs_right (r * r)) in E2 by nra. set (q := rnd (r * r)) in *. apply Rabs_le_inv in E2.
  assert (D : - (2 * uu + 8 * uu * uu) * x <= r * r - x <= (2 * uu + 8 * uu * uu) * x).
  { rewrite <- Ss. assert (K1 : - (uu + uu * uu) * s <= r - s <= (uu + uu * uu) * s) by lra. clear - K1 Sp.
    replace (r * r - s * s) with (2 * (s * (r - s)) + (r - s) * (r - s)) by ring. set (d := r - s) in *. clearbody d. clear r.
    assert (K2 : - (2 * uu) * s <= d <= 2 * uu * s) by lra.
    assert (M1 : s * d <= s * ((uu + uu * uu) * s)) by (apply Rmult_le_compat_l; lra).
    assert (M2 : s * (- (uu + uu * uu) * s) <= s * d) by (apply Rmult_le_compat_l; lra).
    assert (N : 0 <= d * d) by apply Rle_0_sqr.
    assert (Q : d * d <= (2 * uu * s) * (2 * uu * s)).
    { assert (Rsqr d <= Rsqr (2 * uu * s)) as X by (apply neg_pos_Rsqr_le; lra). exact X. }
    set (z := s * s) in *. assert (Z : 0 <= z) by apply Rle_0_sqr.
    replace (s * ((uu + uu * uu) * s)) with ((uu + uu * uu) * z) in M1 by (unfold z; ring).
    replace (s * (- (uu + uu * uu) * s)) with (- (uu + uu * uu) * z) in M2 by (unfold z; ring).
    replace ((2 * uu * s) * (2 * uu * s)) with (4 * uu * uu * z) in Q by (unfold z; ring). set (w := d * d) in *. set (y := s * d) in *.
    clearbody z w y. lra. }
  apply Rabs_le. set (w := r * r) in *. clearbody w q. clear - D E2 T2 P. lra.
Qed.
Lemma square_of_root64 (x : b64) : fin x -> val x = 0 \/ bpow radix2 (-900) <= Rabs (val x) <= bpow radix2 900 ->
  fin (sqks (sqrtks x)) /\ Rabs (val (sqks (sqrtks x)) - val x) <= 4 * uu * Rabs (val x).
Proof.
  intros F B. destruct (root64 x F) as (Fr & Cr).
  assert (RH : forall z, z <= bpow radix2 900 -> rnd (sqrt z) <= bpow radix2 450).
  { intros z K. apply rnd_high; [lia|]. rewrite <- (sqrt_square (bpow radix2 450)) by apply bpow_ge_0. apply sqrt_le_1_alt. rewrite <- bpow_plus. exact K. }
  assert (RL : forall z, bpow radix2 (-900) <= z -> 0 < rnd (sqrt z)).
  { intros z K. eapply Rlt_le_trans; [apply (bpow_gt_0 radix2 (-450))|]. apply rnd_low; [lia|]. rewrite <- (sqrt_square (bpow radix2 (-450))) by apply bpow_ge_0. apply sqrt_le_1_alt. rewrite <- bpow_plus. exact K. }
  assert (H45 : bpow radix2 450 <= bpow radix2 500) by (apply bpow_le; lia).
  destruct Cr as [[P S]|[[P S]|[P S]]].
  - destruct B as [Z|B]; [exfalso; lra|]. rewrite (Rabs_right (val x)) in B |- * by lra. destruct B as [B1 B2]. pose proof (RH _ B2) as K1. pose proof (RL _ B1) as K2.
    destruct (square64 (sqrtks x) Fr) as (Fq & Cq); [rewrite S, Rabs_right; lra|]. split; [exact Fq|]. rewrite S in Cq.
    destruct Cq as [[_ ->]|[[K _]|[K _]]]; [|lra|lra]. apply square_of_root_R. split; assumption.
  - destruct B as [Z|B]; [exfalso; lra|]. rewrite (Rabs_left (val x)) in B |- * by lra. destruct B as [B1 B2]. pose proof (RH _ B2) as K1. pose proof (RL _ B1) as K2.
    destruct (square64 (sqrtks x) Fr) as (Fq & Cq); [rewrite S, Rabs_Ropp, Rabs_right; lra|]. split; [exact Fq|]. rewrite S in Cq.
    destruct Cq as [[K _]|[[_ ->]|[K _]]]; [lra| |lra]. replace (- rnd (sqrt (- val x)) * - rnd (sqrt (- val x))) with (rnd (sqrt (- val x)) * rnd (sqrt (- val x))) by ring.
    rewrite <- Rabs_Ropp. replace (- (- rnd (rnd (sqrt (- val x)) * rnd (sqrt (- val x))) - val x)) with (rnd (rnd (sqrt (- val x)) * rnd (sqrt (- val x))) - - val x) by ring.
    apply square_of_root_R. split; assumption.
  - destruct (square64 (sqrtks x) Fr) as (Fq & Cq); [rewrite S, Rabs_R0; apply bpow_ge_0|]. split; [exact Fq|]. rewrite S in Cq.
    destruct Cq as [[K _]|[[K _]|[_ ->]]]; [lra|lra|]. rewrite P, Rminus_0_r, Rabs_R0. lra.
Qed.
End Doubles.
