(** Rounding errors of binary64: every operation whose exact result is below
    2^1000 is finite and off by at most a relative 2^-53 plus 2^-1075. *)

From Coq Require Import ZArith Bool Reals Lra Lia Psatz.
From Flocq Require Import Core BinarySingleNaN Relative.
From Verif Require Import Scalar Float64 SpecRound PBase PFloat.
Local Open Scope R_scope.

(** Unit roundoff, as a literal so that [lra] can compute with it. *)
Notation uu := (/ 9007199254740992)%R.
Definition tiny : R := / 2 * bpow radix2 (-1074).
Definition huge : R := bpow radix2 1000.

Lemma uu_bpow : / 2 * bpow radix2 (-53 + 1) = uu.
Proof. change (bpow radix2 (-53 + 1)) with (/ IZR (Z.pow_pos 2 52)). cbn. lra. Qed.
Lemma tiny_pos : 0 < tiny.
Proof. unfold tiny. pose proof (bpow_gt_0 radix2 (-1074)). lra. Qed.
Lemma tiny_small : tiny <= / 2 * bpow radix2 (-200).
Proof. unfold tiny. pose proof (bpow_le radix2 (-1074) (-200) ltac:(lia)). lra. Qed.
Lemma tiny_num : tiny <= / 1606938044258990275541962092341162602522202993782792835301376.
Proof.
  eapply Rle_trans; [apply tiny_small|].
  change (bpow radix2 (-200)) with (/ IZR (Z.pow_pos 2 200)).
  replace (IZR (Z.pow_pos 2 200)) with 1606938044258990275541962092341162602522202993782792835301376 by (f_equal; reflexivity).
  lra.
Qed.
Lemma huge_big : 1606938044258990275541962092341162602522202993782792835301376 <= huge.
Proof.
  unfold huge. eapply Rle_trans; [|apply (bpow_le radix2 200 1000); lia].
  change (bpow radix2 200) with (IZR (Z.pow_pos 2 200)).
  replace (IZR (Z.pow_pos 2 200)) with 1606938044258990275541962092341162602522202993782792835301376 by (f_equal; reflexivity).
  lra.
Qed.

Notation rnd := (round radix2 (SpecFloat.fexp 53 1024) (round_mode mode_NE)).

Lemma rnd_err x : Rabs (rnd x - x) <= uu * Rabs x + tiny.
Proof.
  destruct (error_N_FLT radix2 (-1074) 53 eq_refl (fun z => negb (Z.even z)) x) as (eps & eta & He & Ht & _ & E).
  change (SpecFloat.fexp 53 1024) with (FLT_exp (-1074) 53). change (round_mode mode_NE) with (Znearest (fun z => negb (Z.even z))).
  rewrite E. assert (He1 : Rabs eps <= uu) by (rewrite <- uu_bpow; exact He). replace (x * (1 + eps) + eta - x) with (x * eps + eta) by ring.
  eapply Rle_trans; [apply Rabs_triang|]. rewrite Rabs_mult. apply Rplus_le_compat; [|exact Ht].
  rewrite Rmult_comm. apply Rmult_le_compat_r; [apply Rabs_pos|exact He1].
Qed.
Lemma rnd_big x : Rabs x <= huge -> Rlt_bool (Rabs (rnd x)) (bpow radix2 1024) = true.
Proof.
  intros H. apply Rlt_bool_true. apply Rle_lt_trans with huge; [|apply bpow_lt; lia].
  apply abs_round_le_generic; [apply fexp_correct; exact prec53|apply valid_rnd_N| |exact H].
  apply generic_format_bpow. cbn. unfold SpecFloat.fexp, SpecFloat.emin. lia.
Qed.

(** [ok r x]: the float [r] is finite and approximates the exact result [x] of one operation. *)
Definition ok (r : b64) (x : R) : Prop := fin r /\ Rabs (val r - x) <= uu * Rabs x + tiny.

Lemma ok_mul (x y : b64) : fin x -> fin y -> Rabs (val x * val y) <= huge -> ok (Bmult mode_NE x y) (val x * val y).
Proof.
  intros Fx Fy H. pose proof (Bmult_correct 53 1024 _ _ mode_NE x y) as C. unfold val in H. rewrite (rnd_big _ H) in C.
  destruct C as (C & F & _). rewrite Fx, Fy in F. split; [exact F|]. unfold val. rewrite C. apply rnd_err.
Qed.
Lemma ok_add (x y : b64) : fin x -> fin y -> Rabs (val x + val y) <= huge -> ok (Bplus mode_NE x y) (val x + val y).
Proof.
  intros Fx Fy H. pose proof (Bplus_correct 53 1024 _ _ mode_NE x y Fx Fy) as C. unfold val in H. rewrite (rnd_big _ H) in C.
  destruct C as (C & F & _). split; [exact F|]. unfold val. rewrite C. apply rnd_err.
Qed.
Lemma ok_sub (x y : b64) : fin x -> fin y -> Rabs (val x - val y) <= huge -> ok (Bminus mode_NE x y) (val x - val y).
Proof.
  intros Fx Fy H. pose proof (Bminus_correct 53 1024 _ _ mode_NE x y Fx Fy) as C. unfold val in H. rewrite (rnd_big _ H) in C.
  destruct C as (C & F & _). split; [exact F|]. unfold val. rewrite C. apply rnd_err.
Qed.
Lemma ok_div (x y : b64) : fin x -> val y <> 0 -> Rabs (val x / val y) <= huge -> ok (Bdiv mode_NE x y) (val x / val y).
Proof.
  intros Fx Ny H. pose proof (Bdiv_correct 53 1024 _ _ mode_NE x y Ny) as C. unfold val in H. rewrite (rnd_big _ H) in C.
  destruct C as (C & F & _). rewrite Fx in F. split; [exact F|]. unfold val. rewrite C. apply rnd_err.
Qed.
Lemma ok_sqrt (x : b64) : fin x -> 0 <= val x -> ok (Bsqrt mode_NE x) (sqrt (val x)).
Proof.
  intros Fx Px. pose proof (Bsqrt_correct 53 1024 _ _ mode_NE x) as (C & F & _). split.
  - unfold fin. rewrite F. destruct x as [s|s| |s m e He]; try reflexivity; try discriminate Fx.
    destruct s; [|reflexivity]. exfalso. unfold val in Px. cbn [B2R] in Px.
    assert (F2R (Float radix2 (cond_Zopp true (Zpos m)) e) < 0)%R by (apply F2R_lt_0; reflexivity). lra.
  - unfold val. rewrite C. apply rnd_err.
Qed.

(** Zero comparisons. *)
Lemma val_zero : val (b64_ofZ 0) = 0. Proof. reflexivity. Qed.
Lemma fin_zero : fin (b64_ofZ 0). Proof. reflexivity. Qed.
Lemma ltb_val (x y : b64) : fin x -> fin y -> Bltb x y = true <-> val x < val y.
Proof.
  intros Fx Fy. rewrite Bltb_correct by assumption. unfold val.
  destruct (Rlt_bool_spec (B2R x) (B2R y)) as [A|A]; split; intros B; try reflexivity; try exact A; try discriminate; lra.
Qed.

Ltac abs_in H := apply Rabs_le_inv in H.
(** Bounds of an absolute value as two inequalities. *)
Lemma abs_bounds x : - Rabs x <= x <= Rabs x.
Proof. unfold Rabs. destruct (Rcase_abs x); lra. Qed.

(** ** A sum or difference of four products *)
Section Dot4.
Variables a0 b0 a1 b1 a2 b2 a3 b3 : b64.
Hypothesis F : (fin a0 /\ fin b0) /\ (fin a1 /\ fin b1) /\ (fin a2 /\ fin b2) /\ (fin a3 /\ fin b3).
Let t0 := val a0 * val b0. Let t1 := val a1 * val b1. Let t2 := val a2 * val b2. Let t3 := val a3 * val b3.
Let size := Rabs t0 + Rabs t1 + Rabs t2 + Rabs t3.
Hypothesis small : size <= huge / 4.

Definition okd (r : b64) (x : R) : Prop := fin r /\ Rabs (val r - x) <= 5 * uu * size + 8 * tiny.

Lemma four : okd (Bplus mode_NE (Bplus mode_NE (Bplus mode_NE (Bmult mode_NE a0 b0) (Bmult mode_NE a1 b1)) (Bmult mode_NE a2 b2)) (Bmult mode_NE a3 b3)) (t0 + t1 + t2 + t3)
  /\ okd (Bminus mode_NE (Bplus mode_NE (Bplus mode_NE (Bmult mode_NE a0 b0) (Bmult mode_NE a1 b1)) (Bmult mode_NE a2 b2)) (Bmult mode_NE a3 b3)) (t0 + t1 + t2 - t3)
  /\ okd (Bminus mode_NE (Bminus mode_NE (Bminus mode_NE (Bmult mode_NE a0 b0) (Bmult mode_NE a1 b1)) (Bmult mode_NE a2 b2)) (Bmult mode_NE a3 b3)) (t0 - t1 - t2 - t3).
Proof.
  destruct F as ((Fa0 & Fb0) & (Fa1 & Fb1) & (Fa2 & Fb2) & (Fa3 & Fb3)).
  pose proof huge_big as HB. pose proof tiny_num as TN. pose proof tiny_pos as TP.
  pose proof (abs_bounds t0) as A0. pose proof (abs_bounds t1) as A1. pose proof (abs_bounds t2) as A2. pose proof (abs_bounds t3) as A3.
  unfold size in *.
  pose proof (Rabs_pos t0) as P0. pose proof (Rabs_pos t1) as P1. pose proof (Rabs_pos t2) as P2. pose proof (Rabs_pos t3) as P3.
  destruct (ok_mul a0 b0 Fa0 Fb0 ltac:(fold t0; lra)) as [G0 E0]. fold t0 in E0. set (p0 := Bmult mode_NE a0 b0) in *.
  destruct (ok_mul a1 b1 Fa1 Fb1 ltac:(fold t1; lra)) as [G1 E1]. fold t1 in E1. set (p1 := Bmult mode_NE a1 b1) in *.
  destruct (ok_mul a2 b2 Fa2 Fb2 ltac:(fold t2; lra)) as [G2 E2]. fold t2 in E2. set (p2 := Bmult mode_NE a2 b2) in *.
  destruct (ok_mul a3 b3 Fa3 Fb3 ltac:(fold t3; lra)) as [G3 E3]. fold t3 in E3. set (p3 := Bmult mode_NE a3 b3) in *.
  abs_in E0. abs_in E1. abs_in E2. abs_in E3.
  assert (LE : forall x M, -M <= x <= M -> Rabs x <= M) by (intros x M Q; apply Rabs_le; exact Q).
  assert (PLUS : forall (x y : b64) X Y u v, fin x -> fin y -> -X <= val x - u <= X -> -Y <= val y - v <= Y -> 0 <= X -> 0 <= Y ->
     Rabs u + Rabs v + X + Y <= huge ->
     fin (Bplus mode_NE x y) /\ - (X + Y + uu * (Rabs u + Rabs v + X + Y) + tiny) <= val (Bplus mode_NE x y) - (u + v) <= X + Y + uu * (Rabs u + Rabs v + X + Y) + tiny).
  { intros x y X Y u v Fx Fy HX HY PX PY Hh. pose proof (abs_bounds u) as Bu. pose proof (abs_bounds v) as Bv.
    assert (M : Rabs (val x + val y) <= Rabs u + Rabs v + X + Y) by (apply LE; lra).
    destruct (ok_add x y Fx Fy ltac:(lra)) as [G E]. abs_in E. split; [exact G|]. lra. }
  assert (MINUS : forall (x y : b64) X Y u v, fin x -> fin y -> -X <= val x - u <= X -> -Y <= val y - v <= Y -> 0 <= X -> 0 <= Y ->
     Rabs u + Rabs v + X + Y <= huge ->
     fin (Bminus mode_NE x y) /\ - (X + Y + uu * (Rabs u + Rabs v + X + Y) + tiny) <= val (Bminus mode_NE x y) - (u - v) <= X + Y + uu * (Rabs u + Rabs v + X + Y) + tiny).
  { intros x y X Y u v Fx Fy HX HY PX PY Hh. pose proof (abs_bounds u) as Bu. pose proof (abs_bounds v) as Bv.
    assert (M : Rabs (val x - val y) <= Rabs u + Rabs v + X + Y) by (apply LE; lra).
    destruct (ok_sub x y Fx Fy ltac:(lra)) as [G E]. abs_in E. split; [exact G|]. lra. }
  set (X0 := uu * Rabs t0 + tiny) in *. set (X1 := uu * Rabs t1 + tiny) in *. set (X2 := uu * Rabs t2 + tiny) in *. set (X3 := uu * Rabs t3 + tiny) in *.
  assert (N0 : 0 <= X0) by (unfold X0; lra). assert (N1 : 0 <= X1) by (unfold X1; lra).
  assert (N2 : 0 <= X2) by (unfold X2; lra). assert (N3 : 0 <= X3) by (unfold X3; lra).
  pose proof (PLUS p0 p1 X0 X1 t0 t1 G0 G1 E0 E1 N0 N1 ltac:(unfold X0, X1; lra)) as [H1 K1].
  pose proof (MINUS p0 p1 X0 X1 t0 t1 G0 G1 E0 E1 N0 N1 ltac:(unfold X0, X1; lra)) as [H1' K1'].
  set (Y1 := X0 + X1 + uu * (Rabs t0 + Rabs t1 + X0 + X1) + tiny) in *.
  assert (M1 : 0 <= Y1) by (unfold Y1; lra).
  pose proof (Rabs_triang t0 t1) as T1. assert (T1' : Rabs (t0 - t1) <= Rabs t0 + Rabs t1).
  { unfold Rminus. eapply Rle_trans; [apply Rabs_triang|]. rewrite Rabs_Ropp. lra. }
  pose proof (PLUS _ p2 Y1 X2 (t0 + t1) t2 H1 G2 K1 E2 M1 N2 ltac:(unfold Y1, X0, X1, X2; lra)) as [H2 K2].
  pose proof (MINUS _ p2 Y1 X2 (t0 - t1) t2 H1' G2 K1' E2 M1 N2 ltac:(unfold Y1, X0, X1, X2; lra)) as [H2' K2'].
  set (Y2 := Y1 + X2 + uu * (Rabs (t0 + t1) + Rabs t2 + Y1 + X2) + tiny) in *.
  set (Y2' := Y1 + X2 + uu * (Rabs (t0 - t1) + Rabs t2 + Y1 + X2) + tiny) in *.
  pose proof (Rabs_pos (t0 + t1)) as Q1. pose proof (Rabs_pos (t0 - t1)) as Q1'.
  assert (M2 : 0 <= Y2) by (unfold Y2; lra). assert (M2' : 0 <= Y2') by (unfold Y2'; lra).
  pose proof (Rabs_triang (t0 + t1) t2) as T2. assert (T2' : Rabs (t0 - t1 - t2) <= Rabs (t0 - t1) + Rabs t2).
  { unfold Rminus at 1. eapply Rle_trans; [apply Rabs_triang|]. rewrite Rabs_Ropp. lra. }
  pose proof (PLUS _ p3 Y2 X3 (t0 + t1 + t2) t3 H2 G3 K2 E3 M2 N3 ltac:(unfold Y2, Y1, X0, X1, X2, X3; lra)) as [H3 K3].
  pose proof (MINUS _ p3 Y2 X3 (t0 + t1 + t2) t3 H2 G3 K2 E3 M2 N3 ltac:(unfold Y2, Y1, X0, X1, X2, X3; lra)) as [H4 K4].
  pose proof (MINUS _ p3 Y2' X3 (t0 - t1 - t2) t3 H2' G3 K2' E3 M2' N3 ltac:(unfold Y2', Y1, X0, X1, X2, X3; lra)) as [H5 K5].
  split; [|split]; (split; [assumption|]); apply LE; unfold size in *.
  - unfold Y2, Y1, X0, X1, X2, X3 in K3. lra.
  - unfold Y2, Y1, X0, X1, X2, X3 in K4. lra.
  - unfold Y2', Y1, X0, X1, X2, X3 in K5. lra.
Qed.
End Dot4.
