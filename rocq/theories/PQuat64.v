(** Attitude normalisation in binary64. *)

From Coq Require Import ZArith Bool List Reals Lra Lia Psatz.
From Flocq Require Import Core BinarySingleNaN.
From Verif Require Import Scalar Float64 LinAlg MUtils MModel MDynamics SpecDyn SpecRun SpecRound PBase PFloat PRound PDyn.
Local Open Scope R_scope.

Lemma Rabs_sqr x : Rabs (x * x) = x ^ 2.
Proof. rewrite Rabs_right; [ring|]. nra. Qed.

(** One component: y is the exact quotient. *)
Lemma comp_err y d : Rabs d <= uu * Rabs y + tiny -> Rabs y <= 2 ->
  - (3 * uu * y ^ 2 + 5 * tiny) <= (y + d) ^ 2 - y ^ 2 <= 3 * uu * y ^ 2 + 5 * tiny.
Proof.
  intros H B. pose proof tiny_num as TN. pose proof tiny_pos as TP.
  assert (E : (y + d) ^ 2 - y ^ 2 = 2 * y * d + d ^ 2) by ring. rewrite E.
  assert (Q : y ^ 2 = Rabs y ^ 2) by (rewrite RPow_abs; rewrite Rabs_right; [reflexivity|nra]).
  rewrite Q. set (a := Rabs y) in *. pose proof (Rabs_pos y) as P. fold a in P.
  assert (D : Rabs (2 * y * d + d ^ 2) <= 2 * a * Rabs d + Rabs d ^ 2).
  { eapply Rle_trans; [apply Rabs_triang|]. rewrite !Rabs_mult, <- RPow_abs. rewrite (Rabs_right 2) by lra. unfold a. lra. }
  pose proof (Rabs_pos d) as Pd.
  assert (M1 : a * Rabs d <= a * (uu * a + tiny)) by (apply Rmult_le_compat_l; lra).
  assert (M2 : Rabs d ^ 2 <= (uu * a + tiny) ^ 2) by nra.
  assert (M3 : a * tiny <= 2 * tiny) by (apply Rmult_le_compat_r; lra).
  assert (M4 : tiny * tiny <= tiny * uu) by (apply Rmult_le_compat_l; lra).
  assert (M5 : (uu * a + tiny) ^ 2 = uu * uu * a ^ 2 + 2 * uu * (a * tiny) + tiny * tiny) by ring.
  assert (M6 : 0 <= a ^ 2) by nra.
  assert (M7 : 2 * a * (uu * a + tiny) = 2 * uu * a ^ 2 + 2 * (a * tiny)) by ring.
  assert (F : Rabs (2 * y * d + d ^ 2) <= 3 * uu * a ^ 2 + 5 * tiny).
  { assert (2 * a * Rabs d <= 2 * a * (uu * a + tiny)) by lra. lra. }
  apply Rabs_le_inv in F. exact F.
Qed.

Lemma normalized64 L (q : Quat b64) : let O := F64Ops L in
  finq q -> 1/8 <= sqlen q -> sqlen q <= huge / 8 ->
  finq (qnormalized q) /\ Rabs (sqlen (qnormalized q) - 1) <= 16 * uu.
Proof.
  intros O (Fw & Fx & Fy & Fz) Lo Hi. pose proof tiny_num as TN. pose proof tiny_pos as TP.
  unfold qnormalized. change (sqrtT (qsqn q)) with (Bsqrt mode_NE (qsqn q)).
  set (N := sqlen q) in *.
  assert (SZ : Rabs (val (qx q) * val (qx q)) + Rabs (val (qy q) * val (qy q)) + Rabs (val (qz q) * val (qz q)) + Rabs (val (qw q) * val (qw q)) = N).
  { rewrite !Rabs_sqr. unfold N, sqlen. ring. }
  destruct (four (qx q) (qx q) (qy q) (qy q) (qz q) (qz q) (qw q) (qw q)) as [[FZ EZ] _].
  { tauto. }
  { rewrite SZ. lra. }
  rewrite SZ in EZ. change (Bplus mode_NE _ _) with (qsqn q) in FZ, EZ.
  replace (val (qx q) * val (qx q) + val (qy q) * val (qy q) + val (qz q) * val (qz q) + val (qw q) * val (qw q)) with N in EZ by (unfold N, sqlen; ring).
  apply Rabs_le_inv in EZ. set (z := qsqn q) in *.
  assert (Z1 : N * (1 - 6 * uu) <= val z <= N * (1 + 6 * uu)) by lra.
  assert (ZL : ltb zero z = true).
  { change (Bltb (b64_ofZ 0) z = true). apply ltb_val; [exact fin_zero|exact FZ|]. rewrite val_zero. lra. }
  rewrite ZL.
  destruct (ok_sqrt z FZ ltac:(lra)) as [FN EN]. set (n := Bsqrt mode_NE z) in *.
  set (s := sqrt (val z)) in *.
  assert (S2 : s * s = val z) by (apply sqrt_sqrt; lra).
  assert (S1 : 1/4 <= s).
  { unfold s. rewrite <- (sqrt_square (1/4)) by lra. apply sqrt_le_1_alt. lra. }
  rewrite (Rabs_right s) in EN by lra. apply Rabs_le_inv in EN.
  assert (N1 : s * (1 - 2 * uu) <= val n <= s * (1 + 2 * uu)) by lra.
  assert (NP : 0 < val n) by lra.
  assert (NN : val z * ((1 - 2 * uu) * (1 - 2 * uu)) <= val n * val n <= val z * ((1 + 2 * uu) * (1 + 2 * uu))).
  { rewrite <- S2. split.
    - replace (s * s * ((1 - 2 * uu) * (1 - 2 * uu))) with ((s * (1 - 2 * uu)) * (s * (1 - 2 * uu))) by ring.
      apply Rmult_le_compat; lra.
    - replace (s * s * ((1 + 2 * uu) * (1 + 2 * uu))) with ((s * (1 + 2 * uu)) * (s * (1 + 2 * uu))) by ring.
      apply Rmult_le_compat; lra. }
  assert (NB : N * (1 - 11 * uu) <= val n * val n <= N * (1 + 11 * uu)) by lra.
  set (rho := N / (val n * val n)).
  assert (nn : 0 < val n * val n) by (apply Rmult_lt_0_compat; lra).
  assert (RN : rho * (val n * val n) = N) by (unfold rho; field; lra).
  assert (R1 : 1 - 12 * uu <= rho <= 1 + 12 * uu).
  { split.
    - apply Rmult_le_reg_r with (val n * val n); [exact nn|]. rewrite RN. lra.
    - apply Rmult_le_reg_r with (val n * val n); [exact nn|]. rewrite RN. lra. }
  assert (C : forall x, fin x -> val x ^ 2 <= N -> fin (Bdiv mode_NE x n) /\
    - (3 * uu * (val x / val n) ^ 2 + 5 * tiny) <= val (Bdiv mode_NE x n) ^ 2 - (val x / val n) ^ 2 <= 3 * uu * (val x / val n) ^ 2 + 5 * tiny).
  { intros x Hx Bx.
    assert (B2 : (val x / val n) ^ 2 <= rho).
    { unfold rho. replace ((val x / val n) ^ 2) with (val x ^ 2 / (val n * val n)) by (field; lra).
      apply Rmult_le_compat_r; [left; apply Rinv_0_lt_compat; exact nn|exact Bx]. }
    assert (B1 : Rabs (val x / val n) <= 2).
    { apply Rabs_le. split; nra. }
    destruct (ok_div x n Hx ltac:(lra)) as [G E]; [pose proof huge_big; lra|].
    split; [exact G|].
    replace (val (Bdiv mode_NE x n)) with (val x / val n + (val (Bdiv mode_NE x n) - val x / val n)) by ring.
    apply comp_err; assumption. }
  assert (Sq : forall x : R, 0 <= x ^ 2) by (intros x; nra).
  destruct (C (qw q) Fw) as [Gw Ew].
  { unfold N, sqlen. pose proof (Sq (val (qx q))). pose proof (Sq (val (qy q))). pose proof (Sq (val (qz q))). lra. }
  destruct (C (qx q) Fx) as [Gx Ex].
  { unfold N, sqlen. pose proof (Sq (val (qw q))). pose proof (Sq (val (qy q))). pose proof (Sq (val (qz q))). lra. }
  destruct (C (qy q) Fy) as [Gy Ey].
  { unfold N, sqlen. pose proof (Sq (val (qx q))). pose proof (Sq (val (qw q))). pose proof (Sq (val (qz q))). lra. }
  destruct (C (qz q) Fz) as [Gz Ez].
  { unfold N, sqlen. pose proof (Sq (val (qx q))). pose proof (Sq (val (qy q))). pose proof (Sq (val (qw q))). lra. }
  split; [exact (conj Gw (conj Gx (conj Gy Gz)))|].
  assert (RS : (val (qw q) / val n) ^ 2 + (val (qx q) / val n) ^ 2 + (val (qy q) / val n) ^ 2 + (val (qz q) / val n) ^ 2 = rho).
  { unfold rho, N, sqlen. field. lra. }
  apply Rabs_le. unfold sqlen, qmap. cbn [qw qx qy qz].
  change (div (qw q) n) with (Bdiv mode_NE (qw q) n). change (div (qx q) n) with (Bdiv mode_NE (qx q) n).
  change (div (qy q) n) with (Bdiv mode_NE (qy q) n). change (div (qz q) n) with (Bdiv mode_NE (qz q) n).
  lra.
Qed.

(** ** One integration step before the normalisation *)
Lemma val_half L : let O := F64Ops L in fin half /\ val half = 1/2.
Proof.
  intros O. assert (H : B2SF (@half _ O) = SpecFloat.S754_finite false 4503599627370496 (-53)) by (vm_compute; reflexivity).
  split; [unfold fin; rewrite <- is_finite_SF_B2SF, H; reflexivity|].
  unfold val. rewrite <- SF2R_B2SF, H. cbn [SF2R cond_Zopp]. unfold F2R. cbn [Fnum Fexp].
  change (bpow radix2 (-53)) with (/ IZR (Z.pow_pos 2 53)). replace (IZR (Z.pow_pos 2 53)) with 9007199254740992 by (f_equal; reflexivity). lra.
Qed.

Definition bigw : R := bpow radix2 400.
Lemma bigw_huge : bigw * bigw * bpow radix2 200 = huge.
Proof. unfold bigw, huge. rewrite <- !bpow_plus. reflexivity. Qed.
Lemma bigw_one : 1 <= bigw.
Proof. unfold bigw. change 1 with (bpow radix2 0). apply bpow_le. lia. Qed.
Lemma pow200 : bpow radix2 200 = 1606938044258990275541962092341162602522202993782792835301376.
Proof. change (bpow radix2 200) with (IZR (Z.pow_pos 2 200)). f_equal. Qed.

(** Half of a sum, times dt, added to [q]: P is the exact sum, W the size of the rates. *)
Lemma tail_err L (q m dt : b64) (P W : R) : let O := F64Ops L in
  fin q -> fin m -> fin dt -> 0 < val dt <= 1 -> Rabs (val q) <= 3/2 -> 0 <= W <= bigw ->
  Rabs P <= 3/2 * W -> Rabs (val m - P) <= 8 * uu * W + 8 * tiny ->
  fin (add q (mul (mul half m) dt)) /\
  Rabs (val (add q (mul (mul half m) dt)) - (val q + P / 2 * val dt)) <= 8 * uu * (W * val dt) + 3 * uu.
Proof.
  intros O Fq Fm Fd Hd Bq HW HP HM. pose proof tiny_num as TN. pose proof tiny_pos as TP. pose proof huge_big as HB.
  destruct (val_half L) as [Fh Vh]. fold O in Fh, Vh. change (add q (mul (mul half m) dt)) with (Bplus mode_NE q (Bmult mode_NE (Bmult mode_NE (@half _ O) m) dt)).
  set (D := val dt) in *.
  assert (BW : W <= huge / 1606938044258990275541962092341162602522202993782792835301376).
  { pose proof bigw_huge as E. rewrite pow200 in E. pose proof bigw_one as B1.
    assert (bigw * 1 <= bigw * bigw) by (apply Rmult_le_compat_l; lra). lra. }
  pose proof (abs_bounds P) as AP. apply Rabs_le_inv in HM. apply Rabs_le_inv in Bq.
  assert (M1 : Rabs (val (@half _ O) * val m) <= W + 8 * tiny) by (rewrite Vh; apply Rabs_le; lra).
  destruct (ok_mul (@half _ O) m Fh Fm ltac:(lra)) as [F1 E1]. set (h := Bmult mode_NE (@half _ O) m) in *.
  rewrite Vh in E1. rewrite Vh in M1. pose proof (Rabs_pos (1/2 * val m)) as P1. apply Rabs_le_inv in E1.
  assert (H1 : - (6 * uu * W + 6 * tiny) <= val h - P / 2 <= 6 * uu * W + 6 * tiny).
  { assert (A : Rabs (1/2 * val m) <= 3/4 * W + 4 * uu * W + 4 * tiny) by (apply Rabs_le; lra). lra. }
  assert (H2 : -(W + 6 * tiny) <= val h <= W + 6 * tiny) by lra.
  assert (H3 : Rabs (val h * D) <= (W + 6 * tiny) * D).
  { rewrite Rabs_mult, (Rabs_right D) by lra. apply Rmult_le_compat_r; [lra|]. apply Rabs_le. exact H2. }
  assert (WD : 0 <= W * D <= W) by (split; [apply Rmult_le_pos; lra|]; rewrite <- (Rmult_1_r W) at 2; apply Rmult_le_compat_l; lra).
  assert (TD : 0 <= tiny * D <= tiny) by (split; [apply Rmult_le_pos; lra|]; rewrite <- (Rmult_1_r tiny) at 2; apply Rmult_le_compat_l; lra).
  destruct (ok_mul h dt F1 Fd) as [F2 E2]; [fold D; lra|]. set (k := Bmult mode_NE h dt) in *. fold D in E2. apply Rabs_le_inv in E2.
  assert (H4 : - ((6 * uu * W + 6 * tiny) * D) <= (val h - P / 2) * D <= (6 * uu * W + 6 * tiny) * D).
  { split; [rewrite <- Ropp_mult_distr_l_reverse|]; apply Rmult_le_compat_r; lra. }
  assert (H5 : - (7 * uu * (W * D) + 8 * tiny) <= val k - P / 2 * D <= 7 * uu * (W * D) + 8 * tiny) by lra.
  assert (PD : - (3/4 * (W * D)) <= P / 2 * D <= 3/4 * (W * D)).
  { split.
    - replace (- (3/4 * (W * D))) with ((- (3/4 * W)) * D) by ring. apply Rmult_le_compat_r; lra.
    - replace (3/4 * (W * D)) with ((3/4 * W) * D) by ring. apply Rmult_le_compat_r; lra. }
  assert (M3 : Rabs (val q + val k) <= 3/2 + W * D + 8 * tiny) by (apply Rabs_le; lra).
  destruct (ok_add q k Fq F2) as [F3 E3]; [lra|]. split; [exact F3|]. apply Rabs_le_inv in E3. apply Rabs_le. lra.
Qed.

Lemma sum4_size a b c (x y z : R) : Rabs a <= 3/2 -> Rabs b <= 3/2 -> Rabs c <= 3/2 ->
  Rabs (a * x) + Rabs (b * y) + Rabs (c * z) <= 3/2 * (Rabs x + Rabs y + Rabs z).
Proof.
  intros Ha Hb Hc. rewrite !Rabs_mult. pose proof (Rabs_pos x) as Px. pose proof (Rabs_pos y) as Py. pose proof (Rabs_pos z) as Pz.
  pose proof (Rmult_le_compat_r _ _ _ Px Ha). pose proof (Rmult_le_compat_r _ _ _ Py Hb). pose proof (Rmult_le_compat_r _ _ _ Pz Hc). lra.
Qed.

Lemma split_sq r X E : Rabs (r - X) <= E -> X ^ 2 <= 2 * r ^ 2 + 2 * E ^ 2.
Proof. intros H. apply Rabs_le_inv in H. assert ((r - X) ^ 2 <= E ^ 2) by nra. pose proof (pow2_ge_0 (2 * r - X)). nra. Qed.

Lemma sqr_le_32 x : x ^ 2 <= 3/2 -> Rabs x <= 3/2.
Proof. intros Hx. apply Rabs_le. split; nra. Qed.
Lemma Rabs_sqr_le x y : Rabs x <= y -> x ^ 2 <= y ^ 2.
Proof. intros Hx. rewrite <- (pow2_abs x). apply pow_incr. split; [apply Rabs_pos|exact Hx]. Qed.

Lemma integrate64 L (q : Quat b64) (w : V3 b64) (dt : b64) : let O := F64Ops L in
  unit_within (1/2) q -> rates_below bigw w -> fin dt -> 0 < val dt <= 1 ->
  unit_within (16 * uu) (qnormalized (qadd q (qmap (fun x => mul x dt) (quat_derivative q w)))).
Proof.
  intros O ((Fw & Fx & Fy & Fz) & Hu) ((Gx & Gy & Gz) & HW) Fd Hd. pose proof tiny_num as TN. pose proof tiny_pos as TP.
  apply Rabs_le_inv in Hu. set (D := val dt) in *.
  set (W := Rabs (val (vx w)) + Rabs (val (vy w)) + Rabs (val (vz w))) in *.
  pose proof (Rabs_pos (val (vx w))) as Wx. pose proof (Rabs_pos (val (vy w))) as Wy. pose proof (Rabs_pos (val (vz w))) as Wz.
  assert (W0 : 0 <= W) by (unfold W; lra).
  set (a := val (qw q)). set (b := val (qx q)). set (c := val (qy q)). set (e := val (qz q)).
  set (x := val (vx w)) in *. set (y := val (vy w)) in *. set (z := val (vz w)) in *.
  assert (SL : sqlen q = a ^ 2 + b ^ 2 + c ^ 2 + e ^ 2) by reflexivity.
  assert (Ba : Rabs a <= 3/2) by (apply sqr_le_32; rewrite SL in Hu; pose proof (pow2_ge_0 a); pose proof (pow2_ge_0 b); pose proof (pow2_ge_0 c); pose proof (pow2_ge_0 e); lra). assert (Bb : Rabs b <= 3/2) by (apply sqr_le_32; rewrite SL in Hu; pose proof (pow2_ge_0 a); pose proof (pow2_ge_0 b); pose proof (pow2_ge_0 c); pose proof (pow2_ge_0 e); lra).
  assert (Bc : Rabs c <= 3/2) by (apply sqr_le_32; rewrite SL in Hu; pose proof (pow2_ge_0 a); pose proof (pow2_ge_0 b); pose proof (pow2_ge_0 c); pose proof (pow2_ge_0 e); lra). assert (Be : Rabs e <= 3/2) by (apply sqr_le_32; rewrite SL in Hu; pose proof (pow2_ge_0 a); pose proof (pow2_ge_0 b); pose proof (pow2_ge_0 c); pose proof (pow2_ge_0 e); lra).
  pose proof huge_big as HB.
  assert (BW : W <= huge / 1606938044258990275541962092341162602522202993782792835301376).
  { pose proof bigw_huge as E. rewrite pow200 in E. pose proof bigw_one as B1.
    assert (bigw * 1 <= bigw * bigw) by (apply Rmult_le_compat_l; lra). lra. }
  (* the Hamilton product *)
  assert (Z0 : fin (b64_ofZ 0) /\ val (b64_ofZ 0) = 0) by (split; [exact fin_zero|exact val_zero]). destruct Z0 as [FZ VZ].
  assert (ABS0 : forall t, Rabs (t * 0) = 0) by (intros t; rewrite Rmult_0_r; apply Rabs_R0).
  set (m := qmul q (mkQ zero (vx w) (vy w) (vz w))).
  assert (Mw : fin (qw m) /\ Rabs (val (qw m) - (- b * x - c * y - e * z)) <= 8 * uu * W + 8 * tiny).
  { pose proof (sum4_size b c e x y z Bb Bc Be) as S4. fold W in S4.
    destruct (four (qw q) (b64_ofZ 0) (qx q) (vx w) (qy q) (vy w) (qz q) (vz w)) as [_ [_ [F E]]];
      [tauto|fold a b c e x y z; rewrite VZ, ABS0; lra|].
    fold a b c e x y z in E. rewrite VZ, ABS0 in E. split; [exact F|]. change (qw m) with (Bminus mode_NE (Bminus mode_NE (Bminus mode_NE (Bmult mode_NE (qw q) (b64_ofZ 0)) (Bmult mode_NE (qx q) (vx w))) (Bmult mode_NE (qy q) (vy w))) (Bmult mode_NE (qz q) (vz w))).
    replace (- b * x - c * y - e * z) with (a * 0 - b * x - c * y - e * z) by ring. lra. }
  assert (Mx : fin (qx m) /\ Rabs (val (qx m) - (a * x + c * z - e * y)) <= 8 * uu * W + 8 * tiny).
  { pose proof (sum4_size a c e x z y Ba Bc Be) as S4. replace (Rabs x + Rabs z + Rabs y) with W in S4 by (unfold W; ring).
    destruct (four (qw q) (vx w) (qx q) (b64_ofZ 0) (qy q) (vz w) (qz q) (vy w)) as [_ [[F E] _]];
      [tauto|fold a b c e x y z; rewrite VZ, ABS0; lra|].
    fold a b c e x y z in E. rewrite VZ, ABS0 in E. split; [exact F|]. change (qx m) with (Bminus mode_NE (Bplus mode_NE (Bplus mode_NE (Bmult mode_NE (qw q) (vx w)) (Bmult mode_NE (qx q) (b64_ofZ 0))) (Bmult mode_NE (qy q) (vz w))) (Bmult mode_NE (qz q) (vy w))).
    replace (a * x + c * z - e * y) with (a * x + b * 0 + c * z - e * y) by ring. lra. }
  assert (My : fin (qy m) /\ Rabs (val (qy m) - (a * y + e * x - b * z)) <= 8 * uu * W + 8 * tiny).
  { pose proof (sum4_size a e b y x z Ba Be Bb) as S4. replace (Rabs y + Rabs x + Rabs z) with W in S4 by (unfold W; ring).
    destruct (four (qw q) (vy w) (qy q) (b64_ofZ 0) (qz q) (vx w) (qx q) (vz w)) as [_ [[F E] _]];
      [tauto|fold a b c e x y z; rewrite VZ, ABS0; lra|].
    fold a b c e x y z in E. rewrite VZ, ABS0 in E. split; [exact F|]. change (qy m) with (Bminus mode_NE (Bplus mode_NE (Bplus mode_NE (Bmult mode_NE (qw q) (vy w)) (Bmult mode_NE (qy q) (b64_ofZ 0))) (Bmult mode_NE (qz q) (vx w))) (Bmult mode_NE (qx q) (vz w))).
    replace (a * y + e * x - b * z) with (a * y + c * 0 + e * x - b * z) by ring. lra. }
  assert (Mz : fin (qz m) /\ Rabs (val (qz m) - (a * z + b * y - c * x)) <= 8 * uu * W + 8 * tiny).
  { pose proof (sum4_size a b c z y x Ba Bb Bc) as S4. replace (Rabs z + Rabs y + Rabs x) with W in S4 by (unfold W; ring).
    destruct (four (qw q) (vz w) (qz q) (b64_ofZ 0) (qx q) (vy w) (qy q) (vx w)) as [_ [[F E] _]];
      [tauto|fold a b c e x y z; rewrite VZ, ABS0; lra|].
    fold a b c e x y z in E. rewrite VZ, ABS0 in E. split; [exact F|]. change (qz m) with (Bminus mode_NE (Bplus mode_NE (Bplus mode_NE (Bmult mode_NE (qw q) (vz w)) (Bmult mode_NE (qz q) (b64_ofZ 0))) (Bmult mode_NE (qx q) (vy w))) (Bmult mode_NE (qy q) (vx w))).
    replace (a * z + b * y - c * x) with (a * z + e * 0 + b * y - c * x) by ring. lra. }
  assert (PB : forall u v t X Y Z, Rabs u <= 3/2 -> Rabs v <= 3/2 -> Rabs t <= 3/2 -> Rabs X + Rabs Y + Rabs Z = W -> Rabs (u * X + v * Y + t * Z) <= 3/2 * W).
  { intros u v t X Y Z Hu1 Hv1 Ht1 <-. pose proof (sum4_size u v t X Y Z Hu1 Hv1 Ht1) as S4.
    pose proof (Rabs_triang (u * X + v * Y) (t * Z)) as T1. pose proof (Rabs_triang (u * X) (v * Y)) as T2. lra. }
  assert (NA : forall t, Rabs t <= 3/2 -> Rabs (- t) <= 3/2) by (intros t Ht; rewrite Rabs_Ropp; exact Ht).
  destruct Mw as [Nw Ew]. destruct Mx as [Nx Ex]. destruct My as [Ny Ey]. destruct Mz as [Nz Ez].
  destruct (tail_err L (qw q) (qw m) dt (- b * x - c * y - e * z) W Fw Nw Fd Hd Ba (conj W0 HW)) as [Rw Kw]; [|exact Ew|].
  { replace (- b * x - c * y - e * z) with ((- b) * x + (- c) * y + (- e) * z) by ring. apply PB; auto. }
  destruct (tail_err L (qx q) (qx m) dt (a * x + c * z - e * y) W Fx Nx Fd Hd Bb (conj W0 HW)) as [Rx Kx]; [|exact Ex|].
  { replace (a * x + c * z - e * y) with (a * x + c * z + (- e) * y) by ring. apply PB; auto. unfold W. ring. }
  destruct (tail_err L (qy q) (qy m) dt (a * y + e * x - b * z) W Fy Ny Fd Hd Bc (conj W0 HW)) as [Ry Ky]; [|exact Ey|].
  { replace (a * y + e * x - b * z) with (a * y + e * x + (- b) * z) by ring. apply PB; auto. unfold W. ring. }
  destruct (tail_err L (qz q) (qz m) dt (a * z + b * y - c * x) W Fz Nz Fd Hd Be (conj W0 HW)) as [Rz Kz]; [|exact Ez|].
  { replace (a * z + b * y - c * x) with (a * z + b * y + (- c) * x) by ring. apply PB; auto. unfold W. ring. }
  set (r := qadd q (qmap (fun x => mul x dt) (quat_derivative q w))).
  change (add (qw q) (mul (mul half (qw m)) dt)) with (qw r) in Rw, Kw.
  change (add (qx q) (mul (mul half (qx m)) dt)) with (qx r) in Rx, Kx.
  change (add (qy q) (mul (mul half (qy m)) dt)) with (qy r) in Ry, Ky.
  change (add (qz q) (mul (mul half (qz m)) dt)) with (qz r) in Rz, Kz.
  fold a b c e D in Kw, Kx, Ky, Kz. set (V := W * D) in *. set (E := 8 * uu * V + 3 * uu) in *.
  assert (V0 : 0 <= V) by (apply Rmult_le_pos; lra).
  assert (V1 : V <= bigw).
  { unfold V. eapply Rle_trans; [|exact HW]. rewrite <- (Rmult_1_r W) at 2. apply Rmult_le_compat_l; lra. }
  pose proof (split_sq _ _ _ Kw) as Qw. pose proof (split_sq _ _ _ Kx) as Qx. pose proof (split_sq _ _ _ Ky) as Qy. pose proof (split_sq _ _ _ Kz) as Qz.
  assert (ID : (a + (- b * x - c * y - e * z) / 2 * D) ^ 2 + (b + (a * x + c * z - e * y) / 2 * D) ^ 2 +
    (c + (a * y + e * x - b * z) / 2 * D) ^ 2 + (e + (a * z + b * y - c * x) / 2 * D) ^ 2 =
    (a ^ 2 + b ^ 2 + c ^ 2 + e ^ 2) * (1 + (x ^ 2 + y ^ 2 + z ^ 2) * D ^ 2 / 4)) by field.
  assert (W2 : W ^ 2 <= 3 * (x ^ 2 + y ^ 2 + z ^ 2)).
  {
    assert (Sx : x ^ 2 = Rabs x ^ 2) by (symmetry; apply pow2_abs).
    assert (Sy : y ^ 2 = Rabs y ^ 2) by (symmetry; apply pow2_abs).
    assert (Sz : z ^ 2 = Rabs z ^ 2) by (symmetry; apply pow2_abs).
    rewrite Sx, Sy, Sz. unfold W. generalize (Rabs x) (Rabs y) (Rabs z). intros X Y Z. pose proof (pow2_ge_0 (X - Y)). pose proof (pow2_ge_0 (Y - Z)). pose proof (pow2_ge_0 (X - Z)). lra. }
  assert (V2 : V ^ 2 <= 3 * ((x ^ 2 + y ^ 2 + z ^ 2) * D ^ 2)).
  { unfold V. replace ((W * D) ^ 2) with (W ^ 2 * D ^ 2) by ring. rewrite <- Rmult_assoc. apply Rmult_le_compat_r; [apply pow2_ge_0|exact W2]. }
  assert (LB : 1/2 + V ^ 2 / 24 <= (a ^ 2 + b ^ 2 + c ^ 2 + e ^ 2) * (1 + (x ^ 2 + y ^ 2 + z ^ 2) * D ^ 2 / 4)).
  { rewrite SL in Hu. set (S := (x ^ 2 + y ^ 2 + z ^ 2) * D ^ 2) in *. set (A := a ^ 2 + b ^ 2 + c ^ 2 + e ^ 2) in *.
    pose proof (pow2_ge_0 V). assert (1/2 * (1 + S / 4) <= A * (1 + S / 4)) by (apply Rmult_le_compat_r; lra). lra. }
  rewrite <- ID in LB.
  assert (E2 : E ^ 2 <= 1/1000000 * V ^ 2 + 1/1000000).
  { unfold E. replace ((8 * uu * V + 3 * uu) ^ 2) with (uu * uu * (64 * V ^ 2 + 48 * V + 9)) by ring.
    pose proof (pow2_ge_0 (V - 1)). pose proof (pow2_ge_0 V). lra. }
  assert (Low : 1/8 <= sqlen r).
  { unfold sqlen. pose proof (pow2_ge_0 V). lra. }
  assert (Up : forall t X, Rabs (val t - (X)) <= E -> Rabs X <= 3/2 + 3/4 * V -> val t ^ 2 <= (2 + V) ^ 2).
  { intros t X H1 H2. apply Rabs_le_inv in H1. apply Rabs_le_inv in H2. unfold E in H1.
    assert (- (2 + V) <= val t <= 2 + V) by lra. apply Rabs_sqr_le. apply Rabs_le. lra. }
  assert (XB : forall u P, Rabs u <= 3/2 -> Rabs P <= 3/2 * W -> Rabs (u + P / 2 * D) <= 3/2 + 3/4 * V).
  { intros u P H1 H2. eapply Rle_trans; [apply Rabs_triang|]. apply Rplus_le_compat; [exact H1|].
    rewrite Rabs_mult, (Rabs_right D) by lra. unfold V, Rdiv. rewrite Rabs_mult, (Rabs_right (/2)) by lra.
    replace (3 * / 4 * (W * D)) with ((3 * / 2 * W) * / 2 * D) by field. apply Rmult_le_compat_r; [lra|]. apply Rmult_le_compat_r; lra. }
  assert (High : sqlen r <= huge / 8).
  { assert (Uw : val (qw r) ^ 2 <= (2 + V) ^ 2).
    { eapply Up; [exact Kw|]. apply XB; [exact Ba|]. replace (- b * x - c * y - e * z) with ((- b) * x + (- c) * y + (- e) * z) by ring. apply PB; auto. }
    assert (Ux : val (qx r) ^ 2 <= (2 + V) ^ 2).
    { eapply Up; [exact Kx|]. apply XB; [exact Bb|]. replace (a * x + c * z - e * y) with (a * x + c * z + (- e) * y) by ring. apply PB; auto. unfold W. ring. }
    assert (Uy : val (qy r) ^ 2 <= (2 + V) ^ 2).
    { eapply Up; [exact Ky|]. apply XB; [exact Bc|]. replace (a * y + e * x - b * z) with (a * y + e * x + (- b) * z) by ring. apply PB; auto. unfold W. ring. }
    assert (Uz : val (qz r) ^ 2 <= (2 + V) ^ 2).
    { eapply Up; [exact Kz|]. apply XB; [exact Be|]. replace (a * z + b * y - c * x) with (a * z + b * y + (- c) * x) by ring. apply PB; auto. unfold W. ring. }
    pose proof bigw_huge as BH. rewrite pow200 in BH. pose proof bigw_one as B1.
    assert (VV : (2 + V) ^ 2 <= 9 * (bigw * bigw)).
    { assert (0 <= 2 + V <= 3 * bigw) by lra. replace (9 * (bigw * bigw)) with ((3 * bigw) * (3 * bigw)) by ring. replace ((2 + V) ^ 2) with ((2 + V) * (2 + V)) by ring. apply Rmult_le_compat; lra. }
    assert (0 <= bigw * bigw) by (apply Rmult_le_pos; lra). unfold sqlen. lra. }
  exact (normalized64 L r (conj Rw (conj Rx (conj Ry Rz))) Low High).
Qed.
