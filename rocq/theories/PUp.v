(** Magnitudes through binary64 operations: bounds that are powers of two
    survive rounding. *)

From Coq Require Import ZArith Bool List Reals Lra Lia.
From Flocq Require Import Core BinarySingleNaN.
From Verif Require Import Scalar Float64 LinAlg MUtils SpecRound SpecNumber PBase PFloat PRound.
Import ListNotations.
Local Open Scope R_scope.

Notation "2^ e" := (bpow radix2 e) (at level 8, e at level 8, format "2^ e").
Lemma pow_pos e : 0 < 2^e. Proof. apply bpow_gt_0. Qed.
Lemma pow_S e : 2^(e + 1) = 2 * 2^e.
Proof. rewrite bpow_plus. change (2^1) with 2. ring. Qed.
Lemma fmt_pow2 e : (-1074 <= e)%Z -> generic_format radix2 (SpecFloat.fexp 53 1024) (2^e).
Proof. intros H. apply generic_format_bpow. unfold SpecFloat.fexp, SpecFloat.emin. lia. Qed.
Lemma rnd_up e x : (-1074 <= e <= 1023)%Z -> Rabs x <= 2^e -> Rabs (rnd x) <= 2^e /\ Rlt_bool (Rabs (rnd x)) (bpow radix2 1024) = true.
Proof.
  intros He Hx. assert (A : Rabs (rnd x) <= 2^e).
  { apply abs_round_le_generic; [apply fexp_correct; exact prec53|apply valid_rnd_N|apply fmt_pow2; lia|exact Hx]. }
  split; [exact A|]. apply Rlt_bool_true. eapply Rle_lt_trans; [exact A|]. apply bpow_lt. lia.
Qed.
Lemma rnd_low e x : (-1074 <= e)%Z -> 2^e <= x -> 2^e <= rnd x.
Proof.
  intros He Hx. apply round_ge_generic; [apply fexp_correct; exact prec53|apply valid_rnd_N|apply fmt_pow2; lia|exact Hx].
Qed.
Lemma rnd_nonneg x : 0 <= x -> 0 <= rnd x.
Proof. intros H. rewrite <- (round_0 radix2 (SpecFloat.fexp 53 1024) (round_mode mode_NE)). apply round_le; [apply fexp_correct; exact prec53|apply valid_rnd_N|exact H]. Qed.

Lemma up_weak e f x : (e <= f)%Z -> upto e x -> upto f x.
Proof. intros H [F A]. split; [exact F|]. eapply Rle_trans; [exact A|]. apply bpow_le, H. Qed.
Lemma up_fin e x : upto e x -> fin x. Proof. intros [F _]; exact F. Qed.
Lemma up_zero e x : fin x -> val x = 0 -> upto e x.
Proof. intros F E. split; [exact F|]. rewrite E, Rabs_R0. apply Rlt_le, pow_pos. Qed.

Section Up.
Variable L : Libm.
#[local] Instance FO : Ops b64 := F64Ops L.
Local Open Scope sc_scope.

Lemma up_add e x y : upto e x -> upto e y -> (-1000 <= e <= 1022)%Z -> upto (e + 1) (x + y).
Proof.
  intros [Fx Ax] [Fy Ay] He. pose proof (Bplus_correct 53 1024 _ _ mode_NE x y Fx Fy) as C.
  destruct (rnd_up (e + 1) (val x + val y)) as [U V]; [lia| |].
  { rewrite pow_S. eapply Rle_trans; [apply Rabs_triang|]. lra. }
  unfold val in U, V. rewrite V in C. destruct C as (C & F & _). split; [exact F|]. unfold val. change (Bplus mode_NE x y) with (x + y)%sc in C. rewrite C. exact U.
Qed.
Lemma up_sub e x y : upto e x -> upto e y -> (-1000 <= e <= 1022)%Z -> upto (e + 1) (x - y).
Proof.
  intros [Fx Ax] [Fy Ay] He. pose proof (Bminus_correct 53 1024 _ _ mode_NE x y Fx Fy) as C.
  destruct (rnd_up (e + 1) (val x - val y)) as [U V]; [lia| |].
  { rewrite pow_S. unfold Rminus. eapply Rle_trans; [apply Rabs_triang|]. rewrite Rabs_Ropp. lra. }
  unfold val in U, V. rewrite V in C. destruct C as (C & F & _). split; [exact F|]. unfold val. change (Bminus mode_NE x y) with (x - y)%sc in C. rewrite C. exact U.
Qed.
Lemma up_mul e f x y : upto e x -> upto f y -> (-1000 <= e + f <= 1023)%Z -> upto (e + f) (x * y).
Proof.
  intros [Fx Ax] [Fy Ay] He. pose proof (Bmult_correct 53 1024 _ _ mode_NE x y) as C.
  destruct (rnd_up (e + f) (val x * val y)) as [U V]; [lia| |].
  { rewrite bpow_plus, Rabs_mult. apply Rmult_le_compat; try apply Rabs_pos; assumption. }
  unfold val in U, V. rewrite V in C. destruct C as (C & F & _). rewrite Fx, Fy in F. split; [exact F|]. unfold val. change (Bmult mode_NE x y) with (x * y)%sc in C. rewrite C. exact U.
Qed.
Lemma up_div e g x y : upto e x -> atleast g y -> (-1000 <= e - g <= 1023)%Z -> upto (e - g) (x / y).
Proof.
  intros [Fx Ax] [Fy Ay] He. pose proof (pow_pos g) as Pg. assert (Ny : B2R y <> 0) by (unfold val in Ay; lra).
  pose proof (Bdiv_correct 53 1024 _ _ mode_NE x y Ny) as C.
  destruct (rnd_up (e - g) (val x / val y)) as [U V]; [lia| |].
  { unfold Rdiv, Z.sub. rewrite bpow_plus, Rabs_mult, bpow_opp. apply Rmult_le_compat; try apply Rabs_pos; [exact Ax|].
    rewrite Rabs_pos_eq; [apply Rinv_le_contravar; assumption|]. apply Rlt_le, Rinv_0_lt_compat. lra. }
  unfold val in U, V. rewrite V in C. destruct C as (C & F & _). rewrite Fx in F. split; [exact F|]. unfold val. change (Bdiv mode_NE x y) with (x / y)%sc in C. rewrite C. exact U.
Qed.
Lemma low_mul e f x y : atleast e x -> atleast f y -> upto 500 x -> upto 500 y -> (-1000 <= e + f)%Z -> atleast (e + f) (x * y).
Proof.
  intros [Fx Ax] [Fy Ay] Ux Uy He. pose proof (up_mul 500 500 x y Ux Uy ltac:(lia)) as [F _]. split; [exact F|].
  pose proof (Bmult_correct 53 1024 _ _ mode_NE x y) as C.
  destruct (rnd_up 1000 (val x * val y)) as [U V]; [lia| |].
  { change 1000%Z with (500 + 500)%Z. rewrite bpow_plus, Rabs_mult. apply Rmult_le_compat; try apply Rabs_pos; [apply Ux|apply Uy]. }
  unfold val in U, V. rewrite V in C. destruct C as (C & _). unfold val. change (Bmult mode_NE x y) with (x * y)%sc in C. rewrite C.
  apply rnd_low; [lia|]. rewrite bpow_plus. apply Rmult_le_compat; try apply Rlt_le, pow_pos; assumption.
Qed.
Lemma low_add_zero e x y : atleast e x -> upto 1000 x -> fin y -> val y = 0 -> (-1000 <= e)%Z -> atleast e (x + y).
Proof.
  intros [Fx Ax] Ux Fy Ey He. pose proof (up_add 1000 x y Ux (up_zero _ _ Fy Ey) ltac:(lia)) as [F _]. split; [exact F|].
  pose proof (Bplus_correct 53 1024 _ _ mode_NE x y Fx Fy) as C.
  destruct (rnd_up 1001 (val x + val y)) as [U V]; [lia| |].
  { rewrite Ey, Rplus_0_r. eapply Rle_trans; [apply Ux|]. apply bpow_le. lia. }
  unfold val in U, V. rewrite V in C. destruct C as (C & _). unfold val. change (Bplus mode_NE x y) with (x + y)%sc in C. rewrite C.
  apply rnd_low; [lia|]. unfold val in Ey, Ax. rewrite Ey, Rplus_0_r. exact Ax.
Qed.
Lemma low_sub_zero e x y : atleast e x -> upto 1000 x -> fin y -> val y = 0 -> (-1000 <= e)%Z -> atleast e (x - y).
Proof.
  intros [Fx Ax] Ux Fy Ey He. pose proof (up_sub 1000 x y Ux (up_zero _ _ Fy Ey) ltac:(lia)) as [F _]. split; [exact F|].
  pose proof (Bminus_correct 53 1024 _ _ mode_NE x y Fx Fy) as C.
  destruct (rnd_up 1001 (val x - val y)) as [U V]; [lia| |].
  { rewrite Ey, Rminus_0_r. eapply Rle_trans; [apply Ux|]. apply bpow_le. lia. }
  unfold val in U, V. rewrite V in C. destruct C as (C & _). unfold val. change (Bminus mode_NE x y) with (x - y)%sc in C. rewrite C.
  apply rnd_low; [lia|]. unfold val in Ey, Ax. rewrite Ey, Rminus_0_r. exact Ax.
Qed.
Lemma mul_zero_r x y : upto 1000 x -> fin y -> val y = 0 -> fin (x * y) /\ val (x * y) = 0.
Proof.
  intros [Fx Ax] Fy Ey. pose proof (Bmult_correct 53 1024 _ _ mode_NE x y) as C. unfold val in Ey. rewrite Ey, Rmult_0_r, round_0 in C by apply valid_rnd_N.
  rewrite Rabs_R0, Rlt_bool_true in C by apply bpow_gt_0. destruct C as (C & F & _). rewrite Fx, Fy in F. split; [exact F|exact C].
Qed.
Lemma mul_zero_l x y : upto 1000 y -> fin x -> val x = 0 -> fin (x * y) /\ val (x * y) = 0.
Proof.
  intros [Fy Ay] Fx Ex. pose proof (Bmult_correct 53 1024 _ _ mode_NE x y) as C. unfold val in Ex. rewrite Ex, Rmult_0_l, round_0 in C by apply valid_rnd_N.
  rewrite Rabs_R0, Rlt_bool_true in C by apply bpow_gt_0. destruct C as (C & F & _). rewrite Fx, Fy in F. split; [exact F|exact C].
Qed.
Lemma sub_zero x y : fin x -> fin y -> val x = 0 -> val y = 0 -> fin (x - y) /\ val (x - y) = 0.
Proof.
  intros Fx Fy Ex Ey. pose proof (Bminus_correct 53 1024 _ _ mode_NE x y Fx Fy) as C. unfold val in Ex, Ey. rewrite Ex, Ey, Rminus_0_r, round_0 in C by apply valid_rnd_N.
  rewrite Rabs_R0, Rlt_bool_true in C by apply bpow_gt_0. destruct C as (C & F & _). split; [exact F|exact C].
Qed.

(** ** Signs and constants *)
Lemma up_const z : (Z.abs z <= 2)%Z -> upto 1 (ofZ z).
Proof.
  intros H. assert (C : z = (-2)%Z \/ z = (-1)%Z \/ z = 0%Z \/ z = 1%Z \/ z = 2%Z) by lia.
  destruct C as [ -> | [ -> | [ -> | [ -> | -> ] ] ] ].
  3: { split; [reflexivity|]. change (Rabs 0 <= 2^1). rewrite Rabs_R0. apply Rlt_le, pow_pos. }
  all: split; [reflexivity|].
  - assert (E : B2SF (b64_ofZ (-2)) = SpecFloat.S754_finite true 4503599627370496 (-51)) by (vm_compute; reflexivity).
    unfold val. change (ofZ (-2)) with (b64_ofZ (-2)). rewrite <- SF2R_B2SF, E. cbn [SF2R cond_Zopp Z.opp]. unfold F2R. cbn [Fnum Fexp Z.opp].
    change (2^(-51)) with (/ IZR (Z.pow_pos 2 51)). replace (IZR (Z.pow_pos 2 51)) with 2251799813685248 by (f_equal; reflexivity).
    change (2^1) with 2. apply Rabs_le. lra.
  - assert (E : B2SF (b64_ofZ (-1)) = SpecFloat.S754_finite true 4503599627370496 (-52)) by (vm_compute; reflexivity).
    unfold val. change (ofZ (-1)) with (b64_ofZ (-1)). rewrite <- SF2R_B2SF, E. cbn [SF2R cond_Zopp Z.opp]. unfold F2R. cbn [Fnum Fexp Z.opp].
    change (2^(-52)) with (/ IZR (Z.pow_pos 2 52)). replace (IZR (Z.pow_pos 2 52)) with 4503599627370496 by (f_equal; reflexivity).
    change (2^1) with 2. apply Rabs_le. lra.
  - assert (E : B2SF (b64_ofZ 1) = SpecFloat.S754_finite false 4503599627370496 (-52)) by (vm_compute; reflexivity).
    unfold val. change (ofZ 1) with (b64_ofZ 1). rewrite <- SF2R_B2SF, E. cbn [SF2R cond_Zopp Z.opp]. unfold F2R. cbn [Fnum Fexp Z.opp].
    change (2^(-52)) with (/ IZR (Z.pow_pos 2 52)). replace (IZR (Z.pow_pos 2 52)) with 4503599627370496 by (f_equal; reflexivity).
    change (2^1) with 2. apply Rabs_le. lra.
  - assert (E : B2SF (b64_ofZ 2) = SpecFloat.S754_finite false 4503599627370496 (-51)) by (vm_compute; reflexivity).
    unfold val. change (ofZ 2) with (b64_ofZ 2). rewrite <- SF2R_B2SF, E. cbn [SF2R cond_Zopp Z.opp]. unfold F2R. cbn [Fnum Fexp Z.opp].
    change (2^(-51)) with (/ IZR (Z.pow_pos 2 51)). replace (IZR (Z.pow_pos 2 51)) with 2251799813685248 by (f_equal; reflexivity).
    change (2^1) with 2. apply Rabs_le. lra.
Qed.
Lemma up_sign x : upto 1 (signT x).
Proof. unfold signT. destruct (zero <? x); [apply up_const; lia|]. destruct (x <? zero); apply up_const; lia. Qed.
Lemma up_neg e x : upto e x -> upto e (neg x).
Proof. intros [F A]. split; [unfold fin; cbn; rewrite is_finite_Bopp; exact F|]. unfold val. cbn. rewrite B2R_Bopp, Rabs_Ropp. exact A. Qed.
Lemma sq_nonneg x e : upto e x -> (0 <= e <= 500)%Z -> 0 <= val (x * x).
Proof.
  intros [Fx Ax] He. pose proof (Bmult_correct 53 1024 _ _ mode_NE x x) as C.
  destruct (rnd_up (e + e) (val x * val x)) as [U V]; [lia| |].
  { rewrite bpow_plus, Rabs_mult. apply Rmult_le_compat; try apply Rabs_pos; assumption. }
  unfold val in U, V. rewrite V in C. destruct C as (C & _). unfold val. change (Bmult mode_NE x x) with (x * x)%sc in C. rewrite C. apply rnd_nonneg. nra.
Qed.
Lemma add_nonneg x y e : upto e x -> upto e y -> (-1000 <= e <= 1022)%Z -> 0 <= val x -> 0 <= val y -> 0 <= val (x + y).
Proof.
  intros [Fx Ax] [Fy Ay] He Px Py. pose proof (Bplus_correct 53 1024 _ _ mode_NE x y Fx Fy) as C.
  destruct (rnd_up (e + 1) (val x + val y)) as [U V]; [lia| |].
  { rewrite pow_S. eapply Rle_trans; [apply Rabs_triang|]. lra. }
  unfold val in U, V. rewrite V in C. destruct C as (C & _). unfold val. change (Bplus mode_NE x y) with (x + y)%sc in C. rewrite C. apply rnd_nonneg.
  unfold val in Px, Py. lra.
Qed.
Lemma up_sqrt e x : upto e x -> (0 <= e <= 1023)%Z -> 0 <= val x -> upto e (sqrtT x).
Proof.
  intros [Fx Ax] He Px. destruct (ok_sqrt x Fx Px) as [F _]. split; [exact F|].
  pose proof (Bsqrt_correct 53 1024 _ _ mode_NE x) as (C & _). unfold val. change (sqrtT x) with (Bsqrt mode_NE x). rewrite C.
  apply rnd_up; [lia|]. rewrite Rabs_pos_eq by apply sqrt_pos. rewrite Rabs_pos_eq in Ax by exact Px.
  assert (One : 1 <= 2^e) by (change 1 with (2^0); apply bpow_le; lia).
  apply Rsqr_incr_0_var; [|lra]. unfold Rsqr. rewrite sqrt_sqrt by exact Px. unfold val in Ax. nra.
Qed.

(** ** Vectors *)
Lemma up3_weak e f v : (e <= f)%Z -> upto3 e v -> upto3 f v.
Proof. intros H (A & B & C). split; [|split]; eapply up_weak; eassumption. Qed.
Lemma up3_fin e v : upto3 e v -> finv v.
Proof. intros (A & B & C). split; [|split]; eapply up_fin; eassumption. Qed.
Lemma up3_add e a b : upto3 e a -> upto3 e b -> (-1000 <= e <= 1022)%Z -> upto3 (e + 1) (vadd a b).
Proof. intros (A1 & A2 & A3) (B1 & B2 & B3) He. split; [|split]; cbn; apply up_add; assumption. Qed.
Lemma up3_sub e a b : upto3 e a -> upto3 e b -> (-1000 <= e <= 1022)%Z -> upto3 (e + 1) (vsub a b).
Proof. intros (A1 & A2 & A3) (B1 & B2 & B3) He. split; [|split]; cbn; apply up_sub; assumption. Qed.
Lemma up3_scaler e f a k : upto3 e a -> upto f k -> (-1000 <= e + f <= 1023)%Z -> upto3 (e + f) (vscaler a k).
Proof. intros (A1 & A2 & A3) K He. split; [|split]; cbn; apply up_mul; assumption. Qed.
Lemma up3_scale e f a k : upto f k -> upto3 e a -> (-1000 <= f + e <= 1023)%Z -> upto3 (f + e) (vscale k a).
Proof. intros K (A1 & A2 & A3) He. split; [|split]; cbn; apply up_mul; assumption. Qed.
Lemma up3_div e g a k : upto3 e a -> atleast g k -> (-1000 <= e - g <= 1023)%Z -> upto3 (e - g) (vdiv a k).
Proof. intros (A1 & A2 & A3) K He. split; [|split]; cbn; apply up_div; assumption. Qed.
Lemma up3_cross e f a b : upto3 e a -> upto3 f b -> (-1000 <= e + f <= 1022)%Z -> upto3 (e + f + 1) (vcross a b).
Proof.
  intros (A1 & A2 & A3) (B1 & B2 & B3) He. split; [|split]; cbn; apply up_sub; try (apply up_mul; [assumption|assumption|lia]); lia.
Qed.
Lemma up_dot3 e f a1 a2 a3 b1 b2 b3 : upto e a1 -> upto e a2 -> upto e a3 -> upto f b1 -> upto f b2 -> upto f b3 -> (-1000 <= e + f <= 1000)%Z ->
  upto (e + f + 2) (a1 * b1 + a2 * b2 + a3 * b3).
Proof.
  intros A1 A2 A3 B1 B2 B3 He. replace (e + f + 2)%Z with (e + f + 1 + 1)%Z by lia. apply up_add; [|apply (up_weak (e + f)); [lia|apply up_mul; [assumption|assumption|lia]]|lia].
  apply up_add; try (apply up_mul; [assumption|assumption|lia]); lia.
Qed.
Lemma up3_mmulv e f m v : upto9 e m -> upto3 f v -> (-1000 <= e + f <= 1000)%Z -> upto3 (e + f + 2) (mmulv m v).
Proof.
  intros ((A1 & A2 & A3) & (B1 & B2 & B3) & (C1 & C2 & C3)) (V1 & V2 & V4) He. cbn in *.
  split; [|split]; cbn; apply up_dot3; assumption.
Qed.
Lemma up_sqn e a : upto3 e a -> (0 <= e <= 490)%Z -> upto (e + e + 2) (vsqn a) /\ 0 <= val (vsqn a).
Proof.
  intros (A1 & A2 & A3) He. split; [apply up_dot3; try assumption; lia|].
  unfold vsqn, vdot. apply (add_nonneg _ _ (e + e + 1)); try lia.
  - apply up_add; try (apply up_mul; [assumption|assumption|lia]); lia.
  - apply (up_weak (e + e)); [lia|]. apply up_mul; [assumption|assumption|lia].
  - apply (add_nonneg _ _ (e + e)); try lia; try (apply up_mul; [assumption|assumption|lia]); eapply sq_nonneg; try eassumption; lia.
  - eapply sq_nonneg; [exact A3|lia].
Qed.
Lemma up_norm e a : upto3 e a -> (0 <= e <= 490)%Z -> upto (e + e + 2) (vnorm a).
Proof. intros H He. destruct (up_sqn e a H He) as [U P]. apply up_sqrt; [exact U|lia|exact P]. Qed.
Lemma up3_rot e q v : upto 1 (qw q) -> upto3 1 (qvec q) -> upto3 e v -> (0 <= e <= 1000)%Z -> upto3 (e + 7) (qrot q v).
Proof.
  intros Hw Hv A He. unfold qrot.
  assert (U0 : upto3 (e + 2) (vcross (qvec q) v)) by (apply (up3_weak (1 + e + 1)); [lia|apply up3_cross; [exact Hv|exact A|lia]]).
  assert (U : upto3 (e + 3) (vadd (vcross (qvec q) v) (vcross (qvec q) v))).
  { replace (e + 3)%Z with (e + 2 + 1)%Z by lia. apply up3_add; [exact U0|exact U0|lia]. }
  set (uv := vadd _ _) in *. replace (e + 7)%Z with (e + 5 + 1 + 1)%Z by lia.
  apply up3_add; [apply up3_add| |lia].
  - apply (up3_weak e); [lia|exact A].
  - apply (up3_weak (1 + (e + 3))); [lia|]. apply up3_scale; [exact Hw|exact U|lia].
  - lia.
  - apply (up3_weak (1 + (e + 3) + 1)); [lia|]. apply up3_cross; [exact Hv|exact U|lia].
Qed.

(** ** Sums over rotors *)
Lemma up3_fold e : forall (r : list (V3 b64)) x k, (0 <= k)%Z -> upto3 (e + k) x -> Forall (upto3 e) r -> (-1000 <= e)%Z -> (e + k + Z.of_nat (length r) <= 1000)%Z ->
  upto3 (e + k + Z.of_nat (length r)) (fold_left vadd r x).
Proof.
  induction r as [|y r IH]; intros x k Hk Hx Hr He Hb; cbn [fold_left length] in *.
  - rewrite Z.add_0_r. exact Hx.
  - apply Forall_cons_iff in Hr as [Hy Hr]. rewrite Nat2Z.inj_succ in *. replace (e + k + Z.succ (Z.of_nat (length r)))%Z with (e + (k + 1) + Z.of_nat (length r))%Z by lia.
    apply IH; try assumption; try lia. rewrite Z.add_assoc. apply up3_add; [exact Hx| |lia]. apply (up3_weak e); [lia|exact Hy].
Qed.
Lemma up3_sum e l N : Forall (upto3 e) l -> (0 <= e)%Z -> (Z.of_nat (length l) <= N)%Z -> (e + N <= 1000)%Z -> upto3 (e + N) (vsum l).
Proof.
  intros Hl He Hn Hb. destruct l as [|x r]; cbn [vsum].
  - assert (Z0 : upto (e + N) zero) by (apply up_zero; reflexivity). split; [|split]; exact Z0.
  - apply Forall_cons_iff in Hl as [Hx Hr]. cbn [length] in Hn.
    apply (up3_weak (e + 0 + Z.of_nat (length r))); [lia|]. apply up3_fold; try assumption; try lia. rewrite Z.add_0_r. exact Hx.
Qed.
Lemma up3_colsmul e f cols x N : Forall (upto3 e) cols -> Forall (upto f) x -> (0 <= e)%Z -> (0 <= f)%Z -> (Z.of_nat (length cols) <= N)%Z -> (e + f + N <= 1000)%Z ->
  upto3 (e + f + N) (colsmul cols x).
Proof.
  intros Hc Hx He Hf Hn Hb. unfold colsmul. apply up3_sum; [|lia| |lia].
  - apply Forall_forall. intros v Iv. apply in_map_iff in Iv as ([c k] & <- & I). pose proof (in_combine_l _ _ _ _ I) as I1. pose proof (in_combine_r _ _ _ _ I) as I2.
    rewrite Forall_forall in Hc, Hx. cbn. apply up3_scaler; [apply Hc, I1|apply Hx, I2|lia].
  - rewrite map_length, combine_length. lia.
Qed.
Lemma up_sqks e x : upto e x -> (0 <= e <= 500)%Z -> upto (e + e + 1) (sqks x).
Proof. intros H He. unfold sqks. apply up_mul; [apply up_mul; [exact H|exact H|lia]|apply up_sign|lia]. Qed.
End Up.
