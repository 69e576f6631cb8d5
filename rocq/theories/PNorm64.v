(** Proofs: Eigen's normalized() in binary64 has coefficients of size at most four, whatever the length of the vector. *)

From Coq Require Import ZArith Bool List Reals Lra Lia Psatz.
From Flocq Require Import Core BinarySingleNaN.
From Verif Require Import Scalar Float64 LinAlg MUtils SpecDyn SpecRound SpecNumber SpecPidNum PBase PFloat PRound PQuat64 PUnit64 PUp PNumber PExact PPidNum.
Local Open Scope R_scope.

Lemma half_ge x : 2^(-1074) <= x -> x / 2 <= rnd x.
Proof.
  intros H. pose proof (pow_pos (-1074)) as P0. destruct (mag radix2 x) as [k Hk]. assert (N : x <> 0) by lra. specialize (Hk N).
  rewrite Rabs_pos_eq in Hk by lra. destruct Hk as [H1 H2].
  assert (Hl : (-1074 < k)%Z) by (apply (lt_bpow radix2); lra).
  pose proof (rnd_low (k - 1) x ltac:(lia) H1) as K. replace k with (k - 1 + 1)%Z in H2 by lia. rewrite pow_S in H2. lra.
Qed.
Lemma least_pos (z : b64) : fin z -> 0 < val z -> 2^(-1074) <= val z.
Proof.
  intros F P. assert (S : is_finite_strict z = true) by (destruct z as [s|s| |s m e0 H0]; [unfold val in P; cbn in P; lra|discriminate F|discriminate F|reflexivity]).
  pose proof (abs_B2R_ge_emin 53 1024 z S) as K. unfold val in *. rewrite Rabs_pos_eq in K by lra. exact K.
Qed.

Section Norm.
Variable L : Libm.
#[local] Instance FO : Ops b64 := F64Ops L.
Local Open Scope sc_scope.

Lemma add_ge_l e x y : upto e x -> upto e y -> (-1000 <= e <= 1022)%Z -> (0 <= val y)%R -> (val x <= val (x + y)%sc)%R.
Proof.
  intros Ux Uy He Py. assert (V : val (x + y) = rnd (val x + val y)%R) by exact (v_add L e x y Ux Uy He).
  rewrite V. rewrite <- (rnd_val x) at 1. apply rnd_mono. lra.
Qed.
Lemma add_ge_r e x y : upto e x -> upto e y -> (-1000 <= e <= 1022)%Z -> (0 <= val x)%R -> (val y <= val (x + y)%sc)%R.
Proof.
  intros Ux Uy He Py. assert (V : val (x + y) = rnd (val x + val y)%R) by exact (v_add L e x y Ux Uy He).
  rewrite V. rewrite <- (rnd_val y) at 1. apply rnd_mono. lra.
Qed.
Lemma val_sq e x : upto e x -> (0 <= e <= 490)%Z -> val (x * x) = rnd (val x * val x)%R.
Proof. intros U He. exact (v_mul L e e x x U U ltac:(lia)). Qed.
(** The squared length is at least the square of each coefficient. *)
Lemma sqn_parts e v : upto3 e v -> (0 <= e <= 490)%Z ->
  (rnd (val (vx v) * val (vx v)) <= val (vsqn v))%R /\ (rnd (val (vy v) * val (vy v)) <= val (vsqn v))%R /\ (rnd (val (vz v) * val (vz v)) <= val (vsqn v))%R.
Proof.
  intros (A & B & C) He. pose proof (val_sq e _ A He) as Va. pose proof (val_sq e _ B He) as Vb. pose proof (val_sq e _ C He) as Vc.
  pose proof (up_mul L e e _ _ A A ltac:(lia)) as Ua. pose proof (up_mul L e e _ _ B B ltac:(lia)) as Ub. pose proof (up_mul L e e _ _ C C ltac:(lia)) as Uc.
  pose proof (sq_nonneg L _ e A ltac:(lia)) as Pa. pose proof (sq_nonneg L _ e B ltac:(lia)) as Pb. pose proof (sq_nonneg L _ e C ltac:(lia)) as Pc.
  pose proof (up_add L (e + e) _ _ Ua Ub ltac:(lia)) as Us. pose proof (add_nonneg L _ _ (e + e) Ua Ub ltac:(lia) Pa Pb) as Ps.
  pose proof (add_ge_l (e + e) _ _ Ua Ub ltac:(lia) Pb) as G1. pose proof (add_ge_r (e + e) _ _ Ua Ub ltac:(lia) Pa) as G2.
  pose proof (add_ge_l (e + e + 1) _ _ Us (up_weak (e + e) (e + e + 1) _ ltac:(lia) Uc) ltac:(lia) Pc) as G3.
  pose proof (add_ge_r (e + e + 1) _ _ Us (up_weak (e + e) (e + e + 1) _ ltac:(lia) Uc) ltac:(lia) Ps) as G4.
  unfold vsqn, vdot. rewrite <- Va, <- Vb, <- Vc. split; [|split]; [exact (Rle_trans _ _ _ G1 G3)|exact (Rle_trans _ _ _ G2 G3)|exact G4].
Qed.
Lemma sqrt_half z : fin z -> (0 < val z)%R -> fin (sqrtT z) /\ (0 < val (sqrtT z))%R /\ (val z <= 4 * (val (sqrtT z) * val (sqrtT z)))%R.
Proof.
  intros F P. pose proof (least_pos z F P) as Lz. pose proof (Bsqrt_correct 53 1024 _ _ mode_NE z) as (C & Fs & _).
  assert (Fz : fin (sqrtT z)). { unfold fin. change (is_finite (Bsqrt mode_NE z) = true). rewrite Fs. destruct z as [s|s| |s m e0 H0]; try reflexivity; try discriminate F. destruct s; [|reflexivity]. exfalso. unfold val in P. apply (Rlt_not_le _ _ P). apply Rlt_le, F2R_lt_0. reflexivity. }
  split; [exact Fz|]. change (B2R (Bsqrt mode_NE z)) with (val (sqrtT z)) in C. change (B2R z) with (val z) in C.
  assert (Sq : (2^(-1074) <= sqrt (val z))%R).
  { apply Rle_trans with (2^(-537)); [apply bpow_le; lia|]. rewrite <- (sqrt_square (2^(-537))) by apply Rlt_le, pow_pos. apply sqrt_le_1_alt. rewrite <- bpow_plus. exact Lz. }
  pose proof (half_ge _ Sq) as H. rewrite <- C in H. pose proof (sqrt_sqrt (val z) ltac:(lra)) as Q. pose proof (pow_pos (-1074)). set (r := sqrt (val z)) in *. clearbody r. set (t := val (sqrtT z)) in *. clearbody t.
  split; [lra|]. rewrite <- Q. nra.
Qed.
Lemma quot_up x z : fin x -> fin z -> (0 < val z)%R -> (rnd (val x * val x) <= val z)%R -> upto 2 (x / sqrtT z).
Proof.
  intros Fx Fz P H. destruct (sqrt_half z Fz P) as (Fs & Ps & Hs). pose proof (least_pos z Fz P) as Lz.
  assert (B : (val x * val x <= 16 * (val (sqrtT z) * val (sqrtT z)))%R).
  { destruct (Rle_or_lt (2^(-1074)) (val x * val x)) as [K|K]; [pose proof (half_ge _ K)|]; nra. }
  assert (A : (Rabs (val x) <= 4 * val (sqrtT z))%R).
  { apply Rsqr_incr_0_var; [|lra]. rewrite <- Rsqr_abs. unfold Rsqr. nra. }
  assert (Ny : B2R (sqrtT z) <> 0%R) by (unfold val in Ps; lra).
  pose proof (Bdiv_correct 53 1024 _ _ mode_NE x (sqrtT z) Ny) as C.
  destruct (rnd_up 2 (val x / val (sqrtT z))) as [U V]; [lia| |].
  { unfold Rdiv. rewrite Rabs_mult, Rabs_inv, (Rabs_pos_eq (val (sqrtT z))) by lra. apply (Rmult_le_reg_r (val (sqrtT z))); [exact Ps|]. rewrite Rmult_assoc, Rinv_l by lra. change (2^2) with 4%R. lra. }
  unfold val in U, V. rewrite V in C. destruct C as (C & F & _). split; [exact (eq_trans F Fx)|]. unfold val. change (Bdiv mode_NE x (sqrtT z)) with (x / sqrtT z)%sc in C. rewrite C. exact U.
Qed.
Lemma tiny_up x z : fin x -> (val z <= 0)%R -> (rnd (val x * val x) <= val z)%R -> upto 2 x.
Proof.
  intros Fx P H. split; [exact Fx|]. assert (K : (val x * val x < 2^(-1074))%R).
  { destruct (Rle_or_lt (2^(-1074)) (val x * val x)) as [K|K]; [|exact K]. pose proof (half_ge _ K). pose proof (pow_pos (-1074)). lra. }
  assert (Q : (2^(-1074) <= 1)%R) by (change 1%R with (2^0); apply bpow_le; lia).
  change (2^2) with 4%R. apply Rsqr_incr_0_var; [|lra]. rewrite <- Rsqr_abs. unfold Rsqr. lra.
Qed.
Theorem normalized_up e v : upto3 e v -> (0 <= e <= 490)%Z -> upto3 2 (vnormalized v).
Proof.
  intros U He. destruct (sqn_parts e v U He) as (A & B & C). destruct (up_sqn L e v U He) as [[Fz _] Pz]. pose proof U as ((F1 & _) & (F2 & _) & (F3 & _)).
  unfold vnormalized. cbv zeta. destruct (zero <? vsqn v) eqn:E.
  - assert (P : (0 < val (vsqn v))%R) by (apply ltb_r in E; [exact E|reflexivity|exact Fz]).
    split; [|split]; apply quot_up; assumption.
  - assert (P : (val (vsqn v) <= 0)%R). { destruct (Rle_or_lt (val (vsqn v)) 0) as [K|K]; [exact K|]. exfalso. assert (X : (zero <? vsqn v) = true) by (apply (ltb_val zero (vsqn v)); [reflexivity|exact Fz|exact K]). rewrite X in E. discriminate E. }
    split; [|split]; eapply tiny_up; eassumption.
Qed.
End Norm.
