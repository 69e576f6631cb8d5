(** A rotor in binary64: each step moves it towards its command, never past it. *)

From Coq Require Import ZArith List Bool Lia Reals Lra Psatz.
From Flocq Require Import Core BinarySingleNaN.
From Verif Require Import Scalar Float64 LinAlg MUtils MModel MDynamics SpecDyn SpecRun SpecRound SpecNumber SpecLag
  PBase PFloat PDyn PModel PPhys PRound PUp PExact.
Import ListNotations.
Local Open Scope R_scope.

(** ** The grid of binary64 numbers *)
Notation fmt64 := (generic_format radix2 (SpecFloat.fexp 53 1024)).
#[local] Instance vexp64 : Valid_exp (SpecFloat.fexp 53 1024) := fexp_correct 53 1024 prec53.

Lemma grid x : fmt64 x -> exists k, x = IZR k * bpow radix2 (-1074).
Proof.
  intros F. exists (Ztrunc (scaled_mantissa radix2 (SpecFloat.fexp 53 1024) x) * 2 ^ (cexp radix2 (SpecFloat.fexp 53 1024) x + 1074))%Z.
  assert (E : (-1074 <= cexp radix2 (SpecFloat.fexp 53 1024) x)%Z) by (unfold cexp, SpecFloat.fexp, SpecFloat.emin; lia).
  rewrite F at 1. unfold F2R. cbn [Fnum Fexp]. rewrite mult_IZR, Rmult_assoc. f_equal.
  replace (2 ^ (cexp radix2 (SpecFloat.fexp 53 1024) x + 1074))%Z with (Zpower radix2 (cexp radix2 (SpecFloat.fexp 53 1024) x + 1074)) by reflexivity.
  rewrite IZR_Zpower by lia. rewrite <- bpow_plus. f_equal. lia.
Qed.
Lemma on_grid k : Rabs (IZR k * bpow radix2 (-1074)) < bpow radix2 (-1021) -> fmt64 (IZR k * bpow radix2 (-1074)).
Proof.
  intros H. change (IZR k * bpow radix2 (-1074)) with (F2R (Float radix2 k (-1074))) in *. apply generic_format_F2R. intros N.
  unfold cexp, SpecFloat.fexp, SpecFloat.emin.
  assert ((mag radix2 (F2R (Float radix2 k (-1074))) <= -1021)%Z); [|lia].
  apply mag_le_bpow; [|exact H]. intros Z. apply eq_0_F2R in Z. contradiction.
Qed.
Lemma fmt_sub_small x y : fmt64 x -> fmt64 y -> Rabs (x - y) < bpow radix2 (-1021) -> fmt64 (x - y).
Proof.
  intros Fx Fy. destruct (grid x Fx) as [a ->]. destruct (grid y Fy) as [b ->].
  replace (IZR a * bpow radix2 (-1074) - IZR b * bpow radix2 (-1074)) with (IZR (a - b) * bpow radix2 (-1074)) by (rewrite minus_IZR; ring).
  apply on_grid.
Qed.

Lemma rnd_le x y : x <= y -> rnd x <= rnd y.
Proof. apply round_le; [exact vexp64|apply valid_rnd_N]. Qed.
Lemma rnd_fmt x : fmt64 x -> rnd x = x.
Proof. apply round_generic, valid_rnd_N. Qed.
Lemma fmt_rnd x : fmt64 (rnd x).
Proof. apply generic_format_round; [exact vexp64|apply valid_rnd_N]. Qed.
Lemma rnd_pos x : 0 <= x -> 0 <= rnd x.
Proof. intros H. rewrite <- rnd_zero. apply rnd_le, H. Qed.

(** A real less than half a grid step above a small grid point is not rounded past it. *)
Lemma rnd_grid x d : fmt64 d -> x < d + tiny -> rnd x <= d.
Proof.
  intros Fd H. destruct (Rle_dec x d) as [L|G].
  - rewrite <- (rnd_fmt d Fd). apply rnd_le, L.
  - destruct (Rle_dec (rnd x) d) as [Q|Q]; [exact Q|exfalso].
    assert (N : Rabs (rnd x - x) <= Rabs (d - x)).
    { destruct (round_N_pt radix2 (SpecFloat.fexp 53 1024) (fun z => negb (Z.even z)) x) as [_ M]. apply M, Fd. }
    rewrite (Rabs_left (d - x)) in N by lra. pose proof (Rle_abs (rnd x - x)).
    destruct (grid _ (fmt_rnd x)) as [a Ea]. destruct (grid _ Fd) as [b Eb]. rewrite Ea in *. rewrite Eb in *. unfold tiny in H.
    assert (P : 0 < bpow radix2 (-1074)) by apply bpow_gt_0.
    assert (L1 : IZR b < IZR a) by nra. apply lt_IZR in L1.
    assert (L2 : IZR b + 1 <= IZR a) by (rewrite <- plus_IZR; apply IZR_le; lia). nra.
Qed.

(** ** One step over the reals, with every operation rounded *)
Lemma lag_up w d tau h : fmt64 w -> fmt64 d -> w <= d -> 0 < tau -> 0 < h <= 1/50 -> h <= (1 - / 1125899906842624) * tau ->
  w <= rnd (w + rnd (rnd (rnd (d - w) / tau) * h)) <= d.
Proof.
  intros Fw Fd Le Tp Hp Ht.
  set (D := rnd (d - w)). set (q := rnd (D / tau)). set (x := rnd (q * h)).
  assert (Ti : 0 < / tau) by (apply Rinv_0_lt_compat; exact Tp).
  assert (D0 : 0 <= D) by (apply rnd_pos; lra). assert (q0 : 0 <= q) by (apply rnd_pos; apply Rmult_le_pos; lra).
  assert (x0 : 0 <= x) by (apply rnd_pos; apply Rmult_le_pos; lra).
  pose proof tiny_pos as Tt.
  assert (Rt : 0 < h / tau <= 1 - / 1125899906842624).
  { split; [apply Rdiv_lt_0_compat; lra|]. apply Rmult_le_reg_r with tau; [exact Tp|]. unfold Rdiv. rewrite Rmult_assoc, Rinv_l by lra. lra. }
  assert (Eq : q <= D / tau * (1 + uu) + tiny).
  { pose proof (rnd_err (D / tau)) as E. fold q in E. assert (0 <= D / tau) by (apply Rmult_le_pos; lra).
    rewrite (Rabs_pos_eq (D / tau)) in E by assumption. pose proof (Rle_abs (q - D / tau)). lra. }
  assert (Qh : q * h <= D * (h / tau) * (1 + uu) + tiny * (1/50)).
  { apply Rle_trans with ((D / tau * (1 + uu) + tiny) * h); [apply Rmult_le_compat_r; lra|].
    replace ((D / tau * (1 + uu) + tiny) * h) with (D * (h / tau) * (1 + uu) + tiny * h) by (field; lra).
    assert (tiny * h <= tiny * (1/50)) by (apply Rmult_le_compat_l; lra). lra. }
  assert (DR : D * (h / tau) <= D * (1 - / 1125899906842624)) by (apply Rmult_le_compat_l; lra).
  assert (X : x <= d - w).
  { destruct (Rlt_dec (d - w) (bpow radix2 (-1021))) as [Sm|Bg].
    - assert (Fdw : fmt64 (d - w)) by (apply fmt_sub_small; [assumption..|rewrite Rabs_pos_eq by lra; exact Sm]).
      assert (ED : D = d - w) by (apply rnd_fmt, Fdw). apply rnd_grid; [exact Fdw|]. rewrite <- ED. lra.
    - assert (Tl : tiny * 18014398509481984 <= d - w).
      { apply Rle_trans with (bpow radix2 (-1021)); [|lra]. unfold tiny.
        replace (bpow radix2 (-1021)) with (bpow radix2 53 * bpow radix2 (-1074)) by (rewrite <- bpow_plus; reflexivity).
        change (bpow radix2 53) with 9007199254740992. lra. }
      assert (ED : D <= (d - w) * (1 + uu) + tiny).
      { pose proof (rnd_err (d - w)) as E. fold D in E. rewrite (Rabs_pos_eq (d - w)) in E by lra. pose proof (Rle_abs (D - (d - w))). lra. }
      assert (Ex : x <= q * h * (1 + uu) + tiny).
      { pose proof (rnd_err (q * h)) as E. fold x in E. assert (0 <= q * h) by (apply Rmult_le_pos; lra).
        rewrite (Rabs_pos_eq (q * h)) in E by assumption. pose proof (Rle_abs (x - q * h)). lra. }
      lra. }
  split.
  - rewrite <- (rnd_fmt w Fw) at 1. apply rnd_le. lra.
  - rewrite <- (rnd_fmt d Fd). apply rnd_le. lra.
Qed.

Lemma lag_toward w d tau h : fmt64 w -> fmt64 d -> 0 < tau -> 0 < h <= 1/50 -> h <= (1 - / 1125899906842624) * tau ->
  toward w (rnd (w + rnd (rnd (rnd (d - w) / tau) * h))) d.
Proof.
  intros Fw Fd Tp Hp Ht. destruct (Rle_dec w d) as [Le|Ge]; [left; apply lag_up; assumption|right].
  assert (Fw' : fmt64 (- w)) by (apply generic_format_opp, Fw). assert (Fd' : fmt64 (- d)) by (apply generic_format_opp, Fd).
  pose proof (lag_up (- w) (- d) tau h Fw' Fd' ltac:(lra) Tp Hp Ht) as Q.
  replace (- d - - w) with (- (d - w)) in Q by ring. rewrite rnd_opp in Q. replace (- rnd (d - w) / tau) with (- (rnd (d - w) / tau)) in Q by (field; lra).
  rewrite rnd_opp in Q. replace (- rnd (rnd (d - w) / tau) * h) with (- (rnd (rnd (d - w) / tau) * h)) in Q by ring. rewrite rnd_opp in Q.
  replace (- w + - rnd (rnd (rnd (d - w) / tau) * h)) with (- (w + rnd (rnd (rnd (d - w) / tau) * h))) in Q by ring. rewrite rnd_opp in Q. lra.
Qed.

(** ** The same in floats *)
Lemma v_sub (x y : b64) : upto 64 x -> upto 64 y -> fin (Bminus mode_NE x y) /\ val (Bminus mode_NE x y) = rnd (val x - val y).
Proof.
  intros [Fx Ax] [Fy Ay]. pose proof (Bminus_correct 53 1024 _ _ mode_NE x y Fx Fy) as C.
  assert (B : Rabs (val x - val y) <= huge).
  { unfold Rminus. eapply Rle_trans; [apply Rabs_triang|]. rewrite Rabs_Ropp. pose proof huge_big.
    change (bpow radix2 64) with 18446744073709551616 in *. lra. }
  unfold val in B. rewrite (rnd_big _ B) in C. destruct C as (C & F & _). split; [exact F|exact C].
Qed.

Lemma v_div (x y : b64) : upto 65 x -> atleast (-64) y -> fin (Bdiv mode_NE x y) /\ val (Bdiv mode_NE x y) = rnd (val x / val y).
Proof.
  intros [Fx Ax] [Fy Ay]. assert (Py : 0 < val y) by (pose proof (bpow_gt_0 radix2 (-64)); lra).
  pose proof (Bdiv_correct 53 1024 _ _ mode_NE x y ltac:(unfold val in Py; lra)) as C.
  assert (B : Rabs (val x / val y) <= huge).
  { unfold Rdiv. rewrite Rabs_mult, Rabs_inv, (Rabs_pos_eq (val y)) by lra.
    apply Rle_trans with (bpow radix2 65 * bpow radix2 64).
    - apply Rmult_le_compat; [apply Rabs_pos|apply Rlt_le, Rinv_0_lt_compat, Py|exact Ax|].
      replace (bpow radix2 64) with (/ bpow radix2 (-64)) by (rewrite <- bpow_opp; reflexivity). apply Rinv_le; [apply bpow_gt_0|exact Ay].
    - rewrite <- bpow_plus. apply bpow_le. reflexivity || lia. }
  unfold val in B. rewrite (rnd_big _ B) in C. destruct C as (C & F & _). split; [unfold fin; rewrite F; exact Fx|exact C].
Qed.

Section Floats.
Variable L : Libm.
#[local] Instance FO : Ops b64 := F64Ops L.
Local Open Scope sc_scope.

Lemma ltb_of (x y : b64) : fin x -> fin y -> ltb x y = true <-> (val x < val y)%R.
Proof. exact (ltb_val x y). Qed.
Lemma clamp_in (x lo hi : b64) : fin x -> fin lo -> fin hi -> (val lo <= val x <= val hi)%R -> clamp x lo hi = Some x.
Proof.
  intros Fx Fl Fh B. unfold clamp.
  destruct (ltb hi lo) eqn:E; [apply ltb_of in E; [lra|assumption..]|].
  destruct (ltb x lo) eqn:E1; [apply ltb_of in E1; [lra|assumption..]|].
  destruct (ltb hi x) eqn:E2; [apply ltb_of in E2; [lra|assumption..]|]. reflexivity.
Qed.

(** One rotor, one sub-step. *)
Lemma rotor_toward (m : Motor b64) cmd w h y : upto 64 (mt_min m) -> upto 64 (mt_max m) -> atleast (-64) (mt_tau m) ->
  fin cmd -> fin w -> (val (mt_min m) <= val cmd <= val (mt_max m))%R -> (val (mt_min m) <= val w <= val (mt_max m))%R ->
  fin h -> (0 < val h <= 1/50)%R -> (val h <= (1 - / 1125899906842624) * val (mt_tau m))%R ->
  clamp (w + (cmd - w) / mt_tau m * h) (mt_min m) (mt_max m) = Some y ->
  fin y /\ toward (val w) (val y) (val cmd).
Proof.
  intros Um UM At Fc Fw Bc Bw Fh Hh Ht E.
  assert (Ab : forall x : b64, fin x -> (val (mt_min m) <= val x <= val (mt_max m))%R -> upto 64 x).
  { intros x Fx Bx. split; [exact Fx|]. destruct Um as [_ Um], UM as [_ UM]. pose proof (Rle_abs (val (mt_max m))). pose proof (Rle_abs (- val (mt_min m))).
    rewrite Rabs_Ropp in *. apply Rabs_le. lra. }
  assert (Uw : upto 64 w) by (apply Ab; assumption). assert (Uc : upto 64 cmd) by (apply Ab; assumption).
  destruct (v_sub cmd w Uc Uw) as [F1 V1].
  assert (U1 : upto 65 (cmd - w)) by (apply (up_sub L 64); [assumption..|lia]).
  destruct (v_div (cmd - w) (mt_tau m) U1 At) as [F2 V2].
  assert (U2 : upto 129 ((cmd - w) / mt_tau m)) by (apply (up_div L 65 (-64)); [assumption..|lia]).
  assert (Uh : upto 0 h) by (split; [exact Fh|rewrite Rabs_pos_eq by lra; change (bpow radix2 0) with 1%R; lra]).
  assert (U3 : upto 129 ((cmd - w) / mt_tau m * h)) by (apply (up_mul L 129 0); [assumption..|lia]).
  assert (V3 : val ((cmd - w) / mt_tau m * h) = rnd (val ((cmd - w) / mt_tau m) * val h)) by (apply (v_mul L 129 0); [assumption..|lia]).
  assert (Uw' : upto 129 w) by (apply (up_weak 64); [lia|exact Uw]).
  assert (V4 : val (w + (cmd - w) / mt_tau m * h) = rnd (val w + val ((cmd - w) / mt_tau m * h))) by (apply (v_add L 129); [assumption..|lia]).
  assert (F4 : fin (w + (cmd - w) / mt_tau m * h)) by (apply (up_fin 130), (up_add L 129); [assumption..|lia]).
  change (val ((cmd - w) / mt_tau m)) with (val (Bdiv mode_NE (cmd - w) (mt_tau m))) in V3. rewrite V2 in V3.
  change (val (cmd - w)) with (val (Bminus mode_NE cmd w)) in V3. rewrite V1 in V3. rewrite V3 in V4.
  assert (Tp : (0 < val (mt_tau m))%R) by (destruct At as [_ At]; pose proof (bpow_gt_0 radix2 (-64)); lra).
  pose proof (lag_toward (val w) (val cmd) (val (mt_tau m)) (val h) (generic_format_B2R _ _ w) (generic_format_B2R _ _ cmd) Tp Hh Ht) as Q.
  rewrite <- V4 in Q.
  rewrite clamp_in in E; [injection E as <-; split; assumption|exact F4|apply Um|apply UM|destruct Q; lra].
Qed.
End Floats.
