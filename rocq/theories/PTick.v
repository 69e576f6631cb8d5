(** The accumulated clock of an example flight: when it switches, when it runs
    past the list, and its value in binary64 for steps of a millisecond. *)

From Coq Require Import ZArith Bool List Reals String Lra Lia Psatz.
From Flocq Require Import Core BinarySingleNaN.
From Verif Require Import Scalar Float64 LinAlg MUtils MModel MDynamics MPid MControl MCtlRun MImu MSim MText MExample MScript
  SpecDyn SpecRun SpecSim SpecText SpecExample SpecRound SpecScript PBase PFloat PRound PUnit64 PExample.
Import ListNotations.

(** ** Any arithmetic *)
Section Any.
Context {T : Type} {O : Ops T}.
Variables (n : nat) (tmax dt : T).
Notation a := (time_at dt).
Local Notation between := (div tmax (ofZ (Z.of_nat n))).

Lemma time_S i : add (a i) dt = a (S i). Proof. reflexivity. Qed.
Lemma time_1 : add zero dt = a 1. Proof. reflexivity. Qed.

(** Switching takes at least [J] steps and the flight ends after [M]. *)
Lemma clock_enough J M : (forall j, (j < J)%nat -> ltb between (a j) = false) -> ltb (a M) tmax = false -> (M <= n * J)%nat ->
  forall k i r ix, (ix * J + r <= i)%nat -> (i <= M)%nat -> (ix < n)%nat ->
  match clock n tmax dt k (a i) (a r) ix with Flying _ => True | Landed (t, _, _) => ltb t tmax = false | _ => False end.
Proof.
  intros HJ HM HN. induction k as [|k IH]; intros i r ix I1 I0 I2; cbn [clock]; [exact Logic.I|].
  destruct (ltb (a i) tmax) eqn:E1; [|exact E1].
  assert (Li : (i < M)%nat). { destruct (Nat.eq_dec i M) as [->|A]; [rewrite HM in E1; discriminate|lia]. }
  destruct (ltb between (a r)) eqn:E2.
  - assert (Lr : (J <= r)%nat). { destruct (Nat.lt_ge_cases r J) as [A|A]; [|exact A]. rewrite (HJ r A) in E2. discriminate. }
    assert (Lx : (S ix < n)%nat) by nia.
    rewrite (proj2 (Nat.ltb_lt _ _) Lx). rewrite time_1, !time_S. apply IH; [nia|lia|exact Lx].
  - rewrite !time_S. apply IH; [lia|lia|exact I2].
Qed.
Lemma clock_flying : forall k i rt ix,
  match clock n tmax dt k (a i) rt ix with Flying _ => forall m, (m < k)%nat -> ltb (a (i + m)) tmax = true | _ => True end.
Proof.
  induction k as [|k IH]; intros i rt ix; cbn [clock]; [intros m Hm; lia|].
  destruct (ltb (a i) tmax) eqn:E1; [|exact Logic.I].
  assert (X : forall rt' ix', match clock n tmax dt k (a (S i)) rt' ix' with Flying _ => forall m, (m < S k)%nat -> ltb (a (i + m)) tmax = true | _ => True end).
  { intros rt' ix'. specialize (IH (S i) rt' ix'). destruct (clock n tmax dt k (a (S i)) rt' ix'); try exact Logic.I.
    intros [|m] Hm; [rewrite Nat.add_0_r; exact E1|]. replace (i + S m)%nat with (S i + m)%nat by lia. apply IH. lia. }
  rewrite !time_S. destruct (ltb between rt); [destruct (Nat.ltb (S ix) n); [apply X|exact Logic.I]|apply X].
Qed.

(** Switching takes exactly [J] steps. *)
Lemma clock_short J : (1 <= J)%nat -> (forall j, (j < J)%nat -> ltb between (a j) = false) -> ltb between (a J) = true ->
  (forall i, (i <= n * J)%nat -> ltb (a i) tmax = true) ->
  forall d i r ix k, (ix < n)%nat -> (r <= J)%nat -> (ix * J + r = i)%nat -> (n * J = i + d)%nat -> (d < k)%nat ->
  clock n tmax dt k (a i) (a r) ix = Undefined.
Proof.
  intros J1 HJ HJJ HT. induction d as [|d IH]; intros i r ix k Lx Lr Ei Ed Lk; (destruct k as [|k]; [lia|]); cbn [clock].
  - assert (E : i = (n * J)%nat) by lia. rewrite (HT i) by lia.
    assert (r = J /\ S ix = n) as (-> & En) by nia.
    rewrite HJJ. rewrite (proj2 (Nat.ltb_ge _ _)) by lia. reflexivity.
  - rewrite (HT i) by lia. destruct (Nat.eq_dec r J) as [->|Nr].
    + rewrite HJJ. assert (Ls : (S ix < n)%nat) by nia. rewrite (proj2 (Nat.ltb_lt _ _) Ls), time_1, !time_S.
      apply IH; [exact Ls|exact J1|nia|lia|lia].
    + rewrite (HJ r) by lia. rewrite !time_S. apply IH; [exact Lx|lia|nia|lia|lia].
Qed.
End Any.

(** ** Binary64, a millisecond *)
Local Open Scope R_scope.
Lemma sf_val (x : b64) s m e : B2SF x = SpecFloat.S754_finite s m e -> fin x /\ val x = F2R (Float radix2 (cond_Zopp s (Zpos m)) e).
Proof. destruct x as [s'|s'| |s' m' e' b]; cbn [B2SF]; try discriminate. intros [= -> -> ->]. split; reflexivity. Qed.
Lemma add_rnd (x y : b64) : fin x -> fin y -> Rabs (val x + val y) <= huge ->
  fin (Bplus mode_NE x y) /\ val (Bplus mode_NE x y) = rnd (val x + val y).
Proof.
  intros Fx Fy Hb. pose proof (Bplus_correct 53 1024 _ _ mode_NE x y Fx Fy) as C. fold (val x) (val y) in C.
  rewrite (rnd_big _ Hb) in C. destruct C as (C & F & _). split; [exact F|exact C].
Qed.
Notation unit := (bpow radix2 (-62)).
Lemma unit_pos : 0 < unit. Proof. apply bpow_gt_0. Qed.

(** A sum rounded to a multiple of 2^sh units. *)
Lemma rnd_units s sh n : (0 <= sh <= 800)%Z -> (2 ^ (52 + sh) <= s < 2 ^ (53 + sh))%Z -> (2 * Z.abs (s - n * 2 ^ sh) < 2 ^ sh)%Z ->
  rnd (IZR s * unit) = IZR (n * 2 ^ sh) * unit.
Proof.
  intros Hs Hb Hn.
  assert (P : (0 < 2 ^ sh)%Z) by (apply Z.pow_pos_nonneg; lia).
  assert (B : bpow radix2 (52 + sh - 62) <= IZR s * unit < bpow radix2 (53 + sh - 62)).
  { replace (52 + sh - 62)%Z with (52 + sh + -62)%Z by lia. replace (53 + sh - 62)%Z with (53 + sh + -62)%Z by lia.
    rewrite (bpow_plus radix2 (52 + sh)), (bpow_plus radix2 (53 + sh)), <- (IZR_Zpower radix2 (52 + sh)), <- (IZR_Zpower radix2 (53 + sh)) by lia.
    change (radix_val radix2) with 2%Z. pose proof unit_pos.
    split; [apply Rmult_le_compat_r; [lra|apply IZR_le; apply Hb]|apply Rmult_lt_compat_r; [lra|apply IZR_lt; apply Hb]]. }
  assert (Mg : mag radix2 (IZR s * unit) = (53 + sh - 62)%Z :> Z).
  { apply mag_unique. rewrite Rabs_pos_eq by (apply Rle_trans with (2 := proj1 B); apply bpow_ge_0).
    replace (53 + sh - 62 - 1)%Z with (52 + sh - 62)%Z by lia. exact B. }
  assert (Ce : cexp radix2 (SpecFloat.fexp 53 1024) (IZR s * unit) = (sh - 62)%Z).
  { unfold cexp. rewrite Mg. unfold SpecFloat.fexp, SpecFloat.emin. lia. }
  change (F2R (Float radix2 (ZnearestE (IZR s * unit * bpow radix2 (- cexp radix2 (SpecFloat.fexp 53 1024) (IZR s * unit)))) (cexp radix2 (SpecFloat.fexp 53 1024) (IZR s * unit))) = IZR (n * 2 ^ sh) * unit).
  rewrite Ce.
  assert (X : IZR s * unit * bpow radix2 (- (sh - 62)) = IZR s / IZR (2 ^ sh)).
  { rewrite Rmult_assoc, <- bpow_plus. replace (-62 + - (sh - 62))%Z with (- sh)%Z by lia.
    rewrite bpow_opp, <- (IZR_Zpower radix2 sh) by lia. reflexivity. }
  rewrite X.
  assert (Q : 0 < IZR (2 ^ sh)) by (apply IZR_lt; exact P).
  rewrite (Znearest_imp _ _ n).
  - unfold F2R. cbn [Fnum Fexp]. replace (sh - 62)%Z with (sh + -62)%Z by lia.
    rewrite bpow_plus, <- (IZR_Zpower radix2 sh) by lia. rewrite mult_IZR. change (radix_val radix2) with 2%Z. ring.
  - replace (IZR s / IZR (2 ^ sh) - IZR n) with (IZR (s - n * 2 ^ sh) / IZR (2 ^ sh)) by (rewrite minus_IZR, mult_IZR; field; lra).
    unfold Rdiv. rewrite Rabs_mult, (Rabs_pos_eq (/ _)) by (apply Rlt_le, Rinv_0_lt_compat, Q). rewrite <- abs_IZR.
    apply (Rmult_lt_reg_r (IZR (2 ^ sh))); [exact Q|]. rewrite Rmult_assoc, Rinv_l by lra. rewrite Rmult_1_r.
    apply IZR_lt in Hn. rewrite mult_IZR in Hn. lra.
Qed.

Section Tick.
Variable L : Libm.
#[local] Instance FO : Ops b64 := F64Ops L.
Definition ms : b64 := lit 1 1000.
Notation a := (time_at ms).
Definition md : Z := 4611686018427388.
Lemma ms_val : fin ms /\ val ms = IZR md * unit.
Proof. apply (sf_val ms false 4611686018427388 (-62)). vm_compute. reflexivity. Qed.

(** At step [j] the clock shows [v] units. *)
Definition shows (j v : Z) : Prop := (0 <= j)%Z /\ fin (a (Z.to_nat j)) /\ val (a (Z.to_nat j)) = IZR v * unit.
Lemma step_units j v sh n : shows j v -> (0 <= v <= 2 ^ 800)%Z -> (0 <= sh <= 800)%Z -> (2 ^ (52 + sh) <= v + md < 2 ^ (53 + sh))%Z ->
  (2 * Z.abs (v + md - n * 2 ^ sh) < 2 ^ sh)%Z -> shows (j + 1) (n * 2 ^ sh).
Proof.
  intros (J0 & F & E) Hv Hs Hb Hn. destruct ms_val as [Fm Em].
  assert (Sm : val (a (Z.to_nat j)) + val ms = IZR (v + md) * unit) by (rewrite E, Em, plus_IZR; ring).
  assert (Hg : Rabs (val (a (Z.to_nat j)) + val ms) <= huge).
  { rewrite Sm. pose proof unit_pos. rewrite Rabs_pos_eq by (apply Rmult_le_pos; [apply IZR_le; unfold md; lia|lra]).
    apply Rle_trans with (IZR (2 ^ 801) * unit).
    - apply Rmult_le_compat_r; [lra|]. apply IZR_le. unfold md. change (2 ^ 801)%Z with (2 ^ 800 + 2 ^ 800)%Z.
      assert (4611686018427388 <= 2 ^ 800)%Z by (vm_compute; discriminate). lia.
    - change 2%Z with (radix_val radix2) at 1. rewrite IZR_Zpower by lia. rewrite <- bpow_plus. unfold huge. apply bpow_le. lia. }
  destruct (add_rnd _ _ F Fm Hg) as [F' E']. rewrite Sm, (rnd_units _ _ _ Hs Hb Hn) in E'.
  split; [lia|]. replace (Z.to_nat (j + 1)) with (S (Z.to_nat j)) by lia. split; [exact F'|exact E'].
Qed.
Lemma run_units sh c : (0 <= sh <= 700)%Z -> (0 <= c)%Z -> (2 * Z.abs (md - c * 2 ^ sh) < 2 ^ sh)%Z ->
  forall j w, shows j (w * 2 ^ sh) -> (2 ^ 52 <= w)%Z ->
  forall k, (0 <= k)%Z -> (w * 2 ^ sh + (k - 1) * (c * 2 ^ sh) + md < 2 ^ (53 + sh))%Z -> shows (j + k) ((w + k * c) * 2 ^ sh).
Proof.
  intros Hs Hc Hn j w Sh Hw k Hk. pattern k. revert k Hk. apply natlike_ind.
  - intros _. rewrite Z.add_0_r, Z.mul_0_l, Z.add_0_r. exact Sh.
  - intros k Hk IH Hb.
    assert (P : (0 < 2 ^ sh)%Z) by (apply Z.pow_pos_nonneg; lia).
    assert (E52 : (2 ^ (52 + sh) = 2 ^ 52 * 2 ^ sh)%Z) by (apply Z.pow_add_r; lia).
    assert (E53 : (2 ^ (53 + sh) = 2 ^ 53 * 2 ^ sh)%Z) by (apply Z.pow_add_r; lia).
    replace (Z.succ k - 1)%Z with k in Hb by lia.
    assert (M0 : (0 <= md)%Z) by (unfold md; lia).
    assert (C0 : (0 <= c * 2 ^ sh)%Z) by (apply Z.mul_nonneg_nonneg; lia).
    assert (W1 : (2 ^ 52 * 2 ^ sh <= w * 2 ^ sh)%Z) by (apply Z.mul_le_mono_nonneg_r; lia).
    assert (K1 : (0 <= k * (c * 2 ^ sh))%Z) by (apply Z.mul_nonneg_nonneg; lia).
    assert (V : ((w + k * c) * 2 ^ sh = w * 2 ^ sh + k * (c * 2 ^ sh))%Z) by ring.
    assert (IH' : shows (j + k) ((w + k * c) * 2 ^ sh)) by (apply IH; lia).
    replace (j + Z.succ k)%Z with (j + k + 1)%Z by lia.
    apply (step_units _ _ sh _ IH').
    + split; [lia|]. apply Z.le_trans with (2 ^ (53 + sh))%Z; [lia|]. apply Z.pow_le_mono_r; lia.
    + lia.
    + lia.
    + replace ((w + k * c) * 2 ^ sh + md - (w + Z.succ k * c) * 2 ^ sh)%Z with (md - c * 2 ^ sh)%Z by (unfold Z.succ; ring). exact Hn.
Qed.

Ltac by_computing := unfold md; first [split; vm_compute; (discriminate || reflexivity) | vm_compute; (discriminate || reflexivity)].
Lemma at_128 : shows 128 (4611686018427391 * 2 ^ 7).
Proof.
  assert (E : B2SF (a 128) = SpecFloat.S754_finite false 4611686018427391 (-55)) by (vm_compute; reflexivity).
  split; [lia|]. change (Z.to_nat 128) with 128%nat. destruct (sf_val _ _ _ _ E) as [F V]. split; [exact F|]. rewrite V.
  unfold F2R. cbn [Fnum Fexp cond_Zopp]. rewrite mult_IZR. replace (-55)%Z with (7 + -62)%Z by lia. rewrite bpow_plus.
  change (IZR (2 ^ 7)) with (bpow radix2 7). ring.
Qed.

Lemma at_249 : shows 249 (8971170457722035 * 2 ^ 7).
Proof. refine (run_units 7 36028797018964 _ _ _ 128 4611686018427391 at_128 _ 121 _ _); by_computing. Qed.

Lemma at_250 : shows 250 (4503599627370499 * 2 ^ 8).
Proof. refine (step_units 249 _ 8 4503599627370499 at_249 _ _ _ _); by_computing. Qed.

Lemma at_499 : shows 499 (8989184856231517 * 2 ^ 8).
Proof. refine (run_units 8 18014398509482 _ _ _ 250 4503599627370499 at_250 _ 249 _ _); by_computing. Qed.

Lemma at_500 : shows 500 (4503599627370499 * 2 ^ 9).
Proof. refine (step_units 499 _ 9 4503599627370499 at_499 _ _ _ _); by_computing. Qed.

Lemma at_999 : shows 999 (8998192055486258 * 2 ^ 9).
Proof. refine (run_units 9 9007199254741 _ _ _ 500 4503599627370499 at_500 _ 499 _ _); by_computing. Qed.

Lemma at_1000 : shows 1000 (4503599627370499 * 2 ^ 10).
Proof. refine (step_units 999 _ 10 4503599627370499 at_999 _ _ _ _); by_computing. Qed.

Lemma at_2000 : shows 2000 (9007199254740499 * 2 ^ 10).
Proof. refine (run_units 10 4503599627370 _ _ _ 1000 4503599627370499 at_1000 _ 1000 _ _); by_computing. Qed.

Lemma at_2001 : shows 2001 (4505851427183935 * 2 ^ 11).
Proof. refine (step_units 2000 _ 11 4505851427183935 at_2000 _ _ _ _); by_computing. Qed.

Lemma at_4000 : shows 4000 (9007199254740250 * 2 ^ 11).
Proof. refine (run_units 11 2251799813685 _ _ _ 2001 4505851427183935 at_2001 _ 1999 _ _); by_computing. Qed.

Lemma at_4001 : shows 4001 (4504725527276968 * 2 ^ 12).
Proof. refine (step_units 4000 _ 12 4504725527276968 at_4000 _ _ _ _); by_computing. Qed.

Lemma at_6666 : shows 6666 (7505248779013563 * 2 ^ 12).
Proof. refine (run_units 12 1125899906843 _ _ _ 4001 4504725527276968 at_4001 _ 2665 _ _); by_computing. Qed.

Lemma at_7499 : shows 7499 (8443123401413782 * 2 ^ 12).
Proof. refine (run_units 12 1125899906843 _ _ _ 4001 4504725527276968 at_4001 _ 3498 _ _); by_computing. Qed.

Lemma at_7500 : shows 7500 (8444249301320625 * 2 ^ 12).
Proof. refine (run_units 12 1125899906843 _ _ _ 4001 4504725527276968 at_4001 _ 3499 _ _); by_computing. Qed.

Lemma at_7999 : shows 7999 (9006073354835282 * 2 ^ 12).
Proof. refine (run_units 12 1125899906843 _ _ _ 4001 4504725527276968 at_4001 _ 3998 _ _); by_computing. Qed.

Lemma at_8000 : shows 8000 (4503599627371062 * 2 ^ 13).
Proof. refine (step_units 7999 _ 13 4503599627371062 at_7999 _ _ _ _); by_computing. Qed.

Lemma at_16000 : shows 16000 (9007199254739062 * 2 ^ 13).
Proof. refine (run_units 13 562949953421 _ _ _ 8000 4503599627371062 at_8000 _ 8000 _ _); by_computing. Qed.

Lemma at_16001 : shows 16001 (4503881102346242 * 2 ^ 14).
Proof. refine (step_units 16000 _ 14 4503881102346242 at_16000 _ _ _ _); by_computing. Qed.

Lemma at_31999 : shows 31999 (9006917779768820 * 2 ^ 14).
Proof. refine (run_units 14 281474976711 _ _ _ 16001 4503881102346242 at_16001 _ 15998 _ _); by_computing. Qed.

Lemma at_32000 : shows 32000 (4503599627372765 * 2 ^ 15).
Proof. refine (step_units 31999 _ 15 4503599627372765 at_31999 _ _ _ _); by_computing. Qed.

Lemma at_60000 : shows 60000 (8444249301312765 * 2 ^ 15).
Proof. refine (run_units 15 140737488355 _ _ _ 32000 4503599627372765 at_32000 _ 28000 _ _); by_computing. Qed.

Lemma at_60001 : shows 60001 (8444390038801120 * 2 ^ 15).
Proof. refine (run_units 15 140737488355 _ _ _ 32000 4503599627372765 at_32000 _ 28001 _ _); by_computing. Qed.

(** Before the end the clock never goes back. *)
Lemma tick_ok : forall i, (Z.of_nat i <= 70000)%Z -> fin (a i) /\ 0 <= val (a i) <= INR i.
Proof.
  destruct ms_val as [Fm Em].
  assert (Bm : 0 < val ms <= / 2).
  { rewrite Em. unfold md. assert (E : unit = / IZR (2 ^ 62)) by (change (-62)%Z with (- (62))%Z; rewrite bpow_opp, <- (IZR_Zpower radix2) by lia; reflexivity).
    rewrite E. change (2 ^ 62)%Z with 4611686018427387904%Z. lra. }
  induction i as [|i IH]; intros Hi.
  - split; [reflexivity|]. change (val (a 0)) with 0. cbn [INR]. lra.
  - destruct IH as (F & P & Q); [lia|].
    assert (I : INR i <= 70000) by (rewrite INR_IZR_INZ; apply IZR_le; lia).
    assert (Hg : Rabs (val (a i) + val ms) <= huge).
    { rewrite Rabs_pos_eq by lra. apply Rle_trans with (bpow radix2 17); [|unfold huge; apply bpow_le; lia].
      change (bpow radix2 17) with 131072. lra. }
    destruct (ok_add (a i) ms F Fm Hg) as [F' E].
    change (Bplus mode_NE (a i) ms) with (a (S i)) in F', E.
    rewrite (Rabs_pos_eq (val (a i) + val ms)) in E by lra. apply Rabs_le_inv in E.
    destruct (add_rnd (a i) ms F Fm Hg) as [_ V]. change (Bplus mode_NE (a i) ms) with (a (S i)) in V.
    assert (Po : 0 <= rnd (val (a i) + val ms)).
    { rewrite <- (round_0 radix2 (SpecFloat.fexp 53 1024) (round_mode mode_NE)). apply round_le; [apply fexp_correct; exact prec53|apply valid_rnd_N|lra]. }
    assert (T1 : tiny <= / 8).
    { unfold tiny. assert (bpow radix2 (-1074) <= bpow radix2 (-2)) by (apply bpow_le; lia). change (bpow radix2 (-2)) with (/ 4) in H. lra. }
    assert (U1 : uu <= / 1000000).
    { lra. }
    split; [exact F'|]. rewrite V in *. rewrite S_INR. split; [exact Po|]. nra.
Qed.
Lemma tick_mono i j : (i <= j)%nat -> (Z.of_nat j <= 70000)%Z -> val (a i) <= val (a j).
Proof.
  intros Hij. induction Hij as [|j Hij IH]; intros Hj; [lra|].
  apply Rle_trans with (val (a j)); [apply IH; lia|].
  destruct ms_val as [Fm Em]. destruct (tick_ok j) as (F & P & Q); [lia|]. destruct (tick_ok (S j) Hj) as (F' & _).
  assert (Pm : 0 <= val ms) by (rewrite Em; pose proof unit_pos; apply Rmult_le_pos; [apply IZR_le; unfold md; lia|lra]).
  assert (I : INR j <= 70000) by (rewrite INR_IZR_INZ; apply IZR_le; lia).
  assert (Hm : val ms <= 1).
  { rewrite Em. assert (unit <= bpow radix2 (-53)) by (apply bpow_le; lia). pose proof unit_pos. unfold md.
    apply Rle_trans with (bpow radix2 53 * bpow radix2 (-53)); [|rewrite <- bpow_plus; change (bpow radix2 (53 + -53)) with 1; lra].
    apply Rmult_le_compat; [apply IZR_le; lia|lra| |exact H]. change (bpow radix2 53) with (IZR (Z.pow_pos 2 53)). apply IZR_le. vm_compute. discriminate. }
  assert (Hg : Rabs (val (a j) + val ms) <= huge).
  { rewrite Rabs_pos_eq by lra. apply Rle_trans with (bpow radix2 17); [|unfold huge; apply bpow_le; lia].
    change (bpow radix2 17) with 131072. lra. }
  destruct (add_rnd (a j) ms F Fm Hg) as [_ V]. change (Bplus mode_NE (a j) ms) with (a (S j)) in V. rewrite V.
  rewrite <- (round_generic radix2 (SpecFloat.fexp 53 1024) (round_mode mode_NE) (val (a j))) at 1 by apply generic_format_B2R.
  apply round_le; [apply fexp_correct; exact prec53|apply valid_rnd_N|lra].
Qed.
Lemma shown j v : shows j v -> fin (a (Z.to_nat j)) /\ val (a (Z.to_nat j)) = IZR v / 4611686018427387904.
Proof. intros (_ & F & E). split; [exact F|]. rewrite E. reflexivity. Qed.
End Tick.
