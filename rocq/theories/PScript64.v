(** The clock of the scripted flights in binary64. *)

From Coq Require Import ZArith Bool List Reals String Lra Lia Psatz.
From Flocq Require Import Core BinarySingleNaN.
From Verif Require Import Scalar Float64 LinAlg MUtils MModel MDynamics MPid MControl MCtlRun MImu MSim MText MExample MConfig MScript
  SpecDyn SpecRun SpecSim SpecText SpecExample SpecRound SpecScript PBase PFloat PRound PUnit64 PScript PScriptMore.
Import ListNotations.
Local Open Scope R_scope.

Lemma tiny_dt (dt : b64) : fin dt -> 0 < val dt -> tiny <= val dt / 2.
Proof.
  intros F P. unfold tiny. assert (H : bpow radix2 (-1074) <= val dt); [|lra].
  apply (generic_format_ge_bpow radix2 (SpecFloat.fexp 53 1024) (-1074)); [|exact P|apply generic_format_B2R].
  intros e. unfold SpecFloat.fexp, SpecFloat.emin. lia.
Qed.

Section Clock.
Variable L : Libm.
Notation FO := (F64Ops L).
Notation tm := (@time_at b64 FO).
Variables dt tmax : b64.
Hypothesis Fd : fin dt.
Hypothesis Fm : fin tmax.
Hypothesis Pd : 0 < val dt.

Lemma tm_S n : tm dt (S n) = Bplus mode_NE (tm dt n) dt.
Proof. reflexivity. Qed.
Lemma tm_0 : fin (tm dt 0) /\ val (tm dt 0) = 0.
Proof. split; reflexivity. Qed.

(** Steps of at least an eighth of [dt] as long as the end is not reached. *)
Lemma clock_progress : val dt <= 1 -> val tmax / 2251799813685248 <= val dt -> forall n,
  (forall i, (i < n)%nat -> @ltb _ FO (tm dt i) tmax = true) -> fin (tm dt n) /\ 0 <= val (tm dt n) /\ INR n * (val dt / 8) <= val (tm dt n).
Proof.
  intros D1 D2. induction n as [|n IH]; intros Hb.
  - destruct tm_0 as [F E]. split; [exact F|]. rewrite E. cbn [INR]. lra.
  - destruct IH as (F & P & Q); [intros i Hi; apply Hb; lia|].
    specialize (Hb n (Nat.lt_succ_diag_r n)). apply (ltb_val (tm dt n) tmax F Fm) in Hb.
    assert (Sm : 0 <= val (tm dt n) + val dt <= 2251799813685249).
    { split; [lra|]. assert (val tmax <= 2251799813685248 * val dt) by lra. lra. }
    assert (Hg : Rabs (val (tm dt n) + val dt) <= huge).
    { rewrite Rabs_pos_eq by lra. eapply Rle_trans; [apply Sm|]. unfold huge.
      apply Rle_trans with (bpow radix2 52); [|apply bpow_le; lia].
      change (bpow radix2 52) with (IZR (Z.pow_pos 2 52)). apply IZR_le. vm_compute. discriminate. }
    destruct (ok_add (tm dt n) dt F Fd Hg) as [F' E]. rewrite <- tm_S in F', E.
    rewrite (Rabs_pos_eq (val (tm dt n) + val dt)) in E by lra.
    pose proof (tiny_dt dt Fd Pd) as Ht.
    assert (K : uu * (val (tm dt n) + val dt) <= val dt / 4 + val dt / 16).
    { assert (uu * val (tm dt n) <= val dt / 4) by lra. assert (uu * val dt <= val dt / 16) by lra. lra. }
    apply Rabs_le_inv in E. rewrite S_INR. split; [exact F'|]. split; lra.
Qed.
Lemma clock_ends : val dt <= 1 -> val tmax / 2251799813685248 <= val dt -> exists n, @ltb _ FO (tm dt n) tmax = false.
Proof.
  intros D1 D2.
  destruct (archimed (Rabs (val tmax) / (val dt / 8))) as [A _]. set (N := Z.to_nat (up (Rabs (val tmax) / (val dt / 8)))).
  assert (Q : 0 <= Rabs (val tmax) / (val dt / 8)).
  { apply Rmult_le_pos; [apply Rabs_pos|]. apply Rlt_le, Rinv_0_lt_compat. lra. }
  assert (HN : val tmax < INR N * (val dt / 8)).
  { unfold N. rewrite INR_IZR_INZ, Z2Nat.id by (apply le_IZR; lra).
    apply Rle_lt_trans with (Rabs (val tmax)); [apply Rle_abs|].
    apply Rle_lt_trans with (Rabs (val tmax) / (val dt / 8) * (val dt / 8)); [right; field; lra|apply Rmult_lt_compat_r; lra]. }
  assert (X : (forall i, (i < N)%nat -> @ltb _ FO (tm dt i) tmax = true) \/ exists i, @ltb _ FO (tm dt i) tmax = false).
  { clear. induction N as [|n [IH|IH]]; [left; intros i Hi; lia| |right; exact IH].
    destruct (@ltb _ FO (tm dt n) tmax) eqn:E; [left|right; exists n; exact E].
    intros i Hi. destruct (Nat.eq_dec i n) as [->|]; [exact E|apply IH; lia]. }
  destruct X as [X|X]; [|exact X]. exists N. destruct (clock_progress D1 D2 N X) as (F & _ & B).
  destruct (@ltb _ FO (tm dt N) tmax) eqn:E; [|reflexivity]. apply (ltb_val _ _ F Fm) in E. lra.
Qed.

(** A time that the step no longer changes is never passed. *)
Lemma clock_stuck (m : b64) : fin m -> 0 <= val m < val tmax -> Bplus mode_NE m dt = m -> forall n, @ltb _ FO (tm dt n) tmax = true.
Proof.
  intros Fmm Hm Em. assert (Em' : rnd (val m + val dt) = val m).
  { pose proof (Bplus_correct 53 1024 _ _ mode_NE m dt Fmm Fd) as C. rewrite Em in C.
    destruct (Rlt_bool (Rabs (rnd (B2R m + B2R dt))) (bpow radix2 1024)); [destruct C as (C & _); symmetry; exact C|].
    destruct C as [C _]. unfold fin in Fmm. destruct m; cbn in C; try discriminate; inversion Fmm. }
  assert (I : forall n, fin (tm dt n) /\ 0 <= val (tm dt n) <= val m).
  { induction n as [|n (F & P & Q)].
    - destruct tm_0 as [F E]. split; [exact F|]. rewrite E. lra.
    - assert (Mo : rnd (val (tm dt n) + val dt) <= val m).
      { rewrite <- Em'. apply round_le; [apply fexp_correct; exact prec53|apply valid_rnd_N|lra]. }
      assert (Po : 0 <= rnd (val (tm dt n) + val dt)).
      { rewrite <- (round_0 radix2 (SpecFloat.fexp 53 1024) (round_mode mode_NE)). apply round_le; [apply fexp_correct; exact prec53|apply valid_rnd_N|lra]. }
      pose proof (Bplus_correct 53 1024 _ _ mode_NE (tm dt n) dt F Fd) as C.
      rewrite Rlt_bool_true in C.
      { destruct C as (C & F' & _). rewrite tm_S. split; [exact F'|]. unfold val in *. rewrite C. split; assumption. }
      fold (val (tm dt n)) (val dt). rewrite Rabs_pos_eq by exact Po. eapply Rle_lt_trans; [exact Mo|].
      eapply Rle_lt_trans; [apply Rle_abs|apply abs_B2R_lt_emax]. }
  intros n. destruct (I n) as (F & _ & B). apply (ltb_val _ _ F Fm). lra.
Qed.
End Clock.

Section Flights.
Variable L : Libm.
Lemma dt_ok dt : let O := F64Ops L in fin dt -> 0 < val dt -> ltb dtmax dt = false -> leb dt zero = false /\ val dt <= 1.
Proof.
  intros O F P D. split; [apply leb_pos; assumption|]. destruct (dtmax_val L) as (Fm & _ & H1). fold O in Fm, H1.
  destruct (Rle_lt_dec (val dt) (val (@dtmax _ O))) as [A|A]; [lra|].
  apply (ltb_val _ _ Fm F) in A. change (ltb dtmax dt = true) in A. congruence.
Qed.
Lemma scripted_lands64 : let O := F64Ops L in forall (G H : Gen b64) fmt v sp (ops : list (SimOp b64 G H)) s tmax dt,
  fitting_params 4 sp -> Forall (fits_short 4) ops -> sim_after 4 sp ops = Some s ->
  fin dt -> fin tmax -> 0 < val dt -> ltb dtmax dt = false -> val tmax / 2251799813685248 <= val dt ->
  exists k f, scripted fmt v tmax dt k s = Landed f.
Proof.
  intros O G H fmt v sp ops s tmax dt P F E Fd Fm Pd D0 D2. destruct (dt_ok dt Fd Pd D0) as [D1 D3].
  apply (proj2 (scripted_ends (F64_sane L) fmt v sp ops s tmax dt P F E D0 D1)).
  apply clock_ends; assumption.
Qed.
Lemma scripted_endless64 : let O := F64Ops L in forall (G H : Gen b64) fmt v sp (ops : list (SimOp b64 G H)) s tmax dt m,
  fitting_params 4 sp -> Forall (fits_short 4) ops -> sim_after 4 sp ops = Some s ->
  fin dt -> fin tmax -> fin m -> 0 < val dt -> ltb dtmax dt = false -> 0 <= val m < val tmax -> add m dt = m ->
  forall k, exists f, scripted fmt v tmax dt k s = Flying f.
Proof.
  intros O G H fmt v sp ops s tmax dt m P F E Fd Fm Fmm Pd D0 Hm Em k. destruct (dt_ok dt Fd Pd D0) as [D1 D3].
  pose proof (scripted_sound (F64_sane L) fmt v sp ops s tmax dt k P F E D0 D1) as Sd.
  pose proof (proj1 (scripted_ends (F64_sane L) fmt v sp ops s tmax dt P F E D0 D1)) as Ld.
  destruct (scripted fmt v tmax dt k s) as [f|f| |] eqn:Es; [exists f; reflexivity| |destruct Sd|destruct Sd].
  destruct Ld as [n Hn]; [exists k, f; exact Es|]. pose proof (clock_stuck L dt tmax Fd Fm Pd m Fmm Hm Em n) as X.
  exact (False_ind _ (eq_true_false_abs _ X Hn)).
Qed.
End Flights.
