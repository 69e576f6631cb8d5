(** Proofs: components within limits. *)

From Coq Require Import ZArith List Bool Lia Reals Lra.
From Flocq Require Import Core BinarySingleNaN Relative.
From Verif Require Import Scalar Float64 MClamp SpecRun SpecClamp PBase PFloat.
Import ListNotations.

Section Gen.
Context {T : Type} {O : Ops T}.

Lemma clamp_in (Ir : Irrefl O) x lo hi y : clamp x lo hi = Some y -> brought_in lo hi x y.
Proof.
  unfold clamp, brought_in. destruct (ltb hi lo) eqn:E; [discriminate|]. destruct (ltb x lo) eqn:E1.
  - intros K. injection K as <-. split; [apply Ir|]. split; [exact E|]. split; [discriminate|]. split; [reflexivity|discriminate].
  - destruct (ltb hi x) eqn:E2; intros K; injection K as <-.
    + split; [exact E|]. split; [apply Ir|]. split; [discriminate|]. split; [discriminate|reflexivity].
    + split; [exact E1|]. split; [exact E2|]. split; [reflexivity|]. split; discriminate.
Qed.
Lemma map_in (Ir : Irrefl O) lo hi : forall v v', map_opt (fun x => clamp x lo hi) v = Some v' -> Forall2 (brought_in lo hi) v v'.
Proof.
  induction v as [|x v IH]; intros v' E; cbn [map_opt] in E; [injection E as <-; apply Forall2_nil|].
  apply bindo_Some in E as (y & Ey & E). apply bindo_Some in E as (ys & Eys & E). injection E as <-.
  apply Forall2_cons; [exact (clamp_in Ir _ _ _ _ Ey)|apply IH, Eys].
Qed.
Lemma vector_in (Ir : Irrefl O) narrow v mn mx v' : clamp_vector narrow v mn mx = Some v' ->
  exists lo hi, narrow mn = Some lo /\ narrow mx = Some hi /\ Forall2 (brought_in lo hi) v v'.
Proof.
  unfold clamp_vector. intros E. apply bindo_Some in E as (lo & El & E). apply bindo_Some in E as (hi & Eh & E).
  exists lo, hi. split; [exact El|]. split; [exact Eh|]. apply map_in; assumption.
Qed.
Lemma vector_defined narrow v mn mx lo hi : narrow mn = Some lo -> narrow mx = Some hi -> ltb hi lo = false ->
  exists v', clamp_vector narrow v mn mx = Some v'.
Proof.
  intros El Eh E. unfold clamp_vector. rewrite El, Eh. cbn [bindo]. induction v as [|x v [v' IH]]; [exists []; reflexivity|].
  cbn [map_opt]. unfold clamp at 1. rewrite E. cbn [bindo]. rewrite IH. cbn [bindo]. eexists. reflexivity.
Qed.
Lemma vector_undefined narrow x v mn mx lo hi : narrow mn = Some lo -> narrow mx = Some hi -> ltb hi lo = true ->
  clamp_vector narrow (x :: v) mn mx = None.
Proof. intros El Eh E. unfold clamp_vector. rewrite El, Eh. cbn [bindo map_opt]. unfold clamp at 1. rewrite E. reflexivity. Qed.
End Gen.

(** ** Narrowing *)
Local Open Scope R_scope.
Local Existing Instance prec24.
Local Existing Instance max128.

Notation fexp32 := (FLT_exp (-149) 24).
Notation rnd32 := (round radix2 fexp32 ZnearestE).

Lemma to_float_R (x : b64) : is_finite x = true ->
  if Rlt_bool (Rabs (rnd32 (B2R x))) (bpow radix2 128)
  then B2R (to_float x) = rnd32 (B2R x) /\ is_finite (to_float x) = true
  else is_finite (to_float x) = false.
Proof.
  destruct x as [s|s| |s m e B]; intros F; try discriminate F.
  - cbn [B2R to_float]. rewrite round_0 by typeclasses eauto. rewrite Rabs_R0, Rlt_bool_true by apply bpow_gt_0. split; reflexivity.
  - cbn [to_float]. set (x := B754_finite s m e B : b64).
    set (z := binary_normalize 24 128 prec24 max128 mode_NE (cond_Zopp s (Zpos m)) e s).
    assert (C : if Rlt_bool (Rabs (rnd32 (B2R x))) (bpow radix2 128)
      then B2R z = rnd32 (B2R x) /\ is_finite z = true /\
        Bsign z = match Rcompare (B2R x) 0 with Eq => s | Lt => true | Gt => false end
      else B2SF z = binary_overflow 24 128 mode_NE (Rlt_bool (B2R x) 0)) by exact (binary_normalize_correct 24 128 prec24 max128 mode_NE (cond_Zopp s (Zpos m)) e s).
    destruct (Rlt_bool _ _).
    + destruct C as (C1 & C2 & _). split; assumption.
    + destruct z as [s0|s0| |s0 m0 e0 B0]; cbn in C |- *; try reflexivity; discriminate C.
Qed.

Lemma of_float_R (y : binary_float 24 128) : is_finite y = true -> B2R (of_float y) = B2R y /\ is_finite (of_float y) = true.
Proof.
  destruct y as [s|s| |s m e B]; intros F; try discriminate F; [split; reflexivity|].
  cbn [of_float]. set (y := B754_finite s m e B : binary_float 24 128) in *.
  set (z := binary_normalize 53 1024 prec53 max1024 mode_NE (cond_Zopp s (Zpos m)) e s).
  assert (C : if Rlt_bool (Rabs (round radix2 (SpecFloat.fexp 53 1024) (round_mode mode_NE) (B2R y))) (bpow radix2 1024)
      then B2R z = round radix2 (SpecFloat.fexp 53 1024) (round_mode mode_NE) (B2R y) /\ is_finite z = true /\
        Bsign z = match Rcompare (B2R y) 0 with Eq => s | Lt => true | Gt => false end
      else B2SF z = binary_overflow 53 1024 mode_NE (Rlt_bool (B2R y) 0)) by exact (binary_normalize_correct 53 1024 prec53 max1024 mode_NE (cond_Zopp s (Zpos m)) e s).
  assert (Gf : generic_format radix2 (SpecFloat.fexp 53 1024) (B2R y)).
  { change (SpecFloat.fexp 53 1024) with (FLT_exp (-1074) 53).
    apply (generic_inclusion_mag radix2 fexp32); [|apply generic_format_B2R].
    intros _. unfold FLT_exp. lia. }
  rewrite round_generic in C; [|typeclasses eauto|exact Gf].
  rewrite Rlt_bool_true in C; [destruct C as (C1 & C2 & _); split; assumption|].
  eapply Rlt_le_trans; [apply abs_B2R_lt_emax|]. apply bpow_le. lia.
Qed.

Lemma narrow_R (x y : b64) : is_finite x = true -> narrow64 x = Some y -> is_finite y = true /\ B2R y = rnd32 (B2R x).
Proof.
  intros F. unfold narrow64. cbv zeta. rewrite F. cbn [andb]. pose proof (to_float_R x F) as C.
  destruct (Rlt_bool _ _); [|rewrite C; discriminate]. destruct C as [C1 C2]. rewrite C2. cbn [negb]. intros K. injection K as <-.
  destruct (of_float_R _ C2) as [D1 D2]. split; [exact D2|]. rewrite D1. exact C1.
Qed.
Lemma narrow_defined (x : b64) : is_finite x = true -> Rabs (rnd32 (B2R x)) < bpow radix2 128 -> exists y, narrow64 x = Some y.
Proof.
  intros F B. unfold narrow64. cbv zeta. rewrite F. cbn [andb]. pose proof (to_float_R x F) as C. rewrite Rlt_bool_true in C by exact B.
  destruct C as [_ ->]. eexists. reflexivity.
Qed.

Lemma narrow_float (x y : b64) : float_value x -> narrow64 x = Some y -> B2R y = B2R x.
Proof.
  intros (F & _ & Gf) E. destruct (narrow_R x y F E) as [_ ->]. apply round_generic; [typeclasses eauto|exact Gf].
Qed.

Lemma narrow_close (x y : b64) : of_float_size x -> narrow64 x = Some y ->
  Rabs (B2R y - B2R x) <= bpow radix2 (-24) * Rabs (B2R x).
Proof.
  intros (F & L & _) E. destruct (narrow_R x y F E) as [_ ->].
  eapply Rle_trans; [apply (relative_error_N_FLT radix2 (-149) 24); [reflexivity|exact L]|].
  apply Rmult_le_compat_r; [apply Rabs_pos|]. change (- (24) + 1)%Z with (-24 + 1)%Z. rewrite bpow_plus. change (bpow radix2 1) with 2.
  pose proof (bpow_gt_0 radix2 (-24)). lra.
Qed.
Lemma narrow_size (x : b64) : of_float_size x -> exists y, narrow64 x = Some y.
Proof.
  intros (F & _ & U). apply narrow_defined; [exact F|].
  apply Rle_lt_trans with (bpow radix2 127); [|apply bpow_lt; lia].
  apply abs_round_le_generic; [typeclasses eauto|typeclasses eauto| |exact U].
  apply generic_format_bpow. unfold FLT_exp. lia.
Qed.

(** ** Doubles *)
Section Double.
Variable L : Libm.
Let O := F64Ops L.
Existing Instance O.

Lemma not_below (x y : b64) : is_finite x = true -> is_finite y = true -> (ltb x y = false <-> B2R y <= B2R x).
Proof.
  intros F F'. change (ltb x y) with (Bltb x y). rewrite Bltb_correct by assumption. split.
  - intros E. destruct (Rlt_bool_spec (B2R x) (B2R y)) as [K|K]; [discriminate E|exact K].
  - intros E. apply Rlt_bool_false, E.
Qed.

Lemma double_within v mn mx v' lo hi : narrow64 mn = Some lo -> narrow64 mx = Some hi -> is_finite mn = true -> is_finite mx = true ->
  clamp_vector narrow64 v mn mx = Some v' -> Forall (fun y => is_finite y = true -> B2R lo <= B2R y <= B2R hi) v'.
Proof.
  intros El Eh Fl Fh E. assert (Ir : Irrefl O) by apply F64_irrefl. destruct (vector_in Ir _ _ _ _ _ E) as (lo' & hi' & El' & Eh' & K).
  rewrite El in El'. injection El' as <-. rewrite Eh in Eh'. injection Eh' as <-.
  destruct (narrow_R _ _ Fl El) as [Gl _]. destruct (narrow_R _ _ Fh Eh) as [Gh _].
  induction K as [|x y v v' B K IH]; [apply Forall_nil|]. apply Forall_cons.
  - intros Fy. destruct B as (B1 & B2 & _). split; [apply (not_below y lo)|apply (not_below hi y)]; assumption.
  - apply IH. unfold clamp_vector in E |- *. rewrite El, Eh in E |- *. cbn [bindo map_opt] in E |- *.
    apply bindo_Some in E as (y0 & Ey & E). apply bindo_Some in E as (ys & Eys & E). injection E as <- <-. exact Eys.
Qed.

Lemma double_close v mn mx v' : of_float_size mn -> of_float_size mx -> clamp_vector narrow64 v mn mx = Some v' ->
  let eps := bpow radix2 (-24) in
  Forall (fun y => is_finite y = true -> B2R mn - eps * Rabs (B2R mn) <= B2R y <= B2R mx + eps * Rabs (B2R mx)) v'.
Proof.
  intros Sl Sh E. cbv zeta. destruct (narrow_size _ Sl) as [lo El]. destruct (narrow_size _ Sh) as [hi Eh].
  pose proof (narrow_close _ _ Sl El) as Cl. pose proof (narrow_close _ _ Sh Eh) as Ch.
  eapply Forall_impl; [|exact (double_within v mn mx v' lo hi El Eh (proj1 Sl) (proj1 Sh) E)].
  intros y K Fy. specialize (K Fy). apply Rabs_le_inv in Cl. apply Rabs_le_inv in Ch. lra.
Qed.

Lemma double_exact v mn mx v' : float_value mn -> float_value mx -> clamp_vector narrow64 v mn mx = Some v' ->
  Forall (fun y => is_finite y = true -> B2R mn <= B2R y <= B2R mx) v'.
Proof.
  intros Sl Sh E. assert (E' := E). unfold clamp_vector in E'. apply bindo_Some in E' as (lo & El & E'). apply bindo_Some in E' as (hi & Eh & _).
  rewrite <- (narrow_float _ _ Sl El), <- (narrow_float _ _ Sh Eh). exact (double_within v mn mx v' lo hi El Eh (proj1 Sl) (proj1 Sh) E).
Qed.

(** Ordered limits stay ordered. *)
Lemma double_defined v mn mx : is_finite mn = true -> is_finite mx = true -> B2R mn <= B2R mx ->
  Rabs (B2R mn) <= bpow radix2 127 -> Rabs (B2R mx) <= bpow radix2 127 -> exists v', clamp_vector narrow64 v mn mx = Some v'.
Proof.
  assert (D : forall x : b64, is_finite x = true -> Rabs (B2R x) <= bpow radix2 127 -> exists y, narrow64 x = Some y).
  { intros x F U. apply narrow_defined; [exact F|]. apply Rle_lt_trans with (bpow radix2 127); [|apply bpow_lt; lia].
    apply abs_round_le_generic; [typeclasses eauto|typeclasses eauto| |exact U]. apply generic_format_bpow. unfold FLT_exp. lia. }
  intros Fl Fh Le Ul Uh. destruct (D mn Fl Ul) as [lo El]. destruct (D mx Fh Uh) as [hi Eh].
  apply (vector_defined narrow64 v mn mx lo hi El Eh).
  destruct (narrow_R _ _ Fl El) as [Gl Rl]. destruct (narrow_R _ _ Fh Eh) as [Gh Rh]. apply not_below; [assumption|assumption|].
  rewrite Rl, Rh. apply round_le; [typeclasses eauto|typeclasses eauto|exact Le].
Qed.
End Double.
