(** Order facts of the binary64 instance. *)

From Coq Require Import ZArith Bool Reals Lra Lia.
From Flocq Require Import Core BinarySingleNaN.
From Verif Require Import Scalar Float64 LinAlg MUtils MModel MDynamics SpecRun PBase.

Lemma b64_ltb_irrefl (x : b64) : Bltb x x = false.
Proof.
  destruct x as [s|s| |s m e He]; try (destruct s; reflexivity); [reflexivity|].
  unfold Bltb, SpecFloat.SFltb. cbn. destruct s; rewrite Z.compare_refl, Pos.compare_cont_refl; reflexivity.
Qed.

Lemma F64_irrefl L : Irrefl (F64Ops L).
Proof. intros x. apply b64_ltb_irrefl. Qed.

Definition b64_dtmax : b64 := Bdiv mode_NE (b64_ofZ 1) (b64_ofZ 100).

Lemma b64_dtmax_pos : (0 < B2R b64_dtmax)%R /\ is_finite b64_dtmax = true.
Proof.
  assert (F : is_finite b64_dtmax = true) by (vm_compute; reflexivity).
  split; [|exact F].
  assert (H : Bltb (b64_ofZ 0) b64_dtmax = true) by (vm_compute; reflexivity).
  rewrite Bltb_correct in H by (exact F || reflexivity).
  destruct (Rlt_bool_spec (B2R (b64_ofZ 0)) (B2R b64_dtmax)) as [H'|]; [exact H'|discriminate].
Qed.

Lemma b64_pos_sign (x : b64) : (0 < B2R x)%R -> Bsign x = false.
Proof.
  destruct x as [s|s| |s m e He]; cbn [B2R Bsign]; intros Hx; try lra.
  destruct s; [|reflexivity]. exfalso.
  assert (F2R (Float radix2 (cond_Zopp true (Zpos m)) e) < 0)%R by (apply F2R_lt_0; reflexivity).
  lra.
Qed.

(** A quotient of x by a smaller positive finite y is positive. *)
Lemma b64_div_pos (x y : b64) :
  (0 < B2R y)%R -> is_finite y = true -> is_finite x = true -> (B2R y < B2R x)%R ->
  Bltb (b64_ofZ 0) (Bdiv mode_NE x y) = true.
Proof.
  intros Hp Hf Fd Hlt.
  assert (F0 : is_finite (b64_ofZ 0) = true) by reflexivity.
  assert (R0 : B2R (b64_ofZ 0) = 0%R) by reflexivity.
  assert (Hq : (1 <= B2R x / B2R y)%R).
  { apply Rmult_le_reg_r with (B2R y); [exact Hp|].
    unfold Rdiv. rewrite Rmult_assoc, Rinv_l by lra. lra. }
  assert (Hr : (1 <= round radix2 (SpecFloat.fexp 53 1024) (round_mode mode_NE) (B2R x / B2R y))%R).
  { apply round_ge_generic; [apply fexp_correct; exact prec53|apply valid_rnd_N| |exact Hq].
    replace 1%R with (bpow radix2 0) by reflexivity.
    apply generic_format_bpow. cbn. unfold SpecFloat.fexp, SpecFloat.emin. lia. }
  pose proof (Bdiv_correct 53 1024 _ _ mode_NE x y ltac:(lra)) as C.
  destruct (Rlt_bool _ _) eqn:Eov in C.
  - destruct C as (CR & CF & _). rewrite Fd in CF.
    rewrite Bltb_correct by assumption. rewrite R0, CR.
    apply Rlt_bool_true. lra.
  - rewrite (b64_pos_sign x), (b64_pos_sign y) in C by lra.
    destruct (Bdiv mode_NE x y) as [s|s| |s m e He]; cbn in C; try discriminate.
    inversion C. reflexivity.
Qed.

Lemma b64_quot_pos (dt : b64) :
  Bltb b64_dtmax dt = true -> Bltb (b64_ofZ 0) (Bdiv mode_NE dt b64_dtmax) = true.
Proof.
  intros H. destruct b64_dtmax_pos as [Hp Hf].
  destruct (is_finite dt) eqn:Fd.
  - apply b64_div_pos; try assumption.
    rewrite Bltb_correct in H by assumption.
    destruct (Rlt_bool_spec (B2R b64_dtmax) (B2R dt)) as [Hlt|]; [exact Hlt|discriminate].
  - clear Hp Hf. destruct dt as [s|s| |s m e He]; try discriminate Fd.
    + destruct s; [vm_compute in H; discriminate H|]. vm_compute. reflexivity.
    + vm_compute in H. discriminate H.
Qed.

Lemma F64_sane L : Sane (F64Ops L).
Proof.
  split; [apply F64_irrefl| |].
  - vm_compute. reflexivity.
  - intros dt. apply b64_quot_pos.
Qed.
