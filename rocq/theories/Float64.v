(** IEEE 754 binary64 instance of [Ops], round to nearest even, from Flocq's
    single-NaN formalisation.  C library functions without a fixed IEEE result
    are an arbitrary record [Libm].

    Simplification: one NaN (no sign, no payload); signbit(NaN) = false.  In
    the library signbit is only read on an error and an accumulator inside a
    comparison that is false for NaN, or as a sign for a NaN magnitude. *)

From Coq Require Import ZArith Bool Lia.
From Flocq Require Import Core BinarySingleNaN.
From Verif Require Import Scalar.

Definition b64 := binary_float 53 1024.

Lemma prec53 : Prec_gt_0 53. Proof. reflexivity. Qed.
Lemma max1024 : Prec_lt_emax 53 1024. Proof. reflexivity. Qed.
#[export] Existing Instance prec53.
#[export] Existing Instance max1024.

Record Libm := {
  lm_sin : b64 -> b64;
  lm_cos : b64 -> b64;
  lm_asin : b64 -> b64;
  lm_atan2 : b64 -> b64 -> b64
}.

Definition b64_ofZ (z : Z) : b64 :=
  binary_normalize 53 1024 prec53 max1024 mode_NE z 0 false.

Definition b64_signbit (x : b64) : bool :=
  match x with B754_zero s => s | B754_infinity s => s | B754_nan => false
          | B754_finite s _ _ _ => s end.

(** The double nearest to pi: 7074237752028440 / 2^51. *)
Definition b64_pi : b64 :=
  binary_normalize 53 1024 prec53 max1024 mode_NE 7074237752028440 (-51) false.

Definition F64Ops (L : Libm) : Ops b64 := {|
  ofZ := b64_ofZ;
  add := Bplus mode_NE; sub := Bminus mode_NE; mul := Bmult mode_NE; div := Bdiv mode_NE;
  neg := Bopp; absT := Babs; sqrtT := Bsqrt mode_NE;
  ltb := Bltb; leb := Bleb; eqb := Beqb;
  signbitT := b64_signbit;
  sinT := lm_sin L; cosT := lm_cos L; asinT := lm_asin L; atan2T := lm_atan2 L;
  piT := b64_pi
|}.
