(** Model of the in-place clamping utility and of the narrowing of its limits. *)

From Coq Require Import ZArith List Bool.
From Flocq Require Import Core BinarySingleNaN.
From Verif Require Import Scalar Float64.
Import ListNotations.

(** utils.hpp:59-68 clamp_vector.  The limits are [const float] parameters:
    the caller's values are converted to float ([narrow], [None] when the value
    is out of the range of float, which is undefined) and back to the scalar
    type of the vector. *)
Definition clamp_vector {T} {O : Ops T} (narrow : T -> option T) (v : list T) (mn mx : T) : option (list T) :=
  bindo (narrow mn) (fun lo => bindo (narrow mx) (fun hi => map_opt (fun x => clamp x lo hi) v)).

(** Conversion from double to float to double (utils.hpp:60, 66 for
    Scalar = double), round to nearest even. *)
Lemma prec24 : Prec_gt_0 24. Proof. reflexivity. Qed.
Lemma max128 : Prec_lt_emax 24 128. Proof. reflexivity. Qed.
Definition to_float (x : b64) : binary_float 24 128 :=
  match x with
  | B754_zero s => B754_zero s
  | B754_infinity s => B754_infinity s
  | B754_nan => B754_nan
  | B754_finite s m e _ => binary_normalize 24 128 prec24 max128 mode_NE (cond_Zopp s (Zpos m)) e s
  end.
Definition of_float (y : binary_float 24 128) : b64 :=
  match y with
  | B754_zero s => B754_zero s
  | B754_infinity s => B754_infinity s
  | B754_nan => B754_nan
  | B754_finite s m e _ => binary_normalize 53 1024 prec53 max1024 mode_NE (cond_Zopp s (Zpos m)) e s
  end.
Definition narrow64 (x : b64) : option b64 :=
  let y := to_float x in if is_finite x && negb (is_finite y) then None else Some (of_float y).
