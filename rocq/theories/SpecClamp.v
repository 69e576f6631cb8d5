(** Specification vocabulary: components within limits. *)

From Coq Require Import ZArith List Bool Reals.
From Flocq Require Import Core BinarySingleNaN.
From Verif Require Import Scalar Float64.
Import ListNotations.

(** [y] is [x] brought into the range from [lo] to [hi]. *)
Definition brought_in {T} {O : Ops T} (lo hi x y : T) : Prop :=
  ltb y lo = false /\ ltb hi y = false /\ (ltb x lo = false -> ltb hi x = false -> y = x) /\
  (ltb x lo = true -> y = lo) /\ (ltb x lo = false -> ltb hi x = true -> y = hi).

Local Open Scope R_scope.
(** A double a float can come close to: nonzero, within the normal range of
    float. *)
Definition of_float_size (x : b64) : Prop :=
  is_finite x = true /\ bpow radix2 (-126) <= Rabs (B2R x) <= bpow radix2 127.
(** Exactly a float: 24 bits, within range. *)
Definition float_value (x : b64) : Prop :=
  is_finite x = true /\ Rabs (B2R x) < bpow radix2 128 /\ generic_format radix2 (FLT_exp (-149) 24) (B2R x).
