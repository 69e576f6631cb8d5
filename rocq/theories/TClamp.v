(** Property theorems: the clamping utility. *)

From Coq Require Import ZArith List Bool Reals.
From Flocq Require Import Core BinarySingleNaN.
From Verif Require Import Scalar Float64 MClamp SpecRun SpecClamp PClamp EClamp.
Import ListNotations.

(** ** C90 *)
Theorem C90_brought_in :
  forall {T} {O : Ops T}, Irrefl O -> forall narrow v mn mx v', clamp_vector narrow v mn mx = Some v' ->
  exists lo hi, narrow mn = Some lo /\ narrow mx = Some hi /\ Forall2 (brought_in lo hi) v v'.
Proof. exact @vector_in. Qed.
Print Assumptions C90_brought_in.

(** Limits in the wrong order are undefined behaviour. *)
Theorem C90_wrong_order :
  forall {T} {O : Ops T} narrow (x : T) v mn mx lo hi, narrow mn = Some lo -> narrow mx = Some hi -> ltb hi lo = true ->
  clamp_vector narrow (x :: v) mn mx = None.
Proof. exact @vector_undefined. Qed.
Print Assumptions C90_wrong_order.

Local Open Scope R_scope.
Theorem C90_defined_binary64 :
  forall L : Libm, let O := F64Ops L in forall (v : list b64) mn mx, is_finite mn = true -> is_finite mx = true -> B2R mn <= B2R mx ->
  Rabs (B2R mn) <= bpow radix2 127 -> Rabs (B2R mx) <= bpow radix2 127 -> exists v', clamp_vector narrow64 v mn mx = Some v'.
Proof. exact double_defined. Qed.
Print Assumptions C90_defined_binary64.

(** Limits that are floats are respected by vectors of doubles. *)
Theorem C90_float_limits :
  forall L : Libm, let O := F64Ops L in forall (v : list b64) mn mx v', float_value mn -> float_value mx ->
  clamp_vector narrow64 v mn mx = Some v' -> Forall (fun y => is_finite y = true -> B2R mn <= B2R y <= B2R mx) v'.
Proof. exact double_exact. Qed.
Print Assumptions C90_float_limits.

(** Other limits only up to one part in 2^24. *)
Theorem C90_double_limits_partial :
  forall L : Libm, let O := F64Ops L in forall (v : list b64) mn mx v', of_float_size mn -> of_float_size mx ->
  clamp_vector narrow64 v mn mx = Some v' ->
  let eps := bpow radix2 (-24) in
  Forall (fun y => is_finite y = true -> B2R mn - eps * Rabs (B2R mn) <= B2R y <= B2R mx + eps * Rabs (B2R mx)) v'.
Proof. exact double_close. Qed.
Print Assumptions C90_double_limits_partial.

Theorem C90_double_limits_refuted :
  forall L : Libm, let O := F64Ops L in
  exists mx y : b64, mx = lit 1 10 /\ clamp_vector narrow64 [one; zero] zero mx = Some [y; zero] /\ ltb mx y = true.
Proof. exact above_limit. Qed.
Print Assumptions C90_double_limits_refuted.

Theorem C90_out_of_range_refuted :
  forall L : Libm, let O := F64Ops L in exists big : b64, is_finite big = true /\ clamp_vector narrow64 [one] zero big = None.
Proof. exact out_of_range. Qed.
Print Assumptions C90_out_of_range_refuted.

Example C90_case : forall L : Libm, let O := F64Ops L in
  clamp_vector narrow64 [lit 3 2; lit 3 10; neg (ofZ 2)] (neg one : b64) one = Some [one; lit 3 10; neg one].
Proof. exact inside_limit. Qed.
