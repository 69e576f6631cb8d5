(** C18 in binary64. *)

From Coq Require Import ZArith Bool Reals.
From Flocq Require Import Core BinarySingleNaN.
From Verif Require Import Scalar Float64 MUtils SpecRound PRoot64 ERoot64.
Local Open Scope R_scope.

Theorem C18_root_of_square_binary64 : forall L, let O := F64Ops L in forall x : b64, fin x ->
  val x = 0 \/ bpow radix2 (-511) <= Rabs (val x) < bpow radix2 499 -> fin (sqrtks (sqks x)) /\ val (sqrtks (sqks x)) = val x.
Proof. exact root_of_square64. Qed.
Print Assumptions C18_root_of_square_binary64.

Theorem C18_square_of_root_binary64 : forall L, let O := F64Ops L in forall x : b64, fin x ->
  val x = 0 \/ bpow radix2 (-900) <= Rabs (val x) <= bpow radix2 900 ->
  fin (sqks (sqrtks x)) /\ Rabs (val (sqks (sqrtks x)) - val x) <= 4 * / 9007199254740992 * Rabs (val x).
Proof. exact square_of_root64. Qed.
Print Assumptions C18_square_of_root_binary64.

Theorem C18_odd_binary64 : forall L, let O := F64Ops L in forall x : b64, fin x -> Rabs (val x) <= bpow radix2 500 ->
  val (sqks (neg x)) = - val (sqks x).
Proof. exact square_odd64. Qed.
Print Assumptions C18_odd_binary64.

Theorem C18_increasing_binary64 : forall L, let O := F64Ops L in forall x y : b64, fin x -> fin y ->
  val x = 0 \/ bpow radix2 (-511) <= Rabs (val x) < bpow radix2 499 -> val y = 0 \/ bpow radix2 (-511) <= Rabs (val y) < bpow radix2 499 ->
  val x < val y -> val (sqks x) < val (sqks y).
Proof. exact square_strict64. Qed.
Print Assumptions C18_increasing_binary64.

Theorem C18_rounding : forall L, let O := F64Ops L in
  (let x := b64_ofZ 2 in fin x /\ fin (sqks (sqrtks x)) /\ val (sqks (sqrtks x)) <> val x) /\
  (fin b_small /\ val b_small <> 0 /\ val (sqrtks (sqks b_small)) = 0) /\ (fin b_large /\ is_finite (sqks b_large) = false).
Proof. exact root_lost. Qed.
Print Assumptions C18_rounding.

Example C18_case_binary64 : forall L, let O := F64Ops L in let x := b64_ofZ 3 in
  fin x /\ (bpow radix2 (-511) <= Rabs (val x) < bpow radix2 499) /\ Beqb (sqks x) (b64_ofZ 9) = true.
Proof. exact root_case. Qed.
