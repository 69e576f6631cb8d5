(** Specification vocabulary: rotors that brake a rotation, in double precision. *)

From Coq Require Import List Reals.
From Flocq Require Import BinarySingleNaN.
From Verif Require Import Scalar Float64 LinAlg SpecDyn SpecRound.
Import ListNotations.
Local Open Scope R_scope.

(** From the commands [u] to the commands [v] no rotor with a positive share of a torque
    about [a] speeds up, and none with a negative share slows down; [rows] are the shares. *)
Definition brakes64 (a : Ax) (rows : list (V3 b64 * V3 b64)) (u v : list b64) : Prop :=
  length u = length rows /\ length v = length rows /\
  forall i r x y, nth_error rows i = Some r -> nth_error u i = Some x -> nth_error v i = Some y ->
  (0 <= val (pr a (snd r)) -> val y <= val x) /\ (val (pr a (snd r)) <= 0 -> val x <= val y).
(** Two rates that differ at most about axis [a]. *)
Definition apart64 (a : Ax) (u v : V3 b64) : Prop := val (pr a u) <= val (pr a v) /\ forall b, b <> a -> val (pr b u) = val (pr b v).
(** Principal axes along the body axes, no principal moment negative. *)
Definition principal64 (m : M3 b64) : Prop :=
  (val (m01 m) = 0 /\ val (m02 m) = 0 /\ val (m10 m) = 0 /\ val (m12 m) = 0 /\ val (m20 m) = 0 /\ val (m21 m) = 0) /\
  0 <= val (m00 m) /\ 0 <= val (m11 m) /\ 0 <= val (m22 m).
