(** Specification vocabulary: rotors that brake a rotation, any number of them. *)

From Coq Require Import List Reals.
From Verif Require Import Scalar LinAlg SpecDyn.
Import ListNotations.
Local Open Scope R_scope.

(** From the commands [u] to the commands [v] no rotor with a positive share of a torque
    about [a] speeds up, and none with a negative share slows down; [rows] are the shares. *)
Definition brakes_by (a : Ax) (rows : list (V3 R * V3 R)) (u v : list R) : Prop :=
  length u = length rows /\ length v = length rows /\
  forall i r x y, nth_error rows i = Some r -> nth_error u i = Some x -> nth_error v i = Some y ->
  (0 <= pr a (snd r) -> y <= x) /\ (pr a (snd r) <= 0 -> x <= y).
