(** Specification vocabulary: rotors that turn the vehicle one way or the other. *)

From Coq Require Import List Reals.
From Verif Require Import Scalar LinAlg MModel SpecDyn.
Import ListNotations.
Local Open Scope R_scope.

(** The torque about axis [a] of one rotor that turns at one unit of speed. *)
Definition turns (a : Ax) (m : Motor R) : R := rotor_torque [m] [1] [0] a.
(** From the commands [u] to the commands [v] no rotor that turns the vehicle in the
    positive sense about [a] speeds up, and none that turns it in the negative sense
    slows down. *)
Definition brakes (a : Ax) (ms : list (Motor R)) (u v : list R) : Prop :=
  length u = length ms /\ length v = length ms /\
  forall i m x y, nth_error ms i = Some m -> nth_error u i = Some x -> nth_error v i = Some y ->
  (0 <= turns a m -> y <= x) /\ (turns a m <= 0 -> x <= y).
(** Two rates that differ at most about axis [a]. *)
Definition apart (a : Ax) (u v : V3 R) : Prop := pr a u <= pr a v /\ forall b, b <> a -> pr b u = pr b v.
(** Principal axes along the body axes, no principal moment negative. *)
Definition principal (m : M3 R) : Prop := exists x y z, m = mkM x 0 0 0 y 0 0 0 z /\ 0 <= x /\ 0 <= y /\ 0 <= z.
