(** Specification vocabulary: being asked for more height, in double precision. *)

From Coq Require Import Reals.
From Flocq Require Import BinarySingleNaN.
From Verif Require Import Scalar Float64 LinAlg MPid SpecDyn SpecPid SpecRound SpecMono.
Local Open Scope R_scope.

(** [v] has the value of [u] or lies straight above it. *)
Definition no_lower64 (u v : V3 b64) : Prop := val (vx u) = val (vx v) /\ val (vy u) = val (vy v) /\ val (vz u) <= val (vz v).
(** The thrust axis does not point below the horizon. *)
Definition upright64 (A : M3 b64) : Prop := 0 <= val (m22 A).
(** No setting of any axis is negative, the axes are limited one by one, and the
    integral is not cleared when the error changes its sign. *)
Definition willing_loop64 (p : Pid b64) : Prop := (forall a, willing64 a p) /\ pid_reset_flag p = false.
