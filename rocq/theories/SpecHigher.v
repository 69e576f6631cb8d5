(** Specification vocabulary: being asked for more height. *)

From Coq Require Import Reals.
From Verif Require Import Scalar LinAlg MPid SpecDyn SpecPid SpecMono.
Local Open Scope R_scope.

(** [v] is [u] or lies straight above it. *)
Definition no_lower (u v : V3 R) : Prop := vx u = vx v /\ vy u = vy v /\ vz u <= vz v.
(** The thrust axis does not point below the horizon. *)
Definition upright (A : M3 R) : Prop := 0 <= ent A AZ AZ.
(** No setting of any axis is negative and the axes are limited one by one. *)
Definition willing_loop (p : Pid R) : Prop := forall a, willing a p.
