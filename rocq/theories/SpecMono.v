(** Specification vocabulary: controllers that answer a larger error with no smaller command. *)

From Coq Require Import ZArith List Bool Reals.
From Flocq Require Import Core BinarySingleNaN.
From Verif Require Import Scalar Float64 LinAlg MPid MPid1 SpecDyn SpecPid SpecRound.
Local Open Scope R_scope.

(** On axis [a] no gain, filter constant or integral bound is negative, and the
    axes are limited one by one. *)
Definition willing (a : Ax) (p : Pid R) : Prop :=
  0 <= pr a (pid_kp p) /\ 0 <= pr a (pid_ki p) /\ 0 <= pr a (pid_kd p) /\ 0 <= pr a (pid_aw p) /\ 0 <= pr a (pid_alpha p) /\
  (pid_sat_on p = false \/ pid_prop_on p = false).
Definition willing1 (p : Pid1 R) : Prop :=
  let s := pid1_get_params p in 0 <= pp1_kp s /\ 0 <= pp1_ki s /\ 0 <= pp1_kd s /\ 0 <= pp1_aw s /\ 0 <= pp1_alpha s.
(** The same in double precision. *)
Definition willing64 (a : Ax) (p : Pid b64) : Prop :=
  0 <= val (pr a (pid_kp p)) /\ 0 <= val (pr a (pid_ki p)) /\ 0 <= val (pr a (pid_kd p)) /\ 0 <= val (pr a (pid_aw p)) /\
  (pid_sat_on p = false \/ pid_prop_on p = false).
Definition willing641 (p : Pid1 b64) : Prop :=
  let s := pid1_get_params p in 0 <= val (pp1_kp s) /\ 0 <= val (pp1_ki s) /\ 0 <= val (pp1_kd s).
