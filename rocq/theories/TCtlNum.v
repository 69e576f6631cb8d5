(** Property theorems: the flight controller fed with sensible numbers commands numbers. *)

From Coq Require Import ZArith Bool List Reals.
From Flocq Require Import Core BinarySingleNaN.
From Verif Require Import Scalar Float64 LinAlg MPid MControl MCtlRun SpecRound SpecNumber SpecPidNum SpecCtlNum PCtlNum PNorm64 ECtlNum.
Import ListNotations.
Local Open Scope R_scope.

(** ** C104 *)
Theorem C104_run :
  forall L, let O := F64Ops L in trig_range L ->
  forall n p ops, sane_ctl p -> Forall sane_ctl_op ops -> let c := ctl_run (ctl_new n p) ops in
  Forall (upto 400) (get_desired_motor_angular_velocity c) /\ upto 400 (get_desired_thrust c) /\ upto3 400 (get_desired_angular_velocity c) /\
  upto3 400 (get_desired_linear_acceleration c) /\ upto3 400 (get_desired_linear_velocity c) /\ upto3 400 (get_desired_position c).
Proof. exact (fun L H n p ops => ctl_numbers L n p ops H). Qed.
Print Assumptions C104_run.

(** The direction of the thrust: no coefficient beyond four, for the longest and for the shortest vectors. *)
Theorem C104_direction :
  forall L, let O := F64Ops L in
  forall e v, upto3 e v -> (0 <= e <= 490)%Z -> upto3 2 (vnormalized v).
Proof. exact (fun L => normalized_up L). Qed.
Print Assumptions C104_direction.

Example C104_case : let O := F64Ops flat_libm in
  trig_range flat_libm /\ sane_ctl k_ctl /\ Forall sane_ctl_op k_ops /\
  List.length (get_desired_motor_angular_velocity (ctl_run (ctl_new 4 k_ctl) k_ops)) = 4%nat /\
  forallb (fun x => Bltb (b64_ofZ 0) x) (get_desired_motor_angular_velocity (ctl_run (ctl_new 4 k_ctl) k_ops)) = true.
Proof. exact k_case. Qed.
