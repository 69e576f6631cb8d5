(** Specification vocabulary for binary64: sensors and odometry fed with sensible numbers. *)

From Coq Require Import ZArith Bool List Reals.
From Flocq Require Import Core BinarySingleNaN.
From Verif Require Import Scalar Float64 LinAlg MUtils MImu SpecDyn SpecRound SpecNumber SpecPidNum.
Import ListNotations.
Local Open Scope R_scope.

(** A variance or a noise density: not negative. *)
Definition density (x : b64) : Prop := upto 64 x /\ 0 <= val x.

Definition sane_imu (p : ImuParams b64) : Prop :=
  density (imp_gvar p) /\ density (imp_avar p) /\ density (imp_gac p) /\ density (imp_aac p) /\ unit_within (1/2) (imp_ori p).
(** Updates with a step that is either not positive (and then ignored) or between 2^-64 and 2^64. *)
Definition sane_imu_op (op : ImuOp b64) : Prop :=
  match op with
  | IUpdate dt f w => (sane_step 64 dt \/ fin dt /\ val dt <= 0) /\ upto3 64 f /\ upto3 64 w
  | IReset | ISeed _ => True
  | IVar g a | IAc g a => density g /\ density a
  | IBias gb ab g a => upto3 64 gb /\ upto3 64 ab /\ density g /\ density a
  | IOri q => unit_within (1/2) q
  end.

(** Measurements of at most 2^64 and steps of at most a second. *)
Definition sane_odom_op (op : OdomOp b64) : Prop :=
  match op with
  | OUpdate g a dt => upto3 64 g /\ upto3 64 a /\ fin dt /\ 0 < val dt <= 1
  | OReset => True
  | OInit q => unit_within (1/2) q
  end.
