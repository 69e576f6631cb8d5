(** Specification vocabulary for binary64: the flight controller fed with sensible numbers. *)

From Coq Require Import ZArith Bool List Reals.
From Flocq Require Import Core BinarySingleNaN.
From Verif Require Import Scalar Float64 LinAlg MPid MControl MCtlRun SpecRound SpecNumber SpecPidNum.
Import ListNotations.
Local Open Scope R_scope.

(** sin and cos of the C library: of a number, a number between -1 and 1. *)
Definition trig_range (L : Libm) : Prop := forall x, fin x -> upto 0 (lm_sin L x) /\ upto 0 (lm_cos L x).

(** Settings of magnitude at most 2^32. *)
Definition sane_acro (p : AcroParams b64) : Prop := upto 32 (ap_mass p) /\ upto9 32 (ap_kp p) /\ upto3 32 (ap_grav p).
Definition sane_rows (m : list (V3 b64 * V3 b64)) : Prop := Forall (fun r => upto3 32 (fst r) /\ upto3 32 (snd r)) m.
Definition sane_indi (p : IndiParams b64) : Prop := upto9 32 (ip_inertia p) /\ sane_rows (ip_minv p) /\ sane_settings 32 (ip_pid p).
Definition sane_ctl (p : CtlParams b64) : Prop :=
  sane_acro (cp_acro p) /\ sane_indi (cp_indi p) /\ sane_settings 32 (cp_pos p) /\ sane_settings 32 (cp_traj p) /\ sane_settings 32 (cp_vel p).
(** Calls whose arguments are numbers of magnitude at most 2^32, with steps between 2^-32 and 2^32. *)
Definition sane_ctl_op (op : CtlOp b64) : Prop :=
  match op with
  | CAcro cur th des dt | CConvAcro cur th des dt => upto3 32 cur /\ upto 32 th /\ upto3 32 des /\ sane_step 32 dt
  | CAcc R cw acc yaw dt => upto9 32 R /\ upto3 32 cw /\ upto3 32 acc /\ fin yaw /\ sane_step 32 dt
  | CTraj cp cv R cw dp dv da yaw dt =>
      upto3 32 cp /\ upto3 32 cv /\ upto9 32 R /\ upto3 32 cw /\ upto3 32 dp /\ upto3 32 dv /\ upto3 32 da /\ fin yaw /\ sane_step 32 dt
  | CVel cv R cw dv yaw dt => upto3 32 cv /\ upto9 32 R /\ upto3 32 cw /\ upto3 32 dv /\ fin yaw /\ sane_step 32 dt
  | CPos cp R cv cw dp yaw dt => upto3 32 cp /\ upto9 32 R /\ upto3 32 cv /\ upto3 32 cw /\ upto3 32 dp /\ fin yaw /\ sane_step 32 dt
  | CConvAcc acc R yaw => upto3 32 acc /\ upto9 32 R /\ fin yaw
  | CConvTraj cp cv dp dv da dt => upto3 32 cp /\ upto3 32 cv /\ upto3 32 dp /\ upto3 32 dv /\ upto3 32 da /\ sane_step 32 dt
  | CConvVel cv dv dt => upto3 32 cv /\ upto3 32 dv /\ sane_step 32 dt
  | CConvPos cp dp dt => upto3 32 cp /\ upto3 32 dp /\ sane_step 32 dt
  | CReset => True
  | CUpdate p => sane_ctl p
  | CUpdAcro p => sane_acro p
  | CUpdIndi p => sane_indi p
  | CUpdPid _ p => sane_settings 32 p
  | CPid _ o => sane_op 32 32 o
  | CMass m => upto 32 m
  | CGrav g => upto3 32 g
  | CKp k => upto9 32 k
  | CYaw R yaw th => upto9 32 R /\ fin yaw /\ upto3 32 th
  | CInertia m => upto9 32 m
  | CMixer m => sane_rows m
  end.
