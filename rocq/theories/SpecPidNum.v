(** Specification vocabulary for binary64: controllers fed with sensible numbers. *)

From Coq Require Import ZArith Bool List Reals.
From Flocq Require Import Core BinarySingleNaN.
From Verif Require Import Scalar Float64 LinAlg MPid MPid1 SpecDyn SpecRound SpecNumber.
Import ListNotations.
Local Open Scope R_scope.

(** Filter weights between 0 and 1. *)
Definition weight (x : b64) : Prop := fin x /\ 0 <= val x <= 1.
Definition weights (v : V3 b64) : Prop := weight (vx v) /\ weight (vy v) /\ weight (vz v).
(** Limits on the two sides of zero, of magnitude at most 2^g. *)
Definition limit_pair (g : Z) (u l : b64) : Prop := upto g u /\ upto g l /\ val l <= 0 <= val u.
Definition limit_pairs (g : Z) (u l : V3 b64) : Prop := limit_pair g (vx u) (vx l) /\ limit_pair g (vy u) (vy l) /\ limit_pair g (vz u) (vz l).
(** A time step between 2^-g and 2^g. *)
Definition sane_step (g : Z) (dt : b64) : Prop := atleast (- g) dt /\ upto g dt.

Definition sane_settings (g : Z) (p : PidParams b64) : Prop :=
  upto3 g (pp_kp p) /\ upto3 g (pp_ki p) /\ upto3 g (pp_kd p) /\ upto3 g (pp_aw p) /\ weights (pp_alpha p) /\ limit_pairs g (pp_up p) (pp_lo p).
(** A call all of whose numbers are sensible: settings and steps of size g, errors of size h. *)
Definition sane_op (g h : Z) (op : PidOp b64) : Prop :=
  match op with
  | OpUpdate p => sane_settings g p
  | OpSetSat u l _ => limit_pairs g u l
  | OpGains kp ki kd => upto3 g kp /\ upto3 g ki /\ upto3 g kd
  | OpKp k | OpKi k | OpKd k | OpAw k => upto3 g k
  | OpAlpha al => weights al
  | OpReset | OpDisableSat | OpRflag _ | OpPflag _ => True
  | OpCompute dt e => sane_step g dt /\ upto3 h e
  | OpComputeD dt e de => sane_step g dt /\ upto3 h e /\ upto3 h de
  end.

(** The scalar controller: limits anywhere, an anti-windup constant that is not negative. *)
Definition sane_aw (g : Z) (x : b64) : Prop := upto g x /\ 0 <= val x.
Definition sane_settings1 (g : Z) (p : P1Params b64) : Prop :=
  upto g (pp1_kp p) /\ upto g (pp1_ki p) /\ upto g (pp1_kd p) /\ sane_aw g (pp1_aw p) /\ weight (pp1_alpha p) /\ upto g (pp1_up p) /\ upto g (pp1_lo p).
Definition sane_op1 (g h : Z) (op : Pid1Op b64) : Prop :=
  match op with
  | Op1Update p => sane_settings1 g p
  | Op1SetSat u l => upto g u /\ upto g l
  | Op1Gains kp ki kd => upto g kp /\ upto g ki /\ upto g kd
  | Op1Kp k | Op1Ki k | Op1Kd k => upto g k
  | Op1Aw k => sane_aw g k
  | Op1Alpha al => weight al
  | Op1Reset | Op1DisableSat | Op1Rflag _ => True
  | Op1Compute dt e => sane_step g dt /\ upto h e
  | Op1ComputeD dt e de => sane_step g dt /\ upto h e /\ upto h de
  end.
