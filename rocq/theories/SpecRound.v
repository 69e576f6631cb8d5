(** Specification vocabulary for binary64: finite values, closeness to one. *)

From Coq Require Import ZArith Bool List Reals.
From Flocq Require Import Core BinarySingleNaN.
From Verif Require Import Scalar Float64 LinAlg MUtils MModel MDynamics MImu SpecDyn SpecRun.
Local Open Scope R_scope.

Definition fin (x : b64) : Prop := is_finite x = true.
(** The real number a finite double stands for. *)
Definition val (x : b64) : R := B2R x.

Definition finq (q : Quat b64) : Prop := fin (qw q) /\ fin (qx q) /\ fin (qy q) /\ fin (qz q).
Definition finv (v : V3 b64) : Prop := fin (vx v) /\ fin (vy v) /\ fin (vz v).
(** Squared length, computed exactly. *)
Definition sqlen (q : Quat b64) : R := val (qw q) ^ 2 + val (qx q) ^ 2 + val (qy q) ^ 2 + val (qz q) ^ 2.
(** Squared length within [e] of one. *)
Definition unit_within (e : R) (q : Quat b64) : Prop := finq q /\ Rabs (sqlen q - 1) <= e.
(** The sum of the magnitudes of three finite components is at most [m]. *)
Definition rates_below (m : R) (w : V3 b64) : Prop :=
  finv w /\ Rabs (val (vx w)) + Rabs (val (vy w)) + Rabs (val (vz w)) <= m.
(** Each of three finite components is at most [m] in magnitude. *)
Definition comps_below (m : R) (w : V3 b64) : Prop :=
  finv w /\ Rabs (val (vx w)) <= m /\ Rabs (val (vy w)) <= m /\ Rabs (val (vz w)) <= m.

(** A run of finite positive steps in which the body rates stay below 2^400 rad/s:
    before each step, and for a long step before each internal step of 10 ms. *)
Definition rates_stay (L : Libm) {G : Gen b64} (d : Dyn b64 G) (c : Call b64) : Prop :=
  rates_below (bpow radix2 400) (s_angvel (d_state d)) /\
  (@ltb _ (F64Ops L) (@dtmax _ (F64Ops L)) (k_dt c) = true ->
   forall k (x : Dyn b64 G),
   oiter k (fun y => @process _ (F64Ops L) _ y (k_act c) (@dtmax _ (F64Ops L)) (k_ext c) (k_noise c)) d = Ok x ->
   rates_below (bpow radix2 400) (s_angvel (d_state x))).

Fixpoint tame (L : Libm) {G : Gen b64} (d : Dyn b64 G) (l : list (Call b64)) : Prop :=
  match l with
  | nil => True
  | cons c r =>
      fin (k_dt c) /\ 0 < val (k_dt c) /\ rates_stay L d c /\
      match @process _ (F64Ops L) _ d (k_act c) (k_dt c) (k_ext c) (k_noise c) with
      | Ok d' => tame L d' r
      | _ => True
      end
  end.

(** An operation on the inertial odometry with finite gyroscope readings of at most [m]
    per axis and steps in (0, 1] seconds; accelerometer readings are arbitrary doubles. *)
Definition odom_tame (m : R) (op : OdomOp b64) : Prop :=
  match op with
  | OUpdate gyro _ dt => comps_below m gyro /\ fin dt /\ 0 < val dt <= 1
  | OReset => True
  | OInit q => unit_within (1/2) q
  end.
