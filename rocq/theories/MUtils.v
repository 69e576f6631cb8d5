(** Model of multirotor_simulator/multirotor_dynamic_model/common/utils.hpp and
    of the data types and Euler conversion of common/state.hpp. *)

From Coq Require Import ZArith List Bool.
From Verif Require Import Scalar LinAlg.
Import ListNotations.

Section Utils.
Context {T : Type} {O : Ops T}.
Local Open Scope sc_scope.

(** utils.hpp:59-68 clamp_vector: MClamp.v. *)

(** utils.hpp:84-106 get_quaternion_derivative: 0.5 * (q * (0, omega)). *)
Definition quat_derivative (q : Quat T) (w : V3 T) : Quat T :=
  qmap (fun x => half * x) (qmul q (mkQ zero (vx w) (vy w) (vz w))).

(** utils.hpp:124-149 get_quaternion_integrate. *)
Definition quat_integrate (q : Quat T) (w : V3 T) (dt : T) : Quat T :=
  qnormalized (qadd q (qmap (fun x => x * dt) (quat_derivative q w))).

(** utils.hpp:162-165 squared_keep_sign, one coefficient. *)
Definition sqks (x : T) : T := (x * x) * signT x.
(** utils.hpp:178-191 sqrt_keep_sign, one coefficient. *)
Definition sqrtks (x : T) : T := sqrtT (absT x) * signT x.

(** state.hpp:109-129 quaternion_to_Euler; result (roll, pitch, yaw). *)
Definition quat_to_euler (q0 : Quat T) : V3 T :=
  let q := qnormalized q0 in
  let sinr := ofZ 2 * (qw q * qx q + qy q * qz q) in
  let cosr := one - ofZ 2 * (qx q * qx q + qy q * qy q) in
  let roll := atan2T sinr cosr in
  let sinp := ofZ 2 * (qw q * qy q - qz q * qx q) in
  let pitch := if one <=? absT sinp then copysignT (piT / ofZ 2) sinp else asinT sinp in
  let siny := ofZ 2 * (qw q * qz q + qx q * qy q) in
  let cosy := one - ofZ 2 * (qy q * qy q + qz q * qz q) in
  mkV roll pitch (atan2T siny cosy).

End Utils.

(** state.hpp:56-107 and 231-240: Kinematics, Dynamics, Actuators and State,
    flattened into one record.  Rotor vectors (Eigen VectorN) are lists. *)
Record State (T : Type) := mkState {
  s_pos : V3 T;        (* kinematics.position *)
  s_ori : Quat T;      (* kinematics.orientation *)
  s_vel : V3 T;        (* kinematics.linear_velocity *)
  s_angvel : V3 T;     (* kinematics.angular_velocity *)
  s_linacc : V3 T;     (* kinematics.linear_acceleration *)
  s_angacc : V3 T;     (* kinematics.angular_acceleration *)
  s_force : V3 T;      (* dynamics.force *)
  s_torque : V3 T;     (* dynamics.torque *)
  s_mvel : list T;     (* actuators.motor_angular_velocity *)
  s_macc : list T      (* actuators.motor_angular_acceleration *)
}.
Arguments mkState {T}.
Arguments s_pos {T}. Arguments s_ori {T}. Arguments s_vel {T}. Arguments s_angvel {T}.
Arguments s_linacc {T}. Arguments s_angacc {T}. Arguments s_force {T}. Arguments s_torque {T}.
Arguments s_mvel {T}. Arguments s_macc {T}.

(** state.hpp:62-67, 83-84, 102-106: default member initialisers; [n] rotors. *)
Definition state0 {T} {O : Ops T} (n : nat) : State T :=
  mkState v0 q1 v0 v0 v0 v0 v0 v0 (repeat zero n) (repeat zero n).

(** ** Random numbers

    A generator is an engine with a seeding function plus a distribution object
    with its own state (std::normal_distribution caches a value).  All of it is
    arbitrary: no property of the numbers drawn is assumed.

    C++ does not fix the order in which the three constructor arguments of
    [Vector3(draw, draw, draw)] are evaluated.  [g_perm site] says which of the
    three draws lands on which axis at a given call site. *)

Inductive perm3 := P012 | P021 | P102 | P120 | P201 | P210.

Definition papply {T} (p : perm3) (a b c : T) : V3 T :=
  match p with
  | P012 => mkV a b c | P021 => mkV a c b | P102 => mkV b a c
  | P120 => mkV b c a | P201 => mkV c a b | P210 => mkV c b a
  end.

Record Gen (T : Type) := {
  g_eng : Type;
  g_dist : Type;
  g_dist0 : g_dist;                                 (* fresh N(0,1) distribution *)
  g_seed : Z -> g_eng;                              (* engine.seed(n) *)
  g_draw : g_eng -> g_dist -> T * (g_eng * g_dist); (* dist(engine) *)
  g_perm : nat -> perm3                             (* argument order per call site *)
}.
Arguments g_eng {T}. Arguments g_dist {T}. Arguments g_dist0 {T}.
Arguments g_seed {T}. Arguments g_draw {T}. Arguments g_perm {T}.

(** [Vector3(k * draw, k * draw, k * draw)] at call site [site]. *)
Definition draw3 {T} {O : Ops T} (G : Gen T) (site : nat) (k : T)
  (e : g_eng G) (d : g_dist G) : V3 T * (g_eng G * g_dist G) :=
  let '(a, (e1, d1)) := g_draw G e d in
  let '(b, (e2, d2)) := g_draw G e1 d1 in
  let '(c, (e3, d3)) := g_draw G e2 d2 in
  (papply (g_perm G site) (mul k a) (mul k b) (mul k c), (e3, d3)).
