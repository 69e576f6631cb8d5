(** Specification vocabulary: the continuous motion of a vehicle, as differential
    equations.  Textbook mechanics only. *)

From Coq Require Import ZArith List Bool Reals.
From Verif Require Import Scalar LinAlg MUtils MModel MDynamics SpecDyn SpecRun SpecMotion.
Import ListNotations.
Local Open Scope R_scope.

(** Rotor accelerations: a first-order lag towards the limited commands [cmd]. *)
Fixpoint rotor_pull (ms : list (Motor R)) (cmd ws : list R) : list R :=
  match ms, cmd, ws with
  | m :: ms', c :: cmd', w :: ws' => (limited c (mt_min m) (mt_max m) - w) / mt_tau m :: rotor_pull ms' cmd' ws'
  | _, _, _ => []
  end.
(** Force along the world axes: rotors, weight, drag and an external force. *)
Definition true_force (p : Params R) (ext : V3 R) (s : State R) (a : Ax) : R :=
  to_world (s_ori s) (vec_of (rotor_force (p_motors p) (s_mvel s))) a + pr a (p_grav p) + drag_spec (p_drag p) (s_vel s) a + pr a ext.
(** Torque along the body axes, with the gyroscopic part. *)
Definition true_torque (p : Params R) (cmd : list R) (s : State R) (a : Ax) : R :=
  rotor_torque (p_motors p) (s_mvel s) (rotor_pull (p_motors p) cmd (s_mvel s)) a + aero_spec (p_aero p) (s_angvel s) a
  - cross3 (s_angvel s) (vec_of (mat_vec (p_inertia p) (s_angvel s))) a.

(** The numbers that make up position, velocity, attitude, body rates and rotor speeds. *)
Inductive Coord := CPos (a : Ax) | CVel (a : Ax) | CRate (a : Ax) | CW | CX | CY | CZ | CRotor (i : nat).
Definition coord (c : Coord) (s : State R) : R :=
  match c with
  | CPos a => pr a (s_pos s) | CVel a => pr a (s_vel s) | CRate a => pr a (s_angvel s)
  | CW => qw (s_ori s) | CX => qx (s_ori s) | CY => qy (s_ori s) | CZ => qz (s_ori s)
  | CRotor i => nth i (s_mvel s) 0
  end.

(** The attitude follows the body rates. *)
Definition turning (s : State R) (c : Coord) : R :=
  let q := s_ori s in let w := s_angvel s in
  match c with
  | CW => (- qx q * vx w - qy q * vy w - qz q * vz w) / 2
  | CX => (qw q * vx w + qy q * vz w - qz q * vy w) / 2
  | CY => (qw q * vy w + qz q * vx w - qx q * vz w) / 2
  | CZ => (qw q * vz w + qx q * vy w - qy q * vx w) / 2
  | _ => 0
  end.

(** [X] is a motion from time 0 to [T] under constant rotor commands and a
    constant external force. *)
Definition moves (X : R -> State R) (c : Coord) (t l : R) : Prop := derivable_pt_lim (fun u => coord c (X u)) t l.
Record true_motion (p : Params R) (cmd : list R) (ext : V3 R) (T : R) (X : R -> State R) : Prop := {
  tm_rotors : forall t, length (s_mvel (X t)) = length cmd;
  tm_pos : forall t a, 0 <= t <= T -> moves X (CPos a) t (pr a (s_vel (X t)));
  tm_vel : forall t a, 0 <= t <= T -> moves X (CVel a) t (true_force p ext (X t) a / p_mass p);
  tm_ori : forall t c, 0 <= t <= T -> In c [CW; CX; CY; CZ] -> moves X c t (turning (X t) c);
  tm_rate : forall t, 0 <= t <= T -> exists al : V3 R,
    (forall a, moves X (CRate a) t (pr a al)) /\ forall a, mat_vec (p_inertia p) al a = true_torque p cmd (X t) a;
  tm_spin : forall t i, 0 <= t <= T -> moves X (CRotor i) t (nth i (rotor_pull (p_motors p) cmd (s_mvel (X t))) 0) }.

(** Two states agree up to [d] in every number. *)
Definition agree (d : R) (s s' : State R) : Prop := forall c, Rabs (coord c s - coord c s') <= d.
