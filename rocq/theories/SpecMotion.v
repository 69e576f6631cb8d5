(** Specification vocabulary for whole motions: turned scenarios, constant
    forces, spinning, slowing down by drag.  Textbook formulas only. *)

From Coq Require Import ZArith List Bool Reals.
From Verif Require Import Scalar LinAlg MUtils MModel MDynamics SpecDyn SpecRun.
Import ListNotations.
Local Open Scope R_scope.

(** ** The same scene turned by a fixed rotation [r] *)
Definition turn (r : Quat R) (v : V3 R) : V3 R := vec_of (to_world r v).
(** Attitude [q] turned by [r]: Hamilton product r q. *)
Definition turnq (r q : Quat R) : Quat R :=
  mkQ (qw r * qw q - qx r * qx q - qy r * qy q - qz r * qz q)
      (qw r * qx q + qx r * qw q + qy r * qz q - qz r * qy q)
      (qw r * qy q - qx r * qz q + qy r * qw q + qz r * qx q)
      (qw r * qz q + qx r * qy q - qy r * qx q + qz r * qw q).
(** World quantities turn with the scene; body rates and rotors do not. *)
Definition turned (r : Quat R) (s : State R) : State R :=
  mkState (turn r (s_pos s)) (turnq r (s_ori s)) (turn r (s_vel s)) (s_angvel s)
    (turn r (s_linacc s)) (s_angacc s) (turn r (s_force s)) (s_torque s) (s_mvel s) (s_macc s).
Definition turned_call (r : Quat R) (c : Call R) : Call R :=
  mkCall (k_act c) (k_dt c) (turn r (k_ext c)) (k_noise c).
(** A quarter turn about the vertical axis. *)
Definition quarter : Quat R := mkQ (/ sqrt 2) 0 0 (/ sqrt 2).

(** ** Rotors switched off: standing still, told to stand still, allowed to *)
Definition rotors_off (n : nat) (p : Params R) (s : State R) (act : list R) : Prop :=
  act = repeat 0 n /\ s_mvel s = repeat 0 n /\ speeds_between (p_motors p) act.

(** Nothing twists the vehicle and it spins about a principal axis. *)
Definition spins_freely (p : Params R) (w : V3 R) : Prop :=
  det3 (p_inertia p) <> 0 /\ (forall a b, ent (p_aero p) a b = 0) /\
  forall a, cross3 w (vec_of (mat_vec (p_inertia p) w)) a = 0.

(** Rotation by [angle] about the axis of [w]. *)
Definition about_axis (w : V3 R) (angle : R) : Quat R :=
  mkQ (cos (angle / 2)) (vx w / len3 w * sin (angle / 2)) (vy w / len3 w * sin (angle / 2))
      (vz w / len3 w * sin (angle / 2)).

(** A noise-free flight with constant command, step and external force. *)
Definition steady_flight {G : Gen R} (D : nat -> Dyn R G) (act : list R) (dt : R) (ext : V3 R) : Prop :=
  forall k, process (D k) act dt ext false = Ok (D (S k)).
