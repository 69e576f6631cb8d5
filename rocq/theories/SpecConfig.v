(** Specification vocabulary for the configuration of the example programs. *)

From Coq Require Import ZArith List Bool Reals.
From Verif Require Import Scalar LinAlg MUtils MModel MDynamics MPid MControl MCtlRun MImu MSim MConfig.
Import ListNotations.

Section SpecConfig.
Context {T : Type} {O : Ops T} {G H : Gen T}.

(** Calls of a flight: everything but replacing the vehicle or the controller. *)
Definition flight_call (op : SimOp T G H) : Prop :=
  match op with SSetDyn _ _ _ | SSetCtl _ | SMutDyn _ | SMutCtl _ => False | _ => True end.

(** The controller believes in the vehicle [p]: its mass, its inertia and the
    gravity that acts on it. *)
Definition knows_vehicle (p : Params T) (c : Ctl T) : Prop :=
  ac_mass (ct_acro c) = p_mass p /\ ac_grav (ct_acro c) = p_grav p /\ in_inertia (ct_indi c) = p_inertia p.

(** Everything set through parameters (no internal state) is the same. *)
Definition same_setup (a b : Ctl T) : Prop :=
  ac_mass (ct_acro a) = ac_mass (ct_acro b) /\ ac_grav (ct_acro a) = ac_grav (ct_acro b) /\
  ac_kp (ct_acro a) = ac_kp (ct_acro b) /\ in_inertia (ct_indi a) = in_inertia (ct_indi b) /\
  in_minv (ct_indi a) = in_minv (ct_indi b) /\ forall w, pid_c (get_pid w a) = pid_c (get_pid w b).

End SpecConfig.

Local Open Scope R_scope.
(** The rotors of the configuration produce thrust and torque about every axis. *)
Definition effective_rotors (c : Source R) : Prop :=
  match c with
  | FromFile d => yd_kf d <> 0 /\ yd_kt d <> 0 /\ yd_x d <> 0 /\ yd_y d <> 0
  | FromCode => True
  end.
(** What the parameter check of the vehicle asks of a document. *)
Definition sensible_doc (d : Doc R) : Prop :=
  0 <= yd_mass d /\ 0 <= vx (yd_inertia d) /\ 0 <= vy (yd_inertia d) /\ 0 <= vz (yd_inertia d) /\ 0 <= yd_drag d /\
  0 <= vx (yd_aero d) /\ 0 <= vy (yd_aero d) /\ 0 <= vz (yd_aero d) /\
  0 <= yd_kf d /\ 0 <= yd_kt d /\ yd_min d <= yd_max d /\ 0 <= yd_tau d /\ 0 <= yd_J d.
Definition sensible (c : Source R) : Prop := match c with FromFile d => sensible_doc d | FromCode => True end.
