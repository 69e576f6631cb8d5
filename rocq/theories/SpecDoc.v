(** The equations of motion as the documentation states them
    (docs/Dynamics.md, docs/Kinematics.md), written down from that text. *)

From Coq Require Import ZArith List Bool Reals.
From Verif Require Import Scalar LinAlg MUtils MModel MDynamics SpecDyn.
Import ListNotations.
Local Open Scope R_scope.

(** [Z(x)]: a vector along the third axis. *)
Definition along_z (x : R) : V3 R := mkV 0 0 x.

(** docs/Dynamics.md, 2.1: sum of [R_BM Z(kf w^2)]. *)
Definition doc_rotor_force (ms : list (Motor R)) (ws : list R) (a : Ax) : R :=
  rotor_sum (fun m w => mat_vec (mt_rot m) (along_z (mt_kf m * w ^ 2)) a) ms ws.
(** docs/Dynamics.md, 2.2: lever arm times thrust, propeller torque, inertia
    torque.  The text leaves open which way a rotor turns; its sense of rotation is a factor here. *)
Definition doc_rotor_torque (ms : list (Motor R)) (ws acc : list R) (a : Ax) : R :=
  rotor_sum (fun m w => cross3 (mt_pos m) (vec_of (mat_vec (mt_rot m) (along_z (mt_kf m * w ^ 2)))) a
                        + mat_vec (mt_rot m) (along_z (IZR (mt_dir m) * (mt_kt m * w ^ 2))) a) ms ws
  + rotor_sum (fun m al => mat_vec (mt_rot m) (along_z (IZR (mt_dir m) * (mt_J m * al))) a) ms acc.
(** docs/Dynamics.md, 2.3: the components for rotors aligned with the body. *)
Definition doc_component (ms : list (Motor R)) (ws acc : list R) (a : Ax) : R :=
  match a with
  | AX => rotor_sum (fun m w => vy (mt_pos m) * mt_kf m * w ^ 2) ms ws
  | AY => rotor_sum (fun m w => vx (mt_pos m) * mt_kf m * w ^ 2) ms ws
  | AZ => rotor_sum (fun m w => IZR (mt_dir m) * mt_kt m * w ^ 2) ms ws + rotor_sum (fun m al => IZR (mt_dir m) * mt_J m * al) ms acc
  end.
(** docs/Dynamics.md, 3.1.1: [m g]. *)
Definition doc_gravity (p : Params R) (a : Ax) : R := p_mass p * pr a (p_grav p).
(** docs/Dynamics.md, 3.1.2: [- k v^2] in body axes, opposing the motion, then turned to the world. *)
Definition doc_drag (k : R) (q : Quat R) (v : V3 R) (a : Ax) : R :=
  to_world q (vec_of (fun b => - k * sq_signed (to_body q v b))) a.
(** docs/Dynamics.md, 3.2.1: [- w x (I_aero w)]. *)
Definition doc_aero (C : M3 R) (w : V3 R) (a : Ax) : R := - cross3 w (vec_of (mat_vec C w)) a.

(** All forces and torques on a vehicle without disturbances. *)
Definition doc_force (p : Params R) (s : State R) (a : Ax) : R :=
  to_world (s_ori s) (vec_of (doc_rotor_force (p_motors p) (s_mvel s))) a + doc_gravity p a + doc_drag (p_drag p) (s_ori s) (s_vel s) a.
Definition doc_torque (p : Params R) (s : State R) (macc : list R) (a : Ax) : R :=
  doc_rotor_torque (p_motors p) (s_mvel s) macc a + doc_aero (p_aero p) (s_angvel s) a.

(** Hamilton product with a vector on the right, and on the left. *)
Definition q_times_v (q : Quat R) (w : V3 R) : Quat R :=
  mkQ (- (qx q * vx w) - qy q * vy w - qz q * vz w) (qw q * vx w + qy q * vz w - qz q * vy w)
      (qw q * vy w + qz q * vx w - qx q * vz w) (qw q * vz w + qx q * vy w - qy q * vx w).
Definition v_times_q (w : V3 R) (q : Quat R) : Quat R :=
  mkQ (- (vx w * qx q) - vy w * qy q - vz w * qz q) (vx w * qw q + vy w * qz q - vz w * qy q)
      (vy w * qw q + vz w * qx q - vx w * qz q) (vz w * qw q + vx w * qy q - vy w * qx q).
(** [q'] is [q + dt dq], brought back to length one. *)
Definition turned_by (q dq : Quat R) (dt : R) (q' : Quat R) : Prop :=
  unitq q' /\ exists k, 0 < k /\ k * qw q' = qw q + dt * qw dq /\ k * qx q' = qx q + dt * qx dq /\
    k * qy q' = qy q + dt * qy dq /\ k * qz q' = qz q + dt * qz dq.
Definition half_q (q : Quat R) : Quat R := mkQ (qw q / 2) (qx q / 2) (qy q / 2) (qz q / 2).

(** docs/Kinematics.md: the step of a state by its documented derivative.  [cmd] are the commanded speeds. *)
Record documented_step (p : Params R) (cmd : list R) (s : State R) (dt : R) (s' : State R) : Prop := {
  ds_rotor_acc : forall i al, nth_error (s_macc s') i = Some al -> exists m c w,
    nth_error (p_motors p) i = Some m /\ nth_error cmd i = Some c /\ nth_error (s_mvel s) i = Some w /\
    al = 1 / mt_tau m * (limited c (mt_min m) (mt_max m) - w);
  ds_turn : forall a, mat_vec (p_inertia p) (s_angacc s') a =
    doc_torque p s (s_macc s') a - cross3 (s_angvel s) (vec_of (mat_vec (p_inertia p) (s_angvel s))) a;
  ds_rates : forall a, pr a (s_angvel s') = pr a (s_angvel s) + dt * pr a (s_angacc s');
  ds_newton : forall a, pr a (s_linacc s') = 1 / p_mass p * doc_force p s a;
  ds_vel : forall a, pr a (s_vel s') = pr a (s_vel s) + dt * pr a (s_linacc s');
  ds_pos : forall a, pr a (s_pos s') = pr a (s_pos s) + dt * pr a (s_vel s);
  ds_att : turned_by (s_ori s) (half_q (q_times_v (s_ori s) (s_angvel s))) dt (s_ori s')
}.

(** Rotors that turn forwards; body axes along world axes. *)
Definition forward_rotors (s : State R) : Prop := Forall (fun w => 0 <= w) (s_mvel s).
Definition along_axes (q : Quat R) : Prop := forall a b, rot_entry q a b = 0 \/ rot_entry q a b = 1 \/ rot_entry q a b = -1.
