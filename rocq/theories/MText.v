(** Model of the text output: the stream operators of common/state.hpp and
    imu_simulator/inertial_odometry.hpp, and the CsvLogger of
    examples/fly_example.cpp.

    A stream is the string written so far.  How a number is printed depends on
    the format flags of the stream and on the C library; it is the parameter
    [fmt]. *)

From Coq Require Import ZArith List Bool String Ascii DecimalString.
From Verif Require Import Scalar LinAlg MUtils MModel MDynamics MPid MControl MCtlRun MImu MSim.
Import ListNotations.
Local Open Scope string_scope.

(** [os << a << b << ...]. *)
Definition put (os : string) (l : list string) : string := fold_left append l os.
(** [os << i] for an int. *)
Definition show_nat (i : nat) : string := NilZero.string_of_uint (Nat.to_uint i).
(** std::endl. *)
Definition newline : string := String (ascii_of_nat 10) "".

Section Text.
Context {T : Type} {O : Ops T}.
Variable fmt : T -> string.

(** state.hpp:131-144 operator<< of Kinematics. *)
Definition out_kinematics (os : string) (st : State T) : string :=
  let e := quat_to_euler (s_ori st) in
  put os [fmt (vx (s_pos st)); ","; fmt (vy (s_pos st)); ","; fmt (vz (s_pos st));
          ","; fmt (vx e); ","; fmt (vy e); ","; fmt (vz e); ",";
          fmt (vx (s_vel st)); ","; fmt (vy (s_vel st)); ",";
          fmt (vz (s_vel st)); ","; fmt (vx (s_angvel st)); ",";
          fmt (vy (s_angvel st)); ","; fmt (vz (s_angvel st)); ",";
          fmt (vx (s_linacc st)); ","; fmt (vy (s_linacc st)); ",";
          fmt (vz (s_linacc st)); ","; fmt (vx (s_angacc st)); ",";
          fmt (vy (s_angacc st)); ","; fmt (vz (s_angacc st))].

(** state.hpp:146-169 print_kinematics. *)
Definition print_kinematics (os : string) (st : State T) : string :=
  let e := quat_to_euler (s_ori st) in
  put os ["position_x: "; fmt (vx (s_pos st)); ", ";
          "position_y: "; fmt (vy (s_pos st)); ", ";
          "position_z: "; fmt (vz (s_pos st)); ", ";
          "orientation_roll: "; fmt (vx e); ", ";
          "orientation_pitch: "; fmt (vy e); ", ";
          "orientation_yaw: "; fmt (vz e); ", ";
          "linear_velocity_x: "; fmt (vx (s_vel st)); ", ";
          "linear_velocity_y: "; fmt (vy (s_vel st)); ", ";
          "linear_velocity_z: "; fmt (vz (s_vel st)); ", ";
          "angular_velocity_x: "; fmt (vx (s_angvel st)); ", ";
          "angular_velocity_y: "; fmt (vy (s_angvel st)); ", ";
          "angular_velocity_z: "; fmt (vz (s_angvel st)); ", ";
          "linear_acceleration_x: "; fmt (vx (s_linacc st)); ", ";
          "linear_acceleration_y: "; fmt (vy (s_linacc st)); ", ";
          "linear_acceleration_z: "; fmt (vz (s_linacc st)); ", ";
          "angular_acceleration_x: "; fmt (vx (s_angacc st)); ", ";
          "angular_acceleration_y: "; fmt (vy (s_angacc st)); ", ";
          "angular_acceleration_z: "; fmt (vz (s_angacc st))].

(** state.hpp:171-176 operator<< of Dynamics. *)
Definition out_dynamics (os : string) (st : State T) : string :=
  put os [fmt (vx (s_force st)); ","; fmt (vy (s_force st)); ","; fmt (vz (s_force st)); ",";
          fmt (vx (s_torque st)); ","; fmt (vy (s_torque st)); ","; fmt (vz (s_torque st))].

(** state.hpp:178-187 print_dynamics. *)
Definition print_dynamics (os : string) (st : State T) : string :=
  put os ["force_x: "; fmt (vx (s_force st)); ", ";
          "force_y: "; fmt (vy (s_force st)); ", ";
          "force_z: "; fmt (vz (s_force st)); ", ";
          "torque_x: "; fmt (vx (s_torque st)); ", ";
          "torque_y: "; fmt (vy (s_torque st)); ", ";
          "torque_z: "; fmt (vz (s_torque st))].

(** A loop [for (i...) { os << item(i); if (i < num - 1) os << sep; }] over the
    entries of a vector: the separator follows every entry but the last.  The
    loops of state.hpp:194-199 and 205-216. *)
Fixpoint out_sep (item : nat -> T -> list string) (sep : string) (i : nat) (l : list T) (os : string) : string :=
  match l with
  | [] => os
  | [x] => put os (item i x)
  | x :: r => out_sep item sep (S i) r (put (put os (item i x)) [sep])
  end.

(** state.hpp:189-201 operator<< of Actuators. *)
Definition out_actuators (os : string) (st : State T) : string :=
  let os1 := fold_left (fun o w => put o [fmt w; ","]) (s_mvel st) os in
  out_sep (fun _ x => [fmt x]) "," 0 (s_macc st) os1.

(** state.hpp:203-218 print_actuators. *)
Definition print_actuators (os : string) (st : State T) : string :=
  let os1 := out_sep (fun i x => ["motor_"; show_nat i; "_angular_velocity: "; fmt x]) ", " 0 (s_mvel st) os in
  out_sep (fun i x => ["motor_"; show_nat i; "_angular_acceleration: "; fmt x]) ", " 0 (s_macc st) os1.

(** state.hpp:242-246 operator<< of State. *)
Definition out_state (os : string) (st : State T) : string :=
  out_actuators (put (out_dynamics (put (out_kinematics os st) [","]) st) [","]) st.

(** state.hpp:248-253 print_state. *)
Definition print_state (os : string) (st : State T) : string :=
  print_actuators (print_dynamics (print_kinematics os st) st) st.

(** inertial_odometry.hpp:334-349 operator<<.  (Its private quaternion_to_Euler,
    312-331, repeats state.hpp:109-129.) *)
Definition out_odom (os : string) (o : Odom T) : string :=
  let e := quat_to_euler (od_ori o) in
  put os [fmt (vx (od_pos o)); ","; fmt (vy (od_pos o)); ",";
          fmt (vz (od_pos o)); ","; fmt (vx e); ","; fmt (vy e);
          ","; fmt (vz e); ","; fmt (vx (od_vel o)); ",";
          fmt (vy (od_vel o)); ","; fmt (vz (od_vel o));
          ","; fmt (vx (od_angvel o)); ",";
          fmt (vy (od_angvel o)); ","; fmt (vz (od_angvel o));
          ","; fmt (vx (od_linacc o)); ",";
          fmt (vy (od_linacc o)); ",";
          fmt (vz (od_linacc o))].

(** inertial_odometry.hpp:351-372 print_state. *)
Definition print_odom (os : string) (o : Odom T) : string :=
  let e := quat_to_euler (od_ori o) in
  put os ["position_x: "; fmt (vx (od_pos o)); ", ";
          "position_y: "; fmt (vy (od_pos o)); ", ";
          "position_z: "; fmt (vz (od_pos o)); ", ";
          "orientation_roll: "; fmt (vx e); ", ";
          "orientation_pitch: "; fmt (vy e); ", ";
          "orientation_yaw: "; fmt (vz e); ", ";
          "linear_velocity_x: "; fmt (vx (od_vel o)); ", ";
          "linear_velocity_y: "; fmt (vy (od_vel o)); ", ";
          "linear_velocity_z: "; fmt (vz (od_vel o)); ", ";
          "angular_velocity_x: "; fmt (vx (od_angvel o)); ", ";
          "angular_velocity_y: "; fmt (vy (od_angvel o)); ", ";
          "angular_velocity_z: "; fmt (vz (od_angvel o)); ", ";
          "linear_acceleration_x: "; fmt (vx (od_linacc o)); ", ";
          "linear_acceleration_y: "; fmt (vy (od_linacc o)); ", ";
          "linear_acceleration_z: "; fmt (vz (od_linacc o))].

(** ** CsvLogger; the argument [os] is the file written so far *)

(** std::isnan: the only numbers that differ from themselves. *)
Definition isnan (x : T) : bool := negb (eqb x x).

(** fly_example.cpp:74-85 constructor: the header line. *)
Definition log_header : string :=
  put "" ["time,x,y,z,roll,pitch,yaw,vx,vy,vz,wx,wy,wz,ax,ay,az,dwx,dwy,dwz,";
          "fx,fy,fz,tx,ty,tz,mw1,mw2,mw3,mw4,mdw1,mdw2,mdw3,mdw4,x_ref,y_ref,";
          "z_ref,yaw_ref,vx_ref,vy_ref,vz_ref,wx_ref,wy_ref,";
          "wz_ref,ax_ref,ay_ref,az_ref,dwx_ref,dwy_ref,dwz_ref,fx_ref,fy_ref,fz_ref,";
          "tx_ref,ty_ref,tz_ref,mw1_ref,mw2_ref,mw3_ref,mw4_ref,";
          "x_io,y_io,z_io,roll_io,pitch_io,yaw_io,vx_io,vy_io,vz_io,wx_io,wy_io,";
          "wz_io,ax_io,ay_io,az_io"; newline].

(** fly_example.cpp:89-97 add_double.  The std::invalid_argument of line 93 is
    constructed but not thrown. *)
Definition add_double (os : string) (x : T) : string :=
  if isnan x then os else put os [fmt x; ","].

(** fly_example.cpp:99-102 add_string. *)
Definition add_string (os : string) (data : string) (final_comma : bool) : string :=
  let os1 := put os [data] in if final_comma then put os1 [","] else os1.

(** fly_example.cpp:104-119 and 121-136 add_vector_row with the default
    [add_final_comma = true] (no caller passes another value): every entry is
    followed by a comma, the loop returns at the first NaN. *)
Fixpoint add_vector_row (os : string) (l : list T) : string :=
  match l with
  | [] => os
  | x :: r => if isnan x then os else add_vector_row (put os [fmt x; ","]) r
  end.
Definition coords (v : V3 T) : list T := [vx v; vy v; vz v].

(** fly_example.cpp:138-181 save.  [None]: the mass or gravity read on line 169
    belong to a model that never accepted parameters. *)
Definition save {G H : Gen T} (os : string) (time : T) (s : Sim T G H) : option string :=
  option_map (fun c =>
    let os := add_double os time in
    let os := add_string os (out_state "" (sim_state s)) true in
    let os := add_vector_row os (coords (rf_pos (sm_refs s))) in
    let os := add_double os (rf_yaw (sm_refs s)) in
    let os := add_vector_row os (coords (rf_vel (sm_refs s))) in
    let os := add_vector_row os (coords (get_desired_angular_velocity (sm_ctl s))) in
    let os := add_vector_row os (coords (rf_acc (sm_refs s))) in
    let os := add_vector_row os (coords (ps_out (pid_s (in_pid (ct_indi (sm_ctl s)))))) in
    let force_ref := vadd (qrot (s_ori (sim_state s)) (in_thrust (ct_indi (sm_ctl s))))
                          (vscaler (p_grav (cf_params c)) (p_mass (cf_params c))) in
    let os := add_vector_row os (coords force_ref) in
    let os := add_vector_row os (coords (in_torque (ct_indi (sm_ctl s)))) in
    let os := add_vector_row os (sm_act s) in
    let os := add_string os (out_odom "" (sm_odom s)) false in
    put os [newline])
  (mo_cfg (d_model (sm_dyn s))).

End Text.

(** A logger constructed and then given the rows [rows] one after the other. *)
Fixpoint save_all {T} {O : Ops T} {G H : Gen T} (fmt : T -> string) (os : string) (rows : list (T * Sim T G H)) : option string :=
  match rows with
  | [] => Some os
  | (t, s) :: r => bindo (save fmt os t s) (fun os' => save_all fmt os' r)
  end.
Definition log_file {T} {O : Ops T} {G H : Gen T} (fmt : T -> string) (rows : list (T * Sim T G H)) : option string :=
  save_all fmt log_header rows.
