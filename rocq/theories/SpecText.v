(** Specification of the text output: what a reader of comma separated values
    sees. *)

From Coq Require Import ZArith List Bool String Ascii.
From Verif Require Import Scalar LinAlg MUtils MModel MDynamics MPid MControl MCtlRun MImu MSim.
Import ListNotations.
Local Open Scope string_scope.

(** The pieces of a text between occurrences of a character: a text with [k]
    separators has [k + 1] pieces, possibly empty. *)
Fixpoint pieces (c : ascii) (s : string) : list string :=
  match s with
  | EmptyString => [""]
  | String a r =>
    if Ascii.eqb a c then "" :: pieces c r
    else match pieces c r with
         | x :: l => String a x :: l
         | [] => [String a ""]
         end
  end.
Definition comma : ascii := ",".
Definition line_end : ascii := ascii_of_nat 10.
(** Comma separated fields, and lines. *)
Definition fields (s : string) : list string := pieces comma s.
Definition lines (s : string) : list string := pieces line_end s.

(** The character does not occur. *)
Fixpoint free_of (c : ascii) (s : string) : Prop :=
  match s with EmptyString => True | String a r => a <> c /\ free_of c r end.

(** A printer of numbers fit for a CSV file: it writes neither commas nor line ends. *)
Definition plain_printer {T} (fmt : T -> string) : Prop :=
  forall x, free_of comma (fmt x) /\ free_of line_end (fmt x).

Section Columns.
Context {T : Type} {O : Ops T}.

(** Roll, pitch and yaw as the library computes them (what they mean is a property of its own). *)
Definition angles (q : Quat T) : list T :=
  let e := quat_to_euler q in [vx e; vy e; vz e].
Definition xyz (v : V3 T) : list T := [vx v; vy v; vz v].

(** The values of a state, in the order of the documented header. *)
Definition state_values (st : State T) : list T :=
  xyz (s_pos st) ++ angles (s_ori st) ++ xyz (s_vel st) ++ xyz (s_angvel st) ++ xyz (s_linacc st) ++
  xyz (s_angacc st) ++ xyz (s_force st) ++ xyz (s_torque st) ++ s_mvel st ++ s_macc st.
(** The values of the odometry: "x,y,z,roll,pitch,yaw,vx,vy,vz,wx,wy,wz,ax,ay,az". *)
Definition odom_values (o : Odom T) : list T :=
  xyz (od_pos o) ++ angles (od_ori o) ++ xyz (od_vel o) ++ xyz (od_angvel o) ++ xyz (od_linacc o).

(** A log table: column name and the quantity it is named after. *)
Definition named3 (nx ny nz : string) (v : V3 T) : list (string * T) :=
  [(nx, vx v); (ny, vy v); (nz, vz v)].
(** Ground truth, references and odometry; [mass] and [grav] are those of the
    vehicle ("force reference compensated with the gravity, in earth frame"). *)
Definition state_columns {G H : Gen T} (s : Sim T G H) : list (string * T) :=
  let st := sim_state s in
  named3 "x" "y" "z" (s_pos st) ++ named3 "roll" "pitch" "yaw" (quat_to_euler (s_ori st)) ++
  named3 "vx" "vy" "vz" (s_vel st) ++ named3 "wx" "wy" "wz" (s_angvel st) ++
  named3 "ax" "ay" "az" (s_linacc st) ++ named3 "dwx" "dwy" "dwz" (s_angacc st) ++
  named3 "fx" "fy" "fz" (s_force st) ++ named3 "tx" "ty" "tz" (s_torque st) ++
  combine ["mw1"; "mw2"; "mw3"; "mw4"] (s_mvel st) ++ combine ["mdw1"; "mdw2"; "mdw3"; "mdw4"] (s_macc st).
Definition ref_columns {G H : Gen T} (s : Sim T G H) (mass : T) (grav : V3 T) : list (string * T) :=
  let st := sim_state s in let r := sm_refs s in let i := ct_indi (sm_ctl s) in
  named3 "x_ref" "y_ref" "z_ref" (rf_pos r) ++ [("yaw_ref", rf_yaw r)] ++
  named3 "vx_ref" "vy_ref" "vz_ref" (rf_vel r) ++
  named3 "wx_ref" "wy_ref" "wz_ref" (get_desired_angular_velocity (sm_ctl s)) ++
  named3 "ax_ref" "ay_ref" "az_ref" (rf_acc r) ++
  named3 "dwx_ref" "dwy_ref" "dwz_ref" (ps_out (pid_s (in_pid i))) ++
  named3 "fx_ref" "fy_ref" "fz_ref" (vadd (qrot (s_ori st) (in_thrust i)) (vscaler grav mass)) ++
  named3 "tx_ref" "ty_ref" "tz_ref" (in_torque i) ++
  combine ["mw1_ref"; "mw2_ref"; "mw3_ref"; "mw4_ref"] (sm_act s).
Definition odom_columns {G H : Gen T} (s : Sim T G H) : list (string * T) :=
  let o := sm_odom s in
  named3 "x_io" "y_io" "z_io" (od_pos o) ++ named3 "roll_io" "pitch_io" "yaw_io" (quat_to_euler (od_ori o)) ++
  named3 "vx_io" "vy_io" "vz_io" (od_vel o) ++ named3 "wx_io" "wy_io" "wz_io" (od_angvel o) ++
  named3 "ax_io" "ay_io" "az_io" (od_linacc o).
Definition log_columns {G H : Gen T} (time : T) (s : Sim T G H) (mass : T) (grav : V3 T) : list (string * T) :=
  ("time", time) :: state_columns s ++ ref_columns s mass grav ++ odom_columns s.

(** A simulator with four rotors. *)
Definition four_rotors {G H : Gen T} (s : Sim T G H) : Prop :=
  List.length (s_mvel (sim_state s)) = 4 /\ List.length (s_macc (sim_state s)) = 4 /\ List.length (sm_act s) = 4.
(** Not a NaN. *)
Definition number (x : T) : Prop := eqb x x = true.
(** Neither the time stamp nor a reference is NaN. *)
Definition no_nan {G H : Gen T} (time : T) (s : Sim T G H) (mass : T) (grav : V3 T) : Prop :=
  number time /\ Forall (fun c => number (snd c)) (ref_columns s mass grav).
(** The values of a list up to the first NaN. *)
Fixpoint numbers_of (l : list T) : list T :=
  match l with [] => [] | x :: r => if eqb x x then x :: numbers_of r else [] end.

End Columns.

(** A log file: each line under the header holds, field by field, the printed
    values of the columns the header names. *)
Section LogFile.
Context {T : Type} {O : Ops T} {G H : Gen T}.
(** The mass and gravity of the vehicle. *)
Definition vehicle_of (s : Sim T G H) (mass : T) (grav : V3 T) : Prop :=
  exists p, get_params (d_model (sm_dyn s)) = Some p /\ p_mass p = mass /\ p_grav p = grav.
Definition row_of (fmt : T -> string) (row : string) (e : T * Sim T G H) : Prop :=
  exists mass grav, vehicle_of (snd e) mass grav /\
    fields row = map fmt (map snd (log_columns (fst e) (snd e) mass grav)).
(** What may be logged: four rotors, accepted parameters, no NaN among time and references. *)
Definition loggable (e : T * Sim T G H) : Prop :=
  four_rotors (snd e) /\ exists mass grav, vehicle_of (snd e) mass grav /\ no_nan (fst e) (snd e) mass grav.
End LogFile.

(** Labelled output: "label: value", entries separated by ", ". *)
Definition entry {T} (fmt : T -> string) (e : string * T) : string := fst e ++ ": " ++ fmt (snd e).
Definition labelled {T} (fmt : T -> string) (l : list (string * T)) : list string :=
  match l with [] => [] | e :: r => entry fmt e :: map (fun e => String " " (entry fmt e)) r end.
Definition pose_labels {T} {O : Ops T} (pos : V3 T) (q : Quat T) (vel w acc : V3 T) : list (string * T) :=
  named3 "position_x" "position_y" "position_z" pos ++
  named3 "orientation_roll" "orientation_pitch" "orientation_yaw" (quat_to_euler q) ++
  named3 "linear_velocity_x" "linear_velocity_y" "linear_velocity_z" vel ++
  named3 "angular_velocity_x" "angular_velocity_y" "angular_velocity_z" w ++
  named3 "linear_acceleration_x" "linear_acceleration_y" "linear_acceleration_z" acc.
