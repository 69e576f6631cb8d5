(** Specification vocabulary: what a configuration file says.  Places in the
    file are paths of keys and positions; nothing here follows the order in which the
    programs read. *)

From Coq Require Import ZArith List Bool String.
From Verif Require Import Scalar LinAlg MUtils MSim MExample MConfig MYaml.
Import ListNotations.
Local Open Scope string_scope.

(** A step down the tree: by key, or by position. *)
Inductive Step := K (k : string) | I (i : nat).
(** The first entry with a key counts. *)
Inductive first_entry (k : string) (v : Yaml) : list (string * Yaml) -> Prop :=
| fe_here r : first_entry k v ((k, v) :: r)
| fe_later k' v' r : k' <> k -> first_entry k v r -> first_entry k v ((k', v') :: r).
(** [place y p v]: under the path [p] of [y] there is [v].  A list may be
    written as a map with the keys 0, 1, 2, 3. *)
Inductive place : Yaml -> list Step -> Yaml -> Prop :=
| pl_end y : place y [] y
| pl_key l k v p w : first_entry k v l -> place v p w -> place (YMap l) (K k :: p) w
| pl_pos l i v p w : nth_error l i = Some v -> place v p w -> place (YSeq l) (I i :: p) w
| pl_num l i v p w : first_entry (digit i) v l -> place v p w -> place (YMap l) (I i :: p) w.

Section Says.
Context {T : Type} {O : Ops T}.
Variable num : string -> option T.

Definition number (y : Yaml) (p : list Step) (x : T) : Prop := exists s, place y p (YText s) /\ num s = Some x.
Definition vector (y : Yaml) (p : list Step) (v : V3 T) : Prop :=
  number y (p ++ [I 0]) (vx v) /\ number y (p ++ [I 1]) (vy v) /\ number y (p ++ [I 2]) (vz v).
Definition quaternion (y : Yaml) (p : list Step) (q : Quat T) : Prop :=
  number y (p ++ [I 0]) (qw q) /\ number y (p ++ [I 1]) (qx q) /\ number y (p ++ [I 2]) (qy q) /\ number y (p ++ [I 3]) (qz q).
(** A section of gains; the trajectory section has no filter constant. *)
Definition gains (y : Yaml) (p : list Step) (limit : string) (s : PidSection T) : Prop :=
  vector y (p ++ [K "Kp"]) (ks_kp s) /\ vector y (p ++ [K "Ki"]) (ks_ki s) /\ vector y (p ++ [K "Kd"]) (ks_kd s) /\
  vector y (p ++ [K "antiwindup_cte"]) (ks_aw s) /\ vector y (p ++ [K limit]) (ks_limit s).
Definition filtered_gains (y : Yaml) (p : list Step) (limit : string) (s : PidSection T) : Prop :=
  gains y p limit s /\ vector y (p ++ [K "alpha"]) (ks_alpha s).

(** What both programs want to know. *)
Record common (y : Yaml) (d : Doc T) : Prop := {
  cm_floor : number y [K "sim_config"; K "floor_height"] (yd_floor d);
  cm_pos : vector y [K "dynamics"; K "state"; K "position"] (yd_pos d);
  cm_ori : quaternion y [K "dynamics"; K "state"; K "orientation"] (yd_ori d);
  cm_vel : vector y [K "dynamics"; K "state"; K "linear_velocity"] (yd_vel d);
  cm_angvel : vector y [K "dynamics"; K "state"; K "angular_velocity"] (yd_angvel d);
  cm_linacc : vector y [K "dynamics"; K "state"; K "linear_acceleration"] (yd_linacc d);
  cm_angacc : vector y [K "dynamics"; K "state"; K "angular_acceleration"] (yd_angacc d);
  cm_grav : vector y [K "dynamics"; K "model"; K "gravity"] (yd_grav d);
  cm_mass : number y [K "dynamics"; K "model"; K "vehicle_mass"] (yd_mass d);
  cm_inertia : vector y [K "dynamics"; K "model"; K "vehicle_inertia"] (yd_inertia d);
  cm_drag : number y [K "dynamics"; K "model"; K "vehicle_drag_coefficient"] (yd_drag d);
  cm_aero : vector y [K "dynamics"; K "model"; K "vehicle_aero_moment_coefficient"] (yd_aero d);
  cm_fnoise : number y [K "dynamics"; K "model"; K "force_process_noise_auto_correlation"] (yd_fnoise d);
  cm_mnoise : number y [K "dynamics"; K "model"; K "moment_process_noise_auto_correlation"] (yd_mnoise d);
  cm_kf : number y [K "dynamics"; K "model"; K "motors_params"; K "thrust_coefficient"] (yd_kf d);
  cm_kt : number y [K "dynamics"; K "model"; K "motors_params"; K "torque_coefficient"] (yd_kt d);
  cm_x : number y [K "dynamics"; K "model"; K "motors_params"; K "x_dist"] (yd_x d);
  cm_y : number y [K "dynamics"; K "model"; K "motors_params"; K "y_dist"] (yd_y d);
  cm_min : number y [K "dynamics"; K "model"; K "motors_params"; K "min_speed"] (yd_min d);
  cm_max : number y [K "dynamics"; K "model"; K "motors_params"; K "max_speed"] (yd_max d);
  cm_tau : number y [K "dynamics"; K "model"; K "motors_params"; K "time_constant"] (yd_tau d);
  cm_J : number y [K "dynamics"; K "model"; K "motors_params"; K "rotational_inertia"] (yd_J d);
  cm_indi : filtered_gains y [K "controller"; K "indi"] "angular_acceleration_limit" (yd_indi d);
  cm_kprot : vector y [K "controller"; K "acro"; K "kp_rot"] (yd_kprot d);
  cm_gvar : number y [K "imu"; K "gyro_noise_var"] (yd_gvar d);
  cm_avar : number y [K "imu"; K "accel_noise_var"] (yd_avar d);
  cm_gac : number y [K "imu"; K "gyro_bias_noise_autocorr_time"] (yd_gac d);
  cm_aac : number y [K "imu"; K "accel_bias_noise_autocorr_time"] (yd_aac d);
  cm_alpha : number y [K "inertial_odometry"; K "alpha"] (yd_alpha d)
}.
(** What one of them wants to know. *)
Definition particular (p : Program) (y : Yaml) (d : Doc T) : Prop :=
  match p with
  | FlyExample => filtered_gains y [K "controller"; K "velocity"] "acceleration_limit" (yd_velc d) /\
                  filtered_gains y [K "controller"; K "position"] "velocity_limit" (yd_posc d)
  | TrajExample => gains y [K "controller"; K "trajectory"] "linear_acceleration_limit" (yd_traj d)
  end.
Definition file_says (p : Program) (y : Yaml) (d : Doc T) : Prop := common y d /\ particular p y d.

(** Nothing under sim_config.name, in a file made of sections. *)
Definition no_entry (y : Yaml) (name : string) : Prop :=
  exists l, y = YMap l /\ ((forall s, ~ first_entry "sim_config" s l) \/
    exists m, first_entry "sim_config" (YMap m) l /\ forall s, ~ first_entry name s m).
(** A setting, or its default when the file has no such entry. *)
Definition setting (y : Yaml) (name : string) (default x : T) : Prop :=
  number y [K "sim_config"; K name] x \/ (x = default /\ no_entry y name).
(** The listed triples, or one default triple when there is no such list. *)
Definition listed (y : Yaml) (name : string) (l : list (V3 T)) : Prop :=
  (exists ys, place y [K "sim_config"; K name] (YSeq ys) /\ Forall2 (fun e v => vector e [] v) ys l) \/
  (l = [mkV zero zero one] /\ no_entry y name).
(** Present, but without a single triple. *)
Definition no_triples (v : Yaml) : Prop := v = YNull \/ v = YSeq [] \/ v = YMap [] \/ exists s, v = YText s.
End Says.

(** A program on the simulator built from these parameters. *)
Definition flown {T} {O : Ops T} {G H : Gen T} {B} (p : Program) (c : Source T) (go : Sim T G H -> Watch B) : Watch B :=
  match get_simulator p c with None => Undefined | Some s => go s end.
