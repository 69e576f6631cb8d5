(** Model of how examples/fly_example.cpp and
    examples/trajectory_fly_example/traj_gen_example.cpp read their configuration
    file, and of their [main] functions.

    A document is the tree yaml-cpp loads: turning text into a tree is that
    library.  Simplifications: no anchors and aliases (they make two places of
    the tree the same node) and no merge keys; [num] is its conversion of a
    scalar to double, [None] if the text is no number.  Looking up an absent key
    inserts an undefined entry, which nothing reads afterwards. *)

From Coq Require Import ZArith List Bool String.
From Verif Require Import Scalar LinAlg MUtils MModel MDynamics MPid MControl MImu MSim MText MExample MScript MConfig.
Import ListNotations.
Local Open Scope string_scope.

(** A yaml-cpp node with content; a handle is [None] when it is undefined. *)
Inductive Yaml := YNull | YText (s : string) | YSeq (l : list Yaml) | YMap (l : list (string * Yaml)).
Definition Node := option Yaml.
(** A value or an exception. *)
Inductive Yr (A : Type) := Got (a : A) | Thrown.
Arguments Got {A} a. Arguments Thrown {A}.
Definition ybind {A B} (x : Yr A) (f : A -> Yr B) : Yr B := match x with Got a => f a | Thrown => Thrown end.
Local Notation "'do' x <- a ; b" := (ybind a (fun x => b)) (at level 200, x name, a at level 100, b at level 200).

Fixpoint assoc (k : string) (l : list (string * Yaml)) : Node :=
  match l with
  | [] => None
  | (k', v) :: r => if String.eqb k' k then Some v else assoc k r
  end.
(** node["k"] (for example fly_example.cpp:237): a scalar throws BadSubscript,
    anything but a map has no such entry. *)
Definition key (n : Node) (k : string) : Yr Node :=
  match n with
  | Some (YText _) => Thrown
  | Some (YMap l) => Got (assoc k l)
  | _ => Got None
  end.
(** node[i] (for example fly_example.cpp:243-244); a map may have the number as its key. *)
Definition digit (i : nat) : string := match i with 0 => "0" | 1 => "1" | 2 => "2" | _ => "3" end.
Definition idx (n : Node) (i : nat) : Yr Node :=
  match n with
  | Some (YText _) => Thrown
  | Some (YSeq l) => Got (nth_error l i)
  | Some (YMap l) => Got (assoc (digit i) l)
  | _ => Got None
  end.
(** node["a"]["b"]... *)
Fixpoint walk (n : Node) (p : list string) : Yr Node :=
  match p with
  | [] => Got n
  | k :: r => do m <- key n k; walk m r
  end.

(** [yml = root["a"]["b"]] (fly_example.cpp:240, 263 and so on).  Assigning to a
    handle does not only move the handle: the node it was at gets the
    content of the new one (Node::AssignNode).  [put] is that change of the tree. *)
Fixpoint replace (k : string) (f : Yaml -> Yaml) (l : list (string * Yaml)) : list (string * Yaml) :=
  match l with
  | [] => []
  | (k', v) :: r => if String.eqb k' k then (k', f v) :: r else (k', v) :: replace k f r
  end.
Fixpoint put (p : list string) (v : Yaml) (y : Yaml) : Yaml :=
  match p with
  | [] => v
  | k :: r => match y with YMap l => YMap (replace k (put r v) l) | _ => y end
  end.
Fixpoint is_prefix (q p : list string) : bool :=
  match q, p with
  | [], _ => true
  | a :: q', b :: p' => String.eqb a b && is_prefix q' p'
  | _ :: _, [] => false
  end.
(** The handle: the tree, where in the tree the handle's node is ([None]: the
    tree no longer contains it), its content. *)
Record Cursor := mkCur { cu_root : Yaml; cu_at : option (list string); cu_node : Node }.
Definition start (root : Yaml) (p : list string) : Yr Cursor :=
  do n <- walk (Some root) p; Got (mkCur root (Some p) n).
(** If the new node is undefined nothing more is read: the next conversion throws. *)
Definition assign (c : Cursor) (p : list string) : Yr Cursor :=
  do n <- walk (Some (cu_root c)) p;
  Got (match cu_at c, n with
       | Some q, Some v => mkCur (put q v (cu_root c)) (if is_prefix q p then None else Some p) n
       | _, _ => mkCur (cu_root c) (Some p) n
       end).

Section Reading.
Context {T : Type} {O : Ops T} {G H : Gen T}.
Variable num : string -> option T.

(** node.as<double>() *)
Definition as_num (n : Node) : Yr T :=
  match n with
  | Some (YText s) => match num s with Some x => Got x | None => Thrown end
  | _ => Thrown
  end.
(** fly_example.cpp:267 and the like: yml["k"].as<double>(). *)
Definition num_at (n : Node) (k : string) : Yr T := do m <- key n k; as_num m.
Definition num_idx (n : Node) (i : nat) : Yr T := do m <- idx n i; as_num m.
(** fly_example.cpp:242-244 and the like: Vector3d(yml["k"][0].as<double>(), ...). *)
Definition vec_node (n : Node) : Yr (V3 T) :=
  do x <- num_idx n 0; do y <- num_idx n 1; do z <- num_idx n 2; Got (mkV x y z).
Definition vec_at (n : Node) (k : string) : Yr (V3 T) := do m <- key n k; vec_node m.
(** fly_example.cpp:245-247 the orientation, w first. *)
Definition quat_at (n : Node) (k : string) : Yr (Quat T) :=
  do m <- key n k; do w <- num_idx m 0; do x <- num_idx m 1; do y <- num_idx m 2; do z <- num_idx m 3; Got (mkQ w x y z).

(** fly_example.cpp:310-326, 345-360, 368-383. *)
Definition section_at (n : Node) (limit : string) : Yr (PidSection T) :=
  do kp <- vec_at n "Kp"; do ki <- vec_at n "Ki"; do kd <- vec_at n "Kd"; do alpha <- vec_at n "alpha";
  do aw <- vec_at n "antiwindup_cte"; do l <- vec_at n limit; Got (mkPidSec kp ki kd alpha aw l).
(** traj_gen_example.cpp:350-364: without the filter constant, which then stays unused. *)
Definition section_traj (n : Node) (limit : string) : Yr (PidSection T) :=
  do kp <- vec_at n "Kp"; do ki <- vec_at n "Ki"; do kd <- vec_at n "Kd";
  do aw <- vec_at n "antiwindup_cte"; do l <- vec_at n limit; Got (mkPidSec kp ki kd v0 aw l).
Definition unread : PidSection T := mkPidSec v0 v0 v0 v0 v0 v0.

(** The sections that differ: fly_example.cpp:342-386, traj_gen_example.cpp:347-367. *)
Definition outer_sections (p : Program) (c : Cursor) : Yr (Cursor * (PidSection T * PidSection T * PidSection T)) :=
  match p with
  | FlyExample =>
    do c1 <- assign c ["controller"; "velocity"]; do v <- section_at (cu_node c1) "acceleration_limit";
    do c2 <- assign c1 ["controller"; "position"]; do q <- section_at (cu_node c2) "velocity_limit";
    Got (c2, (unread, v, q))
  | TrajExample =>
    do c1 <- assign c ["controller"; "trajectory"]; do t <- section_traj (cu_node c1) "linear_acceleration_limit";
    Got (c1, (t, unread, unread))
  end.

(** fly_example.cpp:228-404 (traj_gen_example.cpp:233-384)
    get_simulation_params_from_yaml: the numbers read, in the order of the code.
    What becomes of them is [program_params]. *)
Definition read_doc (p : Program) (root : Yaml) : Yr (Doc T) :=
  do fl <- (do n <- walk (Some root) ["sim_config"]; num_at n "floor_height");
  do c1 <- start root ["dynamics"; "state"]; let s := cu_node c1 in
  do pos <- vec_at s "position"; do ori <- quat_at s "orientation"; do vel <- vec_at s "linear_velocity";
  do av <- vec_at s "angular_velocity"; do la <- vec_at s "linear_acceleration"; do aa <- vec_at s "angular_acceleration";
  do c2 <- assign c1 ["dynamics"; "model"]; let m := cu_node c2 in
  do grav <- vec_at m "gravity"; do mass <- num_at m "vehicle_mass"; do inertia <- vec_at m "vehicle_inertia";
  do drag <- num_at m "vehicle_drag_coefficient"; do aero <- vec_at m "vehicle_aero_moment_coefficient";
  do fn <- num_at m "force_process_noise_auto_correlation"; do mn <- num_at m "moment_process_noise_auto_correlation";
  do c3 <- assign c2 ["dynamics"; "model"; "motors_params"]; let r := cu_node c3 in
  do kf <- num_at r "thrust_coefficient"; do kt <- num_at r "torque_coefficient";
  do x <- num_at r "x_dist"; do y <- num_at r "y_dist"; do lo <- num_at r "min_speed"; do hi <- num_at r "max_speed";
  do tau <- num_at r "time_constant"; do J <- num_at r "rotational_inertia";
  do c4 <- assign c3 ["controller"; "indi"]; do indi <- section_at (cu_node c4) "angular_acceleration_limit";
  do c5 <- assign c4 ["controller"; "acro"]; do kprot <- vec_at (cu_node c5) "kp_rot";
  do co <- outer_sections p c5; let '(traj, velc, posc) := snd co in
  do c6 <- assign (fst co) ["imu"]; let i := cu_node c6 in
  do gv <- num_at i "gyro_noise_var"; do av2 <- num_at i "accel_noise_var";
  do gac <- num_at i "gyro_bias_noise_autocorr_time"; do aac <- num_at i "accel_bias_noise_autocorr_time";
  do c7 <- assign c6 ["inertial_odometry"]; do al <- num_at (cu_node c7) "alpha";
  Got (mkDoc fl pos ori vel av la aa grav mass inertia drag aero fn mn kf kt x y lo hi tau J indi kprot traj velc posc gv av2 gac aac al).

(** The file: fly_example.cpp:190-201 check_file_exits, LoadFile throws on text that is no document. *)
Inductive File := Absent | Garbled | Holds (y : Yaml).

(** fly_example.cpp:492-499 (traj_gen_example.cpp:484-490) get_simulation_params. *)
Definition program_source (p : Program) (f : File) : Yr (Source T) :=
  match f with
  | Absent => Got FromCode
  | Garbled => Thrown
  | Holds y => do d <- read_doc p y; Got (FromFile d)
  end.

(** fly_example.cpp:203-226 (traj_gen_example.cpp:208-231) read_yaml_param;
    the value is left alone when a part of the name is absent. *)
Fixpoint param_at (n : Node) (p : list string) (value : T) : Yr T :=
  match p with
  | [] => as_num n
  | k :: r => do m <- key n k; match m with None => Got value | Some _ => param_at m r value end
  end.
Definition read_yaml_param (f : File) (p : list string) (value : T) : Yr T :=
  match f with
  | Absent => Got value
  | Garbled => Thrown
  | Holds y => param_at (Some y) p value
  end.

(** fly_example.cpp:501-512 (traj_gen_example.cpp:492-503) get_sim_time. *)
Definition get_sim_time (f : File) : Yr (T * T) :=
  do tmax <- read_yaml_param f ["sim_config"; "sim_time"] (ofZ 10);
  do dt <- read_yaml_param f ["sim_config"; "dt"] (lit 1 1000); Got (tmax, dt).
(** fly_example.cpp:536-544 get_yaw_rate_reference; traj_gen_example.cpp:505-514
    get_trajectory_generator_max_speed. *)
Definition get_yaw_rate_reference (f : File) : Yr T := read_yaml_param f ["sim_config"; "yaw_rate_reference"] zero.
Definition get_max_speed (f : File) : Yr T := read_yaml_param f ["sim_config"; "trajectory_generator_max_speed"] one.

(** fly_example.cpp:514-534 get_references (traj_gen_example.cpp:516-540
    get_trajectory_generator_waypoints).  Iterating over a node that is neither
    sequence nor map gives nothing; over a map it gives pairs, which have no
    elements (InvalidNode). *)
Fixpoint vectors (l : list Yaml) : Yr (list (V3 T)) :=
  match l with
  | [] => Got []
  | y :: r => do v <- vec_node (Some y); do vs <- vectors r; Got (v :: vs)
  end.
Definition get_references (f : File) (name : string) : Yr (list (V3 T)) :=
  match f with
  | Absent => Got [mkV zero zero one]
  | Garbled => Thrown
  | Holds y =>
    do n <- walk (Some y) ["sim_config"; name];
    match n with
    | None => Got [mkV zero zero one]
    | Some (YSeq l) => vectors l
    | Some (YMap (_ :: _)) => Thrown
    | Some _ => Got []
    end
  end.

(** ** main *)
Variable fmt : T -> string.
Definition or_throw {A B} (x : Yr A) (f : A -> Watch B) : Watch B := match x with Got a => f a | Thrown => Threw end.
Definition with_sim {B} (p : Program) (f : File) (go : Sim T G H -> Watch B) : Watch B :=
  or_throw (program_source p f) (fun c => match get_simulator p c with None => Undefined | Some s => go s end).

(** fly_example.cpp:731-754 with the flight it calls (751, 655-689), watched for
    at most [k] rounds of the loop.  The two flights below are the ones in comments (750, 752). *)
Definition main_fly (f : File) (k : nat) : Watch (Flight T G H) :=
  with_sim FlyExample f (fun s => or_throw (get_sim_time f) (fun td =>
  or_throw (get_references f "position_references") (fun refs => position_flight fmt refs (fst td) (snd td) k s))).
Definition main_fly_velocity (f : File) (k : nat) : Watch (Flight T G H) :=
  with_sim FlyExample f (fun s => or_throw (get_sim_time f) (fun td =>
  or_throw (get_references f "velocity_references") (fun refs => velocity_flight fmt refs (fst td) (snd td) k s))).
Definition main_fly_yaw (f : File) (k : nat) : Watch (Flight T G H) :=
  with_sim FlyExample f (fun s => or_throw (get_sim_time f) (fun td =>
  or_throw (get_references f "position_references") (fun refs =>
  match refs with
  | [] => Undefined   (* references[0] comes first, line 701 *)
  | _ => or_throw (get_yaw_rate_reference f) (fun rate => yaw_rate_flight fmt rate refs (fst td) (snd td) k s)
  end))).
(** traj_gen_example.cpp:762-784 with the flight it calls (782, 702-758); the
    generator is made from way points and speed (569-572, 716). *)
Definition main_traj (make : V3 T -> list (V3 T) -> T -> Generator T) (f : File) (k : nat) : Watch (Shot T G H) :=
  with_sim TrajExample f (fun s => or_throw (get_sim_time f) (fun td =>
  or_throw (get_references f "trajectory_generator_waypoints") (fun wps => or_throw (get_max_speed f) (fun speed =>
  takeoff_flight fmt make wps speed (fst td) (snd td) k s)))).
End Reading.
