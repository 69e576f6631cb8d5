(** Model of the scripted flights of examples/fly_example.cpp and
    examples/trajectory_fly_example/traj_gen_example.cpp: the loops that follow
    no list of references.

    Simplification: the trajectory generator is a separate library.  A generator
    is any stateful function from a time to a point of the trajectory, with a
    duration; building one from a start, way points and a speed is any function. *)

From Coq Require Import ZArith List Bool String.
From Verif Require Import Scalar LinAlg MUtils MModel MDynamics MPid MControl MCtlRun MImu MSim MText MExample.
Import ListNotations.

(** traj_gen_example.cpp:667 dynamic_traj_generator::References, the fields used. *)
Record Point (T : Type) := mkPt { pt_pos : V3 T; pt_vel : V3 T; pt_acc : V3 T }.
Arguments mkPt {T}. Arguments pt_pos {T}. Arguments pt_vel {T}. Arguments pt_acc {T}.

(** traj_gen_example.cpp:685 evaluateTrajectory(t, references) may leave the
    references as they were; 665 getMaxTime. *)
Record Generator (T : Type) := mkTg {
  tg_state : Type; tg_init : tg_state; tg_max : T;
  tg_eval : tg_state -> T -> Point T -> tg_state * Point T }.
Arguments mkTg {T}. Arguments tg_state {T}. Arguments tg_init {T}. Arguments tg_max {T}. Arguments tg_eval {T}.

(** The locals of a scripted flight: simulator, t and the log file. *)
Record Shot (T : Type) (G H : Gen T) := mkShot { sh_sim : Sim T G H; sh_t : T; sh_log : string }.
Arguments mkShot {T G H}. Arguments sh_sim {T G H}. Arguments sh_t {T G H}. Arguments sh_log {T G H}.

Section Script.
Context {T : Type} {O : Ops T} {G H : Gen T}.
Local Open Scope sc_scope.
Variable fmt : T -> string.
Notation sim := (Sim T G H).

(** The common loop: fly_example.cpp:560-567, 582-589, 605-615;
    traj_gen_example.cpp:597-604, 619-626, 642-652, 683-697, 734-756.  [before]
    and [after] are what the body does before and after the four updates; [S] is
    what it keeps besides simulator, time and log. *)
Section Loop.
Context {S : Type}.
Variable before : T -> sim -> S -> sim * S.
Variable after : T -> sim -> sim.
Variables tmax dt : T.

Definition shot_body (f : Shot T G H) (x : S) : outcome (Shot T G H * S) :=
  let (s0, x') := before (sh_t f) (sh_sim f) x in
  match updates s0 dt with
  | UB => UB
  | Throw s => Throw (mkShot s (sh_t f) (sh_log f), x')
  | Ok s =>
    let s1 := after (sh_t f) s in
    match save fmt (sh_log f) (sh_t f) s1 with
    | None => UB
    | Some log => Ok (mkShot s1 (sh_t f + dt) log, x')
    end
  end.
Fixpoint shoot (k : nat) (f : Shot T G H) (x : S) : Watch (Shot T G H) :=
  match k with
  | 0 => Flying f
  | Datatypes.S k' =>
    if sh_t f <? tmax then
      match shot_body f x with
      | Ok (f', x') => shoot k' f' x'
      | Throw _ => Threw
      | UB => Undefined
      end
    else Landed f
  end.
End Loop.

Definition idle (t : T) (s : sim) (x : unit) : sim * unit := (s, x).
Definition stay (t : T) (s : sim) : sim := s.
(** fly_example.cpp:580-581, 603-604; traj_gen_example.cpp:617-618, 640-641,
    681-682, 732-733: the row written before the loop. *)
Definition first_row (s : sim) : option (Shot T G H) := option_map (mkShot s zero) (save fmt log_header zero s).
Definition from_row {A} (o : option (Shot T G H)) (k : Shot T G H -> Watch A) : Watch A :=
  match o with None => Undefined | Some f => k f end.

(** fly_example.cpp:554-568 (traj_gen_example.cpp:591-605) test_arm: no mode, no
    reference, no row before the loop. *)
Definition arm_flight (tmax dt : T) (k : nat) (s : sim) : Watch (Shot T G H) :=
  shoot idle stay tmax dt k (mkShot s zero log_header) tt.

(** fly_example.cpp:570-591 (traj_gen_example.cpp:607-628) test_motor_w_ref. *)
Definition motor_flight (tmax dt : T) (k : nat) (s : sim) : Watch (Shot T G H) :=
  let s1 := set_ref_motors (set_control_mode s MOTOR_W ANGLE) (repeat (one * ofZ 2200) 4) in
  from_row (first_row s1) (fun f => shoot idle stay tmax dt k f tt).

(** fly_example.cpp:593-617 (traj_gen_example.cpp:630-654) test_indi_controller. *)
Definition indi_flight (tmax dt : T) (k : nat) (s : sim) : Watch (Shot T G H) :=
  let s1 := set_ref_acro (set_control_mode s ACRO ANGLE) (ofZ 15) (mkV zero (lit 1 10) zero) in
  from_row (first_row s1) (fun f =>
    shoot idle (fun t s => if ofZ 2 <? t then set_ref_acro s (ofZ 15) (mkV zero zero zero) else s) tmax dt k f tt).

(** traj_gen_example.cpp:678-680 and the like. *)
Definition set_point (s : sim) (p : Point T) (yaw : T) : sim :=
  set_ref_yaw_angle (set_ref_traj s (pt_pos p) (pt_vel p) (pt_acc p)) yaw.
(** traj_gen_example.cpp:668-676, 720-727: references initialised from the state. *)
Definition here (s : sim) : Point T := mkPt (s_pos (sim_state s)) (s_vel (sim_state s)) (s_linacc (sim_state s)).
Definition yaw_now (s : sim) : T := vz (quat_to_euler (s_ori (sim_state s))).

(** traj_gen_example.cpp:684-689. *)
Definition follow (g : Generator T) (yaw : T) (t : T) (s : sim) (x : tg_state g * Point T) : sim * (tg_state g * Point T) :=
  if t <? tg_max g then let (q, p) := tg_eval g (fst x) t (snd x) in (set_point s p yaw, (q, p)) else (s, x).
(** traj_gen_example.cpp:656-700 test_geometric_controller; [make] is
    get_trajectory_generator (569-589), called with the way points and the speed
    of the configuration. *)
Definition trajectory_flight (make : V3 T -> list (V3 T) -> T -> Generator T) (wps : list (V3 T)) (speed : T)
  (tmax dt : T) (k : nat) (s : sim) : Watch (Shot T G H) :=
  let s0 := set_control_mode s TRAJECTORY ANGLE in
  let g := make (s_pos (sim_state s0)) wps speed in
  let s1 := set_point s0 (here s0) (yaw_now s0) in
  from_row (first_row s1) (fun f => shoot (follow g (yaw_now s0)) stay tmax dt k f (tg_init g, here s0)).

(** traj_gen_example.cpp:735-746. *)
Definition follow_two (g h : Generator T) (yaw : T) (t : T) (s : sim) (x : tg_state g * tg_state h * Point T) :
  sim * (tg_state g * tg_state h * Point T) :=
  let '(a, b, p0) := x in
  if t <? tg_max g then let (q, p) := tg_eval g a t p0 in (set_point s p yaw, (q, b, p))
  else if (tg_max g <=? t) && (t <? tg_max g + tg_max h) then
    let (q, p) := tg_eval h b (t - tg_max g) p0 in (set_point s p zero, (a, q, p))
  else (s, x).
(** traj_gen_example.cpp:702-758 test_trajectory_controller_with_takeoff. *)
Definition takeoff_flight (make : V3 T -> list (V3 T) -> T -> Generator T) (wps : list (V3 T)) (speed : T)
  (tmax dt : T) (k : nat) (s : sim) : Watch (Shot T G H) :=
  let s0 := set_control_mode s TRAJECTORY ANGLE in
  let p0 := s_pos (sim_state s0) in
  let top := vadd p0 (mkV zero zero (ofZ 3)) in
  let g := make p0 [top] one in
  let h := make top wps speed in
  let s1 := set_point s0 (here s0) (yaw_now s0) in
  from_row (first_row s1) (fun f => shoot (follow_two g h (yaw_now s0)) stay tmax dt k f (tg_init g, tg_init h, here s0)).

End Script.
