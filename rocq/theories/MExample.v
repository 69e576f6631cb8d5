(** Model of the reference-following flights of examples/fly_example.cpp. *)

From Coq Require Import ZArith List Bool String.
From Verif Require Import Scalar LinAlg MUtils MModel MDynamics MPid MControl MCtlRun MImu MSim MText.
Import ListNotations.

(** The locals of a flight: simulator, t, reference_time, reference_index and
    the log file. *)
Record Flight (T : Type) (G H : Gen T) := mkFl {
  fl_sim : Sim T G H; fl_t : T; fl_rt : T; fl_ix : nat; fl_log : string }.
Arguments mkFl {T G H}. Arguments fl_sim {T G H}. Arguments fl_t {T G H}. Arguments fl_rt {T G H}.
Arguments fl_ix {T G H}. Arguments fl_log {T G H}.

(** A flight watched for some iterations of its loop. *)
Inductive Watch (A : Type) := Flying (f : A) | Landed (f : A) | Threw | Undefined.
Arguments Flying {A}. Arguments Landed {A}. Arguments Threw {A}. Arguments Undefined {A}.

Section Example.
Context {T : Type} {O : Ops T} {G H : Gen T}.
Local Open Scope sc_scope.
Variable fmt : T -> string.
Notation sim := (Sim T G H).

(** fly_example.cpp:639-642 (also 675-678, 712-715): one round of updates of
    the four-rotor simulator. *)
Definition updates (s : sim) (dt : T) : outcome sim :=
  match update_dynamics (update_controller 4 s dt) dt with
  | Ok s1 => Ok (update_odom (update_imu s1 dt) dt)
  | Throw s1 => Throw s1
  | UB => UB
  end.

(** fly_example.cpp:638-651 (674-687, 711-725) the loop body.  [use] is the
    reference setter.  The vector index is unchecked: past the end it is
    undefined behaviour. *)
Definition body (use : sim -> V3 T -> sim) (refs : list (V3 T)) (tmax dt : T) (f : Flight T G H) : outcome (Flight T G H) :=
  let between := tmax / ofZ (Z.of_nat (List.length refs)) in
  match updates (fl_sim f) dt with
  | UB => UB
  | Throw s => Throw (mkFl s (fl_t f) (fl_rt f) (fl_ix f) (fl_log f))
  | Ok s =>
    match (if between <? fl_rt f
           then option_map (fun r => (use s r, zero, S (fl_ix f))) (nth_error refs (S (fl_ix f)))
           else Some (s, fl_rt f, fl_ix f)) with
    | None => UB
    | Some (s1, rt, ix) =>
      match save fmt (fl_log f) (fl_t f) s1 with
      | None => UB
      | Some log => Ok (mkFl s1 (fl_t f + dt) (rt + dt) ix log)
      end
    end
  end.

(** fly_example.cpp:638 the loop, watched for at most [k] iterations. *)
Fixpoint fly (use : sim -> V3 T -> sim) (refs : list (V3 T)) (tmax dt : T) (k : nat) (f : Flight T G H) : Watch (Flight T G H) :=
  match k with
  | 0 => Flying f
  | S k' =>
    if fl_t f <? tmax then
      match body use refs tmax dt f with
      | Ok f' => fly use refs tmax dt k' f'
      | Throw _ => Threw
      | UB => Undefined
      end
    else Landed f
  end.

(** fly_example.cpp:622-636 (658-672, 694-709): mode, first reference, yaw
    reference and first row of the log.  [None]: the list is empty and
    references[0] is undefined, or the log is. *)
Definition takeoff (m : Mode) (y : YawMode) (use : sim -> V3 T -> sim) (heading : sim -> sim) (refs : list (V3 T))
  (s : sim) : option (Flight T G H) :=
  match refs with
  | [] => None
  | r :: _ =>
    let s1 := heading (use (set_control_mode s m y) r) in
    option_map (mkFl s1 zero zero 0) (save fmt log_header zero s1)
  end.

Definition flight (m : Mode) (y : YawMode) (use : sim -> V3 T -> sim) (heading : sim -> sim) (refs : list (V3 T))
  (tmax dt : T) (k : nat) (s : sim) : Watch (Flight T G H) :=
  match takeoff m y use heading refs s with
  | None => Undefined
  | Some f => fly use refs tmax dt k f
  end.

(** fly_example.cpp:619-653 test_velocity_controller, 655-689
    test_position_controller, 691-728 test_position_controller_yaw_rate.  The
    logger is the one main creates (line 737), so the log starts with the header. *)
Definition velocity_flight : list (V3 T) -> T -> T -> nat -> sim -> Watch (Flight T G H) :=
  flight VELOCITY ANGLE set_ref_vel (fun s => set_ref_yaw_angle s zero).
Definition position_flight : list (V3 T) -> T -> T -> nat -> sim -> Watch (Flight T G H) :=
  flight POSITION ANGLE set_ref_pos (fun s => set_ref_yaw_angle s zero).
Definition yaw_rate_flight (rate : T) : list (V3 T) -> T -> T -> nat -> sim -> Watch (Flight T G H) :=
  flight POSITION RATE (fun s r => set_ref_yawrate (set_ref_pos s r) rate) (fun s => s).

End Example.
