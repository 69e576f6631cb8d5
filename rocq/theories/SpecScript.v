(** Specification vocabulary for the scripted flights of the example programs:
    the calls of the public interface that each of them makes. *)

From Coq Require Import ZArith List Bool String.
From Verif Require Import Scalar LinAlg MUtils MModel MDynamics MControl MImu MSim MText MExample MScript.
Import ListNotations.

Section SpecScript.
Context {T : Type} {O : Ops T} {G H : Gen T}.
Local Open Scope sc_scope.

(** The five scripted flights.  [make], [wps] and [speed]: the trajectory
    generator library, the way points and the speed of the configuration. *)
Inductive Scripted :=
| ArmOnly | FullSpeed | PitchUp
| AlongTrajectory (make : V3 T -> list (V3 T) -> T -> Generator T) (wps : list (V3 T)) (speed : T)
| TakeoffFirst (make : V3 T -> list (V3 T) -> T -> Generator T) (wps : list (V3 T)) (speed : T).
Definition scripted (fmt : T -> string) (v : Scripted) : T -> T -> nat -> Sim T G H -> Watch (Shot T G H) :=
  match v with
  | ArmOnly => arm_flight fmt
  | FullSpeed => motor_flight fmt
  | PitchUp => indi_flight fmt
  | AlongTrajectory make wps speed => trajectory_flight fmt make wps speed
  | TakeoffFirst make wps speed => takeoff_flight fmt make wps speed
  end.
(** Rows written before the first step. *)
Definition rows_before (v : Scripted) : nat := match v with ArmOnly => 0 | _ => 1 end.

(** A generator whose points depend on the time alone. *)
Definition timed (max : T) (curve : T -> Point T) : Generator T := mkTg unit tt max (fun _ t _ => (tt, curve t)).
Definition timed_maker (duration : V3 T -> list (V3 T) -> T -> T) (curve : V3 T -> list (V3 T) -> T -> T -> Point T) :
  V3 T -> list (V3 T) -> T -> Generator T := fun p w u => timed (duration p w u) (curve p w u).

(** ** The calls made *)
Notation call := (SimOp T G H).
Definition round (dt : T) : list call := [SController dt; SDynamics dt; SImu dt; SOdom dt].
Definition aim (p : Point T) (yaw : T) : list call := [SRefTraj (pt_pos p) (pt_vel p) (pt_acc p); SRefYaw yaw].
(** [n] iterations from the time [t] on, each with some calls before and after the updates. *)
Fixpoint iterations (before after : T -> list call) (dt t : T) (n : nat) : list call :=
  match n with
  | 0 => []
  | S m => before t ++ round dt ++ after t ++ iterations before after dt (t + dt) m
  end.
(** The time after [n] steps. *)
Definition time_at (dt : T) (n : nat) : T := Nat.iter n (fun t => t + dt) zero.

Definition arm_calls (dt : T) (n : nat) : list call := iterations (fun _ => []) (fun _ => []) dt zero n.
Definition motor_calls (dt : T) (n : nat) : list call :=
  [SMode MOTOR_W ANGLE; SRefMotors (repeat (one * ofZ 2200) 4)] ++ iterations (fun _ => []) (fun _ => []) dt zero n.
Definition indi_calls (dt : T) (n : nat) : list call :=
  [SMode ACRO ANGLE; SRefAcro (ofZ 15) (mkV zero (lit 1 10) zero)] ++
  iterations (fun _ => []) (fun t => if ofZ 2 <? t then [SRefAcro (ofZ 15) (mkV zero zero zero)] else []) dt zero n.
(** [p0] the point the vehicle is at, [yaw] its heading, at the start. *)
Definition trajectory_calls (max : T) (curve : T -> Point T) (p0 : Point T) (yaw dt : T) (n : nat) : list call :=
  [SMode TRAJECTORY ANGLE] ++ aim p0 yaw ++
  iterations (fun t => if t <? max then aim (curve t) yaw else []) (fun _ => []) dt zero n.
Definition takeoff_calls (max1 max2 : T) (curve1 curve2 : T -> Point T) (p0 : Point T) (yaw dt : T) (n : nat) : list call :=
  [SMode TRAJECTORY ANGLE] ++ aim p0 yaw ++
  iterations (fun t => if t <? max1 then aim (curve1 t) yaw
                       else if (max1 <=? t) && (t <? max1 + max2) then aim (curve2 (t - max1)) zero else [])
             (fun _ => []) dt zero n.

(** The watched flight has made [n] iterations, all of them before [tmax], and
    has ended if the time is up. *)
Definition after_iterations (w : Watch (Shot T G H)) (tmax dt : T) (k n : nat) (f : Shot T G H) : Prop :=
  (w = Flying f /\ n = k \/ w = Landed f /\ (n <= k)%nat /\ (time_at dt n <? tmax) = false) /\
  sh_t f = time_at dt n /\ forall i, (i < n)%nat -> (time_at dt i <? tmax) = true.

(** The rate demand of the pitching flight after [n] iterations: 0.1 rad/s about
    the pitch axis until an iteration has begun later than 2 s, zero after. *)
Definition pitching (dt : T) (n : nat) (w : V3 T) : Prop :=
  ((forall i, (i < n)%nat -> (ofZ 2 <? time_at dt i) = false) -> w = mkV zero (lit 1 10) zero) /\
  ((exists i, (i < n)%nat /\ (ofZ 2 <? time_at dt i) = true) -> w = mkV zero zero zero).
(** The point in force is that of the latest time before the end of the curve. *)
Definition aiming (max : T) (curve : T -> Point T) (p0 : Point T) (dt : T) (n : nat) (p : Point T) : Prop :=
  ((forall i, (i < n)%nat -> (time_at dt i <? max) = false) -> p = p0) /\
  (forall i, (i < n)%nat -> (time_at dt i <? max) = true -> (forall j, (i < j < n)%nat -> (time_at dt j <? max) = false) -> p = curve (time_at dt i)).

End SpecScript.
Arguments Scripted : clear implicits.
