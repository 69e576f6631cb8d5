(** Specification vocabulary: the calls a tour of references makes. *)

From Coq Require Import ZArith List Bool.
From Verif Require Import Scalar LinAlg MUtils MModel MSim MExample SpecExample.
Import ListNotations.

Section SpecTour.
Context {T : Type} {O : Ops T} {G H : Gen T}.
Local Open Scope sc_scope.

Definition tour_mode (v : Tour T) : Mode * YawMode :=
  match v with Velocities => (VELOCITY, ANGLE) | Positions => (POSITION, ANGLE) | PositionsTurning _ => (POSITION, RATE) end.
(** Asking for a reference; facing ahead, where the heading is not turning. *)
Definition asks (v : Tour T) (r : V3 T) : list (SimOp T G H) :=
  match v with Velocities => [SRefVel r] | Positions => [SRefPos r] | PositionsTurning w => [SRefPos r; SRefYawRate w] end.
Definition faces (v : Tour T) : list (SimOp T G H) := match v with PositionsTurning _ => [] | _ => [SRefYaw zero] end.
(** A round of updates. *)
Definition round (dt : T) : list (SimOp T G H) := [SController dt; SDynamics dt; SImu dt; SOdom dt].

(** [Flown i t w ops]: at time [t], [w] after the reference number [i] was
    asked for, the tour has made the calls [ops].  A reference is kept until
    [w] exceeds the share of the flight it is due. *)
Inductive Flown (v : Tour T) (refs : list (V3 T)) (tmax dt : T) : nat -> T -> T -> list (SimOp T G H) -> Prop :=
| flown_start r : nth_error refs 0 = Some r ->
    Flown v refs tmax dt 0 zero zero (SMode (fst (tour_mode v)) (snd (tour_mode v)) :: asks v r ++ faces v)
| flown_on i t w ops : Flown v refs tmax dt i t w ops -> ltb t tmax = true ->
    ltb (tmax / ofZ (Z.of_nat (length refs))) w = false -> Flown v refs tmax dt i (t + dt) (w + dt) (ops ++ round dt)
| flown_next i t w ops r : Flown v refs tmax dt i t w ops -> ltb t tmax = true ->
    ltb (tmax / ofZ (Z.of_nat (length refs))) w = true -> nth_error refs (S i) = Some r ->
    Flown v refs tmax dt (S i) (t + dt) (zero + dt) (ops ++ round dt ++ asks v r).

(** The mode and the reference in force. *)
Definition in_force (v : Tour T) (r : V3 T) (s : Sim T G H) : Prop :=
  sm_mode s = fst (tour_mode v) /\ sm_yawmode s = snd (tour_mode v) /\
  match v with
  | Velocities => rf_vel (sm_refs s) = r /\ rf_yaw (sm_refs s) = zero
  | Positions => rf_pos (sm_refs s) = r /\ rf_yaw (sm_refs s) = zero
  | PositionsTurning w => rf_pos (sm_refs s) = r /\ rf_yawrate (sm_refs s) = w
  end.
End SpecTour.
