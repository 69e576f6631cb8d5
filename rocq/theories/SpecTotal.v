(** Specification vocabulary: how far a control loop was off in total. *)

From Coq Require Import ZArith List Bool Reals.
From Verif Require Import Scalar LinAlg MUtils MModel MDynamics MPid MControl MCtlRun MImu MSim SpecDyn SpecRun SpecPid SpecCtl SpecSim.
Import ListNotations.
Local Open Scope R_scope.

(** The modes in which a loop works. *)
Definition works (w : Which) (m : Mode) : bool :=
  match w, m with
  | WIndi, MOTOR_W => false | WIndi, _ => true
  | WPos, POSITION | WPos, HOVER => true
  | WTraj, TRAJECTORY => true
  | WVel, VELOCITY | WVel, POSITION | WVel, HOVER => true
  | _, _ => false
  end.

(** What a loop was told to bring about, as reported by the controller, and
    what the vehicle does. *)
Definition demanded (w : Which) (c : Ctl R) : V3 R :=
  match w with
  | WPos | WTraj => get_desired_position c | WVel => get_desired_linear_velocity c
  | WIndi => get_desired_angular_velocity c
  end.
Definition actual (w : Which) (s : State R) : V3 R :=
  match w with WPos | WTraj => s_pos s | WVel => s_vel s | WIndi => s_angvel s end.

(** How far the vehicle is off at a control update that leads from [s] to [s']. *)
Definition off {G H : Gen R} (w : Which) (a : Ax) (s s' : Sim R G H) : R :=
  pr a (demanded w (sm_ctl s')) - pr a (actual w (sim_state s)).

(** The sum of time step times error over the control updates of a history in
    which the loop works. *)
Fixpoint total_off {G H : Gen R} (w : Which) (a : Ax) (n : nat) (s : Sim R G H) (ops : list (SimOp R G H)) : R :=
  match ops with
  | [] => 0
  | op :: r =>
      match sim_step n s op with
      | Ok s1 | Throw s1 =>
          match op with
          | SController dt => if sm_armed s && works w (sm_mode s) then dt * off w a s s1 else 0
          | _ => 0
          end + total_off w a n s1 r
      | UB => 0
      end
  end.

(** The settings of a loop; no bound and no reset on its integral. *)
Definition loop_params (w : Which) (p : CtlParams R) : PidParams R :=
  match w with WIndi => ip_pid (cp_indi p) | WPos => cp_pos p | WTraj => cp_traj p | WVel => cp_vel p end.
Definition free_integral (pp : PidParams R) : Prop := (forall a, pr a (pp_aw pp) = 0) /\ pp_rflag pp = false.

(** Calls that leave the controller object in place. *)
Definition keeps_ctl {G H : Gen R} (op : SimOp R G H) : Prop :=
  match op with SSetCtl _ | SMutCtl _ => False | _ => True end.

(** The integral contribution a loop reports. *)
Definition integral_part {G H : Gen R} (w : Which) (a : Ax) (s : Sim R G H) : R := pr a (pid_int_part (get_pid w (sm_ctl s))).
