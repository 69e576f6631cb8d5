(** Specification vocabulary: which control call a loop heard last. *)

From Coq Require Import ZArith List Bool Reals.
From Verif Require Import Scalar LinAlg MUtils MPid MPid1 MControl MCtlRun MReport SpecDyn SpecPid SpecCtl.
Import ListNotations.

Section Spec.
Context {T : Type} {O : Ops T}.

(** Error, and derivative error when one is given, of the last control call in a
    history; settings and resets do not count. *)
Definition call_of (op : PidOp T) : option (V3 T * option (V3 T)) :=
  match op with
  | OpCompute _ e => Some (e, None)
  | OpComputeD _ e de => Some (e, Some de)
  | _ => None
  end.
Fixpoint last_call (ops : list (PidOp T)) : option (V3 T * option (V3 T)) :=
  match ops with
  | [] => None
  | op :: r => match last_call r with Some c => Some c | None => call_of op end
  end.
Definition call1_of (op : Pid1Op T) : option (T * option T) :=
  match op with
  | Op1Compute _ e => Some (e, None)
  | Op1ComputeD _ e de => Some (e, Some de)
  | _ => None
  end.
Fixpoint last_call1 (ops : list (Pid1Op T)) : option (T * option T) :=
  match ops with
  | [] => None
  | op :: r => match last_call1 r with Some c => Some c | None => call1_of op end
  end.

(** The derivative error of the last call that was given one. *)
Fixpoint last_given (ops : list (PidOp T)) : option (V3 T) :=
  match ops with
  | [] => None
  | op :: r => match last_given r with
               | Some d => Some d
               | None => match op with OpComputeD _ _ de => Some de | _ => None end
               end
  end.

(** The error that each loop reports through its own getter. *)
Definition reported_error (w : Which) (c : Ctl T) : V3 T :=
  match w with
  | WPos => pos_get_position_error c | WVel => vel_get_velocity_error c
  | WTraj => traj_get_position_error c | WIndi => indi_get_angular_velocity_error c
  end.

(** What a call to the flight controller asks of its loops: current value and target.
    The inner loops get as target what the outer ones settled on, as the getters of
    [c'], the controller after the call, report it. *)
Definition asks (w : Which) (c' : Ctl T) (op : CtlOp T) : option (V3 T * V3 T) :=
  match w, op with
  | WPos, CPos cp _ _ _ dp _ _ | WPos, CConvPos cp dp _ => Some (cp, dp)
  | WVel, CVel cv _ _ dv _ _ | WVel, CConvVel cv dv _ => Some (cv, dv)
  | WVel, CPos _ _ cv _ _ _ _ => Some (cv, get_desired_linear_velocity c')
  | WTraj, CTraj cp _ _ _ dp _ _ _ _ | WTraj, CConvTraj cp _ dp _ _ _ => Some (cp, dp)
  | WIndi, CAcro cw _ dw _ | WIndi, CConvAcro cw _ dw _ => Some (cw, dw)
  | WIndi, CAcc _ cw _ _ _ | WIndi, CTraj _ _ _ cw _ _ _ _ _ | WIndi, CVel _ _ cw _ _ _ | WIndi, CPos _ _ _ cw _ _ _ =>
      Some (cw, get_desired_angular_velocity c')
  | _, _ => None
  end.
(** The calls made directly on a loop, by hand. *)
Definition by_hand (w : Which) (op : CtlOp T) : bool :=
  match w, op with
  | WPos, CPid WPos o | WVel, CPid WVel o | WTraj, CPid WTraj o | WIndi, CPid WIndi o => is_compute o
  | _, _ => false
  end.
(** Thrust passed to the allocation. *)
Definition asked_thrust (c' : Ctl T) (op : CtlOp T) : option T :=
  match op with
  | CAcro _ th _ _ | CConvAcro _ th _ _ => Some th
  | CAcc _ _ _ _ _ | CTraj _ _ _ _ _ _ _ _ _ | CVel _ _ _ _ _ _ | CPos _ _ _ _ _ _ _ => Some (get_desired_thrust c')
  | _ => None
  end.

End Spec.

Local Open Scope R_scope.
(** Torque that gives angular acceleration [al] at body rate [w]. *)
Definition torque_for (I : M3 R) (al w : V3 R) (a : Ax) : R :=
  mat_vec I al a + cross3 w (vec_of (mat_vec I w)) a.
