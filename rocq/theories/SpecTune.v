(** Specification vocabulary: what a PID remembers of a flight, and control calls made by hand. *)

From Coq Require Import ZArith List Bool.
From Verif Require Import Scalar LinAlg MUtils MPid MPid1 MControl MCtlRun SpecPid SpecCtl SpecReset.
Import ListNotations.

(** What matters for the memory of a PID: errors, resets, and the anti-windup, filter and
    sign-reset settings; not the gains, not the output limits, not a derivative given by the caller. *)
Inductive Event (V S : Type) :=
| ESetup (aw alpha : V) (rflag : bool)
| EAw (aw : V) | EAlpha (alpha : V) | ERflag (b : bool)
| EReset
| EError (dt : S) (e : V)
| EErrorD (dt : S) (e : V).
Arguments ESetup {V S}. Arguments EAw {V S}. Arguments EAlpha {V S}. Arguments ERflag {V S}. Arguments EReset {V S}.
Arguments EError {V S}. Arguments EErrorD {V S}.

Section Spec.
Context {T : Type} {O : Ops T}.

Definition event (op : PidOp T) : list (Event (V3 T) T) :=
  match op with
  | OpUpdate pp => [ESetup (pp_aw pp) (pp_alpha pp) (pp_rflag pp)]
  | OpAw aw => [EAw aw] | OpAlpha al => [EAlpha al] | OpRflag b => [ERflag b]
  | OpReset => [EReset] | OpCompute dt e => [EError dt e] | OpComputeD dt e _ => [EErrorD dt e]
  | _ => []
  end.
Definition event1 (op : Pid1Op T) : list (Event T T) :=
  match op with
  | Op1Update pp => [ESetup (pp1_aw pp) (pp1_alpha pp) (pp1_rflag pp)]
  | Op1Aw aw => [EAw aw] | Op1Alpha al => [EAlpha al] | Op1Rflag b => [ERflag b]
  | Op1Reset => [EReset] | Op1Compute dt e => [EError dt e] | Op1ComputeD dt e _ => [EErrorD dt e]
  | _ => []
  end.
(** The story of a PID since it was built. *)
Definition story (pp : PidParams T) (ops : list (PidOp T)) : list (Event (V3 T) T) := flat_map event (OpUpdate pp :: ops).
Definition story1 (pp : P1Params T) (ops : list (Pid1Op T)) : list (Event T T) := flat_map event1 (Op1Update pp :: ops).

(** Same parameters up to gains and output limits. *)
Definition same_memory (p q : PidParams T) : Prop := pp_aw p = pp_aw q /\ pp_alpha p = pp_alpha q /\ pp_rflag p = pp_rflag q.
(** Calls that fly: errors and resets. *)
Definition flies (op : PidOp T) : bool := match op with OpCompute _ _ | OpComputeD _ _ _ | OpReset => true | _ => false end.

(** A controller whose loop [w] is built with other parameters. *)
Definition with_loop (w : Which) (pp : PidParams T) (p : CtlParams T) : CtlParams T :=
  match w with
  | WIndi => mkCP (cp_acro p) (mkIP (ip_inertia (cp_indi p)) (ip_minv (cp_indi p)) pp) (cp_pos p) (cp_traj p) (cp_vel p)
  | WPos => mkCP (cp_acro p) (cp_indi p) pp (cp_traj p) (cp_vel p)
  | WTraj => mkCP (cp_acro p) (cp_indi p) (cp_pos p) pp (cp_vel p)
  | WVel => mkCP (cp_acro p) (cp_indi p) (cp_pos p) (cp_traj p) pp
  end.
Definition params_of (w : Which) (p : CtlParams T) : PidParams T :=
  match w with WIndi => ip_pid (cp_indi p) | WPos => cp_pos p | WTraj => cp_traj p | WVel => cp_vel p end.

(** A control mode carried out by hand with the conversion calls, each fed the answers of the
    ones before; the last rotor answer and the controller afterwards. *)
Definition vec_answer (a : option (Answer T)) (k : V3 T -> option (Answer T) * Ctl T) (c : Ctl T) : option (Answer T) * Ctl T :=
  match a with Some (AVec v) => k v | _ => (None, c) end.
Definition hand_acro (c : Ctl T) (cw : V3 T) (th : T) (w : V3 T) (dt : T) : option (Answer T) * Ctl T :=
  (answer c (CConvAcro cw th w dt), ctl_step c (CConvAcro cw th w dt)).
Definition hand_acc (c : Ctl T) (R : M3 T) (cw acc : V3 T) (yaw dt : T) : option (Answer T) * Ctl T :=
  match answer c (CConvAcc acc R yaw) with
  | Some (AAcro th w) => hand_acro (ctl_step c (CConvAcc acc R yaw)) cw th w dt
  | _ => (None, c)
  end.
Definition hand_traj (c : Ctl T) (cp cv : V3 T) (R : M3 T) (cw dp dv da : V3 T) (yaw dt : T) : option (Answer T) * Ctl T :=
  let op := CConvTraj cp cv dp dv da dt in
  vec_answer (answer c op) (fun a => hand_acc (ctl_step c op) R cw a yaw dt) c.
Definition hand_vel (c : Ctl T) (cv : V3 T) (R : M3 T) (cw dv : V3 T) (yaw dt : T) : option (Answer T) * Ctl T :=
  let op := CConvVel cv dv dt in
  vec_answer (answer c op) (fun a => hand_acc (ctl_step c op) R cw a yaw dt) c.
Definition hand_pos (c : Ctl T) (cp : V3 T) (R : M3 T) (cv cw dp : V3 T) (yaw dt : T) : option (Answer T) * Ctl T :=
  let op := CConvPos cp dp dt in
  vec_answer (answer c op) (fun v => hand_vel (ctl_step c op) cv R cw v yaw dt) c.
Definition by_hand (c : Ctl T) (op : CtlOp T) : option (Answer T) * Ctl T :=
  match op with
  | CAcro cw th w dt => hand_acro c cw th w dt
  | CAcc R cw acc yaw dt => hand_acc c R cw acc yaw dt
  | CTraj cp cv R cw dp dv da yaw dt => hand_traj c cp cv R cw dp dv da yaw dt
  | CVel cv R cw dv yaw dt => hand_vel c cv R cw dv yaw dt
  | CPos cp R cv cw dp yaw dt => hand_pos c cp R cv cw dp yaw dt
  | _ => (None, c)
  end.
Definition is_mode (op : CtlOp T) : bool :=
  match op with CAcro _ _ _ _ | CAcc _ _ _ _ _ | CTraj _ _ _ _ _ _ _ _ _ | CVel _ _ _ _ _ _ | CPos _ _ _ _ _ _ _ => true | _ => false end.
End Spec.
