(** Specification vocabulary for the PID controllers. *)

From Coq Require Import ZArith List Bool Reals.
From Verif Require Import Scalar LinAlg MPid MPid1 SpecDyn.
Import ListNotations.

(** What a caller sees: the values returned by the compute_control calls. *)
Definition is_compute {T} (op : PidOp T) : bool :=
  match op with OpCompute _ _ | OpComputeD _ _ _ => true | _ => false end.
Fixpoint returned {T} {O : Ops T} (p : Pid T) (ops : list (PidOp T)) : list (V3 T) :=
  match ops with
  | [] => []
  | op :: r => let p' := pid_step p op in
               if is_compute op then pid_output p' :: returned p' r else returned p' r
  end.

Definition is_compute1 {T} (op : Pid1Op T) : bool :=
  match op with Op1Compute _ _ | Op1ComputeD _ _ _ => true | _ => false end.
(** [None] marks undefined behaviour; the values returned before it are kept. *)
Fixpoint returned1 {T} {O : Ops T} (p : Pid1 T) (ops : list (Pid1Op T)) : list (option T) :=
  match ops with
  | [] => []
  | op :: r => match pid1_step p op with
               | Some p' => if is_compute1 op then Some (pid1_output p') :: returned1 p' r else returned1 p' r
               | None => [None] end
  end.

(** Controllers that a user can hold. *)
Definition Reached {T} {O : Ops T} (p : Pid T) : Prop := exists pp ops, p = pid_run (pid_new pp) ops.
Definition Reached1 {T} {O : Ops T} (p : Pid1 T) : Prop := exists pp ops, pid1_run (pid1_new pp) ops = Some p.

(** [x] exceeds neither limit. *)
Definition inside {T} {O : Ops T} (x up lo : T) : Prop := ltb up x = false /\ ltb x lo = false.

Local Open Scope R_scope.

(** Limits that allow a zero output. *)
Definition around_zero (up lo : V3 R) : Prop := forall a, pr a lo <= 0 <= pr a up.
Definition within (x up lo : V3 R) : Prop := forall a, pr a lo <= pr a x <= pr a up.

(** ** The textbook controller: one axis, a list of (dt, error), latest first *)
Fixpoint int_sum (l : list (R * R)) : R :=
  match l with [] => 0 | (dt, e) :: r => int_sum r + e * dt end.
(** First-order filtered difference quotient; nothing to difference on the
    first call. *)
Fixpoint filtered (alpha : R) (l : list (R * R)) : R :=
  match l with
  | [] => 0
  | (dt, e) :: r => match r with
                    | [] => 0
                    | (_, e') :: _ => alpha * ((e - e') / dt) + (1 - alpha) * filtered alpha r
                    end
  end.
Definition textbook (kp ki kd alpha : R) (l : list (R * R)) : R :=
  match l with
  | [] => 0
  | (_, e) :: _ => kp * e + ki * int_sum l + kd * filtered alpha l
  end.
(** One axis of a list of vector calls in calling order. *)
Definition axis_calls (a : Ax) (l : list (R * V3 R)) : list (R * R) :=
  rev (map (fun c => (fst c, pr a (snd c))) l).

Definition calls_of (l : list (R * V3 R)) : list (PidOp R) := map (fun c => OpCompute (fst c) (snd c)) l.
(** The overload that is given the derivative. *)
Definition dcalls_of (l : list (R * V3 R * V3 R)) : list (PidOp R) :=
  map (fun c => OpComputeD (fst (fst c)) (snd (fst c)) (snd c)) l.
(** No saturation, no anti-windup, no integral reset. *)
Definition plain (p : Pid R) : Prop :=
  pid_sat_on p = false /\ (forall a, pr a (pid_aw p) = 0) /\ pid_reset_flag p = false.

(** ** One axis of a vector controller as a scalar controller *)
Definition axis_params (a : Ax) (p : PidParams R) : P1Params R :=
  mkPP1 (pr a (pp_kp p)) (pr a (pp_ki p)) (pr a (pp_kd p)) (pr a (pp_aw p)) (pr a (pp_alpha p))
    (pp_rflag p) (pr a (pp_up p)) (pr a (pp_lo p)).
(** The scalar calls corresponding to one vector call. *)
Definition axis_op (a : Ax) (op : PidOp R) : list (Pid1Op R) :=
  match op with
  | OpUpdate pp => [Op1Update (axis_params a pp)]
  | OpReset => [Op1Reset]
  | OpSetSat up lo _ => [Op1SetSat (pr a up) (pr a lo)]
  | OpDisableSat => [Op1DisableSat]
  | OpGains kp ki kd => [Op1Gains (pr a kp) (pr a ki) (pr a kd)]
  | OpKp k => [Op1Kp (pr a k)]
  | OpKi k => [Op1Ki (pr a k)]
  | OpKd k => [Op1Kd (pr a k)]
  | OpAw aw => [Op1Aw (pr a aw)]
  | OpAlpha al => [Op1Alpha (pr a al)]
  | OpRflag b => [Op1Rflag b]
  | OpPflag _ => []
  | OpCompute dt e => [Op1Compute dt (pr a e)]
  | OpComputeD dt e de => [Op1ComputeD dt (pr a e) (pr a de)]
  end.
Definition axis_ops (a : Ax) (ops : list (PidOp R)) : list (Pid1Op R) := flat_map (axis_op a) ops.
(** Anti-windup off on every axis or on for every axis. *)
Definition uniform_windup (aw : V3 R) : Prop := (forall a, pr a aw = 0) \/ (forall a, 0 < pr a aw).
(** The range is wide enough for the setter; on every axis or on none. *)
Definition wide (up lo : R) : Prop := (@eps R _) <= up - lo.
Definition uniform_limits (up lo : V3 R) : Prop :=
  (forall a, wide (pr a up) (pr a lo)) \/ (forall a, ~ wide (pr a up) (pr a lo)).
Definition separable (pp : PidParams R) : Prop :=
  pp_pflag pp = false /\ uniform_windup (pp_aw pp) /\ uniform_limits (pp_up pp) (pp_lo pp).
Definition separable_op (op : PidOp R) : Prop :=
  match op with
  | OpUpdate pp => separable pp
  | OpSetSat up lo f => f = false /\ uniform_limits up lo
  | OpAw aw => uniform_windup aw
  | OpPflag b => b = false
  | _ => True
  end.

(** Calls that do not touch the anti-windup constant or the integral-reset flag. *)
Definition keeps_windup {T} (op : PidOp T) : bool :=
  match op with OpUpdate _ | OpAw _ | OpRflag _ => false | _ => true end.
(** The same settings with the integral-reset flag set to [b]. *)
Definition with_reset_flag {T} (b : bool) (p : PidParams T) : PidParams T :=
  mkPP (pp_kp p) (pp_ki p) (pp_kd p) (pp_aw p) (pp_alpha p) b (pp_pflag p) (pp_up p) (pp_lo p).
(** The value of the first call after a reset. *)
Definition first_value (sat : bool) (kp ki aw up lo e dt : R) (windup : bool) : R :=
  let i := if windup then limited (e * dt) (- aw) aw else e * dt in
  let x := kp * e + ki * i in
  if sat then limited x lo up else x.
