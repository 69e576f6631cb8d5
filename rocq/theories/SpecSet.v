(** Specification vocabulary for settings: which call sets what, and the value
    set last. *)

From Coq Require Import ZArith List Bool Reals.
From Verif Require Import Scalar LinAlg MUtils MModel MDynamics MPid MPid1 MControl MCtlRun MImu MSim.
Import ListNotations.

(** The last value set by a history, [init] if there is none. *)
Fixpoint last_set {Op A} (sets : Op -> option A) (init : A) (ops : list Op) : A :=
  match ops with
  | [] => init
  | op :: r => last_set sets (match sets op with Some a => a | None => init end) r
  end.

Section SpecSet.
Context {T : Type} {O : Ops T}.

(** ** Vector PID *)
Definition sets_kp (op : PidOp T) : option (V3 T) :=
  match op with OpUpdate p => Some (pp_kp p) | OpGains k _ _ => Some k | OpKp k => Some k | _ => None end.
Definition sets_ki (op : PidOp T) : option (V3 T) :=
  match op with OpUpdate p => Some (pp_ki p) | OpGains _ k _ => Some k | OpKi k => Some k | _ => None end.
Definition sets_kd (op : PidOp T) : option (V3 T) :=
  match op with OpUpdate p => Some (pp_kd p) | OpGains _ _ k => Some k | OpKd k => Some k | _ => None end.
Definition sets_aw (op : PidOp T) : option (V3 T) :=
  match op with OpUpdate p => Some (pp_aw p) | OpAw a => Some a | _ => None end.
Definition sets_alpha (op : PidOp T) : option (V3 T) :=
  match op with OpUpdate p => Some (pp_alpha p) | OpAlpha a => Some a | _ => None end.
Definition sets_reset (op : PidOp T) : option bool :=
  match op with OpUpdate p => Some (pp_rflag p) | OpRflag b => Some b | _ => None end.
(** A usable range: not narrower than the tolerance and not inverted. *)
Definition usable (u l : T) : bool := negb (ltb (absT (sub u l)) eps) && negb (ltb u l).
Definition usable3 (up lo : V3 T) : bool := usable (vx up) (vx lo) && usable (vy up) (vy lo) && usable (vz up) (vz lo).
Definition given (p : PidParams T) : bool := negb (veqb (pp_lo p) v0 && veqb (pp_up p) v0).
Definition sets_sat (op : PidOp T) : option bool :=
  match op with
  | OpUpdate p => Some (given p && usable3 (pp_up p) (pp_lo p))
  | OpSetSat up lo _ => Some (usable3 up lo)
  | OpDisableSat => Some false
  | _ => None
  end.
Definition sets_prop (op : PidOp T) : option bool :=
  match op with
  | OpUpdate p => Some (pp_pflag p)
  | OpPflag b => Some b
  | OpSetSat up lo b => if usable3 up lo then Some b else None
  | _ => None
  end.
Definition sets_limits (op : PidOp T) : option (V3 T * V3 T) :=
  match op with
  | OpUpdate p => if given p && usable3 (pp_up p) (pp_lo p) then Some (pp_up p, pp_lo p) else None
  | OpSetSat up lo _ => if usable3 up lo then Some (up, lo) else None
  | _ => None
  end.

(** ** Scalar PID *)
Definition sets1_kp (op : Pid1Op T) : option T :=
  match op with Op1Update p => Some (pp1_kp p) | Op1Gains k _ _ => Some k | Op1Kp k => Some k | _ => None end.
Definition sets1_ki (op : Pid1Op T) : option T :=
  match op with Op1Update p => Some (pp1_ki p) | Op1Gains _ k _ => Some k | Op1Ki k => Some k | _ => None end.
Definition sets1_kd (op : Pid1Op T) : option T :=
  match op with Op1Update p => Some (pp1_kd p) | Op1Gains _ _ k => Some k | Op1Kd k => Some k | _ => None end.
Definition sets1_aw (op : Pid1Op T) : option T :=
  match op with Op1Update p => Some (pp1_aw p) | Op1Aw a => Some a | _ => None end.
Definition sets1_alpha (op : Pid1Op T) : option T :=
  match op with Op1Update p => Some (pp1_alpha p) | Op1Alpha a => Some a | _ => None end.
Definition sets1_reset (op : Pid1Op T) : option bool :=
  match op with Op1Update p => Some (pp1_rflag p) | Op1Rflag b => Some b | _ => None end.
Definition given1 (p : P1Params T) : bool := negb (eqb (pp1_up p) zero && eqb (pp1_lo p) zero).
Definition sets1_sat (op : Pid1Op T) : option bool :=
  match op with
  | Op1Update p => Some (given1 p && usable (pp1_up p) (pp1_lo p))
  | Op1SetSat u l => Some (usable u l)
  | Op1DisableSat => Some false
  | _ => None
  end.
(** The limits are those of the last accepted range, also while disabled. *)
Definition sets1_limits (op : Pid1Op T) : option (T * T) :=
  match op with
  | Op1Update p => if given1 p && usable (pp1_up p) (pp1_lo p) then Some (pp1_up p, pp1_lo p) else None
  | Op1SetSat u l => if usable u l then Some (u, l) else None
  | _ => None
  end.

(** ** Controller *)
Definition sets_mass (op : CtlOp T) : option T :=
  match op with CUpdate p => Some (ap_mass (cp_acro p)) | CUpdAcro p => Some (ap_mass p) | CMass m => Some m | _ => None end.
Definition sets_grav (op : CtlOp T) : option (V3 T) :=
  match op with CUpdate p => Some (ap_grav (cp_acro p)) | CUpdAcro p => Some (ap_grav p) | CGrav g => Some g | _ => None end.
Definition sets_kprot (op : CtlOp T) : option (M3 T) :=
  match op with CUpdate p => Some (ap_kp (cp_acro p)) | CUpdAcro p => Some (ap_kp p) | CKp k => Some k | _ => None end.
Definition sets_inertia (op : CtlOp T) : option (M3 T) :=
  match op with CUpdate p => Some (ip_inertia (cp_indi p)) | CUpdIndi p => Some (ip_inertia p) | CInertia m => Some m | _ => None end.
Definition sets_mixer (op : CtlOp T) : option (list (V3 T * V3 T)) :=
  match op with CUpdate p => Some (ip_minv (cp_indi p)) | CUpdIndi p => Some (ip_minv p) | CMixer m => Some m | _ => None end.
Definition loop_params (w : Which) (p : CtlParams T) : PidParams T :=
  match w with WIndi => ip_pid (cp_indi p) | WPos => cp_pos p | WTraj => cp_traj p | WVel => cp_vel p end.
Definition same_loop (a b : Which) : bool :=
  match a, b with WIndi, WIndi | WPos, WPos | WTraj, WTraj | WVel, WVel => true | _, _ => false end.
(** The calls of a controller history that reach the PID of the loop [w] as
    setting calls. *)
Definition reaches (w : Which) (op : CtlOp T) : list (PidOp T) :=
  match op with
  | CUpdate p => [OpUpdate (loop_params w p)]
  | CUpdIndi p => if same_loop w WIndi then [OpUpdate (ip_pid p)] else []
  | CUpdPid v p => if same_loop w v then [OpUpdate p] else []
  | CPid v o => if same_loop w v then [o] else []
  | _ => []
  end.

(** ** Simulator references *)
Context {G H : Gen T}.
Inductive RefVal :=
| VMotors (w : list T) | VThrust (t : T) | VRates (w : V3 T) | VPos (p : V3 T) | VVel (v : V3 T) | VAcc (a : V3 T)
| VYaw (y : T) | VYawRate (y : T).
(** What the getter returns. *)
Definition ref_is (s : Sim T G H) (v : RefVal) : Prop :=
  match v with
  | VMotors w => rf_motors (sm_refs s) = w | VThrust t => rf_thrust (sm_refs s) = t | VRates w => rf_ang (sm_refs s) = w
  | VPos p => rf_pos (sm_refs s) = p | VVel u => rf_vel (sm_refs s) = u | VAcc a => rf_acc (sm_refs s) = a
  | VYaw y => rf_yaw (sm_refs s) = y | VYawRate y => rf_yawrate (sm_refs s) = y
  end.
(** What a setter asks for. *)
Definition requests (op : SimOp T G H) : list RefVal :=
  match op with
  | SRefMotors w => [VMotors w] | SRefAcro t w => [VThrust t; VRates w] | SRefTraj p v a => [VPos p; VVel v; VAcc a]
  | SRefVel v => [VVel v] | SRefPos p => [VPos p] | SRefYaw y => [VYaw y] | SRefYawRate y => [VYawRate y]
  | _ => []
  end.
(** Calls after which a reference may be another one: its own setters, a change
    of mode, arming (thrust, rates, position), a controller update in yaw-rate
    mode (yaw). *)
Definition replaces (op : SimOp T G H) (v : RefVal) : Prop :=
  match v, op with
  | VMotors _, SRefMotors _ => True
  | VThrust _, (SRefAcro _ _ | SMode _ _ | SArm) => True
  | VRates _, (SRefAcro _ _ | SMode _ _ | SArm) => True
  | VPos _, (SRefPos _ | SRefTraj _ _ _ | SMode _ _ | SArm) => True
  | VVel _, (SRefVel _ | SRefTraj _ _ _ | SMode _ _) => True
  | VAcc _, (SRefTraj _ _ _ | SMode _ _) => True
  | VYaw _, (SRefYaw _ | SMode _ _ | SController _) => True
  | VYawRate _, SRefYawRate _ => True
  | _, _ => False
  end.

(** Calls after which the yaw reference may be another one in angle mode. *)
Definition replaces_yaw (o : SimOp T G H) : Prop := match o with SRefYaw _ | SMode _ _ => True | _ => False end.

(** A part setter leaves everything but its part. *)
Definition is_dyn (o : SimOp T G H) : Prop := match o with SSetDyn _ _ _ => True | _ => False end.
Definition is_ctl (o : SimOp T G H) : Prop := match o with SSetCtl _ => True | _ => False end.
Definition is_imu (o : SimOp T G H) : Prop := match o with SSetImu _ => True | _ => False end.
Definition is_odom (o : SimOp T G H) : Prop := match o with SSetOdom _ => True | _ => False end.
Definition part_setter (o : SimOp T G H) : Prop := is_dyn o \/ is_ctl o \/ is_imu o \/ is_odom o.
Definition only_part (o : SimOp T G H) (s s' : Sim T G H) : Prop :=
  (~ is_dyn o -> sm_dyn s' = sm_dyn s) /\ (~ is_ctl o -> sm_ctl s' = sm_ctl s) /\
  (~ is_imu o -> sm_imu s' = sm_imu s) /\ (~ is_odom o -> sm_odom s' = sm_odom s) /\
  sm_armed s' = sm_armed s /\ sm_floor_en s' = sm_floor_en s /\ sm_floor_col s' = sm_floor_col s /\ sm_floor_h s' = sm_floor_h s /\
  sm_refs s' = sm_refs s /\ sm_act s' = sm_act s /\ sm_ext s' = sm_ext s /\ sm_mode s' = sm_mode s /\ sm_yawmode s' = sm_yawmode s.

(** Parameters with one part replaced. *)
Definition with_vehicle (sp : SimParams T) (p : Params T) (seed : Z) (st : State T) : SimParams T :=
  mkSP p seed st (sp_ctl sp) (sp_imu sp) (sp_odom sp).
Definition with_controller (sp : SimParams T) (c : CtlParams T) : SimParams T :=
  mkSP (sp_model sp) (sp_seed sp) (sp_state sp) c (sp_imu sp) (sp_odom sp).
Definition with_sensor (sp : SimParams T) (i : ImuParams T) : SimParams T :=
  mkSP (sp_model sp) (sp_seed sp) (sp_state sp) (sp_ctl sp) i (sp_odom sp).
Definition with_odometry (sp : SimParams T) (o : OdomParams T) : SimParams T :=
  mkSP (sp_model sp) (sp_seed sp) (sp_state sp) (sp_ctl sp) (sp_imu sp) o.

End SpecSet.
Arguments RefVal : clear implicits.
