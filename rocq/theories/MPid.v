(** Model of pid_controller/include/pid_controller/pid.hpp, class PID<P, 3>
    (dimension 3 is the one the simulator instantiates). *)

From Coq Require Import ZArith List Bool.
From Verif Require Import Scalar LinAlg.
Import ListNotations.

(** pid.hpp:45-68 PIDParams. *)
Record PidParams (T : Type) := mkPP {
  pp_kp : V3 T; pp_ki : V3 T; pp_kd : V3 T;
  pp_aw : V3 T;            (* antiwindup_cte *)
  pp_alpha : V3 T;
  pp_rflag : bool;         (* reset_integral_flag *)
  pp_pflag : bool;         (* proportional_saturation_flag *)
  pp_up : V3 T;            (* upper_output_saturation *)
  pp_lo : V3 T             (* lower_output_saturation *)
}.
Arguments mkPP {T}. Arguments pp_kp {T}. Arguments pp_ki {T}. Arguments pp_kd {T}.
Arguments pp_aw {T}. Arguments pp_alpha {T}. Arguments pp_rflag {T}. Arguments pp_pflag {T}.
Arguments pp_up {T}. Arguments pp_lo {T}.

(** pid.hpp:104-118 configuration members.  Gains are stored as full
    diagonal matrices. *)
Record PidCfg (T : Type) := mkPC {
  pc_kp : M3 T; pc_ki : M3 T; pc_kd : M3 T;
  pc_aw : V3 T; pc_alpha : V3 T;
  pc_rflag : bool; pc_sflag : bool; pc_pflag : bool;
  pc_up : V3 T; pc_lo : V3 T
}.
Arguments mkPC {T}. Arguments pc_kp {T}. Arguments pc_ki {T}. Arguments pc_kd {T}.
Arguments pc_aw {T}. Arguments pc_alpha {T}. Arguments pc_rflag {T}. Arguments pc_sflag {T}.
Arguments pc_pflag {T}. Arguments pc_up {T}. Arguments pc_lo {T}.

(** pid.hpp:120-131 state and debug members. *)
Record PidSt (T : Type) := mkPS {
  ps_first : bool;         (* first_run_ *)
  ps_acc : V3 T;           (* integral_accum_error_ *)
  ps_filt : V3 T;          (* filtered_derivate_error_ *)
  ps_perr : V3 T;          (* proportional_error_ *)
  ps_derr : V3 T;          (* derivative_error_ *)
  ps_cp : V3 T; ps_ci : V3 T; ps_cd : V3 T;   (* ..._contribution_ *)
  ps_out : V3 T            (* output_ *)
}.
Arguments mkPS {T}. Arguments ps_first {T}. Arguments ps_acc {T}. Arguments ps_filt {T}.
Arguments ps_perr {T}. Arguments ps_derr {T}. Arguments ps_cp {T}. Arguments ps_ci {T}.
Arguments ps_cd {T}. Arguments ps_out {T}.

Record Pid (T : Type) := mkPid { pid_c : PidCfg T; pid_s : PidSt T }.
Arguments mkPid {T}. Arguments pid_c {T}. Arguments pid_s {T}.

Section Pid.
Context {T : Type} {O : Ops T}.
Local Open Scope sc_scope.

Definition vdiagm (v : V3 T) : M3 T := mdiag (vx v) (vy v) (vz v).   (* asDiagonal() *)
Definition mdiagv (m : M3 T) : V3 T := mkV (m00 m) (m11 m) (m22 m).  (* diagonal() *)

(** pid.hpp:205 disable_output_saturation. *)
Definition pc_disable_sat (c : PidCfg T) : PidCfg T :=
  mkPC (pc_kp c) (pc_ki c) (pc_kd c) (pc_aw c) (pc_alpha c) (pc_rflag c)
       false (pc_pflag c) (pc_up c) (pc_lo c).

(** pid.hpp:189-190: both limit vectors written inside the loop. *)
Definition pc_write_limits (c : PidCfg T) (up lo : V3 T) : PidCfg T :=
  mkPC (pc_kp c) (pc_ki c) (pc_kd c) (pc_aw c) (pc_alpha c) (pc_rflag c)
       (pc_sflag c) (pc_pflag c) up lo.

(** pid.hpp:176-188: the two tests that reject an axis. *)
Definition sat_bad (u l : T) : bool := (absT (u - l) <? eps) || (u <? l).

(** pid.hpp:171-195 set_output_saturation; the loop over the three axes. *)
Definition pc_set_sat (c : PidCfg T) (up lo : V3 T) (pflag : bool) : PidCfg T :=
  if sat_bad (vx up) (vx lo) then pc_disable_sat c else
  let c1 := pc_write_limits c up lo in
  if sat_bad (vy up) (vy lo) then pc_disable_sat c1 else
  let c2 := pc_write_limits c1 up lo in
  if sat_bad (vz up) (vz lo) then pc_disable_sat c2 else
  let c3 := pc_write_limits c2 up lo in
  mkPC (pc_kp c3) (pc_ki c3) (pc_kd c3) (pc_aw c3) (pc_alpha c3) (pc_rflag c3)
       true pflag (pc_up c3) (pc_lo c3).

(** pid.hpp:404-408 set_gains. *)
Definition pc_set_gains (c : PidCfg T) (kp ki kd : V3 T) : PidCfg T :=
  mkPC (vdiagm kp) (vdiagm ki) (vdiagm kd) (pc_aw c) (pc_alpha c) (pc_rflag c)
       (pc_sflag c) (pc_pflag c) (pc_up c) (pc_lo c).
(** pid.hpp:428 set_gains_kp, 442 set_gains_ki, 456 set_gains_kd. *)
Definition pc_set_kp (c : PidCfg T) (k : V3 T) : PidCfg T :=
  mkPC (vdiagm k) (pc_ki c) (pc_kd c) (pc_aw c) (pc_alpha c) (pc_rflag c)
       (pc_sflag c) (pc_pflag c) (pc_up c) (pc_lo c).
Definition pc_set_ki (c : PidCfg T) (k : V3 T) : PidCfg T :=
  mkPC (pc_kp c) (vdiagm k) (pc_kd c) (pc_aw c) (pc_alpha c) (pc_rflag c)
       (pc_sflag c) (pc_pflag c) (pc_up c) (pc_lo c).
Definition pc_set_kd (c : PidCfg T) (k : V3 T) : PidCfg T :=
  mkPC (pc_kp c) (pc_ki c) (vdiagm k) (pc_aw c) (pc_alpha c) (pc_rflag c)
       (pc_sflag c) (pc_pflag c) (pc_up c) (pc_lo c).
(** pid.hpp:474 set_anti_windup. *)
Definition pc_set_aw (c : PidCfg T) (aw : V3 T) : PidCfg T :=
  mkPC (pc_kp c) (pc_ki c) (pc_kd c) aw (pc_alpha c) (pc_rflag c)
       (pc_sflag c) (pc_pflag c) (pc_up c) (pc_lo c).
(** pid.hpp:495 set_alpha. *)
Definition pc_set_alpha (c : PidCfg T) (al : V3 T) : PidCfg T :=
  mkPC (pc_kp c) (pc_ki c) (pc_kd c) (pc_aw c) al (pc_rflag c)
       (pc_sflag c) (pc_pflag c) (pc_up c) (pc_lo c).
(** pid.hpp:516-518 set_reset_integral_saturation_flag. *)
Definition pc_set_rflag (c : PidCfg T) (b : bool) : PidCfg T :=
  mkPC (pc_kp c) (pc_ki c) (pc_kd c) (pc_aw c) (pc_alpha c) b
       (pc_sflag c) (pc_pflag c) (pc_up c) (pc_lo c).
(** pid.hpp:539-541 set_proportional_saturation_flag. *)
Definition pc_set_pflag (c : PidCfg T) (b : bool) : PidCfg T :=
  mkPC (pc_kp c) (pc_ki c) (pc_kd c) (pc_aw c) (pc_alpha c) (pc_rflag c)
       (pc_sflag c) b (pc_up c) (pc_lo c).

(** pid.hpp:141-155 update_pid_params. *)
Definition pc_update (c0 : PidCfg T) (p : PidParams T) : PidCfg T :=
  let c := pc_set_pflag (pc_set_rflag (pc_set_alpha (pc_set_aw
             (pc_set_gains c0 (pp_kp p) (pp_ki p) (pp_kd p)) (pp_aw p)) (pp_alpha p))
             (pp_rflag p)) (pp_pflag p) in
  if negb (veqb (pp_lo p) v0) || negb (veqb (pp_up p) v0)
  then pc_set_sat c (pp_up p) (pp_lo p) (pp_pflag p)
  else pc_disable_sat c.

(** pid.hpp:105-131 default member initialisers. *)
Definition pc0 : PidCfg T := mkPC mI mI mI v0 v0 false false false v0 v0.
Definition ps0 : PidSt T := mkPS true v0 v0 v0 v0 v0 v0 v0 v0.

(** pid.hpp:54-67 default PIDParams. *)
Definition pp0 : PidParams T := mkPP v0 v0 v0 v0 v1 false false v0 v0.

(** pid.hpp:162 reset_controller. *)
Definition ps_reset (s : PidSt T) : PidSt T :=
  mkPS true (ps_acc s) (ps_filt s) (ps_perr s) (ps_derr s) (ps_cp s) (ps_ci s) (ps_cd s) (ps_out s).

Definition pid_update (p : Pid T) (pp : PidParams T) : Pid T :=
  mkPid (pc_update (pid_c p) pp) (pid_s p).
Definition pid_reset (p : Pid T) : Pid T := mkPid (pid_c p) (ps_reset (pid_s p)).

(** pid.hpp:92-97 constructor. *)
Definition pid_new (pp : PidParams T) : Pid T := pid_reset (pid_update (mkPid pc0 ps0) pp).

(** pid.hpp:355-361: one axis of the per-axis saturation. *)
Definition sat1 (x u l : T) : T := if u <? x then u else if x <? l then l else x.
(** pid.hpp:367-375: one iteration [j] of the proportional saturation; [get]
    selects coefficient j. *)
Definition psat1 (get : V3 T -> T) (up lo s : V3 T) : V3 T :=
  let factor := if get up <? get s then get up / get s
                else if get s <? get lo then get lo / get s else one in
  vscale factor s.
(** pid.hpp:347-378 saturate_output. *)
Definition saturate (x up lo : V3 T) (prop : bool) : V3 T :=
  if negb prop
  then mkV (sat1 (vx x) (vx up) (vx lo)) (sat1 (vy x) (vy up) (vy lo)) (sat1 (vz x) (vz up) (vz lo))
  else psat1 vz up lo (psat1 vy up lo (psat1 vx up lo x)).

(** pid.hpp:631-639: the sign-change reset of one axis. *)
Definition rst1 (flag : bool) (acc aw e : T) : T :=
  if flag then
    if aw <? absT acc then
      if xorb (signbitT acc) (signbitT e) then zero else acc
    else acc
  else acc.

(** pid.hpp:628-648 compute_integral_contribution, the new accumulator. *)
Definition pid_acc (c : PidCfg T) (acc : V3 T) (dt : T) (e : V3 T) : V3 T :=
  let a1 := mkV (rst1 (pc_rflag c) (vx acc) (vx (pc_aw c)) (vx e))
                (rst1 (pc_rflag c) (vy acc) (vy (pc_aw c)) (vy e))
                (rst1 (pc_rflag c) (vz acc) (vz (pc_aw c)) (vz e)) in
  let a2 := vadd a1 (vscaler e dt) in
  if negb (veqb (pc_aw c) v0) then saturate a2 (pc_aw c) (vscale mone (pc_aw c)) false else a2.

(** pid.hpp:251-256 and 300-305: initialisation on the first run. *)
Definition ps_init (s : PidSt T) (e : V3 T) : PidSt T :=
  if ps_first s
  then mkPS false v0 v0 e (ps_derr s) (ps_cp s) (ps_ci s) (ps_cd s) (ps_out s)
  else s.

(** pid.hpp:662-669: the filtered derivative of the error. *)
Definition pid_filt (c : PidCfg T) (s : PidSt T) (dt : T) (e : V3 T) : V3 T :=
  let inc := vdiv (vsub e (ps_perr s)) dt in
  vadd (vcmul (pc_alpha c) inc) (vcmul (vsub v1 (pc_alpha c)) (ps_filt s)).

(** pid.hpp:268-276 and 316-324: sum and optional saturation. *)
Definition pid_out (c : PidCfg T) (cp ci cd : V3 T) : V3 T :=
  let o := vadd (vadd cp ci) cd in
  if pc_sflag c then saturate o (pc_up c) (pc_lo c) (pc_pflag c) else o.

(** pid.hpp:249-282 compute_control(dt, error).  The result is [ps_out]. *)
Definition pid_compute (p : Pid T) (dt : T) (e : V3 T) : Pid T :=
  let c := pid_c p in
  let s := ps_init (pid_s p) e in
  let cp := mmulv (pc_kp c) e in
  let acc := pid_acc c (ps_acc s) dt e in
  let ci := mmulv (pc_ki c) acc in
  let filt := pid_filt c s dt e in
  let cd := mmulv (pc_kd c) filt in
  mkPid c (mkPS false acc filt e (ps_derr s) cp ci cd (pid_out c cp ci cd)).

(** pid.hpp:296-331 compute_control(dt, error, derivative error). *)
Definition pid_compute_d (p : Pid T) (dt : T) (e de : V3 T) : Pid T :=
  let c := pid_c p in
  let s := ps_init (pid_s p) e in
  let cp := mmulv (pc_kp c) e in
  let acc := pid_acc c (ps_acc s) dt e in
  let ci := mmulv (pc_ki c) acc in
  let cd := mmulv (pc_kd c) de in
  mkPid c (mkPS false acc (ps_filt s) e de cp ci cd (pid_out c cp ci cd)).

(** pid.hpp:214-217, 229-240 get_error. *)
Definition get_error (state reference : V3 T) : V3 T := vsub reference state.

(** pid.hpp:386-395 get_params (getters 417-421, 485, 505, 529, 551, 558-562). *)
Definition pid_get_params (p : Pid T) : PidParams T :=
  let c := pid_c p in
  mkPP (mdiagv (pc_kp c)) (mdiagv (pc_ki c)) (mdiagv (pc_kd c))
       (pc_aw c) (pc_alpha c) (pc_rflag c) (pc_pflag c) (pc_up c) (pc_lo c).

(** pid.hpp:435, 449, 463 get_gains_kp/ki/kd; 485 get_anti_windup; 570
    get_output_saturation_flag; 529 get_reset_integral_saturation_flag; 551
    get_proportional_saturation_flag; 558-562
    get_saturation_limits. *)
Definition pid_kp (p : Pid T) : V3 T := mdiagv (pc_kp (pid_c p)).
Definition pid_ki (p : Pid T) : V3 T := mdiagv (pc_ki (pid_c p)).
Definition pid_kd (p : Pid T) : V3 T := mdiagv (pc_kd (pid_c p)).
Definition pid_aw (p : Pid T) : V3 T := pc_aw (pid_c p).
Definition pid_alpha (p : Pid T) : V3 T := pc_alpha (pid_c p).
Definition pid_sat_on (p : Pid T) : bool := pc_sflag (pid_c p).
Definition pid_reset_flag (p : Pid T) : bool := pc_rflag (pid_c p).
Definition pid_prop_on (p : Pid T) : bool := pc_pflag (pid_c p).
Definition pid_limits (p : Pid T) : V3 T * V3 T := (pc_up (pid_c p), pc_lo (pid_c p)).
(** pid.hpp:618 get_output, 591, 600, 609 the contribution getters. *)
Definition pid_output (p : Pid T) : V3 T := ps_out (pid_s p).
Definition pid_prop_part (p : Pid T) : V3 T := ps_cp (pid_s p).
Definition pid_int_part (p : Pid T) : V3 T := ps_ci (pid_s p).
Definition pid_der_part (p : Pid T) : V3 T := ps_cd (pid_s p).

(** Public operations of the class as one type, for statements about every
    history of calls. *)
Inductive PidOp :=
| OpUpdate (pp : PidParams T)             (* update_pid_params *)
| OpReset                                 (* reset_controller *)
| OpSetSat (up lo : V3 T) (pflag : bool)  (* set_output_saturation *)
| OpDisableSat                            (* disable_output_saturation *)
| OpGains (kp ki kd : V3 T)               (* set_gains *)
| OpKp (k : V3 T)                         (* set_gains_kp *)
| OpKi (k : V3 T)                         (* set_gains_ki *)
| OpKd (k : V3 T)                         (* set_gains_kd *)
| OpAw (aw : V3 T)                        (* set_anti_windup *)
| OpAlpha (al : V3 T)                     (* set_alpha *)
| OpRflag (b : bool)                      (* set_reset_integral_saturation_flag *)
| OpPflag (b : bool)                      (* set_proportional_saturation_flag *)
| OpCompute (dt : T) (e : V3 T)           (* compute_control/2 *)
| OpComputeD (dt : T) (e de : V3 T).      (* compute_control/3 *)

Definition on_cfg (p : Pid T) (f : PidCfg T -> PidCfg T) : Pid T := mkPid (f (pid_c p)) (pid_s p).

Definition pid_step (p : Pid T) (op : PidOp) : Pid T :=
  match op with
  | OpUpdate pp => pid_update p pp
  | OpReset => pid_reset p
  | OpSetSat up lo f => on_cfg p (fun c => pc_set_sat c up lo f)
  | OpDisableSat => on_cfg p pc_disable_sat
  | OpGains kp ki kd => on_cfg p (fun c => pc_set_gains c kp ki kd)
  | OpKp k => on_cfg p (fun c => pc_set_kp c k)
  | OpKi k => on_cfg p (fun c => pc_set_ki c k)
  | OpKd k => on_cfg p (fun c => pc_set_kd c k)
  | OpAw aw => on_cfg p (fun c => pc_set_aw c aw)
  | OpAlpha al => on_cfg p (fun c => pc_set_alpha c al)
  | OpRflag b => on_cfg p (fun c => pc_set_rflag c b)
  | OpPflag b => on_cfg p (fun c => pc_set_pflag c b)
  | OpCompute dt e => pid_compute p dt e
  | OpComputeD dt e de => pid_compute_d p dt e de
  end.

Definition pid_run (p : Pid T) (ops : list PidOp) : Pid T := fold_left pid_step ops p.

End Pid.
Arguments PidOp : clear implicits.
