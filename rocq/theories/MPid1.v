(** Model of pid_controller/include/pid_controller/pid_1d.hpp, the scalar PID. *)

From Coq Require Import ZArith List Bool.
From Verif Require Import Scalar LinAlg MPid.
Import ListNotations.

(** pid_1d.hpp:45-65 PIDParams. *)
Record P1Params (T : Type) := mkPP1 {
  pp1_kp : T; pp1_ki : T; pp1_kd : T; pp1_aw : T; pp1_alpha : T;
  pp1_rflag : bool; pp1_up : T; pp1_lo : T }.
Arguments mkPP1 {T}. Arguments pp1_kp {T}. Arguments pp1_ki {T}. Arguments pp1_kd {T}.
Arguments pp1_aw {T}. Arguments pp1_alpha {T}. Arguments pp1_rflag {T}.
Arguments pp1_up {T}. Arguments pp1_lo {T}.

(** pid_1d.hpp:97-110 configuration members. *)
Record P1Cfg (T : Type) := mkPC1 {
  c1_kp : T; c1_ki : T; c1_kd : T; c1_aw : T; c1_alpha : T;
  c1_rflag : bool; c1_sflag : bool; c1_up : T; c1_lo : T }.
Arguments mkPC1 {T}. Arguments c1_kp {T}. Arguments c1_ki {T}. Arguments c1_kd {T}.
Arguments c1_aw {T}. Arguments c1_alpha {T}. Arguments c1_rflag {T}. Arguments c1_sflag {T}.
Arguments c1_up {T}. Arguments c1_lo {T}.

(** pid_1d.hpp:112-123 state and debug members. *)
Record P1St (T : Type) := mkPS1 {
  s1_first : bool; s1_acc : T; s1_filt : T; s1_perr : T; s1_derr : T;
  s1_cp : T; s1_ci : T; s1_cd : T; s1_out : T }.
Arguments mkPS1 {T}. Arguments s1_first {T}. Arguments s1_acc {T}. Arguments s1_filt {T}.
Arguments s1_perr {T}. Arguments s1_derr {T}. Arguments s1_cp {T}. Arguments s1_ci {T}.
Arguments s1_cd {T}. Arguments s1_out {T}.

Record Pid1 (T : Type) := mkPid1 { pid1_c : P1Cfg T; pid1_s : P1St T }.
Arguments mkPid1 {T}. Arguments pid1_c {T}. Arguments pid1_s {T}.

Section Pid1.
Context {T : Type} {O : Ops T}.
Local Open Scope sc_scope.

(** pid_1d.hpp:188 disable_output_saturation. *)
Definition c1_disable_sat (c : P1Cfg T) : P1Cfg T :=
  mkPC1 (c1_kp c) (c1_ki c) (c1_kd c) (c1_aw c) (c1_alpha c) (c1_rflag c) false (c1_up c) (c1_lo c).

(** pid_1d.hpp:159-177 set_output_saturation. *)
Definition c1_set_sat (c : P1Cfg T) (u l : T) : P1Cfg T :=
  if absT (u - l) <? eps then c1_disable_sat c
  else if u <? l then c1_disable_sat c
  else mkPC1 (c1_kp c) (c1_ki c) (c1_kd c) (c1_aw c) (c1_alpha c) (c1_rflag c) true u l.

(** pid_1d.hpp:349-353 set_gains. *)
Definition c1_set_gains (c : P1Cfg T) (kp ki kd : T) : P1Cfg T :=
  mkPC1 kp ki kd (c1_aw c) (c1_alpha c) (c1_rflag c) (c1_sflag c) (c1_up c) (c1_lo c).
(** pid_1d.hpp:373 set_kp, 387 set_ki, 401 set_kd. *)
Definition c1_set_kp (c : P1Cfg T) (k : T) : P1Cfg T := c1_set_gains c k (c1_ki c) (c1_kd c).
Definition c1_set_ki (c : P1Cfg T) (k : T) : P1Cfg T := c1_set_gains c (c1_kp c) k (c1_kd c).
Definition c1_set_kd (c : P1Cfg T) (k : T) : P1Cfg T := c1_set_gains c (c1_kp c) (c1_ki c) k.
(** pid_1d.hpp:415 set_anti_windup. *)
Definition c1_set_aw (c : P1Cfg T) (aw : T) : P1Cfg T :=
  mkPC1 (c1_kp c) (c1_ki c) (c1_kd c) aw (c1_alpha c) (c1_rflag c) (c1_sflag c) (c1_up c) (c1_lo c).
(** pid_1d.hpp:429 set_alpha. *)
Definition c1_set_alpha (c : P1Cfg T) (al : T) : P1Cfg T :=
  mkPC1 (c1_kp c) (c1_ki c) (c1_kd c) (c1_aw c) al (c1_rflag c) (c1_sflag c) (c1_up c) (c1_lo c).
(** pid_1d.hpp:447-449 set_reset_integral_saturation_flag. *)
Definition c1_set_rflag (c : P1Cfg T) (b : bool) : P1Cfg T :=
  mkPC1 (c1_kp c) (c1_ki c) (c1_kd c) (c1_aw c) (c1_alpha c) b (c1_sflag c) (c1_up c) (c1_lo c).

(** pid_1d.hpp:133-144 update_params. *)
Definition c1_update (c0 : P1Cfg T) (p : P1Params T) : P1Cfg T :=
  let c := c1_set_rflag (c1_set_alpha (c1_set_aw (c1_set_gains c0 (pp1_kp p) (pp1_ki p) (pp1_kd p))
             (pp1_aw p)) (pp1_alpha p)) (pp1_rflag p) in
  if negb (pp1_up p =? zero) || negb (pp1_lo p =? zero)
  then c1_set_sat c (pp1_up p) (pp1_lo p)
  else c1_disable_sat c.

(** pid_1d.hpp:98-123 default member initialisers, 53-64 default params. *)
Definition c10 : P1Cfg T := mkPC1 zero zero zero zero one false false zero zero.
Definition s10 : P1St T := mkPS1 true zero zero zero zero zero zero zero zero.
Definition pp10 : P1Params T := mkPP1 zero zero zero zero one false zero zero.

(** pid_1d.hpp:151 reset_controller. *)
Definition s1_reset (s : P1St T) : P1St T :=
  mkPS1 true (s1_acc s) (s1_filt s) (s1_perr s) (s1_derr s) (s1_cp s) (s1_ci s) (s1_cd s) (s1_out s).

Definition pid1_update (p : Pid1 T) (pp : P1Params T) : Pid1 T :=
  mkPid1 (c1_update (pid1_c p) pp) (pid1_s p).
Definition pid1_reset (p : Pid1 T) : Pid1 T := mkPid1 (pid1_c p) (s1_reset (pid1_s p)).

(** pid_1d.hpp:86-90 constructor. *)
Definition pid1_new (pp : P1Params T) : Pid1 T := pid1_reset (pid1_update (mkPid1 c10 s10) pp).

(** pid_1d.hpp:318-323 saturate_output: std::clamp(output, lower, upper). *)
Definition saturate1 (x u l : T) : option T := clamp x l u.

(** pid_1d.hpp:534-552 compute_integral_contribution, the new accumulator. *)
Definition pid1_acc (c : P1Cfg T) (acc dt e : T) : option T :=
  let a1 := rst1 (c1_rflag c) acc (c1_aw c) e in
  let a2 := a1 + e * dt in
  if negb (c1_aw c =? zero) then saturate1 a2 (c1_aw c) (mone * c1_aw c) else Some a2.

(** pid_1d.hpp:234-239 and 276-281 first-run initialisation. *)
Definition s1_init (s : P1St T) (e : T) : P1St T :=
  if s1_first s
  then mkPS1 false zero zero e (s1_derr s) (s1_cp s) (s1_ci s) (s1_cd s) (s1_out s)
  else s.

(** pid_1d.hpp:566-573 filtered derivative. *)
Definition pid1_filt (c : P1Cfg T) (s : P1St T) (dt e : T) : T :=
  c1_alpha c * ((e - s1_perr s) / dt) + (one - c1_alpha c) * s1_filt s.

(** pid_1d.hpp:251-257 and 292-298 sum and optional saturation. *)
Definition pid1_out (c : P1Cfg T) (cp ci cd : T) : option T :=
  let o := cp + ci + cd in
  if c1_sflag c then saturate1 o (c1_up c) (c1_lo c) else Some o.

(** pid_1d.hpp:232-262 compute_control(dt, error). *)
Definition pid1_compute (p : Pid1 T) (dt e : T) : option (Pid1 T) :=
  let c := pid1_c p in
  let s := s1_init (pid1_s p) e in
  let cp := c1_kp c * e in
  bindo (pid1_acc c (s1_acc s) dt e) (fun acc =>
  let ci := c1_ki c * acc in
  let filt := pid1_filt c s dt e in
  let cd := c1_kd c * filt in
  bindo (pid1_out c cp ci cd) (fun o =>
  Some (mkPid1 c (mkPS1 false acc filt e (s1_derr s) cp ci cd o)))).

(** pid_1d.hpp:272-304 compute_control(dt, error, derivative error). *)
Definition pid1_compute_d (p : Pid1 T) (dt e de : T) : option (Pid1 T) :=
  let c := pid1_c p in
  let s := s1_init (pid1_s p) e in
  let cp := c1_kp c * e in
  bindo (pid1_acc c (s1_acc s) dt e) (fun acc =>
  let ci := c1_ki c * acc in
  let cd := c1_kd c * de in
  bindo (pid1_out c cp ci cd) (fun o =>
  Some (mkPid1 c (mkPS1 false acc (s1_filt s) e de cp ci cd o)))).

(** pid_1d.hpp:332-340 get_params. *)
Definition pid1_get_params (p : Pid1 T) : P1Params T :=
  let c := pid1_c p in
  mkPP1 (c1_kp c) (c1_ki c) (c1_kd c) (c1_aw c) (c1_alpha c) (c1_rflag c) (c1_up c) (c1_lo c).

(** pid_1d.hpp:480 get_output_saturation_flag, 469-473 get_saturation_limits,
    422 get_anti_windup, 394 get_ki, 524 get_output, 510
    get_integral_error_contribution. *)
Definition pid1_sat_on (p : Pid1 T) : bool := c1_sflag (pid1_c p).
Definition pid1_limits (p : Pid1 T) : T * T := (c1_up (pid1_c p), c1_lo (pid1_c p)).
Definition pid1_aw (p : Pid1 T) : T := c1_aw (pid1_c p).
Definition pid1_ki (p : Pid1 T) : T := c1_ki (pid1_c p).
Definition pid1_output (p : Pid1 T) : T := s1_out (pid1_s p).
Definition pid1_int_part (p : Pid1 T) : T := s1_ci (pid1_s p).

(** Public operations. *)
Inductive Pid1Op :=
| Op1Update (pp : P1Params T)
| Op1Reset
| Op1SetSat (u l : T)
| Op1DisableSat
| Op1Gains (kp ki kd : T)
| Op1Kp (k : T)
| Op1Ki (k : T)
| Op1Kd (k : T)
| Op1Aw (aw : T)
| Op1Alpha (al : T)
| Op1Rflag (b : bool)
| Op1Compute (dt e : T)
| Op1ComputeD (dt e de : T).

Definition on_cfg1 (p : Pid1 T) (f : P1Cfg T -> P1Cfg T) : Pid1 T := mkPid1 (f (pid1_c p)) (pid1_s p).

Definition pid1_step (p : Pid1 T) (op : Pid1Op) : option (Pid1 T) :=
  match op with
  | Op1Update pp => Some (pid1_update p pp)
  | Op1Reset => Some (pid1_reset p)
  | Op1SetSat u l => Some (on_cfg1 p (fun c => c1_set_sat c u l))
  | Op1DisableSat => Some (on_cfg1 p c1_disable_sat)
  | Op1Gains kp ki kd => Some (on_cfg1 p (fun c => c1_set_gains c kp ki kd))
  | Op1Kp k => Some (on_cfg1 p (fun c => c1_set_kp c k))
  | Op1Ki k => Some (on_cfg1 p (fun c => c1_set_ki c k))
  | Op1Kd k => Some (on_cfg1 p (fun c => c1_set_kd c k))
  | Op1Aw aw => Some (on_cfg1 p (fun c => c1_set_aw c aw))
  | Op1Alpha al => Some (on_cfg1 p (fun c => c1_set_alpha c al))
  | Op1Rflag b => Some (on_cfg1 p (fun c => c1_set_rflag c b))
  | Op1Compute dt e => pid1_compute p dt e
  | Op1ComputeD dt e de => pid1_compute_d p dt e de
  end.

Fixpoint pid1_run (p : Pid1 T) (ops : list Pid1Op) : option (Pid1 T) :=
  match ops with
  | [] => Some p
  | op :: r => bindo (pid1_step p op) (fun p' => pid1_run p' r)
  end.

End Pid1.
Arguments Pid1Op : clear implicits.
