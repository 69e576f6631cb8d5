(** Theorems on the arithmetic the simulator runs in: C114 and C115 (C10 and C19), C22 and C24 in
    binary64, after the exact versions in TDyn and TPid. *)

From Coq Require Import ZArith Bool List Reals.
From Flocq Require Import Core BinarySingleNaN.
From Verif Require Import Scalar Float64 LinAlg MUtils MModel MDynamics MPid SpecDyn SpecRun SpecPid SpecRound SpecNumber SpecPidNum SpecExact SpecLag
  PRound
  PLagRun PPlace PPid64 EBase PWitDyn EExact ELag EPid64.
Import ListNotations.
Local Open Scope R_scope.

(** ** C114 (C10 in binary64)
    Over any run of calls that command a rotor to the same speed, with steps
    shorter than its time constant, the rotor moves towards that speed and never
    past it, roundings included. *)
Theorem C114_towards :
  forall L, let O := F64Ops L in
  forall (G : Gen b64) (l : list (Call b64)) p i m cmd n, nth_error (p_motors p) i = Some m ->
  upto 64 (mt_min m) -> upto 64 (mt_max m) -> atleast (-64) (mt_tau m) ->
  fin cmd -> val (mt_min m) <= val cmd <= val (mt_max m) ->
  Forall (fun c => commands n i cmd c /\ fin (k_dt c) /\ shorter (val dtmax) (val (k_dt c)) (val (mt_tau m))) l ->
  forall (d d' : Dyn b64 G) w, get_params (d_model d) = Some p -> length (s_mvel (d_state d)) = n -> nth_error (s_mvel (d_state d)) i = Some w ->
  fin w -> val (mt_min m) <= val w <= val (mt_max m) ->
  dyn_run d l = Some d' -> exists w', nth_error (s_mvel (d_state d')) i = Some w' /\ fin w' /\ toward (val w) (val w') (val cmd).
Proof. exact (fun L G => rotor_run L (G := G)). Qed.
Print Assumptions C114_towards.

(** A speed that one step does not change is kept for ever, whatever the arithmetic. *)
Theorem C114_stalls :
  forall T (O : Ops T) (G : Gen T) (l : list (Call T)) p i m cmd cd w h n, nth_error (p_motors p) i = Some m ->
  clamp cmd (mt_min m) (mt_max m) = Some cd -> clamp (w + (cd - w) / mt_tau m * h)%sc (mt_min m) (mt_max m) = Some w -> ltb dtmax h = false ->
  Forall (fun c => commands n i cmd c /\ k_dt c = h) l ->
  forall d d' : Dyn T G, get_params (d_model d) = Some p -> length (s_mvel (d_state d)) = n -> nth_error (s_mvel (d_state d)) i = Some w ->
  dyn_run d l = Some d' -> nth_error (s_mvel (d_state d')) i = Some w.
Proof. exact (fun T O G => @rotor_stalls T O G). Qed.
Print Assumptions C114_stalls.

(** In binary64 a rotor need not reach its command: one unit in the last place
    below it, it stays there for ever. *)
Theorem C114_stops_short :
  forall L, let O := F64Ops L in
  exists d : Dyn b64 gen1, dyn_new 4 (x_params L) 0 (l_state L) = Some d /\ Bltb (l_w L) (l_cmd L) = true /\
  forall k, exists d', dyn_run d (repeat (l_call L) k) = Some d' /\ nth_error (s_mvel (d_state d')) 0 = Some (l_w L).
Proof. exact (fun L => stops_short L). Qed.
Print Assumptions C114_stops_short.

Example C114_case : forall L, let O := F64Ops L in
  exists (d : Dyn b64 gen1) m, dyn_new 4 (x_params L) 0 (climb L) = Some d /\ nth_error (p_motors (x_params L)) 0 = Some m /\
  upto 64 (mt_min m) /\ upto 64 (mt_max m) /\ atleast (-64) (mt_tau m) /\ fin (ofZ 5) /\ val (mt_min m) <= val (ofZ 5) <= val (mt_max m) /\
  val (mt_min m) <= val (l_w L) <= val (mt_max m) /\
  Forall (fun c => commands 4 0 (ofZ 5) c /\ fin (k_dt c) /\ shorter (val dtmax) (val (k_dt c)) (val (mt_tau m))) (repeat (l_slow L) 3) /\
  match dyn_run d (repeat (l_slow L) 3) with
  | Some d' => match nth_error (s_mvel (d_state d')) 0 with Some w => Bltb (ofZ 5) w && Bltb w (l_w L) | None => false end | None => false end = true.
Proof. exact (fun L => follow_case L). Qed.

(** ** C115 (C19 in any arithmetic)
    Moving the vehicle changes nothing but where it is, whatever the arithmetic:
    attitude, velocities, accelerations, forces, rotors and the noise generator
    are equal, not close, and the two flights are defined or undefined together. *)
Theorem C115_place_independent :
  forall T (O : Ops T) (G : Gen T) (d : Dyn T G) p (l : list (Call T)),
  both (fun a b => d_state b = put (d_state a) (s_pos (d_state b)) /\ d_model b = d_model a) (dyn_run d l) (dyn_run (dyn_set_state d (put (d_state d) p)) l).
Proof. exact (fun T O G => @place_independent T O G). Qed.
Print Assumptions C115_place_independent.

(** The path itself is not merely displaced in binary64: a vehicle that climbs at
    1 m/s stands still when it is 2^53 m up. *)
Theorem C115_stands_still :
  forall L, let O := F64Ops L in
  exists d a b : Dyn b64 gen1, dyn_new 4 (x_params L) 0 (climb L) = Some d /\
  dyn_run d [l_call L] = Some a /\ dyn_run (dyn_set_state d (put (d_state d) (far_up L))) [l_call L] = Some b /\
  Bltb (vz (s_pos (d_state d))) (vz (s_pos (d_state a))) = true /\ s_pos (d_state b) = far_up L.
Proof. exact (fun L => no_motion_far L). Qed.
Print Assumptions C115_stands_still.

(** ** C22
    Settings and steps of size g, errors of size h. *)
Theorem C22_binary64 :
  forall L, let O := F64Ops L in
  forall g h, (0 <= g <= h)%Z -> (h + 2 * g + 60 <= 1000)%Z ->
  forall pp ops op a, sane_settings g pp -> Forall (sane_op g h) ops -> sane_op g h op -> is_compute op = true ->
  let p := pid_run (pid_new pp) ops in (exists b, val (pr b (pid_aw p)) <> 0) -> 0 <= val (pr a (pid_aw p)) ->
  Rabs (val (pr a (pid_int_part (pid_step p op)))) <= rnd (Rabs (val (pr a (pid_ki p))) * val (pr a (pid_aw p))).
Proof. exact (fun L => int_within L). Qed.
Print Assumptions C22_binary64.

Example C22_binary64_case : forall L, let O := F64Ops L in
  sane_settings 64 (w_pp L) /\ Forall (sane_op 64 64) (w_ops L) /\ sane_op 64 64 (w_op L) /\
  let p := pid_run (pid_new (w_pp L)) (w_ops L) in
  Bltb (b64_ofZ 0) (vx (pid_aw p)) = true /\ Beqb (vx (pid_int_part (pid_step p (w_op L)))) (Bmult mode_NE (vx (pid_ki p)) (vx (pid_aw p))) = true.
Proof. exact (fun L => w_case L). Qed.

(** ** C24
    The derivative part of the first call after a reset is exactly zero. *)
Theorem C24_binary64 :
  forall L, let O := F64Ops L in
  forall g h, (0 <= g <= h)%Z -> (h + 2 * g + 60 <= 1000)%Z ->
  forall pp ops dt e a, sane_settings g pp -> Forall (sane_op g h) ops -> sane_step g dt -> upto3 h e ->
  nought (pr a (pid_der_part (pid_step (pid_reset (pid_run (pid_new pp) ops)) (OpCompute dt e)))).
Proof. exact (fun L => no_kick L). Qed.
Print Assumptions C24_binary64.

Example C24_binary64_case : forall L, let O := F64Ops L in
  sane_step 64 (lit 1 100) /\ upto3 64 (w_e L) /\
  let p := pid_run (pid_new (w_pp L)) (w_ops L) in
  Beqb (vy (pid_der_part (pid_step p (OpCompute (lit 1 100) (w_e L))))) (b64_ofZ 0) = false /\
  Beqb (vy (pid_der_part (pid_step (pid_reset p) (OpCompute (lit 1 100) (w_e L))))) (b64_ofZ 0) = true.
Proof. exact (fun L => w_first L). Qed.
