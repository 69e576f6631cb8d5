(** Property theorems: the scripted flights of the example programs. *)

From Coq Require Import ZArith List Bool Reals String.
From Flocq Require Import Core BinarySingleNaN.
From Verif Require Import Scalar Float64 LinAlg MUtils MModel MDynamics MPid MControl MCtlRun MImu MSim MText MExample MConfig MScript
  SpecDyn SpecRun SpecPid SpecCtl SpecImu SpecSim SpecText SpecExample SpecConfig SpecRound SpecScript PScript PScriptMore PScript64 EConfig EScript.
Import ListNotations.
Local Open Scope R_scope.

(** ** C78 *)
Theorem C78_sound :
  forall {T} {O : Ops T} {G H : Gen T}, Sane O ->
  forall fmt (v : Scripted T) sp (ops : list (SimOp T G H)) (s : Sim T G H) tmax dt k,
  fitting_params 4 sp -> Forall (fits_short 4) ops -> sim_after 4 sp ops = Some s ->
  ltb dtmax dt = false -> leb dt zero = false -> sound (scripted fmt v tmax dt k s).
Proof. exact @scripted_sound. Qed.
Print Assumptions C78_sound.

Theorem C78_ends :
  forall {T} {O : Ops T} {G H : Gen T}, Sane O ->
  forall fmt (v : Scripted T) sp (ops : list (SimOp T G H)) (s : Sim T G H) tmax dt,
  fitting_params 4 sp -> Forall (fits_short 4) ops -> sim_after 4 sp ops = Some s ->
  ltb dtmax dt = false -> leb dt zero = false ->
  (exists k f, scripted fmt v tmax dt k s = Landed f) <-> exists n, ltb (time_at dt n) tmax = false.
Proof. exact @scripted_ends. Qed.
Print Assumptions C78_ends.

Theorem C78_rows :
  forall {T} {O : Ops T} {G H : Gen T}, Sane O ->
  forall fmt (v : Scripted T) sp (ops : list (SimOp T G H)) (s : Sim T G H) tmax dt k,
  fitting_params 4 sp -> Forall (fits_short 4) ops -> sim_after 4 sp ops = Some s ->
  ltb dtmax dt = false -> leb dt zero = false ->
  exists n f (log : list (T * Sim T G H)), after_iterations (scripted fmt v tmax dt k s) tmax dt k n f /\ log_file fmt log = Some (sh_log f) /\
    map fst log = repeat zero (rows_before v) ++ map (time_at dt) (seq 0 n).
Proof. exact @scripted_rows. Qed.
Print Assumptions C78_rows.

Theorem C78_lands :
  forall {G H : Gen R} fmt (v : Scripted R) sp (ops : list (SimOp R G H)) (s : Sim R G H) tmax dt,
  plain_printer fmt -> fitting_params 4 sp -> Forall (fits 4) ops -> sim_after 4 sp ops = Some s -> four_rotors s ->
  0 < dt <= 2147483647 / 100 ->
  (forall k, sound (scripted fmt v tmax dt k s)) /\
  exists k f n, scripted fmt v tmax dt k s = Landed f /\ tmax <= sh_t f /\ sh_t f = INR n * dt /\ (n = O \/ INR (n - 1) * dt < tmax) /\
    complete_log (rows_before v + n) (sh_log f).
Proof. exact @scripted_lands. Qed.
Print Assumptions C78_lands.

(** In binary64 the flight ends if the step is at least 2^-51 of the duration. *)
Theorem C78_lands_binary64 :
  forall L, let O := F64Ops L in forall (G H : Gen b64) fmt v sp (ops : list (SimOp b64 G H)) s tmax dt,
  fitting_params 4 sp -> Forall (fits_short 4) ops -> sim_after 4 sp ops = Some s ->
  fin dt -> fin tmax -> 0 < val dt -> ltb dtmax dt = false -> val tmax / 2251799813685248 <= val dt ->
  exists k f, scripted fmt v tmax dt k s = Landed f.
Proof. exact scripted_lands64. Qed.
Print Assumptions C78_lands_binary64.

(** And never ends if some time before the end absorbs the step. *)
Theorem C78_endless_binary64 :
  forall L, let O := F64Ops L in forall (G H : Gen b64) fmt v sp (ops : list (SimOp b64 G H)) s tmax dt m,
  fitting_params 4 sp -> Forall (fits_short 4) ops -> sim_after 4 sp ops = Some s ->
  fin dt -> fin tmax -> fin m -> 0 < val dt -> ltb dtmax dt = false -> 0 <= val m < val tmax -> add m dt = m ->
  forall k, exists f, scripted fmt v tmax dt k s = Flying f.
Proof. exact scripted_endless64. Qed.
Print Assumptions C78_endless_binary64.

Theorem C78_lands_refuted :
  forall L, let O := F64Ops L in forall (G H : Gen b64) fmt v p, exists (s : Sim b64 G H) dt tmax,
  get_simulator p FromCode = Some s /\ ltb zero dt = true /\ leb dt dtmax = true /\
  forall k, exists f, scripted fmt v tmax dt k s = Flying f.
Proof. exact (fun L G H => @endless L G H). Qed.
Print Assumptions C78_lands_refuted.

(** The calls made. *)
Theorem C78_arm_calls :
  forall {T} {O : Ops T} {G H : Gen T} fmt tmax dt k (s : Sim T G H) f,
  let w := scripted fmt ArmOnly tmax dt k s in w = Flying f \/ w = Landed f ->
  exists n, after_iterations w tmax dt k n f /\ sim_run 4 s (arm_calls dt n) = Some (sh_sim f).
Proof. exact @arm_made. Qed.
Print Assumptions C78_arm_calls.

Theorem C78_motor_calls :
  forall {T} {O : Ops T} {G H : Gen T} fmt tmax dt k (s : Sim T G H) f,
  let w := scripted fmt FullSpeed tmax dt k s in w = Flying f \/ w = Landed f ->
  exists n, after_iterations w tmax dt k n f /\ sim_run 4 s (motor_calls dt n) = Some (sh_sim f).
Proof. exact @motor_made. Qed.
Print Assumptions C78_motor_calls.

Theorem C78_pitch_calls :
  forall {T} {O : Ops T} {G H : Gen T} fmt tmax dt k (s : Sim T G H) f,
  let w := scripted fmt PitchUp tmax dt k s in w = Flying f \/ w = Landed f ->
  exists n, after_iterations w tmax dt k n f /\ sim_run 4 s (indi_calls dt n) = Some (sh_sim f).
Proof. exact @indi_made. Qed.
Print Assumptions C78_pitch_calls.

Theorem C78_trajectory_calls :
  forall {T} {O : Ops T} {G H : Gen T} fmt duration curve wps speed tmax dt k (s : Sim T G H) f,
  let w := scripted fmt (AlongTrajectory (timed_maker duration curve) wps speed) tmax dt k s in w = Flying f \/ w = Landed f ->
  let p0 := s_pos (sim_state s) in
  exists n, after_iterations w tmax dt k n f /\
  sim_run 4 s (trajectory_calls (duration p0 wps speed) (curve p0 wps speed) (here s) (yaw_now s) dt n) = Some (sh_sim f).
Proof. exact @trajectory_made. Qed.
Print Assumptions C78_trajectory_calls.

Theorem C78_takeoff_calls :
  forall {T} {O : Ops T} {G H : Gen T} fmt duration curve wps speed tmax dt k (s : Sim T G H) f,
  let w := scripted fmt (TakeoffFirst (timed_maker duration curve) wps speed) tmax dt k s in w = Flying f \/ w = Landed f ->
  let p0 := s_pos (sim_state s) in let top := mkV (add (vx p0) zero) (add (vy p0) zero) (add (vz p0) (ofZ 3)) in
  exists n, after_iterations w tmax dt k n f /\
  sim_run 4 s (takeoff_calls (duration p0 [top] one) (duration top wps speed) (curve p0 [top] one) (curve top wps speed)
    (here s) (yaw_now s) dt n) = Some (sh_sim f).
Proof. exact @takeoff_made. Qed.
Print Assumptions C78_takeoff_calls.

(** What they amount to. *)
Theorem C78_full_speed :
  forall {T} {O : Ops T} {G H : Gen T} fmt tmax dt k (s : Sim T G H) f, sm_armed s = true ->
  let w := scripted fmt FullSpeed tmax dt k s in w = Flying f \/ w = Landed f ->
  sm_act (update_controller 4 (sh_sim f) dt) = repeat (mul one (ofZ 2200)) 4.
Proof. exact @motor_force. Qed.
Print Assumptions C78_full_speed.

Theorem C78_pitch :
  forall {G H : Gen R} fmt p c (s : Sim R G H) tmax dt k f, sensible c -> effective_rotors c -> get_simulator p c = Some s -> 0 < dt ->
  let w := scripted fmt PitchUp tmax dt k s in w = Flying f \/ w = Landed f ->
  let s1 := update_controller 4 (sh_sim f) dt in
  get_force_by_motors (d_model (sm_dyn s1)) (sm_act s1) = Some (mkV 0 0 15) /\
  exists n, after_iterations w tmax dt k n f /\
    get_desired_angular_velocity (sm_ctl s1) = mkV 0 (if Rle_dec (INR (n - 1) * dt) 2 then 1/10 else 0) 0.
Proof. exact @pitch_delivers. Qed.
Print Assumptions C78_pitch.

Theorem C78_trajectory :
  forall {T} {O : Ops T} {G H : Gen T} fmt duration curve wps speed tmax dt k (s : Sim T G H) f,
  let w := scripted fmt (AlongTrajectory (timed_maker duration curve) wps speed) tmax dt k s in w = Flying f \/ w = Landed f ->
  let p0 := s_pos (sim_state s) in let r := sm_refs (sh_sim f) in
  exists n, after_iterations w tmax dt k n f /\ sm_mode (sh_sim f) = TRAJECTORY /\ sm_armed (sh_sim f) = sm_armed s /\
    rf_yaw r = vz (quat_to_euler (s_ori (sim_state s))) /\
    aiming (duration p0 wps speed) (curve p0 wps speed) (mkPt p0 (s_vel (sim_state s)) (s_linacc (sim_state s))) dt n (mkPt (rf_pos r) (rf_vel r) (rf_acc r)).
Proof. exact @trajectory_aims. Qed.
Print Assumptions C78_trajectory.

Example C78_case : forall {G H : Gen R} fmt v, plain_printer (T := R) fmt -> exists (s : Sim R G H) f,
  sensible (FromFile doc_ex) /\ effective_rotors (FromFile doc_ex) /\ get_simulator FlyExample (FromFile doc_ex) = Some s /\ four_rotors s /\
  scripted fmt v 3 (1/2) 7 s = Landed f /\ sh_t f = 3 /\ complete_log (rows_before v + 6) (sh_log f).
Proof. exact @script_ex. Qed.
Example C78_case_binary64 : forall L, let O := F64Ops L in forall (G H : Gen b64) fmt v p, exists (s : Sim b64 G H) dt tmax,
  get_simulator p FromCode = Some s /\ dt = lit 1 1000 /\ tmax = ofZ 60 /\ exists k f, scripted fmt v tmax dt k s = Landed f.
Proof. exact (fun L G H => @landing_case L G H). Qed.
