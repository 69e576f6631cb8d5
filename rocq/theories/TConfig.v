(** Property theorems: configuration of the example programs. *)

From Coq Require Import ZArith List Bool Reals String.
From Verif Require Import Scalar Float64 LinAlg MUtils MModel MDynamics MPid MControl MCtlRun MImu MSim MText MExample MConfig
  SpecDyn SpecRun SpecPid SpecCtl SpecImu SpecSim SpecText SpecExample SpecConfig PConfig EConfig.
Import ListNotations.
Local Open Scope R_scope.

(** ** C64 *)
Theorem C64_matched :
  forall {T} {O : Ops T} {G H : Gen T}, Sane O ->
  forall p (c : Source T) (ops : list (SimOp T G H)) (s s' : Sim T G H),
  check_params (sp_model (program_params p c)) = true ->
  get_simulator p c = Some s -> Forall flight_call ops -> sim_run 4 s ops = Some s' ->
  get_params (d_model (sm_dyn s')) = Some (sp_model (program_params p c)) /\
  knows_vehicle (sp_model (program_params p c)) (sm_ctl s') /\
  in_minv (ct_indi (sm_ctl s')) = mixer_inverse_of (p_motors (sp_model (program_params p c))).
Proof. exact @matched. Qed.
Print Assumptions C64_matched.

Theorem C64_started :
  forall {T} {O : Ops T} {G H : Gen T} p (c : Source T) (s : Sim T G H), get_simulator p c = Some s ->
  sm_armed s = true /\ sm_floor_en s = true /\ sm_floor_h s = program_floor c /\ sim_state s = sp_state (program_params p c) /\
  od_ori (sm_odom s) = s_ori (sim_state s) /\ vz (rf_pos (sm_refs s)) = program_floor c /\ sm_mode s = MOTOR_W /\ sm_act s = repeat zero 4.
Proof. exact @started. Qed.
Print Assumptions C64_started.

(** Whatever the armed controller asks for, its rotor commands give exactly
    that on the vehicle flown. *)
Theorem C64_delivered :
  forall {G H : Gen R} p c (ops : list (SimOp R G H)) (s s' : Sim R G H) dt, sensible c -> effective_rotors c ->
  get_simulator p c = Some s -> Forall flight_call ops -> sim_run 4 s ops = Some s' ->
  sm_armed s' = true -> sm_mode s' <> MOTOR_W ->
  let s1 := update_controller 4 s' dt in let v := d_model (sm_dyn s1) in let k := sm_ctl s1 in
  List.length (sm_act s1) = 4%nat /\
  get_force_by_motors v (sm_act s1) = Some (mkV 0 0 (get_desired_thrust k)) /\
  get_torque_by_motors v (sm_act s1) [0; 0; 0; 0] =
    Some (vec_of (euler_torque (p_inertia (sp_model (program_params p c))) (pid_output (get_pid WIndi k)) (get_desired_angular_velocity k))).
Proof. exact @delivered. Qed.
Print Assumptions C64_delivered.

Theorem C64_defined :
  forall {G H : Gen R} p c (ops : list (SimOp R G H)), sensible c -> Forall (fits 4) ops ->
  exists s s' : Sim R G H, get_simulator p c = Some s /\ sim_run 4 s ops = Some s'.
Proof. exact @program_runs. Qed.
Print Assumptions C64_defined.

Theorem C64_builtin_binary64 :
  forall L : Libm, let O := F64Ops L in forall (G H : Gen b64) p (ops : list (SimOp b64 G H)), Forall (fits_short 4) ops ->
  exists s s' : Sim b64 G H, get_simulator p FromCode = Some s /\ sim_run 4 s ops = Some s'.
Proof. exact builtin_defined. Qed.
Print Assumptions C64_builtin_binary64.

Theorem C64_tours :
  forall {G H : Gen R} fmt p c (s : Sim R G H) v refs tmax dt, plain_printer fmt -> sensible c -> get_simulator p c = Some s ->
  refs <> [] -> 0 < dt <= 2147483647 / 100 ->
  (forall k, sound (tour fmt v refs tmax dt k s)) /\
  exists k f, tour fmt v refs tmax dt k s = Landed f /\ tmax <= fl_t f.
Proof. exact @program_tour. Qed.
Print Assumptions C64_tours.

Example C64_case : forall {G H : Gen R}, exists s s' : Sim R G H,
  sensible (FromFile doc_ex) /\ effective_rotors (FromFile doc_ex) /\ get_simulator FlyExample (FromFile doc_ex) = Some s /\
  Forall (flight_call (G := G) (H := H)) [SMode POSITION ANGLE; SRefPos (mkV 1 2 3); SController (1/100); SDynamics (1/100)] /\
  sim_run 4 s [SMode POSITION ANGLE; SRefPos (mkV 1 2 3); SController (1/100); SDynamics (1/100)] = Some s' /\
  sm_armed s' = true /\ sm_mode s' = POSITION /\ p_mass (sp_model (program_params FlyExample (FromFile doc_ex))) = 2.
Proof. exact @config_ex. Qed.
