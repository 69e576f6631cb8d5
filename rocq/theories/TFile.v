(** Property theorems: where the numbers of a configuration file go. *)

From Coq Require Import ZArith List Bool Reals.
From Verif Require Import Scalar Float64 LinAlg MUtils MModel MDynamics MPid MControl MCtlRun MImu MSim MConfig
  SpecDyn SpecRun SpecSim SpecConfig SpecSet SpecFile EPid PFile EFile.
Import ListNotations.

(** ** C69 *)
Theorem C69_as_written :
  forall {T} {O : Ops T} {G H : Gen T}, Sane O -> forall p (d : Doc T) ops (s s' : Sim T G H),
  check_params (sp_model (program_params p (FromFile d))) = true ->
  get_simulator p (FromFile d) = Some s -> Forall flight_call ops -> sim_run 4 s ops = Some s' ->
  state_as_written d (sim_state s) /\ sensor_as_written d s /\
  (exists v, get_params (d_model (sm_dyn s')) = Some v /\ vehicle_as_written d v) /\ loops_of p d (sm_ctl s').
Proof. exact @as_written. Qed.
Print Assumptions C69_as_written.

Theorem C69_unread :
  forall {T} {O : Ops T} {G H : Gen T} (d : Doc T),
  (forall k, get_simulator (G := G) (H := H) FlyExample (FromFile (other_traj d k)) = get_simulator FlyExample (FromFile d)) /\
  (forall kp kv, get_simulator (G := G) (H := H) TrajExample (FromFile (other_posvel d kp kv)) = get_simulator TrajExample (FromFile d)).
Proof. exact @unread. Qed.
Print Assumptions C69_unread.

Theorem C69_trajectory_filter :
  forall {T} {O : Ops T} {G H : Gen T} p (d : Doc T) (s : Sim T G H), get_simulator p (FromFile d) = Some s ->
  pid_alpha (get_pid WTraj (sm_ctl s)) = v1.
Proof. exact @traj_filter. Qed.
Print Assumptions C69_trajectory_filter.

Example C69_case : forall {G H : Gen R}, exists s : Sim R G H, check_params (sp_model (program_params FlyExample (FromFile doc_t))) = true /\
  get_simulator FlyExample (FromFile doc_t) = Some s /\
  pid_kp (get_pid WPos (sm_ctl s)) = (mkV 1 2 3)%R /\ pid_alpha (get_pid WPos (sm_ctl s)) = r3 (1/2) /\
  pid_sat_on (get_pid WPos (sm_ctl s)) = true /\ fst (pid_limits (get_pid WPos (sm_ctl s))) = (mkV 5 6 7)%R /\
  vz (snd (pid_limits (get_pid WPos (sm_ctl s)))) = (-7)%R.
Proof. exact @file_case. Qed.
