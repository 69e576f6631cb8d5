(** Proofs: where the numbers of a configuration file go. *)

From Coq Require Import ZArith List Bool Lia Reals Lra.
From Verif Require Import Scalar LinAlg MUtils MModel MDynamics MPid MPid1 MControl MCtlRun MImu MSim MText MExample MConfig
  SpecDyn SpecRun SpecPid SpecCtl SpecSim SpecConfig SpecSet SpecFile PBase PPid PCtl PSim PSimEnd PConfig PSet EConfig.
Import ListNotations.

Section File.
Context {T : Type} {O : Ops T} {G H : Gen T}.

Lemma doc_vehicle (d : Doc T) : vehicle_as_written d (doc_model d).
Proof.
  unfold vehicle_as_written, rotor_as_written, diagonal_of, doc_model, quad_x, vdiagm.
  cbn [p_mass p_grav p_drag p_fnoise p_mnoise p_inertia p_aero p_motors map mt_pos mt_dir].
  repeat (split; [reflexivity|]). split; [|split; reflexivity].
  repeat (apply Forall_cons; [cbn [mt_kf mt_kt mt_min mt_max mt_tau mt_J mt_rot]; repeat (split; [reflexivity|]); reflexivity|]). apply Forall_nil.
Qed.

(** Settings of a loop depend on its stored configuration only. *)
Lemma loop_of_cfg (k : PidSection T) (p q : Pid T) : pid_c p = pid_c q -> loop_as_written k q -> loop_as_written k p.
Proof.
  unfold loop_as_written, pid_kp, pid_ki, pid_kd, pid_aw, pid_reset_flag, pid_prop_on, pid_sat_on, pid_limits. intros ->. auto.
Qed.
Lemma default_of_cfg (p q : Pid T) : pid_c p = pid_c q -> loop_at_default q -> loop_at_default p.
Proof. unfold loop_at_default, pid_kp, pid_ki, pid_kd, pid_aw, pid_alpha, pid_reset_flag, pid_prop_on. intros ->. auto. Qed.
Lemma section_loop (k : PidSection T) al : loop_as_written k (pid_new (mkPP (ks_kp k) (ks_ki k) (ks_kd k) (ks_aw k) al false true (ks_limit k) (minus (ks_limit k)))).
Proof.
  set (pp := mkPP _ _ _ _ _ _ _ _ _). destruct (pid_last pp []) as (A & B & C & D & _ & E & F & S & L).
  unfold pid_run in *. cbn [fold_left last_set] in *.
  split; [exact A|]. split; [exact B|]. split; [exact C|]. split; [exact D|]. split; [exact E|]. split; [exact F|].
  split; [exact S|]. intros On. rewrite (L On (v0, v0)). rewrite S in On. rewrite On. reflexivity.
Qed.
Lemma default_loop : loop_at_default (pid_new (pp0 (T := T))).
Proof. destruct (pid_last (pp0 (T := T)) []) as (A & B & C & D & E & F & K & _). repeat (split; [assumption|]). exact K. Qed.

Lemma new_loops p (d : Doc T) : loops_of p d (ctl_new 4 (sp_ctl (program_params p (FromFile d)))).
Proof.
  split; [destruct p; exact (section_loop (yd_indi d) (ks_alpha (yd_indi d)))|]. split; [destruct p; reflexivity|].
  assert (Al : forall pp, pid_alpha (pid_new (T := T) pp) = pp_alpha pp) by (intros pp; exact (proj1 (proj2 (proj2 (proj2 (proj2 (pid_last pp [])))))) ).
  split; [destruct p|destruct p; exact (Al (pid_of_section (yd_indi d)))].
  - split; [exact (section_loop (yd_posc d) (ks_alpha (yd_posc d)))|]. split; [exact (section_loop (yd_velc d) (ks_alpha (yd_velc d)))|].
    split; [exact default_loop|]. split; [exact (Al (pid_of_section (yd_posc d)))|exact (Al (pid_of_section (yd_velc d)))].
  - split; [exact (section_loop (yd_traj d) _)|]. split; exact default_loop.
Qed.
Lemma loops_same p (d : Doc T) a b : same_setup a b -> loops_of p d b -> loops_of p d a.
Proof.
  intros (_ & _ & K & _ & _ & P) (A & B & C & D).
  assert (Al : forall w, pid_alpha (get_pid w a) = pid_alpha (get_pid w b)) by (intros w; unfold pid_alpha; rewrite (P w); reflexivity).
  split; [exact (loop_of_cfg _ _ _ (P WIndi) A)|]. split; [congruence|]. split; [|rewrite (Al WIndi); exact D].
  destruct p; [destruct C as (C1 & C2 & C3 & C4 & C5)|destruct C as (C1 & C2 & C3)].
  - split; [exact (loop_of_cfg _ _ _ (P WPos) C1)|]. split; [exact (loop_of_cfg _ _ _ (P WVel) C2)|].
    split; [exact (default_of_cfg _ _ (P WTraj) C3)|]. rewrite !Al. split; assumption.
  - split; [exact (loop_of_cfg _ _ _ (P WTraj) C1)|]. split; [exact (default_of_cfg _ _ (P WPos) C2)|exact (default_of_cfg _ _ (P WVel) C3)].
Qed.

Lemma as_written (Sn : Sane O) p (d : Doc T) ops (s s' : Sim T G H) :
  check_params (sp_model (program_params p (FromFile d))) = true ->
  get_simulator p (FromFile d) = Some s -> Forall flight_call ops -> sim_run 4 s ops = Some s' ->
  state_as_written d (sim_state s) /\ sensor_as_written d s /\
  (exists v, get_params (d_model (sm_dyn s')) = Some v /\ vehicle_as_written d v) /\ loops_of p d (sm_ctl s').
Proof.
  intros C K F Rn. destruct (started _ _ _ K) as (_ & _ & _ & St & _). destruct (simulator_start _ _ _ K) as (s0 & N & E).
  destruct (new_ctl _ _ _ N) as (Ec & Eo & Ei).
  split; [rewrite St; destruct p; unfold state_as_written; repeat (split; [reflexivity|]); reflexivity|].
  split.
  { unfold sensor_as_written. rewrite E. cbn [arm enable_floor sm_imu sm_odom]. rewrite Eo, Ei.
    assert (X : forall ip : ImuParams T, im_gvar (imu_new (G := H) ip) = imp_gvar ip /\ im_avar (imu_new (G := H) ip) = imp_avar ip /\
      im_gac (imu_new (G := H) ip) = imp_gac ip /\ im_aac (imu_new (G := H) ip) = imp_aac ip).
    { intros ip. unfold imu_new. destruct (draw3 H 2 _ _ _) as [gb [e1 d1]]. destruct (draw3 H 3 _ _ _) as [ab [e2 d2]].
      split; [|split; [|split]]; reflexivity. }
    destruct (X (sp_imu (program_params p (FromFile d)))) as (-> & -> & -> & ->).
    destruct p; repeat (split; [reflexivity|]); reflexivity. }
  destruct (matched Sn p (FromFile d) ops s s' C K F Rn) as (Gp & _).
  split; [eexists; split; [exact Gp|]; destruct p; apply doc_vehicle|].
  apply (loops_same p d _ (sm_ctl s)); [exact (proj2 (run_suits Sn 4 ops s s' F Rn))|].
  rewrite E. cbn [arm enable_floor sm_ctl]. rewrite Ec. apply new_loops.
Qed.

Lemma unread (d : Doc T) : 
  (forall k, get_simulator (G := G) (H := H) FlyExample (FromFile (other_traj d k)) = get_simulator FlyExample (FromFile d)) /\
  (forall kp kv, get_simulator (G := G) (H := H) TrajExample (FromFile (other_posvel d kp kv)) = get_simulator TrajExample (FromFile d)).
Proof. split; reflexivity. Qed.
Lemma traj_filter p (d : Doc T) (s : Sim T G H) : get_simulator p (FromFile d) = Some s -> pid_alpha (get_pid WTraj (sm_ctl s)) = v1.
Proof.
  intros K. destruct (simulator_start _ _ _ K) as (s0 & N & ->). destruct (new_ctl _ _ _ N) as (Ec & _ & _).
  cbn [arm enable_floor sm_ctl]. rewrite Ec.
  assert (Al : forall pp, pid_alpha (pid_new (T := T) pp) = pp_alpha pp) by (intros pp; exact (proj1 (proj2 (proj2 (proj2 (proj2 (pid_last pp [])))))) ).
  destruct p; [exact (Al pp0)|exact (Al (pid_of_section_traj (yd_traj d)))].
Qed.
End File.
