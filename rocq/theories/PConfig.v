(** Proofs about the configuration of the example programs. *)

From Coq Require Import ZArith List Bool Lia Reals Lra Psatz.
From Verif Require Import Scalar LinAlg MUtils MModel MDynamics MPid MControl MCtlRun MImu MSim MText MExample MConfig
  SpecDyn SpecRun SpecPid SpecCtl SpecImu SpecSim SpecText SpecExample SpecConfig
  PBase PDyn PModel PDynR PPhys PVeh PMix PDynMore PCtl PCtlR PCtlMix PSim PSimR PHover PSimEnd PExample.
Import ListNotations.

Section Gen.
Context {T : Type} {O : Ops T} {G H : Gen T}.
Implicit Types a b c : Ctl T.

Lemma settings_refl c : same_setup c c.
Proof. unfold same_setup. auto 10. Qed.
Lemma settings_trans a b c : same_setup a b -> same_setup b c -> same_setup a c.
Proof.
  intros (A1 & A2 & A3 & A4 & A5 & A6) (B1 & B2 & B3 & B4 & B5 & B6).
  split; [congruence|]. split; [congruence|]. split; [congruence|]. split; [congruence|]. split; [congruence|].
  intros w. rewrite A6. apply B6.
Qed.
Lemma settings_sym a b : same_setup a b -> same_setup b a.
Proof. intros (A1 & A2 & A3 & A4 & A5 & A6). unfold same_setup. auto 10. Qed.

Lemma acro_settings c w th des dt : same_setup (ctl_acro c w th des dt) c.
Proof. unfold ctl_acro, acro_to_motor. cbv zeta. repeat (split; [reflexivity|]). intros []; reflexivity. Qed.
Lemma acc_settings c A w acc yaw dt : same_setup (ctl_acc c A w acc yaw dt) c.
Proof.
  unfold ctl_acc, acc_to_acro. cbv zeta.
  match goal with |- same_setup (let '(th, w) := ?e in _) _ => destruct e as [th w'] end.
  eapply settings_trans; [apply acro_settings|]. repeat (split; [reflexivity|]). intros []; reflexivity.
Qed.
Lemma vel_settings c v A w dv yaw dt : same_setup (ctl_vel c v A w dv yaw dt) c.
Proof.
  unfold ctl_vel. cbv zeta. eapply settings_trans; [apply acc_settings|]. repeat (split; [reflexivity|]). intros []; reflexivity.
Qed.
Lemma pos_settings c p A v w dp yaw dt : same_setup (ctl_pos c p A v w dp yaw dt) c.
Proof.
  unfold ctl_pos. cbv zeta. eapply settings_trans; [apply vel_settings|]. repeat (split; [reflexivity|]). intros []; reflexivity.
Qed.
Lemma traj_settings c p v A w dp dv da yaw dt : same_setup (ctl_traj c p v A w dp dv da yaw dt) c.
Proof.
  unfold ctl_traj, traj_control. cbv zeta. eapply settings_trans; [apply acc_settings|]. repeat (split; [reflexivity|]). intros []; reflexivity.
Qed.

Implicit Types s : Sim T G H.
Lemma controller_settings n s dt : same_setup (sm_ctl (update_controller n s dt)) (sm_ctl s).
Proof.
  unfold update_controller. destruct (negb _); [apply settings_refl|]. cbv zeta.
  set (s1 := match sm_yawmode s with ANGLE => s | RATE => update_yaw_reference s end).
  assert (E : sm_ctl s1 = sm_ctl s) by (unfold s1; destruct (sm_yawmode s); reflexivity).
  rewrite <- E. destruct (sm_mode s1); cbn [with_control with_act with_ctl sm_ctl].
  - apply pos_settings.
  - apply settings_refl.
  - apply acro_settings.
  - apply traj_settings.
  - apply vel_settings.
  - apply pos_settings.
Qed.

Lemma step_settings n s op s' : flight_call op -> next (sim_step n s op) s' -> same_setup (sm_ctl s') (sm_ctl s).
Proof.
  intros F N. destruct op; try contradiction; cbn [sim_step] in N.
  1:{ assert (X : rest s' = rest s) by (eapply ud_rest; exact N). unfold rest in X. injection X as -> _ _ _ _ _ _ _. apply settings_refl. }
  all: destruct N as [N|N]; try discriminate; injection N as <-.
  all: try apply settings_refl.
  - apply controller_settings.
  - unfold set_control_mode. destruct (_ && _); apply settings_refl.
Qed.

(** The vehicle's parameters along a flight. *)
Lemma step_vehicle (Sn : Sane O) n s op s' : hands_off op -> next (sim_step n s op) s' ->
  mo_cfg (d_model (sm_dyn s')) = mo_cfg (d_model (sm_dyn s)).
Proof.
  intros F N. destruct op; try contradiction; cbn [sim_step] in N.
  1:{ destruct N as [N|N].
      - destruct (contact_cases _ _ _ N) as (ext & d & Fm & C). unfold free_motion in Fm.
        pose proof (process_cfg _ _ _ _ _ _ Fm) as Y.
        destruct C as [(_ & _ & _ & M & _)|(_ & D & _)]; congruence.
      - destruct (ud_throw Sn _ _ _ N) as [_ [[_ ->]|[_ (c & _ & ->)]]]; [reflexivity|]. destruct s; reflexivity. }
  all: destruct N as [N|N]; try discriminate; injection N as <-.
  all: try (destruct s; reflexivity).
  - unfold update_controller. destruct (negb _); [reflexivity|]. destruct s as [? ? ? ? ? ? ? ? ? ? ? [] []]; reflexivity.
  - unfold set_control_mode. destruct (_ && _); reflexivity.
Qed.
Lemma flight_hands_off (op : SimOp T G H) : flight_call op -> hands_off op.
Proof. destruct op; cbn; auto. Qed.

Lemma run_suits (Sn : Sane O) n ops s s' : Forall flight_call ops -> sim_run n s ops = Some s' ->
  mo_cfg (d_model (sm_dyn s')) = mo_cfg (d_model (sm_dyn s)) /\ same_setup (sm_ctl s') (sm_ctl s).
Proof.
  intros F. apply (run_inv n (fun x => mo_cfg (d_model (sm_dyn x)) = mo_cfg (d_model (sm_dyn s)) /\ same_setup (sm_ctl x) (sm_ctl s)) flight_call); [|split; [reflexivity|apply settings_refl]|exact F].
  intros x op y [Ia Ib] Q N. split.
  - rewrite (step_vehicle Sn n x op y (flight_hands_off op Q) N). exact Ia.
  - exact (settings_trans _ _ _ (step_settings n x op y Q N) Ib).
Qed.

Lemma program_suits p (c : Source T) : let sp := program_params p c in
  ap_mass (cp_acro (sp_ctl sp)) = p_mass (sp_model sp) /\ ap_grav (cp_acro (sp_ctl sp)) = p_grav (sp_model sp) /\
  ip_inertia (cp_indi (sp_ctl sp)) = p_inertia (sp_model sp) /\
  ip_minv (cp_indi (sp_ctl sp)) = mixer_inverse_of (p_motors (sp_model sp)).
Proof. destruct p, c; cbv zeta; repeat (split; [reflexivity|]); reflexivity. Qed.

(** The simulator handed to the flight. *)
Lemma simulator_start p (c : Source T) (s : Sim T G H) : get_simulator p c = Some s ->
  exists s0, sim_new 4 (program_params p c) = Some s0 /\ s = arm (enable_floor s0 (program_floor c)).
Proof.
  unfold get_simulator. destruct (sim_new _ _) as [s0|]; [|discriminate]. cbn. intros K. injection K as <-. exists s0. split; reflexivity.
Qed.
Lemma simulator_after p (c : Source T) (s : Sim T G H) : get_simulator p c = Some s ->
  sim_after 4 (program_params p c) [SEnableFloor (program_floor c); SArm] = Some s.
Proof.
  intros K. destruct (simulator_start _ _ _ K) as (s0 & N & ->). unfold sim_after. rewrite N. reflexivity.
Qed.
Lemma new_ctl n sp (s : Sim T G H) : sim_new n sp = Some s -> sm_ctl s = ctl_new n (sp_ctl sp) /\ sm_odom s = odom_new (sp_odom sp) /\ sm_imu s = imu_new (sp_imu sp).
Proof. unfold sim_new. destruct (dyn_new _ _ _ _); [|discriminate]. cbn. intros K. injection K as <-. auto. Qed.

Lemma matched (Sn : Sane O) p (c : Source T) ops (s s' : Sim T G H) :
  check_params (sp_model (program_params p c)) = true ->
  get_simulator p c = Some s -> Forall flight_call ops -> sim_run 4 s ops = Some s' ->
  get_params (d_model (sm_dyn s')) = Some (sp_model (program_params p c)) /\
  knows_vehicle (sp_model (program_params p c)) (sm_ctl s') /\
  in_minv (ct_indi (sm_ctl s')) = mixer_inverse_of (p_motors (sp_model (program_params p c))).
Proof.
  intros C K F Rn. destruct (simulator_start _ _ _ K) as (s0 & N & E). destruct (run_suits Sn 4 ops s s' F Rn) as [A B].
  destruct (new_fields 4 _ _ N) as (_ & _ & _ & _ & _ & _ & _ & _ & d & Dn & Ed).
  destruct (new_params _ _ _ _ _ Dn C) as (Mr & Gp & Ds). destruct (new_ctl _ _ _ N) as (Ec & _ & _).
  assert (E1 : sm_dyn s = sm_dyn s0) by (rewrite E; reflexivity). assert (E2 : sm_ctl s = sm_ctl s0) by (rewrite E; reflexivity).
  rewrite E2, Ec in B. destruct B as (B1 & B2 & B3 & B4 & B5 & B6). destruct (program_suits p c) as (P1 & P2 & P3 & P4).
  split; [|split].
  - rewrite (get_params_of_cfg _ _ A), E1, Ed. exact Gp.
  - split; [rewrite B1; exact P1|]. split; [rewrite B2; exact P2|]. rewrite B4. exact P3.
  - rewrite B5. exact P4.
Qed.

Lemma started p (c : Source T) (s : Sim T G H) : get_simulator p c = Some s ->
  sm_armed s = true /\ sm_floor_en s = true /\ sm_floor_h s = program_floor c /\ sim_state s = sp_state (program_params p c) /\
  od_ori (sm_odom s) = s_ori (sim_state s) /\ vz (rf_pos (sm_refs s)) = program_floor c /\ sm_mode s = MOTOR_W /\ sm_act s = repeat zero 4.
Proof.
  intros K. destruct (simulator_start _ _ _ K) as (s0 & N & ->).
  destruct (new_fields 4 _ _ N) as (_ & _ & Ac & Mo & _ & _ & _ & _ & d & Dn & Ed). destruct (new_ctl _ _ _ N) as (_ & Eo & _).
  assert (St : d_state d = sp_state (program_params p c)).
  { unfold dyn_new in Dn. destruct (model_new _ _ _); [|discriminate]. cbn in Dn. injection Dn as <-. reflexivity. }
  unfold sim_state. cbn. rewrite Ed, Eo, St, Ac, Mo. repeat (split; [reflexivity|]). split; [destruct p, c; reflexivity|]. auto.
Qed.
End Gen.

Local Open Scope R_scope.
Section Real.
Context {G H : Gen R}.

Lemma quad_inverse_of ms inv : quad_inverse ms = Some inv -> mixer_inverse_of ms = inv.
Proof.
  unfold quad_inverse, mixer_inverse_of. destruct (compute_mixer_6D 4 ms) as [[|a [|b [|c [|d [|e l]]]]]|]; try discriminate.
  intros K. injection K as <-. reflexivity.
Qed.
Lemma quad_x_inverse kf kt x y mn mx tau J :
  quad_inverse (quad_x kf kt x y mn mx tau J) = Some (mixer_inverse_of (quad_x kf kt x y mn mx tau J)).
Proof. reflexivity. Qed.

Lemma check_x kf kt x y mn mx tau J : 0 <= kf -> 0 <= kt -> mn <= mx -> 0 <= tau -> 0 <= J ->
  forallb check_motor (quad_x kf kt x y mn mx tau J) = true.
Proof.
  intros A B C D E. unfold quad_x. cbv zeta. cbn [forallb]. unfold check_motor. cbn [mt_max mt_min mt_tau mt_J mt_kf mt_kt]. unR.
  unfold Rltb. destruct (Rlt_dec mx mn); [lra|]. destruct (Rlt_dec tau 0); [lra|]. destruct (Rlt_dec J 0); [lra|].
  destruct (Rlt_dec kf 0); [lra|]. destruct (Rlt_dec kt 0); [lra|]. reflexivity.
Qed.

Lemma det_diag a b c : det3 (vdiagm (mkV a b c)) = a * (b * c).
Proof. unfold vdiagm, det3. cbn. unR. ring. Qed.

Lemma sensible_accepted p c : sensible c -> check_params (sp_model (program_params p c)) = true.
Proof.
  assert (X : forall m g kf kt x y mn mx tau J mass I drag A f1 f2,
    m = mkParams (quad_x kf kt x y mn mx tau J) mass (vdiagm I) drag (vdiagm A) g f1 f2 ->
    0 <= mass -> 0 <= vx I -> 0 <= vy I -> 0 <= vz I -> 0 <= drag -> 0 <= vx A -> 0 <= vy A -> 0 <= vz A ->
    0 <= kf -> 0 <= kt -> mn <= mx -> 0 <= tau -> 0 <= J -> check_params m = true).
  { intros m g kf kt x y mn mx tau J mass [i1 i2 i3] drag [a1 a2 a3] f1 f2 ->. cbn [vx vy vz]. intros.
    unfold check_params. cbn [p_mass p_inertia p_drag p_aero p_motors]. rewrite check_x by assumption. rewrite !mdet_R, !det_diag. unR.
    assert (0 <= i1 * (i2 * i3)) by (apply Rmult_le_pos; [assumption|apply Rmult_le_pos; assumption]).
    assert (0 <= a1 * (a2 * a3)) by (apply Rmult_le_pos; [assumption|apply Rmult_le_pos; assumption]).
    unfold Rltb. destruct (Rlt_dec mass 0); [lra|]. destruct (Rlt_dec _ 0); [lra|]. destruct (Rlt_dec drag 0); [lra|].
    destruct (Rlt_dec _ 0); [lra|]. reflexivity. }
  intros Sc. destruct c as [d|].
  - destruct Sc as (S1 & S2 & S3 & S4 & S5 & S6 & S7 & S8 & S9 & S10 & S11 & S12 & S13).
    destruct p; (eapply X; [reflexivity|..]; assumption).
  - destruct p; (eapply X; [reflexivity|..]); unfold all3, lit; cbn [vx vy vz]; unR; lra.
Qed.

Lemma program_fits p c : sensible c -> fitting_params 4 (program_params (T := R) p c).
Proof.
  intros Sc. split; [apply sensible_accepted; exact Sc|]. destruct p, c; (split; [reflexivity|]); split; reflexivity.
Qed.

Lemma program_runs p c ops : sensible c -> Forall (fits (G := G) (H := H) 4) ops ->
  exists s s' : Sim R G H, get_simulator p c = Some s /\ sim_run 4 s ops = Some s'.
Proof.
  intros Sc F. assert (F' : Forall (fits (G := G) (H := H) 4) ([SEnableFloor (program_floor c); SArm] ++ ops)).
  { apply Forall_app. split; [|exact F]. apply Forall_cons; [exact I|]. apply Forall_cons; [exact I|]. apply Forall_nil. }
  destruct (simulator_defined (G := G) (H := H) 4 (program_params p c) _ (program_fits p c Sc) F') as [s' K].
  unfold sim_after in K. unfold get_simulator. destruct (sim_new 4 (program_params p c)) as [s0|]; [|discriminate].
  eexists. exists s'. split; [reflexivity|]. exact K.
Qed.

(** What a controller update of an armed simulator asks the controller. *)
Lemma controller_call n (s : Sim R G H) dt : sm_armed s = true -> sm_mode s <> MOTOR_W ->
  exists op, commands_motors op = true /\ sm_ctl (update_controller n s dt) = ctl_step (sm_ctl s) op /\
    sm_act (update_controller n s dt) = ct_dmotor (ctl_step (sm_ctl s) op) /\ sm_dyn (update_controller n s dt) = sm_dyn s.
Proof.
  intros A M. unfold update_controller. rewrite A. cbn [negb]. cbv zeta.
  set (s1 := match sm_yawmode s with ANGLE => s | RATE => update_yaw_reference s end).
  assert (E : sm_ctl s1 = sm_ctl s /\ sm_mode s1 = sm_mode s /\ sm_dyn s1 = sm_dyn s) by (unfold s1; destruct (sm_yawmode s); auto).
  destruct E as (E1 & E2 & E3). rewrite E2, E1.
  destruct (sm_mode s); [| |..]; cbn [with_control with_act with_ctl sm_ctl sm_act sm_dyn]; rewrite ?E3.
  - eexists (CPos _ _ _ _ _ _ _). split; [reflexivity|]. split; [reflexivity|]. split; reflexivity.
  - contradiction.
  - eexists (CAcro _ _ _ _). split; [reflexivity|]. split; [reflexivity|]. split; reflexivity.
  - eexists (CTraj _ _ _ _ _ _ _ _ _). split; [reflexivity|]. split; [reflexivity|]. split; reflexivity.
  - eexists (CVel _ _ _ _ _ _). split; [reflexivity|]. split; [reflexivity|]. split; reflexivity.
  - eexists (CPos _ _ _ _ _ _ _). split; [reflexivity|]. split; [reflexivity|]. split; reflexivity.
Qed.

Lemma process_reach n (d d' : Dyn R G) act dt ext noise :
  ModelReach n (d_model d) -> process d act dt ext noise = Ok d' -> ModelReach n (d_model d').
Proof.
  intros M K. pose proof (process_inv (fun x => ModelReach n (d_model x)) d act dt ext noise M) as A. rewrite K in A. apply A.
  intros x y h Mx E. apply euler_core_inv in E as [[c Hc] Hi].
  destruct (Hi c Hc) as (mo & des & macc & mvel & Hn & Hm & _ & _ & _ & ->). cbn [d_model].
  destruct noise; [eapply mr_noise; eassumption|]. injection Hn as <-. apply mr_disable, Mx.
Qed.
Lemma run_reach n ops (s s' : Sim R G H) : ModelReach n (d_model (sm_dyn s)) -> Forall flight_call ops -> sim_run n s ops = Some s' ->
  ModelReach n (d_model (sm_dyn s')).
Proof.
  intros M F. apply (run_inv n (fun x => ModelReach n (d_model (sm_dyn x))) flight_call); [|exact M|exact F].
  intros x op y Ix Q N. destruct op; try contradiction; cbn [sim_step] in N.
  1:{ destruct N as [N|N].
      - destruct (contact_cases _ _ _ N) as (ext & d & Fm & C). unfold free_motion in Fm.
        assert (Y : ModelReach n (d_model d)) by (eapply process_reach; eassumption).
        destruct C as [(_ & _ & _ & Mm & _)|(_ & D & _)]; congruence.
      - destruct (ud_throw R_sane _ _ _ N) as [_ [[_ ->]|[_ (c & _ & ->)]]]; [exact Ix|]. destruct x; exact Ix. }
  all: destruct N as [N|N]; try discriminate; injection N as <-.
  all: try (destruct x; exact Ix).
  - unfold update_controller. destruct (negb _); [exact Ix|]. destruct x as [? ? ? ? ? ? ? ? ? ? ? [] []]; exact Ix.
  - unfold set_control_mode. destruct (_ && _); exact Ix.
Qed.

Lemma program_motors p c : effective_rotors c -> exists kf kt x y mn mx tau J,
  p_motors (sp_model (program_params p c)) = quad_x kf kt x y mn mx tau J /\ kf <> 0 /\ kt <> 0 /\ x <> 0 /\ y <> 0.
Proof.
  intros E. destruct c as [d|]; cbn in E.
  - exists (yd_kf d), (yd_kt d), (yd_x d), (yd_y d), (yd_min d), (yd_max d), (yd_tau d), (yd_J d). destruct p; (split; [reflexivity|exact E]).
  - exists (lit 191 100000000), (lit 26 100000000), (lit 8 100), (lit 8 100), zero, (ofZ 2200), (lit 2 100), (lit 662 100000000).
    destruct p; (split; [reflexivity|]); unfold lit; unR; repeat split; lra.
Qed.

Lemma delivered p c ops (s s' : Sim R G H) dt : sensible c -> effective_rotors c ->
  get_simulator p c = Some s -> Forall flight_call ops -> sim_run 4 s ops = Some s' ->
  sm_armed s' = true -> sm_mode s' <> MOTOR_W ->
  let s1 := update_controller 4 s' dt in let v := d_model (sm_dyn s1) in let k := sm_ctl s1 in
  length (sm_act s1) = 4%nat /\
  get_force_by_motors v (sm_act s1) = Some (mkV 0 0 (get_desired_thrust k)) /\
  get_torque_by_motors v (sm_act s1) [0; 0; 0; 0] =
    Some (vec_of (euler_torque (p_inertia (sp_model (program_params p c))) (pid_output (get_pid WIndi k)) (get_desired_angular_velocity k))).
Proof.
  intros Sc Ef K F Rn A M. cbv zeta.
  pose proof (sensible_accepted p c Sc) as Ck.
  destruct (matched R_sane p c ops s s' Ck K F Rn) as (Gp & (_ & _ & Ki) & Mi).
  assert (Mr : ModelReach 4 (d_model (sm_dyn s'))).
  { eapply run_reach; [|exact F|exact Rn]. destruct (simulator_start _ _ _ K) as (s0 & N & ->).
    destruct (new_fields 4 _ _ N) as (_ & _ & _ & _ & _ & _ & _ & _ & d & Dn & Ed).
    destruct (new_params _ _ _ _ _ Dn Ck) as (Mr & _ & _). cbn. rewrite Ed. exact Mr. }
  destruct (controller_call 4 s' dt A M) as (op & Cm & Ec & Ea & Ed). rewrite Ec, Ea, Ed.
  destruct (program_motors p c Ef) as (kf & kt & x & y & mn & mx & tau & J & Em & H1 & H2 & H3 & H4).
  rewrite Em in Mi.
  destruct (allocation_x kf kt x y mn mx tau J _ (sm_ctl s') op H1 H2 H3 H4 (quad_x_inverse _ _ _ _ _ _ _ _) Mi Cm) as (L & Fo & To).
  split; [exact L|]. rewrite Ki in To.
  rewrite <- Em in Fo, To.
  assert (L4 : length (p_motors (sp_model (program_params p c))) = 4%nat) by (rewrite Em; reflexivity).
  destruct (allocation_api (d_model (sm_dyn s')) _ _ _ _ Mr Gp L4 L Fo To) as (X & _ & Y).
  split; [exact X|exact Y].
Qed.

(** The flights of the example program on the simulator it builds. *)
Lemma program_four p c (s : Sim R G H) : get_simulator p c = Some s -> four_rotors s.
Proof.
  intros K. destruct (started _ _ _ K) as (_ & _ & _ & St & _ & _ & _ & Ac). unfold four_rotors. rewrite St, Ac.
  destruct p, c; split; try reflexivity; split; reflexivity.
Qed.
Lemma program_tour fmt p c (s : Sim R G H) v refs tmax dt : plain_printer fmt -> sensible c -> get_simulator p c = Some s -> refs <> [] ->
  0 < dt <= 2147483647 / 100 ->
  (forall k, sound (tour fmt v refs tmax dt k s)) /\
  exists k f, tour fmt v refs tmax dt k s = Landed f /\ tmax <= fl_t f.
Proof.
  intros Pr Sc K Nr D. pose proof (simulator_after _ _ _ K) as A. pose proof (program_fits p c Sc) as Fp.
  assert (F : Forall (fits (G := G) (H := H) 4) [SEnableFloor (program_floor c); SArm]).
  { apply Forall_cons; [exact I|]. apply Forall_cons; [exact I|]. apply Forall_nil. }
  split.
  - intros k. exact (tour_sound fmt v _ _ s refs tmax dt k Fp F A (program_four _ _ _ K) Nr D).
  - destruct (tour_lands fmt v _ _ s refs tmax dt Pr Fp F A (program_four _ _ _ K) Nr D) as (k & f & L & M & _).
    exists k, f. split; assumption.
Qed.
End Real.
