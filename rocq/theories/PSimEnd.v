(** Whole simulations over the reals. *)

From Coq Require Import ZArith List Bool Lia Reals Lra Psatz.
From Verif Require Import Scalar LinAlg MUtils MModel MDynamics MPid MControl MCtlRun MImu MSim SpecDyn SpecRun SpecPid SpecCtl SpecImu SpecSim SpecEuler
  PBase PDyn PModel PDynR PPhys PVeh PMix PDynMore EBase PPid PPidR PCtl PCtlR PCtlMix PImu PSim PSimR PHover PEuler.
Import ListNotations.
Local Open Scope R_scope.

Lemma level_euler yaw : - PI < yaw <= PI -> quat_to_euler (level yaw) = mkV 0 0 yaw.
Proof.
  intros Hy. pose proof PI_RGT_0. apply euler_unique; try lra; [apply unitq_nonzero, level_unit|].
  intros a b. rewrite attitude_unit by apply level_unit.
  assert (C : cos yaw = cos (yaw/2) * cos (yaw/2) - sin (yaw/2) * sin (yaw/2)).
  { rewrite <- cos_plus. f_equal. field. }
  assert (S : sin yaw = 2 * sin (yaw/2) * cos (yaw/2)).
  { rewrite <- sin_2a. f_equal. field. }
  pose proof (sin2_cos2 (yaw/2)) as E. unfold Rsqr in E.
  destruct a, b; unfold rpy, mat_mul, about, rot_entry, level; cbn [qw qx qy qz]; rewrite ?cos_0, ?sin_0, ?C, ?S; nra.
Qed.

Lemma new_params {T} {O : Ops T} {G : Gen T} n p seed st (d : Dyn T G) :
  dyn_new n p seed st = Some d -> check_params p = true ->
  ModelReach n (d_model d) /\ get_params (d_model d) = Some p /\ d_state d = st.
Proof.
  unfold dyn_new. destruct (model_new n p seed) as [mo|] eqn:E; [|discriminate]. cbn. intros K C. injection K as <-.
  split; [eapply mr_new; exact E|]. split; [|reflexivity]. cbn.
  unfold model_new, update_params in E. rewrite C in E. cbn [negb] in E.
  destruct (compute_mixer_6D _ _); [|discriminate]. destruct (compute_mixer_inertia _ _); [|discriminate].
  cbn in E. injection E as <-. reflexivity.
Qed.

Section End.
Context {G H : Gen R}.
Implicit Types s : Sim R G H.

Lemma act_overwritten s a dt : sm_armed s = true -> sm_mode s = HOVER \/ sm_mode s = POSITION -> sm_yawmode s = ANGLE ->
  update_controller 4 (with_act s a) dt = update_controller 4 s dt.
Proof. intros A M Y. destruct s. cbn in *. subst. destruct M as [-> | ->]; reflexivity. Qed.

(** After arm(), set_control_mode(HOVER) and one controller update. *)
Lemma hold_start m1 m2 m3 m4 sp s0 m g0 w pos yaw dt :
  p_motors (sp_model sp) = [m1; m2; m3; m4] ->
  m4det (mixer_rows4 (mixer6_col m1) (mixer6_col m2) (mixer6_col m3) (mixer6_col m4)) <> 0 ->
  0 < m -> 0 < g0 -> 0 <= w ->
  (forall a, rotor_force [m1; m2; m3; m4] [w; w; w; w] a = match a with AZ => m * g0 | _ => 0 end) ->
  (forall ax, rotor_torque [m1; m2; m3; m4] [w; w; w; w] [0; 0; 0; 0] ax = 0) ->
  speeds_between [m1; m2; m3; m4] [w; w; w; w] -> p_grav (sp_model sp) = mkV 0 0 (- (m * g0)) ->
  check_params (sp_model sp) = true ->
  quad_inverse [m1; m2; m3; m4] = Some (ip_minv (cp_indi (sp_ctl sp))) ->
  ap_mass (cp_acro (sp_ctl sp)) = m -> ap_grav (cp_acro (sp_ctl sp)) = mkV 0 0 (- g0) ->
  (forall k, rests (get_pid k (ctl_new 4 (sp_ctl sp)))) ->
  s_pos (sp_state sp) = pos -> s_ori (sp_state sp) = level yaw -> - PI < yaw <= PI ->
  s_vel (sp_state sp) = mkV 0 0 0 -> s_angvel (sp_state sp) = mkV 0 0 0 -> s_mvel (sp_state sp) = [w; w; w; w] ->
  sim_new 4 sp = Some s0 ->
  holding (sp_model sp) m1 m2 m3 m4 m g0 w pos yaw (update_controller 4 (set_control_mode (arm s0) HOVER ANGLE) dt).
Proof.
  intros Mo Hd Pm Pg Pw Hf Ht Hs Gv Ck Qi Am Ag Rs P1 P2 P3 P4 P5 P6 N.
  destruct (new_fields 4 _ _ N) as (F1 & F2 & F3 & F4 & F5 & F6 & F7 & F8 & d & Dn & Ed).
  destruct (new_params _ _ _ _ _ Dn Ck) as (Mr & Gp & Ds).
  set (s1 := set_control_mode (arm s0) HOVER ANGLE).
  assert (X : s1 = mkSim (sm_dyn s0) (sm_ctl s0) (sm_imu s0) (sm_odom s0) true false false (sm_floor_h s0)
     (mkRefs (rf_motors (sm_refs s0)) 0 v0 (s_pos (sim_state s0)) v0 v0 (vz (quat_to_euler (s_ori (sim_state s0)))) (rf_yawrate (sm_refs s0)))
     (sm_act s0) (mkV 0 0 0) HOVER ANGLE).
  { unfold s1, set_control_mode, arm. cbn [sm_mode sm_yawmode]. rewrite F4. cbn. unfold sim_state. cbn. rewrite F1, F6, F7. reflexivity. }
  assert (C : sm_ctl s0 = ctl_new 4 (sp_ctl sp)).
  { unfold sim_new in N. destruct (dyn_new _ _ _ _); [|discriminate]. cbn in N. injection N as <-. reflexivity. }
  rewrite <- (act_overwritten s1 [w; w; w; w]) by (rewrite X; auto).
  assert (St : sim_state s0 = sp_state sp) by (unfold sim_state; rewrite Ed; exact Ds).
  apply hold_update; auto; [rewrite (Hf AZ); reflexivity|]. rewrite X. unfold with_act.
  split; unfold sim_state; cbn [sm_dyn sm_ctl sm_imu sm_odom sm_armed sm_floor_en sm_floor_col sm_floor_h sm_refs sm_act sm_ext sm_mode sm_yawmode rf_pos rf_yaw];
    try reflexivity; try (left; reflexivity); try discriminate.
  - split; [rewrite Ed; exact Mr|]. split; [rewrite Ed; exact Gp|]. split; [reflexivity|]. rewrite Ed, Ds, P6. reflexivity.
  - rewrite Ed, Ds. split; [exact P4|]. split; [exact P5|]. split; [rewrite P2; apply level_unit|]. split; [symmetry; exact P6|].
    rewrite Mo. split; [exact Hs|]. split; [|exact Ht].
    intros a. rewrite P2, Gv. replace (vec_of (rotor_force [m1; m2; m3; m4] [w; w; w; w])) with (mkV 0 0 (m * g0)).
    + rewrite level_up. destruct a; cbn; ring.
    + unfold vec_of. rewrite !Hf. reflexivity.
  - rewrite Ed, Ds. exact P1.
  - rewrite Ed, Ds. exact P2.
  - rewrite <- P1, <- St. reflexivity.
  - change (d_state (sm_dyn s0)) with (sim_state s0). rewrite St, P2, level_euler by exact P3. reflexivity.
  - rewrite C. exact Rs.
  - rewrite C. intros k. destruct k; left; reflexivity.
  - rewrite C. symmetry. exact Qi.
  - rewrite C. exact Am.
  - rewrite C. exact Ag.
Qed.

Lemma hover_end sp m g0 w pos yaw dt ops s' :
  hover_setup m g0 w pos yaw sp -> p_grav (sp_model sp) = mkV 0 0 (- (m * g0)) -> Forall is_update ops ->
  sim_after 4 sp (SArm :: SMode HOVER ANGLE :: SController dt :: ops) = Some s' ->
  s_pos (sim_state s') = pos /\ s_ori (sim_state s') = level yaw /\ s_vel (sim_state s') = mkV 0 0 0 /\
  s_angvel (sim_state s') = mkV 0 0 0 /\ sm_act s' = [w; w; w; w].
Proof.
  intros ((kf & kt & x & y & mn & mx & tau & J & K1 & K2 & K3 & K4 & K5 & K6 & L) & B1 & B2 & B3 & B4 & B5 & B6 & B7 & B8 & B9 & B10 & B11 & B12 & B13 & B14 & B15) Gv F Rn.
  unfold sim_after in Rn. destruct (sim_new 4 sp) as [s0|] eqn:N; [|discriminate].
  cbn [sim_run sim_step] in Rn.
  assert (Knz : kf <> 0) by lra.
  assert (W : 4 * kf * sq_signed w = m * g0) by (rewrite sq_signed_pos by exact B8; lra).
  assert (Go : forall m1 m2 m3 m4, p_motors (sp_model sp) = [m1; m2; m3; m4] ->
    m4det (mixer_rows4 (mixer6_col m1) (mixer6_col m2) (mixer6_col m3) (mixer6_col m4)) <> 0 ->
    (forall a, rotor_force [m1; m2; m3; m4] [w; w; w; w] a = match a with AZ => 4 * kf * sq_signed w | _ => 0 end) ->
    (forall ax, rotor_torque [m1; m2; m3; m4] [w; w; w; w] [0; 0; 0; 0] ax = 0) ->
    speeds_between [m1; m2; m3; m4] [w; w; w; w] ->
    s_pos (sim_state s') = pos /\ s_ori (sim_state s') = level yaw /\ s_vel (sim_state s') = mkV 0 0 0 /\
    s_angvel (sim_state s') = mkV 0 0 0 /\ sm_act s' = [w; w; w; w]).
  { intros m1 m2 m3 m4 Mo Hd Hf Ht Hs. rewrite Mo in B3.
    assert (Hf' : forall a, rotor_force [m1; m2; m3; m4] [w; w; w; w] a = match a with AZ => m * g0 | _ => 0 end) by (intros a; rewrite Hf, <- W; reflexivity).
    pose proof (hold_start m1 m2 m3 m4 sp s0 m g0 w pos yaw dt Mo Hd B6 B7 B8 Hf' Ht Hs Gv B1 B3 B4 B5 B9 B10 B11 B12 B13 B14 B15 N) as St.
    pose proof (hold_run (sp_model sp) m1 m2 m3 m4 m g0 w pos yaw ops _ s' Hd B6 B7 B8 (Hf' AZ) Ht B2 St F Rn) as [_ E A P O _ _ _ _ _ _ _ _ _ _ _ _].
    split; [exact P|]. split; [exact O|]. destruct E as (V & Wv & _). split; [exact V|]. split; [exact Wv|exact A]. }
  destruct L as [L|L].
  - eapply Go; [rewrite L; reflexivity|exact (det_x kf kt x y mn mx tau J Knz K2 K3 K4)|apply quad_x_force| |].
    + intros ax. apply (quad_x_torque kf kt x y mn mx tau J w 0 ax).
    + intros [|[|[|[|i]]]] z Hz; cbn in Hz; try (destruct i; discriminate); injection Hz as <-; eexists; (split; [reflexivity|exact K5]).
  - eapply Go; [rewrite L; reflexivity|exact (det_plus kf kt x y mn mx tau J Knz K2 K3 K4)|apply quad_plus_force| |].
    + intros ax. apply (quad_plus_torque kf kt x y mn mx tau J w 0 ax).
    + intros [|[|[|[|i]]]] z Hz; cbn in Hz; try (destruct i; discriminate); injection Hz as <-; eexists; (split; [reflexivity|exact K5]).
Qed.

(** *** Landed (C59). *)
Lemma landed n p h pos q ops s s' : length (p_motors p) = n -> (forall m, In m (p_motors p) -> mt_min m <= 0 <= mt_max m) -> p_fnoise p = 0 ->
  vx (p_grav p) = 0 -> vy (p_grav p) = 0 -> vz (p_grav p) <= 0 -> 0 < p_mass p -> unitq q -> vz pos = h ->
  vehicle n (sm_dyn s) (sm_act s) p -> standing n h s -> s_pos (sim_state s) = pos -> s_ori (sim_state s) = q ->
  Forall hands_off ops -> Forall not_arm ops -> Forall keeps_floor ops -> Forall small_steps ops ->
  sim_run n s (SEnableFloor h :: SDisarm :: ops) = Some s' ->
  s_pos (sim_state s') = pos /\ s_ori (sim_state s') = q /\ standing n h s'.
Proof.
  intros A1 A2 A3 A4 A5 A6 A7 A8 A9 V St Ps Or F1 F2 F3 F4 Rn. cbn [sim_run sim_step] in Rn.
  destruct V as (V1 & V2 & _).
  assert (Gr : grounded n p h pos q (disarm n (enable_floor s h))).
  { split; try reflexivity; try assumption. }
  pose proof (standing_run n p h pos q ops _ s' A1 A2 A3 A4 A5 A6 A7 A8 A9 F1 F2 F3 F4 Gr Rn) as [_ _ _ _ _ _ _ P O S].
  split; [exact P|]. split; [exact O|exact S].
Qed.

(** *** IMU and odometry inside the simulator (C43, C57, C58). *)
Lemma sim_imu_reading n s s' ip iops dt :
  sm_imu s = imu_after ip iops -> ideal ip -> Forall ideal_op iops -> unitq (mount_of ip iops) -> 0 < dt ->
  sim_step n s (SImu dt) = Ok s' ->
  forall a, pr a (snd (imu_get_measurement (sm_imu s'))) = to_body (mount_of ip iops) (vec_of (to_world (s_ori (sim_state s)) (s_force (sim_state s)))) a /\
            pr a (fst (imu_get_measurement (sm_imu s'))) = to_body (mount_of ip iops) (s_angvel (sim_state s)) a.
Proof.
  intros E I F U D K a. cbn [sim_step] in K. injection K as <-. unfold update_imu. cbv zeta.
  change (sm_imu (with_imu s ?i)) with i. rewrite E.
  set (f := qrot (s_ori (sim_state s)) (s_force (sim_state s))).
  assert (Ef : f = vec_of (to_world (s_ori (sim_state s)) (s_force (sim_state s)))).
  { apply V3_ax. intros b. unfold f. rewrite qrot_R, pr_vec_of. reflexivity. }
  destruct (ideal_reading (G := H) ip iops dt f (s_angvel (sim_state s)) I F U D) as (_ & _ & L). cbv zeta in L.
  destruct (L a) as [L1 L2]. rewrite <- Ef. split; [exact L2|exact L1].
Qed.

(** Turning out and back. *)
Lemma world_body q v a : unitq q -> to_body q (vec_of (to_world q v)) a = pr a v.
Proof.
  intros U. unfold unitq in U. destruct q as [w x y z], v as [a0 b0 c0]. cbn [qw qx qy qz] in U.
  assert (E : w ^ 2 = 1 - x ^ 2 - y ^ 2 - z ^ 2) by lra.
  assert (E3 : w ^ 3 = w * (1 - x ^ 2 - y ^ 2 - z ^ 2)) by (rewrite <- E; ring).
  destruct a; unfold to_body, to_world, vec_of, rot_entry; cbn [qw qx qy qz vx vy vz pr]; ring_simplify; rewrite ?E3, ?E; ring.
Qed.

Lemma sim_odometry n s s1 s2 ip iops op oops dti dto :
  sm_imu s = imu_after ip iops -> ideal ip -> Forall ideal_op iops -> mount_of ip iops = mkQ 1 0 0 0 -> 0 < dti ->
  sm_odom s = odom_run (odom_new op) oops -> nonzeroq (odp_ori op) -> Forall proper_init oops -> odp_alpha op = 1 ->
  odom_get_orientation (sm_odom s) = s_ori (sim_state s) -> unitq (s_ori (sim_state s)) ->
  sim_step n s (SImu dti) = Ok s1 -> sim_step n s1 (SOdom dto) = Ok s2 ->
  forall a, pr a (odom_get_linear_acceleration (sm_odom s2)) = pr a (s_force (sim_state s2)) /\
            pr a (odom_get_angular_velocity (sm_odom s2)) = pr a (s_angvel (sim_state s2)).
Proof.
  intros E I F M D Eo No Fo Al Or U K1 K2 a.
  assert (Um : unitq (mount_of ip iops)) by (rewrite M; unfold unitq; cbn; ring).
  pose proof (sim_imu_reading n s s1 ip iops dti E I F Um D K1) as L. rewrite M in L.
  assert (Id : forall v b, to_body (mkQ 1 0 0 0) v b = pr b v).
  { intros [p0 p1 p2] b; destruct b; unfold to_body, rot_entry; cbn; ring. }
  assert (Ac : im_accel (sm_imu s1) = vec_of (to_world (s_ori (sim_state s)) (s_force (sim_state s)))).
  { apply V3_ax. intros b. destruct (L b) as [Lb _]. rewrite Id in Lb. exact Lb. }
  assert (Gy : im_gyro (sm_imu s1) = s_angvel (sim_state s)).
  { apply V3_ax. intros b. destruct (L b) as [_ Lb]. rewrite Id in Lb. exact Lb. }
  destruct (frame_imu n _ _ _ K1) as (Sd & _ & So & _).
  assert (S2 : sm_dyn s2 = sm_dyn s1) by exact (proj1 (frame_odom n _ _ _ K2)).
  assert (St : sim_state s2 = sim_state s) by (unfold sim_state; rewrite S2, Sd; reflexivity).
  assert (O2 : sm_odom s2 = odom_step (sm_odom s) (OUpdate (im_gyro (sm_imu s1)) (im_accel (sm_imu s1)) dto)).
  { cbn [sim_step] in K2. injection K2 as <-. rewrite <- So. reflexivity. }
  rewrite St, O2.
  assert (Uo : unitq (od_ori (odom_run (odom_new op) oops))) by (rewrite <- Eo; unfold odom_get_orientation in Or; rewrite Or; exact U).
  assert (Alo : od_alpha (odom_run (odom_new op) oops) = 1) by (rewrite <- Al; clear; unfold odom_run; change (odp_alpha op) with (od_alpha (odom_new op)); generalize (odom_new op); induction oops as [|o r IH]; intros z; [reflexivity|]; cbn [fold_left]; rewrite IH; destruct o; reflexivity).
  destruct (odom_law op oops (im_gyro (sm_imu s1)) (im_accel (sm_imu s1)) dto No Fo Uo) as [LL _]. cbv zeta in LL. destruct (LL a) as [L1 _].
  rewrite Eo at 1. rewrite L1.
  assert (Fl : od_accelf (odom_step (odom_run (odom_new op) oops) (OUpdate (im_gyro (sm_imu s1)) (im_accel (sm_imu s1)) dto)) = im_accel (sm_imu s1)).
  { cbn. apply V3_ax. intros b. rewrite Alo. change (one : R) with 1. change (sub 1 1) with (1 - 1). rewrite filt_R. ring. }
  rewrite Fl, Ac. rewrite <- Eo, Or. split; [apply world_body, U|].
  rewrite Eo. cbn. rewrite Alo, Gy. change (one : R) with 1. change (sub 1 1) with (1 - 1). rewrite filt_R. ring.
Qed.

(** The reported acceleration is force over mass after every dynamics update
    without floor contact. *)
Lemma sim_newton n s dt s' p : vehicle n (sm_dyn s) (sm_act s) p -> sim_step n s (SDynamics dt) = Ok s' ->
  sm_floor_en s = false -> forall a, pr a (s_linacc (sim_state s')) = pr a (s_force (sim_state s')) / p_mass p.
Proof.
  intros V K Fl a. cbn [sim_step] in K. destruct (contact_cases _ _ _ K) as (ext & d & F & [[X _]|(_ & D & _)]); [congruence|].
  unfold sim_state. rewrite D. unfold free_motion in F.
  apply (process_inv1 R_sane (fun x => vehicle n x (sm_act s) p) (fun x => pr a (s_linacc (d_state x)) = pr a (s_force (d_state x)) / p_mass p)) in F; auto.
  clear F D. intros x y h Vx E. split; [eapply vehicle_core; eassumption|].
  pose proof (step_newton n x y _ h _ _ p Vx E a) as L. tauto.
Qed.

(** Any mounting orientation: the odometry takes the readings as they are. *)
Lemma sim_odom_rates n s s1 s2 ip iops dti dto :
  sm_imu s = imu_after ip iops -> ideal ip -> Forall ideal_op iops -> unitq (mount_of ip iops) -> 0 < dti ->
  od_alpha (sm_odom s) = 1 ->
  sim_step n s (SImu dti) = Ok s1 -> sim_step n s1 (SOdom dto) = Ok s2 ->
  forall a, pr a (odom_get_angular_velocity (sm_odom s2)) = to_body (mount_of ip iops) (s_angvel (sim_state s2)) a.
Proof.
  intros E I F Um D Al K1 K2 a.
  destruct (sim_imu_reading n s s1 ip iops dti E I F Um D K1 a) as [_ L].
  destruct (frame_imu n _ _ _ K1) as (Sd & _ & So & _).
  assert (S2 : sm_dyn s2 = sm_dyn s1) by exact (proj1 (frame_odom n _ _ _ K2)).
  assert (St : sim_state s2 = sim_state s) by (unfold sim_state; rewrite S2, Sd; reflexivity).
  rewrite St, <- L. cbn [sim_step] in K2. injection K2 as <-. cbn. rewrite So, Al.
  change (one : R) with 1. change (sub 1 1) with (1 - 1). rewrite filt_R. unfold imu_get_measurement. cbn [fst]. ring.
Qed.

(** The acceleration in the odometry after a dynamics, an IMU and an odometry
    update, the attitude estimate being right. *)
Lemma sim_accel_law n s s0 s1 s2 p ip iops op oops dt dti dto :
  vehicle n (sm_dyn s) (sm_act s) p -> p_mass p <> 0 -> sm_floor_en s = false -> sim_step n s (SDynamics dt) = Ok s0 ->
  sm_imu s0 = imu_after ip iops -> ideal ip -> Forall ideal_op iops -> mount_of ip iops = mkQ 1 0 0 0 -> 0 < dti ->
  sm_odom s0 = odom_run (odom_new op) oops -> nonzeroq (odp_ori op) -> Forall proper_init oops -> odp_alpha op = 1 ->
  odom_get_orientation (sm_odom s0) = s_ori (sim_state s0) -> unitq (s_ori (sim_state s0)) ->
  sim_step n s0 (SImu dti) = Ok s1 -> sim_step n s1 (SOdom dto) = Ok s2 ->
  forall a, pr a (odom_get_linear_acceleration (sm_odom s2)) = p_mass p * pr a (s_linacc (sim_state s2)).
Proof.
  intros V M Fl K0 E I F Mt D Eo No Fo Al Or U K1 K2 a.
  destruct (sim_odometry n s0 s1 s2 ip iops op oops dti dto E I F Mt D Eo No Fo Al Or U K1 K2 a) as [-> _].
  pose proof (sim_newton n s dt s0 p V K0 Fl a) as N.
  destruct (frame_imu n _ _ _ K1) as (Sd & _).
  assert (S2 : sm_dyn s2 = sm_dyn s1) by exact (proj1 (frame_odom n _ _ _ K2)).
  assert (St : sim_state s2 = sim_state s0) by (unfold sim_state; rewrite S2, Sd; reflexivity).
  rewrite St, N. field. exact M.
Qed.


(** *** No undefined behaviour (C53 for the simulator). *)
Record well (n : nat) s : Prop := {
  we_veh : exists p, vehicle n (sm_dyn s) (sm_act s) p /\ length (p_motors p) = n;
  we_ref : length (rf_motors (sm_refs s)) = n;
  we_minv : length (in_minv (ct_indi (sm_ctl s))) = n }.

Lemma vehicle_act n (d : Dyn R G) a b p : vehicle n d a p -> length b = n -> vehicle n d b p.
Proof. intros (A & B & _ & D) L. split; [exact A|]. split; [exact B|]. split; assumption. Qed.

Lemma acro_sizes (c : Ctl R) w th des dt : let c' := ctl_acro c w th des dt in
  length (ct_dmotor c') = length (in_minv (ct_indi c)) /\ in_minv (ct_indi c') = in_minv (ct_indi c).
Proof. cbv zeta. unfold ctl_acro, acro_to_motor. cbn. rewrite map_length. split; reflexivity. Qed.
Lemma acc_sizes (c : Ctl R) A w acc yaw dt : let c' := ctl_acc c A w acc yaw dt in
  length (ct_dmotor c') = length (in_minv (ct_indi c)) /\ in_minv (ct_indi c') = in_minv (ct_indi c).
Proof. cbv zeta. unfold ctl_acc. destruct (acc_to_acro _ _ _ _) as [a' [th w']]. match goal with |- context [ctl_acro ?c0 ?b ?d ?e ?f] => exact (acro_sizes c0 b d e f) end. Qed.
Ltac acc_size := match goal with |- context [ctl_acc ?c0 ?b ?d ?e ?f ?g] => exact (acc_sizes c0 b d e f g) end.

Lemma well_controller n s dt : well n s -> well n (update_controller n s dt).
Proof.
  intros [(p & V & L) Rf Mi]. unfold update_controller. destruct (negb _).
  { split; [|exact Rf|exact Mi]. exists p. split; [|exact L]. eapply vehicle_act; [exact V|apply repeat_length]. }
  assert (X : forall s1, sm_dyn s1 = sm_dyn s -> sm_ctl s1 = sm_ctl s -> rf_motors (sm_refs s1) = rf_motors (sm_refs s) ->
    forall c, length (ct_dmotor c) = length (in_minv (ct_indi (sm_ctl s1))) /\ in_minv (ct_indi c) = in_minv (ct_indi (sm_ctl s1)) -> well n (with_control s1 c)).
  { intros s1 Ed Ec Er c [Lc Ic]. rewrite Ec in Lc, Ic. split.
    - exists p. split; [|exact L]. cbn. rewrite Ed. eapply vehicle_act; [exact V|]. rewrite Lc. exact Mi.
    - cbn. rewrite Er. exact Rf.
    - cbn. rewrite Ic. exact Mi. }
  assert (Y : let s1 := match sm_yawmode s with RATE => update_yaw_reference s | ANGLE => s end in
    sm_dyn s1 = sm_dyn s /\ sm_ctl s1 = sm_ctl s /\ rf_motors (sm_refs s1) = rf_motors (sm_refs s)).
  { cbv zeta. destruct (sm_yawmode s); split; try reflexivity; split; reflexivity. }
  cbv zeta in Y. revert Y. generalize (match sm_yawmode s with ANGLE => s | RATE => update_yaw_reference s end). intros s1 (Ed & Ec & Er).
  destruct (sm_mode s1).
  - apply (X s1 Ed Ec Er). unfold ctl_pos, ctl_vel. cbv zeta. acc_size.
  - split.
    + exists p. split; [|exact L]. cbn. rewrite Ed. eapply vehicle_act; [exact V|]. rewrite Er. exact Rf.
    + cbn. rewrite Er. exact Rf.
    + cbn. rewrite Ec. exact Mi.
  - apply (X s1 Ed Ec Er). apply acro_sizes.
  - apply (X s1 Ed Ec Er). unfold ctl_traj, traj_control. cbv zeta. acc_size.
  - apply (X s1 Ed Ec Er). unfold ctl_vel. cbv zeta. acc_size.
  - apply (X s1 Ed Ec Er). unfold ctl_pos, ctl_vel. cbv zeta. acc_size.
Qed.

Lemma well_dynamics n s dt : well n s -> dt <= 2147483647 / 100 ->
  exists s', next (update_dynamics s dt) s' /\ well n s'.
Proof.
  intros [(p & V & L) Rf Mi] D.
  assert (Fr : forall s', next (update_dynamics s dt) s' -> (exists d, vehicle n d (sm_act s) p /\ d_model (sm_dyn s') = d_model d /\ s_mvel (sim_state s') = s_mvel (d_state d)) -> well n s').
  { intros s' N (d & Vd & Md & Sd). destruct (frame_dynamics n s dt s' N) as (C & _ & _ & _ & Rr & Ac & _). split.
    - exists p. split; [|exact L]. destruct Vd as (A & B & E & F). rewrite Ac.
      split; [rewrite Md; exact A|]. split; [rewrite Md; exact B|]. split; [exact E|].
      change (d_state (sm_dyn s')) with (sim_state s'). rewrite Sd. exact F.
    - rewrite Rr. exact Rf.
    - rewrite C. exact Mi. }
  pose proof V as (Vr & Vp & _). pose proof Vp as Vp'. apply get_params_cfg in Vp' as (c & Hc & Hcp).
  destruct (Rle_lt_dec dt 0) as [Z|Z].
  - assert (Zl : leb dt zero = true) by (unR; apply Rleb_true; exact Z).
    destruct (below_floor s) eqn:B.
    + apply andb_prop in B as [B1 B2].
      destruct (failed_below n s dt p Zl Vp B1 B2) as (s' & K & _ & Ed & _).
      exists s'. split; [right; exact K|]. apply Fr; [right; exact K|]. exists (sm_dyn s). split; [exact V|]. unfold sim_state. rewrite Ed. split; reflexivity.
    + apply andb_false_iff in B. pose proof (failed_above n R_sane s dt Zl B) as K.
      exists s. split; [right; exact K|]. apply Fr; [right; exact K|]. exists (sm_dyn s). split; [exact V|]. split; reflexivity.
  - assert (U : exists s', update_dynamics s dt = Ok s').
    { unfold update_dynamics. rewrite Hc. cbn [option_map].
      destruct (below_floor s).
      - destruct (complete_step_defined n (sm_dyn s) (sm_act s) dt (vscaler (vneg (p_grav (cf_params c))) (p_mass (cf_params c))) (negb (sm_floor_col s)) p V L (conj Z D)) as [d Pd].
        cbn [with_ext sm_dyn sm_act sm_ext sm_floor_col]. rewrite Pd. cbv zeta. destruct (below_floor _); eexists; reflexivity.
      - destruct (complete_step_defined n (sm_dyn s) (sm_act s) dt (sm_ext s) (negb (sm_floor_col s)) p V L (conj Z D)) as [d Pd].
        rewrite Pd. cbv zeta. destruct (below_floor _); eexists; reflexivity. }
    destruct U as [s' K]. exists s'. split; [left; exact K|]. apply Fr; [left; exact K|].
    destruct (contact_cases _ _ _ K) as (ext & d & F & C). unfold free_motion in F.
    assert (Vd : vehicle n d (sm_act s) p).
    { pose proof (process_inv (fun x => vehicle n x (sm_act s) p) (sm_dyn s) (sm_act s) dt ext (negb (sm_floor_col s)) V) as I.
      rewrite F in I. apply I. intros x y h Vx E. eapply vehicle_core; eassumption. }
    exists d. split; [exact Vd|]. destruct C as [(_ & _ & St & M & _)|(_ & Ed & _)].
    + split; [exact M|]. destruct St as (_ & _ & _ & _ & _ & _ & _ & _ & Mv & _). exact Mv.
    + unfold sim_state. rewrite Ed. split; reflexivity.
Qed.

Lemma new_defined n p seed st : check_params p = true -> (length (p_motors p) <= n)%nat -> exists d : Dyn R G, dyn_new n p seed st = Some d.
Proof.
  intros C L. unfold dyn_new, model_new, update_params. rewrite C. cbn [negb]. unfold compute_mixer_6D, compute_mixer_inertia, cols.
  assert (Nat.ltb n (length (p_motors p)) = false) as -> by (apply Nat.ltb_ge; exact L). cbn. eexists. reflexivity.
Qed.

Lemma well_step n s op : well n s -> fits n op -> exists s', next (sim_step n s op) s' /\ well n s'.
Proof.
  intros W Q. pose proof W as [(p & V & L) Rf Mi].
  destruct op; cbn [sim_step fits] in *; try (eexists; split; [left; reflexivity|]; split; [exists p; split; assumption|assumption|assumption]).
  - apply well_dynamics; assumption.
  - eexists; split; [left; reflexivity|]. apply well_controller, W.
  - eexists; split; [left; reflexivity|]. split; [exists p; split; [|exact L]|exact Rf|exact Mi].
    eapply vehicle_act; [exact V|apply repeat_length].
  - eexists; split; [left; reflexivity|]. unfold set_control_mode. destruct (_ && _); [exact W|]. split; [exists p; split; assumption|exact Rf|exact Mi].
  - destruct Q as (C & Lm & Ls). destruct (new_defined n p0 seed st C) as [d Ed]; [lia|].
    exists (with_dyn s d). split; [left; unfold set_dynamics_params; rewrite Ed; reflexivity|].
    destruct (new_params _ _ _ _ _ Ed C) as (A & B & E). split; [|exact Rf|exact Mi].
    exists p0. split; [|exact Lm]. split; [exact A|]. split; [exact B|]. split; [apply V|]. cbn. rewrite E. exact Ls.
  - destruct Q as (p0 & V0 & L0). eexists; split; [left; reflexivity|]. split; [|exact Rf|exact Mi].
    exists p0. split; [|exact L0]. eapply vehicle_act; [exact V0|]. apply V.
Qed.

Lemma well_run n ops : forall s, well n s -> Forall (fits n) ops -> exists s', sim_run n s ops = Some s' /\ well n s'.
Proof.
  induction ops as [|op r IH]; intros s W F; [exists s; split; [reflexivity|exact W]|].
  apply Forall_cons_iff in F as [Q F]. destruct (well_step n s op W Q) as (s1 & N & W1).
  destruct (IH s1 W1 F) as (s' & K & W'). exists s'. split; [|exact W']. cbn [sim_run]. destruct N as [-> | ->]; exact K.
Qed.

Lemma simulator_defined n sp ops : fitting_params n sp -> Forall (fits (G := G) (H := H) n) ops -> exists s', sim_after n sp ops = Some s'.
Proof.
  intros (C & Lm & Ls & Lc) F. destruct (new_defined n (sp_model sp) (sp_seed sp) (sp_state sp) C) as [d Ed]; [lia|].
  unfold sim_after, sim_new. rewrite Ed. cbn [option_map].
  destruct (new_params _ _ _ _ _ Ed C) as (A & B & E).
  match goal with |- exists s', sim_run n ?x ops = _ => assert (W : well n x) end.
  { split; [|apply repeat_length|exact Lc]. exists (sp_model sp). split; [|exact Lm].
    split; [exact A|]. split; [exact B|]. split; [apply repeat_length|]. cbn. rewrite E. exact Ls. }
  destruct (well_run n ops _ W F) as (s' & K & _). exists s'. exact K.
Qed.

(** *** What the first hover command does for any vehicle (C60). *)
Lemma hover_first sp m g0 w pos yaw dt s :
  hover_setup m g0 w pos yaw sp -> sim_after 4 sp [SArm; SMode HOVER ANGLE; SController dt] = Some s ->
  sm_act s = [w; w; w; w] /\ sim_state s = sp_state sp /\ vehicle 4 (sm_dyn s) (sm_act s) (sp_model sp) /\
  sm_ext s = mkV 0 0 0 /\ sm_floor_en s = false.
Proof.
  intros ((kf & kt & x & y & mn & mx & tau & J & K1 & K2 & K3 & K4 & K5 & K6 & L) & B1 & B2 & B3 & B4 & B5 & B6 & B7 & B8 & B9 & B10 & B11 & B12 & B13 & B14 & B15) Rn.
  unfold sim_after in Rn. destruct (sim_new 4 sp) as [s0|] eqn:N; [|discriminate].
  cbn [sim_run sim_step] in Rn. injection Rn as <-.
  destruct (new_fields 4 _ _ N) as (F1 & F2 & F3 & F4 & F5 & F6 & F7 & F8 & d & Dn & Ed).
  destruct (new_params _ _ _ _ _ Dn B1) as (Mr & Gp & Ds).
  assert (C : sm_ctl s0 = ctl_new 4 (sp_ctl sp)).
  { unfold sim_new in N. destruct (dyn_new _ _ _ _); [|discriminate]. cbn in N. injection N as <-. reflexivity. }
  assert (St : sim_state s0 = sp_state sp) by (unfold sim_state; rewrite Ed; exact Ds).
  set (s1 := set_control_mode (arm s0) HOVER ANGLE).
  set (op := CPos pos (rot_z yaw) (mkV 0 0 0) (mkV 0 0 0) pos yaw dt).
  assert (E : update_controller 4 s1 dt = with_control s1 (ctl_step (ctl_new 4 (sp_ctl sp)) op)).
  { unfold s1, set_control_mode, arm. cbn [sm_mode sm_yawmode]. rewrite F4. cbn [mode_eqb andb].
    unfold update_controller. cbn [sm_armed negb sm_yawmode sm_mode sm_refs sm_ctl sm_dyn rf_pos rf_yaw]. cbv zeta.
    unfold sim_state. cbn [sm_dyn]. change (d_state (sm_dyn s0)) with (sim_state s0).
    rewrite St, B10, B11, B13, B14, level_mat, level_euler, C by exact B12. reflexivity. }
  assert (Hh : holds_still yaw op) by (unfold op; cbn; repeat split).
  assert (W : 4 * kf * sq_signed w = m * g0) by (rewrite sq_signed_pos by exact B8; lra).
  assert (Knz : kf <> 0) by lra.
  assert (Rs : forall k, calm (get_pid k (ctl_new 4 (sp_ctl sp)))) by (intros k; destruct k; left; reflexivity).
  assert (A : ct_dmotor (ctl_step (ctl_new 4 (sp_ctl sp)) op) = [w; w; w; w]).
  { destruct L as [L|L]; rewrite L in B3.
    - refine (calm_rotors _ _ _ _ _ (ctl_new 4 (sp_ctl sp)) op yaw m g0 w (det_x kf kt x y mn mx tau J Knz K2 K3 K4) B3 eq_refl B9 Rs Hh B4 B5 B6 B7 B8 _ _).
      + pose proof (quad_x_force kf kt x y mn mx tau J w AZ) as Q. cbv beta iota in Q. rewrite W in Q. exact Q.
      + intros ax. apply (quad_x_torque kf kt x y mn mx tau J w 0 ax).
    - refine (calm_rotors _ _ _ _ _ (ctl_new 4 (sp_ctl sp)) op yaw m g0 w (det_plus kf kt x y mn mx tau J Knz K2 K3 K4) B3 eq_refl B9 Rs Hh B4 B5 B6 B7 B8 _ _).
      + pose proof (quad_plus_force kf kt x y mn mx tau J w AZ) as Q. cbv beta iota in Q. rewrite W in Q. exact Q.
      + intros ax. apply (quad_plus_torque kf kt x y mn mx tau J w 0 ax). }
  assert (Y : sm_dyn s1 = sm_dyn s0 /\ sm_ext s1 = mkV 0 0 0 /\ sm_floor_en s1 = false).
  { unfold s1, set_control_mode, arm. cbn [sm_mode sm_yawmode]. rewrite F4. cbn. rewrite F1, F6. repeat split. }
  destruct Y as (Y1 & Y2 & Y3).
  rewrite E. unfold with_control, sim_state. cbn [with_act with_ctl sm_act sm_ext sm_floor_en sm_dyn]. rewrite Y1, Y2, Y3, A.
  split; [reflexivity|]. split; [exact St|]. split; [|split; reflexivity].
  split; [rewrite Ed; exact Mr|]. split; [rewrite Ed; exact Gp|]. split; [reflexivity|].
  change (d_state (sm_dyn s0)) with (sim_state s0). rewrite St, B15. reflexivity.
Qed.

Lemma hover_drift sp m g0 w pos yaw dt dt' s :
  hover_setup m g0 w pos yaw sp -> p_grav (sp_model sp) = mkV 0 0 (- g0) -> p_mass (sp_model sp) = m -> 0 < dt' <= 1/100 ->
  sim_after 4 sp [SArm; SMode HOVER ANGLE; SController dt; SDynamics dt'] = Some s ->
  vz (s_vel (sim_state s)) = dt' * ((m - 1) * g0 / m).
Proof.
  intros Hs Gv Ms Hd Rn. change [SArm; SMode HOVER ANGLE; SController dt; SDynamics dt'] with ([SArm; SMode HOVER ANGLE; SController (G := G) (H := H) dt] ++ [SDynamics dt']) in Rn.
  unfold sim_after in Rn. destruct (sim_new 4 sp) as [s0|] eqn:N; [|discriminate].
  rewrite run_app in Rn. destruct (sim_run 4 s0 [SArm; SMode HOVER ANGLE; SController dt]) as [s1|] eqn:R1; [|discriminate].
  destruct (hover_first sp m g0 w pos yaw dt s1 Hs) as (A1 & A2 & A3 & A4 & A5); [unfold sim_after; rewrite N; exact R1|].
  cbn [sim_run sim_step] in Rn.
  assert (U : exists s', update_dynamics s1 dt' = Ok s' /\ s' = s).
  { destruct (update_dynamics s1 dt') as [z|z|] eqn:E; try discriminate; injection Rn as <-; [eauto|].
    exfalso. destruct (ud_throw R_sane _ _ _ E) as [Z _]. unR. revert Z. rcase; [lra|discriminate]. }
  destruct U as (s' & U & ->). destruct (contact_cases _ _ _ U) as (ext & d & F & [[X _]|(_ & D & _)]); [congruence|].
  destruct (ud_ok _ _ _ U) as (ext1 & d1 & F1 & E1 & _ & E2). cbv zeta in E2.
  assert (Bf : below_floor s1 = false) by (unfold below_floor; rewrite A5; reflexivity). rewrite Bf in E1. subst ext1.
  assert (D1 : sm_dyn s = d1).
  { assert (Bg : below_floor (with_col (with_ext (with_dyn s1 d1) v0) false) = false) by (unfold below_floor; cbn; rewrite A5; reflexivity).
    rewrite Bg in E2. rewrite E2. reflexivity. }
  unfold free_motion in F1. apply process_small_inv in F1; [|exact Hd].
  pose proof (step_newton 4 _ _ _ _ _ _ _ A3 F1 AZ) as (L1 & L2 & L3 & _).
  destruct Hs as ((kf & kt & x & y & mn & mx & tau & J & K1 & K2 & K3 & K4 & K5 & K6 & L) & B1 & B2 & B3 & B4 & B5 & B6 & B7 & B8 & B9 & B10 & B11 & B12 & B13 & B14 & B15).
  pose proof (silent_core _ _ _ _ _ _ _ (proj1 (proj2 A3)) B2 F1) as Sl.
  rewrite Sl, A4, Gv in L1. change (d_state (sm_dyn s1)) with (sim_state s1) in L1, L3. rewrite A2, B11, B13, B15 in L1. rewrite A2, B13 in L3.
  assert (Fo : vec_of (rotor_force (p_motors (sp_model sp)) [w; w; w; w]) = mkV 0 0 (m * g0)).
  { assert (W : 4 * kf * sq_signed w = m * g0) by (rewrite sq_signed_pos by exact B8; lra). rewrite <- W.
    destruct L as [L|L]; rewrite L; unfold vec_of; rewrite ?quad_x_force, ?quad_plus_force; reflexivity. }
  rewrite Fo, level_up in L1. cbn [pr vz v0] in L1. unfold drag_spec in L1. cbn [pr vz] in L1.
  assert (S0 : sq_signed 0 = 0) by (unfold sq_signed; ring). rewrite S0 in L1. change (vz v0) with 0 in L1.
  unfold sim_state. rewrite D1. change (vz (s_vel (d_state d1))) with (pr AZ (s_vel (d_state d1))). rewrite L3, L2. cbn [pr]. rewrite L1, Ms. cbn [pr vz]. change (zero : R) with 0. field. lra.
Qed.

(** Yaw rate mode: the yaw reference leads the heading by rate/gain. *)
Lemma rate_reference n s dt yaw : sm_armed s = true -> sm_yawmode s = RATE -> s_ori (sim_state s) = level yaw -> - PI < yaw <= PI ->
  let k := m22 (ac_kp (ct_acro (sm_ctl s))) in k <> 0 ->
  rf_yaw (sm_refs (update_controller n s dt)) = yaw + rf_yawrate (sm_refs s) / k.
Proof.
  intros A Y O Hy. cbv zeta. intros K.
  assert (E : rf_yaw (sm_refs (update_controller n s dt)) = yaw_rate_to_angle (sm_ctl s) (vz (quat_to_euler (s_ori (sim_state s)))) (rf_yawrate (sm_refs s))).
  { unfold update_controller. rewrite A, Y. cbn [negb]. cbv zeta. destruct (sm_mode (update_yaw_reference s)); reflexivity. }
  rewrite E, O, level_euler by exact Hy. unfold yaw_rate_to_angle. unR. assert (Reqb (m22 (ac_kp (ct_acro (sm_ctl s)))) 0 = false) as -> by (apply Reqb_false; exact K). reflexivity.
Qed.
End End.
