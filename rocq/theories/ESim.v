(** Examples and counterexamples for the simulator theorems. *)

From Coq Require Import ZArith List Bool Lia Reals Lra Psatz.
From Verif Require Import Scalar LinAlg MUtils MModel MDynamics MPid MControl MCtlRun MImu MSim
  SpecDyn SpecRun SpecPid SpecCtl SpecImu SpecSim SpecEuler
  PBase PDyn PModel PDynR PPhys PVeh PMix PDynMore EBase PPid PPidR EPid PCtl PCtlR PCtlMix ECtl PImu EImu
  PSim PSimR PHover PEuler PSimEnd.
Import ListNotations.
Local Open Scope R_scope.

(** A quadrotor of mass [m] under gravity [g0] without noise, its controller
    set up for it, starting in the state [st]. *)
Definition sp_ex (m gv g0 : R) (st : State R) (imu : ImuParams R) : SimParams R :=
  mkSP (ex_params 1 m (mkV 0 0 (- gv)) 0 0 0) 0 st
       (mkCP (mkAP m mI (mkV 0 0 (- g0))) (mkIP mI inv_ex cpx_pid) cpx_pid cpx_pid (pp_wind v0 false))
       imu (mkODP 1 (s_ori st)).
Definition imp_plain : ImuParams R := mkIMP 0 0 0 0 (mkQ 1 0 0 0) 0.

Lemma sp_fits m gv g0 st imu : 0 <= m -> length (s_mvel st) = 4%nat -> fitting_params 4 (sp_ex m gv g0 st imu).
Proof.
  intros Hm Hl. split; [apply ex_check; lra|]. split; [reflexivity|]. split; [exact Hl|reflexivity].
Qed.

Section Ex.
Context {G H : Gen R}.

Lemma ex_start n sp : fitting_params n sp -> exists s : Sim R G H, sim_new n sp = Some s /\
  sim_after n sp [] = Some s /\ well n s /\
  sim_state s = sp_state sp /\ sm_ctl s = ctl_new n (sp_ctl sp) /\ sm_imu s = imu_new (sp_imu sp) /\
  sm_odom s = odom_new (sp_odom sp) /\ ModelReach n (d_model (sm_dyn s)) /\ get_params (d_model (sm_dyn s)) = Some (sp_model sp) /\
  sm_act s = repeat 0 n /\ sm_armed s = false /\ sm_floor_en s = false /\ sm_floor_h s = 0 /\ sm_ext s = mkV 0 0 0 /\
  sm_refs s = refs0 n /\ sm_mode s = MOTOR_W /\ sm_yawmode s = ANGLE.
Proof.
  intros (C & Lm & Lv & Li). destruct (new_defined (G := G) n (sp_model sp) (sp_seed sp) (sp_state sp) C (Nat.eq_le_incl _ _ Lm)) as [d E].
  unfold sim_after, sim_new. rewrite E. cbn [option_map]. eexists. split; [reflexivity|]. split; [reflexivity|].
  destruct (new_params n (sp_model sp) _ _ d E C) as (Rc & Gp & St).
  split.
  { constructor; [|apply repeat_length|exact Li]. exists (sp_model sp). split; [|exact Lm]. split; [exact Rc|]. split; [exact Gp|].
    split; [apply repeat_length|]. cbn [sm_dyn]. rewrite St. exact Lv. }
  split; [exact St|]. split; [reflexivity|]. split; [reflexivity|]. split; [reflexivity|]. split; [exact Rc|]. split; [exact Gp|].
  split; [reflexivity|]. split; [reflexivity|]. split; [reflexivity|]. split; [reflexivity|]. split; [reflexivity|].
  split; [reflexivity|]. split; reflexivity.
Qed.

Lemma after_cons n sp (s : Sim R G H) op ops s1 : sim_after n sp [] = Some s -> next (sim_step n s op) s1 ->
  sim_after n sp (op :: ops) = sim_run n s1 ops.
Proof.
  unfold sim_after. destruct (sim_new n sp) as [s2|]; [|discriminate]. cbn [sim_run]. intros E. injection E as ->.
  intros [->| ->]; reflexivity.
Qed.
Lemma ok_step n (s : Sim R G H) dt : well n s -> 0 < dt <= 2147483647 / 100 -> exists s', sim_step n s (SDynamics dt) = Ok s' /\ well n s'.
Proof.
  intros W [H0 H1]. destruct (well_dynamics n s dt W H1) as (s' & [E|E] & W').
  - exists s'. split; assumption.
  - exfalso. apply ud_throw in E; [|exact R_sane]. destruct E as [E _]. unR. apply Rleb_true in E. lra.
Qed.

(** ** C43 *)
Definition st_turned : State R := mkState v0 qz90 v0 v0 v0 v0 (mkV 1 0 0) v0 [0;0;0;0] [0;0;0;0].
Lemma imu_frame_refuted : exists sp (s s' : Sim R G H) a,
  ideal (sp_imu sp) /\ imp_ori (sp_imu sp) = mkQ 1 0 0 0 /\ unitq (s_ori (sim_state s)) /\
  sim_after 4 sp [] = Some s /\ sim_step 4 s (SImu (1/100)) = Ok s' /\
  pr a (snd (imu_get_measurement (sm_imu s'))) <> to_body (s_ori (sim_state s)) (s_force (sim_state s)) a.
Proof.
  set (sp := sp_ex 1 4 4 st_turned imp_plain).
  assert (F : fitting_params 4 sp) by (apply sp_fits; [lra|reflexivity]).
  destruct (ex_start 4 sp F) as (s & _ & A & _ & St & _ & Im & _).
  exists sp, s, (update_imu s (1/100)), AY.
  assert (Hi : ideal (sp_imu sp)) by (split; [|split; [|split]]; reflexivity).
  assert (Hm : unitq (mount_of (sp_imu sp) [])).
  { unfold unitq. cbn. lra. }
  split; [exact Hi|]. split; [reflexivity|]. rewrite St. split; [exact qz90_unit|]. split; [exact A|]. split; [reflexivity|].
  assert (Hd : 0 < 1/100) by lra.
  destruct (sim_imu_reading 4 s (update_imu s (1/100)) (sp_imu sp) [] (1/100) Im Hi (Forall_nil _) Hm Hd eq_refl AY) as [-> _].
  rewrite St. change (mount_of (sp_imu sp) []) with (mkQ 1 0 0 0 : Quat R).
  cbn [sp sp_state sp_ex st_turned s_ori s_force]. unfold to_body, to_world, rot_entry, vec_of, qz90. cbn [qw qx qy qz vx vy vz].
  assert (E : sqrt (1/2) * sqrt (1/2) = 1/2) by (apply sqrt_sqrt; lra). nra.
Qed.

(** ** C44, C45 *)
Definition st_low (z : R) : State R := mkState (mkV 1 2 z) q1 (mkV 3 0 (-1)) v0 v0 v0 v0 v0 [0;0;0;0] [0;0;0;0].

(** A vehicle under the floor is put back on it by the next update. *)
Lemma contact_ex : exists sp (s s' : Sim R G H),
  sim_after 4 sp [SEnableFloor 0] = Some s /\ floor_of (G := G) (H := H) None [SEnableFloor 0] = Some 0 /\
  sim_step 4 s (SDynamics (1/100)) = Ok s' /\
  vz (s_pos (sim_state s)) = -1 /\ vz (s_pos (sim_state s')) = 0 /\ s_vel (sim_state s) = mkV 3 0 (-1) /\ s_vel (sim_state s') = mkV 0 0 0.
Proof.
  set (sp := sp_ex 1 4 4 (st_low (-1)) imp_plain).
  assert (F : fitting_params 4 sp) by (apply sp_fits; [lra|reflexivity]).
  destruct (ex_start 4 sp F) as (s & _ & A & W & St & _ & _ & _ & Rc & Gp & Ac & _ & _ & _ & _ & Rf & _).
  assert (A1 : sim_after 4 sp [SEnableFloor 0] = Some (enable_floor s 0)) by exact (after_cons 4 sp s (SEnableFloor 0) [] (enable_floor s 0) A (or_introl eq_refl)).
  assert (W1 : well 4 (enable_floor s 0)) by (destruct W as [W1 W2 W3]; constructor; assumption).
  destruct (ok_step 4 (enable_floor s 0) (1/100) W1) as (s' & E & _); [lra|].
  exists sp, (enable_floor s 0), s'. split; [exact A1|]. split; [reflexivity|]. split; [exact E|].
  assert (P0 : sim_state (enable_floor s 0) = st_low (-1)) by exact St.
  rewrite P0. split; [reflexivity|].
  destruct (contact_cases (enable_floor s 0) (1/100) s' E) as (ext & d & Fr & Cs).
  assert (V : vehicle 4 (sm_dyn (enable_floor s 0)) (sm_act (enable_floor s 0)) (sp_model sp)).
  { split; [exact Rc|]. split; [exact Gp|]. split; [cbn [enable_floor sm_act]; rewrite Ac; reflexivity|].
    change (length (s_mvel (sim_state (enable_floor s 0))) = 4%nat). rewrite P0. reflexivity. }
  assert (Z : vz (s_pos (d_state d)) < 0).
  { unfold free_motion in Fr. apply process_small_inv in Fr; [|lra].
    destruct (step_newton 4 _ _ _ _ _ _ _ V Fr AZ) as (_ & _ & _ & P).
    change (d_state (sm_dyn (enable_floor s 0))) with (sim_state (enable_floor s 0)) in P. rewrite P0 in P. cbn in P. lra. }
  destruct Cs as [(_ & _ & (_ & _ & C1 & _ & C2 & _) & _)|([C|C] & _)].
  - split; [exact C1|]. split; [reflexivity|exact C2].
  - discriminate C.
  - exfalso. cbn [enable_floor sm_floor_h] in C. unR. apply Rltb_false in C. lra.
Qed.

(** ** C46: idling rotors *)
Definition params_idle : Params R := mkParams (quad_x 1 1 1 1 1 100 (1/10) 0) 1 mI 0 mI (mkV 0 0 0) 0 0.
Definition sp_idle : SimParams R :=
  mkSP params_idle 0 (ex_state v0 v0 [1;1;1;1])
       (mkCP (mkAP 1 mI (mkV 0 0 (-4))) (mkIP mI inv_ex cpx_pid) cpx_pid cpx_pid cpx_pid) imp_plain (mkODP 1 q1).
Lemma idle_check : check_params params_idle = true.
Proof.
  unfold check_params, params_idle. cbn [p_mass p_inertia p_drag p_aero p_motors quad_x forallb].
  rewrite !mdet_R. unfold det3, mI, mdiag, check_motor. cbn [m00 m01 m02 m10 m11 m12 m20 m21 m22 mt_max mt_min mt_tau mt_J mt_kf mt_kt].
  unR. rcase; try lra; reflexivity.
Qed.
Lemma rotors_idle_refuted : exists sp, fitting_params 4 sp /\
  forall (ops : list (SimOp R G H)) s', Forall hands_off ops -> sim_after 4 sp (SDisarm :: ops) = Some s' ->
  forall i w, nth_error (s_mvel (sim_state s')) i = Some w -> 1 <= w.
Proof.
  exists sp_idle.
  assert (F : fitting_params 4 sp_idle).
  { split; [exact idle_check|]. split; [reflexivity|]. split; reflexivity. }
  split; [exact F|]. intros ops s' Ho E i w Hn.
  destruct (ex_start 4 sp_idle F) as (s & Ns & _ & _ & St & _ & _ & _ & _ & Gp & _).
  unfold sim_after in E. rewrite Ns in E.
  assert (S0 : speeds_ok (p_motors (sp_model sp_idle)) (s_mvel (sim_state s))).
  { rewrite St. intros j x Hj.
    destruct j as [|[|[|[|j]]]]; cbn in Hj; try (destruct j; discriminate Hj); injection Hj as <-;
      eexists; (split; [reflexivity|]); cbn [mt_min mt_max]; unR; (split; apply Rltb_false; lra). }
  destruct (run_limits 4 R_sane (sp_model sp_idle) (SDisarm :: ops) s s' Gp S0) as [_ L]; [apply Forall_cons; [exact I|exact Ho]|exact E|].
  destruct (L i w Hn) as (mt & Hm & Hlo & _). unR. apply Rltb_false in Hlo.
  assert (M : mt_min mt = 1).
  { destruct i as [|[|[|[|i]]]]; cbn in Hm; try (destruct i; discriminate Hm); injection Hm as <-; reflexivity. }
  lra.
Qed.

(** ** C47: an integral wound up in one mode acts in the next *)
Definition still_state : State R := mkState v0 (mkQ 1 0 0 0) v0 v0 v0 v0 v0 v0 [1;1;1;1] [0;0;0;0].
Definition wound : list (SimOp R G H) :=
  [SArm; SMode VELOCITY ANGLE; SRefVel (mkV 0 0 1); SController 1; SMode POSITION ANGLE].
Definition fresh : list (SimOp R G H) := [SArm; SMode VELOCITY ANGLE; SMode POSITION ANGLE].

Lemma wind_out (s : PidSt R) e : ps_first s = false -> ps_filt s = v0 -> e = mkV 0 0 0 ->
  vz (pid_output (pid_step (mkPid (mkPC (vdiagm v0) (vdiagm (r3 1)) (vdiagm v0) v0 v1 false false false v0 v0) s) (OpCompute 1 e))) = vz (ps_acc s).
Proof.
  intros F B ->. unfold pid_output. cbn [pid_step]. unfold pid_compute, pid_out, ps_init, pid_acc. cbn [pid_c pid_s]. rewrite F. cbn [ps_out pc_sflag pc_aw].
  replace (veqb v0 v0) with true by (symmetry; apply veqb_v0_true; intros a; apply pr_v0).
  cbn [negb pc_kp pc_ki pc_kd pc_rflag]. unfold vdiagm, mmulv, mdiag, vadd, vmap2, vscaler, vmap, rst1, r3, v0. cbn [vx vy vz m00 m01 m02 m10 m11 m12 m20 m21 m22].
  unR. ring.
Qed.
Lemma wind_first : let p := pid_step (pid_new (pp_wind v0 false)) (OpCompute 1 (mkV 0 0 1)) in
  pid_c p = mkPC (vdiagm v0) (vdiagm (r3 1)) (vdiagm v0) v0 v1 false false false v0 v0 /\
  ps_first (pid_s p) = false /\ ps_filt (pid_s p) = v0 /\ vz (ps_acc (pid_s p)) = 1.
Proof.
  cbv zeta. rewrite new_aw. split; [reflexivity|]. split; [reflexivity|].
  cbn [pid_step]. unfold pid_compute, pid_acc, ps_init. cbn [pid_c pid_s ps_first ps0 ps_filt ps_acc pc_aw].
  replace (veqb v0 v0) with true by (symmetry; apply veqb_v0_true; intros a; apply pr_v0).
  cbn [negb pc_rflag]. split.
  - unfold pid_filt, vadd, vcmul, vdiv, vsub, vmap2, vmap, v0, v1. cbn [pc_alpha ps_perr ps_filt vx vy vz]. unR. apply V3_eq; cbn [vx vy vz]; field.
  - unfold vadd, vmap2, vscaler, vmap, rst1, v0. cbn [vx vy vz]. unR. ring.
Qed.
Lemma zero_err : vsub (v0 : V3 R) v0 = mkV 0 0 0.
Proof. unfold vsub, vmap2, v0. cbn. unR. apply V3_eq; cbn; lra. Qed.
Lemma memory_refuted : exists sp (h1 h2 : list (SimOp R G H)) a b a' b',
  sim_after 4 sp h1 = Some a /\ sim_after 4 sp h2 = Some b /\
  last h1 SArm = SMode POSITION ANGLE /\ last h2 SArm = SMode POSITION ANGLE /\
  sm_dyn a = sm_dyn b /\ sm_refs a = sm_refs b /\ sm_armed a = sm_armed b /\ sm_mode a = sm_mode b /\ sm_yawmode a = sm_yawmode b /\
  sim_step 4 a (SController 1) = Ok a' /\ sim_step 4 b (SController 1) = Ok b' /\
  get_desired_linear_acceleration (sm_ctl a') <> get_desired_linear_acceleration (sm_ctl b').
Proof.
  set (sp := sp_ex 1 4 4 still_state imp_plain).
  assert (F : fitting_params 4 sp) by (apply sp_fits; [lra|reflexivity]).
  destruct (ex_start 4 sp F) as (s & _ & A & W & St & Ct & _ & _ & _ & _ & Ac & Ar & Fe & Fh & _ & Rf & Md & Ym).
  pose (s1 := set_control_mode (arm s) VELOCITY ANGLE).
  pose (s2 := set_ref_vel s1 (mkV 0 0 1)).
  pose (s3 := update_controller 4 s2 1).
  pose (a := set_control_mode s3 POSITION ANGLE). pose (b := set_control_mode s1 POSITION ANGLE).
  assert (M1 : s1 = mkSim (sm_dyn s) (sm_ctl s) (sm_imu s) (sm_odom s) true (sm_floor_en s) (sm_floor_col s) (sm_floor_h s)
    (sm_refs s1) (sm_act s) (sm_ext s) VELOCITY ANGLE).
  { unfold s1, set_control_mode. cbn [arm sm_mode]. rewrite Md. reflexivity. }
  assert (M3 : s3 = with_control s2 (ctl_vel (sm_ctl s2) (s_vel (sim_state s2)) (qmat (s_ori (sim_state s2))) (s_angvel (sim_state s2))
                                      (mkV 0 0 1) (rf_yaw (sm_refs s2)) 1)).
  { unfold s3, s2. rewrite M1. reflexivity. }
  assert (Cs : sm_ctl s2 = ctl_new 4 (sp_ctl sp)) by (unfold s2; rewrite M1; exact Ct).
  assert (S2 : sim_state s2 = still_state) by (unfold s2; rewrite M1; exact St).
  assert (D3 : sm_dyn s3 = sm_dyn s1) by (rewrite M3; unfold s2; reflexivity).
  assert (A0 : a = mkSim (sm_dyn s1) (sm_ctl s3) (sm_imu s) (sm_odom s) true (sm_floor_en s) (sm_floor_col s) (sm_floor_h s)
     (sm_refs b) (sm_act s3) (sm_ext s) POSITION ANGLE).
  { unfold a, b, set_control_mode. rewrite M3, M1. unfold s2. rewrite M1. reflexivity. }
  assert (B0 : b = mkSim (sm_dyn s1) (sm_ctl s) (sm_imu s) (sm_odom s) true (sm_floor_en s) (sm_floor_col s) (sm_floor_h s)
     (sm_refs b) (sm_act s) (sm_ext s) POSITION ANGLE).
  { unfold b, set_control_mode. rewrite M1. reflexivity. }
  assert (S1 : sim_state s1 = still_state) by (rewrite M1; exact St).
  assert (Rp : rf_pos (sm_refs b) = v0).
  { unfold b, set_control_mode. rewrite M1. change (s_pos (sim_state s) = v0). rewrite St. reflexivity. }
  assert (Hrest : forall k, rests (get_pid k (ctl_new 4 (sp_ctl sp)))).
  { intros []; [..|]; apply new_plain; intros []; cbn; lra. }
  assert (Hcalm : forall k, calm (get_pid k (ctl_new 4 (sp_ctl sp)))).
  { intros []; left; reflexivity. }
  exists sp, wound, fresh, a, b, (update_controller 4 a 1), (update_controller 4 b 1).
  split. { exact (after_cons 4 sp s SArm _ _ A (or_introl eq_refl)). }
  split. { exact (after_cons 4 sp s SArm _ _ A (or_introl eq_refl)). }
  split; [reflexivity|]. split; [reflexivity|].
  split; [rewrite A0, B0; reflexivity|]. split; [rewrite A0; reflexivity|]. split; [rewrite A0, B0; reflexivity|].
  split; [rewrite A0, B0; reflexivity|]. split; [rewrite A0, B0; reflexivity|]. split; [reflexivity|]. split; [reflexivity|].
  pose (op := CPos v0 (qmat (mkQ 1 0 0 0)) v0 v0 v0 (rf_yaw (sm_refs b)) 1 : CtlOp R).
  assert (Ca : sm_ctl (update_controller 4 a 1) = ctl_step (sm_ctl s3) op).
  { rewrite A0. unfold update_controller. cbn [sm_armed negb sm_yawmode sm_mode sm_refs]. unfold sim_state. cbn [sm_dyn].
    change (d_state (sm_dyn s1)) with (sim_state s1). rewrite S1, Rp. reflexivity. }
  assert (Cb : sm_ctl (update_controller 4 b 1) = ctl_step (ctl_new 4 (sp_ctl sp)) op).
  { rewrite B0. unfold update_controller. cbn [sm_armed negb sm_yawmode sm_mode sm_refs]. unfold sim_state. cbn [sm_dyn].
    change (d_state (sm_dyn s1)) with (sim_state s1). rewrite S1. cbn [sm_ctl with_control with_act with_ctl]. rewrite Rp, Ct. reflexivity. }
  rewrite Ca, Cb.
  assert (C3 : sm_ctl s3 = ctl_step (ctl_new 4 (sp_ctl sp)) (CVel v0 (qmat (mkQ 1 0 0 0)) v0 (mkV 0 0 1) (rf_yaw (sm_refs s2)) 1)).
  { rewrite M3. cbn [sm_ctl with_control with_act with_ctl]. rewrite Cs, S2. reflexivity. }
  destruct (vel_records (ctl_new 4 (sp_ctl sp)) v0 (qmat (mkQ 1 0 0 0)) v0 (mkV 0 0 1) (rf_yaw (sm_refs s2)) 1) as (_ & _ & _ & V1 & _ & V2).
  rewrite <- C3 in V1, V2.
  destruct (pos_records (sm_ctl s3) v0 (qmat (mkQ 1 0 0 0)) v0 v0 v0 (rf_yaw (sm_refs b)) 1) as (_ & _ & P1 & P2 & P3 & _).
  destruct (pos_records (ctl_new 4 (sp_ctl sp)) v0 (qmat (mkQ 1 0 0 0)) v0 v0 v0 (rf_yaw (sm_refs b)) 1) as (_ & _ & Q1 & Q2 & Q3 & _).
  fold op in P1, P2, P3, Q1, Q2, Q3. rewrite P1, Q1, P3, Q3, P2, Q2, V1, V2, zero_err.
  destruct (pid_calm (get_pid WPos (ctl_new 4 (sp_ctl sp))) 1 (Hrest WPos) (Hcalm WPos)) as [Z _]. rewrite Z.
  change (mkV 0 0 0) with (v0 : V3 R). rewrite zero_err.
  destruct (pid_calm (get_pid WVel (ctl_new 4 (sp_ctl sp))) 1 (Hrest WVel) (Hcalm WVel)) as [Z2 _]. rewrite Z2.
  intros K. apply (f_equal vz) in K. cbn [vz] in K.
  change (get_pid WVel (ctl_new 4 (sp_ctl sp))) with (pid_new (pp_wind v0 false)) in K.
  assert (Ev : vsub (mkV 0 0 1) (v0 : V3 R) = mkV 0 0 1).
  { unfold vsub, vmap2, v0. cbn [vx vy vz]. unR. apply V3_eq; cbn [vx vy vz]; ring. }
  rewrite Ev in K. destruct wind_first as (W1 & W2 & W3 & W4). revert K W1 W2 W3 W4.
  generalize (pid_step (pid_new (pp_wind v0 false)) (OpCompute 1 (mkV 0 0 1))). intros [c0 s0] K W1 W2 W3 W4.
  cbn [pid_c pid_s] in *. subst c0. rewrite wind_out in K; [lra|exact W2|exact W3|reflexivity].
Qed.

(** ** C50 *)
Lemma failed_refuted : exists sp (ops : list (SimOp R G H)) s s', fitting_params 4 sp /\
  sim_after 4 sp ops = Some s /\ sim_step 4 s (SDynamics 0) = Throw s' /\ sm_ext s = mkV 0 0 0 /\ sm_ext s' = mkV 0 0 4.
Proof.
  set (sp := sp_ex 1 4 4 (st_low (-1)) imp_plain).
  assert (F : fitting_params 4 sp) by (apply sp_fits; [lra|reflexivity]).
  destruct (ex_start 4 sp F) as (s & _ & A & W & St & _ & _ & _ & _ & Gp & _).
  assert (A1 : sim_after 4 sp [SEnableFloor 0] = Some (enable_floor s 0)) by exact (after_cons 4 sp s (SEnableFloor 0) [] (enable_floor s 0) A (or_introl eq_refl)).
  destruct (failed_below 4 (enable_floor s 0) 0 (sp_model sp)) as (s' & E & X & _).
  - unR. apply Rleb_true. lra.
  - exact Gp.
  - reflexivity.
  - change (sim_state (enable_floor s 0)) with (sim_state s). rewrite St. cbn. apply Rltb_true. lra.
  - exists sp, [SEnableFloor 0], (enable_floor s 0), s'. split; [exact F|]. split; [exact A1|]. split; [exact E|]. split; [reflexivity|].
    rewrite X. cbn. unfold vscaler, vneg, vmap. cbn. unR. apply V3_eq; cbn; ring.
Qed.

(** ** C57 *)
Definition st_fall : State R := ex_state v0 v0 [0;0;0;0].
Lemma ori_kept sp (s s' : Sim R G H) : vehicle 4 (sm_dyn s) (sm_act s) (sp_model sp) -> sim_state s = st_fall ->
  p_motors (sp_model sp) = ex_motors 1 -> p_fnoise (sp_model sp) = 0 -> sm_act s = repeat 0 4 ->
  sm_floor_en s = false -> sim_step 4 s (SDynamics (1/100)) = Ok s' ->
  s_ori (sim_state s') = q1 /\ sm_imu s' = sm_imu s /\ sm_odom s' = sm_odom s /\
  forall a, pr a (s_force (sim_state s')) = pr a (p_grav (sp_model sp)) + drag_spec (p_drag (sp_model sp)) (mkV 0 0 0) a + pr a (sm_ext s).
Proof.
  intros V S0 Mo Nz Ac Fe E. cbn [sim_step] in E.
  destruct V as (V1 & V2 & V5 & V4).
  destruct (ud_ok s (1/100) s' E) as (ext & d & F & Ex & _ & Es). cbv zeta in Es.
  unfold below_floor in Ex, Es. rewrite Fe in Ex. cbn [andb] in Ex.
  change (sm_floor_en (with_col (with_ext (with_dyn s d) v0) false)) with (sm_floor_en s) in Es. rewrite Fe in Es. cbn [andb] in Es.
  subst s'. change (sim_state (with_col (with_ext (with_dyn s d) v0) false)) with (d_state d).
  unfold free_motion in F. apply process_small_inv in F; [|lra].
  pose proof (silent_core _ _ _ _ _ _ _ V2 Nz F) as Sl.
  split; [|split; [reflexivity|split; [reflexivity|]]].
  - destruct (steady_core 4 (sm_dyn s) d (sm_act s) (1/100) ext _ (sp_model sp) (conj V1 (conj V2 (conj V5 V4))) F Sl) as (_ & O & _).
    + change (s_angvel (sim_state s) = mkV 0 0 0). rewrite S0. reflexivity.
    + change (unitq (s_ori (sim_state s))). rewrite S0. unfold unitq. cbn. ring.
    + change (s_mvel (sim_state s) = sm_act s). rewrite S0, Ac. reflexivity.
    + rewrite Mo, Ac. intros i x Hi. destruct i as [|[|[|[|i]]]]; cbn in Hi; try (destruct i; discriminate Hi); injection Hi as <-;
        eexists; (split; [reflexivity|]); cbn [mt_min mt_max]; lra.
    + intros a. rewrite Ac. apply (zero_rotors 4 (sp_model sp) a).
    + rewrite O. change (s_ori (sim_state s) = q1). rewrite S0. reflexivity.
  - intros a. destruct (step_newton 4 _ _ _ _ _ _ _ (conj V1 (conj V2 (conj V5 V4))) F a) as (N & _). rewrite N, Sl, Ex, pr_v0.
    change (d_state (sm_dyn s)) with (sim_state s). rewrite S0. cbn [st_fall ex_state s_mvel s_vel s_ori].
    assert (Z : vec_of (rotor_force (p_motors (sp_model sp)) [0;0;0;0]) = mkV 0 0 0).
    { apply V3_ax. intros b. rewrite pr_vec_of. destruct (zero_rotors 4 (sp_model sp) b) as [Z _]. cbn [repeat] in Z. rewrite Z. destruct b; reflexivity. }
    rewrite Z. unfold to_world. cbn [vx vy vz]. change (v0 : V3 R) with (mkV 0 0 0 : V3 R). ring.
Qed.

Lemma odometry_mass_refuted : exists sp (s : Sim R G H),
  sim_after 4 sp [SDynamics (1/100); SImu (1/100); SOdom (1/100)] = Some s /\
  ideal (sp_imu sp) /\ imp_ori (sp_imu sp) = mkQ 1 0 0 0 /\ odp_alpha (sp_odom sp) = 1 /\
  odp_ori (sp_odom sp) = s_ori (sp_state sp) /\ s_ori (sim_state s) = s_ori (sp_state sp) /\ p_mass (sp_model sp) = 2 /\
  vz (s_linacc (sim_state s)) = -2 /\ vz (odom_get_linear_acceleration (sm_odom s)) = -4.
Proof.
  set (sp := sp_ex 2 4 4 st_fall imp_plain).
  assert (F : fitting_params 4 sp) by (apply sp_fits; [lra|reflexivity]).
  destruct (ex_start 4 sp F) as (s & _ & A & W & St & _ & Im & Od & Rc & Gp & Ac & _ & Fe & _ & Ex & _).
  assert (V : vehicle 4 (sm_dyn s) (sm_act s) (sp_model sp)).
  { split; [exact Rc|]. split; [exact Gp|]. split; [rewrite Ac; reflexivity|].
    change (length (s_mvel (sim_state s)) = 4%nat). rewrite St. reflexivity. }
  destruct (ok_step 4 s (1/100) W) as (s0 & E0 & _); [lra|].
  destruct (ori_kept sp s s0 V St eq_refl eq_refl Ac Fe E0) as (O & I1 & I2 & Fo).
  pose (s1 := update_imu s0 (1/100)). pose (s2 := update_odom s1 (1/100)).
  exists sp, s2. split. { exact (after_cons 4 sp s (SDynamics (1/100)) _ s0 A (or_introl E0)). }
  assert (Hi : ideal (sp_imu sp)) by (split; [|split; [|split]]; reflexivity).
  split; [exact Hi|]. split; [reflexivity|]. split; [reflexivity|]. split; [reflexivity|]. split; [exact O|]. split; [reflexivity|].
  assert (N : vz (s_linacc (sim_state s2)) = -2).
  { change (sim_state s2) with (sim_state s0). change (pr AZ (s_linacc (sim_state s0)) = -2).
    rewrite (sim_newton 4 s (1/100) s0 (sp_model sp) V E0 Fe AZ), Fo, Ex. unfold drag_spec. cbn. field. }
  split; [exact N|].
  assert (L := sim_accel_law 4 s s0 s1 s2 (sp_model sp) (sp_imu sp) [] (sp_odom sp) [] (1/100) (1/100) (1/100) V).
  change (pr AZ (odom_get_linear_acceleration (sm_odom s2)) = -4). rewrite L; clear L.
  - change (2 * vz (s_linacc (sim_state s2)) = -4). rewrite N. lra.
  - cbn. lra.
  - exact Fe.
  - exact E0.
  - rewrite I1, Im. reflexivity.
  - exact Hi.
  - apply Forall_nil.
  - reflexivity.
  - lra.
  - rewrite I2, Od. reflexivity.
  - unfold nonzeroq. cbn. lra.
  - apply Forall_nil.
  - reflexivity.
  - rewrite O, I2, Od. reflexivity.
  - rewrite O. unfold unitq. cbn. ring.
  - reflexivity.
  - reflexivity.
Qed.

(** ** C58 *)
Definition st_spin : State R := ex_state v0 (mkV 0 0 1) [0;0;0;0].
Definition imp_upside : ImuParams R := mkIMP 0 0 0 0 (mkQ 0 1 0 0) 0.
Lemma mounting_refuted : exists sp (s : Sim R G H),
  sim_after 4 sp [SImu (1/100); SOdom (1/100)] = Some s /\
  ideal (sp_imu sp) /\ unitq (imp_ori (sp_imu sp)) /\ odp_alpha (sp_odom sp) = 1 /\ odp_ori (sp_odom sp) = s_ori (sim_state s) /\
  vz (s_angvel (sim_state s)) = 1 /\ vz (odom_get_angular_velocity (sm_odom s)) = -1.
Proof.
  set (sp := sp_ex 1 4 4 st_spin imp_upside).
  assert (F : fitting_params 4 sp) by (apply sp_fits; [lra|reflexivity]).
  destruct (ex_start 4 sp F) as (s & _ & A & W & St & _ & Im & Od & _).
  pose (s1 := update_imu s (1/100)). pose (s2 := update_odom s1 (1/100)).
  assert (Hi : ideal (sp_imu sp)) by (split; [|split; [|split]]; reflexivity).
  assert (Hu : unitq (imp_ori (sp_imu sp))) by (unfold unitq; cbn; ring).
  exists sp, s2. split. { exact (after_cons 4 sp s (SImu (1/100)) _ s1 A (or_introl eq_refl)). }
  split; [exact Hi|]. split; [exact Hu|]. split; [reflexivity|].
  change (sim_state s2) with (sim_state s). rewrite St. split; [reflexivity|]. split; [reflexivity|].
  assert (Hd : 0 < 1/100) by lra. assert (Ha : od_alpha (sm_odom s) = 1) by (rewrite Od; reflexivity).
  change (pr AZ (odom_get_angular_velocity (sm_odom s2)) = -1).
  rewrite (sim_odom_rates 4 s s1 s2 (sp_imu sp) [] (1/100) (1/100) Im Hi (Forall_nil _) Hu Hd Ha eq_refl eq_refl AZ).
  change (sim_state s2) with (sim_state s). rewrite St. unfold to_body, rot_entry. cbn. lra.
Qed.

(** ** C59 *)
Definition ops_ground : list (SimOp R G H) :=
  [SDynamics (1/100); SController 1; SMode POSITION ANGLE; SRefPos (mkV 1 1 1); SController (1/100); SDynamics (1/200); SDynamics 0; SImu 1].
Lemma ground_ex : exists sp (s : Sim R G H), sim_after 4 sp [] = Some s /\
  vehicle 4 (sm_dyn s) (sm_act s) (sp_model sp) /\ standing 4 0 s /\ vz (p_grav (sp_model sp)) = -4 /\
  Forall hands_off ops_ground /\ Forall not_arm ops_ground /\ Forall keeps_floor ops_ground /\ Forall small_steps ops_ground.
Proof.
  set (sp := sp_ex 1 4 4 st_fall imp_plain).
  assert (F : fitting_params 4 sp) by (apply sp_fits; [lra|reflexivity]).
  destruct (ex_start 4 sp F) as (s & _ & A & W & St & _ & Im & Od & Rc & Gp & Ac & _).
  exists sp, s. split; [exact A|]. split.
  { split; [exact Rc|]. split; [exact Gp|]. split; [rewrite Ac; reflexivity|].
    change (length (s_mvel (sim_state s)) = 4%nat). rewrite St. reflexivity. }
  split. { unfold standing. rewrite St. cbn. repeat (split; [first [reflexivity|lra]|]). reflexivity. }
  split; [reflexivity|]. unfold ops_ground.
  split; [repeat (apply Forall_cons; [exact I|]); apply Forall_nil|].
  split; [repeat (apply Forall_cons; [exact I|]); apply Forall_nil|].
  split; [repeat (apply Forall_cons; [exact I|]); apply Forall_nil|].
  repeat (apply Forall_cons; [cbn; first [exact I|lra]|]); apply Forall_nil.
Qed.

(** ** C60 *)
Definition st_hover : State R := mkState (mkV 1 2 3) (level 0) v0 v0 v0 v0 v0 v0 [1;1;1;1] [0;0;0;0].
Lemma hover_ex m g0 gv : 0 < m -> 0 < g0 -> m * g0 = 4 -> hover_setup m g0 1 (mkV 1 2 3) 0 (sp_ex m gv g0 st_hover imp_plain).
Proof.
  intros Hm Hg E. pose proof PI_RGT_0. unfold hover_setup. split.
  { exists 1, 1, 1, 1, 0, 100, (1/10), 0.
    split; [lra|]. split; [lra|]. split; [lra|]. split; [lra|]. split; [lra|]. split; [lra|]. left. reflexivity. }
  split; [apply ex_check; lra|]. split; [reflexivity|]. split; [exact (proj1 c_ex_inverse)|].
  split; [reflexivity|]. split; [reflexivity|]. split; [exact Hm|]. split; [exact Hg|]. split; [lra|].
  split. { intros []; apply new_plain; intros []; cbn; lra. }
  split; [reflexivity|]. split; [reflexivity|]. split; [lra|]. split; [reflexivity|]. split; reflexivity.
Qed.
Definition ops_hover : list (SimOp R G H) := [SDynamics (1/100); SController (1/100); SDynamics (1/50); SImu (1/100); SOdom (1/100); SController 0].
Lemma hover_holds : exists (s' : Sim R G H), Forall is_update ops_hover /\
  sim_after 4 (sp_ex 1 4 4 st_hover imp_plain) (SArm :: SMode HOVER ANGLE :: SController (1/100) :: ops_hover) = Some s'.
Proof.
  destruct (simulator_defined (G := G) (H := H) 4 (sp_ex 1 4 4 st_hover imp_plain) (SArm :: SMode HOVER ANGLE :: SController (1/100) :: ops_hover)) as [s' E].
  - apply sp_fits; [lra|reflexivity].
  - unfold ops_hover. repeat (apply Forall_cons; [cbn; first [exact I|lra]|]); apply Forall_nil.
  - exists s'. split; [|exact E]. unfold ops_hover. repeat (apply Forall_cons; [exact I|]); apply Forall_nil.
Qed.
(** Mass 2, gravity 2 told to both the vehicle and the controller. *)
Lemma hover_refuted : exists sp (s' : Sim R G H), hover_setup 2 2 1 (mkV 1 2 3) 0 sp /\
  p_mass (sp_model sp) = 2 /\ p_grav (sp_model sp) = mkV 0 0 (-2) /\
  sim_after 4 sp [SArm; SMode HOVER ANGLE; SController (1/100); SDynamics (1/100)] = Some s' /\
  vz (s_vel (sim_state s')) = 1/100.
Proof.
  set (sp := sp_ex 2 2 2 st_hover imp_plain).
  assert (Hh : hover_setup 2 2 1 (mkV 1 2 3) 0 sp) by (apply hover_ex; lra).
  destruct (simulator_defined (G := G) (H := H) 4 sp [SArm; SMode HOVER ANGLE; SController (1/100); SDynamics (1/100)]) as [s' E].
  - apply sp_fits; [lra|reflexivity].
  - repeat (apply Forall_cons; [cbn; first [exact I|lra]|]); apply Forall_nil.
  - exists sp, s'. split; [exact Hh|]. split; [reflexivity|]. split; [reflexivity|]. split; [exact E|].
    rewrite (hover_drift sp 2 2 1 (mkV 1 2 3) 0 (1/100) (1/100) s' Hh eq_refl eq_refl); [field|lra|exact E].
Qed.

(** ** C53 *)
Lemma defined_ex : fitting_params 4 (sp_ex 1 4 4 st_hover imp_plain) /\
  Forall (fits (G := G) (H := H) 4) (SArm :: SMode HOVER RATE :: SRefMotors [1;2;3;4] :: SDynamics 7 :: SDynamics (-1) :: SEnableFloor 5 :: SSetImu imp_upside :: ops_hover).
Proof.
  split; [apply sp_fits; [lra|reflexivity]|]. unfold ops_hover.
  repeat (apply Forall_cons; [cbn; first [exact I|reflexivity|lra]|]); apply Forall_nil.
Qed.
Lemma speeds_ex : exists sp (s : Sim R G H), sim_after 4 sp [] = Some s /\
  get_params (d_model (sm_dyn s)) = Some (sp_model sp) /\ speeds_ok (p_motors (sp_model sp)) (s_mvel (sim_state s)) /\
  unitq (s_ori (sim_state s)) /\ s_mvel (sim_state s) = [1;1;1;1].
Proof.
  set (sp := sp_ex 1 4 4 still_state imp_plain).
  assert (F : fitting_params 4 sp) by (apply sp_fits; [lra|reflexivity]).
  destruct (ex_start 4 sp F) as (s & _ & A & _ & St & _ & _ & _ & _ & Gp & _).
  exists sp, s. split; [exact A|]. split; [exact Gp|]. rewrite St. split; [|split; [unfold unitq; cbn; ring|reflexivity]].
  intros j x Hj. destruct j as [|[|[|[|j]]]]; cbn in Hj; try (destruct j; discriminate Hj); injection Hj as <-;
    eexists; (split; [reflexivity|]); cbn [mt_min mt_max]; unR; (split; apply Rltb_false; lra).
Qed.
Lemma decay_ex : decay (G := G) (H := H) (1/10) [SDynamics (1/100); SController 1; SDynamics (1/100)] = 81/100 /\
  Forall (short_steps (G := G) (H := H) (1/10)) [SDynamics (1/100); SController 1; SDynamics (1/100)].
Proof. split; [cbn; lra|]. repeat (apply Forall_cons; [cbn; first [exact I|lra]|]); apply Forall_nil. Qed.
Lemma twins_ex : exists sp (s a b : Sim R G H), sim_after 4 sp [SArm] = Some s /\
  sim_step 4 s (SMode HOVER RATE) = Ok a /\ sim_step 4 s (SMode POSITION RATE) = Ok b /\ hold_twins a b /\ sm_mode a <> sm_mode b.
Proof.
  set (sp := sp_ex 1 4 4 still_state imp_plain).
  assert (F : fitting_params 4 sp) by (apply sp_fits; [lra|reflexivity]).
  destruct (ex_start 4 sp F) as (s & _ & A & _ & _ & _ & _ & _ & _ & _ & _ & _ & _ & _ & _ & _ & Md & _).
  assert (Mh : sm_mode (arm s) <> HOVER) by (cbn [arm sm_mode]; rewrite Md; discriminate).
  assert (Mp : sm_mode (arm s) <> POSITION) by (cbn [arm sm_mode]; rewrite Md; discriminate).
  exists sp, (arm s), (set_control_mode (arm s) HOVER RATE), (set_control_mode (arm s) POSITION RATE).
  split; [exact (after_cons 4 sp s SArm [] (arm s) A (or_introl eq_refl))|]. split; [reflexivity|]. split; [reflexivity|].
  split; [apply (enter_twins 4 (arm s) RATE); [exact Mh|exact Mp|reflexivity|reflexivity]|].
  unfold set_control_mode. cbn [arm sm_mode]. rewrite Md. discriminate.
Qed.
Lemma rate_ex : exists sp (s : Sim R G H), sim_after 4 sp [SArm; SMode HOVER RATE; SRefYawRate 3] = Some s /\
  sm_armed s = true /\ sm_yawmode s = RATE /\ s_ori (sim_state s) = level 0 /\ m22 (ac_kp (ct_acro (sm_ctl s))) = 1 /\ rf_yawrate (sm_refs s) = 3.
Proof.
  set (sp := sp_ex 1 4 4 st_hover imp_plain).
  assert (F : fitting_params 4 sp) by (apply sp_fits; [lra|reflexivity]).
  destruct (ex_start 4 sp F) as (s & _ & A & _ & St & Ct & _ & _ & _ & _ & _ & _ & _ & _ & _ & _ & Md & _).
  exists sp, (set_ref_yawrate (set_control_mode (arm s) HOVER RATE) 3).
  split; [exact (after_cons 4 sp s SArm [SMode HOVER RATE; SRefYawRate 3] (arm s) A (or_introl eq_refl))|].
  unfold set_control_mode. cbn [arm sm_mode]. rewrite Md. cbn [mode_eqb andb].
  split; [reflexivity|]. split; [reflexivity|]. split; [change (s_ori (sim_state s) = level 0); rewrite St; reflexivity|].
  split; [change (m22 (ac_kp (ct_acro (sm_ctl s))) = 1); rewrite Ct; reflexivity|reflexivity].
Qed.
End Ex.

(** ** C51: nose straight up, turned by a quarter *)
Lemma quarter_up : exists q, unitq q /\ ~ not_vertical q /\
  exists a b, let e := quat_to_euler q in rpy (vx e) (vy e) (vz e) a b <> attitude q a b.
Proof.
  set (q := mkQ (1/2) (1/2) (-1/2) (1/2) : Quat R).
  assert (U : unitq q) by (unfold unitq, q; cbn; lra).
  assert (N : ~ not_vertical q).
  { unfold not_vertical, attitude, q. cbn [qw qx qy qz].
    replace (2 * (1 / 2 * (1 / 2) - 1 / 2 * (-1 / 2)) / ((1 / 2) ^ 2 + (1 / 2) ^ 2 + (-1 / 2) ^ 2 + (1 / 2) ^ 2)) with 1 by field.
    rewrite Rabs_R1. lra. }
  exists q. split; [exact U|]. split; [exact N|].
  destruct (gimbal q (unitq_nonzero q U) N) as (Rl & Yw & Pt & _).
  exists AY, AY. cbv zeta. rewrite Rl, Yw. unfold rpy, mat_mul, about. rewrite cos_0, sin_0.
  unfold attitude, q. cbn [qw qx qy qz]. lra.
Qed.
Definition q_tilt : Quat R := mkQ 2 1 0 0.
Lemma tilt_ex : nonzeroq q_tilt /\ not_vertical q_tilt /\ attitude q_tilt AZ AY = 4/5 /\ attitude q_tilt AZ AZ = 3/5.
Proof.
  unfold nonzeroq, not_vertical, attitude, q_tilt. cbn [qw qx qy qz]. split; [lra|].
  split; [|split; lra]. replace (2 * (1 * 0 - 2 * 0) / (2 ^ 2 + 1 ^ 2 + 0 ^ 2 + 0 ^ 2)) with 0 by field. rewrite Rabs_R0. lra.
Qed.
