(** Example: a rolling vehicle with a noisy and biased IMU. *)

From Coq Require Import ZArith List Bool Lia Reals Lra Psatz.
From Verif Require Import Scalar LinAlg MUtils MModel MDynamics MPid MControl MImu MSim SpecDyn SpecRun SpecImu SpecSim SpecNav SpecDrift
  PBase PDyn PModel PDynR PPhys PVeh PDynMore PImu PSim PSimR PSimEnd PNav PDrift PDriftSim EBase ESim ENav.
Import ListNotations.
Local Open Scope R_scope.

(** Every draw is 1: bias 1 and noise 1 on every axis of both sensors. *)
Definition gen_ones : Gen R := {| g_eng := unit; g_dist := unit; g_dist0 := tt; g_seed := fun _ => tt;
  g_draw := fun _ _ => (1, (tt, tt)); g_perm := fun _ => P012 |}.
Definition imp_noisy : ImuParams R := mkIMP 1 1 0 0 (mkQ 1 0 0 0) 0.
Definition sp_noisy : SimParams R := sp_ex 2 4 4 st_roll imp_noisy.

Lemma noisy_read (f w : V3 R) : let i := imu_update (imu_new imp_noisy : Imu R gen_ones) (1/100) f w in
  im_gyro i = mkV (vx w + 2) (vy w + 2) (vz w + 2) /\ im_accel i = mkV (vx f + 2) (vy f + 2) (vz f + 2).
Proof.
  cbv zeta. unfold imu_update. assert (leb (1/100) zero = false) as -> by (apply leb_pos; lra).
  assert (Z : sqrt (0 / (1/100)) = 0) by (unfold Rdiv; rewrite Rmult_0_l; apply sqrt_0).
  assert (U : unitq (mkQ 1 0 0 0)) by (unfold unitq; cbn [qw qx qy qz]; ring).
  assert (Rot : forall v : V3 R, qrot (qinv (mkQ 1 0 0 0)) v = v).
  { intros v. apply pr_ext. intros a. rewrite (qinv_rot _ v a U). destruct a; unfold to_body, rot_entry; cbn [pr qw qx qy qz]; ring. }
  unfold process_measurement, process_bias, imu_new, draw3, imp_noisy.
  cbn [gen_ones g_draw g_seed g_dist0 g_perm papply imp_gvar imp_avar imp_gac imp_aac imp_ori imp_seed im_eng im_dist im_gvar im_avar im_gac im_aac im_ori im_inv im_gbias im_abias im_gyro im_accel].
  rewrite !Rot. unfold vadd, vscaler, vmap2, vmap. cbn [vx vy vz].
  change (sqrtT (1 : R)) with (sqrt 1). change (sqrtT (div 0 (1/100) : R)) with (sqrt (0 / (1/100))). rewrite Z, sqrt_1. unR.
  split; f_equal; ring.
Qed.

Lemma two_apart v : apart (mkV (vx v + 2) (vy v + 2) (vz v + 2)) v <= 4.
Proof.
  unfold apart. cbn [vx vy vz]. replace (_ + _ + _) with 12 by ring. rewrite <- (sqrt_square 4) by lra. apply sqrt_le_1_alt. lra.
Qed.

Lemma drift_turn : unitq (odp_ori odp0) /\
  Forall2 (close 1 0) [(mkV 1 0 0, (mkV 0 0 0, 2)); (mkV 0 1 0, (mkV 0 0 0, 1))] [(mkV 0 0 0, (mkV 0 0 0, 2)); (mkV 0 0 0, (mkV 0 0 0, 1))] /\
  elapsed [(mkV 1 0 0, (mkV 0 0 0, 2)); (mkV 0 1 0, (mkV 0 0 0, 1))] = 3.
Proof.
  assert (S : forall x, x = 1 -> sqrt x <= 1) by (intros x ->; rewrite sqrt_1; lra).
  split; [unfold unitq; cbn; ring|]. split.
  - apply Forall2_cons; [|apply Forall2_cons; [|apply Forall2_nil]]; (split; [cbn [fst]; unfold apart; cbn [vx vy vz]; apply S; ring|split; [cbn [fst snd]; rewrite apart_same; lra|reflexivity]]).
  - cbn. ring.
Qed.

Section Ex.
Context {G : Gen R}.
Notation sim := (Sim R G gen_ones).

Lemma drift_case : exists s : sim, let rounds := [[SRefVel (mkV 1 0 0)]] in
  real_sensors sp_noisy /\ check_params (sp_model sp_noisy) = true /\ p_mass (sp_model sp_noisy) = 2 /\
  Forall (Forall (piloting (G := G) (H := gen_ones))) rounds /\ Forall (Forall (without_floor (G := G) (H := gen_ones))) rounds /\
  (forall r1 r2 (s1 : sim), rounds = r1 ++ r2 -> r1 <> [] -> sim_after 4 sp_noisy (flight (1/100) r1) = Some s1 -> sensed 4 4 3 s1) /\
  sim_after 4 sp_noisy (flight (1/100) rounds) = Some s /\
  2 * vz (s_vel (sim_state s)) = -3/100 /\ vz (odom_get_linear_velocity (sm_odom s)) = -1/100.
Proof.
  assert (F : fitting_params 4 sp_noisy) by (apply sp_fits; [lra|reflexivity]).
  destruct (ex_start (G := G) (H := gen_ones) 4 sp_noisy F) as (s & Ns & A & W & St & _ & Im & Od & Rc & Gp & Ac & _ & Fe & _ & Ex & _).
  set (t := set_ref_vel s (mkV 1 0 0)).
  assert (Wt : well 4 t) by (destruct W as [W1 W2 W3]; constructor; assumption).
  destruct (ok_step 4 t (1/100) Wt) as (s0 & E0 & W0); [lra|].
  set (s2 := update_odom (update_imu s0 (1/100)) (1/100)).
  assert (Hr : sim_after 4 sp_noisy (flight (1/100) [[SRefVel (mkV 1 0 0)]]) = Some s2).
  { refine (eq_trans (after_cons 4 sp_noisy s (SRefVel (mkV 1 0 0)) _ t A (or_introl eq_refl)) _). cbn [app sim_run]. rewrite E0. reflexivity. }
  assert (Hd : 0 < 1/100 <= 1/100) by lra.
  assert (U : unitq (mkQ 1 0 0 0)) by (unfold unitq; cbn [qw qx qy qz]; ring).
  assert (V : vehicle 4 (sm_dyn t) (sm_act t) (sp_model sp_noisy)).
  { split; [exact Rc|]. split; [exact Gp|]. split; [change (length (sm_act s) = 4%nat); rewrite Ac; reflexivity|].
    change (length (s_mvel (sim_state s)) = 4%nat). rewrite St. reflexivity. }
  cbn [sim_step] in E0. destruct (ud_ok t (1/100) s0 E0) as (ext & d & Fm & Ee & _ & Es). cbv zeta in Es.
  unfold below_floor in Es, Ee. change (sm_floor_en (with_col (with_ext (with_dyn t d) v0) false)) with (sm_floor_en s) in Es. rewrite Fe in Es. cbn [andb] in Es.
  change (sm_floor_en t) with (sm_floor_en s) in Ee. rewrite Fe in Ee. cbn [andb] in Ee. change (sm_ext t) with (sm_ext s) in Ee. rewrite Ex in Ee.
  unfold free_motion in Fm. apply (process_small_inv _ _ _ _ _ _ Hd) in Fm.
  assert (Sl : mo_sforce (d_model d) = v0) by (eapply silent_core; [exact (proj1 (proj2 V))|reflexivity|exact Fm]).
  destruct (core_motion _ _ _ _ _ _ Fm) as (_ & Eo & c & Hc & Mv).
  assert (Mc : p_mass (cf_params c) = 2).
  { apply get_params_cfg in Gp as (c' & Hc' & Pc). change (sm_dyn t) with (sm_dyn s) in Hc. rewrite Hc in Hc'. injection Hc' as <-. rewrite Pc. reflexivity. }
  change (d_state (sm_dyn t)) with (sim_state s) in Mv, Eo. rewrite St in Eo. rewrite St, Mc in Mv.
  cbn [sp_noisy sp_ex sp_state st_roll s_ori s_angvel] in Eo. change (v0 : V3 R) with (mkV 0 0 0 : V3 R) in Eo. rewrite still_turn in Eo by exact U.
  assert (D0 : sim_state s0 = d_state d) by (rewrite Es; reflexivity).
  assert (Fo : s_force (sim_state s0) = mkV 0 0 (-3)).
  { rewrite D0. apply pr_ext. intros a. destruct (step_newton 4 _ _ _ _ _ _ _ V Fm a) as (N & _). rewrite N, Sl, pr_v0, Ee.
    change (d_state (sm_dyn t)) with (sim_state s). rewrite St. clear.
    assert (S1 : sq_signed 1 = 1) by (unfold sq_signed; rewrite Rabs_R1; ring). assert (S0 : sq_signed 0 = 0) by (unfold sq_signed; ring).
    destruct a; unfold to_world, rot_entry, vec_of, rotor_force, drag_spec; cbn; rewrite ?S1, ?S0; field. }
  assert (Tw : vec_of (to_world (mkQ 1 0 0 0) (mkV 0 0 (-3))) = mkV 0 0 (-3)).
  { apply pr_ext. intros a. rewrite pr_vec_of. destruct a; unfold to_world, rot_entry; cbn [pr vx vy vz qw qx qy qz]; ring. }
  assert (Qr : qrot (mkQ 1 0 0 0) (mkV 0 0 (-3)) = mkV 0 0 (-3)).
  { rewrite <- Tw at 2. apply pr_ext. intros a. rewrite pr_vec_of. apply qrot_R. }
  assert (Im0 : sm_imu s0 = imu_new imp_noisy) by (rewrite Es; exact Im).
  assert (Od0 : sm_odom s0 = odom_new (mkODP 1 (mkQ 1 0 0 0))) by (rewrite Es; exact Od).
  destruct (noisy_read (mkV 0 0 (-3)) (s_angvel (sim_state s0))) as [Ng Na]. 
  assert (I2 : sm_imu s2 = imu_update (imu_new imp_noisy) (1/100) (mkV 0 0 (-3)) (s_angvel (sim_state s0))).
  { change (sm_imu s2) with (imu_update (sm_imu s0) (1/100) (qrot (s_ori (sim_state s0)) (s_force (sim_state s0))) (s_angvel (sim_state s0))).
    rewrite Im0, Fo, D0, Eo, Qr. reflexivity. }
  assert (Sn : sensed 4 4 3 s2).
  { unfold sensed. change (sim_state s2) with (sim_state s0). rewrite I2, Ng, Na, Fo. split; [apply two_apart|]. split.
    - rewrite D0, Eo, Tw. exact (two_apart (mkV 0 0 (-3))).
    - unfold len3, dot3. cbn [vx vy vz]. replace (_ + _ + _) with (3 * 3) by ring. rewrite sqrt_square; lra. }
  exists s2. cbv zeta.
  split; [split; [reflexivity|]; split; [reflexivity|]; split; [exact U|reflexivity]|].
  split; [exact (proj1 F)|]. split; [reflexivity|].
  split; [apply Forall_cons; [apply Forall_cons; [exact I|apply Forall_nil]|apply Forall_nil]|].
  split; [apply Forall_cons; [apply Forall_cons; [exact I|apply Forall_nil]|apply Forall_nil]|].
  split. { intros r1 r2 s1 X Y Z. destruct r1 as [|x [|y r1]]; [contradiction| |discriminate X]. injection X as <- _. rewrite Hr in Z. injection Z as <-. exact Sn. }
  split; [exact Hr|]. split.
  - change (sim_state s2) with (sim_state s0). rewrite D0. destruct (Mv AZ) as (M1 & _). change (2 * pr AZ (s_vel (d_state d)) = -3/100). rewrite M1.
    rewrite <- D0, Fo. cbn. lra.
  - change (sm_odom s2) with (odom_update (sm_odom s0) (im_gyro (sm_imu s2)) (im_accel (sm_imu s2)) (1/100)). rewrite I2, Ng, Na, Od0.
    set (g := mkV _ _ _) at 1.
    destruct (odom_take (1/100) (odom_new (mkODP 1 (mkQ 1 0 0 0))) g (mkV (vx (mkV 0 0 (-3)) + 2) (vy (mkV 0 0 (-3)) + 2) (vz (mkV 0 0 (-3)) + 2)) eq_refl) as (_ & _ & _ & L). specialize (L U).
    destruct (L AZ) as (_ & Lv & _). unfold odom_get_linear_velocity. change (vz ?x) with (pr AZ x).
    rewrite Lv. unfold to_body, rot_entry. cbn. lra.
Qed.
End Ex.
