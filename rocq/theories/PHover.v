(** The closed loop at its hover point, over the reals. *)

From Coq Require Import ZArith List Bool Lia Reals Lra Psatz.
From Verif Require Import Scalar LinAlg MUtils MModel MDynamics MPid MControl MCtlRun MImu MSim
  SpecDyn SpecRun SpecMix SpecPid SpecCtl SpecImu SpecSim
  PBase PDyn PModel PDynR PPhys PNoise PDynMore PVeh PMix PPid PPidR PCtl PCtlR PCtlMix PImu PSim PSimR.
Import ListNotations.
Local Open Scope R_scope.

Section Hover.
Context {G H : Gen R}.

(** Forces and moments balanced, no process noise force: nothing moves. *)
Lemma balanced_core k (d d' : Dyn R G) act dt noise p :
  vehicle k d act p -> p_fnoise p = 0 -> in_equilibrium p (d_state d) act ->
  euler_core d act dt (mkV 0 0 0) noise = Some d' ->
  s_pos (d_state d') = s_pos (d_state d) /\ s_ori (d_state d') = s_ori (d_state d) /\ in_equilibrium p (d_state d') act.
Proof.
  intros Hv Hf (E1 & E2 & E3 & E4 & E5 & E6 & E7) K.
  pose proof (silent_core _ _ _ _ _ _ p (proj1 (proj2 Hv)) Hf K) as Hs.
  destruct (steady_core k d d' act dt _ _ p Hv K Hs E2 E3 (eq_sym E4) E5 E7) as (W & Q & M).
  pose proof (step_newton k d d' act dt _ _ p Hv K) as N. cbv zeta in N.
  assert (L0 : s_linacc (d_state d') = mkV 0 0 0).
  { apply pr_ext. intros a. destruct (N a) as (N1 & N2 & _). rewrite N2, N1, Hs, E1, <- E4.
    replace (to_world (s_ori (d_state d)) (vec_of (rotor_force (p_motors p) act)) a + pr a (p_grav p)) with 0 by (rewrite E6; reflexivity).
    unfold drag_spec, sq_signed, v0; unR. destruct a; cbn [pr vx vy vz]; unfold Rdiv; ring. }
  split; [|split; [exact Q|]].
  - apply pr_ext. intros a. destruct (N a) as (_ & _ & _ & N4). rewrite N4, E1. destruct a; cbn; ring.
  - split; [|split; [exact W|rewrite Q, M; repeat split; assumption]].
    apply pr_ext. intros a. destruct (N a) as (_ & _ & N3 & _). rewrite N3, L0, E1. destruct a; cbn; ring.
Qed.

Lemma balanced_process k (d d' : Dyn R G) act dt noise p :
  vehicle k d act p -> p_fnoise p = 0 -> in_equilibrium p (d_state d) act ->
  process d act dt (mkV 0 0 0) noise = Ok d' ->
  vehicle k d' act p /\ in_equilibrium p (d_state d') act /\ s_pos (d_state d') = s_pos (d_state d) /\ s_ori (d_state d') = s_ori (d_state d).
Proof.
  intros Hv Hf He K.
  set (P := fun x : Dyn R G => vehicle k x act p /\ in_equilibrium p (d_state x) act /\
             s_pos (d_state x) = s_pos (d_state d) /\ s_ori (d_state x) = s_ori (d_state d)).
  pose proof (process_inv P d act dt (mkV 0 0 0) noise) as I. rewrite K in I. apply I.
  - split; [exact Hv|]. split; [exact He|]. split; reflexivity.
  - intros x y h (A & B & C & D) E. destruct (balanced_core k x y act h _ p A Hf B E) as (F1 & F2 & F3).
    split; [eapply vehicle_core; eauto|]. split; [exact F3|]. split; congruence.
Qed.

(** Level attitude. *)
Lemma level_unit yaw : unitq (level yaw).
Proof. unfold unitq, level. cbn [qw qx qy qz]. pose proof (sin2_cos2 (yaw/2)). unfold Rsqr in *. nra. Qed.
Lemma level_mat yaw : qmat (level yaw) = rot_z yaw.
Proof.
  pose proof (sin2_cos2 (yaw/2)) as E. unfold Rsqr in E.
  assert (C : cos yaw = cos (yaw/2) * cos (yaw/2) - sin (yaw/2) * sin (yaw/2)).
  { rewrite <- cos_plus. f_equal. field. }
  assert (S : sin yaw = 2 * sin (yaw/2) * cos (yaw/2)).
  { rewrite <- sin_2a. f_equal. field. }
  unfold qmat, level, rot_z. cbn [qw qx qy qz]. unR. rewrite C, S. f_equal; nra.
Qed.
Lemma level_up yaw f a : to_world (level yaw) (mkV 0 0 f) a = match a with AZ => f | _ => 0 end.
Proof.
  pose proof (sin2_cos2 (yaw/2)) as E. unfold Rsqr in E.
  destruct a; unfold to_world, rot_entry, level; cbn [qw qx qy qz vx vy vz]; try ring.
Qed.

(** A quadrotor in the loop at its reference. *)
Record holding (p : Params R) (m1 m2 m3 m4 : Motor R) (m g0 w : R) (pos : V3 R) (yaw : R) (s : Sim R G H) : Prop := {
  ho_veh : vehicle 4 (sm_dyn s) (sm_act s) p;
  ho_eq : in_equilibrium p (sim_state s) (sm_act s);
  ho_act : sm_act s = [w; w; w; w];
  ho_pos : s_pos (sim_state s) = pos;
  ho_ori : s_ori (sim_state s) = level yaw;
  ho_armed : sm_armed s = true;
  ho_mode : sm_mode s = HOVER \/ sm_mode s = POSITION;
  ho_yawm : sm_yawmode s = ANGLE;
  ho_ref : rf_pos (sm_refs s) = pos;
  ho_refy : rf_yaw (sm_refs s) = yaw;
  ho_ext : sm_ext s = mkV 0 0 0;
  ho_floor : sm_floor_en s = true -> sm_floor_h s <= vz pos;
  ho_rest : forall k, rests (get_pid k (sm_ctl s));
  ho_calm : forall k, calm (get_pid k (sm_ctl s));
  ho_minv : Some (in_minv (ct_indi (sm_ctl s))) = quad_inverse [m1; m2; m3; m4];
  ho_mass : ac_mass (ct_acro (sm_ctl s)) = m;
  ho_grav : ac_grav (ct_acro (sm_ctl s)) = mkV 0 0 (- g0) }.

Lemma ctl_pos_settings (c : Ctl R) cp A cv cw dp y dt :
  let c' := ctl_pos c cp A cv cw dp y dt in
  ac_mass (ct_acro c') = ac_mass (ct_acro c) /\ ac_grav (ct_acro c') = ac_grav (ct_acro c) /\
  in_minv (ct_indi c') = in_minv (ct_indi c) /\ pid_c (in_pid (ct_indi c')) = pid_c (in_pid (ct_indi c)).
Proof.
  cbv zeta. unfold ctl_pos, ctl_vel, ctl_acc, acc_to_acro. cbv zeta. destruct (ltb _ _); cbn; repeat split; reflexivity.
Qed.

Lemma hold_update p m1 m2 m3 m4 m g0 w pos yaw s dt :
  m4det (mixer_rows4 (mixer6_col m1) (mixer6_col m2) (mixer6_col m3) (mixer6_col m4)) <> 0 ->
  0 < m -> 0 < g0 -> 0 <= w ->
  rotor_force [m1; m2; m3; m4] [w; w; w; w] AZ = m * g0 ->
  (forall ax, rotor_torque [m1; m2; m3; m4] [w; w; w; w] [0; 0; 0; 0] ax = 0) ->
  holding p m1 m2 m3 m4 m g0 w pos yaw s -> holding p m1 m2 m3 m4 m g0 w pos yaw (update_controller 4 s dt).
Proof.
  intros Hd Pm Pg Pw Hf Ht [B1 B2 B3 B4 B5 B6 B7 B8 B9 B10 B11 B12 B13 B14 B15 B16 B17].
  set (c := sm_ctl s) in *.
  set (op := CPos pos (rot_z yaw) (mkV 0 0 0) (mkV 0 0 0) pos yaw dt).
  assert (Hh : holds_still yaw op) by (unfold op; cbn; repeat split).
  assert (E : update_controller 4 s dt = with_control s (ctl_step c op)).
  { unfold update_controller. rewrite B6, B8. cbn [negb]. cbv zeta. rewrite B4, B5, level_mat, B9, B10.
    destruct B2 as (V & W & _). rewrite V, W. destruct B7 as [-> | ->]; reflexivity. }
  rewrite E.
  assert (Mo : ct_dmotor (ctl_step c op) = [w; w; w; w]).
  { refine (calm_rotors m1 m2 m3 m4 _ c op yaw m g0 w Hd (eq_sym B15) eq_refl B13 B14 Hh B16 B17 Pm Pg Pw Hf Ht). }
  assert (Wc : with_control s (ctl_step c op) = with_act (with_ctl s (ctl_step c op)) (sm_act s)).
  { unfold with_control. rewrite Mo, B3. reflexivity. }
  rewrite Wc.
  destruct (ctl_pos_settings c pos (rot_z yaw) (mkV 0 0 0) (mkV 0 0 0) pos yaw dt) as (S1 & S2 & S3 & S4). cbv zeta in S1, S2, S3, S4.
  destruct (pos_records c pos (rot_z yaw) (mkV 0 0 0) (mkV 0 0 0) pos yaw dt) as (_ & _ & _ & P1 & P2 & P3).
  fold op in P1, P2, P3. rewrite vsub_self in P1.
  destruct (pid_calm _ dt (B13 WPos) (B14 WPos)) as [Z1 Z2].
  assert (O1 : pid_output (get_pid WPos (ctl_step c op)) = mkV 0 0 0) by (rewrite P1; exact Z1).
  rewrite O1, vsub_self in P2.
  destruct (pid_calm _ dt (B13 WVel) (B14 WVel)) as [Z3 Z4].
  destruct (calm_command c op yaw m g0 B13 B14 Hh B16 B17 Pm Pg) as (_ & _ & _ & Z5).
  change (ctl_pos c pos (rot_z yaw) (mkV 0 0 0) (mkV 0 0 0) pos yaw dt) with (ctl_step c op) in *.
  split; cbn [with_act with_ctl sm_dyn sm_ctl sm_imu sm_odom sm_armed sm_floor_en sm_floor_col sm_floor_h sm_refs sm_act sm_ext sm_mode sm_yawmode sim_state]; try assumption.
  - intros k. destruct k.
    + specialize (B13 WIndi). revert B13. unfold rests, pid_sat_on, pid_limits, pid_aw. cbn [get_pid]. rewrite S4. auto.
    + rewrite P1. apply rests_step, B13.
    + rewrite P3. apply B13.
    + rewrite P2. apply rests_step, B13.
  - intros k. destruct k; [exact Z5|rewrite P1; exact Z2|rewrite P3; apply B14|rewrite P2; exact Z4].
  - rewrite S3. exact B15.
  - rewrite S1. exact B16.
  - rewrite S2. exact B17.
Qed.

Lemma hold_dynamics p m1 m2 m3 m4 m g0 w pos yaw s dt s' : p_fnoise p = 0 ->
  holding p m1 m2 m3 m4 m g0 w pos yaw s -> next (update_dynamics s dt) s' -> holding p m1 m2 m3 m4 m g0 w pos yaw s'.
Proof.
  intros Hf I N. pose proof I as [B1 B2 B3 B4 B5 B6 B7 B8 B9 B10 B11 B12 B13 B14 B15 B16 B17].
  assert (NB : forall z, z = vz pos -> sm_floor_en s && ltb z (sm_floor_h s) = false).
  { intros z ->. destruct (sm_floor_en s) eqn:E; [|reflexivity]. cbn. unR. apply Rltb_false. apply B12. reflexivity. }
  assert (Nb : below_floor s = false) by (apply NB; rewrite B4; reflexivity).
  destruct N as [N|N].
  2:{ destruct (ud_throw R_sane _ _ _ N) as [_ [[_ ->]|[X _]]]; [exact I|congruence]. }
  destruct (ud_ok _ _ _ N) as (ext & d & F & E & _ & E'). cbv zeta in E'. rewrite Nb in E. subst ext.
  unfold free_motion in F. rewrite B11 in F.
  destruct (balanced_process 4 _ _ _ _ _ p B1 Hf B2 F) as (V' & Q' & Ps' & Or').
  assert (X : below_floor (with_col (with_ext (with_dyn s d) v0) false) = false).
  { apply NB. change (sim_state (with_col (with_ext (with_dyn s d) v0) false)) with (d_state d). rewrite Ps'. change (d_state (sm_dyn s)) with (sim_state s). rewrite B4. reflexivity. }
  rewrite X in E'. subst s'.
  split; cbn [with_col with_ext with_dyn sm_dyn sm_ctl sm_imu sm_odom sm_armed sm_floor_en sm_floor_col sm_floor_h sm_refs sm_act sm_ext sm_mode sm_yawmode sim_state]; try assumption.
  - unfold sim_state. cbn [with_col with_ext with_dyn sm_dyn]. rewrite Ps'. exact B4.
  - unfold sim_state. cbn [with_col with_ext with_dyn sm_dyn]. rewrite Or'. exact B5.
  - reflexivity.
Qed.

Lemma hold_step p m1 m2 m3 m4 m g0 w pos yaw s op s' :
  m4det (mixer_rows4 (mixer6_col m1) (mixer6_col m2) (mixer6_col m3) (mixer6_col m4)) <> 0 ->
  0 < m -> 0 < g0 -> 0 <= w ->
  rotor_force [m1; m2; m3; m4] [w; w; w; w] AZ = m * g0 ->
  (forall ax, rotor_torque [m1; m2; m3; m4] [w; w; w; w] [0; 0; 0; 0] ax = 0) -> p_fnoise p = 0 ->
  holding p m1 m2 m3 m4 m g0 w pos yaw s -> is_update op -> next (sim_step 4 s op) s' -> holding p m1 m2 m3 m4 m g0 w pos yaw s'.
Proof.
  intros Hd Pm Pg Pw Hf Ht Hn I U N. destruct op; try contradiction; cbn [sim_step] in N.
  - eapply hold_dynamics; eassumption.
  - destruct N as [N|N]; [|discriminate]. injection N as <-. apply hold_update; assumption.
  - destruct N as [N|N]; [|discriminate]. injection N as <-. destruct I. split; assumption.
  - destruct N as [N|N]; [|discriminate]. injection N as <-. destruct I. split; assumption.
Qed.

Lemma hold_run p m1 m2 m3 m4 m g0 w pos yaw ops s s' :
  m4det (mixer_rows4 (mixer6_col m1) (mixer6_col m2) (mixer6_col m3) (mixer6_col m4)) <> 0 ->
  0 < m -> 0 < g0 -> 0 <= w ->
  rotor_force [m1; m2; m3; m4] [w; w; w; w] AZ = m * g0 ->
  (forall ax, rotor_torque [m1; m2; m3; m4] [w; w; w; w] [0; 0; 0; 0] ax = 0) -> p_fnoise p = 0 ->
  holding p m1 m2 m3 m4 m g0 w pos yaw s -> Forall is_update ops -> sim_run 4 s ops = Some s' -> holding p m1 m2 m3 m4 m g0 w pos yaw s'.
Proof.
  intros Hd Pm Pg Pw Hf Ht Hn I F K. apply (run_inv 4 (holding p m1 m2 m3 m4 m g0 w pos yaw) is_update ops) with (s := s); auto.
  clear s s' I K. intros s op s' I U N. eapply hold_step; eassumption.
Qed.
End Hover.
