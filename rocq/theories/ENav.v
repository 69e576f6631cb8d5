(** Example flights with perfect sensors. *)

From Coq Require Import ZArith List Bool Lia Reals Lra Psatz.
From Verif Require Import Scalar LinAlg MUtils MModel MDynamics MPid MControl MImu MSim SpecDyn SpecRun SpecImu SpecSim SpecNav
  PBase PDyn PModel PDynR PPhys PVeh PDynMore PImu PSim PSimR PSimEnd PNav EBase ESim.
Import ListNotations.
Local Open Scope R_scope.

(** One rotor running: the vehicle starts to roll. *)
Definition st_roll : State R := mkState (mkV 1 2 3) (mkQ 1 0 0 0) (mkV 1 0 0) v0 v0 v0 v0 v0 [1;0;0;0] [0;0;0;0].
Definition sp_roll : SimParams R := sp_ex 2 4 4 st_roll imp_plain.

Lemma roll_perfect : perfect_sensors sp_roll.
Proof.
  split; [split; [|split; [|split]]; reflexivity|]. split; [reflexivity|]. split; [reflexivity|]. split; [reflexivity|].
  split; [unfold unitq; cbn; ring|reflexivity].
Qed.

(** A unit step of attitude that goes nowhere has no rate. *)
Lemma stays_still w dt : 0 < dt -> quat_integrate (mkQ 1 0 0 0) w dt = mkQ 1 0 0 0 -> vx w = 0.
Proof.
  intros Hd E. unfold quat_integrate in E.
  set (r := qadd (mkQ 1 0 0 0) (qmap (fun x => mul x dt) (quat_derivative (mkQ 1 0 0 0) w))) in E.
  assert (P : 0 < qsqn r).
  { unfold r. rewrite qsum_sq. apply Rmult_lt_0_compat; [unfold qsqn; cbn; unR; lra|]. unfold dot3. nra. }
  assert (Q : qx r = vx w * dt / 2).
  { unfold r, quat_derivative, qmul, qmap, qadd. cbn [qw qx qy qz vx vy vz]. unfold half, lit. unR. field. }
  unfold qnormalized in E. assert (ltb zero (qsqn r) = true) as B by (apply Rltb_true; exact P). rewrite B in E.
  apply (f_equal qx) in E. cbn [qmap qx] in E. rewrite Q in E. unR.
  assert (S : 0 < sqrt (qsqn r)) by (apply sqrt_lt_R0, P). unfold Rdiv in E. apply Rmult_integral in E as [E|E].
  - apply Rmult_integral in E as [E|E]; [|lra]. apply Rmult_integral in E as [E|E]; lra.
  - pose proof (Rinv_0_lt_compat _ S). lra.
Qed.

Section Ex.
Context {G H : Gen R}.

(** The odometry runs one step ahead of a vehicle that turns. *)
Lemma ahead_refuted : exists sp (s : Sim R G H), let rounds := [[SRefVel (mkV 1 0 0)]] in
  perfect_sensors sp /\ Forall (Forall (piloting (G := G) (H := H))) rounds /\ sim_after 4 sp (flight (1/100) rounds) = Some s /\
  odom_get_orientation (sm_odom s) <> s_ori (sim_state s) /\
  exists s', sim_step 4 s (SDynamics (1/100)) = Ok s' /\ s_ori (sim_state s') = odom_get_orientation (sm_odom s).
Proof.
  assert (F : fitting_params 4 sp_roll) by (apply sp_fits; [lra|reflexivity]).
  destruct (ex_start (G := G) (H := H) 4 sp_roll F) as (s & Ns & A & W & St & _ & Im & Od & Rc & Gp & Ac & _ & Fe & _ & Ex & _).
  set (t := set_ref_vel s (mkV 1 0 0)).
  assert (Wt : well 4 t) by (destruct W as [W1 W2 W3]; constructor; assumption).
  destruct (ok_step 4 t (1/100) Wt) as (s0 & E0 & W0); [lra|].
  set (s2 := update_odom (update_imu s0 (1/100)) (1/100)).
  assert (Hr : sim_after 4 sp_roll (flight (1/100) [[SRefVel (mkV 1 0 0)]]) = Some s2).
  { refine (eq_trans (after_cons 4 sp_roll s (SRefVel (mkV 1 0 0)) _ t A (or_introl eq_refl)) _). cbn [app sim_run]. rewrite E0. reflexivity. }
  assert (Fp : Forall (Forall (piloting (G := G) (H := H))) [[SRefVel (mkV 1 0 0)]]).
  { apply Forall_cons; [apply Forall_cons; [exact I|apply Forall_nil]|apply Forall_nil]. }
  exists sp_roll, s2. cbv zeta. split; [exact roll_perfect|]. split; [exact Fp|]. split; [exact Hr|].
  assert (Hd : 0 < 1/100 <= 1/100) by lra. split.
  - assert (J : ahead (1/100) (sp_imu sp_roll) s) by exact (start_ahead 4 sp_roll (1/100) s roll_perfect Ns).
    destruct (flight_ahead 4 (1/100) (sp_imu sp_roll) Hd (proj1 roll_perfect) [[SRefVel (mkV 1 0 0)]] s s2 Fp J) as [(_ & _ & _ & Q) _].
    { unfold sim_after in Hr. rewrite Ns in Hr. exact Hr. }
    unfold odom_get_orientation. rewrite Q.
    assert (V : vehicle 4 (sm_dyn t) (sm_act t) (sp_model sp_roll)).
    { split; [exact Rc|]. split; [exact Gp|]. split; [change (length (sm_act s) = 4%nat); rewrite Ac; reflexivity|].
      change (length (s_mvel (sim_state s)) = 4%nat). rewrite St. reflexivity. }
    cbn [sim_step] in E0. destruct (ud_ok t (1/100) s0 E0) as (ext & d & Fm & _ & _ & Es). cbv zeta in Es.
    unfold below_floor in Es. change (sm_floor_en (with_col (with_ext (with_dyn t d) v0) false)) with (sm_floor_en s) in Es. rewrite Fe in Es. cbn [andb] in Es.
    unfold free_motion in Fm. apply (process_small_inv _ _ _ _ _ _ Hd) in Fm.
    assert (Sl : mo_sforce (d_model d) = v0) by (eapply silent_core; [exact (proj1 (proj2 V))|reflexivity|exact Fm]).
    destruct (core_motion _ _ _ _ _ _ Fm) as (_ & Eo & _). change (d_state (sm_dyn t)) with (sim_state s) in Eo. rewrite St in Eo.
    cbn [sp_roll sp_ex sp_state st_roll s_ori s_angvel] in Eo. change (v0 : V3 R) with (mkV 0 0 0 : V3 R) in Eo.
    rewrite still_turn in Eo by (unfold unitq; cbn; ring).
    change (sim_state s2) with (sim_state s0). rewrite Es. change (sim_state (with_col (with_ext (with_dyn t d) v0) false)) with (d_state d).
    rewrite Eo. intros X. apply stays_still in X; [|lra].
    assert (Dt : det3 (p_inertia (sp_model sp_roll)) <> 0) by (unfold det3; cbn; unR; lra).
    destruct (step_euler 4 _ _ _ _ _ _ _ V Dt Fm AX) as (T1 & T2 & T3).
    assert (M : mat_vec (p_inertia (sp_model sp_roll)) (s_angacc (d_state d)) AX = pr AX (s_angacc (d_state d))).
    { unfold mat_vec. cbn. unR. ring. }
    rewrite T1, Sl, pr_v0, M in T2. change (d_state (sm_dyn t)) with (sim_state s) in T2, T3. rewrite St in T2, T3.
    change (pr AX (s_angvel (d_state d)) = 0) in X. rewrite X in T3.
    assert (Z : pr AX (s_angacc (d_state d)) = 0) by (change (pr AX (s_angvel (sp_state sp_roll))) with 0 in T3; lra).
    rewrite Z in T2. clear - T2. revert T2. generalize (s_macc (d_state d)). intros acc.
    unfold rotor_torque, aero_spec, cross3, mat_vec, vec_of. cbn.
    assert (S1 : sq_signed 1 = 1) by (unfold sq_signed; rewrite Rabs_R1; ring). assert (S0 : sq_signed 0 = 0) by (unfold sq_signed; ring).
    rewrite S1, S0. generalize (len3 v0). intros l T2.
    destruct acc as [|a1 [|a2 [|a3 [|a4 acc]]]]; lra.
  - destruct (ok_step 4 s2 (1/100)) as (s' & E' & _); [|lra|].
    + destruct W0 as [W1 W2 W3]; constructor; assumption.
    + exists s'. split; [exact E'|]. exact (attitude_known 4 sp_roll (1/100) _ s2 s' Hd roll_perfect Fp Hr E').
Qed.

(** The same flight: thrust 1 of one rotor, weight 4, mass 2. *)
Lemma motion_ex : exists s : Sim R G H, let rounds := [[SRefVel (mkV 1 0 0)]] in
  perfect_sensors sp_roll /\ check_params (sp_model sp_roll) = true /\ p_mass (sp_model sp_roll) = 2 /\
  Forall (Forall (piloting (G := G) (H := H))) rounds /\ Forall (Forall (without_floor (G := G) (H := H))) rounds /\
  sim_after 4 sp_roll (flight (1/100) rounds) = Some s /\
  vz (s_vel (sim_state s)) = -3/200 /\ vz (odom_get_linear_velocity (sm_odom s)) = -3/100 /\
  vx (s_pos (sim_state s)) = 1 + 1/100 /\ vx (odom_get_position (sm_odom s)) = 0.
Proof.
  assert (F : fitting_params 4 sp_roll) by (apply sp_fits; [lra|reflexivity]).
  destruct (ex_start (G := G) (H := H) 4 sp_roll F) as (s & Ns & A & W & St & _ & Im & Od & Rc & Gp & Ac & _ & Fe & _ & Ex & _).
  set (t := set_ref_vel s (mkV 1 0 0)).
  assert (Wt : well 4 t) by (destruct W as [W1 W2 W3]; constructor; assumption).
  destruct (ok_step 4 t (1/100) Wt) as (s0 & E0 & W0); [lra|].
  set (s2 := update_odom (update_imu s0 (1/100)) (1/100)).
  assert (Hr : sim_after 4 sp_roll (flight (1/100) [[SRefVel (mkV 1 0 0)]]) = Some s2).
  { refine (eq_trans (after_cons 4 sp_roll s (SRefVel (mkV 1 0 0)) _ t A (or_introl eq_refl)) _). cbn [app sim_run]. rewrite E0. reflexivity. }
  assert (Fp : Forall (Forall (piloting (G := G) (H := H))) [[SRefVel (mkV 1 0 0)]]).
  { apply Forall_cons; [apply Forall_cons; [exact I|apply Forall_nil]|apply Forall_nil]. }
  assert (Fw : Forall (Forall (without_floor (G := G) (H := H))) [[SRefVel (mkV 1 0 0)]]).
  { apply Forall_cons; [apply Forall_cons; [exact I|apply Forall_nil]|apply Forall_nil]. }
  assert (C : check_params (sp_model sp_roll) = true) by exact (proj1 F).
  assert (Hm : p_mass (sp_model sp_roll) <> 0) by (cbn; lra).
  exists s2. cbv zeta. split; [exact roll_perfect|]. split; [exact C|]. split; [reflexivity|]. split; [exact Fp|]. split; [exact Fw|]. split; [exact Hr|].
  assert (Hd : 0 < 1/100 <= 1/100) by lra.
  pose proof (motion_known 4 sp_roll (1/100) _ s2 Hd roll_perfect C Hm Fp Fw Hr) as K. cbv zeta in K.
  assert (V : vehicle 4 (sm_dyn t) (sm_act t) (sp_model sp_roll)).
  { split; [exact Rc|]. split; [exact Gp|]. split; [change (length (sm_act s) = 4%nat); rewrite Ac; reflexivity|].
    change (length (s_mvel (sim_state s)) = 4%nat). rewrite St. reflexivity. }
  cbn [sim_step] in E0. destruct (ud_ok t (1/100) s0 E0) as (ext & d & Fm & Ee & _ & Es). cbv zeta in Es.
  unfold below_floor in Es, Ee. change (sm_floor_en (with_col (with_ext (with_dyn t d) v0) false)) with (sm_floor_en s) in Es. rewrite Fe in Es. cbn [andb] in Es.
  change (sm_floor_en t) with (sm_floor_en s) in Ee. rewrite Fe in Ee. cbn [andb] in Ee. change (sm_ext t) with (sm_ext s) in Ee. rewrite Ex in Ee.
  unfold free_motion in Fm. apply (process_small_inv _ _ _ _ _ _ Hd) in Fm.
  assert (Sl : mo_sforce (d_model d) = v0) by (eapply silent_core; [exact (proj1 (proj2 V))|reflexivity|exact Fm]).
  destruct (core_motion _ _ _ _ _ _ Fm) as (_ & _ & c & Hc & Mv).
  assert (Mc : p_mass (cf_params c) = 2).
  { apply get_params_cfg in Gp as (c' & Hc' & Pc). change (sm_dyn t) with (sm_dyn s) in Hc. rewrite Hc in Hc'. injection Hc' as <-. rewrite Pc. reflexivity. }
  change (d_state (sm_dyn t)) with (sim_state s) in Mv. rewrite St, Mc in Mv.
  assert (D2 : sim_state s2 = d_state d) by (change (sim_state s2) with (sim_state s0); rewrite Es; reflexivity).
  assert (Vz : vz (s_vel (sim_state s2)) = -3/200).
  { rewrite D2. destruct (Mv AZ) as (M1 & _). change (pr AZ (s_vel (d_state d)) = -3/200). rewrite M1.
    destruct (step_newton 4 _ _ _ _ _ _ _ V Fm AZ) as (N & _). rewrite N, Sl, pr_v0, Ee.
    change (d_state (sm_dyn t)) with (sim_state s). rewrite St. clear.
    assert (S1 : sq_signed 1 = 1) by (unfold sq_signed; rewrite Rabs_R1; ring). assert (S0 : sq_signed 0 = 0) by (unfold sq_signed; ring).
    unfold to_world, rot_entry, vec_of, rotor_force, drag_spec. cbn. rewrite S1, !S0. field. }
  assert (Px : vx (s_pos (sim_state s2)) = 1 + 1/100).
  { rewrite D2. destruct (Mv AX) as (_ & M2 & _). change (pr AX (s_pos (d_state d)) = 1 + 1/100). rewrite M2. cbn. ring. }
  assert (Vx : vx (s_vel (sim_state s2)) = 1).
  { rewrite D2. destruct (Mv AX) as (M1 & _). change (pr AX (s_vel (d_state d)) = 1). rewrite M1.
    destruct (step_newton 4 _ _ _ _ _ _ _ V Fm AX) as (N & _). rewrite N, Sl, pr_v0, Ee.
    change (d_state (sm_dyn t)) with (sim_state s). rewrite St. clear.
    assert (S1 : sq_signed 1 = 1) by (unfold sq_signed; rewrite Rabs_R1; ring). assert (S0 : sq_signed 0 = 0) by (unfold sq_signed; ring).
    unfold to_world, rot_entry, vec_of, rotor_force, drag_spec. cbn. rewrite ?S1, ?S0. field. }
  split; [exact Vz|]. split.
  - destruct (K AZ) as (K1 & _). cbn [pr] in K1. rewrite K1, Vz. change (p_mass (sp_model sp_roll)) with 2. cbn [sp_roll sp_ex sp_state st_roll s_vel vz]. lra.
  - split; [exact Px|]. destruct (K AX) as (_ & K2 & _). cbn [pr] in K2. rewrite K2, Px, Vx. change (p_mass (sp_model sp_roll)) with 2.
    cbn [sp_roll sp_ex sp_state st_roll s_vel s_pos vx length INR]. lra.
Qed.
End Ex.
