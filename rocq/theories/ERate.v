(** Concrete requests for a rotation rate. *)

From Coq Require Import ZArith List Bool Lia Reals Lra.
From Verif Require Import Scalar LinAlg MUtils MModel MDynamics MPid MControl MCtlRun MImu MSim
  SpecDyn SpecRun SpecPid SpecCtl SpecImu SpecSim SpecVertical SpecClimb SpecRate
  PBase PDyn PModel PDynR PPhys PNoise PDynMore PVeh PMix PSim PSimR PHover PSimEnd EBase EPid ECtl ESim PVertical PClimb PClimbSim PRate PRateSim PRateAir.
Import ListNotations.
Local Open Scope R_scope.

(** A quadrotor with unequal moments of inertia, tilted, moving in air that brakes
    it, turning about an axis; its rotors give a thrust of 4; its rate loop has a gain of 2. *)
Definition roll_model (C : M3 R) : Params R := mkParams (quad_x 1 1 1 1 0 100 (1/10) 0) 1 (mkM 1 0 0 0 2 0 0 0 3) 1 C (mkV 0 0 (-9)) 0 0.
Definition st_roll (a : Ax) (w : R) (ws : list R) : State R :=
  mkState (mkV 1 2 3) (mkQ (3/5) (4/5) 0 0) (mkV 1 (-1) 2) (along a w) LinAlg.v0 LinAlg.v0 LinAlg.v0 LinAlg.v0 ws [0;0;0;0].
Definition sp_roll (a : Ax) (w : R) : SimParams R :=
  mkSP (roll_model mzero) 0 (st_roll a w [1;1;1;1])
       (mkCP (mkAP 1 mI (mkV 0 0 (-9))) (mkIP (mkM 1 0 0 0 2 0 0 0 3) inv_ex (mkPP (r3 2) LinAlg.v0 LinAlg.v0 LinAlg.v0 v1 false false LinAlg.v0 LinAlg.v0)) cpx_pid cpx_pid cpx_pid)
       imp_plain (mkODP 1 (level 0)).
Definition moment (a : Ax) : R := match a with AX => 1 | AY => 2 | AZ => 3 end.

Lemma roll_check k : 0 <= k -> check_params (roll_model (mdiag k k k)) = true.
Proof.
  intros Hk. unfold check_params, roll_model. cbn [p_mass p_inertia p_drag p_aero p_motors]. fold (ex_motors 1). rewrite (ex_motors_check 1) by lra.
  assert (0 <= k * k) by (apply Rmult_le_pos; exact Hk). assert (0 <= k * k * k) by (apply Rmult_le_pos; assumption).
  rewrite !mdet_R. unfold det3, mdiag. cbn [m00 m01 m02 m10 m11 m12 m20 m21 m22]. unR. rcase; try lra; try reflexivity.
Qed.
Lemma roll_turns a up w e0 : 0 <= e0 <= 1 / moment a -> turns a up (moment a) 4 2 (1/10) 1 0 100 e0 (sp_roll a w).
Proof.
  intros He. assert (Pm : 0 < moment a) by (destruct a; cbn; lra).
  assert (B : moment a * e0 <= 1) by (apply Rle_trans with (moment a * (1 / moment a)); [apply Rmult_le_compat_l; lra|right; field; lra]).
  assert (L1 : lever 1 1 1 1 a = 1) by (destruct a; cbn; lra).
  split; try reflexivity; try lra.
  - split; [exact (roll_check 0 (Rle_refl 0))|]. split; [reflexivity|]. split; reflexivity.
  - exists 1, 1, 1, 0. rewrite L1. split; [lra|]. split; [lra|]. split; [lra|]. split; [reflexivity|]. split; [reflexivity|]. lra.
  - intros b. destruct a, b; unfold mat_vec; cbn; ring.
  - unfold det3. cbn. lra.
  - destruct a; reflexivity.
  - split; reflexivity.
  - intros b. left. destruct b; split; reflexivity.
  - cbn [sp_state sp_roll st_roll s_angvel]. rewrite along_self. reflexivity.
  - exists 1. split; [lra|]. split; [ring|reflexivity].
Qed.

Section Ex.
Context {G H : Gen R}.
(** Asked to turn about the vertical axis 1/3 faster, with rounds of 10 ms. *)
Lemma roll_ex : turns AZ true 3 4 2 (1/10) 1 0 100 (1/3) (sp_roll AZ (-1)) /\
  exists e : nat -> R, e 0%nat = 1/3 /\
  (forall k, exists s : Sim R G H, sim_after 4 (sp_roll AZ (-1)) (turn_calls AZ RATE 4 (-2/3) (1/100) k) = Some s /\ s_angvel (sim_state s) = mkV 0 0 (-2/3 - e k)) /\
  forall k, 0 <= e (S k) <= e k /\ e k <= 2 * (197/200) ^ k * (1/3).
Proof.
  assert (C : turns AZ true 3 4 2 (1/10) 1 0 100 (1/3) (sp_roll AZ (-1))) by (apply (roll_turns AZ); cbn; lra).
  split; [exact C|].
  destruct (rate_flight (G := G) (H := H) _ _ _ _ _ _ _ _ _ _ _ C RATE (1/100)) as (e & A & F & B); [lra|lra|].
  assert (Ar : asked true (pr AZ (s_angvel (sp_state (sp_roll AZ (-1))))) (1/3) = -2/3) by (cbn; field). rewrite Ar in F.
  exists e. split; [exact A|]. split; [exact F|]. intros k. specialize (B k). replace (1 - 3/4 * (1/100 * 2)) with (197/200) in B by field. exact B.
Qed.

(** In air that resists turning there are states the loop does not leave. *)
Definition st_stuck : State R := st_roll AX 1 (split_in AX true (speed 1 5) (speed 1 3)).
Lemma thick_air : exists (sp : SimParams R) (st : State R), turns AX true 1 4 2 (1/10) 1 0 100 (1/2) sp /\
  s_angvel (sp_state sp) = mkV 1 0 0 /\ s_angvel st = mkV 1 0 0 /\
  let thick := started_from st (in_thick_air mI sp) in fitting_params 4 thick /\
  forall y dt, 0 < dt <= 1/100 -> forall k, exists s : Sim R G H,
    sim_after 4 thick (turn_calls AX y 4 (3/2) dt k) = Some s /\ s_angvel (sim_state s) = mkV 1 0 0.
Proof.
  pose proof (roll_turns AX true 1 (1/2) ltac:(cbn; lra)) as Tn.
  exists (sp_roll AX 1), st_stuck. split; [exact Tn|]. split; [reflexivity|]. split; [reflexivity|]. cbv zeta.
  set (sp := started_from st_stuck (in_thick_air mI (sp_roll AX 1))).
  assert (Fit : fitting_params 4 sp).
  { split; [exact (roll_check 1 ltac:(lra))|]. split; [reflexivity|]. split; reflexivity. }
  split; [exact Fit|]. intros y dt Hd k.
  destruct (simulator_defined (G := G) (H := H) 4 sp (turn_calls AX y 4 (3/2) dt k) Fit) as [s K].
  { unfold turn_calls. apply Forall_app. split; [repeat (apply Forall_cons; [exact Logic.I|]); apply Forall_nil|].
    induction k as [|k IH]; [apply Forall_nil|]. rewrite rounds_snoc. apply Forall_app. split; [exact IH|].
    apply Forall_cons; [exact Logic.I|]. apply Forall_cons; [cbn; lra|apply Forall_nil]. }
  exists s. split; [exact K|].
  unfold sim_after in K. destruct (sim_new 4 sp) as [s0|] eqn:N; [|discriminate].
  destruct (new_fields 4 _ _ N) as (F1 & F2 & F3 & F4 & F5 & F6 & F7 & F8 & d & Dn & Ed).
  destruct Fit as (Ck & Fl & Fm & Fi).
  destruct (new_params _ _ _ _ _ Dn Ck) as (Mr & Gp' & Ds).
  assert (C : sm_ctl s0 = ctl_new 4 (sp_ctl sp)).
  { unfold sim_new in N. destruct (dyn_new _ _ _ _); [|discriminate]. cbn in N. injection N as <-. reflexivity. }
  assert (St : sim_state s0 = st_stuck) by (unfold sim_state; rewrite Ed; exact Ds).
  unfold turn_calls in K. rewrite run_app in K. cbn [sim_run sim_step] in K.
  set (s1 := set_ref_acro (arm (set_control_mode s0 ACRO y)) 4 (along AX (3/2))) in *.
  assert (E1 : sm_mode s1 = ACRO /\ sm_floor_en s1 = false /\ sm_ext s1 = mkV 0 0 0 /\ sm_ctl s1 = sm_ctl s0 /\ sim_state s1 = sim_state s0 /\
    sm_dyn s1 = sm_dyn s0 /\ sm_act s1 = sm_act s0).
  { unfold s1, set_control_mode. rewrite F4. cbn [mode_eqb andb]. repeat (split; [assumption || reflexivity|]). reflexivity. }
  destruct E1 as (E1 & E2 & E3 & E4 & E5 & E6 & E7).
  assert (U : speed 1 (4 + 1 / lever 1 1 1 1 AX * 2 * (1/2)) = speed 1 5) by (f_equal; cbn; field).
  assert (V : speed 1 (4 - 1 / lever 1 1 1 1 AX * 2 * (1/2)) = speed 1 3) by (f_equal; cbn; field).
  assert (Cl : rating AX true (sp_model sp) inv_ex 4 2 (3/2) (1/2) (1/2) (speed 1 (4 + 1 / lever 1 1 1 1 AX * 2 * (1/2))) (speed 1 (4 - 1 / lever 1 1 1 1 AX * 2 * (1/2))) s1).
  { rewrite U, V. split; try assumption; try reflexivity.
    - rewrite E6, E7, F3, Ed. split; [exact Mr|]. split; [exact Gp'|]. split; [reflexivity|]. rewrite Ds. exact Fm.
    - rewrite E4, C. reflexivity.
    - rewrite E4, C. reflexivity.
    - rewrite E4, C. cbn [ctl_new ct_indi indi_new in_pid]. apply new_rate; try reflexivity; [lra|]. intros b. left. destruct b; split; reflexivity.
    - rewrite E5, St. cbn [st_stuck st_roll s_angvel]. f_equal. cbn. field.
    - rewrite E5, St. reflexivity. }
  assert (Sr : forall f, 0 <= f <= 5 -> 0 <= speed 1 f <= 100).
  { intros f Hf. split; [apply sqrt_pos|]. apply (lift_le 1); [lra|lra|]. rewrite lift_speed by lra. unfold lift. lra. }
  assert (R : rating AX true (sp_model sp) inv_ex 4 2 (3/2) (1/2) (1/2) (speed 1 (4 + 1 / lever 1 1 1 1 AX * 2 * (1/2))) (speed 1 (4 - 1 / lever 1 1 1 1 AX * 2 * (1/2))) s).
  { apply (stuck_rounds AX true (sp_model sp) inv_ex 1 4 2 (1/10) 1 1 1 1 0 100 0 (3/2) (1/2) dt) with (s := s1) (k := k); try reflexivity; try lra; try assumption.
    - intros b. destruct b; unfold mat_vec; cbn; ring.
    - unfold det3. cbn. lra.
    - cbn. lra.
    - rewrite U. apply Sr. lra.
    - rewrite V. apply Sr. lra.
    - intros b. replace (3/2 - sg true * (1/2)) with 1 by (cbn; field). replace (- (sg true * (1 * (2 * (1/2))))) with (-1) by (cbn; field).
      unfold aero_spec, len3, dot3. cbn [along vx vy vz]. replace (1 * 1 + 0 * 0 + 0 * 0) with 1 by ring. rewrite sqrt_1.
      destruct b; unfold mat_vec; cbn; ring. }
  rewrite (rt_rate _ _ _ _ _ _ _ _ _ _ _ _ R). cbn. f_equal. field.
Qed.
End Ex.
