(** Example flights: mirrored, turned and rescaled; and what breaks the symmetry. *)

From Coq Require Import ZArith List Bool Permutation Lia Reals Lra Psatz.
From Verif Require Import Scalar LinAlg MUtils MModel MDynamics MPid MControl MCtlRun MImu MSim
  SpecDyn SpecRun SpecMotion SpecPid SpecCtl SpecImu SpecSim SpecEuler SpecRenum SpecSym
  PBase PDyn PModel PDynR PPhys PVeh PMix PDynMore PPid PPidR PCtl PCtlR PCtlMix PSim PSimR PHover PEuler PSimEnd PGlide PRenum PSym PSymSim PSymMix
  EBase EPid ECtl EImu ESim ERenum.
Import ListNotations.
Local Open Scope R_scope.

(** A quadrotor of mass 2 at (1, 2, 3), moving and turning, its rotors at four
    different speeds. *)
Definition st_busy : State R := mkState (mkV 1 2 3) (mkQ 1 0 0 0) (mkV 4 5 6) (mkV 7 8 9) v0 v0 v0 v0 [1; 2; 3; 4] [0; 0; 0; 0].
Definition sp_busy : SimParams R := sp_ex 2 4 4 st_busy imp_plain.

Lemma busy_fits : fitting_params 4 sp_busy.
Proof. apply sp_fits; [lra|reflexivity]. Qed.
Lemma busy_dyn c : suits_dyn c (sp_model sp_busy) (sp_state sp_busy).
Proof. split; [unfold unitq; cbn; lra|]. split; [reflexivity|right; reflexivity]. Qed.
Lemma plain_round : round_pid cpx_pid /\ round_pid (pp_wind v0 false).
Proof. split; unfold round_pid; do 7 (split; [reflexivity|]); reflexivity. Qed.
Lemma plain_balanced a : balanced cpx_pid a.
Proof. split; [reflexivity|]. cbn [cpx_pid pp_aw pp_lo pp_up]. rewrite pr_v0. split; lra. Qed.
Lemma busy_ctl c : suits_ctl c (sp_ctl sp_busy).
Proof.
  destruct plain_round as [A B]. split.
  - intros pp [<-|[<-|[<-|[]]]]; left; assumption.
  - intros _. split; apply plain_balanced.
Qed.

Section Ex.
Context {G H : Gen R}.
(** A position flight, then rotor speeds given by hand. *)
Definition busy_ops : list (SimOp R G H) :=
  [SMode POSITION ANGLE; SArm; SRefPos (mkV 5 6 7); SRefYaw 1; SController (1/100); SDynamics (1/100); SMode MOTOR_W ANGLE; SRefMotors [5; 6; 7; 8]; SController (1/100)].
Lemma busy_calls : Forall (fits (G := G) (H := H) 4) busy_ops.
Proof. unfold busy_ops. repeat (apply Forall_cons; [cbn [fits]; first [exact I|lra|reflexivity]|]). apply Forall_nil. Qed.
Lemma busy_suits c : Forall (suits_call (G := G) (H := H) c) busy_ops.
Proof. unfold busy_ops. repeat (apply Forall_cons; [exact I|]). apply Forall_nil. Qed.
Lemma busy_keeps : Forall (keeps_parts (G := G) (H := H)) busy_ops.
Proof. unfold busy_ops. repeat (apply Forall_cons; [exact I|]). apply Forall_nil. Qed.

Lemma busy_act (a : Sim R G H) sp : sim_after 4 sp busy_ops = Some a -> sm_act a = [5; 6; 7; 8].
Proof.
  change busy_ops with ([SMode POSITION ANGLE; SArm; SRefPos (mkV 5 6 7); SRefYaw 1; SController (1/100); SDynamics (1/100)] ++ [SMode MOTOR_W ANGLE; SRefMotors [5; 6; 7; 8]; SController (1/100)] : list (SimOp R G H)).
  unfold sim_after. destruct (sim_new 4 sp) as [s|]; [|discriminate]. rewrite PSim.run_app.
  destruct (sim_run 4 s _) as [s1|] eqn:E1; [|discriminate]. intros A.
  assert (Ar : sm_armed s1 = true) by (apply PSim.run_armed in E1; exact E1).
  exact (last_command s1 a [5; 6; 7; 8] Ar A).
Qed.

Lemma busy_left_right : left_right sp_busy.
Proof.
  split; [exists 1, 1, 1, 1, 0, 100, (1/10), 0; reflexivity|]. split; [reflexivity|].
  assert (U : uncoupled mI) by (split; [|split; [|split]]; reflexivity).
  split; [exact U|]. split; [exact U|]. split; [reflexivity|]. split; [exact U|]. split; [exact U|reflexivity].
Qed.

Lemma mirror_ex : exists a b : Sim R G H,
  fitting_params 4 sp_busy /\ Forall (fits (G := G) (H := H) 4) busy_ops /\ Forall (keeps_parts (G := G) (H := H)) busy_ops /\ left_right sp_busy /\
  suits_dyn mirror_image (sp_model sp_busy) (sp_state sp_busy) /\ suits_ctl mirror_image (sp_ctl sp_busy) /\
  s_pos (sp_state (mirrored_start sp_busy)) = mkV 1 (-2) 3 /\ s_angvel (sp_state (mirrored_start sp_busy)) = mkV (-7) 8 (-9) /\
  s_mvel (sp_state (mirrored_start sp_busy)) = [2; 1; 4; 3] /\
  sim_after 4 sp_busy busy_ops = Some a /\ sim_after 4 (mirrored_start sp_busy) (map mirrored_call busy_ops) = Some b /\
  sm_act a = [5; 6; 7; 8] /\ sm_act b = [6; 5; 8; 7] /\ vy (s_pos (sim_state b)) = - vy (s_pos (sim_state a)).
Proof.
  destruct (mirrored_mission (G := G) (H := H) sp_busy busy_ops busy_fits busy_calls busy_keeps busy_left_right (busy_dyn _) (busy_ctl _)) as (a & b & A & B & St & Ac).
  exists a, b. split; [exact busy_fits|]. split; [exact busy_calls|]. split; [exact busy_keeps|]. split; [exact busy_left_right|].
  split; [apply busy_dyn|]. split; [apply busy_ctl|].
  split. { unfold mirrored_start, mirrored_state, renum_state, changed_state. cbn [sp_state s_pos]. rewrite mirror_around. reflexivity. }
  split. { unfold mirrored_start, mirrored_state, renum_state, changed_state. cbn [sp_state s_angvel]. rewrite mirror_spin. reflexivity. }
  split; [reflexivity|]. split; [exact A|]. split; [exact B|]. pose proof (busy_act a sp_busy A) as Aa. rewrite Ac, Aa. split; [reflexivity|]. split; [reflexivity|].
  rewrite St. unfold mirrored_state, renum_state, changed_state. cbn [s_pos]. rewrite mirror_around. reflexivity.
Qed.

(** *** Turned by a right angle *)
Lemma busy_headed : headed (G := G) (H := H) (turned_by (PI / 2)) 4 sp_busy [SMode POSITION ANGLE; SArm; SRefPos (mkV 5 6 7); SController (1/100); SDynamics (1/100)].
Proof.
  right. intros pre op post s E A Lk.
  assert (V : not_vertical (mkQ 1 0 0 0)).
  { unfold not_vertical. rewrite attitude_unit by (unfold unitq; cbn; lra). unfold rot_entry. cbn [qw qx qy qz].
    replace (2 * (0 * 0 - 1 * 0)) with 0 by ring. rewrite Rabs_R0. lra. }
  assert (Y : forall ops, sim_after 4 sp_busy ops = Some s -> sm_yawmode s = RATE -> snd (mode_of (MOTOR_W, ANGLE) ops) = RATE).
  { intros ops K. unfold sim_after in K. destruct (ex_start (G := G) (H := H) 4 sp_busy busy_fits) as (s0 & N0 & _ & _ & _ & _ & _ & _ & _ & _ & _ & _ & _ & _ & _ & _ & M1 & M2).
    rewrite N0 in K. apply PSim.run_mode in K. rewrite M1, M2 in K. intros Ry. rewrite <- K. exact Ry. }
  destruct pre as [|o0 pre].
  { cbn [app] in E. unfold sim_after in A. destruct (ex_start (G := G) (H := H) 4 sp_busy busy_fits) as (s0 & N0 & A0 & _ & St & _).
    unfold sim_after in A0. rewrite N0 in A, A0. cbn [sim_run] in A. injection A as <-. rewrite St. exact V. }
  injection E as E0 E. subst o0.
  destruct pre as [|o1 pre]; [injection E as E1 E; subst op; destruct Lk|]. injection E as E1 E. subst o1.
  destruct pre as [|o2 pre]; [injection E as E2 E; subst op; destruct Lk|]. injection E as E2 E. subst o2.
  destruct pre as [|o3 pre]; [injection E as E3 E; subst op|].
  { cbn [looks_at_heading] in Lk. pose proof (Y _ A Lk) as Z. discriminate Z. }
  injection E as E3 E. subst o3.
  destruct pre as [|o4 pre]; [injection E as E4 E; subst op; destruct Lk|]. injection E as E4 E. destruct pre; discriminate E.
Qed.
Lemma turn_ex : exists a b : Sim R G H, let c := turned_by (PI / 2) in
  let ops := [SMode POSITION ANGLE; SArm; SRefPos (mkV 5 6 7); SController (1/100); SDynamics (1/100)] : list (SimOp R G H) in
  fitting_params 4 sp_busy /\ Forall (fits 4) ops /\ suits_dyn c (sp_model sp_busy) (sp_state sp_busy) /\ suits_ctl c (sp_ctl sp_busy) /\
  Forall (suits_call c) ops /\ headed c 4 sp_busy ops /\ s_pos (sp_state (changed_sim c sp_busy)) = mkV (-2) 1 3 /\
  sim_after 4 sp_busy ops = Some a /\ sim_after 4 (changed_sim c sp_busy) (map (changed_call c) ops) = Some b /\
  vx (s_pos (sim_state b)) = - vy (s_pos (sim_state a)) /\ vy (s_pos (sim_state b)) = vx (s_pos (sim_state a)) /\ sm_act b = sm_act a.
Proof.
  set (ops := [SMode POSITION ANGLE; SArm; SRefPos (mkV 5 6 7); SController (1/100); SDynamics (1/100)] : list (SimOp R G H)).
  set (c := turned_by (PI / 2)). assert (Lp : 0 < ch_scale c) by (cbn; lra).
  assert (Q : Forall (fits (G := G) (H := H) 4) ops) by (unfold ops; repeat (apply Forall_cons; [cbn [fits]; first [exact I|lra|reflexivity]|]); apply Forall_nil).
  assert (Su : Forall (suits_call (G := G) (H := H) c) ops) by (unfold ops; repeat (apply Forall_cons; [exact I|]); apply Forall_nil).
  destruct (flight_changed (G := G) (H := H) c Lp 4 sp_busy ops busy_fits Q (busy_dyn _) (busy_ctl _) Su busy_headed) as (a & b & A & B & St & Ac).
  assert (Ar : forall v, around c v = mkV (- vy v) (vx v) (vz v)).
  { intros v. unfold around, side, c, turned_by. cbn [ch_turn ch_mirror]. rewrite cos_PI2, sin_PI2. f_equal; ring. }
  exists a, b. cbv zeta. split; [exact busy_fits|]. split; [exact Q|]. split; [apply busy_dyn|]. split; [apply busy_ctl|]. split; [exact Su|]. split; [exact busy_headed|].
  split; [cbn [changed_sim sp_state changed_state s_pos]; rewrite Ar; reflexivity|]. split; [exact A|]. split; [exact B|].
  rewrite St. cbn [changed_state s_pos]. rewrite Ar. split; [reflexivity|]. split; [reflexivity|exact Ac].
Qed.

(** *** Twice the mass *)
Lemma scale_ex : exists a b : Sim R G H, let c := scaled_by 2 in
  fitting_params 4 sp_busy /\ Forall (fits (G := G) (H := H) 4) busy_ops /\ suits_dyn c (sp_model sp_busy) (sp_state sp_busy) /\ suits_ctl c (sp_ctl sp_busy) /\
  Forall (suits_call (G := G) (H := H) c) busy_ops /\ p_mass (sp_model (changed_sim c sp_busy)) = 4 /\ p_grav (sp_model (changed_sim c sp_busy)) = mkV 0 0 (-8) /\
  sim_after 4 sp_busy busy_ops = Some a /\ sim_after 4 (changed_sim c sp_busy) (map (changed_call c) busy_ops) = Some b /\
  sm_act a = [5; 6; 7; 8] /\ sm_act b = [5; 6; 7; 8] /\ s_pos (sim_state b) = s_pos (sim_state a).
Proof.
  set (c := scaled_by 2). assert (Lp : 0 < ch_scale c) by (cbn; lra).
  destruct (flight_changed (G := G) (H := H) c Lp 4 sp_busy busy_ops busy_fits busy_calls (busy_dyn _) (busy_ctl _) (busy_suits _) (or_introl eq_refl)) as (a & b & A & B & St & Ac).
  assert (Ar : forall v, around c v = v).
  { intros [x y z]. unfold around, side, c, scaled_by. cbn [ch_turn ch_mirror vx vy vz]. rewrite cos_0, sin_0. f_equal; ring. }
  exists a, b. cbv zeta. split; [exact busy_fits|]. split; [exact busy_calls|]. split; [apply busy_dyn|]. split; [apply busy_ctl|]. split; [apply busy_suits|].
  split; [cbn; lra|]. split. { cbn [changed_sim sp_model changed_model p_grav]. rewrite Ar. unfold times, c, scaled_by. cbn. f_equal; lra. }
  split; [exact A|]. split; [exact B|]. pose proof (busy_act a sp_busy A) as Aa. rewrite Ac. split; [exact Aa|]. split; [exact Aa|].
  rewrite St. cbn [changed_state s_pos]. apply Ar.
Qed.

End Ex.

(** ** What breaks the symmetry *)
(** The integral reset on a change of sign takes a zero error for a positive
    one. *)
Definition pp_reset : PidParams R := pp_wind v0 true.
Definition cfg_reset : PidCfg R := mkPC (vdiagm v0) (vdiagm (r3 1)) (vdiagm v0) v0 v1 true false false v0 v0.
Lemma reset_step s x y : ps_acc (ps_init s (r3 y)) = r3 x ->
  let p := pid_compute (mkPid cfg_reset s) 1 (r3 y) in
  pid_c p = cfg_reset /\ ps_first (pid_s p) = false /\ ps_acc (pid_s p) = r3 (rst1 true x 0 y + y) /\ pid_output p = r3 (rst1 true x 0 y + y).
Proof.
  intros A. cbv zeta.
  assert (E : veqb (v0 : V3 R) v0 = true) by (apply veqb_v0_true; intros a; apply pr_v0).
  assert (K : pid_acc cfg_reset (r3 x) 1 (r3 y) = r3 (rst1 true x 0 y + y)).
  { unfold pid_acc. cbn [cfg_reset pc_rflag pc_aw]. rewrite E. cbn [negb]. unfold r3, v0, vadd, vscaler, vmap, vmap2. cbn [vx vy vz]. unR. rewrite Rmult_1_r. reflexivity. }
  unfold pid_compute. cbv zeta. cbn [pid_c pid_s]. rewrite A, K. cbn [pid_c pid_s ps_first ps_acc]. split; [reflexivity|]. split; [reflexivity|]. split; [reflexivity|].
  unfold pid_output, pid_out. cbn [pid_s ps_out cfg_reset pc_sflag pc_kp pc_ki pc_kd]. apply pr_ext. intros a. rewrite !PDynR.pr_vadd, !diag_mul, !pr_r3, !pr_v0. unR. ring.
Qed.
Lemma reset_two x y : pid_output (pid_run (pid_new pp_reset) [OpCompute 1 (r3 x); OpCompute 1 (r3 y)]) =
  r3 (rst1 true (rst1 true 0 0 x + x) 0 y + y).
Proof.
  unfold pp_reset. rewrite new_aw. fold cfg_reset. cbn [pid_run fold_left pid_step].
  destruct (reset_step ps0 0 x eq_refl) as (A1 & A2 & A3 & _). revert A1 A2 A3. generalize (pid_compute (mkPid cfg_reset ps0) 1 (r3 x)).
  intros [g s] A1 A2 A3. cbn [pid_c pid_s] in *. subst g.
  refine (proj2 (proj2 (proj2 (reset_step s _ y _)))). unfold ps_init. rewrite A2. exact A3.
Qed.
Lemma reset_refuted : exists pp (es : list (V3 R)),
  (forall a, 0 <= pr a (pp_aw pp) /\ pr a (pp_lo pp) = - pr a (pp_up pp)) /\ pp_rflag pp = true /\
  pid_output (pid_run (pid_new pp) (map (OpCompute 1) es)) = mkV 1 1 1 /\
  pid_output (pid_run (pid_new pp) (map (fun e => OpCompute 1 (vneg e)) es)) = mkV 0 0 0.
Proof.
  exists pp_reset, [r3 1; r3 0].
  split. { intros a. cbn [pp_reset pp_wind pp_aw pp_lo pp_up]. rewrite pr_v0. split; lra. }
  split; [reflexivity|]. cbn [map].
  assert (N : forall x, vneg (r3 x) = r3 (- x)) by reflexivity. rewrite !N, !reset_two, Ropp_0.
  assert (Z : forall x, rst1 true 0 0 x = (0 : R)).
  { intros x. unfold rst1. unR. rewrite Rabs_R0. destruct (Rltb 0 0) eqn:L; [apply Rltb_true in L; lra|reflexivity]. }
  rewrite !Z. split.
  - assert (W : rst1 true (0 + 1) 0 0 = (1 : R)).
    { unfold rst1. unR. rewrite Rplus_0_l. destruct (Rltb 0 (Rabs 1)) eqn:L; [|reflexivity].
      unfold Rltb at 1 2. destruct (Rlt_dec 1 0); [lra|]. destruct (Rlt_dec 0 0); [lra|]. reflexivity. }
    rewrite W. unfold r3. f_equal; ring.
  - assert (W : rst1 true (0 + Ropp 1) 0 0 = (0 : R)).
    { unfold rst1. unR. rewrite Rplus_0_l. rewrite (Rabs_left (Ropp 1)) by lra. destruct (Rltb 0 (- Ropp 1)) eqn:L; [|apply Rltb_false in L; lra].
      unfold Rltb at 1 2. destruct (Rlt_dec (Ropp 1) 0); [|lra]. destruct (Rlt_dec 0 0); [lra|]. reflexivity. }
    rewrite W. unfold r3. f_equal; ring.
Qed.

Section Ex2.
Context {G H : Gen R}.
(** Arming in the ACRO mode asks for the thrust 9.81, whatever the mass. *)
Lemma acro_command (s a : Sim R G H) : sm_armed s = false ->
  sim_run 4 s [SMode ACRO ANGLE; SArm; SController (1/100)] = Some a -> sm_mode s = MOTOR_W ->
  sm_act a = get_desired_motor_angular_velocity (ctl_step (sm_ctl s) (CAcro (s_angvel (sim_state s)) (lit 981 100) (mkV 0 0 0) (1/100))).
Proof.
  intros Ar. cbn [sim_run sim_step]. intros E M. injection E as <-. unfold set_control_mode. rewrite M. cbn [mode_eqb andb]. reflexivity.
Qed.
Lemma acro_refuted : exists sp (a b : Sim R G H), let c := scaled_by 2 in let ops := [SMode ACRO ANGLE; SArm; SController (1/100)] in
  fitting_params 4 sp /\ suits_dyn c (sp_model sp) (sp_state sp) /\ suits_ctl c (sp_ctl sp) /\
  sim_after 4 sp ops = Some a /\ sim_after 4 (changed_sim c sp) (map (changed_call c) ops) = Some b /\ sm_act b <> sm_act a.
Proof.
  set (c := scaled_by 2). assert (Lp : 0 < ch_scale c) by (cbn; lra).
  set (ops := [SMode ACRO ANGLE; SArm; SController (1/100)] : list (SimOp R G H)).
  assert (Q : Forall (fits (G := G) (H := H) 4) ops) by (unfold ops; repeat (apply Forall_cons; [exact I|]); apply Forall_nil).
  assert (F' : fitting_params 4 (changed_sim c sp_busy)).
  { destruct busy_fits as (C & Lm & Ls & Li). split; [cbn [changed_sim sp_model]; rewrite (check_changed _ Lp); exact C|].
    split; [reflexivity|]. split; [reflexivity|]. cbn [changed_sim sp_ctl changed_ctl cp_indi ip_minv]. rewrite map_length. exact Li. }
  destruct (simulator_defined (G := G) (H := H) 4 sp_busy ops busy_fits Q) as [a A].
  destruct (simulator_defined (G := G) (H := H) 4 (changed_sim c sp_busy) ops F' Q) as [b B].
  exists sp_busy, a, b. cbv zeta. split; [exact busy_fits|]. split; [apply busy_dyn|]. split; [apply busy_ctl|]. split; [exact A|]. split; [exact B|].
  destruct (ex_start (G := G) (H := H) 4 sp_busy busy_fits) as (s & Ns & _ & _ & St & Ct & _ & _ & _ & _ & _ & Ar & _ & _ & _ & _ & Md & _).
  destruct (ex_start (G := G) (H := H) 4 (changed_sim c sp_busy) F') as (t & Nt & _ & _ & Tt & Tc & _ & _ & _ & _ & _ & Tr & _ & _ & _ & _ & Td & _).
  unfold sim_after in A, B. rewrite Ns in A. rewrite Nt in B.
  rewrite (acro_command s a Ar A Md), (acro_command t b Tr B Td), St, Ct, Tt, Tc.
  set (c1 := ctl_new 4 (sp_ctl sp_busy)). set (c2 := ctl_new 4 (sp_ctl (changed_sim c sp_busy))).
  assert (Cc : ctl_changed c c1 c2) by (apply (ctl_new_changed c), busy_ctl).
  pose proof (ctl_acro_changed c Lp c1 c2 (s_angvel (sp_state sp_busy)) (981/200) (mkV 0 0 0) (1/100) Cc) as K.
  assert (E1 : ch_scale c * (981/200) = lit 981 100) by (unfold lit, c, scaled_by; cbn [ch_scale]; unR; lra). rewrite E1 in K.
  assert (E2 : SpecSym.spin c (mkV 0 0 0) = mkV 0 0 0) by exact (ln_0 _ (spin_lin c)). rewrite E2 in K.
  pose proof (th_motor _ _ _ K) as M. change (s_angvel (sp_state (changed_sim c sp_busy))) with (SpecSym.spin c (s_angvel (sp_state sp_busy))).
  unfold get_desired_motor_angular_velocity. cbn [ctl_step]. rewrite M. intros E.
  assert (X : forall th, rotor_force (quad_x 1 1 1 1 0 100 (1/10) 0) (ct_dmotor (ctl_acro c1 (s_angvel (sp_state sp_busy)) th (mkV 0 0 0) (1/100))) AZ = th).
  { intros th. destruct (allocation_x 1 1 1 1 0 100 (1/10) 0 inv_ex c1 (CAcro (s_angvel (sp_state sp_busy)) th (mkV 0 0 0) (1/100))) as (_ & Al & _); try lra; try reflexivity.
    specialize (Al AZ). exact Al. }
  pose proof (X (981/200)) as X1. rewrite E, X in X1. unfold lit in X1. unR. lra.
Qed.

(** The floor pushes with gravity times mass; both grow with the scale. *)
Lemma push_force sp (s' : Sim R G H) : fitting_params 4 sp -> p_fnoise (sp_model sp) = 0 -> p_drag (sp_model sp) = 0 ->
  s_mvel (sp_state sp) = [0;0;0;0] -> vz (s_pos (sp_state sp)) < 0 -> sim_after 4 sp [SEnableFloor 0; SDynamics (1/100)] = Some s' ->
  vz (s_force (sim_state s')) = vz (p_grav (sp_model sp)) * (1 - p_mass (sp_model sp)).
Proof.
  intros F Nz Dz Mv Pz E.
  destruct (ex_start (G := G) (H := H) 4 sp F) as (s & Ns & A & W & St & _ & _ & _ & Rc & Gp & Ac & _ & _ & _ & _ & Rf & _).
  assert (W1 : well 4 (enable_floor s 0)) by (destruct W as [W1 W2 W3]; constructor; assumption).
  destruct (ok_step 4 (enable_floor s 0) (1/100) W1) as (s1 & E1 & _); [lra|].
  rewrite (after_cons 4 sp s (SEnableFloor 0) [SDynamics (1/100)] (enable_floor s 0) A (or_introl eq_refl)) in E.
  cbn [sim_run] in E. rewrite E1 in E. injection E as <-.
  assert (V : vehicle 4 (sm_dyn (enable_floor s 0)) (sm_act (enable_floor s 0)) (sp_model sp)).
  { split; [exact Rc|]. split; [exact Gp|]. split; [cbn [enable_floor sm_act]; rewrite Ac; reflexivity|].
    change (length (s_mvel (sim_state s)) = 4%nat). rewrite St, Mv. reflexivity. }
  cbn [sim_step] in E1. destruct (ud_ok _ _ _ E1) as (ext & d & Fm & Ee & _ & Es). cbv zeta in Es.
  assert (Bf : below_floor (enable_floor s 0) = true).
  { unfold below_floor. cbn [enable_floor sm_floor_en sm_floor_h andb]. change (sim_state (enable_floor s 0)) with (sim_state s). rewrite St. unR. apply Rltb_true. exact Pz. }
  apply get_params_cfg in Gp as (k & Hk & Pk). rewrite Bf in Ee. change (sm_dyn (enable_floor s 0)) with (sm_dyn s) in Ee. rewrite Hk, Pk in Ee.
  unfold free_motion in Fm. apply process_small_inv in Fm; [|lra].
  assert (Sl : mo_sforce (d_model d) = v0) by (eapply silent_core; [exact (proj1 (proj2 V))|exact Nz|exact Fm]).
  assert (Fo : s_force (sim_state s1) = s_force (d_state d)) by (subst s1; destruct (below_floor _); reflexivity).
  rewrite Fo. destruct (step_newton 4 _ _ _ _ _ _ _ V Fm AZ) as (N & _). cbv zeta in N. change (vz (s_force (d_state d))) with (pr AZ (s_force (d_state d))).
  rewrite N, Sl, pr_v0, Ee. change (d_state (sm_dyn (enable_floor s 0))) with (sim_state s). rewrite St, Mv, Dz.
  unfold to_world, vec_of. cbn [vx vy vz]. change [0; 0; 0; 0] with (repeat 0 4). rewrite !rotor_force_still.
  unfold drag_spec, vscaler, vneg, vmap. cbn [pr vx vy vz]. unR. ring.
Qed.
Definition st_under : State R := mkState (mkV 0 0 (-1)) (mkQ 1 0 0 0) v0 v0 v0 v0 v0 v0 [0;0;0;0] [0;0;0;0].
Lemma floor_refuted : exists sp (a b : Sim R G H), let c := scaled_by 2 in let ops := [SEnableFloor 0; SDynamics (1/100)] in
  fitting_params 4 sp /\ suits_dyn c (sp_model sp) (sp_state sp) /\ suits_ctl c (sp_ctl sp) /\
  sim_after 4 sp ops = Some a /\ sim_after 4 (changed_sim c sp) (map (changed_call c) ops) = Some b /\
  vz (s_force (sim_state a)) = 0 /\ vz (s_force (sim_state b)) = 8.
Proof.
  set (c := scaled_by 2). assert (Lp : 0 < ch_scale c) by (cbn; lra). set (sp := sp_ex 1 4 4 st_under imp_plain).
  set (ops := [SEnableFloor 0; SDynamics (1/100)] : list (SimOp R G H)).
  assert (Q : Forall (fits (G := G) (H := H) 4) ops) by (unfold ops; repeat (apply Forall_cons; [cbn [fits]; first [exact I|lra]|]); apply Forall_nil).
  assert (F : fitting_params 4 sp) by (apply sp_fits; [lra|reflexivity]).
  assert (F' : fitting_params 4 (changed_sim c sp)).
  { destruct F as (C & Lm & Ls & Li). split; [cbn [changed_sim sp_model]; rewrite (check_changed _ Lp); exact C|].
    split; [reflexivity|]. split; [reflexivity|]. cbn [changed_sim sp_ctl changed_ctl cp_indi ip_minv]. rewrite map_length. exact Li. }
  destruct (simulator_defined (G := G) (H := H) 4 sp ops F Q) as [a A].
  destruct (simulator_defined (G := G) (H := H) 4 (changed_sim c sp) ops F' Q) as [b B].
  exists sp, a, b. cbv zeta. split; [exact F|].
  split. { split; [unfold unitq; cbn; lra|]. split; [reflexivity|right; reflexivity]. }
  split; [exact (busy_ctl c)|]. split; [exact A|]. split; [exact B|]. split.
  - rewrite (push_force sp a F eq_refl eq_refl eq_refl ltac:(cbn; lra) A). cbn. lra.
  - rewrite (push_force (changed_sim c sp) b F' eq_refl ltac:(cbn; lra) eq_refl ltac:(cbn; lra) B). cbn. lra.
Qed.
End Ex2.
