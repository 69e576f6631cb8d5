(** C61: which references a mode follows, in every arithmetic. *)

From Coq Require Import ZArith List Bool.
From Verif Require Import Scalar LinAlg MUtils MModel MDynamics MPid MControl MCtlRun MImu MSim SpecDyn SpecRun SpecPid SpecCtl SpecImu SpecSim SpecFollow PBase.
Import ListNotations.

Section Follow.
Context {T : Type} {O : Ops T} {G H : Gen T}.
Lemma mode_references n (s : Sim T G H) a b dt : follows_same (sm_mode s) (sm_yawmode s) a b ->
  let sa := update_controller n (with_refs s a) dt in let sb := update_controller n (with_refs s b) dt in
  sm_act sa = sm_act sb /\ sm_ctl sa = sm_ctl sb.
Proof.
  intros F. cbv zeta. unfold update_controller.
  change (sm_armed (with_refs s a)) with (sm_armed s). change (sm_armed (with_refs s b)) with (sm_armed s).
  destruct (sm_armed s); cbn [negb]; [|split; reflexivity].
  assert (X : forall r, let s1 := match sm_yawmode (with_refs s r) with RATE => update_yaw_reference (with_refs s r) | ANGLE => with_refs s r end in
    sm_dyn s1 = sm_dyn s /\ sm_ctl s1 = sm_ctl s /\ sm_mode s1 = sm_mode s /\
    rf_motors (sm_refs s1) = rf_motors r /\ rf_thrust (sm_refs s1) = rf_thrust r /\ rf_ang (sm_refs s1) = rf_ang r /\
    rf_pos (sm_refs s1) = rf_pos r /\ rf_vel (sm_refs s1) = rf_vel r /\ rf_acc (sm_refs s1) = rf_acc r /\
    rf_yaw (sm_refs s1) = match sm_yawmode s with ANGLE => rf_yaw r
      | RATE => yaw_rate_to_angle (sm_ctl s) (vz (quat_to_euler (s_ori (sim_state s)))) (rf_yawrate r) end).
  { intros r. cbv zeta. change (sm_yawmode (with_refs s r)) with (sm_yawmode s). destruct (sm_yawmode s); cbn; auto 12. }
  pose proof (X a) as Xa. pose proof (X b) as Xb. cbv zeta in Xa, Xb. revert Xa Xb. clear X.
  match goal with |- context [sm_dyn ?x = sm_dyn s /\ _] => generalize x end. intros sa Xa.
  match goal with |- context [sm_dyn ?x = sm_dyn s /\ _] => generalize x end. intros sb Xb.
  destruct Xa as (A1 & A2 & A3 & A4 & A5 & A6 & A7 & A8 & A9 & A0), Xb as (B1 & B2 & B3 & B4 & B5 & B6 & B7 & B8 & B9 & B0).
  unfold sim_state. rewrite A3, B3. destruct F as [F1 F2].
  assert (Y : sm_mode s = MOTOR_W \/ sm_mode s = ACRO \/ rf_yaw (sm_refs sa) = rf_yaw (sm_refs sb)).
  { rewrite A0, B0. destruct (sm_mode s); destruct (sm_yawmode s); auto; rewrite F2; auto. }
  clear A0 B0 F2.
  destruct (sm_mode s);
    [destruct Y as [Y|[Y|Y]]; [discriminate|discriminate|]
    |clear Y|clear Y
    |destruct Y as [Y|[Y|Y]]; [discriminate|discriminate|]
    |destruct Y as [Y|[Y|Y]]; [discriminate|discriminate|]
    |destruct Y as [Y|[Y|Y]]; [discriminate|discriminate|]].
  - rewrite A1, A2, B1, B2, A7, B7, F1, Y. split; reflexivity.
  - split; cbn [sm_act sm_ctl with_act]; congruence.
  - destruct F1 as [F1 F2]. rewrite A1, A2, B1, B2, A5, B5, A6, B6, F1, F2. split; reflexivity.
  - destruct F1 as (F1 & F2 & F3). rewrite A1, A2, B1, B2, A7, B7, A8, B8, A9, B9, F1, F2, F3, Y. split; reflexivity.
  - rewrite A1, A2, B1, B2, A8, B8, F1, Y. split; reflexivity.
  - rewrite A1, A2, B1, B2, A7, B7, F1, Y. split; reflexivity.
Qed.
Lemma motor_mode n (s : Sim T G H) dt : sm_armed s = true -> sm_mode s = MOTOR_W -> sm_act (update_controller n s dt) = rf_motors (sm_refs s).
Proof. intros A M. unfold update_controller. destruct s. cbn in *. subst. cbn. destruct sm_yawmode; reflexivity. Qed.

End Follow.

Section Runs.
Context {T : Type} {O : Ops T} {G H : Gen T}.
Definition fol (s1 s2 : Sim T G H) : Prop := s2 = with_refs s1 (sm_refs s2) /\ follows_same (sm_mode s1) (sm_yawmode s1) (sm_refs s1) (sm_refs s2).

Lemma dynamics_refs (s : Sim T G H) r dt : update_dynamics (with_refs s r) dt =
  match update_dynamics s dt with Ok x => Ok (with_refs x r) | Throw x => Throw (with_refs x r) | UB => UB end.
Proof.
  unfold update_dynamics. change (below_floor (with_refs s r)) with (below_floor s). change (sm_dyn (with_refs s r)) with (sm_dyn s).
  destruct (below_floor s).
  - destruct (mo_cfg (d_model (sm_dyn s))) as [c|]; cbn [option_map]; [|reflexivity].
    cbn [with_ext with_refs sm_dyn sm_act sm_ext sm_floor_col].
    destruct (process _ _ _ _ _) as [d|d|]; try reflexivity.
    cbv zeta. match goal with |- (if below_floor ?a then _ else _) = match (if below_floor ?b then _ else _) with _ => _ end => change (below_floor a) with (below_floor b); destruct (below_floor b) end; reflexivity.
  - cbn [with_refs sm_dyn sm_act sm_ext sm_floor_col].
    destruct (process _ _ _ _ _) as [d|d|]; try reflexivity.
    cbv zeta. match goal with |- (if below_floor ?a then _ else _) = match (if below_floor ?b then _ else _) with _ => _ end => change (below_floor a) with (below_floor b); destruct (below_floor b) end; reflexivity.
Qed.

Lemma controller_keeps n (s : Sim T G H) dt : let t := update_controller n s dt in
  t = with_act (with_ctl (with_refs s (sm_refs t)) (sm_ctl t)) (sm_act t).
Proof.
  cbv zeta. unfold update_controller. destruct (sm_armed s) eqn:A; cbn [negb]; [|destruct s; reflexivity].
  destruct (sm_yawmode s) eqn:Y.
  - destruct (sm_mode s) eqn:M; destruct s; cbn in *; subst; reflexivity.
  - change (sm_mode (update_yaw_reference s)) with (sm_mode s). destruct (sm_mode s) eqn:M; destruct s; cbn in *; subst; reflexivity.
Qed.
Lemma controller_refs n (s : Sim T G H) dt : sm_refs (update_controller n s dt) =
  if sm_armed s then match sm_yawmode s with RATE => sm_refs (update_yaw_reference s) | ANGLE => sm_refs s end else sm_refs s.
Proof.
  unfold update_controller. destruct (sm_armed s); cbn [negb]; [|reflexivity].
  destruct (sm_yawmode s).
  - destruct (sm_mode s); reflexivity.
  - change (sm_mode (update_yaw_reference s)) with (sm_mode s). destruct (sm_mode s); reflexivity.
Qed.

Lemma step_fol n op (s1 s2 : Sim T G H) : no_stale_mode op -> fol s1 s2 -> orel fol (sim_step n s1 op) (sim_step n s2 op).
Proof.
  intros Ns [E F]. set (r := sm_refs s2) in *. clearbody r. subst s2.
  destruct op; cbn [sim_step orel].
  1: { rewrite dynamics_refs. destruct (update_dynamics s1 dt) as [x|x|] eqn:U; cbn [orel]; [| |exact I].
       - assert (K : sm_mode x = sm_mode s1 /\ sm_yawmode x = sm_yawmode s1 /\ sm_refs x = sm_refs s1).
         { unfold update_dynamics in U. destruct (below_floor s1); [destruct (mo_cfg _); cbn [option_map] in U; [|discriminate]|];
           (destruct (process _ _ _ _ _); [|discriminate|discriminate]; cbv zeta in U; destruct (below_floor _); injection U as <-; auto). }
         destruct K as (K1 & K2 & K3). split; [reflexivity|]. change (sm_refs (with_refs x r)) with r. rewrite K1, K2, K3. exact F.
       - assert (K : sm_mode x = sm_mode s1 /\ sm_yawmode x = sm_yawmode s1 /\ sm_refs x = sm_refs s1).
         { unfold update_dynamics in U. destruct (below_floor s1); [destruct (mo_cfg _); cbn [option_map] in U; [|discriminate]|];
           (destruct (process _ _ _ _ _); [cbv zeta in U; destruct (below_floor _); discriminate| |discriminate]; injection U as <-; auto). }
         destruct K as (K1 & K2 & K3). split; [reflexivity|]. change (sm_refs (with_refs x r)) with r. rewrite K1, K2, K3. exact F. }
  1: { pose proof (mode_references n s1 (sm_refs s1) r dt F) as K. cbv zeta in K.
       assert (W : with_refs s1 (sm_refs s1) = s1) by (destruct s1; reflexivity). rewrite W in K. destruct K as [Ka Kc].
       pose proof (controller_keeps n s1 dt) as C1. pose proof (controller_keeps n (with_refs s1 r) dt) as C2. cbv zeta in C1, C2.
       pose proof (controller_refs n s1 dt) as R1. pose proof (controller_refs n (with_refs s1 r) dt) as R2.
       change (sm_armed (with_refs s1 r)) with (sm_armed s1) in R2. change (sm_yawmode (with_refs s1 r)) with (sm_yawmode s1) in R2.
       set (t1 := update_controller n s1 dt) in *. set (t2 := update_controller n (with_refs s1 r) dt) in *. clearbody t1 t2.
       split.
       - rewrite C2 at 1. rewrite C1 at 1. rewrite Ka, Kc. reflexivity.
       - assert (M1 : sm_mode t1 = sm_mode s1) by (rewrite C1; reflexivity). assert (M2 : sm_yawmode t1 = sm_yawmode s1) by (rewrite C1; reflexivity).
         rewrite M1, M2, R1, R2. destruct (sm_armed s1); [|exact F]. destruct (sm_yawmode s1); [exact F|].
         destruct F as [F1 F2]. split; [destruct (sm_mode s1); exact F1|destruct (sm_mode s1); try exact I; exact F2]. }
  all: try (split; [reflexivity|exact F]).
  all: try (split; [reflexivity|]; destruct F as [F1 F2];
    cbn [set_ref_motors set_ref_acro set_ref_traj set_ref_vel set_ref_pos set_ref_yaw_angle set_ref_yawrate set_ref_yaw arm with_refs sm_mode sm_yawmode sm_refs];
    split; destruct (sm_mode s1); destruct (sm_yawmode s1); cbn in *; try exact I; try (repeat split; tauto); congruence).
  - split; [reflexivity|]. destruct F as [F1 F2]. unfold arm. cbn [with_refs sm_mode sm_yawmode sm_refs sm_floor_h rf_motors rf_thrust rf_ang rf_pos rf_vel rf_acc rf_yaw rf_yawrate].
    split; destruct (sm_mode s1); destruct (sm_yawmode s1); cbn in *; try exact I; try assumption;
    try (split; reflexivity); try (destruct F1 as (-> & -> & ->); split; [reflexivity|split; reflexivity]); rewrite F1; reflexivity.
  - unfold set_control_mode. change (sm_mode (with_refs s1 r)) with (sm_mode s1). change (sm_yawmode (with_refs s1 r)) with (sm_yawmode s1).
    destruct (mode_eqb _ _ && yaw_eqb _ _); [split; [reflexivity|exact F]|]. split; [reflexivity|]. destruct Ns as [N1 N2].
    cbn [with_refs sm_mode sm_yawmode sm_refs sim_state sm_dyn]. destruct m; try contradiction (N1 eq_refl); destruct y; try contradiction (N2 eq_refl); unfold follows_same; cbn [rf_motors rf_thrust rf_ang rf_pos rf_vel rf_acc rf_yaw rf_yawrate]; auto 10.
  - unfold set_dynamics_params. destruct (dyn_new n p seed st); cbn [option_map of_opt orel]; [|exact I]. split; [reflexivity|exact F].
Qed.

Lemma runs_follow n ops : Forall no_stale_mode ops -> forall s1 s2 : Sim T G H, fol s1 s2 -> both fol (sim_run n s1 ops) (sim_run n s2 ops).
Proof.
  induction 1 as [|op ops N Ns IH]; intros s1 s2 F; [exact F|]. cbn [sim_run]. pose proof (step_fol n op s1 s2 N F) as K.
  destruct (sim_step n s1 op), (sim_step n s2 op); cbn [orel] in K; try contradiction; [exact (IH _ _ K)|exact (IH _ _ K)|exact I].
Qed.
Lemma runs_alike n (s : Sim T G H) a b ops : follows_same (sm_mode s) (sm_yawmode s) a b -> Forall no_stale_mode ops ->
  both alike (sim_run n (with_refs s a) ops) (sim_run n (with_refs s b) ops).
Proof.
  intros F N. pose proof (runs_follow n ops N (with_refs s a) (with_refs s b) (conj eq_refl F)) as K.
  destruct (sim_run n (with_refs s a) ops) as [x|], (sim_run n (with_refs s b) ops) as [y|]; cbn [both] in *; try contradiction; [|exact I].
  destruct K as [-> _]. unfold alike. cbn [with_refs sm_dyn sm_ctl sm_imu sm_odom sm_armed sm_floor_en sm_floor_col sm_floor_h sm_act sm_ext sm_mode sm_yawmode]. auto 14.
Qed.

(** Back in motor mode, the command of an earlier time in that mode is taken up again. *)
Lemma stale_motors n (s : Sim T G H) m y dt : sm_armed s = true -> sm_mode s = MOTOR_W -> sm_yawmode s = y -> m <> MOTOR_W ->
  exists s' : Sim T G H, sim_run n s [SMode m y; SMode MOTOR_W y; SController dt] = Some s' /\ sm_act s' = rf_motors (sm_refs s).
Proof.
  intros A M Y N. cbn [sim_run sim_step]. eexists. split; [reflexivity|].
  assert (E : forall a b, mode_eqb a b = true -> a = b) by (intros a b; destruct a, b; cbn; congruence).
  assert (Q : forall s : Sim T G H, sm_armed (set_control_mode s m y) = sm_armed s /\ rf_motors (sm_refs (set_control_mode s m y)) = rf_motors (sm_refs s)).
  { intros t. unfold set_control_mode. destruct (_ && _); split; reflexivity. }
  assert (Q' : forall s : Sim T G H, sm_mode (set_control_mode s MOTOR_W y) = MOTOR_W /\ sm_armed (set_control_mode s MOTOR_W y) = sm_armed s /\ rf_motors (sm_refs (set_control_mode s MOTOR_W y)) = rf_motors (sm_refs s)).
  { intros t. unfold set_control_mode. destruct (mode_eqb (sm_mode t) MOTOR_W) eqn:K; cbn [andb].
    - apply E in K. destruct (yaw_eqb _ _); (split; [first [exact K|reflexivity]|]); split; reflexivity.
    - split; [reflexivity|]. split; reflexivity. }
  destruct (Q s) as [Q1 Q2]. destruct (Q' (set_control_mode s m y)) as (R1 & R2 & R3).
  rewrite motor_mode; [congruence|congruence|exact R1].
Qed.
End Runs.
