(** Proofs: closed-loop flights do not depend on the place. *)

From Coq Require Import ZArith List Bool Lia Reals Lra.
From Verif Require Import Scalar LinAlg MUtils MModel MDynamics MPid MControl MCtlRun MImu MSim SpecDyn SpecRun SpecCtl SpecSim SpecShift
  PBase PDyn PModel PDynR PNoise PCtl PSim.
Import ListNotations.
Local Open Scope R_scope.

Lemma error_shift p q d : get_error (plus3 p d) (plus3 q d) = get_error p q.
Proof. unfold get_error, plus3, vsub, vmap2. cbn [vx vy vz]. unR. f_equal; ring. Qed.

Lemma moved_pos st d : s_pos (moved st d) = plus3 (s_pos st) d. Proof. reflexivity. Qed.

Section Place.
Context {G H : Gen R}.
Notation sim := (Sim R G H).
Variable (n : nat) (d : V3 R).

Definition here_there (a b : sim) : Prop := exists q, b = displaced d q a.

Lemma process_shift (x : Dyn R G) act dt ext noise :
  orel (fun a b => b = mkDyn (d_model a) (moved (d_state a) d))
    (process x act dt ext noise) (process (mkDyn (d_model x) (moved (d_state x) d)) act dt ext noise).
Proof.
  pose proof (process_rel (shifted d) act dt ext noise (fun a b h S => euler_core_shift d a b act h ext noise S)
    x (mkDyn (d_model x) (moved (d_state x) d)) (conj eq_refl eq_refl)) as K.
  destruct (process x _ _ _ _) as [a|a|], (process (mkDyn _ _) _ _ _ _) as [[bm bs]|[bm bs]|]; try exact K;
    destruct K as [K1 K2]; cbn [d_model d_state] in *; cbn [orel]; rewrite K1, K2; reflexivity.
Qed.

Lemma below_shift q (s : sim) : below_floor (displaced d q s) = below_floor s.
Proof.
  unfold below_floor. cbn [displaced sm_floor_en sm_floor_h]. f_equal. unfold sim_state. cbn [displaced sm_dyn d_state moved s_pos vz].
  unR.
  destruct (Rltb (vz (s_pos (d_state (sm_dyn s)))) (sm_floor_h s)) eqn:B; [apply Rltb_true in B; apply Rltb_true; lra|apply Rltb_false in B; apply Rltb_false; lra].
Qed.

Lemma after_process q (s : sim) x y :
  orel (fun a b => b = mkDyn (d_model a) (moved (d_state a) d)) x y ->
  let rest (u : sim) (o : outcome (Dyn R G)) := match o with
    | UB => UB
    | Throw e => Throw (with_dyn u e)
    | Ok e =>
      let s2 := with_col (with_ext (with_dyn u e) v0) false in
      if below_floor s2 then
        let st := floor_state (d_state e) (sm_floor_h s2) in
        let s3 := with_dyn (with_col s2 true) (dyn_set_state e st) in
        let s4 := with_imu s3 (imu_reset (sm_imu s3)) in
        Ok (with_odom s4 (odom_reset (odom_set_init (sm_odom s4) (s_ori st))))
      else Ok s2
    end in
  orel here_there (rest s x) (rest (displaced d q s) y).
Proof.
  intros K. cbv zeta. destruct x as [a|a|], y as [b|b|]; try contradiction K; [|exists q; rewrite K; reflexivity|exact I].
  cbn [orel] in K. rewrite K.
  change (with_col (with_ext (with_dyn (displaced d q s) (mkDyn (d_model a) (moved (d_state a) d))) v0) false)
    with (displaced d q (with_col (with_ext (with_dyn s a) v0) false)).
  rewrite below_shift. destruct (below_floor _); exists q; reflexivity.
Qed.

Lemma dynamics_shift q (s : sim) dt : orel here_there (update_dynamics s dt) (update_dynamics (displaced d q s) dt).
Proof.
  unfold update_dynamics. rewrite below_shift.
  destruct (below_floor s).
  - cbn [displaced sm_dyn d_model]. destruct (mo_cfg (d_model (sm_dyn s))) as [c|]; [|exact I]. cbn [option_map].
    pose proof (process_shift (sm_dyn s) (sm_act s) dt (vscaler (vneg (p_grav (cf_params c))) (p_mass (cf_params c))) (negb (sm_floor_col s))) as K.
    exact (after_process q (with_ext s (vscaler (vneg (p_grav (cf_params c))) (p_mass (cf_params c)))) _ _ K).
  - pose proof (process_shift (sm_dyn s) (sm_act s) dt (sm_ext s) (negb (sm_floor_col s))) as K.
    exact (after_process q s _ _ K).
Qed.

(** The flight controller only sees differences of positions. *)
Definition put (q : V3 R) (c : Ctl R) : Ctl R :=
  mkCtl (ct_acro c) (ct_indi c) (ct_pos c) (ct_traj c) (ct_vel c) q (ct_dvel c) (ct_dacc c) (ct_dthrust c) (ct_dang c) (ct_dmotor c).
Lemma put_acro q c cur th des dt : ctl_acro (put q c) cur th des dt = put q (ctl_acro c cur th des dt).
Proof. reflexivity. Qed.
Lemma put_acc q c R0 w acc yaw dt : ctl_acc (put q c) R0 w acc yaw dt = put q (ctl_acc c R0 w acc yaw dt).
Proof. unfold ctl_acc. cbn [put ct_acro]. destruct (acc_to_acro (ct_acro c) acc R0 yaw) as [a' [th w']]. reflexivity. Qed.
Lemma put_vel q c cv R0 w dv yaw dt : ctl_vel (put q c) cv R0 w dv yaw dt = put q (ctl_vel c cv R0 w dv yaw dt).
Proof. unfold ctl_vel. cbn [put ct_vel]. rewrite <- put_acc. reflexivity. Qed.
Lemma put_pos q c cp R0 cv w dp yaw dt :
  ctl_pos (put q c) (plus3 cp d) R0 cv w (plus3 dp d) yaw dt = put (plus3 dp d) (ctl_pos c cp R0 cv w dp yaw dt).
Proof. unfold ctl_pos, pid_on_error. cbn [put ct_pos]. rewrite error_shift, <- put_vel. reflexivity. Qed.
Lemma put_traj q c cp cv R0 w dp dv da yaw dt :
  ctl_traj (put q c) (plus3 cp d) cv R0 w (plus3 dp d) dv da yaw dt = put (plus3 dp d) (ctl_traj c cp cv R0 w dp dv da yaw dt).
Proof.
  unfold ctl_traj, traj_control. cbv zeta beta iota. cbn [put ct_traj]. rewrite error_shift, <- put_acc. reflexivity.
Qed.

Lemma controller_shift q (s : sim) dt : here_there (update_controller n s dt) (update_controller n (displaced d q s) dt).
Proof.
  unfold update_controller. change (sm_armed (displaced d q s)) with (sm_armed s). destruct (sm_armed s); cbn [negb]; [|exists q; reflexivity].
  change (sm_yawmode (displaced d q s)) with (sm_yawmode s).
  assert (Y : update_yaw_reference (displaced d q s) = displaced d q (update_yaw_reference s)) by reflexivity.
  assert (M : forall t : sim, here_there
    (let st := sim_state t in let r := sm_refs t in let R0 := qmat (s_ori st) in
     match sm_mode t with
     | MOTOR_W => with_act t (rf_motors r)
     | ACRO => with_control t (ctl_acro (sm_ctl t) (s_angvel st) (rf_thrust r) (rf_ang r) dt)
     | TRAJECTORY => with_control t (ctl_traj (sm_ctl t) (s_pos st) (s_vel st) R0 (s_angvel st) (rf_pos r) (rf_vel r) (rf_acc r) (rf_yaw r) dt)
     | VELOCITY => with_control t (ctl_vel (sm_ctl t) (s_vel st) R0 (s_angvel st) (rf_vel r) (rf_yaw r) dt)
     | POSITION | HOVER => with_control t (ctl_pos (sm_ctl t) (s_pos st) R0 (s_vel st) (s_angvel st) (rf_pos r) (rf_yaw r) dt)
     end)
    (let u := displaced d q t in let st := sim_state u in let r := sm_refs u in let R0 := qmat (s_ori st) in
     match sm_mode u with
     | MOTOR_W => with_act u (rf_motors r)
     | ACRO => with_control u (ctl_acro (sm_ctl u) (s_angvel st) (rf_thrust r) (rf_ang r) dt)
     | TRAJECTORY => with_control u (ctl_traj (sm_ctl u) (s_pos st) (s_vel st) R0 (s_angvel st) (rf_pos r) (rf_vel r) (rf_acc r) (rf_yaw r) dt)
     | VELOCITY => with_control u (ctl_vel (sm_ctl u) (s_vel st) R0 (s_angvel st) (rf_vel r) (rf_yaw r) dt)
     | POSITION | HOVER => with_control u (ctl_pos (sm_ctl u) (s_pos st) R0 (s_vel st) (s_angvel st) (rf_pos r) (rf_yaw r) dt)
     end)).
  { intros t. cbv zeta. change (sm_mode (displaced d q t)) with (sm_mode t).
    change (sm_ctl (displaced d q t)) with (put q (sm_ctl t)). change (sim_state (displaced d q t)) with (moved (sim_state t) d).
    rewrite moved_pos. cbn [moved s_ori s_vel s_angvel]. cbn [displaced sm_refs rf_pos rf_vel rf_acc rf_yaw rf_thrust rf_ang rf_motors].
    destruct (sm_mode t).
    all: rewrite ?put_acro, ?put_vel, ?put_pos, ?put_traj; eexists; reflexivity. }
  destruct (sm_yawmode s); [apply M|rewrite Y; apply M] || (destruct (sm_yawmode s); [rewrite Y; apply M|apply M]).
Qed.

Lemma step_shift q (s : sim) op : orel here_there (sim_step n s op) (sim_step n (displaced d q s) (displaced_call d op)).
Proof.
  destruct op; cbn [displaced_call sim_step].
  - apply dynamics_shift.
  - apply controller_shift.
  - exists q. reflexivity.
  - exists q. reflexivity.
  - exists q. reflexivity.
  - exists q. reflexivity.
  - exists q. reflexivity.
  - exists q. reflexivity.
  - unfold set_control_mode. change (sm_mode (displaced d q s)) with (sm_mode s). change (sm_yawmode (displaced d q s)) with (sm_yawmode s).
    destruct (mode_eqb _ _ && yaw_eqb _ _); exists q; reflexivity.
  - exists q. reflexivity.
  - exists q. reflexivity.
  - exists q. reflexivity.
  - exists q. reflexivity.
  - exists q. reflexivity.
  - exists q. reflexivity.
  - exists q. reflexivity.
  - unfold set_dynamics_params, dyn_new. destruct (model_new n p seed) as [mo|]; [|exact I]. exists q. reflexivity.
  - exists v0. reflexivity.
  - exists q. reflexivity.
  - exists q. reflexivity.
  - exists q. reflexivity.
  - exists (ct_dpos c). destruct c; reflexivity.
  - exists q. reflexivity.
  - exists q. reflexivity.
Qed.

Lemma run_shift ops : forall q (s : sim), both here_there (sim_run n s ops) (sim_run n (displaced d q s) (map (displaced_call d) ops)).
Proof.
  induction ops as [|op r IH]; intros q s; [exists q; reflexivity|]. cbn [sim_run map].
  pose proof (step_shift q s op) as K. destruct (sim_step n s op) as [a|a|], (sim_step n (displaced d q s) _) as [b|b|]; try contradiction K.
  - destruct K as [q' ->]. apply IH.
  - destruct K as [q' ->]. apply IH.
  - exact I.
Qed.
End Place.

(** ** From the start *)
Section Start.
Context {G H : Gen R}.

Lemma start_shift n d sp h p (ops : list (SimOp R G H)) :
  both (here_there d) (sim_after n sp (SEnableFloor h :: SRefPos p :: ops))
    (sim_after n (displaced_start d sp) (map (displaced_call d) (SEnableFloor h :: SRefPos p :: ops))).
Proof.
  unfold sim_after, sim_new, dyn_new. cbn [displaced_start sp_model sp_seed sp_state sp_ctl sp_imu sp_odom].
  destruct (model_new n (sp_model sp) (sp_seed sp)) as [mo|]; [|exact I]. cbn [option_map].
  cbn [map displaced_call sim_run sim_step]. exact (run_shift n d ops v0 _).
Qed.

Lemma level_shift n d sp p (ops : list (SimOp R G H)) : vz d = 0 ->
  both (here_there d) (sim_after n sp (SRefPos p :: ops))
    (sim_after n (displaced_start d sp) (map (displaced_call d) (SRefPos p :: ops))).
Proof.
  intros Z. unfold sim_after, sim_new, dyn_new. cbn [displaced_start sp_model sp_seed sp_state sp_ctl sp_imu sp_odom].
  destruct (model_new n (sp_model sp) (sp_seed sp)) as [mo|]; [|exact I]. cbn [option_map].
  cbn [map displaced_call sim_run sim_step].
  match goal with |- both _ (sim_run _ ?a _) (sim_run _ ?b _) => assert (E : b = displaced d v0 a) end.
  { unfold set_ref_pos, with_refs, displaced. cbn. rewrite Z. f_equal. unR. ring. }
  rewrite E. exact (run_shift n d ops v0 _).
Qed.
End Start.
