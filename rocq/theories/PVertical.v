(** Vertical requests give vertical flights. *)

From Coq Require Import ZArith List Bool Lia Reals Lra Psatz.
From Verif Require Import Scalar LinAlg MUtils MModel MDynamics MPid MControl MCtlRun MImu MSim
  SpecDyn SpecRun SpecMix SpecPid SpecCtl SpecImu SpecSim SpecVertical
  PBase PDyn PModel PDynR PPhys PNoise PDynMore PVeh PMix PPid PPidR PCtl PCtlR PCtlMix PImu PSim PSimR PHover PSimEnd.
Import ListNotations.
Local Open Scope R_scope.

(** ** PID *)
(** Diagonal gains, zero let through sideways, nothing accumulated sideways. *)
Definition diagonal (m : M3 R) : Prop := m01 m = 0 /\ m02 m = 0 /\ m10 m = 0 /\ m12 m = 0.
Record vcfg (c : PidCfg R) : Prop := {
  vc_kp : diagonal (pc_kp c); vc_ki : diagonal (pc_ki c); vc_kd : diagonal (pc_kd c);
  vc_awx : 0 <= vx (pc_aw c); vc_awy : 0 <= vy (pc_aw c);
  vc_sx : pc_sflag c = true -> vx (pc_lo c) <= 0 <= vx (pc_up c);
  vc_sy : pc_sflag c = true -> vy (pc_lo c) <= 0 <= vy (pc_up c) }.
Definition vst (s : PidSt R) : Prop :=
  ps_first s = true \/ upright (ps_acc s) /\ upright (ps_filt s) /\ upright (ps_perr s).
Definition vpid (p : Pid R) : Prop := vcfg (pid_c p) /\ vst (pid_s p).

Lemma up_add a b : upright a -> upright b -> upright (vadd a b).
Proof. intros [A1 A2] [B1 B2]. split; cbn; rewrite ?A1, ?A2, ?B1, ?B2; ring. Qed.
Lemma up_sub a b : upright a -> upright b -> upright (vsub a b).
Proof. intros [A1 A2] [B1 B2]. split; cbn; rewrite ?A1, ?A2, ?B1, ?B2; ring. Qed.
Lemma up_mulv m v : diagonal m -> upright v -> upright (mmulv m v).
Proof.
  intros (A1 & A2 & A3 & A4) [B1 B2]. destruct m as [a b c d e f g h i], v as [x y z]. cbn in *. subst. split; cbn; ring.
Qed.
Lemma up_saturate v up lo f : upright v -> vx lo <= 0 <= vx up -> vy lo <= 0 <= vy up -> upright (saturate v up lo f).
Proof.
  intros [A B] X Y. destruct v as [x y z]. cbn [vx vy] in A, B. subst x y. destruct f; unfold saturate; cbn [negb].
  - assert (E1 : psat1 vx up lo (mkV 0 0 z) = mkV 0 0 z).
    { unfold psat1. cbn [vx vy vz]. unR. unfold Rltb. destruct (Rlt_dec (vx up) 0); [lra|]. destruct (Rlt_dec 0 (vx lo)); [lra|].
      unV. f_equal; ring. }
    assert (E2 : psat1 vy up lo (mkV 0 0 z) = mkV 0 0 z).
    { unfold psat1. cbn [vx vy vz]. unR. unfold Rltb. destruct (Rlt_dec (vy up) 0); [lra|]. destruct (Rlt_dec 0 (vy lo)); [lra|].
      unV. f_equal; ring. }
    rewrite E1, E2. unfold psat1. split; unfold vscale; cbn; ring.
  - split; cbn [vx vy]; apply sat1_zero; assumption.
Qed.
Lemma up_acc c a dt e : 0 <= vx (pc_aw c) -> 0 <= vy (pc_aw c) -> upright a -> upright e -> upright (pid_acc c a dt e).
Proof.
  intros X Y [A1 A2] [B1 B2]. unfold pid_acc. cbv zeta. rewrite A1, A2, !rst1_zero.
  set (z := rst1 _ (vz a) _ _).
  assert (U : upright (vadd (mkV 0 0 z) (vscaler e dt))) by (split; cbn; rewrite ?B1, ?B2; ring).
  destruct (negb _); [|exact U]. apply up_saturate; [exact U| |]; unfold vscale; cbn; lra.
Qed.
Lemma up_filt c s dt e : upright e -> upright (ps_perr s) -> upright (ps_filt s) -> upright (pid_filt c s dt e).
Proof.
  intros [A1 A2] [B1 B2] [C1 C2]. unfold pid_filt. cbv zeta. split; cbn; rewrite ?A1, ?A2, ?B1, ?B2, ?C1, ?C2; unfold Rdiv; ring.
Qed.
Lemma up_out c p i d : vcfg c -> upright p -> upright i -> upright d -> upright (pid_out c p i d).
Proof.
  intros V A B C. unfold pid_out. cbv zeta. assert (U : upright (vadd (vadd p i) d)) by (apply up_add; [apply up_add|]; assumption).
  destruct (pc_sflag c) eqn:E; [|exact U]. apply up_saturate; [exact U|apply (vc_sx c V E)|apply (vc_sy c V E)].
Qed.
Lemma up_init s e : vst s -> upright e ->
  let t := ps_init s e in upright (ps_acc t) /\ upright (ps_filt t) /\ upright (ps_perr t).
Proof.
  cbv zeta. unfold ps_init. intros [->|C] U.
  - cbn [ps_acc ps_filt ps_perr]. split; [split; reflexivity|]. split; [split; reflexivity|exact U].
  - destruct (ps_first s); [|exact C]. cbn [ps_acc ps_filt ps_perr]. split; [split; reflexivity|]. split; [split; reflexivity|exact U].
Qed.
Lemma up_compute p dt e : vpid p -> upright e -> vpid (pid_compute p dt e) /\ upright (ps_out (pid_s (pid_compute p dt e))).
Proof.
  intros [V S] U. destruct (up_init _ _ S U) as (A & B & C). unfold pid_compute. cbv zeta. unfold vpid. cbn [pid_c pid_s ps_out].
  pose proof (up_acc (pid_c p) _ dt e (vc_awx _ V) (vc_awy _ V) A U) as D.
  pose proof (up_filt (pid_c p) _ dt e U C B) as F.
  split; [split; [exact V|]|].
  - right. cbn [ps_acc ps_filt ps_perr]. auto.
  - apply up_out; [exact V|..]; apply up_mulv; try assumption; apply V.
Qed.
Lemma up_compute_d p dt e de : vpid p -> upright e -> upright de ->
  vpid (pid_compute_d p dt e de) /\ upright (ps_out (pid_s (pid_compute_d p dt e de))).
Proof.
  intros [V S] U W. destruct (up_init _ _ S U) as (A & B & C). unfold pid_compute_d. cbv zeta. unfold vpid. cbn [pid_c pid_s ps_out].
  pose proof (up_acc (pid_c p) _ dt e (vc_awx _ V) (vc_awy _ V) A U) as D.
  split; [split; [exact V|]|].
  - right. cbn [ps_acc ps_filt ps_perr]. auto.
  - apply up_out; [exact V|..]; apply up_mulv; try assumption; apply V.
Qed.

Lemma new_vpid pp : passes_zero pp AX -> passes_zero pp AY -> vpid (pid_new pp).
Proof.
  intros [A1 A2] [B1 B2]. cbn [pr] in *. split; [|left; reflexivity].
  unfold pid_new, pid_reset, pid_update, pc_update. cbn [pid_c].
  destruct (_ || _); [unfold pc_set_sat; cbv zeta; destruct (sat_bad _ _); [|destruct (sat_bad _ _); [|destruct (sat_bad _ _)]]|];
  (split; cbn; [repeat split|repeat split|repeat split|exact A1|exact B1| |]); try discriminate; intros _; assumption.
Qed.
Lemma new_rests pp : (forall a, passes_zero pp a) -> rests (pid_new pp) /\ calm (pid_new pp).
Proof.
  intros P. split; [|left; reflexivity]. split.
  - unfold pid_sat_on, pid_limits, around_zero, pid_new, pid_reset, pid_update, pc_update. cbn [pid_c].
    destruct (_ || _); [unfold pc_set_sat; cbv zeta; destruct (sat_bad _ _); [|destruct (sat_bad _ _); [|destruct (sat_bad _ _)]]|];
    cbn [pc_sflag pc_disable_sat pc_write_limits fst snd pc_up pc_lo]; try discriminate. intros _ a. apply P.
  - intros a. destruct (P a) as [Q _]. unfold pid_aw, pid_new, pid_reset, pid_update, pc_update. cbn [pid_c].
    destruct (_ || _); [unfold pc_set_sat; cbv zeta; destruct (sat_bad _ _); [|destruct (sat_bad _ _); [|destruct (sat_bad _ _)]]|]; exact Q.
Qed.

(** ** Controller *)
Record vctl (inv : list (V3 R * V3 R)) (c : Ctl R) : Prop := {
  vt_minv : in_minv (ct_indi c) = inv;
  vt_grav : upright (ac_grav (ct_acro c));
  vt_pos : vpid (ct_pos c); vt_traj : vpid (ct_traj c); vt_vel : vpid (ct_vel c);
  vt_rest : rests (in_pid (ct_indi c)); vt_calm : calm (in_pid (ct_indi c)) }.
(** The inverse mixer spreads a pure thrust evenly. *)
Definition spreads (inv : list (V3 R * V3 R)) : Prop :=
  forall th, even4 (map (fun r => sqrtks (row6 r (mkV zero zero th) (mkV 0 0 0))) inv).

Lemma spread_quad (m1 m2 m3 m4 : Motor R) kf inv : kf <> 0 ->
  m4det (mixer_rows4 (mixer6_col m1) (mixer6_col m2) (mixer6_col m3) (mixer6_col m4)) <> 0 ->
  (forall w a, rotor_force [m1; m2; m3; m4] [w; w; w; w] a = match a with AZ => 4 * kf * sq_signed w | _ => 0 end) ->
  (forall w al a, rotor_torque [m1; m2; m3; m4] [w; w; w; w] [al; al; al; al] a = 0) ->
  quad_inverse [m1; m2; m3; m4] = Some inv -> spreads inv.
Proof.
  intros Hk Hd Hf Ht Hi th. unfold quad_inverse in Hi. rewrite mixer_cols4 in Hi. injection Hi as <-.
  rewrite squares_quad. set (m := mixer_rows4 _ _ _ _) in *.
  set (q := th / (4 * kf)). set (s := sqrtks q).
  assert (Es : sq_signed s = q) by apply sq_root.
  pose proof (m4_left m (mkV4 q q q q) Hd) as E.
  assert (M : m4app m (mkV4 q q q q) = mkV4 th 0 0 0).
  { unfold m4app, m, mixer_rows4, v4dot. cbn [r4a r4b r4c r4d v4a v4b v4c v4d].
    change (vz (fst (mixer6_col ?k))) with (pr AZ (fst (mixer6_col k))).
    change (vx (snd (mixer6_col ?k))) with (pr AX (snd (mixer6_col k))).
    change (vy (snd (mixer6_col ?k))) with (pr AY (snd (mixer6_col k))).
    change (vz (snd (mixer6_col ?k))) with (pr AZ (snd (mixer6_col k))).
    rewrite !mixer6_force, !mixer6_torque. unR.
    pose proof (Hf s AZ) as F. pose proof (Ht s 0 AX) as T1. pose proof (Ht s 0 AY) as T2. pose proof (Ht s 0 AZ) as T3.
    unfold rotor_force in F. unfold rotor_torque in T1, T2, T3. cbn [rotor_sum] in F, T1, T2, T3. rewrite Es in *.
    assert (Q : 4 * kf * q = th) by (unfold q; field; exact Hk).
    f_equal; [rewrite <- Q, <- F|rewrite <- T1|rewrite <- T2|rewrite <- T3]; ring. }
  cbn [vx vy vz]. rewrite M in E. rewrite E. cbn [v4a v4b v4c v4d]. exists (sqrtks q). reflexivity.
Qed.

Lemma indi_even inv (i : Indi R) th dt : spreads inv -> in_minv i = inv -> rests (in_pid i) -> calm (in_pid i) ->
  let i' := acro_to_motor i (mkV 0 0 0) th (mkV 0 0 0) dt in
  in_minv i' = inv /\ rests (in_pid i') /\ calm (in_pid i') /\ even4 (in_motor i').
Proof.
  intros Sp M Rs Cm. cbv zeta. unfold acro_to_motor. cbv zeta. cbn [in_minv in_pid in_motor]. unfold get_error. rewrite vsub_self.
  change (pid_compute (in_pid i) dt (mkV 0 0 0)) with (pid_step (in_pid i) (OpCompute dt (mkV 0 0 0))).
  change (ps_out (pid_s ?p)) with (pid_output p).
  destruct (pid_calm _ dt Rs Cm) as [E1 E2]. rewrite E1, !mmulv_0. split; [exact M|]. split; [exact Rs|]. split; [exact E2|].
  replace (vadd (mkV 0 0 0) (vcross (mkV 0 0 0) (mkV 0 0 0))) with (mkV 0 0 0) by (unV; f_equal; ring).
  rewrite M. apply Sp.
Qed.

Lemma zero_attitude yaw (A : M3 R) : rotation_error (desired_attitude yaw (mkV 0 0 0)) A = mkV 0 0 0.
Proof.
  assert (N : vnormalized (mkV 0 0 0) = mkV 0 0 0) by (apply norm_zero; unfold dot3; cbn; ring).
  unfold desired_attitude. cbv zeta. rewrite N.
  assert (C1 : forall u : V3 R, vcross (mkV 0 0 0) u = mkV 0 0 0) by (intros u; unV; f_equal; ring).
  rewrite !C1, !N, C1, N. destruct A as [a b c d e f g h i]. unfold rotation_error, vscale, half, lit. cbv zeta. unfold vmap. cbn. unR.
  f_equal; unfold Rdiv; ring.
Qed.

Lemma level_rates (c : Ctl R) acc yaw dt : upright (ac_grav (ct_acro c)) -> upright acc ->
  ct_dang (ctl_acc c (rot_z yaw) (mkV 0 0 0) acc yaw dt) = mkV 0 0 0.
Proof.
  intros [G1 G2] [A1 A2].
  set (op := CAcc (rot_z yaw) (mkV 0 0 0) acc yaw dt).
  destruct (ctl_acc_shape c (rot_z yaw) (mkV 0 0 0) acc yaw dt) as (Fa & _ & D & _). cbv zeta in D.
  set (t := ac_mass (ct_acro c) * (vz acc - vz (ac_grav (ct_acro c)))).
  assert (Hf : force_of c op = mkV 0 0 t).
  { unfold force_of, get_desired_linear_acceleration. change (ctl_step c op) with (ctl_acc c (rot_z yaw) (mkV 0 0 0) acc yaw dt).
    rewrite Fa. unfold needed_force. rewrite A1, A2, G1, G2. f_equal; unfold t; ring. }
  assert (Tw : acc_to_thrust (ct_acro c) acc = mkV 0 0 t).
  { unfold acc_to_thrust, vscaler, vsub, vmap2, vmap. cbn [vx vy vz]. rewrite A1, A2, G1, G2. unR. f_equal; unfold t; ring. }
  destruct (Rlt_dec 0 t) as [P|P].
  - destruct (up_frame yaw (force_of c op)) as [L F]; try (rewrite Hf; cbn; lra).
    change (get_desired_angular_velocity (ctl_step c op) = mkV 0 0 0). apply aligned_rates; [reflexivity|exact L|exact F].
  - rewrite D. unfold acc_to_acro. cbv zeta. cbn [snd]. rewrite Tw, along_R.
    assert (S : along_z (rot_z yaw) (mkV 0 0 t) = t).
    { unfold along_z, len3, dot3, rot_z, col, ent. cbn [vx vy vz m02 m12 m22].
      replace (0 * 0 + 0 * 0 + 1 * 1) with 1 by ring. rewrite sqrt_1. field. }
    rewrite S. destruct (Req_dec t 0) as [Z|Z].
    + rewrite Z. unR. rewrite (proj2 (Rltb_false 0 0)) by lra. cbn [snd yaw_to_angvel ac_angvel]. rewrite zero_attitude. apply mmulv_0.
    + unR. rewrite (proj2 (Rltb_true t 0)) by lra. reflexivity.
Qed.

Section Ctl.
Variable inv : list (V3 R * V3 R).
Hypothesis Sp : spreads inv.

Lemma vctl_acc c acc yaw dt : vctl inv c -> upright acc ->
  let c' := ctl_acc c (rot_z yaw) (mkV 0 0 0) acc yaw dt in vctl inv c' /\ even4 (ct_dmotor c').
Proof.
  intros V U. cbv zeta. pose proof (level_rates c acc yaw dt (vt_grav inv c V) U) as W.
  destruct (ctl_acc_shape c (rot_z yaw) (mkV 0 0 0) acc yaw dt) as (_ & B & C & D & E & F). cbv zeta in *.
  rewrite C in W. rewrite W in E.
  destruct (indi_even inv (ct_indi c) (fst (snd (acc_to_acro (ct_acro c) acc (rot_z yaw) yaw))) dt Sp (vt_minv inv c V) (vt_rest inv c V) (vt_calm inv c V)) as (I1 & I2 & I3 & I4).
  cbv zeta in *. rewrite <- E in I1, I2, I3, I4.
  destruct (acc_records c (rot_z yaw) (mkV 0 0 0) acc yaw dt) as (_ & _ & _ & P1 & P2 & P3). cbn [get_pid ctl_step] in P1, P2, P3.
  split; [|rewrite F; exact I4].
  split; try assumption.
  - rewrite D. exact (vt_grav inv c V).
  - rewrite P1. apply V.
  - rewrite P2. apply V.
  - rewrite P3. apply V.
Qed.
Lemma vctl_acro c th dt : vctl inv c -> let c' := ctl_acro c (mkV 0 0 0) th (mkV 0 0 0) dt in vctl inv c' /\ even4 (ct_dmotor c').
Proof.
  intros V. cbv zeta. destruct (indi_even inv (ct_indi c) th dt Sp (vt_minv inv c V) (vt_rest inv c V) (vt_calm inv c V)) as (I1 & I2 & I3 & I4).
  cbv zeta in *. unfold ctl_acro. cbv zeta. split; [|exact I4]. destruct V. split; assumption.
Qed.
Lemma vctl_vel c cv dv yaw dt : vctl inv c -> upright cv -> upright dv ->
  let c' := ctl_vel c cv (rot_z yaw) (mkV 0 0 0) dv yaw dt in vctl inv c' /\ even4 (ct_dmotor c').
Proof.
  intros V U W. cbv zeta. unfold ctl_vel. cbv zeta. unfold pid_on_error, get_error.
  destruct (up_compute (ct_vel c) dt (vsub dv cv) (vt_vel inv c V) (up_sub _ _ W U)) as [A B].
  apply vctl_acc; [|exact B]. destruct V. split; assumption.
Qed.
Lemma vctl_pos c cp cv dp yaw dt : vctl inv c -> upright cv -> above dp cp ->
  let c' := ctl_pos c cp (rot_z yaw) cv (mkV 0 0 0) dp yaw dt in vctl inv c' /\ even4 (ct_dmotor c').
Proof.
  intros V U W. cbv zeta. unfold ctl_pos. cbv zeta. unfold pid_on_error, get_error.
  assert (X : upright (vsub dp cp)) by (destruct W as [W1 W2]; split; cbn; rewrite ?W1, ?W2; ring).
  destruct (up_compute (ct_pos c) dt (vsub dp cp) (vt_pos inv c V) X) as [A B].
  apply vctl_vel; [|exact U|exact B]. destruct V. split; assumption.
Qed.
Lemma vctl_traj c cp cv dp dv da yaw dt : vctl inv c -> upright cv -> above dp cp -> upright dv -> upright da ->
  let c' := ctl_traj c cp cv (rot_z yaw) (mkV 0 0 0) dp dv da yaw dt in vctl inv c' /\ even4 (ct_dmotor c').
Proof.
  intros V U W D1 D2. cbv zeta. unfold ctl_traj, traj_control. cbv zeta. unfold get_error.
  assert (X : upright (vsub dp cp)) by (destruct W as [W1 W2]; split; cbn; rewrite ?W1, ?W2; ring).
  destruct (up_compute_d (ct_traj c) dt (vsub dp cp) (vsub dv cv) (vt_traj inv c V) X (up_sub _ _ D1 U)) as [A B].
  apply vctl_acc; [|apply up_add; assumption]. destruct V. split; assumption.
Qed.
End Ctl.

Lemma new_vctl n ms cp inv : fair_ctl ms cp -> quad_inverse ms = Some inv -> vctl inv (ctl_new n cp).
Proof.
  intros (A & B & C & D) E. assert (ip_minv (cp_indi cp) = inv) by congruence.
  destruct (D (cp_pos cp)) as [P1 P2]; [cbn; auto|]. destruct (D (cp_traj cp)) as [P3 P4]; [cbn; auto|]. destruct (D (cp_vel cp)) as [P5 P6]; [cbn; auto|].
  destruct (new_rests _ C) as [R1 R2].
  split; cbn [ctl_new ct_indi ct_acro ct_pos ct_traj ct_vel indi_new in_minv in_pid acro_new ac_grav]; try assumption; apply new_vpid; assumption.
Qed.

(** ** Vehicle *)
Record even_quad (ms : list (Motor R)) (mn mx tau kf : R) : Prop := {
  eq_len : length ms = 4%nat;
  eq_lim : forall m, In m ms -> mt_min m = mn /\ mt_max m = mx /\ mt_tau m = tau;
  eq_force : forall w a, rotor_force ms [w; w; w; w] a = match a with AZ => 4 * kf * sq_signed w | _ => 0 end;
  eq_torque : forall w al a, rotor_torque ms [w; w; w; w] [al; al; al; al] a = 0 }.

Lemma clamp_even ms mn mx tau kf w l : even_quad ms mn mx tau kf -> clamp_motors [w; w; w; w] ms = Some l -> even4 l.
Proof.
  intros [L M _ _]. destruct ms as [|m1 [|m2 [|m3 [|m4 [|m5 ms]]]]]; try discriminate L. cbn [clamp_motors].
  destruct (M m1) as (A1 & A2 & _); [cbn; tauto|]. destruct (M m2) as (B1 & B2 & _); [cbn; tauto|].
  destruct (M m3) as (C1 & C2 & _); [cbn; tauto|]. destruct (M m4) as (D1 & D2 & _); [cbn; tauto|].
  rewrite A1, A2, B1, B2, C1, C2, D1, D2. destruct (clamp w mn mx) as [y|]; [|discriminate]. cbn [bindo]. intros K. injection K as <-.
  exists y. reflexivity.
Qed.
Lemma deriv_even ms mn mx tau kf w k l : even_quad ms mn mx tau kf -> motors_derivative [k; k; k; k] [w; w; w; w] ms = Some l -> even4 l.
Proof.
  intros [L M _ _]. destruct ms as [|m1 [|m2 [|m3 [|m4 [|m5 ms]]]]]; try discriminate L. cbn [motors_derivative bindo].
  destruct (M m1) as (_ & _ & A); [cbn; tauto|]. destruct (M m2) as (_ & _ & B); [cbn; tauto|].
  destruct (M m3) as (_ & _ & C); [cbn; tauto|]. destruct (M m4) as (_ & _ & D); [cbn; tauto|].
  rewrite A, B, C, D. intros K. injection K as <-. eexists. reflexivity.
Qed.

Definition vstate (pos : V3 R) (yaw : R) (st : State R) : Prop :=
  above (s_pos st) pos /\ s_ori st = level yaw /\ upright (s_vel st) /\ s_angvel st = mkV 0 0 0 /\ even4 (s_mvel st).

Lemma drag_up k v : upright v -> drag_spec k v AX = 0 /\ drag_spec k v AY = 0.
Proof. intros [A B]. unfold drag_spec, sq_signed. cbn [pr]. rewrite A, B. split; ring. Qed.

Section Sim.
Context {G H : Gen R}.

Lemma vstate_core (d d' : Dyn R G) act dt ext noise p mn mx tau kf pos yaw :
  vehicle 4 d act p -> even_quad (p_motors p) mn mx tau kf -> p_fnoise p = 0 -> upright (p_grav p) -> even4 act -> upright ext ->
  vstate pos yaw (d_state d) -> euler_core d act dt ext noise = Some d' -> vstate pos yaw (d_state d').
Proof.
  intros Hv Q Hf [G1 G2] [k Ea] [X1 X2] ([P1 P2] & Or & [V1 V2] & W & [w Ew]) K.
  pose proof (silent_core _ _ _ _ _ _ p (proj1 (proj2 Hv)) Hf K) as Hs.
  pose proof (step_newton 4 d d' act dt ext noise p Hv K) as N. cbv zeta in N.
  assert (F : vec_of (rotor_force (p_motors p) (s_mvel (d_state d))) = mkV 0 0 (4 * kf * sq_signed w)).
  { rewrite Ew. unfold vec_of. rewrite !(eq_force _ _ _ _ _ Q). reflexivity. }
  destruct (drag_up (p_drag p) (s_vel (d_state d)) (conj V1 V2)) as [Dx Dy].
  destruct (N AX) as (X3 & X4 & X5 & X6). destruct (N AY) as (Y3 & Y4 & Y5 & Y6).
  rewrite F, Or, level_up, Dx, Hs in X3. rewrite F, Or, level_up, Dy, Hs in Y3.
  cbn [pr v0 vx vy] in *. rewrite G1, X1 in X3. rewrite G2, X2 in Y3. unR.
  assert (L1 : vx (s_linacc (d_state d')) = 0) by (rewrite X4, X3; unfold Rdiv; ring).
  assert (L2 : vy (s_linacc (d_state d')) = 0) by (rewrite Y4, Y3; unfold Rdiv; ring).
  split; [split; [rewrite X6, V1, P1; ring|rewrite Y6, V2, P2; ring]|].
  clear N X3 X4 X6 Y3 Y4 Y6.
  assert (U : upright (s_vel (d_state d'))) by (split; [rewrite X5, L1, V1; ring|rewrite Y5, L2, V2; ring]).
  destruct Hv as (Hr & Hp & Hla & Hlw). apply get_params_cfg in Hp as [c [Hc Hcp]].
  pose proof (model_reach_ok 4 _ Hr) as [_ Hok]. rewrite Hc in Hok.
  destruct Hok as (_ & Hlen & _ & _ & Ht & Him).
  apply euler_core_inv in K as [_ Hi].
  destruct (Hi c Hc) as (mo & des & macc & mvel & Hn & Hm & Hd & Ha & Hmv & E). cbv zeta in E.
  rewrite Hcp in *. rewrite Ea in Hd. destruct (clamp_even _ _ _ _ _ _ _ Q Hd) as [k' ->].
  rewrite Ew in Ha. destruct (deriv_even _ _ _ _ _ _ _ _ Q Ha) as [al ->].
  rewrite Ew in Hmv. cbn [map ladd lmap2] in Hmv. destruct (clamp_even _ _ _ _ _ _ _ Q Hmv) as [w' ->].
  assert (T0 : s_torque (d_state d') = mkV 0 0 0).
  { rewrite E. cbn [d_state s_torque]. apply pr_ext. intros a. unfold total_torque.
    rewrite PDynR.pr_vsub, !PDynR.pr_vadd, Ht, Him, Ew, torque_by_motors_R by (cbn [length]; rewrite (eq_len _ _ _ _ _ Q); lia).
    rewrite (eq_torque _ _ _ _ _ Q). rewrite aero_R, pr_vcross, W. rewrite E in Hs. cbn [d_model] in Hs. rewrite Hs.
    unfold aero_spec, cross3, mat_vec, v0; unV. destruct a; unR; ring. }
  split; [|split; [exact U|split]].
  - rewrite E. cbn [d_state s_ori]. rewrite W.
    assert (qadd (s_ori (d_state d)) (qmap (fun x => mul x dt) (quat_derivative (s_ori (d_state d)) (mkV 0 0 0))) = s_ori (d_state d)) as ->.
    { apply Quat_eq; unfold quat_derivative; unV; unfold half, lit; unR; field. }
    rewrite Or. apply qnormalized_id, level_unit.
  - assert (A0 : s_angacc (d_state d') = mkV 0 0 0).
    { rewrite E. cbn [d_state s_angacc]. rewrite E in T0. cbn [d_state s_torque] in T0. rewrite T0. apply mmulv_0. }
    assert (s_angvel (d_state d') = vadd (s_angvel (d_state d)) (vscaler (s_angacc (d_state d')) dt)) as -> by (rewrite E; reflexivity).
    rewrite A0, W. unV. f_equal; ring.
  - rewrite E. exists w'. reflexivity.
Qed.

Lemma vstate_process (d d' : Dyn R G) act dt ext noise p mn mx tau kf pos yaw :
  vehicle 4 d act p -> even_quad (p_motors p) mn mx tau kf -> p_fnoise p = 0 -> upright (p_grav p) -> even4 act -> upright ext ->
  vstate pos yaw (d_state d) -> process d act dt ext noise = Ok d' -> vehicle 4 d' act p /\ vstate pos yaw (d_state d').
Proof.
  intros Hv Q Hf Hg Ha He Hs K.
  pose (P := fun x : Dyn R G => vehicle 4 x act p /\ vstate pos yaw (d_state x)).
  pose proof (process_inv P d act dt ext noise) as I. rewrite K in I. apply I; [split; assumption|].
  intros x y h [A B] E. split; [eapply vehicle_core; eauto|eapply vstate_core; eauto].
Qed.

Record vsim (p : Params R) (inv : list (V3 R * V3 R)) (pos : V3 R) (yaw : R) (s : Sim R G H) : Prop := {
  vs_veh : vehicle 4 (sm_dyn s) (sm_act s) p;
  vs_st : vstate pos yaw (sim_state s);
  vs_act : even4 (sm_act s);
  vs_ctl : vctl inv (sm_ctl s);
  vs_ext : upright (sm_ext s);
  vs_rm : even4 (rf_motors (sm_refs s));
  vs_ra : rf_ang (sm_refs s) = mkV 0 0 0;
  vs_rv : upright (rf_vel (sm_refs s));
  vs_rc : upright (rf_acc (sm_refs s));
  vs_ry : rf_yawrate (sm_refs s) = 0;
  vs_rp : sm_mode s = MOTOR_W \/ above (rf_pos (sm_refs s)) pos /\ rf_yaw (sm_refs s) = yaw }.

Lemma vehicle_act n (d : Dyn R G) a b p : length a = length b -> vehicle n d a p -> vehicle n d b p.
Proof. intros E (A & B & C & D). split; [exact A|]. split; [exact B|]. split; [congruence|exact D]. Qed.
Lemma even_len l : even4 l -> length l = 4%nat. Proof. intros [w ->]. reflexivity. Qed.

Lemma vsim_control p inv pos yaw s c : vsim p inv pos yaw s -> vctl inv c -> even4 (ct_dmotor c) -> vsim p inv pos yaw (with_control s c).
Proof.
  intros [B1 B2 B3 B4 B5 B6 B7 B8 B9 B10 B11] V E. unfold with_control.
  split; cbn [with_act with_ctl sm_dyn sm_ctl sm_imu sm_odom sm_armed sm_floor_en sm_floor_col sm_floor_h sm_refs sm_act sm_ext sm_mode sm_yawmode]; try assumption.
  apply (vehicle_act 4 _ (sm_act s)); [|exact B1]. rewrite !even_len by assumption. reflexivity.
Qed.
Lemma vsim_act p inv pos yaw s l : vsim p inv pos yaw s -> even4 l -> vsim p inv pos yaw (with_act s l).
Proof.
  intros [B1 B2 B3 B4 B5 B6 B7 B8 B9 B10 B11] E.
  split; cbn [with_act sm_dyn sm_ctl sm_imu sm_odom sm_armed sm_floor_en sm_floor_col sm_floor_h sm_refs sm_act sm_ext sm_mode sm_yawmode]; try assumption.
  apply (vehicle_act 4 _ (sm_act s)); [|exact B1]. rewrite !even_len by assumption. reflexivity.
Qed.

Lemma vsim_yaw p inv pos yaw s : - PI < yaw <= PI -> vsim p inv pos yaw s -> vsim p inv pos yaw (update_yaw_reference s).
Proof.
  intros Hy [B1 B2 B3 B4 B5 B6 B7 B8 B9 B10 B11].
  assert (E : yaw_rate_to_angle (sm_ctl s) (vz (quat_to_euler (s_ori (sim_state s)))) (rf_yawrate (sm_refs s)) = yaw).
  { destruct B2 as (_ & -> & _). rewrite level_euler by exact Hy. rewrite B10. cbn [vz]. unfold yaw_rate_to_angle. cbv zeta.
    destruct (eqb _ _); unR; unfold Rdiv; ring. }
  unfold update_yaw_reference. cbv zeta. rewrite E.
  split; cbn [with_refs set_ref_yaw sm_dyn sm_ctl sm_imu sm_odom sm_armed sm_floor_en sm_floor_col sm_floor_h sm_refs sm_act sm_ext sm_mode sm_yawmode rf_motors rf_thrust rf_ang rf_pos rf_vel rf_acc rf_yaw rf_yawrate]; try assumption.
  destruct B11 as [B|[B _]]; [left; exact B|right; split; [exact B|reflexivity]].
Qed.

Lemma vsim_update p inv pos yaw s dt : - PI < yaw <= PI -> spreads inv -> vsim p inv pos yaw s -> vsim p inv pos yaw (update_controller 4 s dt).
Proof.
  intros Hy Sp I. unfold update_controller. destruct (negb (sm_armed s)).
  { apply vsim_act; [exact I|]. exists 0. reflexivity. }
  cbv zeta.
  assert (I' : vsim p inv pos yaw (match sm_yawmode s with ANGLE => s | RATE => update_yaw_reference s end)) by (destruct (sm_yawmode s); [exact I|apply vsim_yaw; assumption]).
  revert I'. generalize (match sm_yawmode s with ANGLE => s | RATE => update_yaw_reference s end). clear s I. intros s I.
  pose proof I as [B1 ([P1 P2] & Or & Ve & W & Ew) B3 B4 B5 B6 B7 B8 B9 B10 B11]. rewrite Or, level_mat, W, B7.
  assert (Ab : sm_mode s <> MOTOR_W -> above (rf_pos (sm_refs s)) (s_pos (sim_state s)) /\ rf_yaw (sm_refs s) = yaw).
  { intros Hm. destruct B11 as [B|[[R1 R2] E]]; [contradiction|]. split; [split; congruence|exact E]. }
  destruct (sm_mode s) eqn:M.
  2:{ apply vsim_act; assumption. }
  2:{ destruct (vctl_acro inv Sp (sm_ctl s) (rf_thrust (sm_refs s)) dt B4). apply vsim_control; assumption. }
  all: destruct Ab as [Ab Ey]; [discriminate|]; rewrite Ey.
  - destruct (vctl_pos inv Sp (sm_ctl s) (s_pos (sim_state s)) (s_vel (sim_state s)) (rf_pos (sm_refs s)) yaw dt B4 Ve Ab). apply vsim_control; assumption.
  - destruct (vctl_traj inv Sp (sm_ctl s) (s_pos (sim_state s)) (s_vel (sim_state s)) (rf_pos (sm_refs s)) (rf_vel (sm_refs s)) (rf_acc (sm_refs s)) yaw dt B4 Ve Ab B8 B9).
    apply vsim_control; assumption.
  - destruct (vctl_vel inv Sp (sm_ctl s) (s_vel (sim_state s)) (rf_vel (sm_refs s)) yaw dt B4 Ve B8). apply vsim_control; assumption.
  - destruct (vctl_pos inv Sp (sm_ctl s) (s_pos (sim_state s)) (s_vel (sim_state s)) (rf_pos (sm_refs s)) yaw dt B4 Ve Ab). apply vsim_control; assumption.
Qed.

Lemma vsim_dynamics p inv mn mx tau kf pos yaw s dt s' : even_quad (p_motors p) mn mx tau kf -> p_fnoise p = 0 -> upright (p_grav p) ->
  vsim p inv pos yaw s -> next (update_dynamics s dt) s' -> vsim p inv pos yaw s'.
Proof.
  intros Q Hf Hg I N. pose proof I as [B1 B2 B3 B4 B5 B6 B7 B8 B9 B10 B11].
  assert (Ex : forall c, mo_cfg (d_model (sm_dyn s)) = Some c -> upright (vscaler (vneg (p_grav (cf_params c))) (p_mass (cf_params c)))).
  { intros c E. destruct B1 as (_ & P & _). unfold get_params in P. rewrite E in P. cbn in P. injection P as ->.
    destruct Hg as [G1 G2]. split; cbn; rewrite ?G1, ?G2; ring. }
  destruct N as [N|N].
  2:{ destruct (ud_throw R_sane _ _ _ N) as [_ [[_ ->]|[_ (c & Hc & ->)]]]; [exact I|]. specialize (Ex c Hc). split; assumption. }
  destruct (ud_ok _ _ _ N) as (ext & d & F & E & C & E'). cbv zeta in E'.
  assert (Ue : upright ext).
  { destruct (below_floor s); [|rewrite E; exact B5]. destruct (mo_cfg (d_model (sm_dyn s))) as [c|] eqn:Hc; [|destruct (C eq_refl eq_refl)].
    rewrite E. apply Ex. reflexivity. }
  unfold free_motion in F. destruct (vstate_process _ _ _ _ _ _ p mn mx tau kf pos yaw B1 Q Hf Hg B3 Ue B2 F) as [V S].
  assert (Z : upright v0) by (split; reflexivity).
  destruct (below_floor _) in E'; subst s';
  split; cbn [with_odom with_imu with_col with_ext with_dyn sm_dyn sm_ctl sm_imu sm_odom sm_armed sm_floor_en sm_floor_col sm_floor_h sm_refs sm_act sm_ext sm_mode sm_yawmode]; try assumption.
  destruct S as (S1 & S2 & S3 & S4 & S5). unfold sim_state. cbn [with_odom with_imu with_col with_ext with_dyn sm_dyn dyn_set_state d_state].
  unfold floor_state, vstate. cbn [s_pos s_ori s_vel s_angvel s_mvel vsetz]. split; [exact S1|]. split; [exact S2|]. split; [exact Z|]. split; [reflexivity|exact S5].
Qed.

Lemma vsim_step p inv mn mx tau kf pos yaw s op s' : even_quad (p_motors p) mn mx tau kf -> p_fnoise p = 0 -> upright (p_grav p) ->
  - PI < yaw <= PI -> spreads inv -> quad_inverse (p_motors p) = Some inv ->
  vsim p inv pos yaw s -> asks_vertical (p_motors p) pos yaw op -> next (sim_step 4 s op) s' -> vsim p inv pos yaw s'.
Proof.
  intros Q Hf Hg Hy Sp Qi I A N.
  assert (Z : upright v0) by (split; reflexivity).
  assert (E0 : even4 (repeat zero 4)) by (exists 0; reflexivity).
  destruct op; cbn [asks_vertical] in A; try contradiction; cbn [sim_step] in N;
  try (eapply vsim_dynamics; eassumption); (destruct N as [N|N]; [|discriminate N]); injection N as <-;
  try (apply vsim_update; assumption); pose proof I as [B1 B2 B3 B4 B5 B6 B7 B8 B9 B10 B11].
  all: try (split; assumption).
  - (* arm *) split; try assumption. reflexivity.
  - (* disarm *) split; try assumption. apply (vehicle_act 4 _ (sm_act s)); [|exact B1]. rewrite !even_len by assumption. reflexivity.
  - (* mode *) unfold set_control_mode. destruct (_ && _); [exact I|]. cbv zeta.
    split; cbn [sm_dyn sm_ctl sm_act sm_ext sm_refs sm_mode rf_motors rf_ang rf_vel rf_acc rf_yawrate rf_pos rf_yaw]; try assumption; try reflexivity.
    right. destruct B2 as (P & Or & _). split; [exact P|]. rewrite Or, level_euler by exact Hy. reflexivity.
  - (* traj *) destruct A as (A1 & A2 & A3). split; try assumption. destruct B11 as [B|[_ E]]; [left; exact B|right; split; assumption].
  - (* pos *) split; try assumption. destruct B11 as [B|[_ E]]; [left; exact B|right; split; assumption].
  - (* yaw *) split; try assumption. destruct B11 as [B|[E _]]; [left; exact B|right; split; assumption].
  - (* controller *) split; try assumption. eapply new_vctl; eassumption.
Qed.

Lemma vertical_run p inv mn mx tau kf pos yaw ops s s' : even_quad (p_motors p) mn mx tau kf -> p_fnoise p = 0 -> upright (p_grav p) ->
  - PI < yaw <= PI -> spreads inv -> quad_inverse (p_motors p) = Some inv ->
  vsim p inv pos yaw s -> Forall (asks_vertical (p_motors p) pos yaw) ops -> sim_run 4 s ops = Some s' -> vsim p inv pos yaw s'.
Proof.
  intros Q Hf Hg Hy Sp Qi I F K. apply (run_inv 4 (vsim p inv pos yaw) (asks_vertical (p_motors p) pos yaw) ops) with (s := s); auto.
  clear s s' I K. intros s op s' I U N. eapply vsim_step; eassumption.
Qed.

Lemma layout_even kf kt x y mn mx tau J ms : kf <> 0 -> kt <> 0 -> x <> 0 -> y <> 0 -> quad_layout kf kt x y mn mx tau J ms ->
  even_quad ms mn mx tau kf /\ forall inv, quad_inverse ms = Some inv -> spreads inv.
Proof.
  intros Kf Kt Kx Ky [->| ->].
  - split.
    + split; [reflexivity| |intros; apply quad_x_force|intros; apply quad_x_torque].
      intros m [<-|[<-|[<-|[<-|[]]]]]; repeat split.
    + intros inv. apply spread_quad with (kf := kf); [exact Kf|exact (det_x kf kt x y mn mx tau J Kf Kt Kx Ky)| |];
      intros; [apply quad_x_force|apply quad_x_torque].
  - split.
    + split; [reflexivity| |intros; apply quad_plus_force|intros; apply quad_plus_torque].
      intros m [<-|[<-|[<-|[<-|[]]]]]; repeat split.
    + intros inv. apply spread_quad with (kf := kf); [exact Kf|exact (det_plus kf kt x y mn mx tau J Kf Kt Kx Ky)| |];
      intros; [apply quad_plus_force|apply quad_plus_torque].
Qed.

Lemma vertical_end yaw sp ops (s' : Sim R G H) : fair_start yaw sp ->
  Forall (asks_vertical (p_motors (sp_model sp)) (s_pos (sp_state sp)) yaw) ops -> sim_after 4 sp ops = Some s' ->
  above (s_pos (sim_state s')) (s_pos (sp_state sp)) /\ upright (s_vel (sim_state s')) /\
  s_ori (sim_state s') = level yaw /\ s_angvel (sim_state s') = mkV 0 0 0 /\
  even4 (s_mvel (sim_state s')) /\ even4 (sm_act s').
Proof.
  intros ((kf & kt & x & y & mn & mx & tau & J & K1 & K2 & K3 & K4 & L) & Ck & Hf & Hg & Fc & Or & Hy & Ve & W & Ew) F Rn.
  unfold sim_after in Rn. destruct (sim_new 4 sp) as [s0|] eqn:N; [|discriminate].
  destruct (layout_even kf kt x y mn mx tau J _ K1 K2 K3 K4 L) as [Q Sp]. specialize (Sp _ (proj1 Fc)).
  destruct (new_fields 4 _ _ N) as (F1 & F2 & F3 & F4 & F5 & F6 & F7 & F8 & d & Dn & Ed).
  destruct (new_params _ _ _ _ _ Dn Ck) as (Mr & Gp & Ds).
  assert (C : sm_ctl s0 = ctl_new 4 (sp_ctl sp)).
  { unfold sim_new in N. destruct (dyn_new _ _ _ _); [|discriminate]. cbn in N. injection N as <-. reflexivity. }
  assert (St : sim_state s0 = sp_state sp) by (unfold sim_state; rewrite Ed; exact Ds).
  assert (Z : upright v0) by (split; reflexivity).
  assert (I : vsim (sp_model sp) (ip_minv (cp_indi (sp_ctl sp))) (s_pos (sp_state sp)) yaw s0).
  { split; rewrite ?F3, ?F4, ?F6, ?F8, ?C, ?St; try exact Z; try (exists 0; reflexivity); try reflexivity.
    - split; [rewrite Ed; exact Mr|]. split; [rewrite Ed; exact Gp|]. split; [reflexivity|].
      rewrite Ed, Ds. apply even_len, Ew.
    - split; [split; reflexivity|]. split; [exact Or|]. split; [exact Ve|]. split; [exact W|exact Ew].
    - apply (new_vctl 4 (p_motors (sp_model sp))); [exact Fc|apply Fc].
    - left. reflexivity. }
  destruct (vertical_run _ _ mn mx tau kf _ yaw ops s0 s' Q Hf Hg Hy Sp (proj1 Fc) I F Rn) as [_ (A1 & A2 & A3 & A4 & A5) A6 _ _ _ _ _ _ _ _].
  split; [exact A1|]. split; [exact A3|]. split; [exact A2|]. split; [exact A4|]. split; assumption.
Qed.
End Sim.
