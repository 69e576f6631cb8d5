(** The climb of the simulator follows the scalar recurrence. *)

From Coq Require Import ZArith List Bool Lia Reals Lra Psatz.
From Verif Require Import Scalar LinAlg MUtils MModel MDynamics MPid MControl MCtlRun MImu MSim
  SpecDyn SpecRun SpecMix SpecPid SpecCtl SpecImu SpecSim SpecVertical SpecClimb
  PBase PDyn PModel PDynR PPhys PNoise PDynMore PVeh PMix PPid PPidR PCtl PCtlR PCtlMix PImu PSim PSimR PHover PSimEnd PVertical PClimb.
Import ListNotations.
Local Open Scope R_scope.

(** ** Controller *)
(** The speed given to each rotor for a pure thrust. *)
Definition spreads_to (kf : R) (inv : list (V3 R * V3 R)) : Prop :=
  forall th, let w := sqrtks (th / (4 * kf)) in map (fun r => sqrtks (row6 r (mkV zero zero th) (mkV 0 0 0))) inv = [w; w; w; w].
Lemma spread_value (m1 m2 m3 m4 : Motor R) kf inv : kf <> 0 ->
  m4det (mixer_rows4 (mixer6_col m1) (mixer6_col m2) (mixer6_col m3) (mixer6_col m4)) <> 0 ->
  (forall w a, rotor_force [m1; m2; m3; m4] [w; w; w; w] a = match a with AZ => 4 * kf * sq_signed w | _ => 0 end) ->
  (forall w al a, rotor_torque [m1; m2; m3; m4] [w; w; w; w] [al; al; al; al] a = 0) ->
  quad_inverse [m1; m2; m3; m4] = Some inv -> spreads_to kf inv.
Proof.
  intros Hk Hd Hf Ht Hi th. cbv zeta. unfold quad_inverse in Hi. rewrite mixer_cols4 in Hi. injection Hi as <-.
  rewrite squares_quad. set (m := mixer_rows4 _ _ _ _) in *.
  set (q := th / (4 * kf)). set (s := sqrtks q).
  assert (Es : sq_signed s = q) by apply sq_root.
  pose proof (m4_left m (mkV4 q q q q) Hd) as E.
  assert (M : m4app m (mkV4 q q q q) = mkV4 th 0 0 0).
  { unfold m4app, m, mixer_rows4, v4dot. cbn [r4a r4b r4c r4d v4a v4b v4c v4d].
    change (vz (fst (mixer6_col ?k))) with (pr AZ (fst (mixer6_col k))).
    change (vx (snd (mixer6_col ?k))) with (pr AX (snd (mixer6_col k))).
    change (vy (snd (mixer6_col ?k))) with (pr AY (snd (mixer6_col k))).
    change (vz (snd (mixer6_col ?k))) with (pr AZ (snd (mixer6_col k))).
    rewrite !mixer6_force, !mixer6_torque. unR.
    pose proof (Hf s AZ) as F. pose proof (Ht s 0 AX) as T1. pose proof (Ht s 0 AY) as T2. pose proof (Ht s 0 AZ) as T3.
    unfold rotor_force in F. unfold rotor_torque in T1, T2, T3. cbn [rotor_sum] in F, T1, T2, T3. rewrite Es in *.
    assert (Q : 4 * kf * q = th) by (unfold q; field; exact Hk).
    f_equal; [rewrite <- Q, <- F|rewrite <- T1|rewrite <- T2|rewrite <- T3]; ring. }
  cbn [vx vy vz]. rewrite M in E. rewrite E. reflexivity.
Qed.
Lemma layout_value kf kt x y mn mx tau J ms : kf <> 0 -> kt <> 0 -> x <> 0 -> y <> 0 -> quad_layout kf kt x y mn mx tau J ms ->
  forall inv, quad_inverse ms = Some inv -> spreads_to kf inv.
Proof.
  intros Kf Kt Kx Ky [->| ->] inv.
  - apply spread_value; [exact Kf|exact (det_x kf kt x y mn mx tau J Kf Kt Kx Ky)| |]; intros; [apply quad_x_force|apply quad_x_torque].
  - apply spread_value; [exact Kf|exact (det_plus kf kt x y mn mx tau J Kf Kt Kx Ky)| |]; intros; [apply quad_plus_force|apply quad_plus_torque].
Qed.

Lemma indi_value kf inv (i : Indi R) th dt : spreads_to kf inv -> in_minv i = inv -> rests (in_pid i) -> calm (in_pid i) ->
  let w := sqrtks (th / (4 * kf)) in in_motor (acro_to_motor i (mkV 0 0 0) th (mkV 0 0 0) dt) = [w; w; w; w].
Proof.
  intros Sp M Rs Cm. cbv zeta. unfold acro_to_motor. cbv zeta. cbn [in_motor]. unfold get_error. rewrite vsub_self.
  change (pid_compute (in_pid i) dt (mkV 0 0 0)) with (pid_step (in_pid i) (OpCompute dt (mkV 0 0 0))).
  change (ps_out (pid_s ?p)) with (pid_output p).
  destruct (pid_calm _ dt Rs Cm) as [E1 E2]. rewrite E1, !mmulv_0.
  replace (vadd (mkV 0 0 0) (vcross (mkV 0 0 0) (mkV 0 0 0))) with (mkV 0 0 0) by (unV; f_equal; ring).
  rewrite M. apply Sp.
Qed.

Lemma level_thrust (a : Acro R) acc yaw : upright (ac_grav a) -> upright acc ->
  let t := ac_mass a * (vz acc - vz (ac_grav a)) in 0 <= t -> fst (snd (acc_to_acro a acc (rot_z yaw) yaw)) = t.
Proof.
  intros [G1 G2] [A1 A2] t Ht.
  assert (Tw : acc_to_thrust a acc = mkV 0 0 t).
  { unfold acc_to_thrust, vscaler, vsub, vmap2, vmap. cbn [vx vy vz]. rewrite A1, A2, G1, G2. unR. f_equal; unfold t; ring. }
  unfold acc_to_acro. cbv zeta. cbn [fst snd]. rewrite Tw, along_R.
  assert (S : along_z (rot_z yaw) (mkV 0 0 t) = t).
  { unfold along_z, len3, dot3, rot_z, col, ent. cbn [vx vy vz m02 m12 m22].
    replace (0 * 0 + 0 * 0 + 1 * 1) with 1 by ring. rewrite sqrt_1. field. }
  rewrite S. unR. rewrite (proj2 (Rltb_false t 0)) by lra. reflexivity.
Qed.

(** A mere gain on the vertical axis. *)
Record mere_gain (Kp lim : R) (c : PidCfg R) : Prop := {
  mg_kp : m22 (pc_kp c) = Kp; mg_ki : m20 (pc_ki c) = 0 /\ m21 (pc_ki c) = 0 /\ m22 (pc_ki c) = 0;
  mg_kd : m20 (pc_kd c) = 0 /\ m21 (pc_kd c) = 0 /\ m22 (pc_kd c) = 0;
  mg_x : m20 (pc_kp c) = 0 /\ m21 (pc_kp c) = 0;
  mg_lim : pc_sflag c = true -> vz (pc_lo c) <= 0 /\ lim <= vz (pc_up c) }.

Lemma sat_through v up lo f : upright v -> vx lo <= 0 <= vx up -> vy lo <= 0 <= vy up -> vz lo <= vz v <= vz up -> saturate v up lo f = v.
Proof.
  intros [A B] X Y Z. destruct v as [x y z]. cbn [vx vy vz] in *. subst x y. destruct f; unfold saturate; cbn [negb].
  - assert (E : forall get, get lo <= get (mkV 0 0 z) <= get up -> psat1 get up lo (mkV 0 0 z) = mkV 0 0 z).
    { intros get Q. unfold psat1. cbv zeta. unR. rewrite (proj2 (Rltb_false (get up) _)), (proj2 (Rltb_false _ (get lo))) by lra.
      unfold vscale, vmap. cbn [vx vy vz]. unR. f_equal; ring. }
    rewrite (E vx), (E vy), (E vz) by (cbn [vx vy vz]; lra). reflexivity.
  - unfold sat1. cbn [vx vy vz]. unR.
    rewrite (proj2 (Rltb_false (vx up) 0)), (proj2 (Rltb_false 0 (vx lo))), (proj2 (Rltb_false (vy up) 0)), (proj2 (Rltb_false 0 (vy lo))),
      (proj2 (Rltb_false (vz up) z)), (proj2 (Rltb_false z (vz lo))) by lra. reflexivity.
Qed.

Lemma gain_out Kp lim p dt e : vpid p -> upright e -> mere_gain Kp lim (pid_c p) -> 0 <= Kp * vz e <= lim ->
  vz (ps_out (pid_s (pid_compute p dt e))) = Kp * vz e.
Proof.
  intros V U M B. pose proof (up_compute p dt e V U) as [_ Uo]. destruct V as [Vc Vs]. destruct M as [M1 (M2 & M3 & M4) (M5 & M6 & M7) (M8 & M9) M10].
  assert (I : upright (mmulv (pc_kp (pid_c p)) e)) by (apply up_mulv; [apply Vc|exact U]).
  unfold pid_compute in *. cbv zeta in *. cbn [pid_s ps_out] in *. unfold pid_out in *.
  set (o := vadd (vadd (mmulv (pc_kp (pid_c p)) e) (mmulv (pc_ki (pid_c p)) _)) (mmulv (pc_kd (pid_c p)) _)) in *.
  assert (Z : vz o = Kp * vz e).
  { unfold o. clear o Uo. cbn [vz vadd vmap2 mmulv]. rewrite M1, M2, M3, M4, M5, M6, M7, M8, M9. unR. ring. }
  destruct (pc_sflag (pid_c p)) eqn:S; [|exact Z].
  rewrite sat_through; [exact Z| |apply Vc; exact S|apply Vc; exact S|destruct (M10 eq_refl); lra].
  destruct (up_init (pid_s p) e Vs U) as (A1 & A2 & A3).
  unfold o. apply up_add; [apply up_add; [exact I|]|]; apply up_mulv; try apply Vc.
  - apply up_acc; try apply Vc; assumption.
  - apply up_filt; assumption.
Qed.

Lemma new_gain pp lim : vz (pp_ki pp) = 0 -> vz (pp_kd pp) = 0 ->
  vz (pp_lo pp) = 0 /\ vz (pp_up pp) = 0 \/ vz (pp_lo pp) <= 0 /\ lim <= vz (pp_up pp) ->
  mere_gain (vz (pp_kp pp)) lim (pid_c (pid_new pp)).
Proof.
  intros A B L. unfold pid_new, pid_reset, pid_update, pc_update. cbn [pid_c].
  assert (Z : vz (pp_lo pp) = 0 /\ vz (pp_up pp) = 0 -> sat_bad (vz (pp_up pp)) (vz (pp_lo pp)) = true).
  { intros [E1 E2]. rewrite E1, E2. unfold sat_bad. apply orb_true_iff. left. unR. apply Rltb_true.
    replace (0 - 0) with 0 by ring. rewrite Rabs_R0. apply eps_pos. }
  destruct (_ || _); [unfold pc_set_sat; cbv zeta; destruct (sat_bad (vx _) _); [|destruct (sat_bad (vy _) _); [|destruct (sat_bad (vz _) _) eqn:Sz]]|];
  (split; cbn; [reflexivity|split; [reflexivity|split; [reflexivity|exact A]]|split; [reflexivity|split; [reflexivity|exact B]]|split; reflexivity|]);
  try (intros K; discriminate K).
  intros _. destruct L as [L|L]; [|exact L]. discriminate (Z L).
Qed.

(** ** One round *)
Section Sim.
Context {G H : Gen R}.
Variables (p : Params R) (inv : list (V3 R * V3 R)) (pos : V3 R) (yaw W Kp tau kf mn mx vr e0 dt : R).
Hypotheses (Q : even_quad (p_motors p) mn mx tau kf) (Hn : p_fnoise p = 0) (Hgr : upright (p_grav p)) (Hy : - PI < yaw <= PI)
  (Sp : spreads inv) (Sv : spreads_to kf inv)
  (Hk : 0 < kf) (Hm : 0 < p_mass p) (HW : 0 < W) (HK : 0 < Kp) (Ht : 0 < tau) (Hd : 0 < dt <= tau) (Hdm : dt <= 1/100) (Hg : 4 * Kp * tau <= 1)
  (Hdr : p_drag p = 0) (Hgz : vz (p_grav p) = - W)
  (Hmn : 0 <= mn /\ lift kf mn <= W) (Hmx : 0 <= mx /\ W + 2 * p_mass p * Kp * e0 <= lift kf mx).

Record climbing (e w : R) (s : Sim R G H) : Prop := {
  cg_v : vsim p inv pos yaw s;
  cg_armed : sm_armed s = true; cg_mode : sm_mode s = VELOCITY; cg_floor : sm_floor_en s = false; cg_ext : sm_ext s = mkV 0 0 0;
  cg_ref : vz (rf_vel (sm_refs s)) = vr;
  cg_mass : ac_mass (ct_acro (sm_ctl s)) = p_mass p; cg_grav : p_mass p * vz (ac_grav (ct_acro (sm_ctl s))) = - W;
  cg_pid : mere_gain Kp (Kp * e0) (pid_c (ct_vel (sm_ctl s)));
  cg_speed : vz (s_vel (sim_state s)) = vr - e;
  cg_rot : s_mvel (sim_state s) = [w; w; w; w] }.

Lemma speed_root f : 0 <= f -> sqrtks (f / (4 * kf)) = speed kf f.
Proof.
  intros F. assert (P : 0 <= f / (4 * kf)) by (apply Rmult_le_pos; [exact F|left; apply Rinv_0_lt_compat; lra]).
  unfold sqrtks, speed. rewrite signT_R. unR. rewrite Rabs_pos_eq by exact P. destruct (Rle_lt_or_eq_dec _ _ P) as [L|L].
  - destruct (Rlt_dec 0 (f / (4 * kf))); [ring|contradiction].
  - rewrite <- L, sqrt_0. ring.
Qed.

Lemma climb_control e w s : climbing e w s -> 0 <= e <= e0 ->
  let c := speed kf (W + p_mass p * Kp * e) in
  let s' := update_controller 4 s dt in climbing e w s' /\ sm_act s' = [c; c; c; c].
Proof.
  intros [V A M F X Rv Ma Gr P Sd Ro] E. cbv zeta.
  pose proof (vsim_update p inv pos yaw s dt Hy Sp V) as V'.
  unfold update_controller in *. rewrite A in *. cbn [negb] in *. cbv zeta in *.
  set (s1 := match sm_yawmode s with ANGLE => s | RATE => update_yaw_reference s end) in *.
  assert (V1 : vsim p inv pos yaw s1) by (unfold s1; destruct (sm_yawmode s); [exact V|apply vsim_yaw; assumption]).
  assert (C1 : sm_mode s1 = VELOCITY /\ sm_floor_en s1 = false /\ sm_ext s1 = mkV 0 0 0 /\ vz (rf_vel (sm_refs s1)) = vr /\
    sm_armed s1 = true /\ sm_ctl s1 = sm_ctl s /\ sim_state s1 = sim_state s).
  { unfold s1. destruct (sm_yawmode s); repeat split; assumption. }
  clearbody s1. destruct C1 as (C1 & C2 & C3 & C4 & C5 & C6 & C7). rewrite C1 in *.
  rewrite <- C6 in Ma, Gr, P. rewrite <- C7 in Sd, Ro.
  pose proof V1 as [B1 ([P1 P2] & Or & Ve & Wz & Ew) B3 B4 B5 B6 B7 B8 B9 B10 B11]. rewrite Or, level_mat, Wz in *.
  assert (Ey : rf_yaw (sm_refs s1) = yaw) by (destruct B11 as [B|[_ B]]; [congruence|exact B]). rewrite Ey in *.
  set (c0 := sm_ctl s1) in *. set (cv := s_vel (sim_state s1)) in *. set (dv := rf_vel (sm_refs s1)) in *.
  pose proof (up_sub _ _ B8 Ve) as Ue.
  assert (Er : vz (vsub dv cv) = e) by (cbn; unR; rewrite C4, Sd; ring).
  assert (Out : vz (ps_out (pid_s (pid_compute (ct_vel c0) dt (vsub dv cv)))) = Kp * e).
  { rewrite (gain_out Kp (Kp * e0)); [rewrite Er; reflexivity|exact (vt_vel inv c0 B4)|exact Ue|exact P|]. rewrite Er.
    split; [apply Rmult_le_pos; lra|apply Rmult_le_compat_l; lra]. }
  pose proof (proj2 (up_compute (ct_vel c0) dt (vsub dv cv) (vt_vel inv c0 B4) Ue)) as Uo.
  unfold ctl_vel in *. cbv zeta in *. unfold pid_on_error, get_error in *.
  set (p' := pid_compute (ct_vel c0) dt (vsub dv cv)) in *. set (acc := ps_out (pid_s p')) in *.
  set (c1 := mkCtl (ct_acro c0) (ct_indi c0) (ct_pos c0) (ct_traj c0) p' (ct_dpos c0) dv acc (ct_dthrust c0) (ct_dang c0) (ct_dmotor c0)) in *.
  assert (Vc1 : vctl inv c1).
  { pose proof (proj1 (up_compute (ct_vel c0) dt (vsub dv cv) (vt_vel inv c0 B4) Ue)). destruct B4. split; assumption. }
  pose proof (level_rates c1 acc yaw dt (vt_grav inv c1 Vc1) Uo) as Wr.
  destruct (ctl_acc_shape c1 (rot_z yaw) (mkV 0 0 0) acc yaw dt) as (_ & D2 & D3 & D4 & D5 & D6). cbv zeta in *.
  destruct (acc_records c1 (rot_z yaw) (mkV 0 0 0) acc yaw dt) as (_ & _ & _ & _ & _ & Pv). cbn [get_pid ctl_step] in Pv.
  set (c2 := ctl_acc c1 (rot_z yaw) (mkV 0 0 0) acc yaw dt) in *.
  rewrite D3 in Wr. rewrite Wr in D5.
  assert (Tt : p_mass p * (vz acc - vz (ac_grav (ct_acro c0))) = W + p_mass p * Kp * e) by (rewrite Out; lra).
  assert (Tp : 0 <= W + p_mass p * Kp * e) by (apply cmd_pos; lra).
  assert (Th : fst (snd (acc_to_acro (ct_acro c1) acc (rot_z yaw) yaw)) = W + p_mass p * Kp * e).
  { rewrite <- Tt, <- Ma. apply level_thrust; [exact (vt_grav inv c0 B4)|exact Uo|]. change (ct_acro c1) with (ct_acro c0). rewrite Ma, Tt. exact Tp. }
  rewrite Th in D5. split.
  - split; try assumption.
    + change (ac_mass (ct_acro c2) = p_mass p). rewrite D4. exact Ma.
    + change (p_mass p * vz (ac_grav (ct_acro c2)) = - W). rewrite D4. exact Gr.
    + change (mere_gain Kp (Kp * e0) (pid_c (ct_vel c2))). rewrite Pv. exact P.
  - change (ct_dmotor c2 = let c := speed kf (W + p_mass p * Kp * e) in [c; c; c; c]). rewrite D6, D5.
    rewrite (indi_value kf inv); [|exact Sv|exact (vt_minv inv c0 B4)|exact (vt_rest inv c0 B4)|exact (vt_calm inv c0 B4)].
    rewrite speed_root by exact Tp. reflexivity.
Qed.

Lemma even_clamp w : mn <= w <= mx -> clamp_motors [w; w; w; w] (p_motors p) = Some [w; w; w; w].
Proof using Q.
  intros B. destruct Q as [L M _ _]. destruct (p_motors p) as [|m1 [|m2 [|m3 [|m4 [|m5 ms]]]]]; try discriminate L. cbn [clamp_motors].
  destruct (M m1) as (A1 & A2 & _); [cbn; auto 6|]. destruct (M m2) as (B1 & B2 & _); [cbn; auto 6|].
  destruct (M m3) as (C1 & C2 & _); [cbn; auto 6|]. destruct (M m4) as (D1 & D2 & _); [cbn; auto 6|].
  rewrite A1, A2, B1, B2, C1, C2, D1, D2, clamp_R_in by exact B. reflexivity.
Qed.
Lemma even_deriv k w : motors_derivative [k; k; k; k] [w; w; w; w] (p_motors p) = Some (let a := (k - w) / tau in [a; a; a; a]).
Proof using Q.
  destruct Q as [L M _ _]. destruct (p_motors p) as [|m1 [|m2 [|m3 [|m4 [|m5 ms]]]]]; try discriminate L. cbn [motors_derivative bindo].
  destruct (M m1) as (_ & _ & A); [cbn; auto 6|]. destruct (M m2) as (_ & _ & B); [cbn; auto 6|].
  destruct (M m3) as (_ & _ & C); [cbn; auto 6|]. destruct (M m4) as (_ & _ & D); [cbn; auto 6|].
  rewrite A, B, C, D. reflexivity.
Qed.
Lemma in_range e w : steady kf (p_mass p) W Kp e w -> e <= e0 -> mn <= w <= mx.
Proof.
  intros (E & A & L) B. destruct Hmn as [N1 N2]. destruct Hmx as [X1 X2]. pose proof (wh_pos kf W Hk HW) as Pw. split.
  - apply Rle_trans with (wh kf W); [|exact A]. apply (lift_le kf Hk); [lra|]. rewrite lift_wh by assumption. exact N2.
  - apply (lift_le kf Hk); [exact X1|]. assert (2 * p_mass p * Kp * e <= 2 * p_mass p * Kp * e0); [|lra].
    apply Rmult_le_compat_l; [|exact B]. apply Rmult_le_pos; lra.
Qed.

Lemma climb_motion e w s s' : climbing e w s -> steady kf (p_mass p) W Kp e w -> e <= e0 ->
  (let c := speed kf (W + p_mass p * Kp * e) in sm_act s = [c; c; c; c]) -> next (update_dynamics s dt) s' ->
  climbing (next_e kf (p_mass p) W dt e w) (next_w kf (p_mass p) W Kp tau dt e w) s'.
Proof.
  intros [V A M F X Rv Ma Gr P Sd Ro] S Be Act N.
  pose proof (vsim_dynamics p inv mn mx tau kf pos yaw s dt s' Q Hn Hgr V N) as V'.
  destruct N as [N|N].
  2:{ destruct (ud_throw R_sane _ _ _ N) as [K _]. unR. apply Rleb_true in K. lra. }
  destruct (ud_ok _ _ _ N) as (ext & d & Fm & E & _ & E'). cbv zeta in E'.
  assert (Bf : below_floor s = false) by (unfold below_floor; rewrite F; reflexivity).
  rewrite Bf in E. rewrite X in E. subst ext.
  assert (Bf2 : below_floor (with_col (with_ext (with_dyn s d) v0) false) = false).
  { unfold below_floor. cbn [with_col with_ext with_dyn sm_floor_en]. rewrite F. reflexivity. }
  rewrite Bf2 in E'. subst s'.
  unfold free_motion in Fm. apply process_small_inv in Fm; [|lra].
  pose proof V as [B1 (Pp & Or & Ve & Wz & Ew) B3 B4 B5 B6 B7 B8 B9 B10 B11].
  split; cbn [with_col with_ext with_dyn sm_armed sm_mode sm_floor_en sm_refs sm_ctl sm_ext]; try assumption; try reflexivity.
  - (* speed *)
    pose proof (silent_core _ _ _ _ _ _ p (proj1 (proj2 B1)) Hn Fm) as Hs.
    pose proof (step_newton 4 _ _ _ _ _ _ p B1 Fm) as Nw. cbv zeta in Nw. destruct (Nw AZ) as (N1 & N2 & N3 & _). clear Nw.
    unfold sim_state. cbn [with_col with_ext with_dyn sm_dyn]. cbn [pr] in N1, N2, N3. rewrite N3, N2, N1. rewrite Hs.
    fold (sim_state s). rewrite Ro, Or. unfold vec_of. rewrite !(eq_force _ _ _ _ _ Q), level_up.
    cbn [pr v0 vx vy vz]. unfold drag_spec. cbn [pr]. rewrite Hdr, Hgz, Sd. unR.
    unfold next_e, lift. unfold sq_signed. destruct S as (S1 & S2 & S3). pose proof (wh_pos kf W Hk HW).
    rewrite (Rabs_pos_eq w) by lra. field. lra.
  - (* rotors *)
    destruct B1 as (Hr & Hp & Hla & Hlw). apply get_params_cfg in Hp as [c [Hc Hcp]].
    apply euler_core_inv in Fm as [_ Hi]. destruct (Hi c Hc) as (mo & des & macc & mvel & _ & _ & I1 & I2 & I3 & I4). cbv zeta in I4.
    rewrite Hcp in *. fold (sim_state s) in *. rewrite Act in I1. rewrite Ro in I2, I3.
    pose proof (next_steady kf (p_mass p) W Kp tau dt Hk Hm HW HK Ht Hd Hg e w S) as S'.
    assert (Up : next_e kf (p_mass p) W dt e w <= e) by (eapply next_e_up; eassumption).
    rewrite even_clamp in I1.
    2:{ pose proof S as (S1 & S2 & S3). destruct Hmn as [N1 N2]. destruct Hmx as [X1 X2]. pose proof (wh_pos kf W Hk HW) as Pw.
        assert (0 < p_mass p * Kp) by (apply Rmult_lt_0_compat; lra).
        assert (p_mass p * Kp * e <= p_mass p * Kp * e0) by (apply Rmult_le_compat_l; lra).
        assert (0 <= p_mass p * Kp * e) by (apply Rmult_le_pos; lra).
        split.
        - apply Rle_trans with (wh kf W); [|apply cmd_wh; lra]. apply (lift_le kf Hk); [lra|]. rewrite lift_wh by assumption. exact N2.
        - apply (lift_le kf Hk); [exact X1|]. rewrite lift_speed by (try assumption; lra). lra. }
    injection I1 as <-. rewrite even_deriv in I2. cbv zeta in I2. injection I2 as <-. cbn [map ladd lmap2] in I3. unR.
    set (w' := next_w kf (p_mass p) W Kp tau dt e w) in *. change (clamp_motors [w'; w'; w'; w'] (p_motors p) = Some mvel) in I3.
    rewrite even_clamp in I3 by (apply (in_range _ _ S'); lra). injection I3 as <-.
    unfold sim_state. cbn [with_col with_ext with_dyn sm_dyn]. rewrite I4. reflexivity.
Qed.

(** ** Many rounds *)
Definition pair_step (x : R * R) : R * R := (next_e kf (p_mass p) W dt (fst x) (snd x), next_w kf (p_mass p) W Kp tau dt (fst x) (snd x)).
Fixpoint after (w0 : R) (k : nat) : R * R := match k with 0%nat => (e0, w0) | Datatypes.S j => pair_step (after w0 j) end.

Lemma after_steady w0 k : steady kf (p_mass p) W Kp e0 w0 ->
  let x := after w0 k in steady kf (p_mass p) W Kp (fst x) (snd x) /\ fst x <= e0.
Proof.
  intros S0. cbv zeta. induction k as [|k [I1 I2]]; cbn [after]; [split; [exact S0|apply Rle_refl]|].
  cbn [pair_step fst snd]. split; [eapply next_steady; eassumption|].
  apply Rle_trans with (fst (after w0 k)); [eapply next_e_up; eassumption|exact I2].
Qed.
Lemma after_energy w0 k : 0 <= e0 -> steady kf (p_mass p) W Kp e0 w0 ->
  let x := after w0 k in energy kf (p_mass p) W tau (fst x) (snd x) <= (1 - rate (p_mass p) W Kp dt e0) ^ k * e0.
Proof.
  intros E0 S0. cbv zeta. induction k as [|k I1].
  - cbn [after fst snd pow]. rewrite Rmult_1_l. eapply energy_up; try eassumption. apply S0.
  - destruct (after_steady w0 k S0) as [A B]. cbn [after pair_step fst snd].
    apply Rle_trans with ((1 - rate (p_mass p) W Kp dt e0) * energy kf (p_mass p) W tau (fst (after w0 k)) (snd (after w0 k))).
    + eapply energy_next; eassumption.
    + cbn [pow]. rewrite Rmult_assoc. apply Rmult_le_compat_l; [|exact I1].
      destruct (rate_range (p_mass p) W Kp tau dt e0 Hm HW HK Hd E0) as [_ R1].
      assert (4 * Kp * dt <= 4 * Kp * tau) by (apply Rmult_le_compat_l; lra). lra.
Qed.
Lemma after_close w0 k : 0 <= e0 -> steady kf (p_mass p) W Kp e0 w0 ->
  0 <= fst (after w0 k) <= 2 * (1 - rate (p_mass p) W Kp dt e0) ^ k * e0.
Proof.
  intros E0 S0. pose proof (after_energy w0 k E0 S0) as E. cbv zeta in E. destruct (after_steady w0 k S0) as [A _].
  split; [apply A|]. apply Rle_trans with (2 * energy kf (p_mass p) W tau (fst (after w0 k)) (snd (after w0 k))); [eapply energy_low; eassumption|lra].
Qed.

Lemma concat_snoc {A} (l : list A) k : concat (repeat l (S k)) = concat (repeat l k) ++ l.
Proof. induction k as [|k IH]; cbn [repeat concat app] in *; [apply app_nil_r|]. rewrite IH at 1. apply app_assoc. Qed.
Lemma rounds_snoc k : rounds (G := G) (H := H) dt (Datatypes.S k) = rounds dt k ++ [SController dt; SDynamics dt].
Proof. apply concat_snoc. Qed.

Lemma climb_rounds w0 s k : climbing e0 w0 s -> steady kf (p_mass p) W Kp e0 w0 -> forall s', sim_run 4 s (rounds dt k) = Some s' ->
  climbing (fst (after w0 k)) (snd (after w0 k)) s'.
Proof.
  intros C S0. induction k as [|k IH]; intros s' K.
  - injection K as <-. exact C.
  - rewrite rounds_snoc, run_app in K. destruct (sim_run 4 s (rounds dt k)) as [s1|]; [|discriminate]. specialize (IH s1 eq_refl).
    destruct (after_steady w0 k S0) as [A B]. cbn [sim_run sim_step] in K.
    destruct (climb_control _ _ s1 IH (conj (proj1 A) B)) as [C1 C2]. cbv zeta in C1, C2.
    cbn [after pair_step fst snd].
    destruct (update_dynamics (update_controller 4 s1 dt) dt) as [s2|s2|] eqn:U; [| |discriminate]; injection K as <-;
    (apply (climb_motion _ _ (update_controller 4 s1 dt)); [exact C1|exact A|exact B|exact C2|]); [left|right]; exact U.
Qed.
End Sim.

(** ** From the start *)
Lemma climb_flight {G H : Gen R} yaw W Kp tau kf mn mx w0 e0 sp : climbs yaw W Kp tau kf mn mx w0 e0 sp ->
  forall y dt, 0 < dt <= tau -> dt <= 1/100 -> let v0 := vz (s_vel (sp_state sp)) in let vr := v0 + e0 in
  exists v : nat -> R, v 0%nat = v0 /\
  (forall k, exists s : Sim R G H, sim_after 4 sp (climb_calls y vr dt k) = Some s /\ s_vel (sim_state s) = mkV 0 0 (v k)) /\
  forall k, v k <= v (S k) <= vr /\ vr - v k <= 2 * (1 - gain_per_round (p_mass (sp_model sp)) W Kp dt e0) ^ k * e0.
Proof.
  intros [Fit Fair (kt & x & yy & J & K2 & K3 & K4 & L) Hk Ht Hm Hdr Hgz HW Cm Cg Gp Gi Gd HK Hs Lim Mv He (Pw & L1 & L2) Mn Mx] y dt Hd Hdm v0 vr.
  destruct Fair as (_ & Ck & Hn & Hgr & Fc & Or & Hy & Ve & Wz & Ew).
  assert (Kf : kf <> 0) by lra.
  destruct (layout_even kf kt x yy mn mx tau J _ Kf K2 K3 K4 L) as [Q Sp]. specialize (Sp _ (proj1 Fc)).
  pose proof (layout_value kf kt x yy mn mx tau J _ Kf K2 K3 K4 L _ (proj1 Fc)) as Sv.
  set (p := sp_model sp) in *. set (inv := ip_minv (cp_indi (sp_ctl sp))) in *. set (pos := s_pos (sp_state sp)).
  assert (Hg : 4 * Kp * tau <= 1) by lra.
  assert (S0 : steady kf (p_mass p) W Kp e0 w0).
  { split; [exact He|]. split; [|unfold lift; lra]. apply (lift_le kf Hk); [exact Pw|]. rewrite lift_wh by assumption. exact L1. }
  pose (e := fun k => fst (after p W Kp tau kf e0 dt w0 k)).
  exists (fun k => vr - e k). split; [unfold e, vr; cbn [after fst]; ring|]. split.
  - intros k. destruct (simulator_defined (G := G) (H := H) 4 sp (climb_calls y vr dt k) Fit) as [s K].
    { unfold climb_calls. apply Forall_app. split; [repeat (apply Forall_cons; [exact I|]); apply Forall_nil|].
      induction k as [|k IH]; [apply Forall_nil|]. rewrite rounds_snoc. apply Forall_app. split; [exact IH|].
      apply Forall_cons; [exact I|]. apply Forall_cons; [cbn; lra|apply Forall_nil]. }
    exists s. split; [exact K|].
    unfold sim_after in K. destruct (sim_new 4 sp) as [s0|] eqn:N; [|discriminate].
    destruct (new_fields 4 _ _ N) as (F1 & F2 & F3 & F4 & F5 & F6 & F7 & F8 & d & Dn & Ed).
    destruct (new_params _ _ _ _ _ Dn Ck) as (Mr & Gp' & Ds).
    assert (C : sm_ctl s0 = ctl_new 4 (sp_ctl sp)).
    { unfold sim_new in N. destruct (dyn_new _ _ _ _); [|discriminate]. cbn in N. injection N as <-. reflexivity. }
    assert (St : sim_state s0 = sp_state sp) by (unfold sim_state; rewrite Ed; exact Ds).
    assert (Z : upright LinAlg.v0) by (split; reflexivity).
    assert (V0 : vsim p inv pos yaw s0).
    { split; rewrite ?F3, ?F4, ?F6, ?F8, ?C, ?St; try exact Z; try (exists 0; reflexivity); try reflexivity.
      - split; [rewrite Ed; exact Mr|]. split; [rewrite Ed; exact Gp'|]. split; [reflexivity|].
        rewrite Ed, Ds. apply even_len, Ew.
      - split; [split; reflexivity|]. split; [exact Or|]. split; [exact Ve|]. split; [exact Wz|exact Ew].
      - apply (new_vctl 4 (p_motors p)); [exact Fc|apply Fc].
      - left. reflexivity. }
    unfold climb_calls in K. rewrite run_app in K. cbn [sim_run sim_step] in K.
    set (s1 := set_ref_vel (arm (set_control_mode s0 VELOCITY y)) (mkV 0 0 vr)) in *.
    assert (V1 : vsim p inv pos yaw s1).
    { apply (vertical_run p inv mn mx tau kf pos yaw [SMode VELOCITY y; SArm; SRefVel (mkV 0 0 vr)] s0); try assumption.
      - exact (proj1 Fc).
      - apply Forall_cons; [exact I|]. apply Forall_cons; [exact I|]. apply Forall_cons; [split; reflexivity|apply Forall_nil].
      - reflexivity. }
    assert (E1 : sm_mode s1 = VELOCITY /\ sm_floor_en s1 = false /\ sm_ext s1 = mkV 0 0 0 /\ sm_ctl s1 = sm_ctl s0 /\ sim_state s1 = sim_state s0).
    { unfold s1, set_control_mode. rewrite F4. cbn [mode_eqb andb]. repeat split; assumption. }
    destruct E1 as (E1 & E2 & E3 & E4 & E5).
    assert (Cl : climbing p inv pos yaw W Kp vr e0 e0 w0 s1).
    { split; try assumption; try reflexivity.
      - rewrite E4, C. exact Cm.
      - rewrite E4, C. exact Cg.
      - rewrite E4, C, <- Gp. apply new_gain; try assumption. rewrite Gp. exact Lim.
      - rewrite E5, St. unfold vr, v0. ring.
      - rewrite E5, St. exact Mv. }
    pose proof (climb_rounds p inv pos yaw W Kp tau kf mn mx vr e0 dt Q Hn Hgr Hy Sp Sv Hk Hm HW HK Ht Hd Hdm Hg Hdr Hgz Mn Mx w0 s1 k Cl S0 s K) as R.
    pose proof (cg_speed _ _ _ _ _ _ _ _ _ _ _ R) as Rs. destruct (cg_v _ _ _ _ _ _ _ _ _ _ _ R) as [_ (_ & _ & [U1 U2] & _) _ _ _ _ _ _ _ _ _].
    fold (e k) in Rs. apply V3_eq; cbn [vx vy vz]; assumption.
  - intros k. pose proof (after_steady p W Kp tau kf e0 dt Hk Hm HW HK Ht Hd Hg w0 k S0) as [A B].
    pose proof (after_steady p W Kp tau kf e0 dt Hk Hm HW HK Ht Hd Hg w0 (S k) S0) as [A' B'].
    assert (Cl : 0 <= e k <= 2 * (1 - rate (p_mass p) W Kp dt e0) ^ k * e0) by (eapply after_close; eassumption). destruct Cl as [_ Cl].
    assert (Up : e (S k) <= e k) by (unfold e; cbn [after pair_step fst]; eapply next_e_up; eassumption).
    unfold gain_per_round. unfold rate in Cl. destruct A' as [A' _]. fold (e (S k)) in A'. split; [split|]; lra.
Qed.

Lemma climb_reached {G H : Gen R} yaw W Kp tau kf mn mx w0 e0 sp : climbs yaw W Kp tau kf mn mx w0 e0 sp ->
  forall y dt, 0 < dt <= tau -> dt <= 1/100 -> let vr := vz (s_vel (sp_state sp)) + e0 in
  forall eps, 0 < eps -> exists N, forall k, (N <= k)%nat -> exists s : Sim R G H,
    sim_after 4 sp (climb_calls y vr dt k) = Some s /\ Rabs (vr - vz (s_vel (sim_state s))) < eps.
Proof.
  intros C y dt Hd Hdm vr eps He. destruct (climb_flight (G := G) (H := H) _ _ _ _ _ _ _ _ _ _ C y dt Hd Hdm) as (v & _ & F & B). fold vr in F, B.
  destruct C as [_ _ _ Hk Ht Hm _ _ HW _ _ _ _ _ HK Hs _ _ E0 _ _ _].
  destruct (rate_range (p_mass (sp_model sp)) W Kp tau dt e0 Hm HW HK Hd E0) as [R0 R1].
  unfold rate in R0, R1. fold (gain_per_round (p_mass (sp_model sp)) W Kp dt e0) in R0, R1.
  set (g := gain_per_round _ _ _ _ _) in *.
  assert (Kd : dt * Kp <= 1/4).
  { apply Rle_trans with (tau * Kp); [apply Rmult_le_compat_r; lra|lra]. }
  destruct (pow_lt_1_zero (1 - g)) with (y := eps / (2 * e0 + 1)) as [N HN].
  { rewrite Rabs_pos_eq; lra. }
  { apply Rmult_lt_0_compat; [exact He|apply Rinv_0_lt_compat; lra]. }
  exists N. intros k Hk'. destruct (F k) as (s & A & Vs). exists s. split; [exact A|]. rewrite Vs. cbn [vz].
  destruct (B k) as [[_ _] B2]. assert (B1 : v k <= vr) by (destruct (B k); lra).
  rewrite Rabs_pos_eq by lra. specialize (HN k Hk'). rewrite Rabs_pos_eq in HN by (apply pow_le; lra).
  set (q := (1 - g) ^ k) in *.
  assert (Q : q * (2 * e0 + 1) < eps).
  { apply Rmult_lt_reg_r with (/ (2 * e0 + 1)); [apply Rinv_0_lt_compat; lra|]. rewrite Rmult_assoc, Rinv_r by lra. unfold Rdiv in HN. lra. }
  assert (0 <= q) by (apply pow_le; lra). lra.
Qed.
