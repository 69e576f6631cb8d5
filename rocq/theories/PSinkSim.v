(** The descent of the simulator follows the scalar recurrence. *)

From Coq Require Import ZArith List Bool Lia Reals Lra Psatz.
From Verif Require Import Scalar LinAlg MUtils MModel MDynamics MPid MControl MCtlRun MImu MSim
  SpecDyn SpecRun SpecMix SpecPid SpecCtl SpecImu SpecSim SpecVertical SpecClimb SpecSink
  PBase PDyn PModel PDynR PPhys PNoise PDynMore PVeh PMix PPid PPidR PCtl PCtlR PCtlMix PImu PSim PSimR PHover PSimEnd PVertical PClimb PClimbSim PSink.
Import ListNotations.
Local Open Scope R_scope.

(** A mere gain on the vertical axis with room downwards. *)
Record low_gain (Kp lim : R) (c : PidCfg R) : Prop := {
  lg_kp : m22 (pc_kp c) = Kp; lg_ki : m20 (pc_ki c) = 0 /\ m21 (pc_ki c) = 0 /\ m22 (pc_ki c) = 0;
  lg_kd : m20 (pc_kd c) = 0 /\ m21 (pc_kd c) = 0 /\ m22 (pc_kd c) = 0;
  lg_x : m20 (pc_kp c) = 0 /\ m21 (pc_kp c) = 0;
  lg_lim : pc_sflag c = true -> vz (pc_lo c) <= - lim /\ 0 <= vz (pc_up c) }.

Lemma low_out Kp lim p dt e : vpid p -> upright e -> low_gain Kp lim (pid_c p) -> - lim <= Kp * vz e <= 0 ->
  vz (ps_out (pid_s (pid_compute p dt e))) = Kp * vz e.
Proof.
  intros V U M B. pose proof (up_compute p dt e V U) as [_ Uo]. destruct V as [Vc Vs]. destruct M as [M1 (M2 & M3 & M4) (M5 & M6 & M7) (M8 & M9) M10].
  assert (I : upright (mmulv (pc_kp (pid_c p)) e)) by (apply up_mulv; [apply Vc|exact U]).
  unfold pid_compute in *. cbv zeta in *. cbn [pid_s ps_out] in *. unfold pid_out in *.
  set (o := vadd (vadd (mmulv (pc_kp (pid_c p)) e) (mmulv (pc_ki (pid_c p)) _)) (mmulv (pc_kd (pid_c p)) _)) in *.
  assert (Z : vz o = Kp * vz e).
  { unfold o. clear o Uo. cbn [vz vadd vmap2 mmulv]. rewrite M1, M2, M3, M4, M5, M6, M7, M8, M9. unR. ring. }
  destruct (pc_sflag (pid_c p)) eqn:S; [|exact Z].
  rewrite sat_through; [exact Z| |apply Vc; exact S|apply Vc; exact S|destruct (M10 eq_refl); lra].
  destruct (up_init (pid_s p) e Vs U) as (A1 & A2 & A3).
  unfold o. apply up_add; [apply up_add; [exact I|]|]; apply up_mulv; try apply Vc.
  - apply up_acc; try apply Vc; assumption.
  - apply up_filt; assumption.
Qed.

Lemma new_low pp lim : vz (pp_ki pp) = 0 -> vz (pp_kd pp) = 0 ->
  vz (pp_lo pp) = 0 /\ vz (pp_up pp) = 0 \/ vz (pp_lo pp) <= - lim /\ 0 <= vz (pp_up pp) ->
  low_gain (vz (pp_kp pp)) lim (pid_c (pid_new pp)).
Proof.
  intros A B L. unfold pid_new, pid_reset, pid_update, pc_update. cbn [pid_c].
  assert (Z : vz (pp_lo pp) = 0 /\ vz (pp_up pp) = 0 -> sat_bad (vz (pp_up pp)) (vz (pp_lo pp)) = true).
  { intros [E1 E2]. rewrite E1, E2. unfold sat_bad. apply orb_true_iff. left. unR. apply Rltb_true.
    replace (0 - 0) with 0 by ring. rewrite Rabs_R0. apply eps_pos. }
  destruct (_ || _); [unfold pc_set_sat; cbv zeta; destruct (sat_bad (vx _) _); [|destruct (sat_bad (vy _) _); [|destruct (sat_bad (vz _) _) eqn:Sz]]|];
  (split; cbn; [reflexivity|split; [reflexivity|split; [reflexivity|exact A]]|split; [reflexivity|split; [reflexivity|exact B]]|split; reflexivity|]);
  try (intros K; discriminate K).
  intros _. destruct L as [L|L]; [|exact L]. discriminate (Z L).
Qed.

(** ** One round *)
Section Sim.
Context {G H : Gen R}.
Variables (p : Params R) (inv : list (V3 R * V3 R)) (pos : V3 R) (yaw W Kp tau kf mn mx vr e0 dt : R).
Hypotheses (Q : even_quad (p_motors p) mn mx tau kf) (Hn : p_fnoise p = 0) (Hgr : upright (p_grav p)) (Hy : - PI < yaw <= PI)
  (Sp : spreads inv) (Sv : spreads_to kf inv)
  (Hk : 0 < kf) (Hm : 0 < p_mass p) (HW : 0 < W) (HK : 0 < Kp) (Ht : 0 < tau) (Hd : 0 < dt <= tau) (Hdm : dt <= 1/100) (Hg : 5 * Kp * tau <= 1)
  (Hdr : p_drag p = 0) (Hgz : vz (p_grav p) = - W)
  (Hmn : 0 <= mn /\ lift kf mn <= W - 2 * p_mass p * Kp * e0) (Hmx : 0 <= mx /\ W <= lift kf mx).

Record falling (e w : R) (s : Sim R G H) : Prop := {
  fl_v : vsim p inv pos yaw s;
  fl_armed : sm_armed s = true; fl_mode : sm_mode s = VELOCITY; fl_floor : sm_floor_en s = false; fl_ext : sm_ext s = mkV 0 0 0;
  fl_ref : vz (rf_vel (sm_refs s)) = vr;
  fl_mass : ac_mass (ct_acro (sm_ctl s)) = p_mass p; fl_grav : p_mass p * vz (ac_grav (ct_acro (sm_ctl s))) = - W;
  fl_pid : low_gain Kp (Kp * e0) (pid_c (ct_vel (sm_ctl s)));
  fl_speed : vz (s_vel (sim_state s)) = vr + e;
  fl_rot : s_mvel (sim_state s) = [w; w; w; w] }.

Lemma half : 2 * (p_mass p * Kp * e0) <= W.
Proof using Hmn Hk. destruct Hmn as [A B]. assert (0 <= lift kf mn); [|lra]. unfold lift. apply Rmult_le_pos; [lra|]. apply Rmult_le_pos; exact A. Qed.

Lemma sink_control e w s : falling e w s -> 0 <= e <= e0 ->
  let c := speed kf (W - p_mass p * Kp * e) in
  let s' := update_controller 4 s dt in falling e w s' /\ sm_act s' = [c; c; c; c].
Proof.
  intros [V A M F X Rv Ma Gr P Sd Ro] E. cbv zeta.
  pose proof (vsim_update p inv pos yaw s dt Hy Sp V) as V'.
  unfold update_controller in *. rewrite A in *. cbn [negb] in *. cbv zeta in *.
  set (s1 := match sm_yawmode s with ANGLE => s | RATE => update_yaw_reference s end) in *.
  assert (V1 : vsim p inv pos yaw s1) by (unfold s1; destruct (sm_yawmode s); [exact V|apply vsim_yaw; assumption]).
  assert (C1 : sm_mode s1 = VELOCITY /\ sm_floor_en s1 = false /\ sm_ext s1 = mkV 0 0 0 /\ vz (rf_vel (sm_refs s1)) = vr /\
    sm_armed s1 = true /\ sm_ctl s1 = sm_ctl s /\ sim_state s1 = sim_state s).
  { unfold s1. destruct (sm_yawmode s); repeat split; assumption. }
  clearbody s1. destruct C1 as (C1 & C2 & C3 & C4 & C5 & C6 & C7). rewrite C1 in *.
  rewrite <- C6 in Ma, Gr, P. rewrite <- C7 in Sd, Ro.
  pose proof V1 as [B1 ([P1 P2] & Or & Ve & Wz & Ew) B3 B4 B5 B6 B7 B8 B9 B10 B11]. rewrite Or, level_mat, Wz in *.
  assert (Ey : rf_yaw (sm_refs s1) = yaw) by (destruct B11 as [B|[_ B]]; [congruence|exact B]). rewrite Ey in *.
  set (c0 := sm_ctl s1) in *. set (cv := s_vel (sim_state s1)) in *. set (dv := rf_vel (sm_refs s1)) in *.
  pose proof (up_sub _ _ B8 Ve) as Ue.
  assert (Er : vz (vsub dv cv) = - e) by (cbn; unR; rewrite C4, Sd; ring).
  assert (Out : vz (ps_out (pid_s (pid_compute (ct_vel c0) dt (vsub dv cv)))) = - (Kp * e)).
  { rewrite (low_out Kp (Kp * e0)); [rewrite Er; ring|exact (vt_vel inv c0 B4)|exact Ue|exact P|]. rewrite Er.
    assert (0 <= Kp * e) by (apply Rmult_le_pos; lra). assert (Kp * e <= Kp * e0) by (apply Rmult_le_compat_l; lra). lra. }
  pose proof (proj2 (up_compute (ct_vel c0) dt (vsub dv cv) (vt_vel inv c0 B4) Ue)) as Uo.
  unfold ctl_vel in *. cbv zeta in *. unfold pid_on_error, get_error in *.
  set (p' := pid_compute (ct_vel c0) dt (vsub dv cv)) in *. set (acc := ps_out (pid_s p')) in *.
  set (c1 := mkCtl (ct_acro c0) (ct_indi c0) (ct_pos c0) (ct_traj c0) p' (ct_dpos c0) dv acc (ct_dthrust c0) (ct_dang c0) (ct_dmotor c0)) in *.
  assert (Vc1 : vctl inv c1).
  { pose proof (proj1 (up_compute (ct_vel c0) dt (vsub dv cv) (vt_vel inv c0 B4) Ue)). destruct B4. split; assumption. }
  pose proof (level_rates c1 acc yaw dt (vt_grav inv c1 Vc1) Uo) as Wr.
  destruct (ctl_acc_shape c1 (rot_z yaw) (mkV 0 0 0) acc yaw dt) as (_ & D2 & D3 & D4 & D5 & D6). cbv zeta in *.
  destruct (acc_records c1 (rot_z yaw) (mkV 0 0 0) acc yaw dt) as (_ & _ & _ & _ & _ & Pv). cbn [get_pid ctl_step] in Pv.
  set (c2 := ctl_acc c1 (rot_z yaw) (mkV 0 0 0) acc yaw dt) in *.
  rewrite D3 in Wr. rewrite Wr in D5.
  assert (Tt : p_mass p * (vz acc - vz (ac_grav (ct_acro c0))) = W - p_mass p * Kp * e) by (rewrite Out; lra).
  assert (Tp : 0 <= W - p_mass p * Kp * e) by (apply (cmd_sink (p_mass p) W Kp e0 Hm HW HK half); lra).
  assert (Th : fst (snd (acc_to_acro (ct_acro c1) acc (rot_z yaw) yaw)) = W - p_mass p * Kp * e).
  { rewrite <- Tt, <- Ma. apply level_thrust; [exact (vt_grav inv c0 B4)|exact Uo|]. change (ct_acro c1) with (ct_acro c0). rewrite Ma, Tt. exact Tp. }
  rewrite Th in D5. split.
  - split; try assumption.
    + change (ac_mass (ct_acro c2) = p_mass p). rewrite D4. exact Ma.
    + change (p_mass p * vz (ac_grav (ct_acro c2)) = - W). rewrite D4. exact Gr.
    + change (low_gain Kp (Kp * e0) (pid_c (ct_vel c2))). rewrite Pv. exact P.
  - change (ct_dmotor c2 = let c := speed kf (W - p_mass p * Kp * e) in [c; c; c; c]). rewrite D6, D5.
    rewrite (indi_value kf inv); [|exact Sv|exact (vt_minv inv c0 B4)|exact (vt_rest inv c0 B4)|exact (vt_calm inv c0 B4)].
    rewrite (speed_root kf Hk) by exact Tp. reflexivity.
Qed.

Lemma slow_range d w : sinking kf (p_mass p) W Kp e0 d w -> mn <= w <= mx.
Proof.
  intros (D & A & B). destruct Hmn as [N1 N2]. destruct Hmx as [X1 X2]. pose proof (wh_pos kf W Hk HW) as Pw. pose proof half as Hh.
  assert (mk : 0 < p_mass p * Kp) by (apply Rmult_lt_0_compat; lra).
  pose proof (part_range (p_mass p) W Kp e0 Hm HW HK Hh d D) as P.
  assert (Ew : w = wh kf W * (1 - behind kf W w)) by (unfold behind; field; lra).
  assert (Wp : 0 <= w) by (rewrite Ew; apply Rmult_le_pos; lra).
  pose proof (lift_behind kf W Hk HW w) as L. split; (apply (lift_le kf Hk); [assumption|]).
  - assert (part (p_mass p) W Kp d <= p_mass p * Kp * e0 / W).
    { unfold part. apply Rmult_le_compat_r; [left; apply Rinv_0_lt_compat; lra|]. apply Rmult_le_compat_l; lra. }
    assert (W * behind kf W w <= p_mass p * Kp * e0).
    { replace (p_mass p * Kp * e0) with (W * (p_mass p * Kp * e0 / W)) by (field; lra). apply Rmult_le_compat_l; lra. }
    assert (0 <= W * (behind kf W w * behind kf W w)) by (apply Rmult_le_pos; [lra|apply Rmult_le_pos; lra]). lra.
  - assert (0 <= W * (behind kf W w * (2 - behind kf W w))) by (apply Rmult_le_pos; [lra|apply Rmult_le_pos; lra]). lra.
Qed.

Lemma sink_motion e w s s' : falling e w s -> sinking kf (p_mass p) W Kp e0 e w ->
  (let c := speed kf (W - p_mass p * Kp * e) in sm_act s = [c; c; c; c]) -> next (update_dynamics s dt) s' ->
  falling (sink_d kf (p_mass p) W dt e w) (sink_w kf (p_mass p) W Kp tau dt e w) s'.
Proof.
  intros [V A M F X Rv Ma Gr P Sd Ro] S Act N.
  pose proof (vsim_dynamics p inv mn mx tau kf pos yaw s dt s' Q Hn Hgr V N) as V'.
  destruct N as [N|N].
  2:{ destruct (ud_throw R_sane _ _ _ N) as [K _]. unR. apply Rleb_true in K. lra. }
  destruct (ud_ok _ _ _ N) as (ext & d & Fm & E & _ & E'). cbv zeta in E'.
  assert (Bf : below_floor s = false) by (unfold below_floor; rewrite F; reflexivity).
  rewrite Bf in E. rewrite X in E. subst ext.
  assert (Bf2 : below_floor (with_col (with_ext (with_dyn s d) v0) false) = false).
  { unfold below_floor. cbn [with_col with_ext with_dyn sm_floor_en]. rewrite F. reflexivity. }
  rewrite Bf2 in E'. subst s'.
  unfold free_motion in Fm. apply process_small_inv in Fm; [|lra].
  pose proof V as [B1 (Pp & Or & Ve & Wz & Ew) B3 B4 B5 B6 B7 B8 B9 B10 B11].
  split; cbn [with_col with_ext with_dyn sm_armed sm_mode sm_floor_en sm_refs sm_ctl sm_ext]; try assumption; try reflexivity.
  - (* speed *)
    pose proof (silent_core _ _ _ _ _ _ p (proj1 (proj2 B1)) Hn Fm) as Hs.
    pose proof (step_newton 4 _ _ _ _ _ _ p B1 Fm) as Nw. cbv zeta in Nw. destruct (Nw AZ) as (N1 & N2 & N3 & _). clear Nw.
    unfold sim_state. cbn [with_col with_ext with_dyn sm_dyn]. cbn [pr] in N1, N2, N3. rewrite N3, N2, N1. rewrite Hs.
    fold (sim_state s). rewrite Ro, Or. unfold vec_of. rewrite !(eq_force _ _ _ _ _ Q), level_up.
    cbn [pr v0 vx vy vz]. unfold drag_spec. cbn [pr]. rewrite Hdr, Hgz, Sd. unR.
    unfold sink_d, lift. unfold sq_signed. pose proof (slow_range e w S) as [Lw _]. destruct Hmn as [N0 _].
    rewrite (Rabs_pos_eq w) by lra. field. lra.
  - (* rotors *)
    destruct B1 as (Hr & Hp & Hla & Hlw). apply get_params_cfg in Hp as [c [Hc Hcp]].
    apply euler_core_inv in Fm as [_ Hi]. destruct (Hi c Hc) as (mo & des & macc & mvel & _ & _ & I1 & I2 & I3 & I4). cbv zeta in I4.
    rewrite Hcp in *. fold (sim_state s) in *. rewrite Act in I1. rewrite Ro in I2, I3.
    pose proof (next_sinking kf (p_mass p) W Kp tau dt e0 Hk Hm HW HK Ht Hd Hg half e w S) as S'.
    rewrite (even_clamp p tau kf mn mx Q) in I1.
    2:{ pose proof S as (S1 & S2). destruct Hmn as [N1 N2]. destruct Hmx as [X1 X2]. pose proof half as Hh.
        assert (Mk : 0 < p_mass p * Kp) by (apply Rmult_lt_0_compat; lra).
        assert (p_mass p * Kp * e <= p_mass p * Kp * e0) by (apply Rmult_le_compat_l; lra).
        assert (0 <= p_mass p * Kp * e) by (apply Rmult_le_pos; lra).
        split; (apply (lift_le kf Hk); [first [exact X1|apply speed_pos]|]; rewrite (lift_speed kf Hk) by lra; lra). }
    injection I1 as <-. rewrite (even_deriv p tau kf mn mx Q) in I2. cbv zeta in I2. injection I2 as <-. cbn [map ladd lmap2] in I3. unR.
    set (w' := sink_w kf (p_mass p) W Kp tau dt e w) in *. change (clamp_motors [w'; w'; w'; w'] (p_motors p) = Some mvel) in I3.
    rewrite (even_clamp p tau kf mn mx Q) in I3 by exact (slow_range _ _ S'). injection I3 as <-.
    unfold sim_state. cbn [with_col with_ext with_dyn sm_dyn]. rewrite I4. reflexivity.
Qed.

(** ** Many rounds *)
Definition sink_step (x : R * R) : R * R := (sink_d kf (p_mass p) W dt (fst x) (snd x), sink_w kf (p_mass p) W Kp tau dt (fst x) (snd x)).
Fixpoint sunk (w0 : R) (k : nat) : R * R := match k with 0%nat => (e0, w0) | Datatypes.S j => sink_step (sunk w0 j) end.

Lemma sunk_sinking w0 k : sinking kf (p_mass p) W Kp e0 e0 w0 -> let x := sunk w0 k in sinking kf (p_mass p) W Kp e0 (fst x) (snd x).
Proof.
  intros S0. cbv zeta. induction k as [|k IH]; cbn [sunk]; [exact S0|]. cbn [sink_step fst snd].
  exact (next_sinking kf (p_mass p) W Kp tau dt e0 Hk Hm HW HK Ht Hd Hg half _ _ IH).
Qed.
Lemma sunk_close w0 k : sinking kf (p_mass p) W Kp e0 e0 w0 -> 0 <= fst (sunk w0 k) <= 2 * (1 - 3 / 4 * (dt * Kp)) ^ k * e0.
Proof.
  intros S0. pose proof (sunk_sinking w0 k S0) as Sk. cbv zeta in Sk. split; [apply Sk|].
  assert (I : store kf (p_mass p) W tau (fst (sunk w0 k)) (snd (sunk w0 k)) <= (1 - 3 / 4 * (dt * Kp)) ^ k * e0).
  { clear Sk. induction k as [|k IH].
    - cbn [sunk fst snd pow]. rewrite Rmult_1_l. eapply store_up; try eassumption; exact half.
    - pose proof (sunk_sinking w0 k S0) as Sk. cbv zeta in Sk. cbn [sunk sink_step fst snd].
      apply Rle_trans with ((1 - 3 / 4 * (dt * Kp)) * store kf (p_mass p) W tau (fst (sunk w0 k)) (snd (sunk w0 k))).
      + eapply store_next; try eassumption; exact half.
      + cbn [pow]. rewrite Rmult_assoc. apply Rmult_le_compat_l; [|exact IH].
        assert (dt * Kp <= tau * Kp) by (apply Rmult_le_compat_r; lra). lra. }
  assert (fst (sunk w0 k) <= 2 * store kf (p_mass p) W tau (fst (sunk w0 k)) (snd (sunk w0 k))) by (eapply store_low; try eassumption; exact half). lra.
Qed.

Lemma sink_rounds w0 s k : falling e0 w0 s -> sinking kf (p_mass p) W Kp e0 e0 w0 -> forall s', sim_run 4 s (rounds dt k) = Some s' ->
  falling (fst (sunk w0 k)) (snd (sunk w0 k)) s'.
Proof.
  intros C S0. induction k as [|k IH]; intros s' K.
  - injection K as <-. exact C.
  - rewrite rounds_snoc, run_app in K. destruct (sim_run 4 s (rounds dt k)) as [s1|]; [|discriminate]. specialize (IH s1 eq_refl).
    pose proof (sunk_sinking w0 k S0) as A. cbv zeta in A. cbn [sim_run sim_step] in K.
    destruct (sink_control _ _ s1 IH (proj1 A)) as [C1 C2]. cbv zeta in C1, C2.
    cbn [sunk sink_step fst snd].
    destruct (update_dynamics (update_controller 4 s1 dt) dt) as [s2|s2|] eqn:U; [| |discriminate]; injection K as <-;
    (apply (sink_motion _ _ (update_controller 4 s1 dt)); [exact C1|exact A|exact C2|]); [left|right]; exact U.
Qed.
End Sim.

(** ** From the start *)
Lemma sink_flight {G H : Gen R} yaw W Kp tau kf mn mx w0 d0 sp : sinks yaw W Kp tau kf mn mx w0 d0 sp ->
  forall y dt, 0 < dt <= tau -> dt <= 1/100 -> let v0 := vz (s_vel (sp_state sp)) in let vr := v0 - d0 in
  exists v : nat -> R, v 0%nat = v0 /\
  (forall k, exists s : Sim R G H, sim_after 4 sp (climb_calls y vr dt k) = Some s /\ s_vel (sim_state s) = mkV 0 0 (v k)) /\
  forall k, vr <= v (S k) <= v k /\ v k - vr <= 2 * (1 - 3 / 4 * (dt * Kp)) ^ k * d0.
Proof.
  intros [Fit Fair (kt & x & yy & J & K2 & K3 & K4 & L) Hk Ht Hm Hdr Hgz HW Cm Cg Gp Gi Gd HK Hs Lim Mv He (Pw & L1 & L2) Mn Mx] y dt Hd Hdm v0 vr.
  destruct Fair as (_ & Ck & Hn & Hgr & Fc & Or & Hy & Ve & Wz & Ew).
  assert (Kf : kf <> 0) by lra.
  destruct (layout_even kf kt x yy mn mx tau J _ Kf K2 K3 K4 L) as [Q Sp]. specialize (Sp _ (proj1 Fc)).
  pose proof (layout_value kf kt x yy mn mx tau J _ Kf K2 K3 K4 L _ (proj1 Fc)) as Sv.
  set (p := sp_model sp) in *. set (inv := ip_minv (cp_indi (sp_ctl sp))) in *. set (pos := s_pos (sp_state sp)).
  assert (Hg : 5 * Kp * tau <= 1) by lra.
  assert (Hh : 2 * (p_mass p * Kp * d0) <= W).
  { destruct Mn as [M1 M2]. assert (0 <= 4 * kf * (mn * mn)) by (apply Rmult_le_pos; [lra|apply Rmult_le_pos; exact M1]). lra. }
  assert (S0 : sinking kf (p_mass p) W Kp d0 d0 w0).
  { split; [lra|]. pose proof (lift_behind kf W Hk HW w0) as Lb. unfold lift in Lb. pose proof (wh_pos kf W Hk HW) as Whp.
    assert (Wl : w0 <= wh kf W). { apply (lift_le kf Hk); [lra|]. rewrite lift_wh by assumption. exact L2. }
    assert (B0 : 0 <= behind kf W w0). { unfold behind. apply Rmult_le_pos; [lra|]. left. apply Rinv_0_lt_compat. exact Whp. }
    assert (B1 : behind kf W w0 <= 1).
    { unfold behind. apply Rmult_le_reg_r with (wh kf W); [exact Whp|]. unfold Rdiv. rewrite Rmult_assoc, Rinv_l by lra. lra. }
    split; [exact B0|]. set (b := behind kf W w0) in *. apply Rle_trans with (b * (2 - b)); [nra|].
    apply Rmult_le_reg_l with W; [exact HW|]. rewrite <- Lb. unfold part. replace (W * (p_mass p * Kp * d0 / W)) with (p_mass p * Kp * d0) by (field; lra). lra. }
  pose (e := fun k => fst (sunk p W Kp tau kf d0 dt w0 k)).
  exists (fun k => vr + e k). split; [unfold e, vr; cbn [sunk fst]; ring|]. split.
  - intros k. destruct (simulator_defined (G := G) (H := H) 4 sp (climb_calls y vr dt k) Fit) as [s K].
    { unfold climb_calls. apply Forall_app. split; [repeat (apply Forall_cons; [exact I|]); apply Forall_nil|].
      induction k as [|k IH]; [apply Forall_nil|]. rewrite rounds_snoc. apply Forall_app. split; [exact IH|].
      apply Forall_cons; [exact I|]. apply Forall_cons; [cbn; lra|apply Forall_nil]. }
    exists s. split; [exact K|].
    unfold sim_after in K. destruct (sim_new 4 sp) as [s0|] eqn:N; [|discriminate].
    destruct (new_fields 4 _ _ N) as (F1 & F2 & F3 & F4 & F5 & F6 & F7 & F8 & d & Dn & Ed).
    destruct (new_params _ _ _ _ _ Dn Ck) as (Mr & Gp' & Ds).
    assert (C : sm_ctl s0 = ctl_new 4 (sp_ctl sp)).
    { unfold sim_new in N. destruct (dyn_new _ _ _ _); [|discriminate]. cbn in N. injection N as <-. reflexivity. }
    assert (St : sim_state s0 = sp_state sp) by (unfold sim_state; rewrite Ed; exact Ds).
    assert (Z : upright LinAlg.v0) by (split; reflexivity).
    assert (V0 : vsim p inv pos yaw s0).
    { split; rewrite ?F3, ?F4, ?F6, ?F8, ?C, ?St; try exact Z; try (exists 0; reflexivity); try reflexivity.
      - split; [rewrite Ed; exact Mr|]. split; [rewrite Ed; exact Gp'|]. split; [reflexivity|].
        rewrite Ed, Ds. apply even_len, Ew.
      - split; [split; reflexivity|]. split; [exact Or|]. split; [exact Ve|]. split; [exact Wz|exact Ew].
      - apply (new_vctl 4 (p_motors p)); [exact Fc|apply Fc].
      - left. reflexivity. }
    unfold climb_calls in K. rewrite run_app in K. cbn [sim_run sim_step] in K.
    set (s1 := set_ref_vel (arm (set_control_mode s0 VELOCITY y)) (mkV 0 0 vr)) in *.
    assert (V1 : vsim p inv pos yaw s1).
    { apply (vertical_run p inv mn mx tau kf pos yaw [SMode VELOCITY y; SArm; SRefVel (mkV 0 0 vr)] s0); try assumption.
      - exact (proj1 Fc).
      - apply Forall_cons; [exact I|]. apply Forall_cons; [exact I|]. apply Forall_cons; [split; reflexivity|apply Forall_nil].
      - reflexivity. }
    assert (E1 : sm_mode s1 = VELOCITY /\ sm_floor_en s1 = false /\ sm_ext s1 = mkV 0 0 0 /\ sm_ctl s1 = sm_ctl s0 /\ sim_state s1 = sim_state s0).
    { unfold s1, set_control_mode. rewrite F4. cbn [mode_eqb andb]. repeat split; assumption. }
    destruct E1 as (E1 & E2 & E3 & E4 & E5).
    assert (Cl : falling p inv pos yaw W Kp vr d0 d0 w0 s1).
    { split; try assumption; try reflexivity.
      - rewrite E4, C. exact Cm.
      - rewrite E4, C. exact Cg.
      - rewrite E4, C, <- Gp. apply new_low; try assumption. rewrite Gp. exact Lim.
      - rewrite E5, St. unfold vr, v0. ring.
      - rewrite E5, St. exact Mv. }
    pose proof (sink_rounds p inv pos yaw W Kp tau kf mn mx vr d0 dt Q Hn Hgr Hy Sp Sv Hk Hm HW HK Ht Hd Hdm Hg Hdr Hgz Mn Mx w0 s1 k Cl S0 s K) as R.
    pose proof (fl_speed _ _ _ _ _ _ _ _ _ _ _ R) as Rs. destruct (fl_v _ _ _ _ _ _ _ _ _ _ _ R) as [_ (_ & _ & [U1 U2] & _) _ _ _ _ _ _ _ _ _].
    fold (e k) in Rs. apply V3_eq; cbn [vx vy vz]; assumption.
  - intros k. pose proof (sunk_sinking p W Kp tau kf mn d0 dt Hk Hm HW HK Ht Hd Hg Mn w0 k S0) as A.
    assert (Cl : forall j, 0 <= e j <= 2 * (1 - 3 / 4 * (dt * Kp)) ^ j * d0) by (intros j; eapply sunk_close; eassumption).
    pose proof (Cl (S k)) as [A' _]. specialize (Cl k). destruct Cl as [_ Cl].
    cbv zeta in A. assert (Up : e (S k) <= e k) by (unfold e at 1; cbn [sunk sink_step fst]; eapply sink_less; try eassumption). split; [split|]; lra.
Qed.

Lemma sink_reached {G H : Gen R} yaw W Kp tau kf mn mx w0 d0 sp : sinks yaw W Kp tau kf mn mx w0 d0 sp ->
  forall y dt, 0 < dt <= tau -> dt <= 1/100 -> let vr := vz (s_vel (sp_state sp)) - d0 in
  forall eps, 0 < eps -> exists N, forall k, (N <= k)%nat -> exists s : Sim R G H,
    sim_after 4 sp (climb_calls y vr dt k) = Some s /\ Rabs (vr - vz (s_vel (sim_state s))) < eps.
Proof.
  intros C y dt Hd Hdm vr eps He. destruct (sink_flight (G := G) (H := H) _ _ _ _ _ _ _ _ _ _ C y dt Hd Hdm) as (v & _ & F & B). fold vr in F, B.
  destruct C as [_ _ _ Hk Ht Hm _ _ HW _ _ _ _ _ HK Hs _ _ E0 _ _ _].
  assert (R0 : 0 < dt * Kp) by (apply Rmult_lt_0_compat; lra).
  set (g := 3 / 4 * (dt * Kp)) in *.
  assert (Kd : dt * Kp <= 1/5).
  { apply Rle_trans with (tau * Kp); [apply Rmult_le_compat_r; lra|lra]. }
  assert (G0 : 0 < g < 1) by (unfold g; lra). clearbody g.
  destruct (pow_lt_1_zero (1 - g)) with (y := eps / (2 * d0 + 1)) as [N HN].
  { rewrite Rabs_pos_eq; lra. }
  { apply Rmult_lt_0_compat; [exact He|apply Rinv_0_lt_compat; lra]. }
  exists N. intros k Hk'. destruct (F k) as (s & A & Vs). exists s. split; [exact A|]. rewrite Vs. cbn [vz].
  destruct (B k) as [[B0 B1] B2].
  rewrite Rabs_left1 by lra. specialize (HN k Hk'). rewrite Rabs_pos_eq in HN by (apply pow_le; lra).
  set (q := (1 - g) ^ k) in *.
  assert (Q : q * (2 * d0 + 1) < eps).
  { apply Rmult_lt_reg_r with (/ (2 * d0 + 1)); [apply Rinv_0_lt_compat; lra|]. rewrite Rmult_assoc, Rinv_r by lra. unfold Rdiv in HN. lra. }
  assert (0 <= q) by (apply pow_le; lra). lra.
Qed.
