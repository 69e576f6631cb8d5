(** A vehicle held at rest by whatever its velocity loop adds to the weight. *)

From Coq Require Import ZArith List Bool Lia Reals Lra Psatz.
From Verif Require Import Scalar LinAlg MUtils MModel MDynamics MPid MControl MCtlRun MImu MSim
  SpecDyn SpecRun SpecMix SpecPid SpecCtl SpecImu SpecSim SpecVertical SpecClimb
  PBase PDyn PModel PDynR PPhys PNoise PDynMore PVeh PMix PPid PPidR PCtl PCtlR PCtlMix PImu PSim PSimR PHover PSimEnd PVertical PClimb PClimbSim.
Import ListNotations.
Local Open Scope R_scope.

Section Hold.
Context {G H : Gen R}.
Variables (p : Params R) (inv : list (V3 R * V3 R)) (pos : V3 R) (yaw W A tau kf mn mx vr w dt : R) (Inv : Pid R -> Prop).
Hypotheses (Q : even_quad (p_motors p) mn mx tau kf) (Hn : p_fnoise p = 0) (Hgr : upright (p_grav p)) (Hy : - PI < yaw <= PI)
  (Sp : spreads inv) (Sv : spreads_to kf inv)
  (Hk : 0 < kf) (HW : 0 < W) (Hd : 0 < dt <= 1/100)
  (Hgz : vz (p_grav p) = - W) (Hw : 0 <= w) (Hl : 4 * kf * (w * w) = W) (Hmn : mn <= w <= mx)
  (HI : forall q, vpid q -> Inv q -> vz (ps_out (pid_s (pid_compute q dt (mkV 0 0 vr)))) = A /\ Inv (pid_compute q dt (mkV 0 0 vr))).

Record held (s : Sim R G H) : Prop := {
  he_v : vsim p inv pos yaw s;
  he_armed : sm_armed s = true; he_mode : sm_mode s = VELOCITY; he_floor : sm_floor_en s = false; he_ext : sm_ext s = mkV 0 0 0;
  he_ref : rf_vel (sm_refs s) = mkV 0 0 vr;
  he_told : ac_mass (ct_acro (sm_ctl s)) * (A - vz (ac_grav (ct_acro (sm_ctl s)))) = W;
  he_pid : Inv (ct_vel (sm_ctl s));
  he_speed : s_vel (sim_state s) = mkV 0 0 0;
  he_rot : s_mvel (sim_state s) = [w; w; w; w] }.

Lemma w_speed : speed kf W = w.
Proof.
  unfold speed. replace (W / (4 * kf)) with (w * w) by (rewrite <- Hl; field; lra). apply sqrt_square, Hw.
Qed.

Lemma hold_control s : held s -> let s' := update_controller 4 s dt in held s' /\ sm_act s' = [w; w; w; w].
Proof.
  intros [V Ar M F X Rv Td P Sd Ro]. cbv zeta.
  pose proof (vsim_update p inv pos yaw s dt Hy Sp V) as V'.
  unfold update_controller in *. rewrite Ar in *. cbn [negb] in *. cbv zeta in *.
  set (s1 := match sm_yawmode s with ANGLE => s | RATE => update_yaw_reference s end) in *.
  assert (V1 : vsim p inv pos yaw s1) by (unfold s1; destruct (sm_yawmode s); [exact V|apply vsim_yaw; assumption]).
  assert (C1 : sm_mode s1 = VELOCITY /\ sm_floor_en s1 = false /\ sm_ext s1 = mkV 0 0 0 /\ rf_vel (sm_refs s1) = mkV 0 0 vr /\
    sm_armed s1 = true /\ sm_ctl s1 = sm_ctl s /\ sim_state s1 = sim_state s).
  { unfold s1. destruct (sm_yawmode s); repeat split; assumption. }
  clearbody s1. destruct C1 as (C1 & C2 & C3 & C4 & C5 & C6 & C7). rewrite C1 in *.
  rewrite <- C6 in Td, P. rewrite <- C7 in Sd, Ro.
  pose proof V1 as [B1 ([P1 P2] & Or & Ve & Wz & Ew) B3 B4 B5 B6 B7 B8 B9 B10 B11]. rewrite Or, level_mat, Wz in *.
  assert (Ey : rf_yaw (sm_refs s1) = yaw) by (destruct B11 as [B|[_ B]]; [congruence|exact B]). rewrite Ey in *.
  set (c0 := sm_ctl s1) in *. rewrite C4, Sd in *.
  assert (Er : vsub (mkV 0 0 vr) (mkV 0 0 0) = mkV 0 0 vr) by (unV; f_equal; ring).
  assert (Uv : upright (mkV 0 0 vr)) by (split; reflexivity).
  unfold ctl_vel in *. cbv zeta in *. unfold pid_on_error, get_error in *. rewrite Er in *.
  destruct (HI _ (vt_vel inv c0 B4) P) as [Out Pi].
  pose proof (up_compute (ct_vel c0) dt (mkV 0 0 vr) (vt_vel inv c0 B4) Uv) as [Vp Uo].
  set (p' := pid_compute (ct_vel c0) dt (mkV 0 0 vr)) in *. set (acc := ps_out (pid_s p')) in *.
  set (c1 := mkCtl (ct_acro c0) (ct_indi c0) (ct_pos c0) (ct_traj c0) p' (ct_dpos c0) (mkV 0 0 vr) acc (ct_dthrust c0) (ct_dang c0) (ct_dmotor c0)) in *.
  assert (Vc1 : vctl inv c1) by (destruct B4; split; assumption).
  pose proof (level_rates c1 acc yaw dt (vt_grav inv c1 Vc1) Uo) as Wr.
  destruct (ctl_acc_shape c1 (rot_z yaw) (mkV 0 0 0) acc yaw dt) as (_ & D2 & D3 & D4 & D5 & D6). cbv zeta in *.
  destruct (acc_records c1 (rot_z yaw) (mkV 0 0 0) acc yaw dt) as (_ & _ & _ & _ & _ & Pv). cbn [get_pid ctl_step] in Pv.
  set (c2 := ctl_acc c1 (rot_z yaw) (mkV 0 0 0) acc yaw dt) in *.
  rewrite D3 in Wr. rewrite Wr in D5.
  assert (Th : fst (snd (acc_to_acro (ct_acro c1) acc (rot_z yaw) yaw)) = W).
  { rewrite <- Td, <- Out. apply level_thrust; [exact (vt_grav inv c0 B4)|exact Uo|]. change (ct_acro c1) with (ct_acro c0). rewrite Out, Td. lra. }
  rewrite Th in D5. split.
  - split; try assumption.
    + change (ac_mass (ct_acro c2) * (A - vz (ac_grav (ct_acro c2))) = W). rewrite D4. exact Td.
    + change (Inv (ct_vel c2)). rewrite Pv. exact Pi.
  - change (ct_dmotor c2 = [w; w; w; w]). rewrite D6, D5.
    rewrite (indi_value kf inv); [|exact Sv|exact (vt_minv inv c0 B4)|exact (vt_rest inv c0 B4)|exact (vt_calm inv c0 B4)].
    assert (E : sqrtks (W / (4 * kf)) = w) by (rewrite speed_root by (try assumption; lra); apply w_speed). rewrite E. reflexivity.
Qed.

Lemma hold_motion s s' : held s -> sm_act s = [w; w; w; w] -> next (update_dynamics s dt) s' -> held s'.
Proof.
  intros [V Ar M F X Rv Td P Sd Ro] Act N.
  pose proof (vsim_dynamics p inv mn mx tau kf pos yaw s dt s' Q Hn Hgr V N) as V'.
  destruct N as [N|N].
  2:{ destruct (ud_throw R_sane _ _ _ N) as [K _]. unR. apply Rleb_true in K. lra. }
  destruct (ud_ok _ _ _ N) as (ext & d & Fm & E & _ & E'). cbv zeta in E'.
  assert (Bf : below_floor s = false) by (unfold below_floor; rewrite F; reflexivity).
  rewrite Bf in E. rewrite X in E. subst ext.
  assert (Bf2 : below_floor (with_col (with_ext (with_dyn s d) v0) false) = false).
  { unfold below_floor. cbn [with_col with_ext with_dyn sm_floor_en]. rewrite F. reflexivity. }
  rewrite Bf2 in E'. subst s'.
  unfold free_motion in Fm. apply process_small_inv in Fm; [|lra].
  pose proof V as [B1 (Pp & Or & Ve & Wz & Ew) B3 B4 B5 B6 B7 B8 B9 B10 B11].
  split; cbn [with_col with_ext with_dyn sm_armed sm_mode sm_floor_en sm_refs sm_ctl sm_ext]; try assumption; try reflexivity.
  - (* speed *)
    destruct V' as [_ (_ & _ & [V1 V2] & _) _ _ _ _ _ _ _ _ _].
    apply V3_eq; cbn [vx vy vz]; [exact V1|exact V2|]. clear V1 V2.
    pose proof (silent_core _ _ _ _ _ _ p (proj1 (proj2 B1)) Hn Fm) as Hs.
    pose proof (step_newton 4 _ _ _ _ _ _ p B1 Fm) as Nw. cbv zeta in Nw. destruct (Nw AZ) as (N1 & N2 & N3 & _). clear Nw.
    unfold sim_state. cbn [with_col with_ext with_dyn sm_dyn]. cbn [pr] in N1, N2, N3. rewrite N3, N2, N1. rewrite Hs.
    fold (sim_state s). rewrite Ro, Or. unfold vec_of. rewrite !(eq_force _ _ _ _ _ Q), level_up.
    cbn [pr v0 vx vy vz]. unfold drag_spec. cbn [pr]. rewrite Hgz, Sd. unfold sq_signed. cbn [vz]. rewrite Rabs_R0, (Rabs_pos_eq w) by exact Hw. unR.
    replace (4 * kf * (w * w)) with W. unfold Rdiv. ring.
  - (* rotors *)
    destruct B1 as (Hr & Hp & Hla & Hlw). apply get_params_cfg in Hp as [c [Hc Hcp]].
    apply euler_core_inv in Fm as [_ Hi]. destruct (Hi c Hc) as (mo & des & macc & mvel & _ & _ & I1 & I2 & I3 & I4). cbv zeta in I4.
    rewrite Hcp in *. fold (sim_state s) in *. rewrite Act in I1. rewrite Ro in I2, I3.
    assert (Cl : clamp_motors [w; w; w; w] (p_motors p) = Some [w; w; w; w]) by (eapply even_clamp; eassumption).
    rewrite Cl in I1. injection I1 as <-. erewrite even_deriv in I2 by eassumption. cbv zeta in I2. injection I2 as <-. cbn [map ladd lmap2] in I3. unR.
    replace (ladd _ _) with [w; w; w; w] in I3 by (unfold ladd; cbn; unR; repeat (apply f_equal2; [unfold Rdiv; ring|]); reflexivity).
    rewrite Cl in I3. injection I3 as <-.
    unfold sim_state. cbn [with_col with_ext with_dyn sm_dyn]. rewrite I4. reflexivity.
Qed.

Lemma hold_rounds k : forall s, held s -> forall s', sim_run 4 s (rounds dt k) = Some s' -> held s'.
Proof.
  induction k as [|k IH]; intros s Hs s' E; [injection E as <-; exact Hs|].
  rewrite rounds_snoc, run_app in E. destruct (sim_run 4 s (rounds dt k)) as [s1|] eqn:E1; [|discriminate].
  pose proof (IH s Hs s1 E1) as H1. destruct (hold_control s1 H1) as [H2 A2]. cbn [sim_run sim_step] in E.
  assert (N : next (update_dynamics (update_controller 4 s1 dt) dt) s').
  { destruct (update_dynamics _ _); [left|right|discriminate]; injection E as ->; reflexivity. }
  exact (hold_motion _ _ H2 A2 N).
Qed.
End Hold.
