(** The descent of the simulator to a height follows the scalar recurrence. *)

From Coq Require Import ZArith List Bool Lia Reals Lra Psatz.
From Verif Require Import Scalar LinAlg MUtils MModel MDynamics MPid MControl MCtlRun MImu MSim
  SpecDyn SpecRun SpecMix SpecPid SpecCtl SpecImu SpecSim SpecVertical SpecClimb SpecSink SpecHeight SpecLower
  PBase PDyn PModel PDynR PPhys PNoise PDynMore PVeh PMix PPid PPidR PCtl PCtlR PCtlMix PImu PSim PSimR PHover PSimEnd PVertical PClimb PClimbSim PSinkSim PHeight PHeightSim PLower.
Import ListNotations.
Local Open Scope R_scope.

Section Sim.
Context {G H : Gen R}.
Variables (p : Params R) (inv : list (V3 R * V3 R)) (pos : V3 R) (yaw W Kv Kx tau kf mn mx zr h dt : R).
Hypotheses (Q : even_quad (p_motors p) mn mx tau kf) (Hn : p_fnoise p = 0) (Hgr : upright (p_grav p)) (Hy : - PI < yaw <= PI)
  (Sp : spreads inv) (Sv : spreads_to kf inv)
  (Hk : 0 < kf) (Hm : 0 < p_mass p) (HW : 0 < W) (HKv : 0 < Kv) (HKx : 0 < Kx) (Ht : 0 < tau) (Hd : 0 < dt <= tau) (Hdm : dt <= 1/100)
  (Hg : 5 * Kv * tau <= 1) (Hx : 5 * Kx <= Kv) (Hh : 4 * (p_mass p * Kv * Kx * h) <= W)
  (Hdr : p_drag p = 0) (Hgz : vz (p_grav p) = - W)
  (Hmn : 0 <= mn /\ lift kf mn <= W - 2 * (p_mass p * Kv * Kx * h)) (Hmx : 0 <= mx /\ W + 5 * (p_mass p * Kv * Kx * h) <= lift kf mx).

Definition near := settling kf (p_mass p) W Kv Kx h.
Notation lifting := (lifting p inv pos yaw W Kv Kx zr h).
Record dropping (e v w : R) (s : Sim R G H) : Prop := { dr_l : lifting e v w s; dr_low : low_gain Kx (Kx * h) (pid_c (ct_pos (sm_ctl s))) }.

(** What the loops ask for stays within their limits. *)
Definition out_limits (e v : R) : Prop :=
  - (Kx * h) <= Kx * e <= 0 /\ - (Kv * Kx * h) <= want Kv Kx e v <= Kv * Kx * h /\ 0 <= W + p_mass p * want Kv Kx e v.

Lemma drop_control e v w s : dropping e v w s -> out_limits e v ->
  let c := speed kf (W + p_mass p * want Kv Kx e v) in
  let s' := update_controller 4 s dt in dropping e v w s' /\ sm_act s' = [c; c; c; c].
Proof using Hy Sp Sv Hk HKv.
  intros [[V A M F X Rp Ma Gr Pp Pu Pl Pz Sd Ro] Pq] (Xe & Wv & Tp). cbv zeta.
  pose proof (vsim_update p inv pos yaw s dt Hy Sp V) as V'.
  unfold update_controller in *. rewrite A in *. cbn [negb] in *. cbv zeta in *.
  set (s1 := match sm_yawmode s with ANGLE => s | RATE => update_yaw_reference s end) in *.
  assert (V1 : vsim p inv pos yaw s1) by (unfold s1; destruct (sm_yawmode s); [exact V|apply vsim_yaw; assumption]).
  assert (C1 : sm_mode s1 = POSITION /\ sm_floor_en s1 = false /\ sm_ext s1 = mkV 0 0 0 /\ vz (rf_pos (sm_refs s1)) = zr /\
    sm_armed s1 = true /\ sm_ctl s1 = sm_ctl s /\ sim_state s1 = sim_state s).
  { unfold s1. destruct (sm_yawmode s); repeat split; assumption. }
  clearbody s1. destruct C1 as (C1 & C2 & C3 & C4 & C5 & C6 & C7). rewrite C1 in *.
  rewrite <- C6 in Ma, Gr, Pp, Pu, Pl, Pq. rewrite <- C7 in Pz, Sd, Ro.
  pose proof V1 as [B1 ([P1 P2] & Or & Ve & Wz & Ew) B3 B4 B5 B6 B7 B8 B9 B10 B11]. rewrite Or, level_mat, Wz in *.
  destruct B11 as [B|[[B12 B13] Ey]]; [congruence|]. rewrite Ey in *.
  set (c0 := sm_ctl s1) in *. set (cv := s_vel (sim_state s1)) in *. set (cp := s_pos (sim_state s1)) in *. set (dp := rf_pos (sm_refs s1)) in *.
  assert (Ue : upright (vsub dp cp)) by (split; cbn; unR; rewrite ?B12, ?B13, ?P1, ?P2; ring).
  assert (Er : vz (vsub dp cp) = e) by (cbn; unR; rewrite C4, Pz; ring).
  unfold ctl_pos in *. cbv zeta in *. unfold pid_on_error, get_error in *.
  assert (Out : vz (ps_out (pid_s (pid_compute (ct_pos c0) dt (vsub dp cp)))) = Kx * e).
  { rewrite (low_out Kx (Kx * h)); [rewrite Er; reflexivity|exact (vt_pos inv c0 B4)|exact Ue|exact Pq|]. rewrite Er. lra. }
  pose proof (up_compute (ct_pos c0) dt (vsub dp cp) (vt_pos inv c0 B4) Ue) as [Vp Up].
  set (q := pid_compute (ct_pos c0) dt (vsub dp cp)) in *. set (dv := ps_out (pid_s q)) in *.
  set (c00 := mkCtl (ct_acro c0) (ct_indi c0) q (ct_traj c0) (ct_vel c0) dp dv (ct_dacc c0) (ct_dthrust c0) (ct_dang c0) (ct_dmotor c0)) in *.
  assert (B4' : vctl inv c00) by (destruct B4; split; assumption).
  pose proof (up_sub _ _ Up Ve) as Uv.
  assert (Ev : vz (vsub dv cv) = Kx * e - v) by (change (vz dv - vz cv = Kx * e - v); rewrite Out, Sd; ring).
  assert (Out2 : vz (ps_out (pid_s (pid_compute (ct_vel c00) dt (vsub dv cv)))) = want Kv Kx e v).
  { unfold want in *. destruct (Rle_dec 0 (Kx * e - v)) as [S|S].
    - rewrite (gain_out Kv (Kv * Kx * h)); [rewrite Ev; reflexivity|exact (vt_vel inv c00 B4')|exact Uv|exact Pu|]. rewrite Ev.
      split; [apply Rmult_le_pos; lra|lra].
    - rewrite (low_out Kv (Kv * Kx * h)); [rewrite Ev; reflexivity|exact (vt_vel inv c00 B4')|exact Uv|exact Pl|]. rewrite Ev.
      assert (0 <= Kv * (v - Kx * e)) by (apply Rmult_le_pos; lra). lra. }
  pose proof (up_compute (ct_vel c00) dt (vsub dv cv) (vt_vel inv c00 B4') Uv) as [Vv Uo].
  unfold ctl_vel in *. cbv zeta in *. unfold pid_on_error, get_error in *.
  set (p' := pid_compute (ct_vel c00) dt (vsub dv cv)) in *. set (acc := ps_out (pid_s p')) in *.
  set (c1 := mkCtl (ct_acro c00) (ct_indi c00) (ct_pos c00) (ct_traj c00) p' (ct_dpos c00) dv acc (ct_dthrust c00) (ct_dang c00) (ct_dmotor c00)) in *.
  assert (Vc1 : vctl inv c1) by (destruct B4'; split; assumption).
  pose proof (level_rates c1 acc yaw dt (vt_grav inv c1 Vc1) Uo) as Wr.
  destruct (ctl_acc_shape c1 (rot_z yaw) (mkV 0 0 0) acc yaw dt) as (_ & D2 & D3 & D4 & D5 & D6). cbv zeta in *.
  destruct (acc_records c1 (rot_z yaw) (mkV 0 0 0) acc yaw dt) as (_ & _ & _ & Pw & _ & Pv). cbn [get_pid ctl_step] in Pv, Pw.
  set (c2 := ctl_acc c1 (rot_z yaw) (mkV 0 0 0) acc yaw dt) in *.
  rewrite D3 in Wr. rewrite Wr in D5.
  assert (Tt : p_mass p * (vz acc - vz (ac_grav (ct_acro c0))) = W + p_mass p * want Kv Kx e v) by (rewrite Out2; lra).
  assert (Th : fst (snd (acc_to_acro (ct_acro c1) acc (rot_z yaw) yaw)) = W + p_mass p * want Kv Kx e v).
  { rewrite <- Tt, <- Ma. apply level_thrust; [exact (vt_grav inv c0 B4)|exact Uo|]. change (ct_acro c1) with (ct_acro c0). rewrite Ma, Tt. exact Tp. }
  rewrite Th in D5. split.
  - split; [|change (low_gain Kx (Kx * h) (pid_c (ct_pos c2))); rewrite Pw; exact Pq]. split; try assumption.
    + change (ac_mass (ct_acro c2) = p_mass p). rewrite D4. exact Ma.
    + change (p_mass p * vz (ac_grav (ct_acro c2)) = - W). rewrite D4. exact Gr.
    + change (mere_gain Kx (Kx * h) (pid_c (ct_pos c2))). rewrite Pw. exact Pp.
    + change (mere_gain Kv (Kv * Kx * h) (pid_c (ct_vel c2))). rewrite Pv. exact Pu.
    + change (low_gain Kv (Kv * Kx * h) (pid_c (ct_vel c2))). rewrite Pv. exact Pl.
  - change (ct_dmotor c2 = let c := speed kf (W + p_mass p * want Kv Kx e v) in [c; c; c; c]). rewrite D6, D5.
    rewrite (indi_value kf inv); [|exact Sv|exact (vt_minv inv c0 B4)|exact (vt_rest inv c0 B4)|exact (vt_calm inv c0 B4)].
    rewrite (speed_root kf Hk) by exact Tp. reflexivity.
Qed.

Lemma near_limits e v w : near e v w -> out_limits (- e) (- v).
Proof.
  intros N. assert (Wl : W - 2 * (p_mass p * Kv * Kx * h) <= W + p_mass p * want Kv Kx (- e) (- v)) by (eapply want_drop; eassumption).
  destruct N as [[E1 E2] Nv Nf Na Nz].
  assert (Xe : 0 <= Kx * e) by (apply Rmult_le_pos; lra). assert (Xh : Kx * e <= Kx * h) by (apply Rmult_le_compat_l; lra).
  assert (Ve0 : 0 <= Kv * v) by (apply Rmult_le_pos; lra).
  assert (Vf : Kv * v <= Kv * (2 * Kx * e)) by (apply Rmult_le_compat_l; lra).
  assert (Vh : Kv * (Kx * e) <= Kv * (Kx * h)) by (apply Rmult_le_compat_l; lra).
  assert (0 <= p_mass p * Kv * Kx * h).
  { apply Rmult_le_pos; [|lra]. apply Rmult_le_pos; [|lra]. apply Rmult_le_pos; lra. }
  unfold out_limits, want in *. split; [|split]; lra.
Qed.
Lemma rotor_range e v w : near e v w -> mn <= w <= mx.
Proof.
  intros N. assert (L : W - 2 * (p_mass p * Kv * Kx * h) <= lift kf w <= W + 5 * (p_mass p * Kv * Kx * h)) by (eapply drop_range; eassumption).
  assert (P : 0 <= w) by exact (drop_rotor kf (p_mass p) W Kv Kx h Hk Hm HW HKv HKx Hh e v w N). destruct Hmn as [N1 N2]. destruct Hmx as [X1 X2].
  split; (apply (lift_le kf Hk); [assumption|lra]).
Qed.
Lemma ask_range e v w : near e v w -> mn <= speed kf (W + p_mass p * want Kv Kx (- e) (- v)) <= mx.
Proof.
  intros S.
  assert (Wl : W - 2 * (p_mass p * Kv * Kx * h) <= W + p_mass p * want Kv Kx (- e) (- v) <= W + 5 * (p_mass p * Kv * Kx * h)) by (eapply want_drop; eassumption).
  assert (0 <= p_mass p * Kv * Kx * h).
  { destruct S as [[E1 E2] _ _ _ _]. apply Rmult_le_pos; [|lra]. apply Rmult_le_pos; [|lra]. apply Rmult_le_pos; lra. }
  destruct Hmn as [M1 M2]. destruct Hmx as [X1 X2].
  split; (apply (lift_le kf Hk); [first [exact X1|apply speed_pos]|]; rewrite (lift_speed kf Hk) by lra; lra).
Qed.

(** ** Many rounds *)
Definition trip_down (x : trip) : trip :=
  mkTrip (dp dt (t_p x) (t_v x)) (dv kf (p_mass p) W dt (t_v x) (t_w x)) (dw kf (p_mass p) W Kv Kx tau dt (t_p x) (t_v x) (t_w x)).
Fixpoint sunk (w0 : R) (k : nat) : trip := match k with 0%nat => mkTrip h 0 w0 | Datatypes.S j => trip_down (sunk w0 j) end.
Definition tnear (x : trip) : Prop := near (t_p x) (t_v x) (t_w x).

Lemma sunk_near w0 k : near h 0 w0 -> tnear (sunk w0 k).
Proof.
  intros S0. induction k as [|k IH]; [exact S0|]. cbn [sunk]. unfold tnear, trip_down. cbn [t_p t_v t_w].
  eapply next_settling; eassumption.
Qed.
Lemma sunk_close w0 k : near h 0 w0 -> 0 <= t_p (sunk w0 k) <= 2 * (1 - 1 / 3 * (dt * Kx)) ^ k * h.
Proof.
  intros S0. pose proof (sunk_near w0 k S0) as Sk. split; [apply Sk|].
  assert (I : forall j, rest kf (p_mass p) W Kv tau (t_p (sunk w0 j)) (t_v (sunk w0 j)) (t_w (sunk w0 j)) <= (1 - 1 / 3 * (dt * Kx)) ^ j * h).
  { induction j as [|j IH].
    - cbn [sunk t_p t_v t_w pow]. rewrite Rmult_1_l. eapply rest_up; eassumption.
    - pose proof (sunk_near w0 j S0) as Sj. cbn [sunk]. unfold trip_down. cbn [t_p t_v t_w].
      apply Rle_trans with ((1 - 1 / 3 * (dt * Kx)) * rest kf (p_mass p) W Kv tau (t_p (sunk w0 j)) (t_v (sunk w0 j)) (t_w (sunk w0 j))).
      + eapply rest_next; eassumption.
      + cbn [pow]. rewrite Rmult_assoc. apply Rmult_le_compat_l; [|exact IH].
        assert (dt * Kx <= tau * Kx) by (apply Rmult_le_compat_r; lra). assert (tau * (5 * Kx) <= tau * Kv) by (apply Rmult_le_compat_l; lra). lra. }
  assert (t_p (sunk w0 k) <= 2 * rest kf (p_mass p) W Kv tau (t_p (sunk w0 k)) (t_v (sunk w0 k)) (t_w (sunk w0 k))) by exact (rest_low kf (p_mass p) W Kv Kx tau h HKv HKx Ht Hg Hx _ _ _ Sk).
  specialize (I k). lra.
Qed.
Lemma sunk_less w0 k : near h 0 w0 -> t_p (sunk w0 (Datatypes.S k)) <= t_p (sunk w0 k).
Proof. intros S0. pose proof (sunk_near w0 k S0) as Sk. cbn [sunk]. unfold trip_down. cbn [t_p]. exact (proj2 (dp_next kf (p_mass p) W Kv Kx tau dt h HKx Ht Hd Hg Hx _ _ _ Sk)). Qed.

Lemma dynamics_ctl (s s' : Sim R G H) : 0 < dt -> next (update_dynamics s dt) s' -> sm_ctl s' = sm_ctl s.
Proof.
  intros D [N|N].
  - destruct (ud_ok _ _ _ N) as (ext & d & Fm & E & _ & E'). cbv zeta in E'. subst s'. destruct (below_floor _); reflexivity.
  - destruct (ud_throw R_sane _ _ _ N) as [K _]. unR. apply Rleb_true in K. lra.
Qed.

Lemma drop_rounds w0 s k : dropping (- h) 0 w0 s -> near h 0 w0 -> forall s', sim_run 4 s (rounds dt k) = Some s' ->
  dropping (- t_p (sunk w0 k)) (- t_v (sunk w0 k)) (t_w (sunk w0 k)) s'.
Proof.
  intros C S0. induction k as [|k IH]; intros s' K.
  - injection K as <-. cbn [sunk t_p t_v t_w]. rewrite Ropp_0. exact C.
  - rewrite rounds_snoc, run_app in K. destruct (sim_run 4 s (rounds dt k)) as [s1|]; [|discriminate]. specialize (IH s1 eq_refl).
    pose proof (sunk_near w0 k S0) as A. cbn [sim_run sim_step] in K.
    destruct (drop_control _ _ _ s1 IH (near_limits _ _ _ A)) as [[C1 C0] C2]. cbv zeta in C1, C2, C0.
    cbn [sunk]. unfold trip_down. cbn [t_p t_v t_w].
    pose proof (sunk_near w0 (Datatypes.S k) S0) as A'. cbn [sunk] in A'. unfold tnear, trip_down in A'. cbn [t_p t_v t_w] in A'.
    assert (Pw : 0 <= t_w (sunk w0 k)) by exact (drop_rotor kf (p_mass p) W Kv Kx h Hk Hm HW HKv HKx Hh _ _ _ A).
    pose proof (rotor_range _ _ _ A') as R1. pose proof (ask_range _ _ _ A) as R2.
    rewrite <- dp_hp, <- dv_hv.
    assert (Nx : next (update_dynamics (update_controller 4 s1 dt) dt) s').
    { destruct (update_dynamics (update_controller 4 s1 dt) dt) as [s2|s2|]; [| |discriminate]; injection K as <-; [left|right]; reflexivity. }
    split; [|rewrite (dynamics_ctl _ _ (proj1 Hd) Nx); exact C0].
    apply (lift_motion p inv pos yaw W Kv Kx tau kf mn mx zr h dt Q Hn Hgr Hm Hd Hdm Hdr Hgz _ _ _ (update_controller 4 s1 dt)); [exact C1|exact Pw|exact R1|exact R2|exact C2|exact Nx].
Qed.
End Sim.

(** ** From the start *)
Lemma drop_begin {G H : Gen R} yaw W Kv Kx tau kf mn mx w0 h sp : hovers yaw W Kv Kx tau kf mn mx w0 h sp ->
  forall y, let start := s_pos (sp_state sp) in let target := down_by h start in
  forall hb, 0 <= hb -> gain_loop Kx (- (Kx * hb)) (Kx * hb) (cp_pos (sp_ctl sp)) -> gain_loop Kv (- (Kv * Kx * hb)) (Kv * Kx * hb) (cp_vel (sp_ctl sp)) ->
  exists s1 : Sim R G H, sim_after 4 sp [SMode POSITION y; SArm; SRefPos target] = Some s1 /\
    dropping (sp_model sp) (ip_minv (cp_indi (sp_ctl sp))) start yaw W Kv Kx (vz target) hb (- h) 0 w0 s1.
Proof.
  intros [Fit Fair (kt & x & yy & J & K2 & K3 & K4 & L) Hk Ht Hm Hdr Hgz HW Cm Cg _ _ [HKx HKv] He Mv (Pw & L1) St0 Mn Mx] y start target hb Hb (Gx1 & Gx2 & Gx3 & Gx4) (Gv1 & Gv2 & Gv3 & Gv4).
  destruct Fair as (_ & Ck & Hn & Hgr & Fc & Or & Hy & Ve & Wz & Ew).
  assert (Kf : kf <> 0) by lra.
  destruct (layout_even kf kt x yy mn mx tau J _ Kf K2 K3 K4 L) as [Q Sp]. specialize (Sp _ (proj1 Fc)).
  pose proof (layout_value kf kt x yy mn mx tau J _ Kf K2 K3 K4 L _ (proj1 Fc)) as Sv.
  set (p := sp_model sp) in *. set (inv := ip_minv (cp_indi (sp_ctl sp))) in *.
  set (zr := vz target).
  destruct (simulator_defined (G := G) (H := H) 4 sp [] Fit (Forall_nil _)) as [sA KA].
  unfold sim_after in KA. destruct (sim_new 4 sp) as [s0|] eqn:N; [|discriminate]. clear sA KA.
  destruct (new_fields 4 _ _ N) as (F1 & F2 & F3 & F4 & F5 & F6 & F7 & F8 & d & Dn & Ed).
  destruct (new_params _ _ _ _ _ Dn Ck) as (Mr & Gp' & Ds).
  assert (C : sm_ctl s0 = ctl_new 4 (sp_ctl sp)).
  { unfold sim_new in N. destruct (dyn_new _ _ _ _); [|discriminate]. cbn in N. injection N as <-. reflexivity. }
  assert (St : sim_state s0 = sp_state sp) by (unfold sim_state; rewrite Ed; exact Ds).
  assert (Z : upright LinAlg.v0) by (split; reflexivity).
  assert (V0 : vsim p inv start yaw s0).
  { split; rewrite ?F3, ?F4, ?F6, ?F8, ?C, ?St; try exact Z; try (exists 0; reflexivity); try reflexivity.
    - split; [rewrite Ed; exact Mr|]. split; [rewrite Ed; exact Gp'|]. split; [reflexivity|].
      rewrite Ed, Ds. apply even_len, Ew.
    - split; [split; reflexivity|]. split; [exact Or|]. split; [exact Ve|]. split; [exact Wz|exact Ew].
    - apply (new_vctl 4 (p_motors p)); [exact Fc|apply Fc].
    - left. reflexivity. }
  set (s1 := set_ref_pos (arm (set_control_mode s0 POSITION y)) target).
  assert (V1 : vsim p inv start yaw s1).
  { apply (vertical_run p inv mn mx tau kf start yaw [SMode POSITION y; SArm; SRefPos target] s0); try assumption.
    - exact (proj1 Fc).
    - apply Forall_cons; [exact I|]. apply Forall_cons; [exact I|]. apply Forall_cons; [split; reflexivity|apply Forall_nil].
    - reflexivity. }
  assert (E1 : sm_mode s1 = POSITION /\ sm_floor_en s1 = false /\ sm_ext s1 = mkV 0 0 0 /\ sm_ctl s1 = sm_ctl s0 /\ sim_state s1 = sim_state s0).
  { unfold s1, set_control_mode. rewrite F4. cbn [mode_eqb andb]. repeat split; assumption. }
  destruct E1 as (E1 & E2 & E3 & E4 & E5).
  assert (Cl : dropping p inv start yaw W Kv Kx zr hb (- h) 0 w0 s1).
  { assert (Xb : 0 <= Kx * hb) by (apply Rmult_le_pos; lra).
    split; [|rewrite E4, C, <- Gx1; apply new_low; try assumption; rewrite Gx1; destruct Gx4 as [Gx4|Gx4]; [left; exact Gx4|right; lra]].
    split; try assumption; try reflexivity.
    - rewrite E4, C. exact Cm.
    - rewrite E4, C. exact Cg.
    - rewrite E4, C, <- Gx1. apply new_gain; try assumption. rewrite Gx1. destruct Gx4 as [Gx4|Gx4]; [left; exact Gx4|right; lra].
    - rewrite E4, C, <- Gv1. apply new_gain; try assumption. rewrite Gv1. destruct Gv4 as [Gv4|Gv4]; [left; exact Gv4|right].
      assert (0 <= Kv * Kx * hb) by (apply Rmult_le_pos; [apply Rmult_le_pos; lra|exact Hb]). lra.
    - rewrite E4, C, <- Gv1. apply new_low; try assumption. rewrite Gv1. destruct Gv4 as [Gv4|Gv4]; [left; exact Gv4|right].
      assert (0 <= Kv * Kx * hb) by (apply Rmult_le_pos; [apply Rmult_le_pos; lra|exact Hb]). lra.
    - rewrite E5, St. unfold zr, target. cbn [down_by vz]. fold start. ring.
    - rewrite E5, St. exact St0.
    - rewrite E5, St. exact Mv. }
  exists s1. split; [|exact Cl].
  unfold sim_after. rewrite N. reflexivity.
Qed.

Lemma drop_flight {G H : Gen R} yaw W Kv Kx tau kf mn mx w0 h sp : hovers yaw W Kv Kx tau kf mn mx w0 h sp -> slower_loops Kv Kx tau ->
  forall y dt, 0 < dt <= tau -> dt <= 1/100 -> let start := s_pos (sp_state sp) in let target := down_by h start in
  exists z : nat -> R, z 0%nat = vz start /\
  (forall k, exists s : Sim R G H, sim_after 4 sp (lift_calls y target dt k) = Some s /\ s_pos (sim_state s) = mkV (vx start) (vy start) (z k)) /\
  forall k, vz target <= z (S k) <= z k /\ z k - vz target <= 2 * (1 - 1 / 3 * (dt * Kx)) ^ k * h.
Proof.
  intros Hang [Hx Hs] y dt Hd Hdm start target. pose proof Hang as [Fit Fair (kt & x & yy & J & K2 & K3 & K4 & L) Hk Ht Hm Hdr Hgz HW Cm Cg (Gx1 & Gx2 & Gx3 & Gx4) (Gv1 & Gv2 & Gv3 & Gv4) [HKx HKv] He Mv (Pw & L1) St0 Mn Mx].
  destruct Fair as (_ & Ck & Hn & Hgr & Fc & Or & Hy & Ve & Wz & Ew).
  assert (Kf : kf <> 0) by lra.
  destruct (layout_even kf kt x yy mn mx tau J _ Kf K2 K3 K4 L) as [Q Sp]. specialize (Sp _ (proj1 Fc)).
  pose proof (layout_value kf kt x yy mn mx tau J _ Kf K2 K3 K4 L _ (proj1 Fc)) as Sv.
  set (p := sp_model sp) in *. set (inv := ip_minv (cp_indi (sp_ctl sp))) in *.
  assert (Hg : 5 * Kv * tau <= 1) by lra.
  destruct He as [He Hh].
  assert (S0 : near p W Kv Kx kf h h 0 w0).
  { assert (Z0 : ahead kf W w0 = 0).
    { assert (Ew0 : w0 = wh kf W).
      { apply Rle_antisym; apply (lift_le kf Hk); try (left; apply wh_pos; assumption); try exact Pw; rewrite lift_wh by assumption; unfold lift; lra. }
      unfold ahead. rewrite Ew0. unfold Rdiv. ring. }
    assert (0 <= Kx * h) by (apply Rmult_le_pos; lra). assert (0 <= Kv * (Kx * h)) by (apply Rmult_le_pos; lra).
    split; unfold behind; rewrite ?Z0; lra. }
  set (zr := vz target).
  pose (e := fun k => t_p (sunk p W Kv Kx tau kf h dt w0 k)).
  exists (fun k => zr + e k). split; [unfold e, zr, target; cbn [sunk t_p down_by vz]; ring|]. split.
  - intros k. destruct (simulator_defined (G := G) (H := H) 4 sp (lift_calls y target dt k) Fit) as [s K].
    { unfold lift_calls. apply Forall_app. split; [repeat (apply Forall_cons; [exact I|]); apply Forall_nil|].
      induction k as [|k IH]; [apply Forall_nil|]. rewrite rounds_snoc. apply Forall_app. split; [exact IH|].
      apply Forall_cons; [exact I|]. apply Forall_cons; [cbn; lra|apply Forall_nil]. }
    exists s. split; [exact K|].
    destruct (drop_begin (G := G) (H := H) _ _ _ _ _ _ _ _ _ _ _ Hang y h He (hv_pos _ _ _ _ _ _ _ _ _ _ _ Hang) (hv_vel _ _ _ _ _ _ _ _ _ _ _ Hang)) as (s1 & A1 & Cl). fold start in A1, Cl. fold target in A1, Cl. fold zr in Cl.
    unfold lift_calls, sim_after in K, A1. destruct (sim_new 4 sp) as [s0|]; [|discriminate]. rewrite run_app, A1 in K.
    assert (R : dropping p inv start yaw W Kv Kx zr h (- e k) (- t_v (sunk p W Kv Kx tau kf h dt w0 k)) (t_w (sunk p W Kv Kx tau kf h dt w0 k)) s)
      by (eapply drop_rounds; eassumption).
    destruct R as [R _]. pose proof (lf_place _ _ _ _ _ _ _ _ _ _ _ _ _ R) as Rs. destruct (lf_v _ _ _ _ _ _ _ _ _ _ _ _ _ R) as [_ ([U1 U2] & _) _ _ _ _ _ _ _ _ _].
    apply V3_eq; cbn [vx vy vz]; [exact U1|exact U2|rewrite Rs; ring].
  - intros k. assert (Cl : forall j, 0 <= e j <= 2 * (1 - 1 / 3 * (dt * Kx)) ^ j * h) by (intros j; eapply sunk_close; eassumption).
    assert (Up : e (S k) <= e k) by (eapply sunk_less; eassumption).
    pose proof (Cl (S k)) as [A' _]. specialize (Cl k). destruct Cl as [_ Cl]. split; [split|]; lra.
Qed.

Lemma drop_reached {G H : Gen R} yaw W Kv Kx tau kf mn mx w0 h sp : hovers yaw W Kv Kx tau kf mn mx w0 h sp -> slower_loops Kv Kx tau ->
  forall y dt, 0 < dt <= tau -> dt <= 1/100 -> let start := s_pos (sp_state sp) in let target := down_by h start in
  forall eps, 0 < eps -> exists N, forall k, (N <= k)%nat -> exists s : Sim R G H,
    sim_after 4 sp (lift_calls y target dt k) = Some s /\ above (s_pos (sim_state s)) target /\ Rabs (vz (s_pos (sim_state s)) - vz target) < eps.
Proof.
  intros C Ne y dt Hd Hdm start target eps He. destruct (drop_flight (G := G) (H := H) _ _ _ _ _ _ _ _ _ _ _ C Ne y dt Hd Hdm) as (v & _ & F & B). fold start in F, B. fold target in F, B.
  destruct C as [_ _ _ Hk Ht Hm _ _ HW _ _ _ _ [HKx HKv] [E0 _] _ _ _ _ _]. destruct Ne as [Hx Hs].
  assert (R0 : 0 < dt * Kx) by (apply Rmult_lt_0_compat; lra).
  assert (Kd : dt * Kx <= 1/5).
  { apply Rle_trans with (tau * Kx); [apply Rmult_le_compat_r; lra|]. assert (tau * (4 * Kx) <= tau * Kv) by (apply Rmult_le_compat_l; lra). assert (0 < tau * Kx) by (apply Rmult_lt_0_compat; lra). lra. }
  set (g := 1 / 3 * (dt * Kx)) in *. assert (G0 : 0 < g < 1) by (unfold g; lra). clearbody g.
  destruct (pow_lt_1_zero (1 - g)) with (y := eps / (2 * h + 1)) as [N HN].
  { rewrite Rabs_pos_eq; lra. }
  { apply Rmult_lt_0_compat; [exact He|apply Rinv_0_lt_compat; lra]. }
  exists N. intros k Hk'. destruct (F k) as (s & A & Vs). exists s. split; [exact A|]. rewrite Vs. split; [split; reflexivity|]. cbn [vz].
  destruct (B k) as [[B0 B1] B2].
  rewrite Rabs_pos_eq by lra. specialize (HN k Hk'). rewrite Rabs_pos_eq in HN by (apply pow_le; lra).
  set (q := (1 - g) ^ k) in *.
  assert (Q : q * (2 * h + 1) < eps).
  { apply Rmult_lt_reg_r with (/ (2 * h + 1)); [apply Rinv_0_lt_compat; lra|]. rewrite Rmult_assoc, Rinv_r by lra. unfold Rdiv in HN. lra. }
  assert (0 <= q) by (apply pow_le; lra). lra.
Qed.
