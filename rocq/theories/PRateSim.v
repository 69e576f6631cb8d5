(** A requested rotation rate: the simulator follows the scalar recurrence. *)

From Coq Require Import ZArith List Bool Lia Reals Lra Psatz.
From Verif Require Import Scalar LinAlg MUtils MModel MDynamics MPid MControl MCtlRun MImu MSim
  SpecDyn SpecRun SpecMix SpecPid SpecCtl SpecImu SpecSim SpecVertical SpecClimb SpecRate
  PBase PDyn PModel PDynR PPhys PNoise PDynMore PVeh PMix PPid PPidR PCtl PCtlR PCtlMix PImu PSim PSimR PHover PSimEnd PVertical PClimb PSink PClimbSim PRate.
Import ListNotations.
Local Open Scope R_scope.

(** ** The two groups of rotors *)
Definition sg (up : bool) : R := if up then 1 else -1.
Definition faster (a : Ax) : list bool :=
  match a with AX => [false; true; true; false] | AY => [false; false; true; true] | AZ => [true; false; true; false] end.
Definition split_in (a : Ax) (up : bool) (u v : R) : list R := map (fun b => if Bool.eqb b up then u else v) (faster a).

Lemma split_len a up u v : length (split_in a up u v) = 4%nat.
Proof. destruct a; reflexivity. Qed.
Lemma split_even a up w : split_in a up w w = [w; w; w; w].
Proof. destruct a, up; reflexivity. Qed.
Lemma split_torque kf kt x y mn mx tau J a up u v au av b : 0 < kf -> (a = AZ -> J = 0) ->
  rotor_torque (quad_x kf kt x y mn mx tau J) (split_in a up u v) (split_in a up au av) b
  = pr b (along a (sg up * (2 * kf * lever kf kt x y a * (sq_signed u - sq_signed v)))).
Proof.
  intros Hk HJ. unfold quad_x, split_in. destruct a, up, b; try (rewrite (HJ eq_refl)); cbn [faster map Bool.eqb sg lever along]; cfg_sum; field; lra.
Qed.
Lemma split_force kf kt x y mn mx tau J a up u v : rotor_force (quad_x kf kt x y mn mx tau J) (split_in a up u v) AZ
  = 2 * kf * (sq_signed u + sq_signed v).
Proof. unfold quad_x, split_in. destruct a, up; cbn [faster map Bool.eqb]; cfg_sum; ring. Qed.

(** What the controller asks of the rotors. *)
Lemma split_value kf kt x y mn mx tau J inv a up T q : 0 < kf -> 0 < kt -> 0 < x -> 0 < y ->
  quad_inverse (quad_x kf kt x y mn mx tau J) = Some inv ->
  let L := lever kf kt x y a in
  map (fun r => sqrtks (row6 r (mkV zero zero T) (along a (sg up * (L * q))))) inv
  = split_in a up (sqrtks ((T + q) / (4 * kf))) (sqrtks ((T - q) / (4 * kf))).
Proof.
  intros Hk Ht Hx Hy Hi. cbv zeta.
  pose proof (det_x kf kt x y mn mx tau J) as Hd.
  unfold quad_x in *. cbv zeta in *.
  set (m1 := mkMotor 1 kf kt mI (mkV x (neg y) zero) mn mx tau J) in *.
  set (m2 := mkMotor (-1) kf kt mI (mkV x y zero) mn mx tau J) in *.
  set (m3 := mkMotor 1 kf kt mI (mkV (neg x) y zero) mn mx tau J) in *.
  set (m4 := mkMotor (-1) kf kt mI (mkV (neg x) (neg y) zero) mn mx tau J) in *.
  unfold quad_inverse in Hi. rewrite mixer_cols4 in Hi. injection Hi as <-.
  rewrite squares_quad. set (m := mixer_rows4 _ _ _ _) in *.
  assert (Dn : m4det m <> 0) by (apply Hd; lra). clear Hd.
  set (su := (T + q) / (4 * kf)) in *. set (sv := (T - q) / (4 * kf)) in *.
  set (l := map (fun b => if Bool.eqb b up then su else sv) (faster a)).
  set (v := mkV4 (nth 0 l 0) (nth 1 l 0) (nth 2 l 0) (nth 3 l 0)).
  pose proof (m4_left m v Dn) as E.
  assert (M : m4app m v = mkV4 T (vx (along a (sg up * (lever kf kt x y a * q)))) (vy (along a (sg up * (lever kf kt x y a * q)))) (vz (along a (sg up * (lever kf kt x y a * q))))).
  { clear E Dn. unfold m4app, m, mixer_rows4, v4dot. cbn [r4a r4b r4c r4d v4a v4b v4c v4d v].
    change (vz (fst (mixer6_col ?k))) with (pr AZ (fst (mixer6_col k))).
    change (vx (snd (mixer6_col ?k))) with (pr AX (snd (mixer6_col k))).
    change (vy (snd (mixer6_col ?k))) with (pr AY (snd (mixer6_col k))).
    change (vz (snd (mixer6_col ?k))) with (pr AZ (snd (mixer6_col k))).
    rewrite !mixer6_force, !mixer6_torque.
    destruct a, up; cbn [l faster map nth Bool.eqb sg along vx vy vz lever]; unfold m1, m2, m3, m4, rotor_axis, cross3;
    cbn [mt_kf mt_kt mt_dir mt_rot mt_pos mt_J pr vx vy vz mI mdiag m02 m12 m22]; unR;
    unfold su, sv; f_equal; field; lra. }
  cbn [vx vy vz] in *. rewrite M in E.
  rewrite E. unfold split_in, v, l. destruct a, up; reflexivity.
Qed.

(** ** Controller *)
Lemma along_mul (M : M3 R) a I x : (forall b, mat_vec M (along a 1) b = pr b (along a I)) -> mmulv M (along a x) = along a (I * x).
Proof.
  intros Hm. apply pr_ext. intros b. rewrite pr_mmulv. specialize (Hm b). unfold mat_vec, dot3 in *.
  destruct a, b; cbn [along pr vx vy vz] in *; match type of Hm with ?l = _ => transitivity (x * l); [ring|rewrite Hm; ring] end.
Qed.
Lemma along_sub a u v : vsub (along a u) (along a v) = along a (u - v).
Proof. destruct a; cbn; unfold vsub, vmap2; cbn [vx vy vz]; unR; f_equal; ring. Qed.
Lemma along_cross a u v : vcross (along a u) (along a v) = mkV 0 0 0.
Proof. destruct a; cbn [along]; unV; f_equal; ring. Qed.
Lemma along_0 a : along a 0 = mkV 0 0 0.
Proof. destruct a; reflexivity. Qed.
Lemma along_pr a b x : pr b (along a x) = x \/ pr b (along a x) = 0.
Proof. destruct a, b; cbn; auto. Qed.
Lemma along_self a x : pr a (along a x) = x.
Proof. destruct a; reflexivity. Qed.

Lemma sat_within v up lo f : (forall b, pr b lo <= pr b v <= pr b up) -> saturate v up lo f = v.
Proof.
  intros B. pose proof (B AX) as X. pose proof (B AY) as Y. pose proof (B AZ) as Z. cbn [pr] in *. destruct v as [x y z]. cbn [vx vy vz] in *.
  destruct f; unfold saturate; cbn [negb].
  - assert (E : forall get, get lo <= get (mkV x y z) <= get up -> psat1 get up lo (mkV x y z) = mkV x y z).
    { intros get Q. unfold psat1. cbv zeta. unR. rewrite (proj2 (Rltb_false (get up) _)), (proj2 (Rltb_false _ (get lo))) by lra.
      unfold vscale, vmap. cbn [vx vy vz]. unR. f_equal; ring. }
    rewrite (E vx), (E vy), (E vz) by (cbn [vx vy vz]; lra). reflexivity.
  - unfold sat1. cbn [vx vy vz]. unR.
    rewrite (proj2 (Rltb_false (vx up) x)), (proj2 (Rltb_false x (vx lo))), (proj2 (Rltb_false (vy up) y)), (proj2 (Rltb_false y (vy lo))),
      (proj2 (Rltb_false (vz up) z)), (proj2 (Rltb_false z (vz lo))) by lra. reflexivity.
Qed.

(** The rate loop as a mere gain. *)
Record rate_gain (a : Ax) (Kp lim : R) (c : PidCfg R) : Prop := {
  rg_kp : forall x, mmulv (pc_kp c) (along a x) = along a (Kp * x);
  rg_ki : forall v, mmulv (pc_ki c) v = mkV 0 0 0; rg_kd : forall v, mmulv (pc_kd c) v = mkV 0 0 0;
  rg_lim : pc_sflag c = true -> forall b, pr b (pc_lo c) <= - lim /\ lim <= pr b (pc_up c) }.
Lemma rate_out a Kp lim p dt x : rate_gain a Kp lim (pid_c p) -> Rabs (Kp * x) <= lim ->
  ps_out (pid_s (pid_compute p dt (along a x))) = along a (Kp * x).
Proof.
  intros [A B C D] L. unfold pid_compute. cbv zeta. cbn [pid_s ps_out]. unfold pid_out. rewrite A, B, C.
  assert (S : vadd (vadd (along a (Kp * x)) (mkV 0 0 0)) (mkV 0 0 0) = along a (Kp * x)).
  { destruct a; cbn [along]; unV; f_equal; ring. }
  rewrite S. cbv zeta. destruct (pc_sflag (pid_c p)); [|reflexivity]. apply sat_within. intros b. specialize (D eq_refl b).
  assert (- lim <= Kp * x <= lim) by (unfold Rabs in L; destruct (Rcase_abs (Kp * x)); lra).
  assert (0 <= lim) by (pose proof (Rabs_pos (Kp * x)); lra).
  destruct (along_pr a b (Kp * x)) as [-> | ->]; lra.
Qed.
Lemma new_rate a Kp lim pp : 0 <= lim -> pr a (pp_kp pp) = Kp -> pp_ki pp = mkV 0 0 0 -> pp_kd pp = mkV 0 0 0 ->
  (forall b, let lo := pr b (pp_lo pp) in let hi := pr b (pp_up pp) in lo = 0 /\ hi = 0 \/ lo <= - lim /\ lim <= hi) ->
  rate_gain a Kp lim (pid_c (pid_new pp)).
Proof.
  intros Lp K Ki Kd L. unfold pid_new, pid_reset, pid_update, pc_update. cbn [pid_c].
  assert (Z : forall b, sat_bad (pr b (pp_up pp)) (pr b (pp_lo pp)) = false -> pr b (pp_lo pp) <= - lim /\ lim <= pr b (pp_up pp)).
  { intros b Sb. destruct (L b) as [[E1 E2]|E]; [|exact E]. exfalso. rewrite E1, E2 in Sb. unfold sat_bad in Sb. apply orb_false_iff in Sb as [Sb _].
    unR. apply Rltb_false in Sb. replace (0 - 0) with 0 in Sb by ring. rewrite Rabs_R0 in Sb. pose proof eps_pos. lra. }
  pose proof (Z AX) as Zx. pose proof (Z AY) as Zy. pose proof (Z AZ) as Zz. cbn [pr] in Zx, Zy, Zz.
  assert (A : forall x, mmulv (vdiagm (pp_kp pp)) (along a x) = along a (Kp * x)).
  { intros x. subst Kp. unfold vdiagm, mdiag. destruct a; cbn [along pr]; unV; f_equal; ring. }
  assert (B : forall v, mmulv (vdiagm (pp_ki pp)) v = mkV 0 0 0).
  { intros v. rewrite Ki. unfold vdiagm, mdiag. unV. f_equal; ring. }
  assert (C : forall v, mmulv (vdiagm (pp_kd pp)) v = mkV 0 0 0).
  { intros v. rewrite Kd. unfold vdiagm, mdiag. unV. f_equal; ring. }
  destruct (_ || _); [unfold pc_set_sat; cbv zeta; destruct (sat_bad (vx _) _) eqn:Sx; [|destruct (sat_bad (vy _) _) eqn:Sy; [|destruct (sat_bad (vz _) _) eqn:Sz]]|];
  (split; [exact A|exact B|exact C|]); try (intros Q; discriminate Q).
  intros _ b. cbn [pc_lo pc_up pc_write_limits]. destruct b; cbn [pr]; auto.
Qed.

(** ** One round *)
Section Sim.
Context {G H : Gen R}.
Variables (a : Ax) (up : bool) (p : Params R) (inv : list (V3 R * V3 R)) (I T Kp tau kf kt x y mn mx J r e0 dt : R).
Let L := lever kf kt x y a.
Let m := I / L.
Hypotheses (Hq : p_motors p = quad_x kf kt x y mn mx tau J) (HJ : a = AZ -> J = 0) (Hkt : 0 < kt) (Hx : 0 < x) (Hy : 0 < y)
  (Hinv : quad_inverse (quad_x kf kt x y mn mx tau J) = Some inv)
  (Hn : p_fnoise p = 0) (Ha : p_aero p = mzero) (Hax : forall b, mat_vec (p_inertia p) (along a 1) b = pr b (along a I)) (HI : 0 < I)
  (Hdet : det3 (p_inertia p) <> 0)
  (Hk : 0 < kf) (HT : 0 < T) (HK : 0 < Kp) (Ht : 0 < tau) (Hd : 0 < dt <= tau) (Hdm : dt <= 1/100) (Hg : 5 * Kp * tau <= 1)
  (H0 : 2 * (I * Kp * e0) <= T * L) (He : 0 <= e0)
  (Hmn : 0 <= mn /\ lift kf mn <= T / 4) (Hmx : 0 <= mx /\ 2 * T <= lift kf mx).

Let HL : 0 < L.
Proof using Hkt Hx Hy Hk. unfold L, lever. destruct a; [exact Hy|exact Hx|]. apply Rmult_lt_0_compat; [exact Hkt|apply Rinv_0_lt_compat; exact Hk]. Qed.
Let Hm : 0 < m.
Proof using HI HL. unfold m. apply Rmult_lt_0_compat; [exact HI|apply Rinv_0_lt_compat; exact HL]. Qed.
Let H0' : 2 * (m * Kp * e0) <= T.
Proof using H0 HL. apply Rmult_le_reg_r with L; [exact HL|]. unfold m. replace (2 * (I / L * Kp * e0) * L) with (2 * (I * Kp * e0)) by (field; lra). exact H0. Qed.

Record rating (e u v : R) (s : Sim R G H) : Prop := {
  rt_v : vehicle 4 (sm_dyn s) (sm_act s) p;
  rt_armed : sm_armed s = true; rt_mode : sm_mode s = ACRO; rt_floor : sm_floor_en s = false; rt_ext : sm_ext s = mkV 0 0 0;
  rt_thrust : rf_thrust (sm_refs s) = T; rt_ref : rf_ang (sm_refs s) = along a r;
  rt_inertia : in_inertia (ct_indi (sm_ctl s)) = p_inertia p; rt_minv : in_minv (ct_indi (sm_ctl s)) = inv;
  rt_pid : rate_gain a Kp (Kp * e0) (pid_c (in_pid (ct_indi (sm_ctl s))));
  rt_rate : s_angvel (sim_state s) = along a (r - sg up * e);
  rt_rot : s_mvel (sim_state s) = split_in a up u v }.

Lemma rate_control e u v s : rating e u v s -> 0 <= e <= e0 ->
  let s' := update_controller 4 s dt in rating e u v s' /\ sm_act s' = split_in a up (speed kf (T + m * Kp * e)) (speed kf (T - m * Kp * e)).
Proof.
  intros [V A M F X Rt Ra In Mi P W Ro] E. cbv zeta.
  unfold update_controller. rewrite A. cbn [negb]. cbv zeta.
  set (s1 := match sm_yawmode s with ANGLE => s | RATE => update_yaw_reference s end).
  assert (C1 : sm_mode s1 = ACRO /\ sm_floor_en s1 = false /\ sm_ext s1 = mkV 0 0 0 /\ rf_thrust (sm_refs s1) = T /\ rf_ang (sm_refs s1) = along a r /\
    sm_armed s1 = true /\ sm_ctl s1 = sm_ctl s /\ sim_state s1 = sim_state s /\ sm_dyn s1 = sm_dyn s).
  { unfold s1. destruct (sm_yawmode s); repeat (split; [assumption || reflexivity|]); reflexivity. }
  clearbody s1. destruct C1 as (C1 & C2 & C3 & C4 & C5 & C6 & C7 & C8 & C9). rewrite C1.
  rewrite C8, W, C4, C5, C7.
  set (i := ct_indi (sm_ctl s)) in *.
  assert (Mo : in_motor (acro_to_motor i (along a (r - sg up * e)) T (along a r) dt) = split_in a up (speed kf (T + m * Kp * e)) (speed kf (T - m * Kp * e))).
  { unfold acro_to_motor. cbv zeta. cbn [in_motor]. unfold get_error. rewrite along_sub.
    replace (r - (r - sg up * e)) with (sg up * e) by ring.
    assert (Kb : Rabs (Kp * (sg up * e)) <= Kp * e0).
    { rewrite Rabs_mult, (Rabs_pos_eq Kp), Rabs_mult, (Rabs_pos_eq e) by lra. apply Rmult_le_compat_l; [lra|].
      replace (Rabs (sg up)) with 1; [lra|]. unfold sg. destruct up; [rewrite Rabs_pos_eq; lra|rewrite Rabs_left; lra]. }
    rewrite (rate_out a Kp (Kp * e0) _ _ _ P Kb).
    rewrite In, !(along_mul _ a I _ Hax), along_cross, Mi.
    replace (vadd (along a (I * (Kp * (sg up * e)))) (mkV 0 0 0)) with (along a (sg up * (L * (m * Kp * e)))).
    2:{ transitivity (along a (I * (Kp * (sg up * e)))); [f_equal; unfold m; field; lra|]. destruct a; cbn [along]; unV; f_equal; ring. }
    pose proof (split_value kf kt x y mn mx tau J inv a up T (m * Kp * e) Hk Hkt Hx Hy Hinv) as Sv. cbv zeta in Sv. fold L in Sv. rewrite Sv.
    assert (B1 : 0 <= m * Kp * e) by (apply Rmult_le_pos; [apply Rmult_le_pos|]; lra).
    assert (B2 : m * Kp * e <= m * Kp * e0) by (apply Rmult_le_compat_l; [apply Rmult_le_pos|]; lra).
    rewrite !(speed_root kf Hk) by lra. reflexivity. }
  unfold with_control, ctl_acro. cbv zeta. fold i. split.
  - split; cbn [with_act with_ctl sm_dyn sm_act sm_ctl sm_armed sm_mode sm_floor_en sm_ext sm_refs ct_indi ct_dmotor]; try assumption.
    + destruct V as (V1 & V2 & V3' & V4'). rewrite C9. split; [exact V1|]. split; [exact V2|]. split; [|exact V4'].
      rewrite Mo. apply split_len.
    + change (s_angvel (sim_state s1) = along a (r - sg up * e)). rewrite C8. exact W.
    + change (s_mvel (sim_state s1) = split_in a up u v). rewrite C8. exact Ro.
  - cbn [with_act with_ctl sm_act ct_dmotor]. exact Mo.
Qed.

Lemma split_clamp u v : mn <= u <= mx -> mn <= v <= mx -> clamp_motors (split_in a up u v) (p_motors p) = Some (split_in a up u v).
Proof using Hq.
  clear - Hq. intros U V. rewrite Hq. unfold quad_x, split_in. cbv zeta.
  destruct a, up; cbn [faster map Bool.eqb clamp_motors mt_min mt_max]; rewrite ?(clamp_R_in u mn mx U), ?(clamp_R_in v mn mx V); reflexivity.
Qed.
Lemma split_deriv cu cv u v : motors_derivative (split_in a up cu cv) (split_in a up u v) (p_motors p) = Some (split_in a up ((cu - u) / tau) ((cv - v) / tau)).
Proof using Hq. clear - Hq. rewrite Hq. unfold quad_x, split_in. destruct a, up; reflexivity. Qed.

Lemma rate_motion e u v s s' : rating e u v s -> turning kf m T Kp e0 e u v ->
  sm_act s = split_in a up (speed kf (T + m * Kp * e)) (speed kf (T - m * Kp * e)) -> next (update_dynamics s dt) s' ->
  rating (turn_e kf m dt e u v) (turn_a kf m T Kp tau dt e u) (turn_b kf m T Kp tau dt e v) s'.
Proof.
  intros [V A M F X Rt Ra In Mi P W Ro] S Act N.
  destruct N as [N|N].
  2:{ destruct (ud_throw R_sane _ _ _ N) as [K _]. unR. apply Rleb_true in K. lra. }
  destruct (ud_ok _ _ _ N) as (ext & d & Fm & E & _ & E'). cbv zeta in E'.
  assert (Bf : below_floor s = false) by (unfold below_floor; rewrite F; reflexivity).
  rewrite Bf in E. rewrite X in E. subst ext.
  assert (Bf2 : below_floor (with_col (with_ext (with_dyn s d) v0) false) = false).
  { unfold below_floor. cbn [with_col with_ext with_dyn sm_floor_en]. rewrite F. reflexivity. }
  rewrite Bf2 in E'. subst s'.
  unfold free_motion in Fm. apply process_small_inv in Fm; [|lra].
  pose proof (vehicle_core _ _ _ _ _ _ _ _ V Fm) as V'.
  assert (S' : turning kf m T Kp e0 (turn_e kf m dt e u v) (turn_a kf m T Kp tau dt e u) (turn_b kf m T Kp tau dt e v)) by exact (next_turning kf m T Kp tau dt e0 Hk Hm HT HK Ht Hd Hg H0' e u v S).
  assert (Rg : forall e u v, turning kf m T Kp e0 e u v -> mn <= u <= mx /\ mn <= v <= mx).
  { intros e1 u1 v1 S1. destruct Hmn as [N1 N2]. destruct Hmx as [X1 X2].
    assert (Ua : 0 <= u1 /\ T <= lift kf u1 <= 2 * T) by exact (a_range kf m T Kp e0 Hk Hm HT HK H0' e1 u1 v1 S1). destruct Ua as (U0 & U1 & U2).
    assert (Ub : 0 <= v1 /\ T / 4 <= lift kf v1 <= T) by exact (b_range kf m T Kp e0 Hk Hm HT HK H0' e1 u1 v1 S1). destruct Ub as (B0 & B1 & B2).
    split; split; apply (lift_le kf Hk); lra. }
  assert (Cu : mn <= speed kf (T + m * Kp * e) <= mx /\ mn <= speed kf (T - m * Kp * e) <= mx).
  { destruct S as [(E0 & _) (E1 & _)]. destruct Hmn as [N1 N2]. destruct Hmx as [X1 X2].
    assert (B1 : 0 <= m * Kp * e) by (apply Rmult_le_pos; [apply Rmult_le_pos|]; lra).
    assert (B2 : m * Kp * e <= m * Kp * e0) by (apply Rmult_le_compat_l; [apply Rmult_le_pos|]; lra).
    assert (Sp : forall f, 0 <= speed kf f) by (intros f; apply sqrt_pos).
    split; split; apply (lift_le kf Hk); try apply Sp; try exact X1; rewrite lift_speed by (try exact Hk; lra); lra. }
  destruct (Rg _ _ _ S') as [Ru Rv].
  pose proof V as (Hr & Hp & Hla & Hlw). apply get_params_cfg in Hp as [c [Hc Hcp]].
  pose proof Fm as Fi. apply euler_core_inv in Fi as [_ Hi]. destruct (Hi c Hc) as (mo & des & macc & mvel & _ & _ & I1 & I2 & I3 & I4). cbv zeta in I4.
  rewrite Hcp in *. fold (sim_state s) in *. rewrite Act in I1. rewrite Ro in I2, I3.
  rewrite split_clamp in I1 by apply Cu. injection I1 as <-. rewrite split_deriv in I2. injection I2 as <-.
  assert (Nx : ladd (split_in a up u v) (map (fun q => q * dt) (split_in a up ((speed kf (T + m * Kp * e) - u) / tau) ((speed kf (T - m * Kp * e) - v) / tau)))
    = split_in a up (turn_a kf m T Kp tau dt e u) (turn_b kf m T Kp tau dt e v)).
  { unfold split_in, turn_a, turn_b, next_w, sink_w. destruct a, up; reflexivity. }
  unR. rewrite Nx in I3. rewrite split_clamp in I3 by assumption. injection I3 as <-.
  split; cbn [with_col with_ext with_dyn sm_armed sm_mode sm_floor_en sm_refs sm_ctl sm_ext sm_dyn sm_act]; try assumption; try reflexivity.
  - (* rate *)
    pose proof (silent_core _ _ _ _ _ _ p (proj1 (proj2 V)) Hn Fm) as Hs.
    pose proof (step_euler 4 _ _ _ _ _ _ p V Hdet Fm) as Nw. cbv zeta in Nw.
    assert (Mac : s_macc (d_state d) = split_in a up ((speed kf (T + m * Kp * e) - u) / tau) ((speed kf (T - m * Kp * e) - v) / tau)) by (rewrite I4; reflexivity).
    fold (sim_state s) in Nw. rewrite W, Ro, Mac, Hs, Ha in Nw.
    unfold sim_state. cbn [with_col with_ext with_dyn sm_dyn].
    set (al := (lift kf u - lift kf v) / (2 * m)).
    destruct S as [(S1 & S2 & S3) S4]. pose proof (wh_pos kf T Hk HT) as Pw.
    assert (Bv : 0 <= v) by exact (proj1 (b_range kf m T Kp e0 Hk Hm HT HK H0' e u v (conj (conj S1 (conj S2 S3)) S4))).
    assert (Sq : sg up * (2 * kf * L * (sq_signed u - sq_signed v)) = sg up * (I * al)).
    { unfold al, m, lift. unfold sq_signed. rewrite (Rabs_pos_eq u), (Rabs_pos_eq v) by lra. field. split; lra. }
    assert (Acc : s_angacc (d_state d) = along a (sg up * al)).
    { rewrite <- (minv_l (p_inertia p) (s_angacc (d_state d)) Hdet), <- (minv_l (p_inertia p) (along a (sg up * al)) Hdet). f_equal.
      rewrite (along_mul _ a I _ Hax). apply pr_ext. intros b. rewrite pr_mmulv. destruct (Nw b) as (N1 & N2 & _). rewrite <- N1. rewrite Hq in N2.
      rewrite (split_torque kf kt x y mn mx tau J a up _ _ _ _ b Hk HJ) in N2. fold L in N2. rewrite Sq in N2.
      assert (Cr : cross3 (along a (r - sg up * e)) (vec_of (mat_vec (p_inertia p) (along a (r - sg up * e)))) b = 0).
      { replace (vec_of (mat_vec (p_inertia p) (along a (r - sg up * e)))) with (along a (I * (r - sg up * e))).
        - rewrite <- along_mul with (M := p_inertia p) by exact Hax. rewrite (along_mul _ a I _ Hax). destruct a, b; cbn [along]; unfold cross3; cbn [vx vy vz pr]; ring.
        - rewrite <- (along_mul _ a I _ Hax). apply pr_ext. intros b'. rewrite pr_mmulv. destruct b'; reflexivity. }
      assert (Ae : aero_spec mzero (along a (r - sg up * e)) b = 0).
      { unfold aero_spec. replace (mat_vec mzero (along a (r - sg up * e)) b) with 0; [ring|]. destruct a, b; cbn [along]; unfold mat_vec, mzero; cbn; unR; ring. }
      rewrite Cr, Ae in N2. replace (pr b LinAlg.v0) with 0 in N2 by (destruct b; reflexivity).
      replace (I * (sg up * al)) with (sg up * (I * al)) by ring. lra. }
    apply pr_ext. intros b. destruct (Nw b) as (_ & _ & ->). rewrite Acc. unfold turn_e. fold al.
    destruct a, b; cbn [along pr vx vy vz]; ring.
  - (* rotors *) unfold sim_state. cbn [with_col with_ext with_dyn sm_dyn]. rewrite I4. reflexivity.
Qed.

Lemma rate_rounds w0 s k : rating e0 w0 w0 s -> turning kf m T Kp e0 e0 w0 w0 -> forall s', sim_run 4 s (rounds dt k) = Some s' ->
  let z := after kf m T Kp tau dt e0 w0 k in rating (fst z) (fst (snd z)) (snd (snd z)) s'.
Proof.
  intros C S0. cbv zeta. induction k as [|k IH]; intros s' K.
  - injection K as <-. exact C.
  - rewrite rounds_snoc, run_app in K. destruct (sim_run 4 s (rounds dt k)) as [s1|]; [|discriminate]. specialize (IH s1 eq_refl).
    assert (A : let z := after kf m T Kp tau dt e0 w0 k in turning kf m T Kp e0 (fst z) (fst (snd z)) (snd (snd z))) by exact (after_turning kf m T Kp tau dt e0 Hk Hm HT HK Ht Hd Hg H0' w0 k S0).
    cbv zeta in A. cbn [sim_run sim_step] in K.
    destruct (rate_control _ _ _ s1 IH (proj1 (proj2 A))) as [C1 C2]. cbv zeta in C1, C2.
    cbn [after fst snd].
    destruct (update_dynamics (update_controller 4 s1 dt) dt) as [s2|s2|] eqn:U; [| |discriminate]; injection K as <-;
    (apply (rate_motion _ _ _ (update_controller 4 s1 dt)); [exact C1|exact A|exact C2|]); [left|right]; exact U.
Qed.
End Sim.

(** ** From the start *)
Lemma rate_flight {G H : Gen R} a up I T Kp tau kf mn mx e0 sp : turns a up I T Kp tau kf mn mx e0 sp ->
  forall y dt, 0 < dt <= tau -> dt <= 1/100 -> let r0 := pr a (s_angvel (sp_state sp)) in let r := asked up r0 e0 in
  exists e : nat -> R, e 0%nat = e0 /\
  (forall k, exists s : Sim R G H, sim_after 4 sp (turn_calls a y T r dt k) = Some s /\ s_angvel (sim_state s) = along a (asked (negb up) r (e k))) /\
  forall k, 0 <= e (S k) <= e k /\ e k <= 2 * (1 - 3/4 * (dt * Kp)) ^ k * e0.
Proof.
  intros [Fit (kt & x & yy & J & K2 & K3 & K4 & K5 & Hq & H0) Hk Ht Hn Ha Hax HI Hdet Hsame Hinv Gp (Gi & Gd) HK Hs Lim Wr He HT (w0 & Pw & Lw & Mv) Mn Mx] y dt Hd Hdm r0 r.
  set (p := sp_model sp) in *. set (inv := ip_minv (cp_indi (sp_ctl sp))) in *.
  pose (L := lever kf kt x yy a). pose (m := I / L).
  assert (HL : 0 < L) by (unfold L, lever; destruct a; [exact K4|exact K3|]; apply Rmult_lt_0_compat; [exact K2|apply Rinv_0_lt_compat; exact Hk]).
  assert (Hm : 0 < m) by (unfold m; apply Rmult_lt_0_compat; [exact HI|apply Rinv_0_lt_compat; exact HL]).
  assert (H0' : 2 * (m * Kp * e0) <= T).
  { apply Rmult_le_reg_r with L; [exact HL|]. unfold m. replace (2 * (I / L * Kp * e0) * L) with (2 * (I * Kp * e0)) by (field; lra). exact H0. }
  assert (Hg : 5 * Kp * tau <= 1) by lra.
  assert (S0 : turning kf m T Kp e0 e0 w0 w0) by (apply start; try assumption; unfold lift; lra).
  assert (Mn' : 0 <= mn /\ lift kf mn <= T / 4) by (unfold lift; lra).
  assert (Mx' : 0 <= mx /\ 2 * T <= lift kf mx) by (unfold lift; lra).
  exists (fun k => fst (after kf m T Kp tau dt e0 w0 k)). split; [reflexivity|]. split.
  - intros k. destruct (simulator_defined (G := G) (H := H) 4 sp (turn_calls a y T r dt k) Fit) as [s K].
    { unfold turn_calls. apply Forall_app. split; [repeat (apply Forall_cons; [exact Logic.I|]); apply Forall_nil|].
      induction k as [|k IH]; [apply Forall_nil|]. rewrite rounds_snoc. apply Forall_app. split; [exact IH|].
      apply Forall_cons; [exact Logic.I|]. apply Forall_cons; [cbn; lra|apply Forall_nil]. }
    exists s. split; [exact K|].
    unfold sim_after in K. destruct (sim_new 4 sp) as [s0|] eqn:N; [|discriminate].
    destruct (new_fields 4 _ _ N) as (F1 & F2 & F3 & F4 & F5 & F6 & F7 & F8 & d & Dn & Ed).
    destruct Fit as (Ck & Fl & Fm & Fi).
    destruct (new_params _ _ _ _ _ Dn Ck) as (Mr & Gp' & Ds).
    assert (C : sm_ctl s0 = ctl_new 4 (sp_ctl sp)).
    { unfold sim_new in N. destruct (dyn_new _ _ _ _); [|discriminate]. cbn in N. injection N as <-. reflexivity. }
    assert (St : sim_state s0 = sp_state sp) by (unfold sim_state; rewrite Ed; exact Ds).
    unfold turn_calls in K. rewrite run_app in K. cbn [sim_run sim_step] in K.
    set (s1 := set_ref_acro (arm (set_control_mode s0 ACRO y)) T (along a r)) in *.
    assert (E1 : sm_mode s1 = ACRO /\ sm_floor_en s1 = false /\ sm_ext s1 = mkV 0 0 0 /\ sm_ctl s1 = sm_ctl s0 /\ sim_state s1 = sim_state s0 /\
      sm_dyn s1 = sm_dyn s0 /\ sm_act s1 = sm_act s0).
    { unfold s1, set_control_mode. rewrite F4. cbn [mode_eqb andb]. repeat (split; [assumption || reflexivity|]). reflexivity. }
    destruct E1 as (E1 & E2 & E3 & E4 & E5 & E6 & E7).
    assert (Cl : rating a up p inv T Kp r e0 e0 w0 w0 s1).
    { split; try assumption; try reflexivity.
      - rewrite E6, E7, F3, Ed. split; [exact Mr|]. split; [exact Gp'|]. split; [reflexivity|]. rewrite Ds. exact Fm.
      - rewrite E4, C. exact Hsame.
      - rewrite E4, C. reflexivity.
      - rewrite E4, C. cbn [ctl_new ct_indi indi_new in_pid]. apply new_rate; try assumption. apply Rmult_le_pos; lra.
      - rewrite E5, St, Wr. fold r0. f_equal. unfold r, asked, sg. destruct up; ring.
      - rewrite E5, St, Mv, split_even. reflexivity. }
    rewrite Hq in Hinv.
    pose proof (rate_rounds a up p inv I T Kp tau kf kt x yy mn mx J r e0 dt Hq K5 K2 K3 K4 Hinv Hn Ha Hax HI Hdet Hk HT HK Ht Hd Hdm Hg H0 Mn' Mx' w0 s1 k Cl S0 s K) as R.
    cbv zeta in R. rewrite (rt_rate _ _ _ _ _ _ _ _ _ _ _ _ R). f_equal. fold L. fold m. unfold asked, sg. destruct up; cbn [negb]; ring.
  - intros k. assert (B : fst (after kf m T Kp tau dt e0 w0 (S k)) <= fst (after kf m T Kp tau dt e0 w0 k) <= e0) by (apply after_less; assumption).
    assert (C : 0 <= fst (after kf m T Kp tau dt e0 w0 k) <= 2 * (1 - 3 / 4 * (dt * Kp)) ^ k * e0) by (apply after_close; assumption).
    assert (C' : 0 <= fst (after kf m T Kp tau dt e0 w0 (S k)) <= 2 * (1 - 3 / 4 * (dt * Kp)) ^ (S k) * e0) by (apply after_close; assumption).
    split; [split|]; lra.
Qed.

Lemma rate_reached {G H : Gen R} a up I T Kp tau kf mn mx e0 sp : turns a up I T Kp tau kf mn mx e0 sp ->
  forall y dt, 0 < dt <= tau -> dt <= 1/100 -> let r := asked up (pr a (s_angvel (sp_state sp))) e0 in
  forall eps, 0 < eps -> exists N, forall k, (N <= k)%nat -> exists s : Sim R G H,
    sim_after 4 sp (turn_calls a y T r dt k) = Some s /\ forall b, Rabs (pr b (s_angvel (sim_state s)) - pr b (along a r)) < eps.
Proof.
  intros C y dt Hd Hdm r eps He. destruct (rate_flight (G := G) (H := H) _ _ _ _ _ _ _ _ _ _ _ C y dt Hd Hdm) as (e & _ & F & B). fold r in F, B.
  pose proof (tn_gain _ _ _ _ _ _ _ _ _ _ _ C) as HK. pose proof (tn_slow _ _ _ _ _ _ _ _ _ _ _ C) as Hs. pose proof (tn_error _ _ _ _ _ _ _ _ _ _ _ C) as E0. pose proof (tn_tau _ _ _ _ _ _ _ _ _ _ _ C) as Ht.
  assert (Kd : 0 < dt * Kp <= 1/5).
  { split; [apply Rmult_lt_0_compat; lra|]. apply Rle_trans with (tau * Kp); [apply Rmult_le_compat_r; lra|lra]. }
  set (g := 3/4 * (dt * Kp)) in *.
  destruct (pow_lt_1_zero (1 - g)) with (y := eps / (2 * e0 + 1)) as [N HN].
  { unfold g. rewrite Rabs_pos_eq; lra. }
  { apply Rmult_lt_0_compat; [exact He|apply Rinv_0_lt_compat; lra]. }
  exists N. intros k Hk'. destruct (F k) as (s & A & Vs). exists s. split; [exact A|]. rewrite Vs. intros b.
  destruct (B k) as [[B1 B2] B3].
  assert (D : Rabs (pr b (along a (asked (negb up) r (e k))) - pr b (along a r)) <= e k).
  { assert (P : 0 <= e k) by lra. unfold asked. destruct a, b, up; cbn [along pr vx vy vz negb];
    match goal with |- Rabs ?t <= _ => first [replace t with 0 by ring; rewrite Rabs_R0; exact P|replace t with (e k) by ring; rewrite Rabs_pos_eq; lra|replace t with (- e k) by ring; rewrite Rabs_Ropp, Rabs_pos_eq; lra] end. }
  specialize (HN k Hk'). rewrite Rabs_pos_eq in HN by (apply pow_le; unfold g; lra).
  set (q := (1 - g) ^ k) in *.
  assert (Q : q * (2 * e0 + 1) < eps).
  { apply Rmult_lt_reg_r with (/ (2 * e0 + 1)); [apply Rinv_0_lt_compat; lra|]. rewrite Rmult_assoc, Rinv_r by lra. unfold Rdiv in HN. lra. }
  assert (0 <= q) by (apply pow_le; unfold g; lra). lra.
Qed.
