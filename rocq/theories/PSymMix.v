(** Mirrored, turned and rescaled vehicles: the allocation, and the mirrored
    mission of one and the same vehicle. *)

From Coq Require Import ZArith List Bool Permutation Lia Reals Lra Psatz.
From Verif Require Import Scalar LinAlg MUtils MModel MDynamics MPid MControl MCtlRun MImu MSim
  SpecDyn SpecRun SpecMotion SpecPid SpecCtl SpecImu SpecSim SpecEuler SpecRenum SpecSym
  PBase PDyn PModel PDynR PPhys PVeh PMix PPid PPidR PCtl PCtlR PCtlMix PSim PSimR PSimEnd PRenum PSym PSymSim.
Import ListNotations.
Local Open Scope R_scope.

Definition v4mul (k : R) (v : V4 R) : V4 R := mkV4 (k * v4a v) (k * v4b v) (k * v4c v) (k * v4d v).
Lemma cof_scaled j k l a b d : m4cof (v4mul j a) (v4mul k b) (v4mul l d) = v4mul (j * k * l) (m4cof a b d).
Proof. unfold m4cof, mdet, v4mul. cbn [v4a v4b v4c v4d m00 m01 m02 m10 m11 m12 m20 m21 m22]. unR. apply V4_eq; cbn [v4a v4b v4c v4d]; ring. Qed.
Lemma dot_scaled j k (a b : V4 R) : v4dot (v4mul j a) (v4mul k b) = j * k * v4dot a b.
Proof. unfold v4dot, v4mul. cbn [v4a v4b v4c v4d]. unR. ring. Qed.
Lemma quot_scaled i j k l x d : i <> 0 -> j <> 0 -> k <> 0 -> l <> 0 -> j * k * l * x / (i * (j * k * l) * d) = x / d * / i.
Proof. intros I J K L. unfold Rdiv. rewrite !Rinv_mult.
  transitivity ((j * / j) * (k * / k) * (l * / l) * (x * / d * / i)); [ring|]. rewrite !Rinv_r by assumption. ring.
Qed.
Lemma inv_scaled i j k l a b d f : i <> 0 -> j <> 0 -> k <> 0 -> l <> 0 ->
  m4inv (mkM4 (v4mul i a) (v4mul j b) (v4mul k d) (v4mul l f)) =
  let M := m4inv (mkM4 a b d f) in
  let row r := mkV4 (v4a r * / i) (v4b r * / j) (v4c r * / k) (v4d r * / l) in mkM4 (row (r4a M)) (row (r4b M)) (row (r4c M)) (row (r4d M)).
Proof.
  intros I J K L. cbv zeta. unfold m4inv. cbv zeta. cbn [r4a r4b r4c r4d]. rewrite !cof_scaled, dot_scaled.
  generalize (m4cof b d f) (m4cof a d f) (m4cof a b f) (m4cof a b d) (v4dot a (m4cof b d f)). intros c0 c1 c2 c3 e.
  unfold v4neg, v4mul. cbn [v4a v4b v4c v4d]. unR.
  assert (Q0 : forall x, j * k * l * x / (i * (j * k * l) * e) = x / e * / i) by (intros x; apply quot_scaled; assumption).
  assert (Q1 : forall x, - (i * k * l * x) / (i * (j * k * l) * e) = - x / e * / j).
  { intros x. rewrite <- (quot_scaled j i k l (- x) e) by assumption. f_equal; ring. }
  assert (Q2 : forall x, i * j * l * x / (i * (j * k * l) * e) = x / e * / k).
  { intros x. rewrite <- (quot_scaled k i j l x e) by assumption. f_equal; ring. }
  assert (Q3 : forall x, - (i * j * k * x) / (i * (j * k * l) * e) = - x / e * / l).
  { intros x. rewrite <- (quot_scaled l i j k (- x) e) by assumption. f_equal; ring. }
  apply M4_eq; cbn [r4a r4b r4c r4d]; apply V4_eq; cbn [v4a v4b v4c v4d]; first [apply Q0|apply Q1|apply Q2|apply Q3].
Qed.

Section Change.
Variable c : Change.
Hypothesis Lpos : 0 < ch_scale c.

Lemma inverse_changed (x y z w : V3 R * V3 R) :
  let m r := (times c (flip c (fst r)), times c (spin c (snd r))) in
  quad_mixer_inverse (m x) (m y) (m z) (m w) = map (changed_row c) (quad_mixer_inverse x y z w).
Proof.
  cbv zeta. unfold quad_mixer_inverse, mixer_rows4. cbv zeta. cbn [fst snd].
  pose proof (ee c) as Ee. pose proof (li c Lpos) as Ll. set (e := side c) in *. set (l := ch_scale c) in *.
  assert (Ne : e <> 0) by (intros E; rewrite E in Ee; lra). assert (Nl : l <> 0) by lra.
  assert (Ie : / e = e) by (apply (Rmult_eq_reg_l e); [rewrite Rinv_r by exact Ne; lra|exact Ne]).
  pose proof (inv_scaled l (l * e) l (l * e)
    (mkV4 (vz (fst x)) (vz (fst y)) (vz (fst z)) (vz (fst w))) (mkV4 (vx (snd x)) (vx (snd y)) (vx (snd z)) (vx (snd w)))
    (mkV4 (vy (snd x)) (vy (snd y)) (vy (snd z)) (vy (snd w))) (mkV4 (vz (snd x)) (vz (snd y)) (vz (snd z)) (vz (snd w)))
    Nl (Rmult_integral_contrapositive_currified _ _ Nl Ne) Nl (Rmult_integral_contrapositive_currified _ _ Nl Ne)) as K.
  unfold v4mul in K. cbn [v4a v4b v4c v4d] in K. rewrite !Rmult_assoc in K.
  unfold times, spin, flip. fold e l. cbn [vx vy vz]. rewrite K. clear K.
  generalize (m4inv (mkM4 (mkV4 (vz (fst x)) (vz (fst y)) (vz (fst z)) (vz (fst w))) (mkV4 (vx (snd x)) (vx (snd y)) (vx (snd z)) (vx (snd w)))
    (mkV4 (vy (snd x)) (vy (snd y)) (vy (snd z)) (vy (snd w))) (mkV4 (vz (snd x)) (vz (snd y)) (vz (snd z)) (vz (snd w))))).
  intros M. cbn [r4a r4b r4c r4d v4a v4b v4c v4d map]. unfold changed_row, flip, spin, vdiv, vmap. fold e l. cbn [fst snd vx vy vz]. unR.
  assert (Il : / (l * e) = / l * e) by (rewrite Rinv_mult, Ie; reflexivity). rewrite Il.
  assert (Rw : forall p q r s, (mkV 0 0 (p * / l), mkV (q * (/ l * e)) (r * / l) (s * (/ l * e))) = (mkV (0 / l) (e * 0 / l) (p / l), mkV (e * q / l) (r / l) (e * s / l)))
    by (intros p q r s; unfold Rdiv; f_equal; f_equal; ring).
  rewrite !Rw. reflexivity.
Qed.
(** The allocation computed for the changed rotors is the changed allocation. *)
Lemma allocation_changed ms : quad_inverse (map (changed_motor c) ms) = option_map (map (changed_row c)) (quad_inverse ms).
Proof.
  unfold quad_inverse, compute_mixer_6D, cols. rewrite map_length. destruct (Nat.ltb 4 (length ms)) eqn:L; [reflexivity|].
  set (m := fun r : V3 R * V3 R => (times c (flip c (fst r)), times c (spin c (snd r)))).
  assert (E : map mixer6_col (map (changed_motor c) ms) ++ repeat (v0, v0) (4 - length ms) = map m (map mixer6_col ms ++ repeat (v0, v0) (4 - length ms))).
  { rewrite map_app, !map_map. f_equal; [apply map_ext; intros x; apply mixer_changed|].
    assert (Z : m (v0, v0) = (v0, v0)); [unfold m; cbn [fst snd]|induction (4 - length ms)%nat as [|k IH]; [reflexivity|cbn [repeat map]; rewrite Z, <- IH; reflexivity]].
    rewrite (ln_0 _ (flip_lin c)), (ln_0 _ (spin_lin c)), (ln_0 _ (times_lin c)). reflexivity. }
  rewrite E. destruct (map mixer6_col ms ++ repeat (v0, v0) (4 - length ms)) as [|x [|y [|z [|w [|u r]]]]]; try reflexivity.
  cbn [map option_map]. f_equal. apply inverse_changed.
Qed.
End Change.

(** ** One vehicle, the mission and its mirror image *)
Lemma mirror_pos : 0 < ch_scale mirror_image. Proof. cbn. lra. Qed.
Lemma mirror_around v : around mirror_image v = mkV (vx v) (- vy v) (vz v).
Proof. unfold around, side, mirror_image. cbn [ch_turn ch_mirror]. rewrite cos_0, sin_0. f_equal; ring. Qed.
Lemma mirror_spin v : spin mirror_image v = mkV (- vx v) (vy v) (- vz v).
Proof. unfold spin, side, mirror_image. cbn [ch_mirror]. f_equal; ring. Qed.
Lemma mirror_times v : times mirror_image v = v.
Proof. destruct v as [x y z]. unfold times, mirror_image. cbn [ch_scale vx vy vz]. f_equal; ring. Qed.
Lemma mirror_mat m : uncoupled m -> flip_mat mirror_image m = m.
Proof.
  intros (A & B & C & D). destruct m as [a b d f g h i j k]. cbn [m01 m10 m12 m21] in *. subst.
  unfold flip_mat, side, mirror_image. cbn [ch_mirror m00 m01 m02 m10 m11 m12 m20 m21 m22]. f_equal; ring.
Qed.
Lemma mirror_times_mat m : times_mat mirror_image m = m.
Proof. destruct m as [a b d f g h i j k]. unfold times_mat, mirror_image. cbn [ch_scale m00 m01 m02 m10 m11 m12 m20 m21 m22]. f_equal; ring. Qed.

Lemma across_perm : Permutation across (seq 0 4).
Proof. cbn. unfold across. apply (Permutation_trans (l' := [0; 1; 3; 2]%nat)); [apply perm_swap|]. apply perm_skip, perm_skip, perm_swap. Qed.
Lemma across_motors kf kt x y mn mx tau J :
  renum across (map (changed_motor mirror_image) (quad_x kf kt x y mn mx tau J)) = quad_x kf kt x y mn mx tau J.
Proof.
  unfold quad_x, renum, across, pick. cbn [map nth_error flat_map app]. unfold changed_motor, flip_mat, flip, side, mirror_image, mI, mdiag.
  cbn [ch_mirror ch_scale mt_dir mt_kf mt_kt mt_rot mt_pos mt_min mt_max mt_tau mt_J m00 m01 m02 m10 m11 m12 m20 m21 m22 vx vy vz Z.opp]. unR.
  repeat f_equal; ring.
Qed.
Lemma across_start sp : left_right sp -> renum_start across (changed_sim mirror_image sp) = mirrored_start sp.
Proof.
  intros ((kf & kt & x & y & mn & mx & tau & J & Em) & Ei & U1 & U2 & Gv & U3 & U4 & Ga).
  destruct sp as [[ms mass I dr ae gr fn mo] seed st [[am ak ag] [ii im ip] cpp ct cv] im0 od].
  cbn [sp_model p_motors p_inertia p_aero p_grav sp_ctl cp_indi ip_minv ip_inertia cp_acro ap_kp ap_grav] in *.
  unfold renum_start, mirrored_start, changed_sim, renum_params, changed_model, renum_ctl_params, changed_ctl, mirrored_state.
  cbn [sp_model sp_seed sp_state sp_ctl sp_imu sp_odom p_motors p_mass p_inertia p_drag p_aero p_grav p_fnoise p_mnoise cp_acro cp_indi cp_pos cp_traj cp_vel ip_inertia ip_minv ip_pid ap_mass ap_kp ap_grav].
  assert (A1 : renum across (map (changed_motor mirror_image) ms) = ms) by (rewrite Em; apply across_motors).
  assert (A2 : renum across (map (changed_row mirror_image) im) = im).
  { pose proof (allocation_changed mirror_image mirror_pos ms) as K. rewrite Ei in K. cbn [option_map] in K.
    assert (L : length (map (changed_motor mirror_image) ms) = 4%nat) by (rewrite map_length, Em; reflexivity).
    pose proof (allocation_renum across _ across_perm L) as Q. rewrite A1, K, Ei in Q. cbn [option_map] in Q. injection Q as Q. symmetry. exact Q. }
  rewrite A1, A2, !mirror_times_mat, !mirror_mat by assumption. rewrite mirror_times, !mirror_around.
  destruct gr as [g1 g2 g3], ag as [a1 a2 a3]. cbn [vx vy vz] in *. subst g2 a2. cbn [mirror_image ch_scale]. rewrite !Rmult_1_l, Ropp_0. reflexivity.
Qed.
Lemma across_call {G H : Gen R} (op : SimOp R G H) : keeps_parts op -> renum_call across (changed_call mirror_image op) = mirrored_call op.
Proof.
  intros K. destruct op; cbn [keeps_parts] in K; try contradiction; cbn [changed_call renum_call mirrored_call]; try reflexivity;
    rewrite ?mirror_around, ?mirror_spin; try reflexivity; unfold heading, side, mirror_image; cbn [ch_mirror ch_turn ch_scale]; f_equal; ring.
Qed.
Lemma suits_plain {G H : Gen R} (op : SimOp R G H) : keeps_parts op -> suits_call mirror_image op.
Proof. intros K. destruct op; cbn [keeps_parts suits_call] in *; try exact I; try contradiction; try reflexivity. destruct m; exact I || reflexivity. Qed.

Lemma mirrored_mission {G H : Gen R} sp ops : fitting_params 4 sp -> Forall (fits 4) ops -> Forall keeps_parts ops -> left_right sp ->
  suits_dyn mirror_image (sp_model sp) (sp_state sp) -> suits_ctl mirror_image (sp_ctl sp) ->
  exists a b : Sim R G H, sim_after 4 sp ops = Some a /\ sim_after 4 (mirrored_start sp) (map mirrored_call ops) = Some b /\
    sim_state b = mirrored_state (sim_state a) /\ sm_act b = renum across (sm_act a).
Proof.
  intros F Q K Lr Sd Sc.
  assert (Su : Forall (suits_call (G := G) (H := H) mirror_image) ops) by (revert K; apply Forall_impl; intros op; apply suits_plain).
  destruct (flight_changed (G := G) (H := H) mirror_image mirror_pos 4 sp ops F Q Sd Sc Su (or_introl eq_refl)) as (a & b & A & B & St & Ac).
  assert (F' : fitting_params 4 (changed_sim mirror_image sp)).
  { destruct F as (C & Lm & Ls & Li). split; [cbn [changed_sim sp_model]; rewrite (check_changed _ mirror_pos); exact C|].
    split; [cbn [changed_sim sp_model changed_model p_motors]; rewrite map_length; exact Lm|]. split; [exact Ls|].
    cbn [changed_sim sp_ctl changed_ctl cp_indi ip_minv]. rewrite map_length. exact Li. }
  assert (Q' : Forall (fits (G := G) (H := H) 4) (map (changed_call mirror_image) ops)).
  { apply Forall_map. apply Forall_forall. intros op Hi. rewrite Forall_forall in Q, K. specialize (Q op Hi). specialize (K op Hi).
    destruct op; cbn [keeps_parts] in K; try contradiction; exact Q. }
  destruct (renumbered (G := G) (H := H) 4 across across_perm _ _ F' Q') as (b' & B1 & B2). rewrite B in B1. injection B1 as <-.
  exists a, (renum_sim across b). split; [exact A|]. split.
  - rewrite <- (across_start sp Lr). rewrite <- B2. rewrite map_map. f_equal. apply map_ext_in. intros op Hi.
    symmetry. apply across_call. rewrite Forall_forall in K. apply K, Hi.
  - unfold sim_state, renum_sim, renum_dyn. cbn [sm_dyn d_state sm_act]. unfold sim_state in St. rewrite St, Ac. split; reflexivity.
Qed.
