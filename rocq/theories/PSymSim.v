(** Mirrored, turned and rescaled flights: controllers and whole simulations. *)

From Coq Require Import ZArith List Bool Lia Reals Lra Psatz.
From Verif Require Import Scalar LinAlg MUtils MModel MDynamics MPid MControl MCtlRun MImu MSim
  SpecDyn SpecRun SpecMotion SpecPid SpecCtl SpecImu SpecSim SpecEuler SpecSym
  PBase PDyn PModel PDynR PPhys PNoise PDynMore PVeh PMotion PMix PPid PPidR PCtl PCtlR PCtlMix PImu PSim PSimR PHover PEuler PSimEnd PSym.
Import ListNotations.
Local Open Scope R_scope.

Section Change.
Variable c : Change.
Hypothesis Lpos : 0 < ch_scale c.
Notation e := (side c).
Notation l := (ch_scale c).
Notation flip := (flip c).
Notation spin := (spin c).
Notation around := (around c).
Notation times := (times c).
Let al := around_lin c.
Let sl := spin_lin c.
Let tl := times_lin c.

Ltac vec := unfold SpecSym.flip, SpecSym.spin, SpecSym.around, SpecSym.times, vcross, vdot, vsqn; unV; unR; unfold Rdiv.

(** ** The desired attitude *)
Definition same_heading (y y' : R) : Prop := cos y' = cos (heading c y) /\ sin y' = sin (heading c y).

Lemma nose_changed y y' : same_heading y y' -> mkV (cos y') (sin y') 0 = around (mkV (cos y) (sin y) 0).
Proof.
  intros [-> ->]. unfold heading. rewrite cos_plus, sin_plus.
  assert (C : cos (e * y) = cos y) by (unfold side; destruct (ch_mirror c); [replace (-1 * y) with (- y) by ring; apply cos_neg|rewrite Rmult_1_l; reflexivity]).
  assert (S : sin (e * y) = e * sin y) by (unfold side; destruct (ch_mirror c); [replace (-1 * y) with (- y) by ring; rewrite sin_neg; ring|rewrite !Rmult_1_l; reflexivity]).
  rewrite C, S. vec. cbn [vx vy vz]. f_equal; ring.
Qed.
Lemma norm_iso M u : (forall v k, M (vdiv v k) = vdiv (M v) k) -> (forall v, vsqn (M v) = vsqn v) -> vnormalized (M u) = M (vnormalized u).
Proof. intros D Q. unfold vnormalized. rewrite Q. cbv zeta. destruct (ltb zero (vsqn u)); [|reflexivity]. rewrite D. reflexivity. Qed.
Lemma around_norm u : vnormalized (around u) = around (vnormalized u).
Proof. apply norm_iso; [intros v k; apply (ln_div _ _ _ al)|intros v; apply around_dot]. Qed.
Lemma around_norm_e u : vnormalized (vscaler (around u) e) = vscaler (around (vnormalized u)) e.
Proof.
  apply (norm_iso (fun v => vscaler (around v) e)).
  - intros v k. rewrite (ln_div _ _ _ al), !vdiv_mul. vec. f_equal; ring.
  - intros v. transitivity (e * e * vdot (around v) (around v)); [vec; ring|]. rewrite ee, around_dot. vec. ring.
Qed.
Lemma times_norm u : vnormalized (times u) = vnormalized u.
Proof.
  unfold vnormalized. cbv zeta. assert (Q : vsqn (times u) = l * l * vsqn u) by (vec; ring). rewrite Q. set (z := vsqn u). unR.
  assert (Pl : 0 < l * l) by (apply Rmult_lt_0_compat; exact Lpos).
  assert (K : Rltb 0 (l * l * z) = Rltb 0 z).
  { destruct (Rltb 0 z) eqn:E; [apply Rltb_true in E; apply Rltb_true|apply Rltb_false in E; apply Rltb_false].
    - apply Rmult_lt_0_compat; assumption.
    - rewrite <- (Rmult_0_r (l * l)). apply Rmult_le_compat_l; lra. }
  rewrite K. destruct (Rltb 0 z) eqn:E.
  - apply Rltb_true in E. rewrite sqrt_mult by lra. rewrite sqrt_square by lra. apply (div_changed c Lpos).
  - apply Rltb_false in E. unfold z, vsqn, vdot in E. unR.
    assert (vx u = 0 /\ vy u = 0 /\ vz u = 0) as (X & Y & Z).
    { pose proof (Rle_0_sqr (vx u)) as X1. pose proof (Rle_0_sqr (vy u)) as X2. pose proof (Rle_0_sqr (vz u)) as X3. unfold Rsqr in *.
      split; [|split]; apply Rsqr_0_uniq; unfold Rsqr; lra. }
    destruct u as [x y w]. cbn [vx vy vz] in X, Y, Z. subst. vec. cbn [vx vy vz]. f_equal; ring.
Qed.
Lemma attitude_changed y y' t : same_heading y y' ->
  let D := desired_attitude y t in
  desired_attitude y' (times (around t)) = mofcols (around (mcol0 D)) (vscaler (around (mcol1 D)) e) (around (mcol2 D)).
Proof.
  intros Hy. cbv zeta. unfold desired_attitude at 1. cbv zeta. unR. rewrite (nose_changed y y' Hy), times_norm, around_norm.
  rewrite around_cross, around_norm_e, vscaler_cross, around_cross.
  assert (K : forall u : V3 R, vscaler (vscaler u e) e = u) by (intros [x y0 z]; vec; f_equal; ring [(ee c)]).
  rewrite K, around_norm. unfold desired_attitude. cbv zeta. unR.
  set (zb := vnormalized t). set (yb := vnormalized (vcross zb _)). set (xb := vnormalized (vcross yb zb)).
  assert (V : forall a b d : V3 R, mcol0 (mofcols a b d) = a /\ mcol1 (mofcols a b d) = b /\ mcol2 (mofcols a b d) = d).
  { intros [a1 a2 a3] [b1 b2 b3] [d1 d2 d3]. split; [|split]; reflexivity. }
  destruct (V xb yb zb) as (-> & -> & ->). reflexivity.
Qed.

(** ** The present attitude *)
Lemma qmat_cols q : mcol0 (qmat q) = qrot q (mkV 1 0 0) /\ mcol1 (qmat q) = qrot q (mkV 0 1 0) /\ mcol2 (qmat q) = qrot q (mkV 0 0 1).
Proof.
  split; [|split]; unfold qmat, qrot, qvec, mcol0, mcol1, mcol2; cbv zeta; cbn [m00 m01 m02 m10 m11 m12 m20 m21 m22]; vec; cbn [vx vy vz]; f_equal; ring.
Qed.
Lemma qrot_mul q v k : qrot q (vscaler v k) = vscaler (qrot q v) k.
Proof. unfold qrot; cbv zeta; vec; f_equal; ring. Qed.
Lemma qmat_changed q : unitq q ->
  mcol0 (qmat (reattitude c q)) = around (mcol0 (qmat q)) /\
  mcol1 (qmat (reattitude c q)) = vscaler (around (mcol1 (qmat q))) e /\
  mcol2 (qmat (reattitude c q)) = around (mcol2 (qmat q)).
Proof.
  intros U. destruct (qmat_cols q) as (-> & -> & ->). destruct (qmat_cols (reattitude c q)) as (-> & -> & ->).
  rewrite !(around_qrot c q _ U), <- qrot_mul. split; [|split]; f_equal; vec; cbn [vx vy vz]; f_equal; ring [(ee c)].
Qed.

Lemma error_cols D A : rotation_error D A =
  vscale half (mkV (vdot (mcol2 D) (mcol1 A) - vdot (mcol2 A) (mcol1 D))
                   (vdot (mcol0 D) (mcol2 A) - vdot (mcol0 A) (mcol2 D))
                   (vdot (mcol1 D) (mcol0 A) - vdot (mcol1 A) (mcol0 D))).
Proof.
  unfold rotation_error, msub, mmul, mtrans, mofcols, mcol0, mcol1, mcol2, vscale, vdot. cbv zeta. unV. cbn [m00 m01 m02 m10 m11 m12 m20 m21 m22 vx vy vz]. unR.
  f_equal; ring.
Qed.
Lemma error_changed D A D' A' :
  mcol0 D' = around (mcol0 D) -> mcol1 D' = vscaler (around (mcol1 D)) e -> mcol2 D' = around (mcol2 D) ->
  mcol0 A' = around (mcol0 A) -> mcol1 A' = vscaler (around (mcol1 A)) e -> mcol2 A' = around (mcol2 A) ->
  rotation_error D' A' = spin (rotation_error D A).
Proof.
  intros D0 D1 D2 A0 A1 A2. rewrite !error_cols, D0, D1, D2, A0, A1, A2.
  assert (K1 : forall u v : V3 R, vdot u (vscaler v e) = e * vdot u v) by (intros u v; vec; ring).
  assert (K2 : forall u v : V3 R, vdot (vscaler u e) v = e * vdot u v) by (intros u v; vec; ring).
  rewrite !K1, !K2, !around_dot. rewrite (ln_scale _ _ _ sl). f_equal. vec. cbn [vx vy vz]. f_equal; ring.
Qed.

(** ** Controllers *)
Record acro_changed (a b : Acro R) : Prop := {
  ah_kp : ac_kp b = flip_mat c (ac_kp a); ah_mass : ac_mass b = l * ac_mass a; ah_grav : ac_grav b = around (ac_grav a) }.
Record indi_changed (a b : Indi R) : Prop := {
  ih_pid : pid_related spin (in_pid a) (in_pid b);
  ih_inertia : in_inertia b = times_mat c (flip_mat c (in_inertia a));
  ih_minv : in_minv b = map (changed_row c) (in_minv a);
  ih_motor : in_motor b = in_motor a }.
Record ctl_changed (a b : Ctl R) : Prop := {
  th_acro : acro_changed (ct_acro a) (ct_acro b);
  th_indi : indi_changed (ct_indi a) (ct_indi b);
  th_pos : pid_related around (ct_pos a) (ct_pos b);
  th_traj : pid_related around (ct_traj a) (ct_traj b);
  th_vel : pid_related around (ct_vel a) (ct_vel b);
  th_motor : ct_dmotor b = ct_dmotor a }.

Lemma neg_mat_changed m v : mmulv (mneg (flip_mat c m)) (spin v) = spin (mmulv (mneg m) v).
Proof.
  assert (K : forall (m : M3 R) v, mmulv (mneg m) v = vneg (mmulv m v)) by (intros; unfold mneg; vec; f_equal; ring).
  rewrite !K, flip_mat_spin. symmetry. apply (ln_neg _ _ sl).
Qed.
Lemma acc_changed a b acc A A' y y' : acro_changed a b -> same_heading y y' ->
  mcol0 A' = around (mcol0 A) -> mcol1 A' = vscaler (around (mcol1 A)) e -> mcol2 A' = around (mcol2 A) ->
  let r := acc_to_acro a acc A y in let r' := acc_to_acro b (around acc) A' y' in
  acro_changed (fst r) (fst r') /\ fst (snd r') = l * fst (snd r) /\ snd (snd r') = spin (snd (snd r)).
Proof.
  intros [Hk Hm Hg] Hy A0 A1 A2. cbv zeta. unfold acc_to_acro. cbv zeta. cbn [fst snd].
  assert (Tw : acc_to_thrust b (around acc) = times (around (acc_to_thrust a acc))).
  { unfold acc_to_thrust. rewrite Hm, Hg, <- (ln_sub _ _ _ al), (ln_mul _ al). vec. f_equal; ring. }
  rewrite Tw. set (t := acc_to_thrust a acc).
  assert (W : ac_angvel (yaw_to_angvel b A' y' (times (around t))) = spin (ac_angvel (yaw_to_angvel a A y t))).
  { unfold yaw_to_angvel. cbn [ac_angvel]. rewrite Hk, (attitude_changed y y' t Hy). rewrite <- neg_mat_changed. f_equal.
    apply error_changed; try assumption; unfold mcol0, mcol1, mcol2, mofcols; cbn [m00 m01 m02 m10 m11 m12 m20 m21 m22]; destruct (around (mcol0 (desired_attitude y t))), (around (mcol1 (desired_attitude y t))), (around (mcol2 (desired_attitude y t))); reflexivity. }
  assert (Tb : vdot (times (around t)) (vnormalized (mcol2 A')) = l * vdot t (vnormalized (mcol2 A))).
  { rewrite A2, around_norm, <- (around_dot c t). vec. ring. }
  rewrite Tb, W. split; [split; assumption|]. unR. rewrite (neg_changed c Lpos).
  destruct (Rltb _ 0); cbn [fst snd]; [|split; reflexivity]. split; [ring|]. symmetry. apply (ln_0 _ sl).
Qed.

Lemma row_changed r th t : row6 (changed_row c r) (mkV 0 0 (l * th)) (times (spin t)) = row6 r (mkV 0 0 th) t.
Proof.
  destruct r as [f g]. unfold row6, changed_row. cbn [fst snd]. vec. cbn [vx vy vz].
  pose proof (li c Lpos) as Li. revert Li. generalize (/ l). intros k Li. ring [(ee c) Li].
Qed.
Lemma motor_changed a b w th des dt : indi_changed a b ->
  indi_changed (acro_to_motor a w th des dt) (acro_to_motor b (spin w) (l * th) (spin des) dt).
Proof.
  intros [Hp Hi Hr Hm]. unfold acro_to_motor, get_error. cbv zeta. rewrite <- (ln_sub _ _ _ sl).
  destruct (compute_related spin _ _ dt (vsub des w) sl Hp) as [P1 P2].
  assert (T : vadd (mmulv (in_inertia b) (ps_out (pid_s (pid_compute (in_pid b) dt (spin (vsub des w)))))) (vcross (spin des) (mmulv (in_inertia b) (spin des)))
    = times (spin (vadd (mmulv (in_inertia a) (ps_out (pid_s (pid_compute (in_pid a) dt (vsub des w))))) (vcross des (mmulv (in_inertia a) des))))).
  { rewrite P2, Hi, !times_mat_v, !flip_mat_spin, times_cross, spin_cross, <- (ln_add _ tl), <- (ln_add _ sl). reflexivity. }
  rewrite T. split; cbn [in_pid in_inertia in_minv in_motor]; try assumption.
  rewrite Hr, map_map. apply map_ext. intros r. f_equal. unR. apply row_changed.
Qed.

Lemma ctl_acro_changed a b w th des dt : ctl_changed a b -> ctl_changed (ctl_acro a w th des dt) (ctl_acro b (spin w) (l * th) (spin des) dt).
Proof.
  intros [A B C D E F]. unfold ctl_acro. cbv zeta. pose proof (motor_changed _ _ w th des dt B) as M.
  split; cbn [ct_acro ct_indi ct_pos ct_traj ct_vel ct_dmotor]; try assumption. apply M.
Qed.
Lemma ctl_acc_changed a b A A' w acc y y' dt : ctl_changed a b -> same_heading y y' ->
  mcol0 A' = around (mcol0 A) -> mcol1 A' = vscaler (around (mcol1 A)) e -> mcol2 A' = around (mcol2 A) ->
  ctl_changed (ctl_acc a A w acc y dt) (ctl_acc b A' (spin w) (around acc) y' dt).
Proof.
  intros [H1 H2 H3 H4 H5 H6] Hy A0 A1 A2. pose proof (acc_changed _ _ acc A A' y y' H1 Hy A0 A1 A2) as K. cbv zeta in K. unfold ctl_acc.
  destruct (acc_to_acro (ct_acro a) acc A y) as [a1 [th v]]. destruct (acc_to_acro (ct_acro b) (around acc) A' y') as [b1 [th' v']].
  cbn [fst snd] in K. destruct K as (K1 & -> & ->). apply ctl_acro_changed. split; assumption.
Qed.
Lemma ctl_vel_changed a b v A A' w dv y y' dt : ctl_changed a b -> same_heading y y' ->
  mcol0 A' = around (mcol0 A) -> mcol1 A' = vscaler (around (mcol1 A)) e -> mcol2 A' = around (mcol2 A) ->
  ctl_changed (ctl_vel a v A w dv y dt) (ctl_vel b (around v) A' (spin w) (around dv) y' dt).
Proof.
  intros [H1 H2 H3 H4 H5 H6] Hy A0 A1 A2. unfold ctl_vel, pid_on_error, get_error. cbv zeta. rewrite <- (ln_sub _ _ _ al).
  destruct (compute_related around _ _ dt (vsub dv v) al H5) as [P1 P2]. rewrite P2. apply ctl_acc_changed; try assumption. split; assumption.
Qed.
Lemma ctl_pos_changed a b p A A' v w dp y y' dt : ctl_changed a b -> same_heading y y' ->
  mcol0 A' = around (mcol0 A) -> mcol1 A' = vscaler (around (mcol1 A)) e -> mcol2 A' = around (mcol2 A) ->
  ctl_changed (ctl_pos a p A v w dp y dt) (ctl_pos b (around p) A' (around v) (spin w) (around dp) y' dt).
Proof.
  intros [H1 H2 H3 H4 H5 H6] Hy A0 A1 A2. unfold ctl_pos, pid_on_error, get_error. cbv zeta. rewrite <- (ln_sub _ _ _ al).
  destruct (compute_related around _ _ dt (vsub dp p) al H3) as [P1 P2]. rewrite P2. apply ctl_vel_changed; try assumption. split; assumption.
Qed.
Lemma ctl_traj_changed a b p v A A' w dp dv da y y' dt : ctl_changed a b -> same_heading y y' ->
  mcol0 A' = around (mcol0 A) -> mcol1 A' = vscaler (around (mcol1 A)) e -> mcol2 A' = around (mcol2 A) ->
  ctl_changed (ctl_traj a p v A w dp dv da y dt) (ctl_traj b (around p) (around v) A' (spin w) (around dp) (around dv) (around da) y' dt).
Proof.
  intros [H1 H2 H3 H4 H5 H6] Hy A0 A1 A2. unfold ctl_traj, traj_control, get_error. cbv zeta. rewrite <- !(ln_sub _ _ _ al).
  destruct (compute_d_related around _ _ dt (vsub dp p) (vsub dv v) al H4) as [P1 P2]. rewrite P2, <- (ln_add _ al). apply ctl_acc_changed; try assumption. split; assumption.
Qed.
Lemma ctl_new_changed n p : suits_ctl c p -> ctl_changed (ctl_new n p) (ctl_new n (changed_ctl c p)).
Proof.
  intros [Ho Hi]. unfold ctl_new, changed_ctl. cbn [cp_acro cp_indi cp_pos cp_traj cp_vel].
  assert (O : forall pp, In pp [cp_pos p; cp_traj p; cp_vel p] -> pid_related around (pid_new pp) (pid_new pp)).
  { intros pp K. apply new_related; [exact al|]. apply outer_commute, Ho, K. }
  split; cbn [ct_acro ct_indi ct_pos ct_traj ct_vel ct_dmotor]; try (apply O; cbn; tauto).
  - split; reflexivity.
  - split; cbn [indi_new in_pid in_inertia in_minv in_motor ip_pid ip_inertia ip_minv]; try reflexivity. apply new_related; [exact sl|]. apply inner_commute, Hi.
  - reflexivity.
Qed.

(** ** The heading *)
Lemma nose_entry q : rot_entry q AX AX = vx (mcol0 (qmat q)) /\ rot_entry q AY AX = vy (mcol0 (qmat q)).
Proof. unfold rot_entry, qmat, mcol0. cbv zeta. cbn [vx vy m00 m10]. unR. split; ring. Qed.
Lemma yaw_changed q : unitq q -> ch_turn c = 0 \/ not_vertical q ->
  same_heading (vz (quat_to_euler q)) (vz (quat_to_euler (reattitude c q))).
Proof.
  intros U N. pose proof (unit_re c q U) as U'. pose proof (unitq_nonzero q U) as Z. pose proof (unitq_nonzero _ U') as Z'.
  rewrite (euler_unfold q Z), (euler_unfold _ Z'). cbn [vz]. destruct (attitude_cols q Z) as [Cl _]. cbv zeta in Cl.
  unfold not_vertical in N. rewrite !attitude_unit in * by assumption.
  destruct (nose_entry q) as [E1 E2]. destruct (nose_entry (reattitude c q)) as [F1 F2]. destruct (qmat_changed q U) as (Q & _ & _).
  rewrite F1, F2, Q, E1, E2. rewrite E1, E2 in Cl. set (v := mcol0 (qmat q)) in *. clear E1 E2 F1 F2 Q. set (z := rot_entry q AZ AX) in *. clearbody v z.
  set (r2 := vx v * vx v + vy v * vy v).
  assert (P2 : 0 <= r2) by (unfold r2; pose proof (Rle_0_sqr (vx v)); pose proof (Rle_0_sqr (vy v)); unfold Rsqr in *; lra).
  assert (D : r2 = 0 \/ 0 < r2) by lra. destruct D as [D|D].
  - destruct N as [T|N].
    + assert (vx v = 0 /\ vy v = 0) as [X1 X2].
      { pose proof (Rle_0_sqr (vx v)). pose proof (Rle_0_sqr (vy v)). unfold r2, Rsqr in *. split; apply Rsqr_0_uniq; unfold Rsqr; lra. }
      unfold same_heading, heading, SpecSym.around. cbn [vx vy]. rewrite X1, X2, T.
      replace (sin 0 * 0 + cos 0 * (e * 0)) with 0 by ring. replace (cos 0 * 0 - sin 0 * (e * 0)) with 0 by ring.
      assert (A0 : Ratan2 0 0 = 0) by (unfold Ratan2; destruct (Rlt_dec 0 0); lra). rewrite A0. replace (e * 0 + 0) with 0 by ring. split; reflexivity.
    + exfalso. apply Rabs_def2 in N. unfold r2 in D. nra.
  - set (r := sqrt r2). assert (Pr : 0 < r) by (apply sqrt_lt_R0, D). assert (Er : r * r = r2) by (apply sqrt_sqrt, P2).
    destruct (polar (vy v) (vx v) r Pr Er) as (C1 & S1 & _).
    assert (Er' : r * r = vx (around v) * vx (around v) + vy (around v) * vy (around v)).
    { rewrite Er. unfold r2. pose proof (around_dot c v v) as X. unfold vdot in X. unR.
      assert (vz (around v) = vz v) as W by reflexivity. rewrite W in X. lra. }
    destruct (polar (vy (around v)) (vx (around v)) r Pr Er') as (C2 & S2 & _).
    pose proof (nose_changed (Ratan2 (vy v) (vx v)) (heading c (Ratan2 (vy v) (vx v))) (conj eq_refl eq_refl)) as Nc. rewrite C1, S1 in Nc.
    unfold same_heading. rewrite C2, S2. pose proof (f_equal vx Nc) as K1. pose proof (f_equal vy Nc) as K2. cbn [vx vy] in K1, K2. rewrite K1, K2. unfold SpecSym.around. cbn [vx vy]. split; field; lra.
Qed.
Lemma rate_changed a b y y' r : ctl_changed a b -> same_heading y y' -> same_heading (yaw_rate_to_angle a y r) (yaw_rate_to_angle b y' (e * r)).
Proof.
  intros [[Hk _ _] _ _ _ _ _] Hy. unfold yaw_rate_to_angle. cbv zeta. rewrite Hk. cbn [flip_mat m22]. unR. destruct (Reqb _ 0); [exact Hy|].
  destruct Hy as [C S]. set (d := r / m22 (ac_kp (ct_acro a))).
  assert (E : e * r / m22 (ac_kp (ct_acro a)) = e * d) by (unfold d, Rdiv; ring). rewrite E.
  unfold same_heading. assert (X : heading c (y + d) = heading c y + e * d) by (unfold heading; ring).
  rewrite X, !cos_plus, !sin_plus, C, S. split; reflexivity.
Qed.

(** ** The simulator *)
Context {G H : Gen R}.
Notation sim := (Sim R G H).
Record refs_changed (m : Mode) (a b : Refs R) : Prop := {
  rh_motors : rf_motors b = rf_motors a;
  rh_thrust : l = 1 -> rf_thrust b = rf_thrust a;
  rh_ang : rf_ang b = spin (rf_ang a);
  rh_pos : rf_pos b = around (rf_pos a);
  rh_vel : rf_vel b = around (rf_vel a);
  rh_acc : rf_acc b = around (rf_acc a);
  rh_yaw : m = MOTOR_W \/ same_heading (rf_yaw a) (rf_yaw b);
  rh_rate : rf_yawrate b = e * rf_yawrate a }.
Record sim_changed (a b : sim) : Prop := {
  sh_dyn : dyn_changed c (sm_dyn a) (sm_dyn b);
  sh_ctl : ctl_changed (sm_ctl a) (sm_ctl b);
  sh_armed : sm_armed b = sm_armed a;
  sh_en : sm_floor_en b = sm_floor_en a;
  sh_col : sm_floor_col b = sm_floor_col a;
  sh_h : sm_floor_h b = sm_floor_h a;
  sh_refs : refs_changed (sm_mode a) (sm_refs a) (sm_refs b);
  sh_act : sm_act b = sm_act a;
  sh_ext : sm_ext b = times (around (sm_ext a));
  sh_mode : sm_mode b = sm_mode a;
  sh_yaw : sm_yawmode b = sm_yawmode a;
  sh_nofloor : sm_floor_en a = true -> l = 1;
  sh_noacro : sm_mode a = ACRO -> l = 1 }.

Ltac fields := cbn [sm_dyn sm_ctl sm_imu sm_odom sm_armed sm_floor_en sm_floor_col sm_floor_h sm_refs sm_act sm_ext sm_mode sm_yawmode
  with_dyn with_ctl with_imu with_odom with_refs with_act with_ext with_col with_control
  rf_motors rf_thrust rf_ang rf_pos rf_vel rf_acc rf_yaw rf_yawrate set_ref_yaw] in *.

Lemma state_changed (a b : sim) : sim_changed a b -> sim_state b = changed_state c (sim_state a).
Proof. intros S. apply (dc_state c _ _ (sh_dyn a b S)). Qed.
Lemma unit_state (a b : sim) : sim_changed a b -> unitq (s_ori (sim_state a)).
Proof. intros S. apply (dc_unit c _ _ (sh_dyn a b S)). Qed.
Lemma below_changed (a b : sim) : sim_changed a b -> below_floor b = below_floor a.
Proof.
  intros S. unfold below_floor. rewrite (state_changed a b S), (sh_en a b S), (sh_h a b S). reflexivity.
Qed.

Lemma floor_changed st h : floor_state (changed_state c st) h = changed_state c (floor_state st h).
Proof.
  unfold floor_state, changed_state. cbn [s_pos s_ori s_vel s_angvel s_linacc s_angacc s_force s_torque s_mvel s_macc].
  rewrite (ln_0 _ al), (ln_0 _ sl). reflexivity.
Qed.

Lemma dynamics_changed (a b : sim) dt : sim_changed a b -> orel sim_changed (update_dynamics a dt) (update_dynamics b dt).
Proof.
  intros S. unfold update_dynamics. rewrite (below_changed a b S).
  assert (K : forall a1 b1 : sim, sim_changed a1 b1 ->
    orel sim_changed
    match process (sm_dyn a1) (sm_act a1) dt (sm_ext a1) (negb (sm_floor_col a1)) with
    | UB => UB | Throw d => Throw (with_dyn a1 d)
    | Ok d => let s2 := with_col (with_ext (with_dyn a1 d) v0) false in
      if below_floor s2 then
        let st := floor_state (d_state d) (sm_floor_h s2) in
        let s3 := with_dyn (with_col s2 true) (dyn_set_state d st) in
        let s4 := with_imu s3 (imu_reset (sm_imu s3)) in
        Ok (with_odom s4 (odom_reset (odom_set_init (sm_odom s4) (s_ori st))))
      else Ok s2 end
    match process (sm_dyn b1) (sm_act b1) dt (sm_ext b1) (negb (sm_floor_col b1)) with
    | UB => UB | Throw d => Throw (with_dyn b1 d)
    | Ok d => let s2 := with_col (with_ext (with_dyn b1 d) v0) false in
      if below_floor s2 then
        let st := floor_state (d_state d) (sm_floor_h s2) in
        let s3 := with_dyn (with_col s2 true) (dyn_set_state d st) in
        let s4 := with_imu s3 (imu_reset (sm_imu s3)) in
        Ok (with_odom s4 (odom_reset (odom_set_init (sm_odom s4) (s_ori st))))
      else Ok s2 end).
  { intros a1 b1 S1. rewrite (sh_act a1 b1 S1), (sh_ext a1 b1 S1), (sh_col a1 b1 S1).
    pose proof (process_changed c Lpos (sm_dyn a1) (sm_dyn b1) (sm_act a1) dt (sm_ext a1) (negb (sm_floor_col a1)) (sh_dyn a1 b1 S1)) as P.
    destruct (process (sm_dyn a1) _ _ _ _) as [d|d|], (process (sm_dyn b1) _ _ _ _) as [d'|d'|]; cbn [orel] in P; try contradiction; cbn [orel]; try exact I.
    - cbv zeta.
      assert (S2 : sim_changed (with_col (with_ext (with_dyn a1 d) v0) false) (with_col (with_ext (with_dyn b1 d') v0) false)).
      { destruct S1. split; fields; try assumption; [reflexivity|]. rewrite (ln_0 _ al), (ln_0 _ tl). reflexivity. }
      rewrite (below_changed _ _ S2). destruct (below_floor _) eqn:Bf; [|exact S2].
      cbn [orel]. destruct S2 as [[Dc Du Ds] S3 S4 S5 S6 S7 S8 S9 S10 S11 S12 S13 S14]. fields. split; fields; try assumption; try reflexivity.
      split; cbn [dyn_set_state d_model d_state].
      + exact Dc.
      + exact Du.
      + rewrite Ds, S7. apply floor_changed.
    - destruct S1. split; fields; assumption. }
  destruct (below_floor a) eqn:Bf.
  - destruct (dc_cfg c _ _ (sh_dyn a b S)) as (x & y & Ex & Ey & [Cp _ _ _] & _ & _). rewrite Ex, Ey. cbn [option_map]. apply K.
    assert (L1 : l = 1) by (apply (sh_nofloor a b S); unfold below_floor in Bf; apply andb_true_iff in Bf; apply Bf).
    destruct S. split; fields; try assumption. rewrite Cp. cbn [changed_model p_grav p_mass]. rewrite L1, Rmult_1_l.
    rewrite (ln_mul _ al), (ln_neg _ _ al), (ln_mul _ tl), (ln_neg _ _ tl). reflexivity.
  - apply K, S.
Qed.

Lemma controller_changed n (a b : sim) dt : sim_changed a b ->
  (ch_turn c = 0 \/ (sm_yawmode a = RATE -> not_vertical (s_ori (sim_state a)))) ->
  sim_changed (update_controller n a dt) (update_controller n b dt).
Proof.
  intros S N. unfold update_controller. rewrite (sh_armed a b S). destruct (negb (sm_armed a)).
  { destruct S. split; fields; try assumption. reflexivity. }
  rewrite (sh_yaw a b S). cbv zeta.
  assert (Y : sim_changed (match sm_yawmode a with ANGLE => a | RATE => update_yaw_reference a end)
                          (match sm_yawmode a with ANGLE => b | RATE => update_yaw_reference b end)).
  { destruct (sm_yawmode a) eqn:Ey; [exact S|]. unfold update_yaw_reference. cbv zeta.
    pose proof (state_changed a b S) as Est. pose proof (unit_state a b S) as U. rewrite Est. cbn [changed_state s_ori].
    assert (Hy : same_heading (vz (quat_to_euler (s_ori (sim_state a)))) (vz (quat_to_euler (reattitude c (s_ori (sim_state a)))))).
    { apply yaw_changed; [exact U|]. destruct N as [N|N]; [left; exact N|right; apply N; reflexivity]. }
    pose proof (rate_changed _ _ _ _ (rf_yawrate (sm_refs a)) (sh_ctl a b S) Hy) as Q.
    destruct S as [S1 S2 S3 S4 S5 S6 [R1 R2 R3 R4 R5 R6 R7 R8] S8 S9 S10 S11 S12 S13].
    split; fields; try assumption. split; fields; try assumption. right. rewrite R8. exact Q. }
  revert Y. generalize (match sm_yawmode a with ANGLE => a | RATE => update_yaw_reference a end) (match sm_yawmode a with ANGLE => b | RATE => update_yaw_reference b end).
  clear a b S N. intros a b S. rewrite (sh_mode a b S), (state_changed a b S).
  cbn [changed_state s_pos s_ori s_vel s_angvel].
  destruct (qmat_changed (s_ori (sim_state a)) (unit_state a b S)) as (A0 & A1 & A2).
  assert (W : forall x y, ctl_changed x y -> sim_changed (with_control a x) (with_control b y)).
  { intros x y Cx. pose proof (th_motor x y Cx) as M. destruct S. split; fields; assumption. }
  destruct (sh_refs a b S) as [R1 R2 R3 R4 R5 R6 R7 R8]. rewrite R4, R5, R6.
  destruct (sm_mode a) eqn:Em.
  - apply W. destruct R7 as [R7|R7]; [discriminate|]. apply ctl_pos_changed; try assumption. apply S.
  - pose proof R1 as R1'. destruct S. split; fields; assumption.
  - apply W. pose proof (sh_noacro a b S Em) as L1. rewrite R3, (R2 L1). replace (rf_thrust (sm_refs a)) with (l * rf_thrust (sm_refs a)) at 2 by (rewrite L1; ring).
    apply ctl_acro_changed, S.
  - apply W. destruct R7 as [R7|R7]; [discriminate|]. apply ctl_traj_changed; try assumption. apply S.
  - apply W. destruct R7 as [R7|R7]; [discriminate|]. apply ctl_vel_changed; try assumption. apply S.
  - apply W. destruct R7 as [R7|R7]; [discriminate|]. apply ctl_pos_changed; try assumption. apply S.
Qed.

Lemma step_changed n (a b : sim) op : sim_changed a b -> fits n op -> suits_call c op ->
  (ch_turn c = 0 \/ (looks_at_heading a op -> not_vertical (s_ori (sim_state a)))) ->
  orel sim_changed (sim_step n a op) (sim_step n b (changed_call c op)).
Proof.
  intros S Q Su N. destruct op; cbn [changed_call sim_step orel suits_call fits looks_at_heading] in *; try contradiction;
    try (destruct S; split; fields; assumption);
    try (unfold set_ref_motors, set_ref_acro, set_ref_traj, set_ref_vel, set_ref_pos, set_ref_yaw_angle, set_ref_yawrate, set_ref_yaw; cbv zeta;
         destruct S as [S1 S2 S3 S4 S5 S6 [R1 R2 R3 R4 R5 R6 R7 R8] S8 S9 S10 S11 S12 S13]; split; fields; try assumption; split; fields; try assumption; try reflexivity;
         try (intros L1; rewrite L1, Rmult_1_l; reflexivity); right; split; reflexivity).
  - apply dynamics_changed, S.
  - apply controller_changed; assumption.
  - unfold arm. cbv zeta. destruct S as [S1 S2 S3 S4 S5 S6 [R1 R2 R3 R4 R5 R6 R7 R8] S8 S9 S10 S11 S12 S13].
    split; fields; try assumption; [reflexivity|]. split; fields; try assumption; try reflexivity.
    + symmetry. apply (ln_0 _ sl).
    + rewrite R4, S6. reflexivity.
  - unfold enable_floor. destruct S. split; fields; try assumption; try reflexivity; try (intros _; exact Su).
    rewrite (ln_0 _ al), (ln_0 _ tl). reflexivity.
  - unfold disable_floor. destruct S. split; fields; try assumption; try reflexivity; try discriminate.
    rewrite (ln_0 _ al), (ln_0 _ tl). reflexivity.
  - unfold set_control_mode. rewrite (sh_mode a b S), (sh_yaw a b S). destruct (_ && _); [exact S|]. cbv zeta.
    rewrite (state_changed a b S). cbn [changed_state s_pos s_ori].
    assert (Hy : same_heading (vz (quat_to_euler (s_ori (sim_state a)))) (vz (quat_to_euler (reattitude c (s_ori (sim_state a)))))).
    { apply yaw_changed; [apply (unit_state a b S)|]. destruct N as [N|N]; [left; exact N|right; apply N; exact I]. }
    destruct S as [S1 S2 S3 S4 S5 S6 [R1 R2 R3 R4 R5 R6 R7 R8] S8 S9 S10 S11 S12 S13].
    split; fields; try assumption; try reflexivity.
    + split; fields; try assumption; try reflexivity; try (symmetry; apply (ln_0 _ sl)); try (symmetry; apply (ln_0 _ al)). right. exact Hy.
    + intros ->. exact Su.
  - destruct Q as (Ck & Lm & _). destruct (new_defined (G := G) n p seed st Ck) as [d Ed]; [lia|].
    assert (Ck' : check_params (changed_model c p) = true) by (rewrite (check_changed c Lpos); exact Ck).
    destruct (new_defined (G := G) n (changed_model c p) seed (changed_state c st) Ck') as [d' Ed'].
    { cbn [changed_model p_motors]. rewrite map_length. lia. }
    unfold set_dynamics_params. rewrite Ed, Ed'. cbn [option_map of_opt orel].
    pose proof (new_changed c Lpos n p seed st d d' Ck Su Ed Ed') as Dc. destruct S. split; fields; assumption.
  - unfold set_controller_params. pose proof (ctl_new_changed n p Su) as C. destruct S. split; fields; assumption.
Qed.

Lemma run_changed n ops : forall a b : sim, sim_changed a b -> Forall (fits n) ops -> Forall (suits_call c) ops ->
  (ch_turn c = 0 \/ forall pre op post s, ops = pre ++ op :: post -> sim_run n a pre = Some s -> looks_at_heading s op -> not_vertical (s_ori (sim_state s))) ->
  both sim_changed (sim_run n a ops) (sim_run n b (map (changed_call c) ops)).
Proof.
  induction ops as [|op ops IH]; intros a b S F Su N; cbn [sim_run map]; [exact S|].
  apply Forall_cons_iff in F as [Q F]. apply Forall_cons_iff in Su as [Q2 Su].
  assert (N1 : ch_turn c = 0 \/ (looks_at_heading a op -> not_vertical (s_ori (sim_state a)))).
  { destruct N as [N|N]; [left; exact N|right]. intros Lk. exact (N [] op ops a eq_refl eq_refl Lk). }
  pose proof (step_changed n a b op S Q Q2 N1) as P.
  assert (N2 : forall a1, (sim_step n a op = Ok a1 \/ sim_step n a op = Throw a1) -> ch_turn c = 0 \/ forall pre op' post s, ops = pre ++ op' :: post -> sim_run n a1 pre = Some s -> looks_at_heading s op' -> not_vertical (s_ori (sim_state s))).
  { intros a1 Ea. destruct N as [N|N]; [left; exact N|right]. intros pre op' post s E K Lk. apply (N (op :: pre) op' post s); [rewrite E; reflexivity| |exact Lk].
    cbn [sim_run]. destruct Ea as [-> | ->]; exact K. }
  destruct (sim_step n a op) as [a1|a1|], (sim_step n b (changed_call c op)) as [b1|b1|]; cbn [orel] in P; try contradiction; try exact I;
    apply IH; auto.
Qed.

Lemma flight_changed n sp ops : fitting_params n sp -> Forall (fits n) ops ->
  suits_dyn c (sp_model sp) (sp_state sp) -> suits_ctl c (sp_ctl sp) -> Forall (suits_call c) ops -> headed c n sp ops ->
  exists a b : sim, sim_after n sp ops = Some a /\ sim_after n (changed_sim c sp) (map (changed_call c) ops) = Some b /\
    sim_state b = changed_state c (sim_state a) /\ sm_act b = sm_act a.
Proof.
  intros Ft F Sd Sc Su N. destruct (simulator_defined (G := G) (H := H) n sp ops Ft F) as [a Ea]. exists a.
  destruct Ft as (Ck & Lm & Ls & Lc).
  destruct (new_defined (G := G) n (sp_model sp) (sp_seed sp) (sp_state sp) Ck) as [d Ed]; [lia|].
  assert (Ck' : check_params (changed_model c (sp_model sp)) = true) by (rewrite (check_changed c Lpos); exact Ck).
  destruct (new_defined (G := G) n (changed_model c (sp_model sp)) (sp_seed sp) (changed_state c (sp_state sp)) Ck') as [d' Ed'].
  { cbn [changed_model p_motors]. rewrite map_length. lia. }
  pose proof (new_changed c Lpos n _ _ _ d d' Ck Sd Ed Ed') as Dc.
  unfold headed, sim_after, sim_new in *. cbn [changed_sim sp_model sp_seed sp_state sp_ctl sp_imu sp_odom]. rewrite Ed, Ed' in *. cbn [option_map] in *.
  match type of Ea with sim_run n ?x ops = _ => match goal with |- context [sim_run n ?y (map _ ops)] => assert (S : sim_changed x y) end end.
  { split; fields; try assumption; try reflexivity; try discriminate.
    - apply ctl_new_changed, Sc.
    - unfold refs0. split; fields; try reflexivity; try (symmetry; apply (ln_0 _ sl)); try (symmetry; apply (ln_0 _ al)); [left; reflexivity|].
      unR. ring.
    - rewrite (ln_0 _ al), (ln_0 _ tl). reflexivity. }
  pose proof (run_changed n ops _ _ S F Su N) as K. rewrite Ea in K.
  match goal with |- context [sim_run n ?y (map _ ops)] => destruct (sim_run n y (map (changed_call c) ops)) as [b|] end; cbn [both] in K; [|contradiction].
  exists b. split; [exact Ea|]. split; [reflexivity|]. split; [apply state_changed, K|apply K].
Qed.
End Change.
