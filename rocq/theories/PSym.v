(** Mirrored, turned and rescaled flights. *)

From Coq Require Import ZArith List Bool Lia Reals Lra Psatz.
From Verif Require Import Scalar LinAlg MUtils MModel MDynamics MPid MControl MCtlRun MImu MSim
  SpecDyn SpecRun SpecMotion SpecPid SpecCtl SpecImu SpecSim SpecEuler SpecSym
  PBase PDyn PModel PDynR PPhys PNoise PDynMore PVeh PMotion PMix PPid PPidR PCtl PCtlR PCtlMix PImu PSim PSimR PHover PEuler PSimEnd.
Import ListNotations.
Local Open Scope R_scope.

Section Change.
Variable c : Change.
Hypothesis Lpos : 0 < ch_scale c.
Notation e := (side c).
Notation l := (ch_scale c).
Notation flip := (flip c).
Notation spin := (spin c).
Notation around := (around c).
Notation times := (times c).

Lemma ee : e * e = 1.
Proof. unfold side. destruct (ch_mirror c); ring. Qed.
Lemma cs : cos (ch_turn c) * cos (ch_turn c) = 1 - sin (ch_turn c) * sin (ch_turn c).
Proof. pose proof (sin2_cos2 (ch_turn c)) as E. unfold Rsqr in E. lra. Qed.
Lemma li : l * / l = 1.
Proof. apply Rinv_r. lra. Qed.

Ltac vec := unfold SpecSym.flip, SpecSym.spin, SpecSym.around, SpecSym.times, vcross, vdot, vsqn; unV; unR; unfold Rdiv.

(** ** Linear maps *)
Record Lin (M : V3 R -> V3 R) : Prop := {
  ln_add : forall a b, M (vadd a b) = vadd (M a) (M b);
  ln_mul : forall a k, M (vscaler a k) = vscaler (M a) k }.
Lemma ln_0 M : Lin M -> M v0 = v0.
Proof.
  intros L. assert (E : M v0 = vscaler (M v0) 0) by (rewrite <- (ln_mul M L); f_equal; vec; f_equal; ring).
  rewrite E. destruct (M v0) as [x y z]. vec. f_equal; ring.
Qed.
Lemma ln_sub M a b : Lin M -> M (vsub a b) = vsub (M a) (M b).
Proof.
  intros L. replace (vsub a b) with (vadd a (vscaler b (-1))) by (vec; f_equal; ring). rewrite (ln_add M L), (ln_mul M L).
  destruct (M a) as [x y z], (M b) as [x' y' z']. vec. f_equal; ring.
Qed.
Lemma vdiv_mul (a : V3 R) k : vdiv a k = vscaler a (/ k).
Proof. vec. reflexivity. Qed.
Lemma vscale_mul (a : V3 R) k : vscale k a = vscaler a k.
Proof. vec. f_equal; ring. Qed.
Lemma ln_div M a k : Lin M -> M (vdiv a k) = vdiv (M a) k.
Proof. intros L. rewrite !vdiv_mul. apply (ln_mul M L). Qed.
Lemma ln_scale M a k : Lin M -> M (vscale k a) = vscale k (M a).
Proof. intros L. rewrite !vscale_mul. apply (ln_mul M L). Qed.
Lemma ln_neg M a : Lin M -> M (vneg a) = vneg (M a).
Proof.
  intros L. replace (vneg a) with (vscaler a (-1)) by (vec; f_equal; ring). rewrite (ln_mul M L).
  destruct (M a) as [x y z]. vec. f_equal; ring.
Qed.
Lemma flip_lin : Lin flip.
Proof. split; intros; vec; f_equal; ring. Qed.
Lemma spin_lin : Lin spin.
Proof. split; intros; vec; f_equal; ring. Qed.
Lemma around_lin : Lin around.
Proof. split; intros; vec; f_equal; ring. Qed.
Lemma times_lin : Lin times.
Proof. split; intros; vec; f_equal; ring. Qed.
Lemma lin_comp M N : Lin M -> Lin N -> Lin (fun v => M (N v)).
Proof. intros A B. split; intros; [rewrite (ln_add N B); apply (ln_add M A)|rewrite (ln_mul N B); apply (ln_mul M A)]. Qed.
Lemma ln_colsmul M : Lin M -> forall cl x, colsmul (map M cl) x = M (colsmul cl x).
Proof.
  intros L cl x. unfold colsmul.
  assert (E : map (fun cx : V3 R * R => vscaler (fst cx) (snd cx)) (combine (map M cl) x)
            = map M (map (fun cx => vscaler (fst cx) (snd cx)) (combine cl x))).
  { revert x. induction cl as [|a cl IH]; intros [|y x]; cbn; try reflexivity. rewrite (ln_mul M L), IH. reflexivity. }
  rewrite E. generalize (map (fun cx : V3 R * R => vscaler (fst cx) (snd cx)) (combine cl x)). clear E.
  intros [|a u]; cbn [map vsum]; [symmetry; apply ln_0, L|]. revert a.
  induction u as [|b u IH]; intros a; cbn [map fold_left]; [reflexivity|]. rewrite <- (ln_add M L). apply IH.
Qed.
Lemma times_scaler v : times v = vscaler v l.
Proof. vec. f_equal; ring. Qed.

(** ** Vectors *)
Lemma spin_flip v : spin v = vscaler (flip v) e.
Proof. vec. f_equal; ring [ee]. Qed.
Lemma flip_cross a b : vcross (flip a) (flip b) = spin (vcross a b).
Proof. vec. f_equal; ring [ee]. Qed.
Lemma spin_cross a b : vcross (spin a) (spin b) = spin (vcross a b).
Proof. vec. f_equal; ring [ee]. Qed.
Lemma around_cross a b : vcross (around a) (around b) = vscaler (around (vcross a b)) e.
Proof. vec. f_equal; ring [ee cs]. Qed.
Lemma around_dot a b : vdot (around a) (around b) = vdot a b.
Proof. vec. ring [ee cs]. Qed.
Lemma spin_dot a b : vdot (spin a) (spin b) = vdot a b.
Proof. vec. ring [ee]. Qed.
Lemma flip_mat_flip m v : mmulv (flip_mat c m) (flip v) = flip (mmulv m v).
Proof. unfold flip_mat. vec. cbn [m00 m01 m02 m10 m11 m12 m20 m21 m22]. f_equal; ring [ee]. Qed.
Lemma flip_mat_spin m v : mmulv (flip_mat c m) (spin v) = spin (mmulv m v).
Proof. rewrite !spin_flip, <- flip_mat_flip. vec. f_equal; ring. Qed.
Lemma times_mat_v m v : mmulv (times_mat c m) v = times (mmulv m v).
Proof. unfold times_mat. cbv zeta. vec. f_equal; ring. Qed.
Lemma vscaler_cross a b k : vcross (vscaler a k) b = vscaler (vcross a b) k.
Proof. vec. f_equal; ring. Qed.
Lemma vcross_scaler a b k : vcross a (vscaler b k) = vscaler (vcross a b) k.
Proof. vec. f_equal; ring. Qed.

(** ** Inertia *)
Lemma minv_change I t : mmulv (minv (times_mat c (flip_mat c I))) (times (spin t)) = spin (mmulv (minv I) t).
Proof.
  unfold minv. cbv zeta. unfold times_mat, flip_mat. cbv zeta. cbn [m00 m01 m02 m10 m11 m12 m20 m21 m22]. unR.
  set (d0 := (m11 I * m22 I - m12 I * m21 I) * m00 I + (m21 I * m02 I - m22 I * m01 I) * m10 I + (m01 I * m12 I - m02 I * m11 I) * m20 I).
  match goal with |- context [1 / (?a * (l * m00 I) + ?b + ?f)] => replace (a * (l * m00 I) + b + f) with (l * (l * (l * d0))) by (unfold d0; ring [ee]) end.
  assert (K : / (l * (l * (l * d0))) = / d0 * (/ l * / l * / l)) by (rewrite !Rinv_mult; ring).
  unfold Rdiv. rewrite K. clear K. generalize (/ d0). intros q. vec. pose proof li as Li. revert Li. generalize (/ l). intros k Li.
  assert (L3 : l * l * l * (k * k * k) = 1) by (transitivity ((l * k) * (l * k) * (l * k)); [ring|rewrite Li; ring]).
  f_equal; ring [ee L3].
Qed.

(** ** Attitudes *)
Lemma around_turn v : around v = turn (level (ch_turn c)) (flip v).
Proof.
  set (h := ch_turn c / 2).
  assert (C : cos (ch_turn c) = 1 - 2 * sin h * sin h) by (rewrite <- cos_2a_sin; f_equal; unfold h; field).
  assert (S : sin (ch_turn c) = 2 * sin h * cos h) by (rewrite <- sin_2a; f_equal; unfold h; field).
  unfold turn, vec_of, to_world, rot_entry, level. fold h. vec. cbn [qw qx qy qz]. rewrite C, S. f_equal; ring.
Qed.
Definition flipq (q : Quat R) : Quat R := mkQ (qw q) (e * qx q) (qy q) (e * qz q).
Lemma unit_flipq q : unitq q -> unitq (flipq q).
Proof. unfold unitq, flipq. cbn [qw qx qy qz]. intros <-. ring [ee]. Qed.
Lemma unit_re q : unitq q -> unitq (reattitude c q).
Proof. intros U. apply unitq_turnq; [apply level_unit|apply unit_flipq, U]. Qed.
Lemma flip_qrot q v : flip (qrot q v) = qrot (flipq q) (flip v).
Proof. unfold qrot, flipq, qvec. cbv zeta. cbn [qw qx qy qz]. vec. f_equal; ring [ee]. Qed.
Lemma around_qrot q v : unitq q -> around (qrot q v) = qrot (reattitude c q) (flip v).
Proof.
  intros U. rewrite around_turn, flip_qrot. apply turn_qrot; [apply level_unit|apply unit_flipq, U].
Qed.
Lemma sq_flipq q : qsqn (flipq q) = qsqn q.
Proof. unfold qsqn, flipq. cbn [qw qx qy qz]. unR. ring [ee]. Qed.
Lemma flipq_integrate q w dt :
  qnormalized (qadd (flipq q) (qmap (fun x => mul x dt) (quat_derivative (flipq q) (spin w))))
  = flipq (qnormalized (qadd q (qmap (fun x => mul x dt) (quat_derivative q w)))).
Proof.
  assert (E : qadd (flipq q) (qmap (fun x => mul x dt) (quat_derivative (flipq q) (spin w)))
    = flipq (qadd q (qmap (fun x => mul x dt) (quat_derivative q w)))).
  { unfold quat_derivative, flipq. generalize ee. intros Ee.
    apply Q_eq; destruct q as [w0 x y z], w as [wx wy wz]; vec; unfold half, lit; unR; ring [Ee]. }
  rewrite E. generalize (qadd q (qmap (fun x => mul x dt) (quat_derivative q w))). intros u.
  unfold qnormalized. rewrite sq_flipq. destruct (ltb zero (qsqn u)); [|reflexivity].
  apply Q_eq; unfold flipq, qmap; cbn [qw qx qy qz]; unR; unfold Rdiv; ring.
Qed.
Lemma re_integrate q w dt :
  qnormalized (qadd (reattitude c q) (qmap (fun x => mul x dt) (quat_derivative (reattitude c q) (spin w))))
  = reattitude c (qnormalized (qadd q (qmap (fun x => mul x dt) (quat_derivative q w)))).
Proof.
  change (reattitude c q) with (turnq (level (ch_turn c)) (flipq q)).
  rewrite turnq_integrate by apply level_unit. rewrite flipq_integrate. reflexivity.
Qed.

(** ** Vehicle *)
Lemma clamp_changed w ms : clamp_motors w (map (changed_motor c) ms) = clamp_motors w ms.
Proof. revert ms. induction w as [|x w IH]; intros [|m ms]; cbn [map clamp_motors]; try reflexivity. rewrite IH. reflexivity. Qed.
Lemma deriv_changed w u ms : motors_derivative w u (map (changed_motor c) ms) = motors_derivative w u ms.
Proof. revert u ms. induction w as [|x w IH]; intros [|y u] [|m ms]; cbn [map motors_derivative]; try reflexivity. rewrite IH. reflexivity. Qed.
Lemma dir_changed m : IZR (mt_dir (changed_motor c m)) = e * IZR (mt_dir m).
Proof. unfold side. cbn [changed_motor mt_dir]. destruct (ch_mirror c); [rewrite opp_IZR|]; ring. Qed.
Lemma mmulv_times m v : mmulv m (times v) = times (mmulv m v).
Proof. vec. f_equal; ring. Qed.
Lemma times_cross a b : vcross a (times b) = times (vcross a b).
Proof. vec. f_equal; ring. Qed.
Lemma axle_force m : mmulv (mt_rot (changed_motor c m)) (mkV 0 0 (mt_kf (changed_motor c m))) = times (flip (mmulv (mt_rot m) (mkV 0 0 (mt_kf m)))).
Proof.
  cbn [changed_motor mt_rot mt_kf]. rewrite <- flip_mat_flip, <- mmulv_times. f_equal. vec. f_equal; ring.
Qed.
Lemma axle_torque m k : mmulv (mt_rot (changed_motor c m)) (mkV 0 0 (IZR (mt_dir (changed_motor c m)) * (l * k))) = times (spin (mmulv (mt_rot m) (mkV 0 0 (IZR (mt_dir m) * k)))).
Proof.
  rewrite dir_changed. cbn [changed_motor mt_rot]. rewrite <- flip_mat_spin, <- mmulv_times. f_equal. vec. f_equal; ring.
Qed.
Lemma mixer_changed m : mixer6_col (changed_motor c m) = (times (flip (fst (mixer6_col m))), times (spin (snd (mixer6_col m)))).
Proof.
  unfold mixer6_col. cbv zeta. cbn [fst snd]. unR. rewrite axle_force. f_equal.
  rewrite (ln_add spin spin_lin), (ln_add times times_lin). f_equal.
  - change (mt_pos (changed_motor c m)) with (flip (mt_pos m)). rewrite times_cross, flip_cross. reflexivity.
  - change (mt_kt (changed_motor c m)) with (l * mt_kt m). apply axle_torque.
Qed.
Lemma inertia_changed m : inertia_col (changed_motor c m) = times (spin (inertia_col m)).
Proof. unfold inertia_col. unR. change (mt_J (changed_motor c m)) with (l * mt_J m). apply axle_torque. Qed.
Lemma aero_changed C w : aero_moment (times_mat c (flip_mat c C)) (spin w) = times (spin (aero_moment C w)).
Proof.
  assert (A : forall (m : M3 R) (u : V3 R), aero_moment m u = vscaler (mmulv m u) (mone * vnorm u)).
  { intros m u. unfold aero_moment. cbv zeta. vec. f_equal; ring. }
  rewrite !A, times_mat_v, flip_mat_spin. unfold vnorm, vsqn. rewrite spin_dot. rewrite <- (ln_mul times times_lin), <- (ln_mul spin spin_lin). reflexivity.
Qed.
Lemma sq_side x : sq_signed (e * x) = e * sq_signed x.
Proof.
  unfold sq_signed, side. destruct (ch_mirror c); [|rewrite !Rmult_1_l; reflexivity].
  replace (-1 * x) with (- x) by ring. rewrite Rabs_Ropp. ring.
Qed.
Lemma drag_changed k v : ch_turn c = 0 \/ k = 0 -> drag_force (l * k) (around v) = times (around (drag_force k v)).
Proof.
  intros [Z| ->].
  - apply pr_ext. intros a. rewrite drag_R. unfold drag_spec.
    assert (D : forall b, pr b (drag_force k v) = - k * sq_signed (pr b v)) by (intros b; rewrite drag_R; unfold drag_spec; ring).
    pose proof (D AX) as X. pose proof (D AY) as Y. pose proof (D AZ) as W. cbn [pr] in X, Y, W.
    unfold SpecSym.times, SpecSym.around. rewrite Z, cos_0, sin_0. destruct a; cbn [pr vx vy vz]; rewrite ?X, ?Y, ?W.
    + replace (1 * vx v - 0 * (e * vy v)) with (vx v) by ring. ring.
    + replace (0 * vx v + 1 * (e * vy v)) with (e * vy v) by ring. rewrite sq_side. ring.
    + ring.
  - rewrite Rmult_0_r, !drag_zero, (ln_0 around around_lin), (ln_0 times times_lin). reflexivity.
Qed.
Lemma div_changed f m : vdiv (times f) (l * m) = vdiv f m.
Proof.
  vec. rewrite Rinv_mult. pose proof li as Li. revert Li. generalize (/ l), (/ m). intros k q Li. f_equal; ring [Li].
Qed.

Record cfg_changed (a b : Cfg R) : Prop := {
  cc_params : cf_params b = changed_model c (cf_params a);
  cc_fmat : cf_fmat b = map (fun v => times (flip v)) (cf_fmat a);
  cc_tmat : cf_tmat b = map (fun v => times (spin v)) (cf_tmat a);
  cc_imat : cf_imat b = map (fun v => times (spin v)) (cf_imat a) }.
Record dyn_changed {G : Gen R} (x y : Dyn R G) : Prop := {
  dc_cfg : exists a b, mo_cfg (d_model x) = Some a /\ mo_cfg (d_model y) = Some b /\ cfg_changed a b /\ p_fnoise (cf_params a) = 0 /\ (ch_turn c = 0 \/ p_drag (cf_params a) = 0);
  dc_unit : unitq (s_ori (d_state x));
  dc_state : d_state y = changed_state c (d_state x) }.

Lemma quiet_model {G : Gen R} (d : Dyn R G) (noise : bool) h a : mo_cfg (d_model d) = Some a -> p_fnoise (cf_params a) = 0 ->
  exists mo, (if noise then set_noise (d_model d) h else Some (disable_noise (d_model d))) = Some mo /\ mo_cfg mo = Some a /\ mo_sforce mo = v0.
Proof.
  intros Hd Hf. destruct noise.
  - destruct (set_noise_total (d_model d) h a Hd) as [mo Hmo]. exists mo. split; [exact Hmo|].
    split; [rewrite (set_noise_cfg _ _ _ Hmo); exact Hd|]. eapply set_noise_zero; eauto.
  - eexists. split; [reflexivity|]. split; [exact Hd|reflexivity].
Qed.

Lemma core_changed {G : Gen R} (x y : Dyn R G) act h ext noise : dyn_changed x y ->
  optrel dyn_changed (euler_core x act h ext noise) (euler_core y act h (times (around ext)) noise).
Proof.
  intros [(a & b & Ea & Eb & [Cp Cf Ct Ci] & Nz & Dr) U S].
  destruct (quiet_model x noise h a Ea Nz) as (m1 & N1 & F1 & S1).
  assert (Nz' : p_fnoise (cf_params b) = 0) by (rewrite Cp; exact Nz).
  destruct (quiet_model y noise h b Eb Nz') as (m2 & N2 & F2 & S2).
  unfold euler_core. rewrite N1, N2. cbn [bindo]. rewrite F1, F2. cbn [bindo]. rewrite S1, S2, S, Cp, Cf, Ct, Ci.
  cbn [changed_model p_motors p_mass p_inertia p_drag p_aero p_grav changed_state s_pos s_ori s_vel s_angvel s_mvel].
  rewrite !clamp_changed. destruct (clamp_motors act _) as [des|]; cbn [bindo]; [|exact I].
  rewrite !deriv_changed. destruct (motors_derivative des _ _) as [macc|]; cbn [bindo]; [|exact I].
  rewrite !clamp_changed. destruct (clamp_motors (ladd _ _) _) as [mv|]; cbn [bindo]; [|exact I].
  cbn [optrel]. set (s := d_state x) in *. set (p := cf_params a) in *.
  split; cbn [d_model d_state].
  - exists a, b. repeat split; assumption.
  - cbn [s_ori]. apply quat_step_unit, unitq_nonzero, U.
  - assert (T : total_torque (spin (s_angvel s)) (times_mat c (flip_mat c (p_inertia p)))
        (torque_by_motors (map (fun v => times (spin v)) (cf_tmat a)) (map (fun v => times (spin v)) (cf_imat a)) (s_mvel s) macc)
        (aero_moment (times_mat c (flip_mat c (p_aero p))) (spin (s_angvel s))) v0
      = times (spin (total_torque (s_angvel s) (p_inertia p) (torque_by_motors (cf_tmat a) (cf_imat a) (s_mvel s) macc)
        (aero_moment (p_aero p) (s_angvel s)) v0))).
    { pose proof (lin_comp times spin times_lin spin_lin) as L. unfold total_torque, torque_by_motors.
      rewrite !(ln_colsmul _ L). rewrite aero_changed, times_mat_v, flip_mat_spin, times_cross, spin_cross.
      rewrite (ln_sub spin _ _ spin_lin), (ln_sub times _ _ times_lin). rewrite !(ln_add spin spin_lin), !(ln_add times times_lin).
      rewrite (ln_0 spin spin_lin), (ln_0 times times_lin). reflexivity. }
    assert (F : total_force (qrot (reattitude c (s_ori s)) (force_by_motors (map (fun v => times (flip v)) (cf_fmat a)) (s_mvel s)))
        (times (around (p_grav p))) (drag_force (l * p_drag p) (around (s_vel s))) v0 (times (around ext))
      = times (around (total_force (qrot (s_ori s) (force_by_motors (cf_fmat a) (s_mvel s))) (p_grav p) (drag_force (p_drag p) (s_vel s)) v0 ext))).
    { pose proof (lin_comp times flip times_lin flip_lin) as L. unfold total_force, force_by_motors.
      rewrite (ln_colsmul _ L). rewrite drag_changed by exact Dr.
      rewrite !(ln_add around around_lin), !(ln_add times times_lin), (ln_0 around around_lin), (ln_0 times times_lin).
      rewrite around_qrot by exact U. assert (Q : forall q v, qrot q (times v) = times (qrot q v)) by (intros q v; unfold qrot; cbv zeta; vec; f_equal; ring).
      rewrite Q. reflexivity. }
    unfold changed_state. cbn [s_pos s_ori s_vel s_angvel s_linacc s_angacc s_force s_torque s_mvel s_macc].
    change (side c) with e in *. unR.
    rewrite T, F, div_changed, <- (ln_div around _ _ around_lin). unfold ang_acc. rewrite minv_change.
    rewrite <- !(ln_mul around around_lin), <- !(ln_add around around_lin), <- (ln_mul spin spin_lin), <- (ln_add spin spin_lin).
    f_equal. exact (re_integrate (s_ori s) (s_angvel s) h).
Qed.

Lemma process_changed {G : Gen R} (x y : Dyn R G) act dt ext noise : dyn_changed x y ->
  orel dyn_changed (process x act dt ext noise) (process y act dt (times (around ext)) noise).
Proof. apply process_rel3. intros a b h. apply core_changed. Qed.

Lemma det_changed m : mdet (times_mat c (flip_mat c m)) = l * (l * (l * mdet m)).
Proof. unfold mdet, times_mat, flip_mat. cbv zeta. cbn [m00 m01 m02 m10 m11 m12 m20 m21 m22]. unR. ring [ee]. Qed.
Lemma neg_changed x : Rltb (l * x) 0 = Rltb x 0.
Proof.
  destruct (Rltb x 0) eqn:E; [apply Rltb_true in E; apply Rltb_true|apply Rltb_false in E; apply Rltb_false]; nra.
Qed.
Lemma check_changed p : check_params (changed_model c p) = check_params p.
Proof.
  unfold check_params. cbn [changed_model p_mass p_inertia p_drag p_aero p_motors]. unR. rewrite !det_changed, !neg_changed.
  assert (M : forallb check_motor (map (changed_motor c) (p_motors p)) = forallb check_motor (p_motors p)).
  { induction (p_motors p) as [|m ms IH]; [reflexivity|]. cbn [map forallb]. rewrite IH. f_equal.
    unfold check_motor. cbn [changed_motor mt_min mt_max mt_tau mt_J mt_kf mt_kt]. unR. rewrite !neg_changed. reflexivity. }
  rewrite M. reflexivity.
Qed.
Lemma new_changed {G : Gen R} n p seed st (x y : Dyn R G) : check_params p = true -> suits_dyn c p st ->
  dyn_new n p seed st = Some x -> dyn_new n (changed_model c p) seed (changed_state c st) = Some y -> dyn_changed x y.
Proof.
  intros Ck (U & Nz & Dr). unfold dyn_new, model_new, update_params. rewrite check_changed, Ck. cbn [negb].
  unfold compute_mixer_6D, compute_mixer_inertia, cols. cbn [changed_model p_motors]. rewrite map_length.
  destruct (Nat.ltb n (length (p_motors p))); [discriminate|]. cbn [bindo option_map mo_mixer mo_eng mo_dist mo_sforce mo_smoment].
  intros E1 E2. injection E1 as <-. injection E2 as <-. split; cbn [d_model d_state mo_cfg]; [|exact U|reflexivity].
  eexists. eexists. split; [reflexivity|]. split; [reflexivity|]. cbn [cf_params]. split; [|split; [exact Nz|exact Dr]].
  assert (Z1 : times (flip v0) = v0) by (rewrite (ln_0 flip flip_lin); apply ln_0, times_lin).
  assert (Z2 : times (spin v0) = v0) by (rewrite (ln_0 spin spin_lin); apply ln_0, times_lin).
  assert (Rp : forall (A B : Type) (f : A -> B) z k, map f (repeat z k) = repeat (f z) k) by (intros A B f z k; induction k as [|k IH]; cbn; [|rewrite IH]; reflexivity).
  split; cbn [cf_params cf_fmat cf_tmat cf_imat]; [reflexivity|..]; rewrite ?map_app, ?map_map, !Rp; cbn [fst snd]; rewrite ?Z1, ?Z2; f_equal;
    apply map_ext; intros m; rewrite ?mixer_changed, ?inertia_changed; reflexivity.
Qed.

(** ** PIDs *)
Definition signs (a b d : R) (v : V3 R) : V3 R := mkV (a * vx v) (b * vy v) (d * vz v).
(** Limits [u], [w] look the same from both sides if the axis changes sign. *)
Definition sym1 (s u w : R) : Prop := s = 1 \/ s = -1 /\ w = - u /\ 0 <= u.

Lemma sat1_sign s x u w : sym1 s u w -> sat1 (s * x) u w = s * sat1 x u w.
Proof.
  intros [-> | (-> & -> & P)]; [rewrite !Rmult_1_l; reflexivity|]. unfold sat1. unR. replace (-1 * x) with (- x) by ring.
  rcase; lra.
Qed.
Lemma psat1_sign (M : V3 R -> V3 R) get up lo s v : Lin M -> (forall v, get (M v) = s * get v) -> sym1 s (get up) (get lo) ->
  psat1 get up lo (M v) = M (psat1 get up lo v).
Proof.
  intros L E S. unfold psat1. rewrite (ln_scale M _ _ L), E. f_equal. set (x := get v). unR.
  destruct S as [-> | (-> & Ew & P)]; [rewrite !Rmult_1_l; reflexivity|]. rewrite Ew. replace (-1 * x) with (- x) by ring.
  rcase; try lra; field; lra.
Qed.
Lemma signs_lin a b d : Lin (signs a b d).
Proof. split; intros; unfold signs; vec; f_equal; ring. Qed.
Lemma saturate_signs a b d up lo v f : sym1 a (vx up) (vx lo) -> sym1 b (vy up) (vy lo) -> sym1 d (vz up) (vz lo) ->
  saturate (signs a b d v) up lo f = signs a b d (saturate v up lo f).
Proof.
  intros X Y Z. unfold saturate. destruct f; cbn [negb].
  - rewrite (psat1_sign (signs a b d) vx up lo a v (signs_lin a b d) (fun _ => eq_refl) X).
    rewrite (psat1_sign (signs a b d) vy up lo b _ (signs_lin a b d) (fun _ => eq_refl) Y).
    apply (psat1_sign (signs a b d) vz up lo d _ (signs_lin a b d) (fun _ => eq_refl) Z).
  - unfold signs. cbn [vx vy vz]. rewrite !sat1_sign by assumption. reflexivity.
Qed.

Record commutes (M : V3 R -> V3 R) (g : PidCfg R) : Prop := {
  cm_kp : forall v, mmulv (pc_kp g) (M v) = M (mmulv (pc_kp g) v);
  cm_ki : forall v, mmulv (pc_ki g) (M v) = M (mmulv (pc_ki g) v);
  cm_kd : forall v, mmulv (pc_kd g) (M v) = M (mmulv (pc_kd g) v);
  cm_al : forall v, vcmul (pc_alpha g) (M v) = M (vcmul (pc_alpha g) v);
  cm_be : forall v, vcmul (vsub v1 (pc_alpha g)) (M v) = M (vcmul (vsub v1 (pc_alpha g)) v);
  cm_acc : forall a dt v, pid_acc g (M a) dt (M v) = M (pid_acc g a dt v);
  cm_sat : pc_sflag g = true -> forall v, saturate (M v) (pc_up g) (pc_lo g) (pc_pflag g) = M (saturate v (pc_up g) (pc_lo g) (pc_pflag g)) }.
Record pid_related (M : V3 R -> V3 R) (p q : Pid R) : Prop := {
  pr_cfg : pid_c q = pid_c p;
  pr_com : commutes M (pid_c p);
  pr_first : ps_first (pid_s q) = ps_first (pid_s p);
  pr_acc : ps_acc (pid_s q) = M (ps_acc (pid_s p));
  pr_filt : ps_filt (pid_s q) = M (ps_filt (pid_s p));
  pr_perr : ps_perr (pid_s q) = M (ps_perr (pid_s p)) }.

Lemma init_related M p q v : Lin M -> pid_related M p q ->
  let a := ps_init (pid_s p) v in let b := ps_init (pid_s q) (M v) in
  ps_acc b = M (ps_acc a) /\ ps_filt b = M (ps_filt a) /\ ps_perr b = M (ps_perr a).
Proof.
  intros L [_ _ F A B C]. cbv zeta. unfold ps_init. rewrite F. destruct (ps_first (pid_s p)); cbn [ps_acc ps_filt ps_perr]; [|auto].
  rewrite (ln_0 M L). auto.
Qed.
Lemma out_related M g a b d : Lin M -> commutes M g -> pid_out g (M a) (M b) (M d) = M (pid_out g a b d).
Proof.
  intros L C. unfold pid_out. cbv zeta. rewrite <- !(ln_add M L). destruct (pc_sflag g) eqn:E; [|reflexivity]. apply (cm_sat M g C E).
Qed.
Lemma filt_related M g s t dt v : Lin M -> commutes M g -> ps_filt t = M (ps_filt s) -> ps_perr t = M (ps_perr s) ->
  pid_filt g t dt (M v) = M (pid_filt g s dt v).
Proof.
  intros L C A B. unfold pid_filt. cbv zeta. rewrite A, B, <- (ln_sub M _ _ L), <- (ln_div M _ _ L), (cm_al M g C), (cm_be M g C), <- (ln_add M L). reflexivity.
Qed.
Lemma compute_related M p q dt v : Lin M -> pid_related M p q ->
  pid_related M (pid_compute p dt v) (pid_compute q dt (M v)) /\
  ps_out (pid_s (pid_compute q dt (M v))) = M (ps_out (pid_s (pid_compute p dt v))).
Proof.
  intros L X. destruct (init_related M p q v L X) as (A & B & C). destruct X as [Eg Cm _ _ _ _].
  unfold pid_compute. cbv zeta. rewrite Eg, A, (cm_acc M _ Cm), (filt_related M (pid_c p) _ _ dt v L Cm B C), (cm_kp M _ Cm), (cm_ki M _ Cm), (cm_kd M _ Cm).
  split; [|apply out_related; assumption]. split; cbn [pid_c pid_s ps_first ps_acc ps_filt ps_perr]; auto.
Qed.
Lemma compute_d_related M p q dt v u : Lin M -> pid_related M p q ->
  pid_related M (pid_compute_d p dt v u) (pid_compute_d q dt (M v) (M u)) /\
  ps_out (pid_s (pid_compute_d q dt (M v) (M u))) = M (ps_out (pid_s (pid_compute_d p dt v u))).
Proof.
  intros L X. destruct (init_related M p q v L X) as (A & B & C). destruct X as [Eg Cm _ _ _ _].
  unfold pid_compute_d. cbv zeta. rewrite Eg, A, B, (cm_acc M _ Cm), (cm_kp M _ Cm), (cm_ki M _ Cm), (cm_kd M _ Cm).
  split; [|apply out_related; assumption]. split; cbn [pid_c pid_s ps_first ps_acc ps_filt ps_perr]; auto.
Qed.

(** What the constructor makes of the settings. *)
Definition diag3 (m : M3 R) (v : V3 R) : Prop := m = mdiag (vx v) (vy v) (vz v).
Lemma new_cfg pp : let g := pid_c (pid_new pp) in
  pc_kp g = vdiagm (pp_kp pp) /\ pc_ki g = vdiagm (pp_ki pp) /\ pc_kd g = vdiagm (pp_kd pp) /\
  pc_aw g = pp_aw pp /\ pc_alpha g = pp_alpha pp /\ pc_rflag g = pp_rflag pp /\
  (pc_sflag g = true -> pc_up g = pp_up pp /\ pc_lo g = pp_lo pp /\ (forall a, pr a (pp_lo pp) <= pr a (pp_up pp)) /\
     ~ (pp_up pp = mkV 0 0 0 /\ pp_lo pp = mkV 0 0 0)).
Proof.
  cbv zeta. unfold pid_new, pid_reset, pid_update, pc_update. cbn [pid_c].
  assert (Bad : forall u w : R, sat_bad u w = false -> w <= u).
  { intros u w. unfold sat_bad. intros E. apply orb_false_elim in E as [_ E]. unR. apply Rltb_false in E. exact E. }
  destruct (negb _ || negb _) eqn:En.
  - assert (Nz : ~ (pp_up pp = mkV 0 0 0 /\ pp_lo pp = mkV 0 0 0)).
    { intros [Eu Ew]. rewrite Eu, Ew in En. unfold veqb, v0 in En. cbn [vx vy vz] in En. unR. rewrite !(proj2 (Reqb_true 0 0) eq_refl) in En. discriminate. }
    unfold pc_set_sat. cbv zeta. destruct (sat_bad (vx _) _) eqn:B1; [|destruct (sat_bad (vy _) _) eqn:B2; [|destruct (sat_bad (vz _) _) eqn:B3]];
    (split; [reflexivity|split; [reflexivity|split; [reflexivity|split; [reflexivity|split; [reflexivity|split; [reflexivity|]]]]]]);
    cbn [pc_sflag pc_disable_sat pc_write_limits]; try discriminate.
    intros _. split; [reflexivity|]. split; [reflexivity|]. split; [|exact Nz]. intros a. destruct a; cbn [pr]; apply Bad; assumption.
  - cbn. split; [reflexivity|split; [reflexivity|split; [reflexivity|split; [reflexivity|split; [reflexivity|split; [reflexivity|discriminate]]]]]].
Qed.
Lemma diag_signs a b d k v : mmulv (vdiagm k) (signs a b d v) = signs a b d (mmulv (vdiagm k) v).
Proof. unfold vdiagm, signs, mdiag. vec. cbn [m00 m01 m02 m10 m11 m12 m20 m21 m22]. f_equal; ring. Qed.
Lemma cmul_signs a b d k v : vcmul k (signs a b d v) = signs a b d (vcmul k v).
Proof. unfold signs. vec. f_equal; ring. Qed.

Lemma signs_commute a b d pp : (a = 1 \/ a = -1 /\ balanced pp AX) -> (b = 1 \/ b = -1 /\ balanced pp AY) -> (d = 1 \/ d = -1 /\ balanced pp AZ) ->
  commutes (signs a b d) (pid_c (pid_new pp)).
Proof.
  intros X Y Z. destruct (new_cfg pp) as (E1 & E2 & E3 & E4 & E5 & E6 & E7). cbv zeta in *.
  set (g := pid_c (pid_new pp)) in *. clearbody g.
  split; intros; rewrite ?E1, ?E2, ?E3, ?E5; try apply diag_signs; try apply cmul_signs.
  - unfold pid_acc. cbv zeta. rewrite E4, E6.
    assert (Rs : forall ax s (w u z : R), (s = 1 \/ s = -1 /\ balanced pp ax) -> rst1 (pp_rflag pp) (s * w) u (s * z) = s * rst1 (pp_rflag pp) w u z).
    { intros ax s w u z [-> | [-> (Q & _)]]; [rewrite !Rmult_1_l; reflexivity|]. rewrite Q. reflexivity. }
    assert (A2 : vadd (mkV (rst1 (pp_rflag pp) (vx (signs a b d a0)) (vx (pp_aw pp)) (vx (signs a b d v)))
                 (rst1 (pp_rflag pp) (vy (signs a b d a0)) (vy (pp_aw pp)) (vy (signs a b d v)))
                 (rst1 (pp_rflag pp) (vz (signs a b d a0)) (vz (pp_aw pp)) (vz (signs a b d v)))) (vscaler (signs a b d v) dt)
      = signs a b d (vadd (mkV (rst1 (pp_rflag pp) (vx a0) (vx (pp_aw pp)) (vx v)) (rst1 (pp_rflag pp) (vy a0) (vy (pp_aw pp)) (vy v))
                 (rst1 (pp_rflag pp) (vz a0) (vz (pp_aw pp)) (vz v))) (vscaler v dt))).
    { unfold signs at 1 2 3 4 5 6. cbn [vx vy vz]. rewrite (Rs AX a), (Rs AY b), (Rs AZ d) by assumption. unfold signs. vec. f_equal; ring. }
    rewrite A2. destruct (negb _); [|reflexivity].
    apply saturate_signs; unfold vscale, vmap; cbn [vx vy vz]; unR.
    + destruct X as [->|[-> (_ & P & _)]]; [left; reflexivity|right; cbn [pr] in P; repeat split; [ring|exact P]].
    + destruct Y as [->|[-> (_ & P & _)]]; [left; reflexivity|right; cbn [pr] in P; repeat split; [ring|exact P]].
    + destruct Z as [->|[-> (_ & P & _)]]; [left; reflexivity|right; cbn [pr] in P; repeat split; [ring|exact P]].
  - destruct (E7 H) as (-> & -> & O & _). pose proof (O AX) as OX. pose proof (O AY) as OY. pose proof (O AZ) as OZ. cbn [pr] in OX, OY, OZ.
    apply saturate_signs.
    + destruct X as [->|[-> (_ & _ & P)]]; [left; reflexivity|right; cbn [pr] in P; repeat split; [exact P|lra]].
    + destruct Y as [->|[-> (_ & _ & P)]]; [left; reflexivity|right; cbn [pr] in P; repeat split; [exact P|lra]].
    + destruct Z as [->|[-> (_ & _ & P)]]; [left; reflexivity|right; cbn [pr] in P; repeat split; [exact P|lra]].
Qed.
Lemma diag_around k v : vx k = vy k -> mmulv (vdiagm k) (around v) = around (mmulv (vdiagm k) v).
Proof. intros E. unfold vdiagm, mdiag. vec. cbn [m00 m01 m02 m10 m11 m12 m20 m21 m22]. rewrite E. f_equal; ring. Qed.
Lemma cmul_around k v : vx k = vy k -> vcmul k (around v) = around (vcmul k v).
Proof. intros E. vec. rewrite E. f_equal; ring. Qed.
Lemma round_commute pp : round_pid pp -> commutes around (pid_c (pid_new pp)).
Proof.
  intros (K1 & K2 & K3 & K4 & Rf & Aw & Up & Lo). destruct (new_cfg pp) as (E1 & E2 & E3 & E4 & E5 & E6 & E7). cbv zeta in *.
  set (g := pid_c (pid_new pp)) in *. clearbody g.
  split; intros; rewrite ?E1, ?E2, ?E3, ?E5; try (apply diag_around; assumption).
  - apply cmul_around, K4.
  - apply cmul_around. cbn [vsub vmap2 v1 vx vy]. rewrite K4. reflexivity.
  - unfold pid_acc. cbv zeta. rewrite E4, E6, Rf, Aw. cbn [rst1].
    assert (V : forall u : V3 R, mkV (vx u) (vy u) (vz u) = u) by (intros [x y z]; reflexivity). rewrite !V.
    assert (Z : negb (veqb (mkV 0 0 0) v0) = false).
    { unfold veqb, v0. cbn [vx vy vz]. unR. rewrite !(proj2 (Reqb_true 0 0) eq_refl). reflexivity. }
    rewrite Z, <- (ln_mul around around_lin), <- (ln_add around around_lin). reflexivity.
  - destruct (E7 H) as (_ & _ & _ & Nz). destruct Nz. split; assumption.
Qed.
Lemma around_flip v : ch_turn c = 0 -> around v = signs 1 e 1 v.
Proof. intros Z. unfold SpecSym.around, signs. rewrite Z, cos_0, sin_0. f_equal; ring. Qed.
Lemma commutes_ext M N g : (forall v, M v = N v) -> commutes M g -> commutes N g.
Proof. intros E [A B C D F H J]. split; intros; rewrite <- !E; auto. Qed.
Lemma side_cases : ch_mirror c = false /\ e = 1 \/ ch_mirror c = true /\ e = -1.
Proof. unfold side. destruct (ch_mirror c); auto. Qed.
Lemma outer_commute pp : round_pid pp \/ ch_turn c = 0 /\ (ch_mirror c = true -> balanced pp AY) -> commutes around (pid_c (pid_new pp)).
Proof.
  intros [P|[Z B]]; [apply round_commute, P|].
  apply (commutes_ext (signs 1 e 1)); [intros v; symmetry; apply around_flip, Z|].
  apply signs_commute; [left; reflexivity| |left; reflexivity].
  destruct side_cases as [[_ E]|[M E]]; [left; exact E|right; split; [exact E|apply B, M]].
Qed.
Lemma inner_commute pp : (ch_mirror c = true -> balanced pp AX /\ balanced pp AZ) -> commutes spin (pid_c (pid_new pp)).
Proof.
  intros B. apply (commutes_ext (signs e 1 e)); [intros v; unfold signs, SpecSym.spin; f_equal; ring|].
  destruct side_cases as [[_ E]|[M E]]; apply signs_commute; try (left; reflexivity); try (left; exact E); right; (split; [exact E|apply B, M]).
Qed.
Lemma new_related M pp : Lin M -> commutes M (pid_c (pid_new pp)) -> pid_related M (pid_new pp) (pid_new pp).
Proof.
  intros L C. split; try reflexivity; [exact C|..]; symmetry; exact (ln_0 M L).
Qed.
End Change.
