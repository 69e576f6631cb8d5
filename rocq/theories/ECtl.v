(** Examples and counterexamples for the controller theorems. *)

From Coq Require Import ZArith List Bool Lia Reals Lra Psatz.
From Verif Require Import Scalar LinAlg MUtils MModel MPid MControl MCtlRun SpecDyn SpecRun SpecPid SpecCtl
  PBase PDyn PModel PDynR PPhys EBase PMix PWitDyn EDyn EVeh PPid PPidR EPid PCtl PCtlR PCtlMix.
Import ListNotations.
Local Open Scope R_scope.

(** A controller of a vehicle of mass 1 under gravity 10. *)
Definition cpx_pid : PidParams R := mkPP (r3 1) (r3 1) (r3 1) v0 v1 false false v0 v0.
Definition inv_ex : list (V3 R * V3 R) :=
  match quad_inverse (ex_motors 1) with Some i => i | None => [] end.
Definition ap_ex : AcroParams R := mkAP 1 (mkM 1 0 0 0 2 0 0 0 3) (mkV 0 0 (-10)).
Definition cp_ex : CtlParams R := mkCP ap_ex (mkIP mI inv_ex cpx_pid) cpx_pid cpx_pid cpx_pid.
Definition c_ex : Ctl R := ctl_new 4 cp_ex.

Lemma c_ex_reached : CtlReached 4 c_ex. Proof. exists cp_ex, []. reflexivity. Qed.
Lemma c_ex_acro : ac_mass (ct_acro c_ex) = 1 /\ ac_grav (ct_acro c_ex) = mkV 0 0 (-10) /\ m22 (ac_kp (ct_acro c_ex)) = 3.
Proof. split; [|split]; reflexivity. Qed.
Lemma c_ex_inverse : quad_inverse (quad_x 1 1 1 1 0 100 (1/10) 0) = Some inv_ex /\ in_minv (ct_indi c_ex) = inv_ex.
Proof. split; reflexivity. Qed.

Lemma new_plain pp : (forall a, pr a (pp_up pp) = 0) -> (forall a, pr a (pp_lo pp) = 0) -> (forall a, 0 <= pr a (pp_aw pp)) ->
  rests (pid_new pp).
Proof.
  intros U L A. rewrite (new_cfg_off pp U L). split; [discriminate|exact A].
Qed.
Lemma c_ex_rests : forall w, rests (get_pid w c_ex).
Proof.
  assert (H : rests (pid_new cpx_pid)).
  { apply new_plain; intros []; cbn; lra. }
  intros []; exact H.
Qed.

Lemma no_accel_force (c : Ctl R) A w acc y dt :
  force_of c (CAcc A w acc y dt) = needed_force (ac_mass (ct_acro c)) (ac_grav (ct_acro c)) acc.
Proof. unfold force_of. destruct (acc_records c A w acc y dt) as (-> & _). reflexivity. Qed.

(** Falling faster than gravity: no thrust, no rates. *)
Lemma ex_dive : let op := CAcc (rot_z 0) (mkV 0 0 0) (mkV 1 0 (-20)) 0 (1/100) in
  uses_acc op = true /\ along_z (att_of op) (force_of c_ex op) < 0.
Proof.
  cbv zeta. split; [reflexivity|]. rewrite no_accel_force. destruct c_ex_acro as (-> & -> & _).
  unfold along_z, len3, dot3, rot_z, needed_force, col, ent. cbn [att_of vx vy vz m02 m12 m22].
  replace (0 * 0 + 0 * 0 + 1 * 1) with 1 by ring. rewrite sqrt_1. lra.
Qed.

(** A sideways acceleration: a genuine desired frame. *)
Lemma ex_tilt : let op := CAcc (rot_z 0) (mkV 0 0 0) (mkV 10 0 0) 0 (1/100) in
  uses_acc op = true /\ 0 < len3 (force_of c_ex op) /\ 0 <= along_z (att_of op) (force_of c_ex op) /\
  ~ parallel (force_of c_ex op) (heading (yaw_of op)).
Proof.
  cbv zeta. split; [reflexivity|]. rewrite no_accel_force. destruct c_ex_acro as (-> & -> & _).
  split; [|split].
  - apply len3_pos. unfold dot3, needed_force. cbn [vx vy vz]. lra.
  - unfold along_z, len3, dot3, rot_z, needed_force, col, ent. cbn [att_of vx vy vz m02 m12 m22].
    replace (0 * 0 + 0 * 0 + 1 * 1) with 1 by ring. rewrite sqrt_1. lra.
  - intros P. specialize (P AY). unfold cross3, heading, needed_force in P. cbn [vx vy vz yaw_of] in P. rewrite cos_0 in P. lra.
Qed.
(** Free fall with a horizontal demand along the heading. *)
Lemma ex_parallel : let op := CAcc (rot_z 0) (mkV 0 0 0) (mkV 1 0 (-10)) 0 (1/100) in
  uses_acc op = true /\ 0 < len3 (force_of c_ex op) /\ 0 <= along_z (att_of op) (force_of c_ex op) /\
  parallel (force_of c_ex op) (heading (yaw_of op)).
Proof.
  cbv zeta. split; [reflexivity|]. rewrite no_accel_force. destruct c_ex_acro as (-> & -> & _).
  split; [|split].
  - apply len3_pos. unfold dot3, needed_force. cbn [vx vy vz]. lra.
  - unfold along_z, len3, dot3, rot_z, needed_force, col, ent. cbn [att_of vx vy vz m02 m12 m22].
    replace (0 * 0 + 0 * 0 + 1 * 1) with 1 by ring. rewrite sqrt_1. lra.
  - intros []; unfold cross3, heading, needed_force; cbn [vx vy vz yaw_of]; rewrite ?sin_0; ring.
Qed.
Lemma ex_fall : let op := CAcc (rot_z 0) (mkV 0 0 0) (mkV 0 0 (-10)) 0 (1/100) in
  uses_acc op = true /\ len3 (force_of c_ex op) = 0.
Proof.
  cbv zeta. split; [reflexivity|]. rewrite no_accel_force. destruct c_ex_acro as (-> & -> & _).
  unfold len3, dot3, needed_force. cbn [vx vy vz]. replace (_ + _) with 0 by ring. apply sqrt_0.
Qed.

(** Hover at some heading, asking for another. *)
Definition op_yaw (cur yaw : R) : CtlOp R := CAcc (rot_z cur) (mkV 0 0 0) (mkV 0 0 0) yaw (1/100).
Lemma ex_yaw_force cur yaw : force_of c_ex (op_yaw cur yaw) = mkV 0 0 10.
Proof. unfold op_yaw. rewrite no_accel_force. destruct c_ex_acro as (-> & -> & _). unfold needed_force. cbn [vx vy vz]. f_equal; ring. Qed.
Lemma ex_yaw cur yaw : let op := op_yaw cur yaw in
  uses_acc op = true /\ att_of op = rot_z cur /\ yaw_of op = yaw /\
  vx (force_of c_ex op) = 0 /\ vy (force_of c_ex op) = 0 /\ 0 < vz (force_of c_ex op) /\
  0 < len3 (force_of c_ex op).
Proof.
  cbv zeta. rewrite ex_yaw_force. cbn [vx vy vz]. repeat (split; [first [reflexivity|lra]|]).
  apply len3_pos. unfold dot3. cbn [vx vy vz]. lra.
Qed.

(** Facing exactly backwards commands no rotation. *)
Lemma backwards_at_rest :
  exists (c : Ctl R) op Rd, CtlReached 4 c /\ uses_acc op = true /\
    0 < len3 (force_of c op) /\ rotation (att_of op) /\ desired_frame (yaw_of op) (force_of c op) Rd /\
    0 < m00 (ac_kp (ct_acro c)) /\ 0 < m11 (ac_kp (ct_acro c)) /\ 0 < m22 (ac_kp (ct_acro c)) /\
    Rd <> att_of op /\ get_desired_angular_velocity (ctl_step c op) = mkV 0 0 0.
Proof.
  exists c_ex, (op_yaw PI 0), (rot_z 0). destruct (ex_yaw PI 0) as (A & B & C & D & E & F & G).
  split; [apply c_ex_reached|]. split; [exact A|]. split; [exact G|].
  split; [rewrite B; apply rot_z_rotation|]. split; [rewrite C; apply (up_frame 0 _ D E F)|].
  split; [cbn; lra|]. split; [cbn; lra|]. split; [cbn; lra|]. split.
  - rewrite B. intros X. apply (f_equal m00) in X. unfold rot_z in X. cbn [m00] in X. rewrite cos_0, cos_PI in X. lra.
  - apply V3_ax. intros a. rewrite (yaw_error_rates c_ex (op_yaw PI 0) PI A B D E F a), C.
    rewrite Rminus_0_r, sin_PI. destruct a; cbn; ring.
Qed.

Lemma yaw_short_way (c : Ctl R) op cur : uses_acc op = true -> att_of op = rot_z cur ->
  vx (force_of c op) = 0 -> vy (force_of c op) = 0 -> 0 < vz (force_of c op) ->
  0 < m22 (ac_kp (ct_acro c)) -> - PI < cur - yaw_of op < PI ->
  (0 < cur - yaw_of op -> vz (get_desired_angular_velocity (ctl_step c op)) < 0) /\
  (cur - yaw_of op < 0 -> 0 < vz (get_desired_angular_velocity (ctl_step c op))).
Proof.
  intros H Ha X Y Z K B. pose proof (yaw_error_rates c op cur H Ha X Y Z AZ) as E. cbn [pr ent] in E. rewrite E.
  set (p := cur - yaw_of op) in *. split; intros P.
  - assert (0 < sin p) by (apply sin_gt_0; lra). nra.
  - assert (0 < sin (- p)) by (apply sin_gt_0; lra). rewrite sin_neg in *. nra.
Qed.

(** Yaw-rate request at level hover. *)
Lemma yaw_rate_realised (c : Ctl R) cur rate w acc dt :
  let op := CAcc (rot_z cur) w acc (yaw_rate_to_angle c cur rate) dt in
  let k := m22 (ac_kp (ct_acro c)) in
  k <> 0 -> vx (force_of c op) = 0 -> vy (force_of c op) = 0 -> 0 < vz (force_of c op) ->
  vz (get_desired_angular_velocity (ctl_step c op)) = k * sin (rate / k).
Proof.
  cbv zeta. intros K X Y Z. set (op := CAcc _ _ _ _ _) in *.
  pose proof (yaw_error_rates c op cur eq_refl eq_refl X Y Z AZ) as E. cbn [pr ent] in E. rewrite E.
  assert (P : cur - yaw_of op = - (rate / m22 (ac_kp (ct_acro c)))).
  { unfold op. cbn [yaw_of]. apply Rmult_eq_reg_l with (m22 (ac_kp (ct_acro c))); [|exact K].
    replace (m22 (ac_kp (ct_acro c)) * (cur - yaw_rate_to_angle c cur rate))
      with (- (m22 (ac_kp (ct_acro c)) * (yaw_rate_to_angle c cur rate - cur))) by ring.
    rewrite yaw_rate_R by exact K. field. exact K. }
  rewrite P, sin_neg. ring.
Qed.
Lemma yaw_rate_lost :
  exists (c : Ctl R) cur rate w acc dt,
    let op := CAcc (rot_z cur) w acc (yaw_rate_to_angle c cur rate) dt in
    CtlReached 4 c /\ 0 < rate /\ 0 < m22 (ac_kp (ct_acro c)) /\
    get_desired_angular_velocity (ctl_step c op) = mkV 0 0 0.
Proof.
  exists c_ex, 0, (3 * PI), (mkV 0 0 0), (mkV 0 0 0), (1/100). cbv zeta.
  pose proof PI_RGT_0 as P. split; [apply c_ex_reached|]. split; [lra|]. split; [cbn; lra|].
  assert (Y : yaw_rate_to_angle c_ex 0 (3 * PI) = PI).
  { pose proof (yaw_rate_R c_ex 0 (3 * PI)) as E. destruct c_ex_acro as (_ & _ & K). rewrite K in E. lra. }
  rewrite Y. change (CAcc _ _ _ _ _) with (op_yaw 0 PI).
  destruct (ex_yaw 0 PI) as (A & B & C & D & E & F & _).
  apply V3_ax. intros a. rewrite (yaw_error_rates c_ex (op_yaw 0 PI) 0 A B D E F a), C.
  replace (0 - PI) with (- PI) by ring. rewrite sin_neg, sin_PI. destruct a; cbn; ring.
Qed.

(** Feedforward beyond the limits. *)
Definition pp_lim : PidParams R := mkPP (r3 1) v0 v0 v0 v1 false false (r3 1) (r3 (-1)).
Lemma lim_new : pid_new pp_lim = mkPid (mkPC (vdiagm (r3 1)) (vdiagm v0) (vdiagm v0) v0 v1 false true false (r3 1) (r3 (-1))) ps0.
Proof. apply new_cfg_on. intros a. cbn [pp_up pp_lo pp_lim]. rewrite !pr_r3. apply wide_R. lra. Qed.
Definition c_lim : Ctl R := ctl_new 4 (mkCP ap_ex (mkIP mI inv_ex cpx_pid) cpx_pid pp_lim cpx_pid).
Lemma feedforward_unlimited :
  exists (c : Ctl R) op, CtlReached 4 c /\
    (exists cp cv A w dp dv da y dt, op = CTraj cp cv A w dp dv da y dt) /\
    pid_sat_on (get_pid WTraj c) = true /\ pid_limits (get_pid WTraj c) = (r3 1, r3 (-1)) /\
    vx (get_desired_linear_acceleration (ctl_step c op)) = 100 /\
    traj_get_desired_acc (get_pid WTraj (ctl_step c op)) = mkV 0 0 0.
Proof.
  set (op := CTraj (mkV 0 0 0) (mkV 0 0 0) (rot_z 0) (mkV 0 0 0) (mkV 0 0 0) (mkV 0 0 0) (mkV 100 0 0) 0 (1/100)).
  exists c_lim, op. split; [eexists _, []; reflexivity|]. split; [do 9 eexists; reflexivity|].
  change (get_pid WTraj c_lim) with (pid_new pp_lim). rewrite lim_new. split; [reflexivity|]. split; [reflexivity|].
  destruct (traj_records c_lim (mkV 0 0 0) (mkV 0 0 0) (rot_z 0) (mkV 0 0 0) (mkV 0 0 0) (mkV 0 0 0) (mkV 100 0 0) 0 (1/100))
    as (_ & _ & A & _ & _ & B). fold op in A, B.
  assert (Z : pid_output (get_pid WTraj (ctl_step c_lim op)) = mkV 0 0 0).
  { rewrite B, !vsub_self. change (get_pid WTraj c_lim) with (pid_reset (pid_new pp_lim)). apply pid_calm_d; [|left; reflexivity].
    split; [|rewrite lim_new; intros []; cbn; lra].
    rewrite lim_new. intros _ []; cbn; lra. }
  split; [|exact Z]. rewrite A, Z. cbn. ring.
Qed.
Lemma feedback_within (c : Ctl R) cp cv A w dp dv da y dt :
  Reached (get_pid WTraj c) -> pid_sat_on (get_pid WTraj c) = true -> pid_prop_on (get_pid WTraj c) = false ->
  within (vsub (get_desired_linear_acceleration (ctl_step c (CTraj cp cv A w dp dv da y dt))) da)
    (fst (pid_limits (get_pid WTraj c))) (snd (pid_limits (get_pid WTraj c))).
Proof.
  intros Hr Hs Hp. destruct (traj_records c cp cv A w dp dv da y dt) as (_ & _ & E & _ & _ & F). rewrite E, F.
  intros a.
  replace (pr a (vsub (vadd (pid_output (pid_step (get_pid WTraj c) (OpComputeD dt (vsub dp cp) (vsub dv cv)))) da) da))
    with (pr a (pid_output (pid_step (get_pid WTraj c) (OpComputeD dt (vsub dp cp) (vsub dv cv))))) by (rewrite PPidR.pr_vsub, PPidR.pr_vadd; ring).
  apply inside_R. apply (saturated_always R_irrefl _ (OpComputeD dt (vsub dp cp) (vsub dv cv)) Hr eq_refl Hs Hp a).
Qed.

(** The acro getter. *)
Lemma acro_thrust_lost :
  exists (c : Ctl R) op, CtlReached 4 (ctl_step c op) /\ uses_acc op = true /\
    get_desired_thrust (ctl_step c op) = 10 /\ acro_get_desired_thrust (ct_acro (ctl_step c op)) = 0.
Proof.
  exists c_ex, (op_yaw 0 0). split; [exists cp_ex, [op_yaw 0 0]; reflexivity|]. split; [reflexivity|].
  split; [|rewrite (acro_thrust_always_zero 4); [reflexivity|exists cp_ex, [op_yaw 0 0]; reflexivity]].
  pose proof (thrust_value c_ex (op_yaw 0 0) eq_refl) as V. cbv zeta in V.
  fold (force_of c_ex (op_yaw 0 0)) in V. rewrite ex_yaw_force in V. destruct V as [-> _].
  assert (E : along_z (att_of (op_yaw 0 0)) (mkV 0 0 10) = 10).
  { unfold op_yaw, att_of, along_z, len3, dot3, rot_z, col, ent. cbn [vx vy vz m02 m12 m22].
    replace (0 * 0 + 0 * 0 + 1 * 1) with 1 by ring. rewrite sqrt_1. field. }
  rewrite E. apply Rmax_right. lra.
Qed.

(** Hover of the example controller. *)
Lemma ex_hold yaw p : holds_still yaw (CPos p (rot_z yaw) (mkV 0 0 0) (mkV 0 0 0) p yaw (1/100)).
Proof. cbn. repeat split. Qed.

(** Lemmas in the form used by the property theorems. *)
Lemma frame_rates (c : Ctl R) op : uses_acc op = true ->
  0 < len3 (force_of c op) -> 0 <= along_z (att_of op) (force_of c op) ->
  ~ parallel (force_of c op) (heading (yaw_of op)) ->
  exists Rd, desired_frame (yaw_of op) (force_of c op) Rd /\
    (forall Rd', desired_frame (yaw_of op) (force_of c op) Rd' -> Rd' = Rd) /\
    forall a, pr a (get_desired_angular_velocity (ctl_step c op)) = prop_rates (ac_kp (ct_acro c)) Rd (att_of op) a.
Proof.
  intros H Hl Hs Hp. pose proof (attitude_frame _ _ Hl Hp) as F. eexists. split; [exact F|]. split.
  - intros Rd' F'. symmetry. apply (frame_unique _ _ Rd' Hl F').
  - apply (rates_frame c op _ H Hl Hs F).
Qed.
Lemma fresh_hover n (p : CtlParams R) op yaw m g0 :
  (forall w, rests (get_pid w (ctl_new n p))) -> holds_still yaw op ->
  ap_mass (cp_acro p) = m -> ap_grav (cp_acro p) = mkV 0 0 (- g0) -> 0 < m -> 0 < g0 ->
  let c' := ctl_step (ctl_new n p) op in
  get_desired_thrust c' = m * g0 /\ get_desired_angular_velocity c' = mkV 0 0 0.
Proof.
  intros Hr Hh Hm Hg Pm Pg. cbv zeta. rewrite new_ctl_reset.
  destruct (hover_command (ctl_new n p) op yaw m g0 Hr Hh Hm Hg Pm Pg) as (A & B & _). split; assumption.
Qed.
Lemma fresh_hover_x n kf kt x y mn mx tau J inv (p : CtlParams R) op yaw m g0 :
  0 < kf -> kt <> 0 -> x <> 0 -> y <> 0 ->
  quad_inverse (quad_x kf kt x y mn mx tau J) = Some inv -> ip_minv (cp_indi p) = inv ->
  (forall w, rests (get_pid w (ctl_new n p))) -> holds_still yaw op ->
  ap_mass (cp_acro p) = m -> ap_grav (cp_acro p) = mkV 0 0 (- g0) -> 0 < m -> 0 < g0 ->
  get_desired_motor_angular_velocity (ctl_step (ctl_new n p) op) = repeat (sqrt (m * g0 / (4 * kf))) 4.
Proof.
  intros K Kt X Y Hi Hc Hr Hh Hm Hg Pm Pg. rewrite new_ctl_reset.
  exact (hover_x kf kt x y mn mx tau J inv (ctl_new n p) op yaw m g0 K Kt X Y Hi Hc Hr Hh Hm Hg Pm Pg).
Qed.
Lemma fresh_hover_plus n kf kt x y mn mx tau J inv (p : CtlParams R) op yaw m g0 :
  0 < kf -> kt <> 0 -> x <> 0 -> y <> 0 ->
  quad_inverse (quad_plus kf kt x y mn mx tau J) = Some inv -> ip_minv (cp_indi p) = inv ->
  (forall w, rests (get_pid w (ctl_new n p))) -> holds_still yaw op ->
  ap_mass (cp_acro p) = m -> ap_grav (cp_acro p) = mkV 0 0 (- g0) -> 0 < m -> 0 < g0 ->
  get_desired_motor_angular_velocity (ctl_step (ctl_new n p) op) = repeat (sqrt (m * g0 / (4 * kf))) 4.
Proof.
  intros K Kt X Y Hi Hc Hr Hh Hm Hg Pm Pg. rewrite new_ctl_reset.
  exact (hover_plus kf kt x y mn mx tau J inv (ctl_new n p) op yaw m g0 K Kt X Y Hi Hc Hr Hh Hm Hg Pm Pg).
Qed.
Lemma feedback_within_reached n (c : Ctl R) cp cv A w dp dv da y dt :
  CtlReached n c -> pid_sat_on (get_pid WTraj c) = true -> pid_prop_on (get_pid WTraj c) = false ->
  within (vsub (get_desired_linear_acceleration (ctl_step c (CTraj cp cv A w dp dv da y dt))) da)
    (fst (pid_limits (get_pid WTraj c))) (snd (pid_limits (get_pid WTraj c))).
Proof. intros H. apply feedback_within, (get_pid_reached n), H. Qed.
