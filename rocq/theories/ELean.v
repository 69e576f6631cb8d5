(** Examples and counterexamples for leaning to one side. *)

From Coq Require Import ZArith List Bool Lia Reals Lra Psatz.
From Verif Require Import Scalar LinAlg MUtils MModel MPid MControl MCtlRun SpecDyn SpecRun SpecPid SpecCtl SpecLean
  PBase EBase EDyn PPid PPidR EPid PCtl PCtlR ECtl PLean.
Import ListNotations.
Local Open Scope R_scope.

(** A vehicle of mass 1 under gravity 10 that treats roll and pitch alike; its
    loops have a gain of 2, no integral. *)
Definition pp_lean : PidParams R := mkPP (r3 2) (r3 0) (r3 1) v0 v1 false false v0 v0.
Definition cp_lean : CtlParams R :=
  mkCP (mkAP 1 (mkM 2 0 0 0 2 0 0 0 3) (mkV 0 0 (-10))) (mkIP mI inv_ex pp_lean) pp_lean pp_lean pp_lean.
Definition c_lean : Ctl R := ctl_new 4 cp_lean.

Lemma c_lean_reached : CtlReached 4 c_lean. Proof. exists cp_lean, []. reflexivity. Qed.
Lemma c_lean_set : own_gains (ac_kp (ct_acro c_lean)) 2 2 3 /\ ac_mass (ct_acro c_lean) = 1 /\ ac_grav (ct_acro c_lean) = mkV 0 0 (-10).
Proof. split; [|split]; reflexivity. Qed.

Lemma new_lean : pid_new pp_lean = mkPid (mkPC (vdiagm (r3 2)) (vdiagm (r3 0)) (vdiagm (r3 1)) v0 v1 false false false v0 v0) ps0.
Proof. apply (new_cfg_off pp_lean); intros []; reflexivity. Qed.

Lemma even_lean dt e w : even_loop (get_pid w c_lean) dt e.
Proof.
  assert (E : get_pid w c_lean = pid_new pp_lean) by (destruct w; reflexivity). rewrite E, new_lean.
  refine (conj _ (conj _ (conj _ (conj _ (conj _ (conj _ _)))))); cbn; unR; try lra; try reflexivity; try discriminate.
  - intros []; cbn; unR; lra.
  - left. intros []; reflexivity.
Qed.

Lemma out_lean dt e w a : pr a (pid_output (pid_step (pid_reset (get_pid w c_lean)) (OpCompute dt e))) = 2 * pr a e.
Proof.
  assert (E : get_pid w c_lean = pid_new pp_lean) by (destruct w; reflexivity).
  assert (Rr : Reached (pid_new pp_lean)) by (eexists _, []; reflexivity). rewrite E.
  destruct (first_call (pid_new pp_lean) dt e a Rr) as [_ O].
  - rewrite new_lean. intros []; cbn; unR; lra.
  - rewrite new_lean. reflexivity.
  - rewrite O. rewrite new_lean. unfold first_value. cbn [pid_sat_on pid_c pc_sflag]. destruct a; cbn; unR; ring.
Qed.

Lemma out_lean_v dt e w : pid_output (pid_step (pid_reset (get_pid w c_lean)) (OpCompute dt e)) = mkV (2 * vx e) (2 * vy e) (2 * vz e).
Proof.
  pose proof (out_lean dt e w AX) as X. pose proof (out_lean dt e w AY) as Y. pose proof (out_lean dt e w AZ) as Z.
  revert X Y Z. generalize (pid_output (pid_step (pid_reset (get_pid w c_lean)) (OpCompute dt e))). intros [x y z] X Y Z.
  cbn [pr vx vy vz] in X, Y, Z. rewrite X, Y, Z. reflexivity.
Qed.

(** There is a way of turning at any rate from any attitude. *)
Definition swing (A : M3 R) (t : R) (w : V3 R) (s : R) : M3 R :=
  let f a := ent A a AX + (s - t) * (vz w * ent A a AY - vy w * ent A a AZ) in
  let g a := ent A a AY + (s - t) * (vx w * ent A a AZ - vz w * ent A a AX) in
  let h a := ent A a AZ + (s - t) * (vy w * ent A a AX - vx w * ent A a AY) in
  mkM (f AX) (g AX) (h AX) (f AY) (g AY) (h AY) (f AZ) (g AZ) (h AZ).
Lemma swing_now A t w : swing A t w t = A.
Proof. destruct A as [a b c d e f g h i]. unfold swing, ent. cbn [m00 m01 m02 m10 m11 m12 m20 m21 m22]. f_equal; ring. Qed.
Lemma line_slope a b t : derivable_pt_lim (fun s => a + (s - t) * b) t b.
Proof.
  intros eps Pe. exists (mkposreal 1 Rlt_0_1). intros h Nh _. cbv beta.
  replace ((a + (t + h - t) * b - (a + (t - t) * b)) / h - b) with 0 by (field; exact Nh). rewrite Rabs_R0. exact Pe.
Qed.
Lemma swing_turns A t w : turning (swing A t w) t w.
Proof. intros a. rewrite swing_now. refine (conj _ (conj _ _)); destruct a; apply line_slope. Qed.

Lemma mild_case d x y : Rabs x <= 4 -> Rabs y <= 4 -> 0 <= cos d -> mild_tilt d (mkV x y 10).
Proof.
  intros X Y C. assert (L : len3 (mkV x y 10) < 12).
  { unfold len3. rewrite <- (sqrt_Rsqr 12) by lra. apply sqrt_lt_1_alt. unfold dot3, Rsqr. cbn [vx vy vz].
    assert (forall u, Rabs u <= 4 -> u * u <= 16) as Q.
    { intros u U. replace (u * u) with (Rabs u * Rabs u) by (rewrite <- Rabs_mult; apply Rabs_pos_eq; exact (Rle_0_sqr u)).
      pose proof (Rabs_pos u). replace 16 with (4 * 4) by ring. apply Rmult_le_compat; lra. }
    pose proof (Q x X). pose proof (Q y Y). pose proof (Rle_0_sqr x) as S1. pose proof (Rle_0_sqr y) as S2. unfold Rsqr in *. lra. }
  assert (0 <= len3 (mkV x y 10)) by (apply sqrt_pos).
  assert (0 <= len3 (mkV x y 10) * cos d) by (apply Rmult_le_pos; assumption).
  refine (conj _ (conj _ _)); cbn [vz]; lra.
Qed.

(** Facing 60 degrees to the left of where it is to face, it leans to its right and ahead. *)
Lemma cos60 : 0 <= cos (0 - PI / 3).
Proof. replace (0 - PI / 3) with (- (PI / 3)) by ring. rewrite cos_neg, cos_PI3. lra. Qed.
Lemma lean_case : let op := CAcc (rot_z (PI / 3)) (mkV 0 0 0) (mkV 3 0 0) 0 (1/100) in
  uses_acc op = true /\ att_of op = rot_z (PI / 3) /\ own_gains (ac_kp (ct_acro c_lean)) 2 2 3 /\
  mild_tilt (yaw_of op - PI / 3) (force_of c_lean op) /\ sideways (force_of c_lean op) /\
  exists path, path 0 = att_of op /\ turning path 0 (get_desired_angular_velocity (ctl_step c_lean op)) /\ leans_along path 0 (mkV 3 0 0).
Proof.
  cbv zeta. set (op := CAcc _ _ _ _ _). destruct c_lean_set as (K & M & G).
  assert (F : force_of c_lean op = mkV 3 0 10) by (unfold op; rewrite no_accel_force, M, G; unfold needed_force; cbn [vx vy vz]; f_equal; ring).
  assert (Ml : mild_tilt (yaw_of op - PI / 3) (force_of c_lean op)).
  { rewrite F. apply mild_case; [rewrite Rabs_pos_eq; lra|rewrite Rabs_R0; lra|exact cos60]. }
  assert (Sd : sideways (force_of c_lean op)) by (rewrite F; left; cbn [vx]; lra).
  refine (conj eq_refl (conj eq_refl (conj K (conj Ml (conj Sd _))))).
  exists (swing (att_of op) 0 (get_desired_angular_velocity (ctl_step c_lean op))).
  split; [apply swing_now|]. split; [apply swing_turns|].
  apply (leans_scale _ 0 1 (force_of c_lean op)); [lra|rewrite F; cbn [vx]; ring|rewrite F; cbn [vy]; ring|].
  apply (leans c_lean op (PI / 3) 2 3 _ 0 eq_refl eq_refl K); [lra|exact Ml|exact Sd|apply swing_now|apply swing_turns].
Qed.

Lemma c_lean_reset_force op a : uses_acc op = true -> get_desired_linear_acceleration (ctl_step (ctl_step c_lean CReset) op) = a ->
  force_of (ctl_step c_lean CReset) op = mkV (vx a) (vy a) (vz a + 10).
Proof.
  intros _ E. unfold force_of. rewrite E. change (ct_acro (ctl_step c_lean CReset)) with (ct_acro c_lean).
  destruct c_lean_set as (_ & -> & ->). unfold needed_force. cbn [vx vy vz]. f_equal; ring.
Qed.

(** Asked for a velocity of 1 along x, and to fly to a place 1/2 along y. *)
Lemma lean_velocity_case : let c := ctl_step c_lean CReset in
  let op := CVel (mkV 0 0 0) (rot_z (PI / 3)) (mkV 0 0 0) (mkV 1 0 0) 0 (1/100) in
  even_loop (get_pid WVel c_lean) (1/100) (vsub (mkV 1 0 0) (mkV 0 0 0)) /\ mild_tilt (0 - PI / 3) (force_of c op) /\
  sideways (vsub (mkV 1 0 0) (mkV 0 0 0)) /\ force_of c op = mkV 2 0 10.
Proof.
  cbv zeta. set (op := CVel _ _ _ _ _ _).
  assert (F : force_of (ctl_step c_lean CReset) op = mkV 2 0 10).
  { assert (A : get_desired_linear_acceleration (ctl_step (ctl_step c_lean CReset) op) = mkV 2 0 0).
    { destruct (vel_records (ctl_step c_lean CReset) (mkV 0 0 0) (rot_z (PI / 3)) (mkV 0 0 0) (mkV 1 0 0) 0 (1/100)) as (_ & A & _ & _ & _ & V).
      unfold op. rewrite A, V. change (get_pid WVel (ctl_step c_lean CReset)) with (pid_reset (get_pid WVel c_lean)). rewrite vsub_none.
      rewrite out_lean_v. cbn [vx vy vz]. f_equal; ring. }
    rewrite (c_lean_reset_force op _ eq_refl A). cbn [vx vy vz]. f_equal; ring. }
  refine (conj (even_lean _ _ _) (conj _ (conj _ F))).
  - rewrite F. apply mild_case; [rewrite Rabs_pos_eq; lra|rewrite Rabs_R0; lra|exact cos60].
  - rewrite vsub_none. left. cbn [vx]. lra.
Qed.

Lemma lean_position_case : let c := ctl_step c_lean CReset in
  let op := CPos (mkV 0 0 0) (rot_z (PI / 3)) (mkV 0 0 0) (mkV 0 0 0) (mkV 0 (1/2) 0) 0 (1/100) in
  even_loop (get_pid WPos c_lean) (1/100) (vsub (mkV 0 (1/2) 0) (mkV 0 0 0)) /\
  even_loop (get_pid WVel c_lean) (1/100) (get_desired_linear_velocity (ctl_step c op)) /\ mild_tilt (0 - PI / 3) (force_of c op) /\
  sideways (vsub (mkV 0 (1/2) 0) (mkV 0 0 0)) /\ force_of c op = mkV 0 2 10.
Proof.
  cbv zeta. set (op := CPos _ _ _ _ _ _ _).
  assert (F : force_of (ctl_step c_lean CReset) op = mkV 0 2 10).
  { assert (A : get_desired_linear_acceleration (ctl_step (ctl_step c_lean CReset) op) = mkV 0 2 0).
    { destruct (pos_records (ctl_step c_lean CReset) (mkV 0 0 0) (rot_z (PI / 3)) (mkV 0 0 0) (mkV 0 0 0) (mkV 0 (1/2) 0) 0 (1/100)) as (_ & _ & A & P & V & _).
      unfold op. rewrite A, V, P. change (get_pid WVel (ctl_step c_lean CReset)) with (pid_reset (get_pid WVel c_lean)).
      change (get_pid WPos (ctl_step c_lean CReset)) with (pid_reset (get_pid WPos c_lean)). rewrite !vsub_none.
      rewrite !out_lean_v. cbn [vx vy vz]. f_equal; field. }
    rewrite (c_lean_reset_force op _ eq_refl A). cbn [vx vy vz]. f_equal; ring. }
  refine (conj (even_lean _ _ _) (conj (even_lean _ _ _) (conj _ (conj _ F)))).
  - rewrite F. apply mild_case; [rewrite Rabs_R0; lra|rewrite Rabs_pos_eq; lra|exact cos60].
  - rewrite vsub_none. right. cbn [vy]. lra.
Qed.

(** Facing exactly backwards, a vehicle asked to go sideways does not lean. *)
Lemma backwards_still : exists (c : Ctl R) op, CtlReached 4 c /\ uses_acc op = true /\ att_of op = rot_z 0 /\
  own_gains (ac_kp (ct_acro c)) 2 2 3 /\ 0 < vz (force_of c op) /\ len3 (force_of c op) < 3 * vz (force_of c op) /\
  force_of c op = mkV 0 3 10 /\
  vx (get_desired_angular_velocity (ctl_step c op)) = 0 /\ vy (get_desired_angular_velocity (ctl_step c op)) = 0 /\
  forall path t, path t = att_of op -> turning path t (get_desired_angular_velocity (ctl_step c op)) -> ~ leans_along path t (force_of c op).
Proof.
  exists c_lean, (CAcc (rot_z 0) (mkV 0 0 0) (mkV 0 3 0) PI (1/100)). set (op := CAcc _ _ _ _ _). destruct c_lean_set as (K & M & G).
  assert (F : force_of c_lean op = mkV 0 3 10) by (unfold op; rewrite no_accel_force, M, G; unfold needed_force; cbn [vx vy vz]; f_equal; ring).
  assert (Fz : 0 < vz (force_of c_lean op)) by (rewrite F; cbn [vz]; lra).
  destruct (level_rates c_lean op 0 2 2 3 eq_refl eq_refl K Fz) as (L & q & p & Q & Qp & Lp & Ll & Wy & Wx).
  set (w := get_desired_angular_velocity (ctl_step c_lean op)) in *.
  assert (A0 : ahead 0 (force_of c_lean op) = 0) by (rewrite F; unfold ahead; cbn [vx vy]; rewrite sin_0; ring).
  assert (B0 : leftward 0 (force_of c_lean op) = 3) by (rewrite F; unfold leftward; cbn [vx vy]; rewrite cos_0; ring).
  rewrite A0, B0 in *. change (yaw_of op) with PI in *. replace (PI - 0) with PI in * by ring. rewrite cos_PI, sin_PI in *.
  set (l := len3 (force_of c_lean op)) in *.
  assert (P0 : p = 0) by (apply Rmult_eq_reg_l with l; lra). subst p.
  assert (Q1 : q = 1) by nra. subst q.
  assert (Y0 : vy w = 0) by (apply Rmult_eq_reg_l with l; lra). assert (X0 : vx w = 0) by (apply Rmult_eq_reg_l with l; lra).
  refine (conj c_lean_reached (conj eq_refl (conj eq_refl (conj K (conj Fz (conj _ (conj F (conj X0 (conj Y0 _))))))))).
  - assert (Ml : mild_tilt 0 (mkV 0 3 10)) by (apply mild_case; [rewrite Rabs_R0; lra|rewrite Rabs_pos_eq; lra|rewrite cos_0; lra]).
    unfold l. rewrite F. exact (proj1 (proj2 Ml)).
  - intros path t Pt Tu (r & D & Pr). destruct (Tu AY) as (_ & _ & D2). destruct (Tu AX) as (_ & _ & D1).
    rewrite X0, Y0 in D1, D2.
    pose proof (derivable_pt_lim_plus _ _ _ _ _ (derivable_pt_lim_scal _ 0 t _ D1) (derivable_pt_lim_scal _ 3 t _ D2)) as D0.
    assert (D3 : derivable_pt_lim (fun s => lean (path s) (force_of c_lean op)) t
      (0 * (0 * ent (path t) AX AX - 0 * ent (path t) AX AY) + 3 * (0 * ent (path t) AY AX - 0 * ent (path t) AY AY))).
    { revert D0. apply derivable_pt_lim_ext. intros s. rewrite F. unfold lean, plus_fct, mult_real_fct. cbn [vx vy]. ring. }
    pose proof (uniqueness_limite _ _ _ _ D D3). lra.
Qed.
