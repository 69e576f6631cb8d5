(** Proofs for C111: the documented and the simulated physics. *)

From Coq Require Import ZArith List Bool Lia Reals Lra Psatz.
From Verif Require Import Scalar LinAlg MUtils MModel MDynamics SpecDyn SpecRun SpecMix
  PBase PPhys PNoise PVeh PMix PWitDyn PDynMore PDyn EBase EDyn SpecDoc.
Import ListNotations.
Local Open Scope R_scope.

Lemma sq_forward w : 0 <= w -> sq_signed w = w ^ 2.
Proof. intros H. unfold sq_signed. rewrite Rabs_pos_eq by exact H. ring. Qed.

Lemma force_forward ms ws a : Forall (fun w => 0 <= w) ws -> doc_rotor_force ms ws a = rotor_force ms ws a.
Proof.
  intros H. unfold doc_rotor_force, rotor_force. revert ms. induction H as [|w ws Hw _ IH]; intros [|m ms]; cbn [rotor_sum]; try reflexivity.
  rewrite IH. f_equal. rewrite (sq_forward w Hw). unfold mat_vec, along_z, rotor_axis. cbn [vx vy vz]. destruct a; cbn [ent pr vx vy vz]; ring.
Qed.
Lemma torque_forward ms ws acc a : Forall (fun w => 0 <= w) ws -> doc_rotor_torque ms ws acc a = rotor_torque ms ws acc a.
Proof.
  intros H. unfold doc_rotor_torque, rotor_torque. f_equal.
  - revert ms. induction H as [|w ws Hw _ IH]; intros [|m ms]; cbn [rotor_sum]; try reflexivity.
    rewrite IH. f_equal. rewrite (sq_forward w Hw). unfold vec_of, mat_vec, along_z, rotor_axis. cbn [vx vy vz].
    destruct a; cbn [ent pr cross3 vx vy vz]; ring.
  - clear H. revert ms. induction acc as [|al acc IH]; intros [|m ms]; cbn [rotor_sum]; try reflexivity.
    rewrite IH. f_equal. unfold mat_vec, along_z, rotor_axis. cbn [vx vy vz]. destruct a; cbn [ent pr vx vy vz]; ring.
Qed.

(** ** Drag along the axes *)
Lemma sq_signed_0 : sq_signed 0 = 0. Proof. unfold sq_signed. ring. Qed.
Lemma sq_signed_opp x : sq_signed (- x) = - sq_signed x.
Proof. unfold sq_signed. rewrite Rabs_Ropp. ring. Qed.

Lemma one_column x y z u v w : (x = 0 \/ x = 1 \/ x = -1) -> (y = 0 \/ y = 1 \/ y = -1) -> (z = 0 \/ z = 1 \/ z = -1) ->
  x ^ 2 + y ^ 2 + z ^ 2 = 1 ->
  sq_signed (x * u + y * v + z * w) = x * sq_signed u + y * sq_signed v + z * sq_signed w.
Proof.
  intros [->|[->| ->]] [->|[->| ->]] [->|[->| ->]] E; try (exfalso; lra);
  match goal with |- sq_signed ?s = ?r =>
    first [ replace s with 0 by ring; replace r with 0 by ring; apply sq_signed_0
          | replace s with u by ring; ring | replace s with v by ring; ring | replace s with w by ring; ring
          | replace s with (- u) by ring; rewrite sq_signed_opp; ring | replace s with (- v) by ring; rewrite sq_signed_opp; ring
          | replace s with (- w) by ring; rewrite sq_signed_opp; ring ] end.
Qed.

Lemma column_unit q b : unitq q -> rot_entry q AX b ^ 2 + rot_entry q AY b ^ 2 + rot_entry q AZ b ^ 2 = 1.
Proof.
  unfold unitq. intros E. assert (E1 : qw q ^ 2 = 1 - qx q ^ 2 - qy q ^ 2 - qz q ^ 2) by lra.
  assert (E3 : qw q ^ 3 = qw q * (1 - qx q ^ 2 - qy q ^ 2 - qz q ^ 2)) by (rewrite <- E1; ring).
  destruct b; unfold rot_entry; ring_simplify; rewrite ?E3, ?E1; ring.
Qed.
Lemma rows_orthonormal q a c : unitq q ->
  rot_entry q a AX * rot_entry q c AX + rot_entry q a AY * rot_entry q c AY + rot_entry q a AZ * rot_entry q c AZ
  = match a, c with AX, AX | AY, AY | AZ, AZ => 1 | _, _ => 0 end.
Proof.
  unfold unitq. intros E. assert (E1 : qw q ^ 2 = 1 - qx q ^ 2 - qy q ^ 2 - qz q ^ 2) by lra.
  assert (E3 : qw q ^ 3 = qw q * (1 - qx q ^ 2 - qy q ^ 2 - qz q ^ 2)) by (rewrite <- E1; ring).
  destruct a, c; unfold rot_entry; ring_simplify; rewrite ?E3, ?E1; ring.
Qed.

Lemma drag_along_axes k q v a : unitq q -> along_axes q -> doc_drag k q v a = drag_spec k v a.
Proof.
  intros U A. unfold doc_drag, drag_spec, to_world, vec_of. cbn [vx vy vz]. unfold to_body.
  rewrite !(fun b => one_column _ _ _ (vx v) (vy v) (vz v) (A AX b) (A AY b) (A AZ b) (column_unit q b U)).
  pose proof (rows_orthonormal q a AX U) as EX. pose proof (rows_orthonormal q a AY U) as EY. pose proof (rows_orthonormal q a AZ U) as EZ.
  transitivity (- k * ((rot_entry q a AX * rot_entry q AX AX + rot_entry q a AY * rot_entry q AX AY + rot_entry q a AZ * rot_entry q AX AZ) * sq_signed (vx v)
    + (rot_entry q a AX * rot_entry q AY AX + rot_entry q a AY * rot_entry q AY AY + rot_entry q a AZ * rot_entry q AY AZ) * sq_signed (vy v)
    + (rot_entry q a AX * rot_entry q AZ AX + rot_entry q a AY * rot_entry q AZ AY + rot_entry q a AZ * rot_entry q AZ AZ) * sq_signed (vz v))); [ring|].
  rewrite EX, EY, EZ. destruct a; cbn [pr]; ring.
Qed.
Lemma drag_still k q a : doc_drag k q (mkV 0 0 0) a = drag_spec k (mkV 0 0 0) a.
Proof.
  unfold doc_drag, drag_spec, to_world, vec_of. cbn [vx vy vz]. unfold to_body. cbn [vx vy vz].
  rewrite !Rmult_0_r, !Rplus_0_r, sq_signed_0. destruct a; cbn [pr vx vy vz]; rewrite sq_signed_0; ring.
Qed.
Lemma drag_none q v a : doc_drag 0 q v a = drag_spec 0 v a.
Proof. unfold doc_drag, drag_spec, to_world, vec_of. cbn [vx vy vz]. ring. Qed.

(** ** The simulated step and the documented one *)
Section Step.
Context {G : Gen R}.
Variables (n : nat) (d d' : Dyn R G) (act : list R) (dt : R) (p : Params R).
Hypothesis (V : vehicle n d act p) (HI : det3 (p_inertia p) <> 0) (Hq : unitq (s_ori (d_state d)))
  (Hf : forward_rotors (d_state d)) (Hdt : 0 < dt <= 1/100) (Hp : process d act dt (mkV 0 0 0) false = Ok d').
Let s := d_state d.
Let s' := d_state d'.

Lemma quiet a : pr a (mo_sforce (d_model d')) = 0.
Proof.
  destruct (process_noise_free R_sane d d' act dt (mkV 0 0 0) Hp) as (E & _). rewrite E. destruct a; reflexivity.
Qed.

Lemma force_difference a : pr a (s_force s') = doc_force p s a + (1 - p_mass p) * pr a (p_grav p)
  + (drag_spec (p_drag p) (s_vel s) a - doc_drag (p_drag p) (s_ori s) (s_vel s) a).
Proof.
  destruct (process_newton n d d' act dt (mkV 0 0 0) false p V Hdt Hp a) as (E & _). fold s s' in E. rewrite E, quiet.
  replace (pr a (mkV 0 0 0)) with 0 by (destruct a; reflexivity).
  unfold doc_force, doc_gravity. unfold vec_of. rewrite !(fun b => force_forward (p_motors p) (s_mvel s) b Hf). ring.
Qed.
Lemma torque_difference a : mat_vec (p_inertia p) (s_angacc s') a =
  doc_torque p s (s_macc s') a - cross3 (s_angvel s) (vec_of (mat_vec (p_inertia p) (s_angvel s))) a
  + (aero_spec (p_aero p) (s_angvel s) a - doc_aero (p_aero p) (s_angvel s) a).
Proof.
  destruct (process_euler n d d' act dt (mkV 0 0 0) false p V HI Hdt Hp a) as (E & _). fold s s' in E. rewrite E, quiet.
  unfold doc_torque. rewrite (torque_forward (p_motors p) (s_mvel s) (s_macc s') a Hf). ring.
Qed.

Lemma unit_nonzero q : unitq q -> nonzeroq q.
Proof. unfold unitq, nonzeroq. intros ->. lra. Qed.

Lemma rest_documented :
  (forall i al, nth_error (s_macc s') i = Some al -> exists m c w,
    nth_error (p_motors p) i = Some m /\ nth_error act i = Some c /\ nth_error (s_mvel s) i = Some w /\
    al = 1 / mt_tau m * (limited c (mt_min m) (mt_max m) - w)) /\
  (forall a, pr a (s_angvel s') = pr a (s_angvel s) + dt * pr a (s_angacc s')) /\
  (forall a, pr a (s_linacc s') = pr a (s_force s') / p_mass p) /\
  (forall a, pr a (s_vel s') = pr a (s_vel s) + dt * pr a (s_linacc s')) /\
  (forall a, pr a (s_pos s') = pr a (s_pos s) + dt * pr a (s_vel s)) /\
  turned_by (s_ori s) (half_q (q_times_v (s_ori s) (s_angvel s))) dt (s_ori s').
Proof.
  refine (conj _ (conj _ (conj _ (conj _ (conj _ _))))).
  - intros i al E. destruct (macc_rule d d' act dt (mkV 0 0 0) false p i al (proj1 (proj2 V)) Hdt Hp E) as (m & c & w & E1 & E2 & E3 & E4).
    exists m, c, w. repeat split; try assumption. rewrite E4. unfold Rdiv. ring.
  - intros a. apply (process_euler n d d' act dt (mkV 0 0 0) false p V HI Hdt Hp a).
  - intros a. apply (process_newton n d d' act dt (mkV 0 0 0) false p V Hdt Hp a).
  - intros a. apply (process_newton n d d' act dt (mkV 0 0 0) false p V Hdt Hp a).
  - intros a. apply (process_newton n d d' act dt (mkV 0 0 0) false p V Hdt Hp a).
  - destruct (step_attitude d d' act dt (mkV 0 0 0) false (unit_nonzero _ Hq) Hdt Hp) as (U & k & Hk & E1 & E2 & E3 & E4).
    split; [exact U|]. exists k. split; [exact Hk|]. unfold half_q, q_times_v. cbn [qw qx qy qz].
    fold s s' in E1, E2, E3, E4. repeat split; [rewrite E1|rewrite E2|rewrite E3|rewrite E4]; field.
Qed.

(** Exactly where the two agree. *)
Lemma documented_iff : p_mass p <> 0 ->
  (documented_step p act s dt s' <->
   (forall a, (p_mass p - 1) * pr a (p_grav p) = drag_spec (p_drag p) (s_vel s) a - doc_drag (p_drag p) (s_ori s) (s_vel s) a) /\
   (forall a, aero_spec (p_aero p) (s_angvel s) a = doc_aero (p_aero p) (s_angvel s) a)).
Proof.
  intros Hm. destruct rest_documented as (R1 & R2 & R3 & R4 & R5 & R6). split.
  - intros [D1 D2 D3 D4 D5 D6 D7]. split; intros a.
    + specialize (D4 a). rewrite R3, force_difference in D4.
      assert (E : doc_force p s a + (1 - p_mass p) * pr a (p_grav p) + (drag_spec (p_drag p) (s_vel s) a - doc_drag (p_drag p) (s_ori s) (s_vel s) a) = doc_force p s a).
      { apply (Rmult_eq_reg_l (/ p_mass p)); [|apply Rinv_neq_0_compat, Hm]. unfold Rdiv in D4. lra. }
      lra.
    + specialize (D2 a). rewrite torque_difference in D2. lra.
  - intros (A1 & A2). split; try assumption.
    + intros a. rewrite torque_difference, (A2 a). ring.
    + intros a. rewrite R3, force_difference. specialize (A1 a).
      replace (doc_force p s a + (1 - p_mass p) * pr a (p_grav p) + (drag_spec (p_drag p) (s_vel s) a - doc_drag (p_drag p) (s_ori s) (s_vel s) a)) with (doc_force p s a) by lra.
      unfold Rdiv. ring.
Qed.

Lemma documented_when : p_mass p <> 0 -> (p_mass p = 1 \/ p_grav p = mkV 0 0 0) ->
  (p_drag p = 0 \/ s_vel s = mkV 0 0 0 \/ along_axes (s_ori s)) ->
  (p_aero p = mzero \/ s_angvel s = mkV 0 0 0) -> documented_step p act s dt s'.
Proof.
  intros Hm Hg Hd Ha. apply documented_iff; [exact Hm|]. split; intros a.
  - assert (E : doc_drag (p_drag p) (s_ori s) (s_vel s) a = drag_spec (p_drag p) (s_vel s) a).
    { destruct Hd as [->|[->|A]]; [apply drag_none|apply drag_still|apply drag_along_axes; assumption]. }
    rewrite E. destruct Hg as [->| ->]; [ring|]. destruct a; cbn [pr vx vy vz]; ring.
  - unfold aero_spec, doc_aero. destruct Ha as [->| ->].
    + unfold mat_vec, vec_of, mzero, mdiag. destruct a; cbn [ent cross3 vx vy vz m00 m01 m02 m10 m11 m12 m20 m21 m22]; change zero with 0; ring.
    + unfold mat_vec, vec_of. destruct a; cbn [cross3 vx vy vz]; ring.
Qed.
End Step.

(** ** Components for aligned rotors *)
Lemma components ms ws acc : (forall m, In m ms -> mt_rot m = mI) ->
  doc_rotor_torque ms ws acc AX = doc_component ms ws acc AX /\ doc_rotor_torque ms ws acc AZ = doc_component ms ws acc AZ /\
  doc_rotor_torque ms ws acc AY = - doc_component ms ws acc AY.
Proof.
  intros Hv.
  assert (J0 : forall a, a <> AZ -> rotor_sum (fun m al => mat_vec (mt_rot m) (along_z (IZR (mt_dir m) * (mt_J m * al))) a) ms acc = 0).
  { intros a Ha. revert acc. induction ms as [|m ms IH]; intros [|al acc]; cbn [rotor_sum]; try reflexivity.
    rewrite IH by (intros x Hx; apply Hv; right; exact Hx). rewrite (Hv m (or_introl eq_refl)).
    unfold mat_vec, along_z, mI, mdiag. destruct a; [| |now destruct (Ha eq_refl)]; cbn [ent vx vy vz m00 m01 m02 m10 m11 m12 m20 m21 m22]; change zero with 0; ring. }
  assert (JZ : rotor_sum (fun m al => mat_vec (mt_rot m) (along_z (IZR (mt_dir m) * (mt_J m * al))) AZ) ms acc = rotor_sum (fun m al => IZR (mt_dir m) * mt_J m * al) ms acc).
  { clear J0. revert acc. induction ms as [|m ms IH]; intros [|al acc]; cbn [rotor_sum]; try reflexivity.
    rewrite IH by (intros x Hx; apply Hv; right; exact Hx). rewrite (Hv m (or_introl eq_refl)).
    unfold mat_vec, along_z, mI, mdiag. cbn [ent vx vy vz m00 m01 m02 m10 m11 m12 m20 m21 m22]; change zero with 0; change one with 1; ring. }
  unfold doc_rotor_torque, doc_component. rewrite JZ, (J0 AX), (J0 AY) by discriminate. clear J0 JZ.
  repeat apply conj; try f_equal; try (rewrite Rplus_0_r); revert ws;
  induction ms as [|m ms IH]; intros [|w ws]; cbn [rotor_sum]; try reflexivity; try (symmetry; apply Ropp_0);
    rewrite ?Ropp_plus_distr; rewrite IH by (intros x Hx; apply Hv; right; exact Hx); f_equal; rewrite (Hv m (or_introl eq_refl));
    unfold mat_vec, along_z, vec_of, mI, mdiag; cbn [ent cross3 vx vy vz m00 m01 m02 m10 m11 m12 m20 m21 m22]; change zero with 0; change one with 1; ring.
Qed.
