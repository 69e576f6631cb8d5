(** Proofs about the dynamics over the reals. *)

From Coq Require Import ZArith List Bool Lia Reals Lra Psatz.
From Verif Require Import Scalar LinAlg MUtils MModel MDynamics SpecDyn SpecRun PBase PDyn PModel.
Import ListNotations.
Local Open Scope R_scope.

Ltac unV := unfold vadd, vsub, vneg, vcmul, vscale, vscaler, vdiv, vmap2, vmap, v0, v1, vdot, vcross,
  vsqn, vnorm, mmulv, qvec, qmul, qmap, qadd, qconj, qsqn, pr, ent in *;
  cbn [fst snd vx vy vz qw qx qy qz m00 m01 m02 m10 m11 m12 m20 m21 m22] in *; unR.

(** ** Scalars *)
Lemma signT_R (x : R) : signT x = if Rlt_dec 0 x then 1 else if Rlt_dec x 0 then -1 else 0.
Proof. unfold signT; unR. unfold Rltb. destruct (Rlt_dec 0 x), (Rlt_dec x 0); reflexivity. Qed.

Lemma sqks_R (x : R) : sqks x = sq_signed x.
Proof.
  unfold sqks, sq_signed. rewrite signT_R. unR. unfold Rabs.
  destruct (Rlt_dec 0 x), (Rlt_dec x 0), (Rcase_abs x); try nra; try lra.
Qed.

Lemma clamp_R (x lo hi y : R) : clamp x lo hi = Some y -> y = limited x lo hi /\ lo <= hi.
Proof.
  unfold clamp, limited; unR. destruct (Rltb hi lo) eqn:E; [discriminate|]. apply Rltb_false in E.
  intros H; injection H as <-. split; [|exact E].
  unfold Rmax, Rmin. rcase; destruct (Rle_dec x hi), (Rle_dec lo _); try lra;
  try (destruct (Rle_dec lo x); lra); try (destruct (Rle_dec lo hi); lra).
Qed.

Lemma clamp_R_in (x lo hi : R) : lo <= x <= hi -> clamp x lo hi = Some x.
Proof.
  intros H. unfold clamp; unR. assert (Rltb hi lo = false) as -> by (apply Rltb_false; lra).
  assert (Rltb x lo = false) as -> by (apply Rltb_false; lra).
  assert (Rltb hi x = false) as -> by (apply Rltb_false; lra). reflexivity.
Qed.

(** ** Vectors *)
Lemma pr_ext (u v : V3 R) : (forall a, pr a u = pr a v) -> u = v.
Proof. intros H. apply V3_eq; [apply (H AX)|apply (H AY)|apply (H AZ)]. Qed.
Lemma pr_vadd a (u v : V3 R) : pr a (vadd u v) = pr a u + pr a v.
Proof. destruct a; reflexivity. Qed.
Lemma pr_vsub a (u v : V3 R) : pr a (vsub u v) = pr a u - pr a v.
Proof. destruct a; reflexivity. Qed.
Lemma pr_vscaler a (u : V3 R) k : pr a (vscaler u k) = pr a u * k.
Proof. destruct a; reflexivity. Qed.
Lemma pr_vscale a (u : V3 R) k : pr a (vscale k u) = k * pr a u.
Proof. destruct a; reflexivity. Qed.
Lemma pr_vdiv a (u : V3 R) k : pr a (vdiv u k) = pr a u / k.
Proof. destruct a; reflexivity. Qed.
Lemma pr_v0 a : pr a (v0 : V3 R) = 0.
Proof. destruct a; reflexivity. Qed.
Lemma pr_vneg a (u : V3 R) : pr a (vneg u) = - pr a u.
Proof. destruct a; reflexivity. Qed.
Lemma pr_vec_of a f : pr a (vec_of f) = f a.
Proof. destruct a; reflexivity. Qed.
Lemma pr_mmulv a (m : M3 R) v : pr a (mmulv m v) = mat_vec m v a.
Proof. destruct a; reflexivity. Qed.
Lemma pr_vcross a (u v : V3 R) : pr a (vcross u v) = cross3 u v a.
Proof. destruct a; reflexivity. Qed.
Lemma qrot_R a (q : Quat R) v : pr a (qrot q v) = to_world q v a.
Proof. unfold qrot, to_world. destruct a; unV; unfold rot_entry; ring. Qed.
Lemma vnorm_R (v : V3 R) : vnorm v = len3 v.
Proof. reflexivity. Qed.

Lemma drag_R a c (v : V3 R) : pr a (drag_force c v) = drag_spec c v a.
Proof.
  unfold drag_force, drag_spec. rewrite pr_vscale.
  replace (pr a (vmap sqks v)) with (sqks (pr a v)) by (destruct a; reflexivity).
  rewrite sqks_R. unR. ring.
Qed.

Lemma aero_R a C (w : V3 R) : pr a (aero_moment C w) = aero_spec C w a.
Proof.
  unfold aero_moment, aero_spec. rewrite pr_mmulv. rewrite vnorm_R. unfold mat_vec.
  destruct a; cbn [ent m00 m01 m02 m10 m11 m12 m20 m21 m22]; unR; ring.
Qed.

(** ** Rotor sums *)
Definition rsum := fold_right Rplus 0.

Lemma fold_left_vadd a l : forall u : V3 R, pr a (fold_left vadd l u) = pr a u + rsum (map (pr a) l).
Proof.
  induction l as [|v l IH]; intros u; cbn; [lra|]. rewrite IH, pr_vadd. unfold rsum. lra.
Qed.
Lemma vsum_pr a (l : list (V3 R)) : pr a (vsum l) = rsum (map (pr a) l).
Proof.
  destruct l as [|v l]; cbn; [rewrite pr_v0; reflexivity|]. rewrite fold_left_vadd. reflexivity.
Qed.
Lemma colsmul_rotor a (f : Motor R -> V3 R) (g : R -> R) pad : forall ms w,
  (length w <= length ms)%nat ->
  pr a (colsmul (map f ms ++ pad) (map g w)) = rotor_sum (fun m x => pr a (f m) * g x) ms w.
Proof.
  intros ms w Hl. unfold colsmul. rewrite vsum_pr, map_map.
  revert w Hl; induction ms as [|m ms IH]; intros w Hl.
  - destruct w; [|cbn in Hl; lia]. cbn. destruct pad; reflexivity.
  - destruct w as [|x w]; [reflexivity|]. cbn in Hl.
    cbn [map app combine rotor_sum rsum fold_right fst snd]. rewrite pr_vscaler.
    fold rsum. rewrite IH by lia. reflexivity.
Qed.

Lemma rotor_sum_ext f g ms : forall w, (forall m x, f m x = g m x) -> rotor_sum f ms w = rotor_sum g ms w.
Proof. induction ms as [|m ms IH]; intros [|x w] H; cbn; auto. rewrite H, IH; auto. Qed.

Lemma mixer6_force a (m : Motor R) : pr a (fst (mixer6_col m)) = mt_kf m * pr a (rotor_axis m).
Proof. unfold mixer6_col, rotor_axis. destruct a; unV; ring. Qed.
Lemma mixer6_torque a (m : Motor R) :
  pr a (snd (mixer6_col m)) = mt_kf m * cross3 (mt_pos m) (rotor_axis m) a + IZR (mt_dir m) * mt_kt m * pr a (rotor_axis m).
Proof. unfold mixer6_col, rotor_axis, cross3. destruct a; unV; ring. Qed.
Lemma inertia_R a (m : Motor R) : pr a (inertia_col m) = IZR (mt_dir m) * mt_J m * pr a (rotor_axis m).
Proof. unfold inertia_col, rotor_axis. destruct a; unV; ring. Qed.

Lemma force_by_motors_R a ms pad w :
  (length w <= length ms)%nat ->
  pr a (force_by_motors (map (fun m => fst (mixer6_col m)) ms ++ pad) w) = rotor_force ms w a.
Proof.
  intros Hl. unfold force_by_motors, rotor_force. rewrite colsmul_rotor by exact Hl.
  apply rotor_sum_ext. intros m x. rewrite mixer6_force, sqks_R. ring.
Qed.

Lemma torque_by_motors_R a ms pad1 pad2 w acc :
  (length w <= length ms)%nat -> (length acc <= length ms)%nat ->
  pr a (torque_by_motors (map (fun m => snd (mixer6_col m)) ms ++ pad1) (map inertia_col ms ++ pad2) w acc)
  = rotor_torque ms w acc a.
Proof.
  intros Hw Ha. unfold torque_by_motors, rotor_torque. rewrite pr_vadd. f_equal.
  - rewrite colsmul_rotor by exact Hw. apply rotor_sum_ext. intros m x.
    rewrite mixer6_torque, sqks_R. ring.
  - rewrite <- (map_id acc) at 1. rewrite colsmul_rotor by exact Ha. apply rotor_sum_ext. intros m x.
    rewrite inertia_R. ring.
Qed.

(** ** 3x3 inverse *)
Lemma mdet_R (m : M3 R) : mdet m = det3 m.
Proof. unfold mdet, det3. unR. ring. Qed.
Lemma minv_R (m : M3 R) (v : V3 R) : det3 m <> 0 -> mmulv m (mmulv (minv m) v) = v.
Proof.
  intros H. unfold det3 in H. apply V3_eq; unfold minv; unV; field;
  intros E; apply H; lra.
Qed.
Lemma minv_l (m : M3 R) (v : V3 R) : det3 m <> 0 -> mmulv (minv m) (mmulv m v) = v.
Proof.
  intros H. unfold det3 in H. apply V3_eq; unfold minv; unV; field;
  intros E; apply H; lra.
Qed.

(** ** Rotors *)
Lemma motors_derivative_R des : forall cur ms r i x,
  motors_derivative des cur ms = Some r -> nth_error r i = Some x ->
  exists d c m, nth_error des i = Some d /\ nth_error cur i = Some c /\ nth_error ms i = Some m /\
    x = (d - c) / mt_tau m.
Proof.
  induction des as [|d des IH]; intros cur ms r i x H Hi; cbn in H.
  - injection H as <-. destruct i; discriminate.
  - destruct cur as [|c cur]; [discriminate|]. destruct ms as [|m ms]; [discriminate|].
    apply bindo_Some in H as [ys [Hys H]]. injection H as <-.
    destruct i as [|i]; cbn in Hi.
    + injection Hi as <-. exists d, c, m. repeat split; reflexivity.
    + destruct (IH cur ms ys i x Hys Hi) as (d' & c' & m' & A & B & C & D).
      exists d', c', m'. repeat split; assumption.
Qed.

Lemma clamp_motors_R w : forall ms w' i x,
  clamp_motors w ms = Some w' -> nth_error w' i = Some x ->
  exists y m, nth_error w i = Some y /\ nth_error ms i = Some m /\ x = limited y (mt_min m) (mt_max m) /\ mt_min m <= mt_max m.
Proof.
  induction w as [|y w IH]; intros ms w' i x H Hi; cbn in H.
  - injection H as <-. destruct i; discriminate.
  - destruct ms as [|m ms]; [discriminate|].
    apply bindo_Some in H as [z [Hz H]]. apply bindo_Some in H as [ys [Hys H]]. injection H as <-.
    destruct i as [|i]; cbn in Hi.
    + injection Hi as <-. exists y, m. apply clamp_R in Hz as [-> Hz]. repeat split; assumption || reflexivity.
    + destruct (IH ms ys i x Hys Hi) as (y' & m' & A & B & C). exists y', m'. repeat split; try assumption; apply C.
Qed.

(** ** Number of sub-steps *)
Lemma process_small {G : Gen R} (d : Dyn R G) act dt ext noise :
  0 < dt <= 1 / 100 -> process d act dt ext noise = of_opt (euler_core d act dt ext noise).
Proof.
  intros H. unfold process, dtmax; unR.
  assert (Rleb dt 0 = false) as -> by (apply Rleb_false; lra).
  assert (Rltb (1/100) dt = false) as -> by (apply Rltb_false; lra). reflexivity.
Qed.

Lemma process_count {G : Gen R} (d : Dyn R G) act dt ext noise (k : nat) :
  1 / 100 < dt -> (Z.of_nat k <= 2147483647)%Z ->
  (INR k - 1) * (1 / 100) < dt <= INR k * (1 / 100) ->
  process d act dt ext noise = oiter k (euler_sub act ext noise) d.
Proof.
  intros Hdt Hk [Hlo Hhi]. unfold process, dtmax at 1 2; unR.
  assert (Rleb dt 0 = false) as -> by (apply Rleb_false; lra).
  assert (Rltb (1/100) dt = true) as -> by (apply Rltb_true; lra).
  rewrite INR_IZR_INZ in *.
  apply for_int_count; [exact Hk| |]; unfold dtmax; unR.
  - intros j Hj. apply Rltb_true.
    assert (IZR j <= IZR (Z.of_nat k) - 1).
    { rewrite <- minus_IZR. apply IZR_le. lia. }
    replace (dt / (1/100)) with (dt * 100) by field. nra.
  - apply Rltb_false. replace (dt / (1/100)) with (dt * 100) by field. lra.
Qed.
