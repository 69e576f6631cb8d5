(** Flight controllers over the reals. *)

From Coq Require Import ZArith List Bool Lia Reals Lra Psatz.
From Verif Require Import Scalar LinAlg MUtils MModel MPid MControl MCtlRun SpecDyn SpecRun SpecPid SpecCtl
  PBase PDyn PModel PDynR PPhys PMix PPid PPidR PCtl.
Import ListNotations.
Local Open Scope R_scope.

Ltac unC := unfold rotation, desired_frame, parallel, heading, axis_err, prop_rates, mat_vec, vec_of, col, dot3, cross3, det3, ent, pr in *;
  cbn [vx vy vz m00 m01 m02 m10 m11 m12 m20 m21 m22] in *.

(** ** Normalisation *)
Lemma vsqn_R (v : V3 R) : vsqn v = dot3 v v. Proof. reflexivity. Qed.
Lemma dot3_nonneg (v : V3 R) : 0 <= dot3 v v. Proof. unfold dot3. nra. Qed.
Lemma dot3_zero (v : V3 R) : dot3 v v = 0 -> v = mkV 0 0 0.
Proof. destruct v as [x y z]. unfold dot3; cbn. intros. f_equal; nra. Qed.
Lemma len3_sq (v : V3 R) : len3 v * len3 v = dot3 v v.
Proof. unfold len3. apply sqrt_sqrt, dot3_nonneg. Qed.
Lemma len3_nonneg (v : V3 R) : 0 <= len3 v. Proof. apply sqrt_pos. Qed.
Lemma len3_pos (v : V3 R) : 0 < len3 v <-> 0 < dot3 v v.
Proof.
  split; intros H.
  - rewrite <- len3_sq. nra.
  - unfold len3. apply sqrt_lt_R0, H.
Qed.
Lemma norm_pos (v : V3 R) : 0 < dot3 v v -> vnormalized v = vdiv v (len3 v).
Proof.
  intros H. unfold vnormalized. cbv zeta. rewrite vsqn_R. unR. unfold Rltb. destruct (Rlt_dec 0 (dot3 v v)); [reflexivity|lra].
Qed.
Lemma norm_zero (v : V3 R) : dot3 v v = 0 -> vnormalized v = v.
Proof.
  intros H. unfold vnormalized. cbv zeta. rewrite vsqn_R, H. unR. unfold Rltb. destruct (Rlt_dec 0 0); [lra|reflexivity].
Qed.
Lemma norm_unit (v : V3 R) : dot3 v v = 1 -> vnormalized v = v.
Proof.
  intros H. rewrite norm_pos by lra. unfold len3. rewrite H, sqrt_1. apply V3_ax. intros a. rewrite pr_vdiv. field.
Qed.
Lemma len3_div (v : V3 R) : 0 < dot3 v v -> dot3 (vdiv v (len3 v)) (vdiv v (len3 v)) = 1.
Proof.
  intros H. pose proof (proj2 (len3_pos v) H) as L. pose proof (len3_sq v) as Q.
  unfold dot3 at 1. unfold vdiv, vmap. cbn [vx vy vz]. unR.
  replace (vx v / len3 v * (vx v / len3 v) + vy v / len3 v * (vy v / len3 v) + vz v / len3 v * (vz v / len3 v))
    with (dot3 v v / (len3 v * len3 v)) by (unfold dot3; field; lra).
  rewrite Q. field. lra.
Qed.

(** ** C31 *)
Lemma needed_R (a : Acro R) acc : acc_to_thrust a acc = needed_force (ac_mass a) (ac_grav a) acc.
Proof. unfold acc_to_thrust, needed_force. unV. f_equal; ring. Qed.

Lemma along_R (A : M3 R) (f : V3 R) : vdot f (vnormalized (mcol2 A)) = along_z A f.
Proof.
  unfold along_z. change (mcol2 A) with (col A AZ).
  destruct (Rle_lt_or_eq_dec 0 _ (dot3_nonneg (col A AZ))) as [H|H].
  - rewrite norm_pos by exact H. unfold dot3, vdot, vdiv, vmap. cbn [vx vy vz]. unR. unfold Rdiv. ring.
  - rewrite norm_zero by (symmetry; exact H). apply eq_sym, dot3_zero in H. rewrite H. unfold vdot, dot3. cbn [vx vy vz]. unR.
    unfold Rdiv. ring.
Qed.

Lemma acro_values (a : Acro R) acc A yaw :
  let s := along_z A (needed_force (ac_mass a) (ac_grav a) acc) in
  fst (snd (acc_to_acro a acc A yaw)) = Rmax 0 s /\
  (s < 0 -> snd (snd (acc_to_acro a acc A yaw)) = mkV 0 0 0) /\
  (0 <= s -> snd (snd (acc_to_acro a acc A yaw)) = ac_angvel (yaw_to_angvel a A yaw (needed_force (ac_mass a) (ac_grav a) acc))).
Proof.
  cbv zeta. unfold acc_to_acro. cbv zeta. rewrite needed_R, along_R. set (s := along_z _ _).
  unR. unfold Rltb. destruct (Rlt_dec s 0) as [H|H]; cbn [fst snd]; (split; [|split]); intros; try lra; try reflexivity.
  - rewrite Rmax_left; lra.
  - rewrite Rmax_right; lra.
Qed.

Lemma thrust_value c op : uses_acc op = true ->
  let c' := ctl_step c op in
  let s := along_z (att_of op) (needed_force (ac_mass (ct_acro c)) (ac_grav (ct_acro c)) (get_desired_linear_acceleration c')) in
  get_desired_thrust c' = Rmax 0 s /\ (s < 0 -> get_desired_angular_velocity c' = mkV 0 0 0).
Proof.
  intros H. cbv zeta. pose proof (acc_op_results c op H) as E. cbv zeta in E. destruct E as (-> & -> & _).
  destruct (acro_values (ct_acro c) (get_desired_linear_acceleration (ctl_step c op)) (att_of op) (yaw_of op)) as (A & B & _).
  split; assumption.
Qed.

(** ** Rotation matrices *)
Lemma rotation_cross (m : M3 R) : rotation m ->
  forall a, cross3 (col m AX) (col m AY) a = ent m a AZ /\ cross3 (col m AY) (col m AZ) a = ent m a AX /\
            cross3 (col m AZ) (col m AX) a = ent m a AY.
Proof.
  intros [Ho Hd].
  pose proof (Ho AX AX) as XX. pose proof (Ho AY AY) as YY. pose proof (Ho AZ AZ) as ZZ.
  pose proof (Ho AX AY) as XY. pose proof (Ho AY AZ) as YZ. pose proof (Ho AX AZ) as XZ. clear Ho.
  destruct m as [a b c d e f g h i]. unC.
  assert (S3 : forall u v w, u * u + v * v + w * w = 0 -> u = 0 /\ v = 0 /\ w = 0) by (intros; split; [|split]; nra).
  destruct (S3 (d * h - g * e - c) (g * b - a * h - f) (a * e - d * b - i)) as (P1 & P2 & P3).
  { replace ((d * h - g * e - c) * (d * h - g * e - c) + (g * b - a * h - f) * (g * b - a * h - f) + (a * e - d * b - i) * (a * e - d * b - i))
      with ((a * a + d * d + g * g) * (b * b + e * e + h * h) - (a * b + d * e + g * h) * (a * b + d * e + g * h)
            + (c * c + f * f + i * i) - 2 * (a * e * i + b * f * g + c * d * h - c * e * g - b * d * i - a * f * h)) by ring.
    rewrite XX, YY, ZZ, XY, Hd. ring. }
  destruct (S3 (e * i - h * f - a) (h * c - b * i - d) (b * f - e * c - g)) as (Q1 & Q2 & Q3).
  { replace ((e * i - h * f - a) * (e * i - h * f - a) + (h * c - b * i - d) * (h * c - b * i - d) + (b * f - e * c - g) * (b * f - e * c - g))
      with ((b * b + e * e + h * h) * (c * c + f * f + i * i) - (b * c + e * f + h * i) * (b * c + e * f + h * i)
            + (a * a + d * d + g * g) - 2 * (a * e * i + b * f * g + c * d * h - c * e * g - b * d * i - a * f * h)) by ring.
    rewrite XX, YY, ZZ, YZ, Hd. ring. }
  destruct (S3 (f * g - i * d - b) (i * a - c * g - e) (c * d - f * a - h)) as (U1 & U2 & U3).
  { replace ((f * g - i * d - b) * (f * g - i * d - b) + (i * a - c * g - e) * (i * a - c * g - e) + (c * d - f * a - h) * (c * d - f * a - h))
      with ((a * a + d * d + g * g) * (c * c + f * f + i * i) - (a * c + d * f + g * i) * (a * c + d * f + g * i)
            + (b * b + e * e + h * h) - 2 * (a * e * i + b * f * g + c * d * h - c * e * g - b * d * i - a * f * h)) by ring.
    rewrite XX, YY, ZZ, XZ, Hd. ring. }
  intros ax. destruct ax; unC; split; [|split| |split| |split]; lra.
Qed.

(** The rows of a rotation are orthonormal too: expansion of any vector. *)
Lemma rotation_expand (m : M3 R) (v : V3 R) : rotation m ->
  forall a, pr a v = dot3 (col m AX) v * ent m a AX + dot3 (col m AY) v * ent m a AY + dot3 (col m AZ) v * ent m a AZ.
Proof.
  intros Hr. pose proof (rotation_cross m Hr) as Hc. destruct Hr as [_ Hd].
  destruct (Hc AX) as (P1 & Q1 & U1), (Hc AY) as (P2 & Q2 & U2), (Hc AZ) as (P3 & Q3 & U3). clear Hc.
  destruct m as [a b c d e f g h i], v as [x y z]. unC.
  assert (R00 : a * a + b * b + c * c = 1) by (rewrite <- Hd; rewrite <- P1 at 1; rewrite <- Q1 at 1; rewrite <- U1 at 1; ring).
  assert (R11 : d * d + e * e + f * f = 1) by (rewrite <- Hd; rewrite <- P2 at 1; rewrite <- Q2 at 1; rewrite <- U2 at 1; ring).
  assert (R22 : g * g + h * h + i * i = 1) by (rewrite <- Hd; rewrite <- P3 at 1; rewrite <- Q3 at 1; rewrite <- U3 at 1; ring).
  assert (R01 : a * d + b * e + c * f = 0) by (rewrite <- P1, <- Q1, <- U1; ring).
  assert (R02 : a * g + b * h + c * i = 0) by (rewrite <- P1, <- Q1, <- U1; ring).
  assert (R12 : d * g + e * h + f * i = 0) by (rewrite <- P2, <- Q2, <- U2; ring).
  intros ax; destruct ax; unC.
  - replace ((a * x + d * y + g * z) * a + (b * x + e * y + h * z) * b + (c * x + f * y + i * z) * c)
      with (x * (a * a + b * b + c * c) + y * (a * d + b * e + c * f) + z * (a * g + b * h + c * i)) by ring.
    rewrite R00, R01, R02. ring.
  - replace ((a * x + d * y + g * z) * d + (b * x + e * y + h * z) * e + (c * x + f * y + i * z) * f)
      with (x * (a * d + b * e + c * f) + y * (d * d + e * e + f * f) + z * (d * g + e * h + f * i)) by ring.
    rewrite R01, R11, R12. ring.
  - replace ((a * x + d * y + g * z) * g + (b * x + e * y + h * z) * h + (c * x + f * y + i * z) * i)
      with (x * (a * g + b * h + c * i) + y * (d * g + e * h + f * i) + z * (g * g + h * h + i * i)) by ring.
    rewrite R02, R12, R22. ring.
Qed.

Lemma heading_unit yaw : dot3 (heading yaw) (heading yaw) = 1.
Proof. unC. pose proof (sin2_cos2 yaw) as H. unfold Rsqr in H. lra. Qed.

(** ** C32 *)
Definition cr (u v : V3 R) : V3 R := vec_of (cross3 u v).
Lemma vcross_cr (u v : V3 R) : vcross u v = cr u v. Proof. reflexivity. Qed.
Lemma lagrange (u v : V3 R) : dot3 (cr u v) (cr u v) = dot3 u u * dot3 v v - dot3 u v * dot3 u v.
Proof. unfold cr, vec_of, cross3, dot3. cbn [vx vy vz]. ring. Qed.

(** The frame built from a unit z axis and a heading that is not parallel. *)
Lemma frame_exists (z h : V3 R) : dot3 z z = 1 -> 0 < dot3 (cr z h) (cr z h) ->
  let y := vnormalized (cr z h) in
  let x := vnormalized (cr y z) in
  let m := mofcols x y z in
  rotation m /\ dot3 (col m AY) h = 0 /\ 0 < dot3 (col m AX) h.
Proof.
  intros Hz Hn. cbv zeta.
  set (n := len3 (cr z h)). assert (Hp : 0 < n) by (apply len3_pos; exact Hn).
  assert (Hy1 : dot3 (vnormalized (cr z h)) (vnormalized (cr z h)) = 1) by (rewrite norm_pos by exact Hn; apply len3_div, Hn).
  assert (Hyz : dot3 (vnormalized (cr z h)) z = 0).
  { rewrite norm_pos by exact Hn. fold n. unfold vdiv, vmap, cr, vec_of, cross3, dot3. cbn [vx vy vz]. unR. field. lra. }
  assert (Hyh : dot3 (vnormalized (cr z h)) h = 0).
  { rewrite norm_pos by exact Hn. fold n. unfold vdiv, vmap, cr, vec_of, cross3, dot3. cbn [vx vy vz]. unR. field. lra. }
  assert (Hny : dot3 (vnormalized (cr z h)) (cr z h) = n).
  { rewrite norm_pos by exact Hn. fold n.
    replace (dot3 (vdiv (cr z h) n) (cr z h)) with (dot3 (cr z h) (cr z h) / n).
    - rewrite <- len3_sq. fold n. field. lra.
    - unfold vdiv, vmap, dot3. cbn [vx vy vz]. unR. field. lra. }
  set (y := vnormalized (cr z h)) in *.
  assert (Hx1 : dot3 (cr y z) (cr y z) = 1) by (rewrite lagrange, Hy1, Hz, Hyz; ring).
  rewrite (norm_unit (cr y z)) by exact Hx1.
  assert (Hxh : dot3 (cr y z) h = n).
  { rewrite <- Hny. unfold cr, vec_of, cross3, dot3. cbn [vx vy vz]. ring. }
  assert (Hxy : dot3 (cr y z) y = 0) by (unfold cr, vec_of, cross3, dot3; cbn [vx vy vz]; ring).
  assert (Hxz : dot3 (cr y z) z = 0) by (unfold cr, vec_of, cross3, dot3; cbn [vx vy vz]; ring).
  set (m := mofcols (cr y z) y z).
  assert (Cx : col m AX = cr y z) by reflexivity.
  assert (Cy : col m AY = y) by (unfold m, col, mofcols, ent; cbn; destruct y; reflexivity).
  assert (Cz : col m AZ = z) by (unfold m, col, mofcols, ent; cbn; destruct z; reflexivity).
  assert (Dc : forall u v, dot3 u v = dot3 v u) by (intros; unfold dot3; ring).
  rewrite Cx, Cy. split; [|split; [exact Hyh|rewrite Hxh; exact Hp]].
  split.
  - intros a b. destruct a, b; rewrite ?Cx, ?Cy, ?Cz; try assumption; rewrite Dc; assumption.
  - rewrite <- Hx1. unfold det3, m, mofcols, dot3, cr, vec_of, cross3. cbn. ring.
Qed.

Lemma attitude_frame yaw t : 0 < len3 t -> ~ parallel t (heading yaw) -> desired_frame yaw t (desired_attitude yaw t).
Proof.
  intros Ht Hp. pose proof (proj1 (len3_pos t) Ht) as Hd. unfold desired_attitude. cbv zeta.
  change (mkV (cosT yaw) (sinT yaw) zero) with (heading yaw). rewrite !vcross_cr.
  rewrite (norm_pos t Hd). pose proof (len3_div t Hd) as Hz. set (z := vdiv t (len3 t)) in *.
  assert (Hn : 0 < dot3 (cr z (heading yaw)) (cr z (heading yaw))).
  { destruct (Rle_lt_or_eq_dec 0 _ (dot3_nonneg (cr z (heading yaw)))) as [H|H]; [exact H|exfalso].
    apply Hp. intros a. apply eq_sym, dot3_zero in H.
    assert (E : cross3 z (heading yaw) a = 0).
    { pose proof (pr_vec_of a (cross3 z (heading yaw))) as P. fold (cr z (heading yaw)) in P. rewrite H in P. rewrite <- P. destruct a; reflexivity. }
    assert (S : cross3 t (heading yaw) a = len3 t * cross3 z (heading yaw) a).
    { unfold z, vdiv, vmap, cross3. unR. destruct a; cbn [vx vy vz]; field; lra. }
    rewrite S, E. ring. }
  destruct (frame_exists z (heading yaw) Hz Hn) as (A & B & C). unfold desired_frame. split; [exact A|].
  split; [|split; [exact B|exact C]].
  intros a. unfold z, col, mofcols, vdiv, vmap, ent. unR. destruct a; cbn; field; lra.
Qed.

Lemma frame_unique yaw t Rd : 0 < len3 t -> desired_frame yaw t Rd -> desired_attitude yaw t = Rd.
Proof.
  intros Ht (Hr & Hz & Hy & Hx). pose proof (proj1 (len3_pos t) Ht) as Hd.
  set (h := heading yaw) in *. set (p := dot3 (col Rd AX) h) in *.
  pose proof (rotation_cross Rd Hr) as Hc. pose proof (rotation_expand Rd h Hr) as He.
  assert (Ez : vdiv t (len3 t) = col Rd AZ).
  { apply V3_ax. intros a. rewrite pr_vdiv, <- (Hz a). field. lra. }
  assert (Ezh : forall a, cross3 (col Rd AZ) h a = p * ent Rd a AY).
  { intros a. destruct (Hc a) as (_ & _ & <-).
    pose proof (He AX) as X. pose proof (He AY) as Y. pose proof (He AZ) as Z. cbn [pr] in X, Y, Z.
    rewrite Hy in X, Y, Z. fold p in X, Y, Z.
    unfold cross3. rewrite X, Y, Z. unfold col. cbn [vx vy vz]. destruct a; ring. }
  assert (Ec : cr (col Rd AZ) h = vscale p (col Rd AY)).
  { apply V3_ax. intros a. rewrite pr_vscale. unfold cr. rewrite pr_vec_of, Ezh. destruct a; reflexivity. }
  assert (Ry : dot3 (col Rd AY) (col Rd AY) = 1) by apply (proj1 Hr AY AY).
  assert (Nn : dot3 (vscale p (col Rd AY)) (vscale p (col Rd AY)) = p * p).
  { replace (dot3 (vscale p (col Rd AY)) (vscale p (col Rd AY))) with (p * p * dot3 (col Rd AY) (col Rd AY)) by (unfold dot3, vscale, vmap; cbn [vx vy vz]; unR; ring).
    rewrite Ry. ring. }
  assert (Ey : vnormalized (cr (col Rd AZ) h) = col Rd AY).
  { rewrite Ec. rewrite norm_pos by (rewrite Nn; nra). unfold len3. rewrite Nn, sqrt_square by lra.
    apply V3_ax. intros a. rewrite pr_vdiv, pr_vscale. field. lra. }
  assert (Ex : cr (col Rd AY) (col Rd AZ) = col Rd AX).
  { apply V3_ax. intros a. unfold cr. rewrite pr_vec_of. destruct (Hc a) as (_ & -> & _). destruct a; reflexivity. }
  unfold desired_attitude. cbv zeta. change (mkV (cosT yaw) (sinT yaw) zero) with h. rewrite !vcross_cr.
  rewrite (norm_pos t Hd), Ez, (vcross_cr (col Rd AZ) h), Ey, Ex, norm_unit by apply (proj1 Hr AX AX).
  destruct Rd; reflexivity.
Qed.

Lemma rotation_error_R (Rd A : M3 R) : rotation_error Rd A = vec_of (axis_err Rd A).
Proof. apply V3_ax. intros a. rewrite pr_vec_of. unfold rotation_error, half, lit, axis_err, dot3, col. destruct a; cbn; field. Qed.
Lemma rates_R (a : Acro R) A yaw t ax :
  pr ax (ac_angvel (yaw_to_angvel a A yaw t)) = prop_rates (ac_kp a) (desired_attitude yaw t) A ax.
Proof.
  unfold yaw_to_angvel. cbv zeta. cbn [ac_angvel]. rewrite pr_mmulv, rotation_error_R. set (e := vec_of _).
  unfold prop_rates. fold e. clearbody e. unfold mat_vec. destruct ax; cbn; ring.
Qed.

Lemma op_rates c op ax : uses_acc op = true -> 0 <= along_z (att_of op) (force_of c op) ->
  pr ax (get_desired_angular_velocity (ctl_step c op)) =
  prop_rates (ac_kp (ct_acro c)) (desired_attitude (yaw_of op) (force_of c op)) (att_of op) ax.
Proof.
  intros H Hs. pose proof (acc_op_results c op H) as E. cbv zeta in E. destruct E as (_ & -> & _).
  destruct (acro_values (ct_acro c) (get_desired_linear_acceleration (ctl_step c op)) (att_of op) (yaw_of op)) as (_ & _ & C).
  rewrite C by exact Hs. apply rates_R.
Qed.

Lemma rates_frame c op Rd : uses_acc op = true ->
  0 < len3 (force_of c op) -> 0 <= along_z (att_of op) (force_of c op) ->
  desired_frame (yaw_of op) (force_of c op) Rd ->
  forall a, pr a (get_desired_angular_velocity (ctl_step c op)) = prop_rates (ac_kp (ct_acro c)) Rd (att_of op) a.
Proof.
  intros H Hl Hs Hf a. rewrite op_rates by assumption. rewrite (frame_unique _ _ Rd Hl Hf). reflexivity.
Qed.

(** Degenerate cases. *)
Lemma no_force c op : uses_acc op = true -> len3 (force_of c op) = 0 ->
  get_desired_thrust (ctl_step c op) = 0 /\ get_desired_angular_velocity (ctl_step c op) = mkV 0 0 0.
Proof.
  intros H Hl. assert (Z : force_of c op = mkV 0 0 0).
  { apply dot3_zero. rewrite <- len3_sq, Hl. ring. }
  assert (S : along_z (att_of op) (force_of c op) = 0) by (rewrite Z; unfold along_z, dot3, Rdiv; cbn [vx vy vz]; ring).
  pose proof (thrust_value c op H) as V. cbv zeta in V. fold (force_of c op) in V. rewrite S in V. destruct V as [-> _].
  split; [apply Rmax_left; lra|].
  apply V3_ax. intros a. rewrite op_rates by (try exact H; rewrite S; lra). rewrite Z.
  unfold desired_attitude. cbv zeta. rewrite !vcross_cr.
  rewrite (norm_zero (mkV 0 0 0)) by (unfold dot3; cbn; ring).
  assert (C0 : forall v, cr (mkV 0 0 0) v = mkV 0 0 0) by (intros; unfold cr, vec_of, cross3; cbn; f_equal; ring).
  rewrite C0. rewrite (norm_zero (mkV 0 0 0)) by (unfold dot3; cbn; ring). rewrite C0.
  rewrite (norm_zero (mkV 0 0 0)) by (unfold dot3; cbn; ring).
  unfold prop_rates, mat_vec, vec_of, axis_err, col, dot3, mofcols, ent. destruct a; cbn; field.
Qed.

(** Thrust along the heading: the frame collapses to its z axis. *)
Lemma parallel_force c op : uses_acc op = true -> 0 < len3 (force_of c op) ->
  parallel (force_of c op) (heading (yaw_of op)) -> 0 <= along_z (att_of op) (force_of c op) ->
  let z := vdiv (force_of c op) (len3 (force_of c op)) in
  forall a, pr a (get_desired_angular_velocity (ctl_step c op)) =
    - mat_vec (ac_kp (ct_acro c)) (mkV (dot3 z (col (att_of op) AY) / 2) (- dot3 z (col (att_of op) AX) / 2) 0) a.
Proof.
  intros H Hl Hp Hs. cbv zeta. intros a. rewrite op_rates by assumption.
  pose proof (proj1 (len3_pos _) Hl) as Hd. set (t := force_of c op) in *.
  unfold desired_attitude. cbv zeta. change (mkV (cosT (yaw_of op)) (sinT (yaw_of op)) zero) with (heading (yaw_of op)).
  rewrite !vcross_cr, (norm_pos t Hd).
  assert (C0 : cr (vdiv t (len3 t)) (heading (yaw_of op)) = mkV 0 0 0).
  { apply V3_ax. intros b. unfold cr. rewrite pr_vec_of.
    assert (S : cross3 (vdiv t (len3 t)) (heading (yaw_of op)) b = cross3 t (heading (yaw_of op)) b / len3 t).
    { unfold vdiv, vmap, cross3. unR. destruct b; cbn [vx vy vz]; field; lra. }
    rewrite S, (Hp b). destruct b; cbn; field; lra. }
  rewrite (vcross_cr (vdiv t (len3 t))), C0. rewrite (norm_zero (mkV 0 0 0)) by (unfold dot3; cbn; ring).
  assert (C1 : forall v, cr (mkV 0 0 0) v = mkV 0 0 0) by (intros; unfold cr, vec_of, cross3; cbn; f_equal; ring).
  rewrite C1, (norm_zero (mkV 0 0 0)) by (unfold dot3; cbn; ring).
  set (z := vdiv t (len3 t)). clearbody z.
  unfold prop_rates, mat_vec, vec_of, axis_err, col, dot3, mofcols, ent. destruct a; cbn; field.
Qed.

(** ** C33 *)
Lemma aligned_rates c op : uses_acc op = true ->
  0 < len3 (force_of c op) -> desired_frame (yaw_of op) (force_of c op) (att_of op) ->
  get_desired_angular_velocity (ctl_step c op) = mkV 0 0 0.
Proof.
  intros H Hl Hf. apply V3_ax. intros a.
  assert (S : 0 <= along_z (att_of op) (force_of c op)).
  { destruct Hf as ((Ho & _) & Hz & _). pose proof (Ho AZ AZ) as Z1.
    unfold along_z. replace (len3 (col (att_of op) AZ)) with 1 by (unfold len3; rewrite Z1, sqrt_1; reflexivity).
    assert (E : dot3 (force_of c op) (col (att_of op) AZ) = len3 (force_of c op) * dot3 (col (att_of op) AZ) (col (att_of op) AZ)).
    { unfold dot3. pose proof (Hz AX) as X. pose proof (Hz AY) as Y. pose proof (Hz AZ) as Z. cbn [pr] in X, Y, Z. rewrite <- X, <- Y, <- Z. ring. }
    rewrite E, Z1. lra. }
  rewrite (rates_frame c op (att_of op) H Hl S Hf).
  unfold prop_rates, mat_vec, vec_of, axis_err, col, dot3. destruct a; cbn; field.
Qed.

Lemma rot_z_rotation psi : rotation (rot_z psi).
Proof.
  pose proof (sin2_cos2 psi) as H. unfold Rsqr in H. unfold rot_z. split.
  - intros a b. unfold dot3, col, ent. destruct a, b; cbn; nra.
  - unfold det3. cbn. nra.
Qed.
Lemma up_frame yaw t : vx t = 0 -> vy t = 0 -> 0 < vz t -> 0 < len3 t /\ desired_frame yaw t (rot_z yaw).
Proof.
  intros X Y Z. assert (D : dot3 t t = vz t * vz t) by (unfold dot3; rewrite X, Y; ring).
  assert (L : len3 t = vz t) by (unfold len3; rewrite D; apply sqrt_square; lra).
  split; [lra|]. unfold desired_frame. split; [apply rot_z_rotation|]. rewrite L.
  pose proof (sin2_cos2 yaw) as H. unfold Rsqr in H.
  split; [|split].
  - intros a. unfold rot_z, col, ent. destruct a; cbn; lra.
  - unfold dot3, rot_z, col, heading, ent. cbn. ring.
  - unfold dot3, rot_z, col, heading, ent. cbn. nra.
Qed.

Lemma yaw_error_rates c op cur : uses_acc op = true -> att_of op = rot_z cur ->
  vx (force_of c op) = 0 -> vy (force_of c op) = 0 -> 0 < vz (force_of c op) ->
  forall a, pr a (get_desired_angular_velocity (ctl_step c op)) = - ent (ac_kp (ct_acro c)) a AZ * sin (cur - yaw_of op).
Proof.
  intros H Ha X Y Z a. destruct (up_frame (yaw_of op) (force_of c op) X Y Z) as [L F].
  assert (S : 0 <= along_z (att_of op) (force_of c op)).
  { rewrite Ha. unfold along_z, len3, dot3, rot_z, col, ent. cbn [vx vy vz m02 m12 m22]. rewrite X, Y.
    replace (0 * 0 + 0 * 0 + 1 * 1) with 1 by ring. rewrite sqrt_1. lra. }
  rewrite (rates_frame c op _ H L S F), Ha. rewrite sin_minus.
  unfold prop_rates, mat_vec, vec_of, axis_err, col, dot3, rot_z. destruct a; cbn; field.
Qed.

(** The commanded rates reduce the mismatch. *)
Lemma mismatch_rate Rd path t w : turning path t w ->
  derivable_pt_lim (fun s => mismatch Rd (path s)) t (2 * dot3 (vec_of (axis_err Rd (path t))) w).
Proof.
  intros H. unfold mismatch, dot3, col. cbn [vx vy vz].
  destruct (H AX) as (X1 & X2 & X3), (H AY) as (Y1 & Y2 & Y3), (H AZ) as (Z1 & Z2 & Z3).
  assert (K : forall k f l, derivable_pt_lim f t l -> derivable_pt_lim (fun s => k * f s) t (k * l)).
  { intros k f l D. apply (derivable_pt_lim_scal f k t l D). }
  assert (P : forall f g l m, derivable_pt_lim f t l -> derivable_pt_lim g t m -> derivable_pt_lim (fun s => f s + g s) t (l + m)).
  { intros f g l m D E. apply (derivable_pt_lim_plus f g t l m D E). }
  set (D := 2 * _).
  replace D with (0 - (
     (ent Rd AX AX * (vz w * ent (path t) AX AY - vy w * ent (path t) AX AZ) +
      ent Rd AY AX * (vz w * ent (path t) AY AY - vy w * ent (path t) AY AZ) +
      ent Rd AZ AX * (vz w * ent (path t) AZ AY - vy w * ent (path t) AZ AZ)) +
     (ent Rd AX AY * (vx w * ent (path t) AX AZ - vz w * ent (path t) AX AX) +
      ent Rd AY AY * (vx w * ent (path t) AY AZ - vz w * ent (path t) AY AX) +
      ent Rd AZ AY * (vx w * ent (path t) AZ AZ - vz w * ent (path t) AZ AX)) +
     (ent Rd AX AZ * (vy w * ent (path t) AX AX - vx w * ent (path t) AX AY) +
      ent Rd AY AZ * (vy w * ent (path t) AY AX - vx w * ent (path t) AY AY) +
      ent Rd AZ AZ * (vy w * ent (path t) AZ AX - vx w * ent (path t) AZ AY)))).
  - apply (derivable_pt_lim_minus (fun _ => 3)); [apply derivable_pt_lim_const|].
    apply P; [apply P|]; (apply P; [apply P|]); apply K; assumption.
  - unfold D, axis_err, vec_of, dot3, col. cbn [vx vy vz]. field.
Qed.

Lemma descent c op Rd path t : uses_acc op = true ->
  0 < len3 (force_of c op) -> 0 <= along_z (att_of op) (force_of c op) ->
  desired_frame (yaw_of op) (force_of c op) Rd ->
  path t = att_of op -> turning path t (get_desired_angular_velocity (ctl_step c op)) ->
  exists l, derivable_pt_lim (fun s => mismatch Rd (path s)) t l /\
  l = - 2 * dot3 (vec_of (axis_err Rd (att_of op))) (vec_of (mat_vec (ac_kp (ct_acro c)) (vec_of (axis_err Rd (att_of op))))).
Proof.
  intros H Hl Hs Hf Hp Ht. eexists. split; [apply (mismatch_rate Rd _ _ _ Ht)|]. rewrite Hp.
  pose proof (rates_frame c op Rd H Hl Hs Hf) as E. set (w := get_desired_angular_velocity _) in *.
  unfold dot3 at 1. pose proof (E AX) as X. pose proof (E AY) as Y. pose proof (E AZ) as Z. cbn [pr] in X, Y, Z. rewrite X, Y, Z.
  unfold prop_rates, dot3, vec_of. cbn [vx vy vz]. ring.
Qed.

(** ** C36 *)
Lemma yaw_rate_R c cur rate : m22 (ac_kp (ct_acro c)) <> 0 ->
  m22 (ac_kp (ct_acro c)) * (yaw_rate_to_angle c cur rate - cur) = rate.
Proof.
  intros H. unfold yaw_rate_to_angle. cbv zeta. unR. unfold Reqb. destruct (Req_EM_T (m22 (ac_kp (ct_acro c))) 0); [contradiction|].
  field. exact H.
Qed.
