(** Roll, pitch and yaw of a quaternion over the reals. *)

From Coq Require Import ZArith List Bool Lia Reals Lra Psatz.
From Verif Require Import Scalar LinAlg MUtils SpecDyn SpecEuler PBase PDynR PPhys PVeh.
Import ListNotations.
Local Open Scope R_scope.

Lemma cos_atan_pos x : 0 < cos (atan x).
Proof. pose proof (atan_bound x). apply cos_gt_0; lra. Qed.
Lemma polar_half y x r : 0 < x -> 0 < r -> r * r = x * x + y * y -> cos (atan (y / x)) = x / r /\ sin (atan (y / x)) = y / r.
Proof.
  intros Hx Hr E. set (t := atan (y / x)). assert (C : 0 < cos t) by apply cos_atan_pos.
  assert (T : sin t / cos t = y / x). { change (sin t / cos t) with (tan t). apply tan_atan. }
  assert (S : sin t = y / x * cos t). { rewrite <- T. field. lra. }
  pose proof (sin2_cos2 t) as P. unfold Rsqr in P.
  assert (K : (cos t * r - x) * (cos t * r + x) = 0).
  { rewrite S in P. assert (Q : cos t * cos t * (r * r) = x * x).
    { rewrite E. replace (cos t * cos t * (x * x + y * y)) with (x * x * (y / x * cos t * (y / x * cos t) + cos t * cos t)) by (field; lra). rewrite P. ring. }
    replace ((cos t * r - x) * (cos t * r + x)) with (cos t * cos t * (r * r) - x * x) by ring. rewrite Q. ring. }
  assert (0 < cos t * r + x) by (apply Rplus_lt_0_compat; [apply Rmult_lt_0_compat|]; assumption).
  assert (cos t * r - x = 0) by (apply Rmult_integral in K; lra).
  assert (Cx : cos t = x / r). { apply Rmult_eq_reg_r with r; [|lra]. unfold Rdiv. rewrite Rmult_assoc, Rinv_l by lra. lra. }
  split; [exact Cx|]. rewrite S, Cx. field. split; lra.
Qed.

(** atan2 returns the direction of a point other than the origin. *)
Lemma polar y x r : 0 < r -> r * r = x * x + y * y ->
  cos (Ratan2 y x) = x / r /\ sin (Ratan2 y x) = y / r /\ - PI < Ratan2 y x <= PI.
Proof.
  intros Hr E. pose proof PI_RGT_0 as Pp. unfold Ratan2. destruct (Rlt_dec 0 x) as [Hx|Hx]; [|destruct (Rlt_dec x 0) as [Hy|Hy]].
  - destruct (polar_half y x r Hx Hr E) as [A B]. split; [exact A|]. split; [exact B|].
    pose proof (atan_bound (y / x)). lra.
  - assert (N : y / x = (- y) / (- x)) by (field; lra). rewrite N.
    destruct (polar_half (- y) (- x) r) as [A B]; [lra|exact Hr|rewrite E; ring|].
    pose proof (atan_bound (- y / - x)) as Bd.
    assert (Inv : 0 < / - x) by (apply Rinv_0_lt_compat; lra).
    destruct (Rle_dec 0 y) as [Y|Y].
    + rewrite neg_cos, neg_sin, A, B. split; [field; lra|]. split; [field; lra|].
      assert (D : - y / - x <= 0) by (unfold Rdiv; nra).
      assert (atan (- y / - x) <= 0).
      { destruct D as [D|D]; [left; rewrite <- atan_0; apply atan_increasing, D|rewrite D, atan_0; lra]. }
      lra.
    + assert (X : cos (atan (- y / - x) - PI) = - cos (atan (- y / - x))).
      { rewrite cos_minus, cos_PI, sin_PI. ring. }
      assert (Z : sin (atan (- y / - x) - PI) = - sin (atan (- y / - x))).
      { rewrite sin_minus, cos_PI, sin_PI. ring. }
      rewrite X, Z, A, B. split; [field; lra|]. split; [field; lra|].
      assert (D : 0 < - y / - x) by (unfold Rdiv; apply Rmult_lt_0_compat; lra).
      assert (0 < atan (- y / - x)) by (rewrite <- atan_0; apply atan_increasing, D). lra.
  - assert (x = 0) by lra. subst x. replace (0 * 0 + y * y) with (y * y) in E by ring.
    destruct (Rlt_dec 0 y) as [Y|Y]; [|destruct (Rlt_dec y 0) as [Z|Z]].
    + assert (r = y) by nra. subst r. rewrite cos_PI2, sin_PI2. split; [field; lra|]. split; [field; lra|]. lra.
    + assert (r = - y) by nra. subst r. rewrite cos_neg, sin_neg, cos_PI2, sin_PI2. split; [field; lra|]. split; [field; lra|]. lra.
    + assert (y = 0) by lra. subst y. nra.
Qed.
Lemma Ratan2_range y x : - PI < Ratan2 y x <= PI.
Proof.
  destruct (Req_dec x 0) as [->|X]; [destruct (Req_dec y 0) as [->|Y]|].
  - unfold Ratan2. destruct (Rlt_dec 0 0); [lra|]. pose proof PI_RGT_0. lra.
  - apply (polar y 0 (sqrt (0 * 0 + y * y))); [apply sqrt_lt_R0; nra|apply sqrt_sqrt; nra].
  - apply (polar y x (sqrt (x * x + y * y))); [apply sqrt_lt_R0; nra|apply sqrt_sqrt; nra].
Qed.
(** Angles in (-pi, pi] are determined by their cosine and sine. *)
Lemma angle_unique a b : - PI < a <= PI -> - PI < b <= PI -> cos a = cos b -> sin a = sin b -> a = b.
Proof.
  intros A B C S. assert (D : cos (a - b) = 1).
  { rewrite cos_minus, C, S. pose proof (sin2_cos2 b) as P. unfold Rsqr in P. lra. }
  assert (E : sin (a - b) = 0) by (rewrite sin_minus, C, S; ring).
  assert (F : - (2 * PI) < a - b < 2 * PI) by lra.
  destruct (Req_dec (a - b) 0) as [Z|Z]; [lra|exfalso].
  assert (G : forall t, 0 < t < 2 * PI -> sin t = 0 -> cos t = 1 -> False).
  { intros t T1 T2 T3. destruct (Rtotal_order t PI) as [L|[L|L]].
    - assert (0 < sin t) by (apply sin_gt_0; lra). lra.
    - subst t. rewrite cos_PI in T3. lra.
    - assert (sin t < 0) by (apply sin_lt_0; lra). lra. }
  destruct (Rtotal_order (a - b) 0) as [L|[L|L]]; [|lra|exact (G (a - b) (conj L (proj2 F)) E D)].
  apply (G (- (a - b))); [lra|rewrite sin_neg, E; ring|rewrite cos_neg; exact D].
Qed.
Lemma atan2_angle k t : 0 < k -> - PI < t <= PI -> Ratan2 (k * sin t) (k * cos t) = t.
Proof.
  intros K T. pose proof (sin2_cos2 t) as P. unfold Rsqr in P.
  assert (E : k * k = k * cos t * (k * cos t) + k * sin t * (k * sin t)) by (transitivity (k * k * (sin t * sin t + cos t * cos t)); [rewrite P|]; ring).
  destruct (polar (k * sin t) (k * cos t) k K E) as (A & B & C).
  apply angle_unique; [exact C|exact T|rewrite A; field; lra|rewrite B; field; lra].
Qed.

(** The code's normalised quaternion gives the attitude entries. *)
Definition nq (q : Quat R) : R := qw q ^ 2 + qx q ^ 2 + qy q ^ 2 + qz q ^ 2.
Lemma attitude_norm q a b : nonzeroq q -> rot_entry (qnormalized q) a b = attitude q a b.
Proof.
  intros N. unfold nonzeroq in N. assert (E : qsqn q = nq q) by (unfold qsqn, nq; unR; ring).
  assert (P : 0 < nq q) by exact N.
  unfold qnormalized. rewrite E. unR. assert (Rltb 0 (nq q) = true) as -> by (apply Rltb_true; exact P).
  assert (S : sqrt (nq q) * sqrt (nq q) = nq q) by (apply sqrt_sqrt; lra).
  assert (S0 : 0 < sqrt (nq q)) by (apply sqrt_lt_R0, P).
  assert (D : forall u v, u / sqrt (nq q) * (v / sqrt (nq q)) = u * v / nq q).
  { intros u v. rewrite <- S at 3. field. lra. }
  assert (D2 : forall u, (u / sqrt (nq q)) ^ 2 = u ^ 2 / nq q).
  { intros u. replace ((u / sqrt (nq q)) ^ 2) with (u / sqrt (nq q) * (u / sqrt (nq q))) by ring. rewrite D. f_equal. ring. }
  destruct a, b; unfold rot_entry, attitude, qmap; cbn [qw qx qy qz]; rewrite ?D, ?D2; fold (nq q);
  unfold nq in *; field; lra.
Qed.

Lemma attitude_unit q a b : unitq q -> attitude q a b = rot_entry q a b.
Proof. intros U. rewrite <- attitude_norm by (apply unitq_nonzero, U). rewrite qnormalized_id by exact U. reflexivity. Qed.

Lemma euler_unfold q : nonzeroq q -> quat_to_euler q =
  mkV (Ratan2 (attitude q AZ AY) (attitude q AZ AZ))
      (if Rle_dec 1 (Rabs (attitude q AZ AX)) then (if Rlt_dec (- attitude q AZ AX) 0 then - (PI / 2) else PI / 2) else asin (- attitude q AZ AX))
      (Ratan2 (attitude q AY AX) (attitude q AX AX)).
Proof.
  intros N. rewrite <- !attitude_norm by exact N. unfold quat_to_euler. cbv zeta. set (u := qnormalized q). unR.
  assert (A : - rot_entry u AZ AX = 2 * (qw u * qy u - qz u * qx u)) by (unfold rot_entry; ring).
  replace (Rabs (rot_entry u AZ AX)) with (Rabs (2 * (qw u * qy u - qz u * qx u))) by (rewrite <- A; apply Rabs_Ropp).
  rewrite A. f_equal.
  - f_equal; unfold rot_entry; ring.
  - unfold copysignT, Rleb. unR. unfold Rltb. pose proof PI_RGT_0.
    destruct (Rle_dec 1 _); [|reflexivity]. destruct (Rlt_dec _ 0); rewrite Rabs_right; lra.
  - f_equal; unfold rot_entry; ring.
Qed.

Lemma attitude_cols q : nonzeroq q -> let A := attitude q in
  A AX AX * A AX AX + A AY AX * A AY AX + A AZ AX * A AZ AX = 1 /\
  A AZ AX * A AZ AX + A AZ AY * A AZ AY + A AZ AZ * A AZ AZ = 1.
Proof.
  intros N. cbv zeta. unfold nonzeroq in N. unfold attitude. cbv zeta. split; field; lra.
Qed.

Lemma euler_ranges q : nonzeroq q -> let e := quat_to_euler q in
  - PI < vx e <= PI /\ - (PI / 2) <= vy e <= PI / 2 /\ - PI < vz e <= PI.
Proof.
  intros N. cbv zeta. rewrite euler_unfold by exact N. cbn [vx vy vz].
  split; [apply Ratan2_range|]. split; [|apply Ratan2_range]. pose proof PI_RGT_0.
  destruct (Rle_dec _ _); [destruct (Rlt_dec _ _); lra|]. pose proof (asin_bound (- attitude q AZ AX)). lra.
Qed.

Lemma nv_pitch q : nonzeroq q -> not_vertical q -> let p := vy (quat_to_euler q) in
  sin p = - attitude q AZ AX /\ 0 < cos p /\ - (PI/2) < p < PI/2.
Proof.
  intros N V. cbv zeta. rewrite euler_unfold by exact N. cbn [vy]. unfold not_vertical in V.
  destruct (Rle_dec _ _) as [L|L]; [lra|].
  assert (B : -1 <= - attitude q AZ AX <= 1).
  { unfold Rabs in V. destruct (Rcase_abs _) in V; lra. }
  assert (B' : -1 < - attitude q AZ AX < 1).
  { unfold Rabs in V. destruct (Rcase_abs _) in V; lra. }
  split; [apply sin_asin, B|]. pose proof (asin_bound_lt _ B') as X. split; [apply cos_gt_0; lra|lra].
Qed.

(** The first column and the last row of a rotation give its other entries. *)
Lemma attitude_rest q : nonzeroq q -> let A := attitude q in let d := 1 - A AZ AX * A AZ AX in
  A AX AY * d = A AX AX * A AZ AY * - A AZ AX - A AY AX * A AZ AZ /\
  A AX AZ * d = A AX AX * A AZ AZ * - A AZ AX + A AY AX * A AZ AY /\
  A AY AY * d = A AY AX * A AZ AY * - A AZ AX + A AX AX * A AZ AZ /\
  A AY AZ * d = A AY AX * A AZ AZ * - A AZ AX - A AX AX * A AZ AY.
Proof.
  intros N. unfold nonzeroq in N. cbv zeta. unfold attitude. cbv zeta.
  split; [field; lra|]. split; [field; lra|]. split; field; lra.
Qed.

Lemma rebuild (A : Ax -> Ax -> R) roll pitch yaw :
  cos pitch <> 0 -> sin pitch = - A AZ AX ->
  A AZ AZ = cos pitch * cos roll -> A AZ AY = cos pitch * sin roll ->
  A AX AX = cos pitch * cos yaw -> A AY AX = cos pitch * sin yaw ->
  (let d := 1 - A AZ AX * A AZ AX in
   A AX AY * d = A AX AX * A AZ AY * - A AZ AX - A AY AX * A AZ AZ /\
   A AX AZ * d = A AX AX * A AZ AZ * - A AZ AX + A AY AX * A AZ AY /\
   A AY AY * d = A AY AX * A AZ AY * - A AZ AX + A AX AX * A AZ AZ /\
   A AY AZ * d = A AY AX * A AZ AZ * - A AZ AX - A AX AX * A AZ AY) ->
  forall a b, rpy roll pitch yaw a b = A a b.
Proof.
  intros C S E1 E2 E3 E4. cbv zeta. intros (M1 & M2 & M3 & M4).
  assert (D : 1 - A AZ AX * A AZ AX = cos pitch * cos pitch).
  { pose proof (sin2_cos2 pitch) as P. unfold Rsqr in P. rewrite S in P. lra. }
  rewrite D in *. rewrite E1, E2, E3, E4, <- S in *.
  assert (Cc : cos pitch * cos pitch <> 0) by (apply Rmult_integral_contrapositive; split; exact C).
  assert (S' : A AZ AX = - sin pitch) by lra.
  intros a b; destruct a, b; unfold rpy, mat_mul, about; rewrite ?E1, ?E2, ?E3, ?E4, ?S'; try ring;
  apply Rmult_eq_reg_r with (cos pitch * cos pitch); try exact Cc; [rewrite M1|rewrite M2|rewrite M3|rewrite M4]; ring.
Qed.

(** The angles reproduce the attitude. *)
Lemma euler_rebuilds q : nonzeroq q -> not_vertical q -> let e := quat_to_euler q in
  forall a b, rpy (vx e) (vy e) (vz e) a b = attitude q a b.
Proof.
  intros N V. cbv zeta. destruct (nv_pitch q N V) as (Sp & Cp & _).
  destruct (attitude_cols q N) as [K1 K2]. cbv zeta in K1, K2. pose proof (attitude_rest q N) as M.
  assert (E1 : vx (quat_to_euler q) = Ratan2 (attitude q AZ AY) (attitude q AZ AZ)) by (rewrite euler_unfold by exact N; reflexivity).
  assert (E2 : vz (quat_to_euler q) = Ratan2 (attitude q AY AX) (attitude q AX AX)) by (rewrite euler_unfold by exact N; reflexivity).
  revert Sp Cp K1 K2 M E1 E2. generalize (vx (quat_to_euler q)) (vy (quat_to_euler q)) (vz (quat_to_euler q)).
  generalize (attitude q). intros A roll p yaw Sp Cp K1 K2 M E1 E2.
  pose proof (sin2_cos2 p) as P. unfold Rsqr in P. rewrite Sp in P.
  assert (R1 : cos p * cos p = A AZ AZ * A AZ AZ + A AZ AY * A AZ AY) by lra.
  assert (R2 : cos p * cos p = A AX AX * A AX AX + A AY AX * A AY AX) by lra.
  destruct (polar _ _ (cos p) Cp R1) as (A1 & A2 & _). destruct (polar _ _ (cos p) Cp R2) as (B1 & B2 & _).
  rewrite <- E1 in A1, A2. rewrite <- E2 in B1, B2.
  apply rebuild; [lra|exact Sp|rewrite A1; field; lra|rewrite A2; field; lra|rewrite B1; field; lra|rewrite B2; field; lra|exact M].
Qed.

(** Scaling does not matter. *)
Lemma attitude_scaled k q a b : k <> 0 -> nonzeroq q -> attitude (scaled_quat k q) a b = attitude q a b.
Proof.
  intros K N. unfold nonzeroq in N. assert (0 < k * k) by nra.
  assert (D : (k * qw q) ^ 2 + (k * qx q) ^ 2 + (k * qy q) ^ 2 + (k * qz q) ^ 2 <> 0).
  { replace ((k * qw q) ^ 2 + (k * qx q) ^ 2 + (k * qy q) ^ 2 + (k * qz q) ^ 2) with (k * k * (qw q ^ 2 + qx q ^ 2 + qy q ^ 2 + qz q ^ 2)) by ring. nra. }
  destruct a, b; unfold attitude, scaled_quat; cbn [qw qx qy qz]; field; (split; [lra|]); exact D || (split; [exact D|]; lra) || nra.
Qed.
Lemma scaled_nonzero k q : k <> 0 -> nonzeroq q -> nonzeroq (scaled_quat k q).
Proof.
  intros K N. unfold nonzeroq, scaled_quat in *. cbn [qw qx qy qz]. assert (0 < k * k) by nra.
  replace ((k * qw q) ^ 2 + (k * qx q) ^ 2 + (k * qy q) ^ 2 + (k * qz q) ^ 2) with (k * k * (qw q ^ 2 + qx q ^ 2 + qy q ^ 2 + qz q ^ 2)) by ring.
  apply Rmult_lt_0_compat; assumption.
Qed.
Lemma euler_scaled k q : k <> 0 -> nonzeroq q -> quat_to_euler (scaled_quat k q) = quat_to_euler q.
Proof.
  intros K N. rewrite !euler_unfold by first [exact N|apply scaled_nonzero; assumption].
  rewrite !(attitude_scaled k q) by assumption. reflexivity.
Qed.

(** Any angles in range that describe the attitude are the ones reported. *)
Lemma euler_unique q roll pitch yaw : nonzeroq q ->
  - PI < roll <= PI -> - (PI/2) < pitch < PI/2 -> - PI < yaw <= PI ->
  (forall a b, attitude q a b = rpy roll pitch yaw a b) -> quat_to_euler q = mkV roll pitch yaw.
Proof.
  intros N Hr Hp Hy E. assert (C : 0 < cos pitch) by (apply cos_gt_0; lra).
  rewrite euler_unfold by exact N.
  assert (E1 : attitude q AZ AX = - sin pitch) by (rewrite E; unfold rpy, mat_mul, about; ring).
  assert (E2 : attitude q AZ AY = cos pitch * sin roll) by (rewrite E; unfold rpy, mat_mul, about; ring).
  assert (E3 : attitude q AZ AZ = cos pitch * cos roll) by (rewrite E; unfold rpy, mat_mul, about; ring).
  assert (E4 : attitude q AX AX = cos pitch * cos yaw) by (rewrite E; unfold rpy, mat_mul, about; ring).
  assert (E5 : attitude q AY AX = cos pitch * sin yaw) by (rewrite E; unfold rpy, mat_mul, about; ring).
  rewrite E1, E2, E3, E4, E5, !atan2_angle by assumption. f_equal.
  rewrite Ropp_involutive, Rabs_Ropp.
  assert (S : -1 < sin pitch < 1).
  { pose proof (sin2_cos2 pitch) as P. unfold Rsqr in P. nra. }
  destruct (Rle_dec _ _) as [L|L].
  - exfalso. unfold Rabs in L. destruct (Rcase_abs _) in L; lra.
  - apply asin_sin. lra.
Qed.

(** Nose straight up or down: roll and yaw are reported as zero. *)
Lemma gimbal q : nonzeroq q -> ~ not_vertical q -> vx (quat_to_euler q) = 0 /\ vz (quat_to_euler q) = 0 /\
  (vy (quat_to_euler q) = PI / 2 \/ vy (quat_to_euler q) = - (PI / 2)) /\ sin (vy (quat_to_euler q)) = - attitude q AZ AX.
Proof.
  intros N V. unfold not_vertical in V. destruct (attitude_cols q N) as [K1 K2]. cbv zeta in K1, K2.
  rewrite euler_unfold by exact N. cbn [vx vy vz]. revert V K1 K2.
  generalize (attitude q AX AX) (attitude q AY AX) (attitude q AZ AX) (attitude q AZ AY) (attitude q AZ AZ). clear.
  intros a b c d e V K1 K2. apply Rnot_lt_le in V.
  assert (A : 1 <= c * c).
  { rewrite <- (Rabs_right 1) in V by lra. apply Rsqr_le_abs_1 in V. unfold Rsqr in V. lra. }
  assert (Z : forall x, x * x = 0 -> x = 0) by (intros x X; apply Rmult_integral in X; tauto).
  pose proof (Rle_0_sqr a) as Qa. pose proof (Rle_0_sqr b) as Qb. pose proof (Rle_0_sqr d) as Qd. pose proof (Rle_0_sqr e) as Qe.
  unfold Rsqr in Qa, Qb, Qd, Qe.
  assert (Ea : a = 0) by (apply Z; lra). assert (Eb : b = 0) by (apply Z; lra).
  assert (Ed : d = 0) by (apply Z; lra). assert (Ee : e = 0) by (apply Z; lra). assert (Ec : c * c = 1) by lra.
  rewrite Ea, Eb, Ed, Ee.
  assert (Z0 : Ratan2 0 0 = 0).
  { unfold Ratan2. destruct (Rlt_dec 0 0); [lra|]. reflexivity. }
  rewrite Z0. split; [reflexivity|]. split; [reflexivity|].
  destruct (Rle_dec 1 (Rabs c)) as [L|L]; [|lra].
  assert (Cc : c = 1 \/ c = -1).
  { assert (F : (c - 1) * (c + 1) = 0) by (replace ((c - 1) * (c + 1)) with (c * c - 1) by ring; lra). apply Rmult_integral in F. destruct F; [left|right]; lra. }
  destruct (Rlt_dec (- c) 0) as [M|M].
  - split; [right; reflexivity|]. rewrite sin_neg, sin_PI2. lra.
  - split; [left; reflexivity|]. rewrite sin_PI2. lra.
Qed.
