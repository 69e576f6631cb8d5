(** Proofs: how far readings that differ let two odometries drift apart. *)

From Coq Require Import ZArith List Bool Lia Reals Lra Psatz.
From Verif Require Import Scalar LinAlg MUtils MModel MDynamics MPid MControl MImu MSim SpecDyn SpecRun SpecImu SpecSim SpecNav SpecDrift
  PBase PDyn PModel PDynR PPhys PVeh PDynMore PImu.
Import ListNotations.
Local Open Scope R_scope.

(** ** Lengths of quaternions *)
Definition pure (v : V3 R) : Quat R := mkQ 0 (vx v) (vy v) (vz v).
Definition qsubR (a b : Quat R) : Quat R := mkQ (qw a - qw b) (qx a - qx b) (qy a - qy b) (qz a - qz b).
Definition nq (q : Quat R) : R := sqrt (qsqn q).
Definition dq (a b : Quat R) : R := qw a * qw b + qx a * qx b + qy a * qy b + qz a * qz b.

Lemma qsqn_R (q : Quat R) : qsqn q = qw q * qw q + qx q * qx q + qy q * qy q + qz q * qz q.
Proof. destruct q as [w x y z]. unfold qsqn. cbn [qw qx qy qz]. unR. ring. Qed.
Lemma qsqn_pos (q : Quat R) : 0 <= qsqn q.
Proof. rewrite qsqn_R. nra. Qed.
Lemma nq_pos q : 0 <= nq q. Proof. apply sqrt_pos. Qed.
Lemma nq_sq q : nq q * nq q = qsqn q. Proof. apply sqrt_sqrt, qsqn_pos. Qed.
Lemma le_of_sq a b : 0 <= b -> a * a <= b * b -> a <= b.
Proof. intros B H. destruct (Rle_lt_dec a b) as [L|L]; [exact L|nra]. Qed.
Lemma eq_of_sq a b : 0 <= a -> 0 <= b -> a * a = b * b -> a = b.
Proof. intros A B H. apply Rle_antisym; apply le_of_sq; lra. Qed.
Lemma nq_le q s : 0 <= s -> qsqn q <= s * s -> nq q <= s.
Proof. intros P H. apply le_of_sq; [exact P|]. rewrite nq_sq. exact H. Qed.

Lemma cs_q a b : dq a b <= nq a * nq b.
Proof.
  apply le_of_sq; [apply Rmult_le_pos; apply nq_pos|].
  replace (nq a * nq b * (nq a * nq b)) with (nq a * nq a * (nq b * nq b)) by ring. rewrite !nq_sq, !qsqn_R. unfold dq.
  destruct a as [a1 a2 a3 a4], b as [b1 b2 b3 b4]. cbn [qw qx qy qz].
  pose proof (Rle_0_sqr (a1*b2-a2*b1)). pose proof (Rle_0_sqr (a1*b3-a3*b1)). pose proof (Rle_0_sqr (a1*b4-a4*b1)).
  pose proof (Rle_0_sqr (a2*b3-a3*b2)). pose proof (Rle_0_sqr (a2*b4-a4*b2)). pose proof (Rle_0_sqr (a3*b4-a4*b3)). unfold Rsqr in *. nra.
Qed.
Lemma tri_q a b c : nq (qsubR a c) <= nq (qsubR a b) + nq (qsubR b c).
Proof.
  apply nq_le; [pose proof (nq_pos (qsubR a b)); pose proof (nq_pos (qsubR b c)); lra|].
  pose proof (cs_q (qsubR a b) (qsubR b c)) as C. pose proof (nq_sq (qsubR a b)) as A. pose proof (nq_sq (qsubR b c)) as B.
  assert (E : qsqn (qsubR a c) = qsqn (qsubR a b) + qsqn (qsubR b c) + 2 * dq (qsubR a b) (qsubR b c)).
  { rewrite !qsqn_R. unfold dq, qsubR. cbn [qw qx qy qz]. ring. }
  rewrite E. nra.
Qed.

Lemma qsqn_mul a b : qsqn (qmul a b) = qsqn a * qsqn b.
Proof. rewrite !qsqn_R. destruct a as [a1 a2 a3 a4], b as [b1 b2 b3 b4]. unfold qmul. cbn [qw qx qy qz]. unR. ring. Qed.
Lemma nq_mul a b : nq (qmul a b) = nq a * nq b.
Proof. unfold nq. rewrite qsqn_mul. apply sqrt_mult; apply qsqn_pos. Qed.
Lemma sub_mul_r a b c : qsubR (qmul a c) (qmul b c) = qmul (qsubR a b) c.
Proof. destruct a as [a1 a2 a3 a4], b as [b1 b2 b3 b4], c as [c1 c2 c3 c4]. unfold qsubR, qmul. cbn [qw qx qy qz]. unR. f_equal; ring. Qed.
Lemma sub_mul_l a b c : qsubR (qmul c a) (qmul c b) = qmul c (qsubR a b).
Proof. destruct a as [a1 a2 a3 a4], b as [b1 b2 b3 b4], c as [c1 c2 c3 c4]. unfold qsubR, qmul. cbn [qw qx qy qz]. unR. f_equal; ring. Qed.
Lemma nq_unit q : unitq q -> nq q = 1.
Proof. unfold unitq, nq. intros U. rewrite qsqn_R. rewrite <- sqrt_1. f_equal. lra. Qed.

(** The distances of the specification. *)
Lemma apart_nq u v : apart u v = nq (qsubR (pure u) (pure v)).
Proof. unfold apart, nq. f_equal. rewrite qsqn_R. unfold qsubR, pure. cbn [qw qx qy qz]. ring. Qed.
Lemma apartq_nq p q : apartq p q = nq (qsubR p q).
Proof. unfold apartq, nq. f_equal. rewrite qsqn_R. unfold qsubR. cbn [qw qx qy qz]. ring. Qed.
Lemma len_nq v : len3 v = nq (pure v).
Proof. unfold len3, nq. f_equal. rewrite qsqn_R. unfold dot3, pure. cbn [qw qx qy qz]. ring. Qed.
Lemma apart_pos u v : 0 <= apart u v. Proof. apply sqrt_pos. Qed.
Lemma apart_tri u v w : apart u w <= apart u v + apart v w.
Proof. rewrite !apart_nq. apply tri_q. Qed.
Lemma apart_sym u v : apart u v = apart v u.
Proof. unfold apart. f_equal. ring. Qed.

(** Weighted sums. *)
Lemma nq_scale k q : 0 <= k -> nq (qmap (fun x => k * x) q) = k * nq q.
Proof.
  intros K. apply eq_of_sq; [apply nq_pos|apply Rmult_le_pos; [exact K|apply nq_pos]|].
  replace (k * nq q * (k * nq q)) with (k * k * (nq q * nq q)) by ring. rewrite !nq_sq, !qsqn_R. unfold qmap. cbn [qw qx qy qz]. ring.
Qed.
Lemma nq_comb (k l : R) a b c : 0 <= k -> 0 <= l -> (qw c = k * qw a + l * qw b) -> (qx c = k * qx a + l * qx b) ->
  (qy c = k * qy a + l * qy b) -> (qz c = k * qz a + l * qz b) -> nq c <= k * nq a + l * nq b.
Proof.
  intros K L E1 E2 E3 E4. apply nq_le.
  { pose proof (nq_pos a). pose proof (nq_pos b). nra. }
  assert (E : qsqn c = k * k * qsqn a + l * l * qsqn b + 2 * (k * l) * dq a b).
  { rewrite !qsqn_R, E1, E2, E3, E4. unfold dq. ring. }
  rewrite E. pose proof (cs_q a b) as C. pose proof (nq_sq a) as A. pose proof (nq_sq b) as B.
  assert (0 <= k * l) by (apply Rmult_le_pos; assumption).
  assert (k * l * dq a b <= k * l * (nq a * nq b)) by (apply Rmult_le_compat_l; assumption). rewrite <- A, <- B. nra.
Qed.

(** ** Turning *)
Definition turned (w : V3 R) (dt : R) : Quat R := mkQ 1 (dt / 2 * vx w) (dt / 2 * vy w) (dt / 2 * vz w).
Lemma turned_sq w dt : qsqn (turned w dt) = 1 + (dt / 2)^2 * dot3 w w.
Proof. rewrite qsqn_R. unfold turned, dot3. cbn [qw qx qy qz]. ring. Qed.
Lemma turned_ge w dt : 1 <= qsqn (turned w dt).
Proof.
  rewrite turned_sq. assert (0 <= (dt / 2)^2 * dot3 w w); [|lra]. apply Rmult_le_pos; [apply pow2_ge_0|]. unfold dot3. nra.
Qed.
Lemma nq_ge1 q : 1 <= qsqn q -> 1 <= nq q.
Proof. intros H. apply le_of_sq; [apply nq_pos|]. rewrite nq_sq. lra. Qed.

Lemma normalized_pos (q : Quat R) : 0 < qsqn q -> qnormalized q = qmap (fun x => x / nq q) q.
Proof. intros P. unfold qnormalized. assert (ltb zero (qsqn q) = true) as -> by (apply Rltb_true; exact P). reflexivity. Qed.

Lemma step_mul q w dt : unitq q -> quat_integrate q w dt = qmul q (qnormalized (turned w dt)).
Proof.
  intros U. unfold quat_integrate.
  assert (E : qadd q (qmap (fun x => mul x dt) (quat_derivative q w)) = qmul q (turned w dt)).
  { destruct q as [a b c d], w as [x y z]. unfold quat_derivative, turned, qmul, qmap, qadd. cbn [qw qx qy qz vx vy vz]. unR. f_equal; field. }
  rewrite E. pose proof (turned_ge w dt) as Gt.
  assert (Q : qsqn (qmul q (turned w dt)) = qsqn (turned w dt)).
  { rewrite qsqn_mul. assert (qsqn q = 1) as -> by (rewrite qsqn_R; unfold unitq in U; lra). ring. }
  rewrite (normalized_pos (qmul q (turned w dt))) by lra. rewrite (normalized_pos (turned w dt)) by lra.
  unfold nq. rewrite Q. set (k := sqrt (qsqn (turned w dt))). unfold qmul, qmap. cbn [qw qx qy qz]. unR. unfold Rdiv. f_equal; ring.
Qed.

(** Bringing to length one does not pull vectors apart that are at least that long. *)
Lemma project_closer a b : 1 <= qsqn a -> 1 <= qsqn b -> nq (qsubR (qnormalized a) (qnormalized b)) <= nq (qsubR a b).
Proof.
  intros A B. rewrite (normalized_pos a), (normalized_pos b) by lra.
  pose proof (nq_ge1 a A) as Ra. pose proof (nq_ge1 b B) as Rb. pose proof (cs_q a b) as C.
  apply nq_le; [apply nq_pos|]. rewrite nq_sq.
  set (r := nq a) in *. set (s := nq b) in *.
  assert (E1 : qsqn (qsubR a b) = r * r + s * s - 2 * dq a b).
  { unfold r, s. rewrite !nq_sq, !qsqn_R. unfold dq, qsubR. cbn [qw qx qy qz]. ring. }
  assert (Hr : r * r = qsqn a) by apply nq_sq. assert (Hs : s * s = qsqn b) by apply nq_sq.
  set (t := dq a b / (r * s)).
  assert (E2 : qsqn (qsubR (qmap (fun x => x / r) a) (qmap (fun x => x / s) b)) = 2 - 2 * t).
  { assert (X : qsqn (qsubR (qmap (fun x => x / r) a) (qmap (fun x => x / s) b)) = qsqn a / (r * r) + qsqn b / (s * s) - 2 * t).
    { unfold t. rewrite !qsqn_R. unfold dq, qsubR, qmap. cbn [qw qx qy qz]. field. lra. }
    rewrite X, <- Hr, <- Hs. field. lra. }
  assert (E3 : dq a b = t * (r * s)) by (unfold t; field; lra).
  assert (T1 : t <= 1).
  { unfold t. apply Rmult_le_reg_r with (r * s); [nra|]. unfold Rdiv. rewrite Rmult_assoc, Rinv_l by nra. lra. }
  rewrite E1, E2, E3. assert (0 <= (r - s) * (r - s)) by apply Rle_0_sqr. assert (0 <= (r * s - 1) * (1 - t)) by (apply Rmult_le_pos; nra). nra.
Qed.

Lemma turn_apart w w' dt : 0 <= dt -> nq (qsubR (qnormalized (turned w dt)) (qnormalized (turned w' dt))) <= dt / 2 * apart w w'.
Proof.
  intros D. eapply Rle_trans; [apply project_closer; apply turned_ge|]. rewrite apart_nq. apply Req_le.
  rewrite <- nq_scale by lra. f_equal. unfold qsubR, turned, pure, qmap. cbn [qw qx qy qz]. f_equal; ring.
Qed.
Lemma normalized_nq q : 0 < qsqn q -> nq (qnormalized q) = 1.
Proof. intros P. apply nq_unit, qnormalized_unit, P. Qed.

Lemma attitude_apart q q' w w' dt : unitq q -> unitq q' -> 0 <= dt ->
  apartq (quat_integrate q w dt) (quat_integrate q' w' dt) <= apartq q q' + dt / 2 * apart w w'.
Proof.
  intros U U' D. rewrite !apartq_nq, (step_mul q), (step_mul q') by assumption.
  pose proof (turned_ge w dt) as T. pose proof (turned_ge w' dt) as T'.
  eapply Rle_trans; [apply (tri_q _ (qmul q' (qnormalized (turned w dt))) _)|].
  rewrite sub_mul_r, sub_mul_l, !nq_mul, normalized_nq, (nq_unit q') by (assumption || lra).
  pose proof (turn_apart w w' dt D). lra.
Qed.

(** A unit quaternion turns vectors like a product on both sides. *)
Lemma pure_world q v : unitq q -> pure (vec_of (to_world q v)) = qmul (qmul q (pure v)) (qconj q).
Proof.
  unfold unitq. intros U. destruct q as [a b c d], v as [x y z]. cbn [qw qx qy qz] in U.
  unfold pure, vec_of, to_world, rot_entry, qmul, qconj. cbn [qw qx qy qz vx vy vz]. unR. f_equal; try ring;
  (replace 1 with (a^2+b^2+c^2+d^2) by exact U; ring) || idtac.
Qed.
Lemma pure_body q v : unitq q -> pure (vec_of (to_body q v)) = qmul (qmul (qconj q) (pure v)) q.
Proof.
  unfold unitq. intros U. destruct q as [a b c d], v as [x y z]. cbn [qw qx qy qz] in U.
  unfold pure, vec_of, to_body, rot_entry, qmul, qconj. cbn [qw qx qy qz vx vy vz]. unR. f_equal; try ring;
  (replace 1 with (a^2+b^2+c^2+d^2) by exact U; ring) || idtac.
Qed.
Lemma conj_unit q : unitq q -> unitq (qconj q).
Proof. unfold unitq, qconj. cbn [qw qx qy qz]. unR. intros U. rewrite <- U. ring. Qed.
Lemma conj_sub p q : nq (qsubR (qconj p) (qconj q)) = nq (qsubR p q).
Proof. unfold nq. f_equal. rewrite !qsqn_R. unfold qsubR, qconj. cbn [qw qx qy qz]. unR. ring. Qed.

Lemma sandwich p q x : nq p = 1 -> nq q = 1 ->
  nq (qsubR (qmul (qmul p x) (qconj p)) (qmul (qmul q x) (qconj q))) <= 2 * nq (qsubR p q) * nq x.
Proof.
  intros U V. eapply Rle_trans; [apply (tri_q _ (qmul (qmul q x) (qconj p)))|].
  rewrite sub_mul_r, sub_mul_r, sub_mul_l, !nq_mul, conj_sub.
  assert (nq (qconj p) = 1) as ->.
  { rewrite <- U. unfold nq. f_equal. rewrite !qsqn_R. unfold qconj. cbn [qw qx qy qz]. unR. ring. }
  rewrite V. lra.
Qed.
Lemma conj_conj (q : Quat R) : qconj (qconj q) = q.
Proof. destruct q as [a b c d]. unfold qconj. cbn [qw qx qy qz]. unR. f_equal; ring. Qed.

Lemma world_apart p q v : unitq p -> unitq q -> apart (vec_of (to_world p v)) (vec_of (to_world q v)) <= 2 * apartq p q * len3 v.
Proof.
  intros U V. rewrite apart_nq, apartq_nq, len_nq, !pure_world by assumption. apply sandwich; apply nq_unit; assumption.
Qed.
Lemma body_apart p q v : unitq p -> unitq q -> apart (vec_of (to_body p v)) (vec_of (to_body q v)) <= 2 * apartq p q * len3 v.
Proof.
  intros U V. rewrite apart_nq, apartq_nq, len_nq, !pure_body by assumption. rewrite <- (conj_sub p q).
  pose proof (sandwich (qconj p) (qconj q) (pure v)) as X. rewrite !conj_conj in X. apply X; apply nq_unit, conj_unit; assumption.
Qed.
Lemma body_same q u v : unitq q -> apart (vec_of (to_body q u)) (vec_of (to_body q v)) = apart u v.
Proof.
  intros U. rewrite !apart_nq, !pure_body by exact U. rewrite sub_mul_r, sub_mul_l, !nq_mul.
  rewrite (nq_unit q) by exact U. rewrite (nq_unit (qconj q)) by (apply conj_unit, U). ring.
Qed.

(** ** One update of two odometries *)
Lemma comb_apart (k l : R) a b a' b' c c' : 0 <= k -> 0 <= l ->
  (forall x, pr x c = k * pr x a + l * pr x b) -> (forall x, pr x c' = k * pr x a' + l * pr x b') ->
  apart c c' <= k * apart a a' + l * apart b b'.
Proof.
  intros K L E E'. rewrite !apart_nq. pose proof (E AX) as E1. pose proof (E AY) as E2. pose proof (E AZ) as E3.
  pose proof (E' AX) as F1. pose proof (E' AY) as F2. pose proof (E' AZ) as F3. cbn [pr] in *.
  apply nq_comb; try assumption; unfold qsubR, pure; cbn [qw qx qy qz]; rewrite ?E1, ?E2, ?E3, ?F1, ?F2, ?F3; ring.
Qed.
Lemma comb_len (k l : R) a b c : 0 <= k -> 0 <= l -> (forall x, pr x c = k * pr x a + l * pr x b) -> len3 c <= k * len3 a + l * len3 b.
Proof.
  intros K L E. rewrite !len_nq. pose proof (E AX) as E1. pose proof (E AY) as E2. pose proof (E AZ) as E3. cbn [pr] in *.
  apply nq_comb; try assumption; unfold pure; cbn [qw qx qy qz]; rewrite ?E1, ?E2, ?E3; ring.
Qed.

Section Near.
Variables (eg ea A h al : R).
Hypothesis Heg : 0 <= eg. Hypothesis Hea : 0 <= ea. Hypothesis HA : 0 <= A. Hypothesis Hh : 0 <= h. Hypothesis Hal : 0 <= al <= 1.

Record near (t : R) (o o' : Odom R) : Prop := {
  n_al : od_alpha o = al; n_al' : od_alpha o' = al;
  n_u : unitq (od_ori o); n_u' : unitq (od_ori o');
  n_gf : apart (od_gyrof o) (od_gyrof o') <= eg;
  n_af : apart (od_accelf o) (od_accelf o') <= ea;
  n_len : len3 (od_accelf o) <= A;
  n_ori : apartq (od_ori o) (od_ori o') <= t * eg / 2;
  n_w : apart (od_angvel o) (od_angvel o') <= eg;
  n_vel : apart (od_vel o) (od_vel o') <= speed_error eg ea A t;
  n_pos : apart (od_pos o) (od_pos o') <= place_error eg ea A h t }.

Lemma filtered (x y : V3 R) a : pr a (vadd (vscale al x) (vscale (sub one al) y)) = al * pr a x + (1 - al) * pr a y.
Proof. destruct a; reflexivity. Qed.

Lemma near_step t o o' g g' ac ac' dt : 0 <= t -> near t o o' -> 0 <= dt <= h ->
  apart g g' <= eg -> apart ac ac' <= ea -> len3 ac <= A ->
  near (t + dt) (odom_update o g ac dt) (odom_update o' g' ac' dt).
Proof.
  intros Ht N D Hg Hac Hl. unfold odom_update, odom_integrate, odom_filter. cbn [od_alpha od_gyrof od_accelf od_ori od_vel od_pos od_init].
  rewrite (n_al _ _ _ N), (n_al' _ _ _ N).
  set (gf := vadd (vscale al g) _). set (gf' := vadd (vscale al g') _). set (af := vadd (vscale al ac) _). set (af' := vadd (vscale al ac') _).
  assert (Gf : apart gf gf' <= eg).
  { pose proof (n_gf _ _ _ N) as X. eapply Rle_trans; [apply (comb_apart al (1 - al)); [lra|lra|intros x; apply filtered|intros x; apply filtered]|]. nra. }
  assert (Af : apart af af' <= ea).
  { pose proof (n_af _ _ _ N) as X. eapply Rle_trans; [apply (comb_apart al (1 - al)); [lra|lra|intros x; apply filtered|intros x; apply filtered]|]. nra. }
  assert (Lf : len3 af <= A).
  { pose proof (n_len _ _ _ N) as X. eapply Rle_trans; [apply (comb_len al (1 - al)); [lra|lra|intros x; apply filtered]|]. nra. }
  pose proof (n_u _ _ _ N) as U. pose proof (n_u' _ _ _ N) as U'. pose proof (n_ori _ _ _ N) as Q.
  set (a := qrot (qinv (od_ori o)) af). set (a' := qrot (qinv (od_ori o')) af').
  assert (Ea : a = vec_of (to_body (od_ori o) af)) by (apply pr_ext; intros x; rewrite pr_vec_of; apply qinv_rot, U).
  assert (Ea' : a' = vec_of (to_body (od_ori o') af')) by (apply pr_ext; intros x; rewrite pr_vec_of; apply qinv_rot, U').
  assert (Aa : apart a a' <= ea + t * eg * A).
  { rewrite Ea, Ea'. eapply Rle_trans; [apply (apart_tri _ (vec_of (to_body (od_ori o') af)))|]. rewrite (body_same (od_ori o')) by exact U'.
    pose proof (body_apart (od_ori o) (od_ori o') af U U') as B.
    assert (Z : 0 <= apartq (od_ori o) (od_ori o')) by (rewrite apartq_nq; apply nq_pos).
    assert (Y : 0 <= len3 af) by (rewrite len_nq; apply nq_pos).
    assert (2 * apartq (od_ori o) (od_ori o') * len3 af <= t * eg * A); [|lra].
    apply Rmult_le_compat; lra. }
  set (v := vadd (od_vel o) (vscaler a dt)). set (v' := vadd (od_vel o') (vscaler a' dt)).
  assert (Va : apart v v' <= speed_error eg ea A (t + dt)).
  { pose proof (n_vel _ _ _ N) as X. eapply Rle_trans; [apply (comb_apart 1 dt (od_vel o) a (od_vel o') a'); [lra|lra| |]|].
    - intros x. destruct x; unfold v, vadd, vscaler, vmap2, vmap; cbn [pr vx vy vz]; unR; ring.
    - intros x. destruct x; unfold v', vadd, vscaler, vmap2, vmap; cbn [pr vx vy vz]; unR; ring.
    - unfold speed_error in *. assert (dt * apart a a' <= dt * (ea + t * eg * A)) by (apply Rmult_le_compat_l; lra).
      assert (0 <= eg * A * dt^2). { apply Rmult_le_pos; [apply Rmult_le_pos; assumption|apply pow2_ge_0]. } nra. }
  constructor; cbn [od_alpha od_ori od_gyrof od_accelf od_angvel od_vel od_pos]; try assumption; try reflexivity.
  - apply quat_step_unit, unitq_nonzero, U.
  - apply quat_step_unit, unitq_nonzero, U'.
  - eapply Rle_trans; [apply attitude_apart; [exact U|exact U'|lra]|]. assert (dt / 2 * apart gf gf' <= dt / 2 * eg) by (apply Rmult_le_compat_l; lra). lra.
  - pose proof (n_pos _ _ _ N) as X. eapply Rle_trans; [apply (comb_apart 1 dt (od_pos o) v (od_pos o') v'); [lra|lra| |]|].
    + intros x. destruct x; unfold vadd, vscaler, vmap2, vmap; cbn [pr vx vy vz]; unR; ring.
    + intros x. destruct x; unfold vadd, vscaler, vmap2, vmap; cbn [pr vx vy vz]; unR; ring.
    + assert (dt * apart v v' <= dt * speed_error eg ea A (t + dt)) by (apply Rmult_le_compat_l; lra).
      unfold speed_error, place_error in *.
      assert (B1 : ea * dt * (t + dt) <= ea * (dt * (2 * t + dt + h)) / 2).
      { assert (0 <= ea * (dt * (h - dt))) by (apply Rmult_le_pos; [exact Hea|apply Rmult_le_pos; lra]). nra. }
      assert (B2 : dt * (eg * A * (t + dt)^2 / 2) <= eg * A * ((t + dt + h)^3 - (t + h)^3) / 6).
      { assert (E : (t + dt + h)^3 - (t + h)^3 = dt * (3 * (t + h)^2 + 3 * (t + h) * dt + dt^2)) by ring. rewrite E.
        assert (K : 3 * (t + dt)^2 <= 3 * (t + h)^2 + 3 * (t + h) * dt + dt^2).
        { assert ((t + dt)^2 <= (t + h)^2) by (apply pow_incr; lra). assert (0 <= (t + h) * dt) by (apply Rmult_le_pos; lra). pose proof (pow2_ge_0 dt). lra. }
        assert (0 <= eg * A * dt) by (apply Rmult_le_pos; [apply Rmult_le_pos; assumption|lra]).
        assert (eg * A * dt * (3 * (t + dt)^2) <= eg * A * dt * (3 * (t + h)^2 + 3 * (t + h) * dt + dt^2)) by (apply Rmult_le_compat_l; assumption). nra. }
      nra.
Qed.

Lemma elapsed_pos l : Forall (paced h A) l -> 0 <= elapsed l.
Proof. induction 1 as [|x l P _ IH]; [apply Rle_refl|]. change (0 <= snd (snd x) + elapsed l). destruct P as [P _]. lra. Qed.

Lemma near_run l l' : Forall2 (close eg ea) l l' -> Forall (paced h A) l -> forall t o o', 0 <= t -> near t o o' ->
  near (t + elapsed l) (odom_run o (odom_updates l)) (odom_run o' (odom_updates l')).
Proof.
  induction 1 as [|x y l l' C _ IH]; intros P t o o' Ht N.
  - cbn. rewrite Rplus_0_r. exact N.
  - apply Forall_cons_iff in P as [[P1 P2] P]. destruct C as (C1 & C2 & C3).
    change (elapsed (x :: l)) with (snd (snd x) + elapsed l). rewrite <- Rplus_assoc.
    change (odom_run o (odom_updates (x :: l))) with (odom_run (odom_update o (fst x) (fst (snd x)) (snd (snd x))) (odom_updates l)).
    change (odom_run o' (odom_updates (y :: l'))) with (odom_run (odom_update o' (fst y) (fst (snd y)) (snd (snd y))) (odom_updates l')).
    rewrite <- C3. apply IH; [exact P|lra|]. apply near_step; assumption || lra.
Qed.

Lemma apart_same u : apart u u = 0.
Proof. unfold apart. rewrite <- sqrt_0. f_equal. ring. Qed.
Lemma apartq_same u : apartq u u = 0.
Proof. unfold apartq. rewrite <- sqrt_0. f_equal. ring. Qed.

Lemma near_start p : odp_alpha p = al -> unitq (odp_ori p) -> near 0 (odom_new p) (odom_new p).
Proof.
  intros E U. constructor; try exact E; try exact U; rewrite ?apart_same, ?apartq_same; try assumption; try lra.
  - assert (len3 (od_accelf (odom_new p)) = 0) as ->; [|exact HA]. change (sqrt (0 * 0 + 0 * 0 + 0 * 0) = 0). replace (0 * 0 + 0 * 0 + 0 * 0) with 0 by ring. apply sqrt_0.
  - unfold speed_error. lra.
  - unfold place_error. replace (0 + h) with h by ring. lra.
Qed.
End Near.

Lemma drift p l l' eg ea h A : 0 <= odp_alpha p <= 1 -> unitq (odp_ori p) -> 0 <= eg -> 0 <= ea -> 0 <= A -> 0 <= h ->
  Forall2 (close eg ea) l l' -> Forall (paced h A) l ->
  near eg ea A h (odp_alpha p) (elapsed l) (odom_run (odom_new p) (odom_updates l)) (odom_run (odom_new p) (odom_updates l')).
Proof.
  intros Al U E1 E2 E3 E4 C P. pose proof (near_run eg ea A h (odp_alpha p) E1 E2 E3 E4 Al l l' C P 0 (odom_new p) (odom_new p) (Rle_refl 0)) as X.
  rewrite Rplus_0_l in X. apply X, near_start; assumption || reflexivity.
Qed.
