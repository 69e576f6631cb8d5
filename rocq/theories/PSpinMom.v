(** Proofs: the angular momentum of a tumbling vehicle in the world. *)

From Coq Require Import ZArith List Bool Lia Reals Lra Psatz.
From Verif Require Import Scalar LinAlg MUtils MModel MDynamics SpecDyn SpecRun SpecMotion SpecDrift SpecEnergy
  PBase PDyn PModel PDynR PPhys PVeh PDynMore PMotion PGlide PDrift PDriftSim PEnergy.
Import ListNotations.
Local Open Scope R_scope.

Definition minus (u v : V3 R) : V3 R := vec_of (fun a => pr a u - pr a v).
Lemma apart_len u v : apart u v = len3 (minus u v).
Proof. unfold apart, len3, minus, dot3, vec_of. cbn [vx vy vz pr]. f_equal. ring. Qed.
Lemma world_keeps q u v : unitq q -> apart (vec_of (to_world q u)) (vec_of (to_world q v)) = apart u v.
Proof.
  intros U. rewrite !apart_len. rewrite <- (world_len q (minus u v) U). f_equal. apply pr_ext. intros a. unfold minus. rewrite !pr_vec_of.
  unfold to_world, vec_of. cbn [vx vy vz pr]. ring.
Qed.
Lemma world_mul q r u : unitq q -> unitq r -> vec_of (to_world (qmul q r) u) = vec_of (to_world q (vec_of (to_world r u))).
Proof.
  intros U V. assert (E : qmul q r = turnq q r) by (destruct q as [a b c d], r as [e f g h]; unfold qmul, turnq; cbn [qw qx qy qz]; unR; f_equal; ring).
  rewrite E. pose proof (turn_qrot q r u U V) as T. unfold turn in T.
  assert (Q : qrot r u = vec_of (to_world r u)) by (apply pr_ext; intros a; rewrite qrot_R, pr_vec_of; reflexivity).
  rewrite Q in T. rewrite T. apply pr_ext. intros a. rewrite qrot_R, pr_vec_of. reflexivity.
Qed.

(** One step of the attitude against one step of the momentum. *)
Definition lag (w L : V3 R) (dt : R) : V3 R := vec_of (fun a => pr a L - dt * cross3 w L a).
Lemma turned_unit w dt : unitq (qnormalized (turned w dt)).
Proof. apply qnormalized_unit. pose proof (turned_ge w dt). lra. Qed.
Lemma step_back w L dt : let N := 1 + (dt / 2)^2 * dot3 w w in let c := vec_of (cross3 w L) in
  forall a, to_world (qnormalized (turned w dt)) (lag w L dt) a - pr a L = (dt ^ 3 * dot3 w w / 4 * pr a c - dt ^ 2 / 2 * cross3 w c a) / N.
Proof.
  cbv zeta. intros a. pose proof (turned_ge w dt) as Gt. rewrite turned_sq in Gt. set (N := 1 + (dt / 2)^2 * dot3 w w) in *.
  unfold to_world. rewrite !(rot_hom _ _ _ (turned_unit w dt)).
  rewrite (normalized_pos (turned w dt)) by (rewrite turned_sq; fold N; lra).
  assert (S : nq (turned w dt) * nq (turned w dt) = N) by (unfold nq; rewrite turned_sq; fold N; apply sqrt_sqrt; lra).
  assert (S0 : nq (turned w dt) <> 0) by (intros X; rewrite X in S; lra).
  assert (Hh : forall x y, hom (qmap (fun z => z / nq (turned w dt)) (turned w dt)) x y = hom (turned w dt) x y / N).
  { intros x y. rewrite <- S. destruct (turned w dt) as [e f g h]. unfold hom, qmap. cbn [qw qx qy qz]. set (k := nq _) in *. clearbody k. destruct x, y; field; exact S0. }
  rewrite !Hh. clear Hh S S0. apply Rmult_eq_reg_r with N; [|lra].
  replace ((dt ^ 3 * dot3 w w / 4 * pr a (vec_of (cross3 w L)) - dt ^ 2 / 2 * cross3 w (vec_of (cross3 w L)) a) / N * N)
    with (dt ^ 3 * dot3 w w / 4 * pr a (vec_of (cross3 w L)) - dt ^ 2 / 2 * cross3 w (vec_of (cross3 w L)) a) by (field; lra).
  replace ((hom (turned w dt) a AX / N * vx (lag w L dt) + hom (turned w dt) a AY / N * vy (lag w L dt) + hom (turned w dt) a AZ / N * vz (lag w L dt) - pr a L) * N)
    with (hom (turned w dt) a AX * vx (lag w L dt) + hom (turned w dt) a AY * vy (lag w L dt) + hom (turned w dt) a AZ * vz (lag w L dt) - pr a L * N) by (field; lra).
  unfold N. clear. destruct w as [p q r], L as [x y z]. unfold lag, turned, hom, dot3, cross3, vec_of. destruct a; cbn [vx vy vz pr qw qx qy qz]; field.
Qed.
Lemma step_back_len w L dt : 0 <= dt -> apart (vec_of (to_world (qnormalized (turned w dt)) (lag w L dt))) L <= dt ^ 2 / 2 * (dot3 w w * len3 L).
Proof.
  intros Hd. pose proof (turned_ge w dt) as Gt. rewrite turned_sq in Gt. set (N := 1 + (dt / 2)^2 * dot3 w w) in *.
  set (c := vec_of (cross3 w L)).
  assert (P : 0 <= dot3 w w) by apply sq_nonneg. assert (PL : 0 <= len3 L) by (apply sqrt_pos).
  assert (Sq : dot3 (minus (vec_of (to_world (qnormalized (turned w dt)) (lag w L dt))) L) (minus (vec_of (to_world (qnormalized (turned w dt)) (lag w L dt))) L)
    = dt ^ 4 / 4 * dot3 w w * dot3 c c / N).
  { pose proof (step_back w L dt) as B. cbv zeta in B. fold N c in B. pose proof (B AX) as B1. pose proof (B AY) as B2. pose proof (B AZ) as B3. clear B.
    rewrite <- (pr_vec_of AX) in B1. rewrite <- (pr_vec_of AY) in B2. rewrite <- (pr_vec_of AZ) in B3.
    set (r := vec_of (to_world _ _)) in *.
    assert (Em : forall f : V3 R, dot3 (minus f L) (minus f L) = (pr AX f - pr AX L) * (pr AX f - pr AX L) + (pr AY f - pr AY L) * (pr AY f - pr AY L) + (pr AZ f - pr AZ L) * (pr AZ f - pr AZ L)) by (intros f; reflexivity).
    rewrite Em, B1, B2, B3. clear B1 B2 B3 Em r.
    assert (Nz : N <> 0) by lra. set (z := dt ^ 3 * dot3 w w / 4).
    apply Rmult_eq_reg_r with (N * N); [|nra].
    replace (dt ^ 4 / 4 * dot3 w w * dot3 c c / N * (N * N)) with (dt ^ 4 / 4 * dot3 w w * dot3 c c * N) by (field; exact Nz).
    set (k := cross3 w c). set (h := dt ^ 2 / 2).
    replace (((z * pr AX c - h * k AX) / N * ((z * pr AX c - h * k AX) / N) + (z * pr AY c - h * k AY) / N * ((z * pr AY c - h * k AY) / N) +
      (z * pr AZ c - h * k AZ) / N * ((z * pr AZ c - h * k AZ) / N)) * (N * N))
      with ((z * pr AX c - h * k AX) ^ 2 + (z * pr AY c - h * k AY) ^ 2 + (z * pr AZ c - h * k AZ) ^ 2) by (field; exact Nz).
    unfold k, h, z, N. clear. unfold c. destruct w as [p q r], L as [x y a]. unfold dot3, cross3, vec_of. cbn [vx vy vz pr]. field. }
  rewrite apart_len. unfold len3 at 1. rewrite Sq.
  assert (C : dot3 c c <= dot3 w w * dot3 L L).
  { assert (dot3 c c = dot3 w w * dot3 L L - (dot3 w L) ^ 2) as ->; [unfold c, dot3, cross3, vec_of; cbn [vx vy vz]; ring|]. pose proof (pow2_ge_0 (dot3 w L)). lra. }
  assert (LL : len3 L * len3 L = dot3 L L) by (apply sqrt_sqrt, sq_nonneg).
  rewrite <- (sqrt_square (dt ^ 2 / 2 * (dot3 w w * len3 L))).
  2:{ apply Rmult_le_pos; [|apply Rmult_le_pos; assumption]. pose proof (pow2_ge_0 dt). lra. }
  apply sqrt_le_1_alt. replace (dt ^ 2 / 2 * (dot3 w w * len3 L) * (dt ^ 2 / 2 * (dot3 w w * len3 L))) with (dt ^ 4 / 4 * dot3 w w * (dot3 w w * (len3 L * len3 L))) by field.
  rewrite LL. assert (K : 0 <= dt ^ 4 / 4 * dot3 w w) by (apply Rmult_le_pos; [pose proof (pow_le dt 4 Hd); lra|exact P]).
  pose proof (sq_nonneg c) as Pc. pose proof (sq_nonneg L) as PL2.
  apply Rle_trans with (dt ^ 4 / 4 * dot3 w w * dot3 c c); [|apply Rmult_le_compat_l; assumption].
  apply Rmult_le_reg_r with N; [lra|]. replace (dt ^ 4 / 4 * dot3 w w * dot3 c c / N * N) with (dt ^ 4 / 4 * dot3 w w * dot3 c c * 1) by (field; lra).
  apply Rmult_le_compat_l; [apply Rmult_le_pos; assumption|exact Gt].
Qed.

Lemma momentum_step I q w w' dt : unitq q -> 0 <= dt -> (forall a, pr a (momentum I w') = pr a (momentum I w) - dt * pr a (gyro I w)) ->
  apart (vec_of (to_world (quat_integrate q w dt) (momentum I w'))) (vec_of (to_world q (momentum I w))) <= dt ^ 2 / 2 * (dot3 w w * len3 (momentum I w)).
Proof.
  intros U Hd M. rewrite (step_mul q w dt U). rewrite (world_mul _ _ _ U (turned_unit w dt)). rewrite (world_keeps q _ _ U).
  replace (momentum I w') with (lag w (momentum I w) dt); [apply step_back_len; exact Hd|].
  apply pr_ext. intros a. rewrite M. unfold lag, gyro. rewrite !pr_vec_of. reflexivity.
Qed.

Lemma tumble_momentum {G : Gen R} n (D : nat -> Dyn R G) act dt ext p lo hi :
  vehicle n (D O) act p -> rotors_off n p (d_state (D O)) act -> no_air_moment p -> moments_between (p_inertia p) lo hi ->
  unitq (s_ori (d_state (D O))) -> 0 < dt <= 1/100 -> steady_flight D act dt ext ->
  forall k, let E0 := spin_energy (p_inertia p) (s_angvel (d_state (D O))) in
  4 * hi * (INR k * dt) * dt * E0 <= lo ^ 2 ->
  apart (world_momentum (p_inertia p) (d_state (D k))) (world_momentum (p_inertia p) (d_state (D O))) <= 4 * (INR k * dt) * dt * E0 * sqrt (hi * E0) / lo.
Proof.
  intros V Off Na Mb U Hd Fl k. cbv zeta. set (I := p_inertia p). set (E0 := spin_energy I (s_angvel (d_state (D O)))).
  assert (Uk : forall j, unitq (s_ori (d_state (D j)))).
  { induction j as [|j IH]; [exact U|]. destruct (tumble_facts n D act dt ext p V Off Na Hd Fl j) as (_ & _ & ->). apply quat_step_unit, unitq_nonzero, IH. }
  assert (L0 : 0 < lo) by apply Mb. pose proof (hi_pos _ _ _ Mb) as Hh. assert (P0 : 0 <= E0) by apply (spin_nonneg _ _ _ Mb).
  induction k as [|k IH]; intros Small.
  - cbn [INR]. rewrite apart_same. apply Req_le. field. lra.
  - rewrite S_INR in Small.
    assert (Sk : 4 * hi * (INR k * dt) * dt * E0 <= lo ^ 2).
    { eapply Rle_trans; [|exact Small]. apply Rmult_le_compat_r; [exact P0|]. apply Rmult_le_compat_r; [lra|]. apply Rmult_le_compat_l; nra. }
    specialize (IH Sk). destruct (tumble_facts n D act dt ext p V Off Na Hd Fl k) as (A & B & Or).
    destruct (tumble_energy _ _ _ _ _ (proj1 Mb) A B) as (_ & _ & M). 
    pose proof (momentum_step I _ _ _ dt (Uk k) ltac:(lra) M) as St. rewrite <- Or in St.
    destruct (tumble_bound n D act dt ext p lo hi V Off Na Mb Hd Fl k Sk) as [_ Up]. fold I in Up. fold E0 in Up.
    set (w := s_angvel (d_state (D k))) in *. set (E := spin_energy I w) in *.
    assert (E2 : E <= 2 * E0).
    { eapply Rle_trans; [exact Up|]. assert (4 * hi * (INR k * dt) * dt * E0 ^ 2 / lo ^ 2 <= E0); [|lra].
      apply Rmult_le_reg_r with (lo ^ 2); [nra|]. replace (4 * hi * (INR k * dt) * dt * E0 ^ 2 / lo ^ 2 * lo ^ 2) with (4 * hi * (INR k * dt) * dt * E0 * E0) by (field; lra).
      rewrite (Rmult_comm E0). apply Rmult_le_compat_r; assumption. }
    pose proof (spin_low _ _ _ Mb w) as Wl. pose proof (momentum_high _ _ _ Mb w) as Ml. fold I in Wl, Ml. fold E in Wl, Ml.
    assert (Pe : 0 <= E) by apply (spin_nonneg _ _ _ Mb).
    assert (Hl : len3 (momentum I w) <= 2 * sqrt (hi * E0)).
    { unfold len3. replace (2 * sqrt (hi * E0)) with (sqrt (4 * (hi * E0))).
      - apply sqrt_le_1_alt. assert (hi * E <= hi * (2 * E0)) by (apply Rmult_le_compat_l; lra). lra.
      - rewrite sqrt_mult_alt by lra. f_equal. replace 4 with (2 * 2) by ring. apply sqrt_square. lra. }
    assert (Hw : dot3 w w <= 4 * E0 / lo).
    { apply Rmult_le_reg_l with lo; [lra|]. replace (lo * (4 * E0 / lo)) with (4 * E0) by (field; lra). lra. }
    assert (Hp : dot3 w w * len3 (momentum I w) <= 4 * E0 / lo * (2 * sqrt (hi * E0))).
    { apply Rmult_le_compat; [apply sq_nonneg|apply sqrt_pos|exact Hw|exact Hl]. }
    eapply Rle_trans; [apply (apart_tri _ (world_momentum I (d_state (D k))))|].
    change (apart (world_momentum I (d_state (D (S k)))) (world_momentum I (d_state (D k))) <= dt ^ 2 / 2 * (dot3 w w * len3 (momentum I w))) in St.
    assert (dt ^ 2 / 2 * (dot3 w w * len3 (momentum I w)) <= dt ^ 2 / 2 * (4 * E0 / lo * (2 * sqrt (hi * E0)))) by (apply Rmult_le_compat_l; [nra|exact Hp]).
    rewrite S_INR. replace (4 * ((INR k + 1) * dt) * dt * E0 * sqrt (hi * E0) / lo) with (4 * (INR k * dt) * dt * E0 * sqrt (hi * E0) / lo + dt ^ 2 / 2 * (4 * E0 / lo * (2 * sqrt (hi * E0)))) by (field; lra).
    lra.
Qed.
