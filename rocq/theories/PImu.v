(** The IMU and the inertial odometry. *)

From Coq Require Import ZArith List Bool Lia Reals Lra Psatz.
From Verif Require Import Scalar LinAlg MUtils MImu SpecDyn SpecRun SpecImu PBase PDyn PDynR PPhys PVeh PPid PPidR.
Import ListNotations.

(** ** Draws *)
Section Draws.
Context {T : Type} {O : Ops T} {G : Gen T}.

Lemma skip_add j k (s : Rng G) : rng_skip G (j + k) s = rng_skip G k (rng_skip G j s).
Proof. revert s; induction j as [|j IH]; intros s; [reflexivity|]. apply (IH (rng_next G s)). Qed.

Lemma draw3_spec place (c : T) (s : Rng G) :
  draw3 G place c (fst s) (snd s) =
  (let v := sample G place s 0 in mkV (mul c (vx v)) (mul c (vy v)) (mul c (vz v)), rng_skip G 3 s).
Proof.
  destruct s as [e d]. unfold draw3, sample, nth_draw, rng_skip, rng_value, rng_next. cbn [fst snd Nat.add].
  destruct (g_draw G e d) as [a [e1 d1]]. cbn [fst snd].
  destruct (g_draw G e1 d1) as [b [e2 d2]]. cbn [fst snd].
  destruct (g_draw G e2 d2) as [x [e3 d3]]. cbn [fst snd].
  destruct (g_perm G place); reflexivity.
Qed.
Lemma sample_skip place j k (s : Rng G) : sample G place (rng_skip G j s) k = sample G place s (j + k).
Proof. unfold sample, nth_draw. rewrite <- !skip_add. replace (1 + (j + k)) with (j + (1 + k)) by lia. replace (2 + (j + k)) with (j + (2 + k)) by lia. reflexivity. Qed.

Definition scaled (c : T) (v : V3 T) : V3 T := mkV (mul c (vx v)) (mul c (vy v)) (mul c (vz v)).

Lemma imu_new_spec (p : ImuParams T) :
  let s := (g_seed G (imp_seed p), g_dist0 G) in
  let i : Imu T G := imu_new p in
  imu_rng i = rng_skip G 6 s /\
  im_gbias i = scaled (sqrtT (imp_gvar p)) (sample G 2 s 0) /\
  im_abias i = scaled (sqrtT (imp_avar p)) (sample G 3 s 3) /\
  im_gvar i = imp_gvar p /\ im_avar i = imp_avar p /\ im_gac i = imp_gac p /\ im_aac i = imp_aac p /\
  im_ori i = imp_ori p /\ im_inv i = qinv (imp_ori p) /\ im_gyro i = v0 /\ im_accel i = v0.
Proof.
  cbv zeta. set (s := (g_seed G (imp_seed p), g_dist0 G)). unfold imu_new.
  change (g_seed G (imp_seed p)) with (fst s). change (g_dist0 G) with (snd s). rewrite draw3_spec. cbv zeta.
  destruct (rng_skip G 3 s) as [e1 d1] eqn:E.
  pose proof (draw3_spec 3 (sqrtT (imp_avar p)) (e1, d1)) as D. cbn [fst snd] in D. rewrite D. cbv zeta.
  destruct (rng_skip G 3 (e1, d1)) as [e2 d2] eqn:E2. cbn.
  unfold imu_rng. cbn. split; [|split; [|split; [|repeat split]]].
  - rewrite <- E2, <- E. rewrite <- skip_add. reflexivity.
  - reflexivity.
  - rewrite <- E, sample_skip. reflexivity.
Qed.

Lemma update_spec (i : Imu T G) dt f w : leb dt zero = false ->
  let s := imu_rng i in let i' := imu_step i (IUpdate dt f w) in
  imu_rng i' = rng_skip G 12 s /\
  im_gbias i' = vadd (im_gbias i) (vscaler (scaled (sqrtT (div (im_gac i) dt)) (sample G 4 s 0)) dt) /\
  im_abias i' = vadd (im_abias i) (vscaler (scaled (sqrtT (div (im_aac i) dt)) (sample G 5 s 3)) dt) /\
  im_gyro i' = vadd (vadd (qrot (im_inv i) w) (im_gbias i')) (scaled (sqrtT (im_gvar i)) (sample G 6 s 6)) /\
  im_accel i' = vadd (vadd (qrot (im_inv i) f) (im_abias i')) (scaled (sqrtT (im_avar i)) (sample G 7 s 9)) /\
  im_gvar i' = im_gvar i /\ im_avar i' = im_avar i /\ im_gac i' = im_gac i /\ im_aac i' = im_aac i /\
  im_ori i' = im_ori i /\ im_inv i' = im_inv i.
Proof.
  intros H. cbv zeta. cbn [imu_step]. unfold imu_update. rewrite H. unfold process_bias.
  set (s := imu_rng i). change (im_eng i) with (fst s). change (im_dist i) with (snd s). rewrite draw3_spec. cbv zeta.
  destruct (rng_skip G 3 s) as [e1 d1] eqn:E1.
  pose proof (draw3_spec 5 (sqrtT (div (im_aac i) dt)) (e1, d1)) as D. cbn [fst snd] in D. rewrite D. clear D. cbv zeta.
  destruct (rng_skip G 3 (e1, d1)) as [e2 d2] eqn:E2.
  unfold process_measurement. cbn [im_eng im_dist im_gvar im_avar im_inv im_gac im_aac im_ori im_gbias im_abias im_gyro im_accel].
  pose proof (draw3_spec 6 (sqrtT (im_gvar i)) (e2, d2)) as D. cbn [fst snd] in D. rewrite D. clear D. cbv zeta.
  destruct (rng_skip G 3 (e2, d2)) as [e3 d3] eqn:E3.
  pose proof (draw3_spec 7 (sqrtT (im_avar i)) (e3, d3)) as D. cbn [fst snd] in D. rewrite D. clear D. cbv zeta.
  destruct (rng_skip G 3 (e3, d3)) as [e4 d4] eqn:E4.
  cbn [im_eng im_dist im_gvar im_avar im_inv im_gac im_aac im_ori im_gbias im_abias im_gyro im_accel].
  assert (F2 : (e2, d2) = rng_skip G 6 s) by (rewrite <- E2, <- E1, <- skip_add; reflexivity).
  assert (F3 : (e3, d3) = rng_skip G 9 s) by (rewrite <- E3, F2, <- skip_add; reflexivity).
  unfold imu_rng at 1. cbn [im_eng im_dist].
  split; [rewrite <- E4, F3, <- skip_add; reflexivity|].
  split; [reflexivity|]. split; [rewrite <- E1, sample_skip; reflexivity|].
  split; [rewrite F2, sample_skip; reflexivity|]. split; [rewrite F3, sample_skip; reflexivity|].
  repeat split.
Qed.

Lemma update_nothing (i : Imu T G) dt f w : leb dt zero = true -> imu_step i (IUpdate dt f w) = i.
Proof. intros H. cbn [imu_step]. unfold imu_update. rewrite H. reflexivity. Qed.

(** Settings after a history. *)
Lemma settings p ops : let i : Imu T G := imu_after p ops in
  im_ori i = mount_of p ops /\ im_inv i = qinv (mount_of p ops) /\
  (im_gac i, im_aac i) = corr_of p ops /\ imu_get_variances i = vars_of p ops.
Proof.
  cbv zeta. unfold imu_after, mount_of, corr_of, vars_of, imu_get_variances.
  assert (H : let i : Imu T G := imu_new p in im_ori i = imp_ori p /\ im_inv i = qinv (imp_ori p) /\ (im_gac i, im_aac i) = (imp_gac p, imp_aac p) /\
              (im_gvar i, im_avar i) = (imp_gvar p, imp_avar p)).
  { cbv zeta. destruct (imu_new_spec p) as (_ & _ & _ & A & B & C & D & E & F & _).
    rewrite A, B, C, D, E, F. repeat split. }
  cbv zeta in H. revert H.
  generalize (imp_ori p) (imp_gac p, imp_aac p) (imp_gvar p, imp_avar p) (imu_new p : Imu T G).
  induction ops as [|op ops IH]; intros q c v i H; [exact H|].
  cbn [imu_run fold_left] in *. apply (IH _ _ _ (imu_step i op)). destruct H as (A & B & C & D).
  destruct op as [dt f w| | | | | | ]; cbn [imu_step]; try (repeat split; assumption).
  - destruct (leb dt zero) eqn:L.
    + unfold imu_update. rewrite L. repeat split; assumption.
    + destruct (update_spec i dt f w L) as (_ & _ & _ & _ & _ & V1 & V2 & C1 & C2 & O1 & O2). cbn [imu_step] in *.
      rewrite V1, V2, C1, C2, O1, O2. repeat split; assumption.
Qed.

(** ** C56 *)
Lemma paired_skip : paired G -> forall k e, snd (rng_skip G (2 * k) (e, g_dist0 G)) = g_dist0 G.
Proof.
  intros H k; induction k as [|k IH]; intros e; [reflexivity|].
  replace (2 * S k) with (2 + 2 * k) by lia. rewrite skip_add.
  specialize (H e). destruct (rng_skip G 2 (e, g_dist0 G)) as [e' d']. cbn in H. subst d'. apply IH.
Qed.
Lemma paired_dist (p : ImuParams T) (ops : list (ImuOp T)) : paired G -> im_dist (imu_after p ops : Imu T G) = g_dist0 G.
Proof.
  intros H. unfold imu_after, imu_run.
  assert (S : im_dist (imu_new p : Imu T G) = g_dist0 G).
  { destruct (imu_new_spec p) as (R & _). apply (f_equal snd) in R. cbn [imu_rng snd] in R. unfold imu_rng in R. cbn in R.
    rewrite R. apply (paired_skip H 3). }
  revert S. generalize (imu_new p : Imu T G). induction ops as [|op ops IH]; intros i S; [exact S|].
  apply IH. destruct op as [dt f w| | | | | | ]; try exact S.
  destruct (leb dt zero) eqn:L.
  - rewrite update_nothing by exact L. exact S.
  - destruct (update_spec i dt f w L) as (R & _). apply (f_equal snd) in R. unfold imu_rng in R. cbn [snd] in R.
    rewrite R, S. apply (paired_skip H 6).
Qed.
Lemma reseed_reproduces (p1 p2 : ImuParams T) (h1 h2 : list (ImuOp T)) seed ops : paired G ->
  mount_of p1 h1 = mount_of p2 h2 -> corr_of p1 h1 = corr_of p2 h2 -> vars_of p1 h1 = vars_of p2 h2 ->
  imu_run (imu_after p1 h1 : Imu T G) (ISeed seed :: IReset :: ops) = imu_run (imu_after p2 h2 : Imu T G) (ISeed seed :: IReset :: ops).
Proof.
  intros H Hm Hc Hv. unfold imu_run. cbn [fold_left]. f_equal.
  pose proof (settings p1 h1) as S1. pose proof (settings p2 h2) as S2. cbv zeta in S1, S2.
  pose proof (paired_dist p1 h1 H) as D1. pose proof (paired_dist p2 h2 H) as D2.
  destruct S1 as (A1 & B1 & C1 & V1), S2 as (A2 & B2 & C2 & V2).
  rewrite Hm in A1, B1. rewrite Hc in C1. rewrite Hv in V1. rewrite <- A2 in A1. rewrite <- B2 in B1. rewrite <- C2 in C1. rewrite <- V2 in V1.
  unfold imu_get_variances in V1. injection C1 as E1 E2. injection V1 as E3 E4.
  cbn [imu_step]. unfold imu_set_seed, imu_reset. cbn. rewrite D1, D2, A1, B1, E1, E2, E3, E4. reflexivity.
Qed.
End Draws.

(** ** Over the reals *)
Local Open Scope R_scope.

Lemma leb_pos dt : 0 < dt -> leb dt zero = false. Proof. intros H. unR. apply Rleb_false. exact H. Qed.

Lemma qinv_rot (q : Quat R) v a : unitq q -> pr a (qrot (qinv q) v) = to_body q v a.
Proof.
  intros H. rewrite qrot_R. assert (E : qsqn q = 1) by (unfold qsqn; unR; unfold unitq in H; lra).
  unfold qinv. cbv zeta. rewrite E. unR. assert (Rltb 0 1 = true) as -> by (apply Rltb_true; lra).
  unfold qconj, qmap. cbn [qw qx qy qz]. unfold to_world, to_body, rot_entry. unR. destruct a; cbn [qw qx qy qz]; field.
Qed.

Lemma walk_step c dt : 0 < dt -> sqrt (c / dt) * dt = sqrt (c * dt).
Proof.
  intros H. destruct (Rle_lt_dec 0 c) as [C|C].
  - apply Rsqr_inj.
    + apply Rmult_le_pos; [apply sqrt_pos|lra].
    + apply sqrt_pos.
    + unfold Rsqr. rewrite (sqrt_sqrt (c * dt)) by nra.
      replace (sqrt (c / dt) * dt * (sqrt (c / dt) * dt)) with (sqrt (c / dt) * sqrt (c / dt) * dt * dt) by ring.
      rewrite sqrt_sqrt; [field; lra|]. apply Rmult_le_pos; [exact C|apply Rlt_le, Rinv_0_lt_compat, H].
  - rewrite !sqrt_neg_0; [ring| |].
    + nra.
    + assert (0 < / dt) by (apply Rinv_0_lt_compat, H). unfold Rdiv. nra.
Qed.

Lemma pr_scaled c v a : pr a (scaled c v) = c * pr a v.
Proof. destruct a; reflexivity. Qed.

Lemma reading_R {G : Gen R} p ops (dt : R) f w : 0 < dt -> unitq (mount_of p ops) ->
  let i : Imu R G := imu_after p ops in let i' := imu_step i (IUpdate dt f w) in
  let m := imu_get_measurement i' in let b := imu_get_bias i' in let v := imu_get_variances i in
  forall a,
  pr a (fst m) = to_body (mount_of p ops) w a + pr a (fst b) + sqrt (fst v) * pr a (sample G 6 (imu_rng i) 6) /\
  pr a (snd m) = to_body (mount_of p ops) f a + pr a (snd b) + sqrt (snd v) * pr a (sample G 7 (imu_rng i) 9).
Proof.
  intros H Hu. cbv zeta. intros a. set (i := imu_after p ops : Imu R G).
  destruct (update_spec i dt f w (leb_pos dt H)) as (_ & _ & _ & A & B & _).
  pose proof (settings (G := G) p ops) as S. cbv zeta in S. destruct S as (_ & S & _). fold i in S.
  unfold imu_get_measurement, imu_get_bias, imu_get_variances. cbn [fst snd]. rewrite A, B, S.
  rewrite !PDynR.pr_vadd, !qinv_rot, !pr_scaled by exact Hu. split; reflexivity.
Qed.

Lemma bias_walk {G : Gen R} (l : list (R * (V3 R * V3 R))) : forall p ops, Forall (fun x => 0 < fst x) l ->
  let i : Imu R G := imu_after p ops in let i' := imu_run i (updates l) in
  let c := corr_of p ops in
  imu_rng i' = rng_skip G (12 * length l) (imu_rng i) /\
  forall a,
  pr a (fst (imu_get_bias i')) = pr a (fst (imu_get_bias i)) + walk G 4 0 (fst c) l (imu_rng i) a /\
  pr a (snd (imu_get_bias i')) = pr a (snd (imu_get_bias i)) + walk G 5 3 (snd c) l (imu_rng i) a.
Proof.
  induction l as [|x l IH]; intros p ops F.
  - cbn. split; [reflexivity|]. intros a. split; ring.
  - cbv zeta. apply Forall_cons_iff in F as [Hx F].
    destruct x as [dt [f w]]. cbn [fst] in Hx.
    specialize (IH p (ops ++ [IUpdate dt f w]) F). cbv zeta in IH.
    assert (E : imu_after p (ops ++ [IUpdate dt f w]) = imu_step (imu_after p ops : Imu R G) (IUpdate dt f w))
      by (unfold imu_after, imu_run; rewrite fold_left_app; reflexivity).
    assert (C : corr_of p (ops ++ [IUpdate dt f w]) = corr_of p ops) by (unfold corr_of; rewrite fold_left_app; reflexivity).
    rewrite E, C in IH. destruct (update_spec (imu_after p ops : Imu R G) dt f w (leb_pos dt Hx)) as (Hr & A & B & _).
    change (imu_run (imu_after p ops) (updates ((dt, (f, w)) :: l))) with (imu_run (imu_step (imu_after p ops : Imu R G) (IUpdate dt f w)) (updates l)).
    pose proof (settings (G := G) p ops) as S. cbv zeta in S. destruct S as (_ & _ & S & _).
    destruct IH as (IR & IA). rewrite Hr in IR. split.
    + rewrite IR, <- skip_add. f_equal. cbn [length]. lia.
    + intros a. destruct (IA a) as [I1 I2]. rewrite Hr in I1, I2. rewrite I1, I2.
      unfold imu_get_bias at 1 3. cbn [fst snd]. rewrite A, B. rewrite <- S. cbn [fst snd walk].
      rewrite !PDynR.pr_vadd, !pr_vscaler, !pr_scaled. rewrite <- !(walk_step _ dt Hx). unR.
      unfold imu_get_bias. cbn [fst snd]. split; ring.
Qed.

Lemma initial_bias {G : Gen R} (p : ImuParams R) :
  let s := (g_seed G (imp_seed p), g_dist0 G) in let b := imu_get_bias (imu_new p : Imu R G) in
  imu_rng (imu_new p : Imu R G) = rng_skip G 6 s /\
  forall a, pr a (fst b) = sqrt (imp_gvar p) * pr a (sample G 2 s 0) /\
            pr a (snd b) = sqrt (imp_avar p) * pr a (sample G 3 s 3).
Proof.
  cbv zeta. destruct (imu_new_spec (G := G) p) as (A & B & C & _). split; [exact A|].
  intros a. unfold imu_get_bias. cbn [fst snd]. rewrite B, C, !pr_scaled. split; reflexivity.
Qed.

(** ** C39 *)
Lemma ideal_inv {G : Gen R} (p : ImuParams R) ops : ideal p -> Forall ideal_op ops ->
  let i : Imu R G := imu_after p ops in
  im_gvar i = 0 /\ im_avar i = 0 /\ im_gac i = 0 /\ im_aac i = 0 /\ im_gbias i = mkV 0 0 0 /\ im_abias i = mkV 0 0 0.
Proof.
  intros (P1 & P2 & P3 & P4) F. cbv zeta. unfold imu_after, imu_run.
  assert (Z : forall (v : V3 R) d, vscaler (scaled (sqrtT (0 / d)) v) d = mkV 0 0 0).
  { intros v d. apply V3_ax. intros a. rewrite pr_vscaler, pr_scaled. change (sqrtT (0 / d)) with (sqrt (0 / d)).
    unfold Rdiv. rewrite Rmult_0_l, sqrt_0. destruct a; cbn; ring. }
  assert (Z2 : forall (v : V3 R), scaled (sqrtT 0) v = mkV 0 0 0).
  { intros v. apply V3_ax. intros a. rewrite pr_scaled. change (sqrtT 0) with (sqrt 0). rewrite sqrt_0. destruct a; cbn; ring. }
  assert (Z3 : vadd (mkV 0 0 0) (mkV 0 0 0) = mkV 0 0 0) by (apply V3_ax; intros []; cbn; ring).
  assert (S : let i : Imu R G := imu_new p in im_gvar i = 0 /\ im_avar i = 0 /\ im_gac i = 0 /\ im_aac i = 0 /\ im_gbias i = mkV 0 0 0 /\ im_abias i = mkV 0 0 0).
  { cbv zeta. destruct (imu_new_spec (G := G) p) as (_ & B1 & B2 & A1 & A2 & A3 & A4 & _).
    rewrite B1, B2, A1, A2, A3, A4, P1, P2, P3, P4, !Z2. repeat (split; [reflexivity|]). reflexivity. }
  cbv zeta in S. revert S. generalize (imu_new p : Imu R G). induction ops as [|op ops IH]; intros i S; [exact S|].
  apply Forall_cons_iff in F as [Fo F]. apply (IH F). destruct S as (A1 & A2 & A3 & A4 & B1 & B2).
  destruct op as [dt f w| |sd|g a|g a|gb ab g a|q]; cbn [ideal_op] in Fo.
  - destruct (leb dt zero) eqn:L.
    + rewrite update_nothing by exact L. repeat (split; [assumption|]). assumption.
    + destruct (update_spec i dt f w L) as (_ & U1 & U2 & _ & _ & V1 & V2 & C1 & C2 & _).
      rewrite U1, U2, V1, V2, C1, C2, A1, A2, A3, A4, B1, B2.
      change (div 0 dt) with (0 / dt). rewrite !Z, Z3. repeat (split; [reflexivity|]). reflexivity.
  - cbn. repeat (split; [assumption|]). split; reflexivity.
  - cbn. repeat (split; [assumption|]). assumption.
  - destruct Fo as [-> ->]. cbn. repeat (split; [first [reflexivity|assumption]|]). assumption.
  - destruct Fo as [-> ->]. cbn. repeat (split; [first [reflexivity|assumption]|]). assumption.
  - destruct Fo as (-> & -> & -> & ->). cbn. repeat (split; [first [reflexivity|assumption]|]). reflexivity.
  - cbn. repeat (split; [assumption|]). assumption.
Qed.

Lemma ideal_reading {G : Gen R} (p : ImuParams R) ops dt f w :
  ideal p -> Forall ideal_op ops -> unitq (mount_of p ops) -> 0 < dt ->
  let i : Imu R G := imu_after p ops in let i' := imu_step i (IUpdate dt f w) in
  imu_get_bias i = (mkV 0 0 0, mkV 0 0 0) /\ imu_get_bias i' = (mkV 0 0 0, mkV 0 0 0) /\
  forall a, pr a (fst (imu_get_measurement i')) = to_body (mount_of p ops) w a /\
            pr a (snd (imu_get_measurement i')) = to_body (mount_of p ops) f a.
Proof.
  intros Hp Ho Hu Hdt. cbv zeta.
  pose proof (ideal_inv (G := G) p ops Hp Ho) as (V1 & V2 & _ & _ & B1 & B2).
  assert (Ho' : Forall ideal_op (ops ++ [IUpdate dt f w])).
  { apply Forall_app. split; [exact Ho|]. constructor; [exact I|constructor]. }
  pose proof (ideal_inv (G := G) p _ Hp Ho') as (_ & _ & _ & _ & B1' & B2').
  assert (E : imu_after p (ops ++ [IUpdate dt f w]) = imu_step (imu_after p ops : Imu R G) (IUpdate dt f w))
    by (unfold imu_after, imu_run; rewrite fold_left_app; reflexivity).
  rewrite E in B1', B2'. unfold imu_get_bias. rewrite B1, B2, B1', B2'. split; [reflexivity|]. split; [reflexivity|].
  intros a. pose proof (reading_R (G := G) p ops dt f w Hdt Hu a) as [M1 M2]. rewrite M1, M2.
  unfold imu_get_bias, imu_get_variances. cbn [fst snd]. rewrite B1', B2', V1, V2, sqrt_0.
  split; destruct a; cbn; ring.
Qed.

(** ** C42 *)
Lemma filt_R al (x y : V3 R) a : pr a (vadd (vscale al x) (vscale (1 - al) y)) = al * pr a x + (1 - al) * pr a y.
Proof. destruct a; reflexivity. Qed.

Lemma average_snoc al l x y : average al (l ++ [x]) y = al * x + (1 - al) * average al l y.
Proof. revert y; induction l as [|z l IH]; intros y; [reflexivity|]. apply IH. Qed.
Lemma average_weighted al l : average al l 0 = weighted al (rev l).
Proof.
  induction l as [|x l IH] using rev_ind; [reflexivity|].
  rewrite average_snoc, rev_app_distr. cbn [rev app weighted]. rewrite IH. reflexivity.
Qed.
Lemma average_range al lo hi l : 0 <= al <= 1 -> Forall (fun x => lo <= x <= hi) l -> forall y, lo <= y <= hi -> lo <= average al l y <= hi.
Proof.
  intros Ha F. induction F as [|x l Hx F IH]; intros y Hy; [exact Hy|]. cbn [average]. apply IH. nra.
Qed.

Lemma odom_alpha op o : od_alpha (odom_step o op) = od_alpha o. Proof. destruct op; reflexivity. Qed.
Lemma odom_filtered l : forall (o : Odom R) a,
  let o' := odom_run o (odom_updates l) in
  pr a (od_gyrof o') = average (od_alpha o) (map (fun x => pr a (fst x)) l) (pr a (od_gyrof o)) /\
  pr a (od_accelf o') = average (od_alpha o) (map (fun x => pr a (fst (snd x))) l) (pr a (od_accelf o)).
Proof.
  induction l as [|x l IH]; intros o a; [split; reflexivity|].
  cbv zeta. change (odom_run o (odom_updates (x :: l))) with (odom_run (odom_step o (OUpdate (fst x) (fst (snd x)) (snd (snd x)))) (odom_updates l)).
  destruct (IH (odom_step o (OUpdate (fst x) (fst (snd x)) (snd (snd x)))) a) as [-> ->]. rewrite odom_alpha.
  cbn [map average]. split; f_equal.
  - apply (filt_R (od_alpha o) (fst x) (od_gyrof o) a).
  - apply (filt_R (od_alpha o) (fst (snd x)) (od_accelf o) a).
Qed.

Lemma quat_integrate_step (q : Quat R) (w : V3 R) dt : nonzeroq q -> attitude_step q w dt (quat_integrate q w dt).
Proof.
  intros H. unfold quat_integrate. split; [apply quat_step_unit, H|].
  set (r := qadd q (qmap (fun x => mul x dt) (quat_derivative q w))).
  assert (P : 0 < qsqn r).
  { unfold r. rewrite qsum_sq. unfold nonzeroq in H. apply Rmult_lt_0_compat; [exact H|]. unfold dot3. nra. }
  exists (sqrt (qsqn r)). assert (S : 0 < sqrt (qsqn r)) by (apply sqrt_lt_R0, P). split; [exact S|].
  unfold qnormalized. cbv zeta. fold r. change (zero : R) with 0. change (ltb 0 (qsqn r)) with (Rltb 0 (qsqn r)).
  assert (Rltb 0 (qsqn r) = true) as -> by (apply Rltb_true; exact P).
  unfold qmap at 1 2 3 4. cbn [qw qx qy qz]. change (sqrtT (qsqn r)) with (sqrt (qsqn r)). set (k := sqrt (qsqn r)) in *.
  change (div (qw r) k) with (qw r / k). change (div (qx r) k) with (qx r / k). change (div (qy r) k) with (qy r / k). change (div (qz r) k) with (qz r / k).
  replace (k * (qw r / k)) with (qw r) by (field; lra). replace (k * (qx r / k)) with (qx r) by (field; lra).
  replace (k * (qy r / k)) with (qy r) by (field; lra). replace (k * (qz r / k)) with (qz r) by (field; lra).
  unfold r, quat_derivative. unV. repeat split; field.
Qed.

Lemma odom_reaches p ops : nonzeroq (odp_ori p) -> Forall proper_init ops ->
  let o := odom_run (odom_new p) ops in nonzeroq (od_ori o) /\ nonzeroq (od_init o).
Proof.
  intros Hp F. cbv zeta. unfold odom_run.
  assert (S : nonzeroq (od_ori (odom_new p)) /\ nonzeroq (od_init (odom_new p))) by (split; exact Hp).
  revert S. generalize (odom_new p). induction ops as [|op ops IH]; intros o S; [exact S|].
  apply Forall_cons_iff in F as [Fo F]. apply (IH F). destruct S as [S1 S2]. destruct op; cbn in *.
  - split; [apply unitq_nonzero, quat_step_unit, S1|exact S2].
  - split; assumption.
  - split; assumption.
Qed.

Lemma odom_law p ops gyro accel dt : nonzeroq (odp_ori p) -> Forall proper_init ops -> unitq (od_ori (odom_run (odom_new p) ops)) ->
  let o := odom_run (odom_new p) ops in let o' := odom_step o (OUpdate gyro accel dt) in
  (forall a,
   pr a (odom_get_linear_acceleration o') = to_body (odom_get_orientation o) (od_accelf o') a /\
   pr a (odom_get_linear_velocity o') = pr a (odom_get_linear_velocity o) + dt * pr a (odom_get_linear_acceleration o') /\
   pr a (odom_get_position o') = pr a (odom_get_position o) + dt * pr a (odom_get_linear_velocity o')) /\
  attitude_step (odom_get_orientation o) (odom_get_angular_velocity o') dt (odom_get_orientation o').
Proof.
  intros Hp F Hu. cbv zeta. destruct (odom_reaches p ops Hp F) as [N _]. set (o := odom_run (odom_new p) ops) in *. split.
  - intros a. split; [|split].
    + unfold odom_get_linear_acceleration. cbn [odom_step]. unfold odom_update, odom_integrate. cbv zeta. cbn [od_linacc od_accelf odom_filter od_ori].
      apply qinv_rot, Hu.
    + unfold odom_get_linear_velocity, odom_get_linear_acceleration. cbn [odom_step]. unfold odom_update, odom_integrate. cbv zeta. cbn [od_vel od_linacc].
      rewrite PDynR.pr_vadd, pr_vscaler. unR. cbn [odom_filter od_vel]. ring.
    + unfold odom_get_linear_velocity, odom_get_position. cbn [odom_step]. unfold odom_update, odom_integrate. cbv zeta. cbn [od_vel od_pos].
      rewrite PDynR.pr_vadd, pr_vscaler. unR. cbn [odom_filter od_pos]. ring.
  - apply quat_integrate_step, N.
Qed.

Lemma odom_unit p ops gyro accel dt : nonzeroq (odp_ori p) -> Forall proper_init ops ->
  unitq (odom_get_orientation (odom_step (odom_run (odom_new p) ops) (OUpdate gyro accel dt))).
Proof. intros Hp F. destruct (odom_reaches p ops Hp F) as [N _]. apply quat_step_unit, N. Qed.
