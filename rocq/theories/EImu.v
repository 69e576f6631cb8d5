(** Examples and counterexamples for the sensor theorems. *)

From Coq Require Import ZArith List Bool Lia Reals Lra Psatz.
From Verif Require Import Scalar LinAlg MUtils MImu SpecDyn SpecRun SpecImu PBase PDyn PDynR PPhys PVeh EBase PPid PPidR PImu.
Import ListNotations.
Local Open Scope R_scope.

Definition qz90 : Quat R := mkQ (sqrt (1/2)) 0 0 (sqrt (1/2)).
Lemma qz90_unit : unitq qz90.
Proof.
  unfold unitq, qz90. cbn [qw qx qy qz].
  assert (E : sqrt (1/2) * sqrt (1/2) = 1/2) by (apply sqrt_sqrt; lra).
  replace (sqrt (1/2) ^ 2) with (sqrt (1/2) * sqrt (1/2)) by ring. rewrite E. field.
Qed.
Definition imp_ex : ImuParams R := mkIMP 0 0 0 0 qz90 7.
Definition ops_ex : list (ImuOp R) := [IUpdate 1 (mkV 1 2 3) (mkV 4 5 6); IReset; ISeed 3; IUpdate (-1) (mkV 1 1 1) (mkV 1 1 1)].
Lemma ideal_ex : ideal imp_ex /\ Forall ideal_op ops_ex /\ unitq (mount_of imp_ex ops_ex) /\
  to_body (mount_of imp_ex ops_ex) (mkV 1 0 0) AY = -1.
Proof.
  split; [|split; [|split]].
  - unfold ideal. cbn. split; [|split; [|split]]; reflexivity.
  - unfold ops_ex. repeat (apply Forall_cons; [exact I|]). apply Forall_nil.
  - exact qz90_unit.
  - unfold mount_of, ops_ex. cbn [fold_left imp_ori imp_ex]. unfold to_body, rot_entry, qz90. cbn [qw qx qy qz vx vy vz].
    assert (E : sqrt (1/2) * sqrt (1/2) = 1/2) by (apply sqrt_sqrt; lra). nra.
Qed.
(** A noisy unit and two updates. *)
Definition imp_noisy : ImuParams R := mkIMP 1 4 9 1 qz90 7.
Definition upd_ex : list (R * (V3 R * V3 R)) := [(1, (mkV 1 2 3, mkV 4 5 6)); (4, (mkV 1 2 3, mkV 4 5 6))].
Lemma upd_pos : Forall (fun x => 0 < fst x) upd_ex.
Proof. unfold upd_ex. repeat (apply Forall_cons; [cbn; lra|]). apply Forall_nil. Qed.
(** With a generator that always draws 1 the gyroscope bias goes from 1 to 10. *)
Lemma walk_ex : walk gen1 4 0 9 upd_ex (imu_rng (imu_new imp_noisy : Imu R gen1)) AX = 9.
Proof.
  assert (S : forall place s k, pr AX (sample gen1 place s k) = 1) by reflexivity.
  unfold upd_ex. cbn [walk fst]. rewrite !S.
  replace (9 * 1) with (3 * 3) by ring. replace (9 * 4) with (6 * 6) by ring. rewrite !sqrt_square by lra. ring.
Qed.

(** A generator that keeps the second value of each pair. *)
Definition gen2 : Gen R := {|
  g_eng := Z; g_dist := option R; g_dist0 := None; g_seed := fun s => s;
  g_draw := fun e d => match d with Some x => (x, (e, None)) | None => (IZR e, ((e + 1)%Z, Some (IZR (- e)))) end;
  g_perm := fun _ => P012 |}.
Lemma gen2_paired : paired gen2. Proof. intros e. reflexivity. Qed.

(** The dangling reference. *)
Lemma dangling : forall {T} {O : Ops T} {G : Gen T} (i : Imu T G), read_ref (imu_get_measurement_ref i) = None.
Proof. reflexivity. Qed.
Lemma dangling_ex : exists i : Imu R gen1, read_ref (imu_get_measurement_ref i) <> Some (imu_get_measurement i).
Proof. exists (imu_new imp_ex). rewrite dangling. discriminate. Qed.
Lemma other_getters : forall {T} {O : Ops T} {G : Gen T} (i : Imu T G),
  read_ref (imu_get_gyro_ref i) = Some (fst (imu_get_measurement i)) /\
  read_ref (imu_get_accel_ref i) = Some (snd (imu_get_measurement i)).
Proof. split; reflexivity. Qed.

(** Odometry started from parameters and fed with readings. *)
Lemma odom_gyro p l a :
  let o := odom_run (odom_new p) (odom_updates l) in l <> [] ->
  pr a (odom_get_angular_velocity o) = weighted (odp_alpha p) (rev (map (fun x => pr a (fst x)) l)).
Proof.
  cbv zeta. intros H. destruct (odom_filtered l (odom_new p) a) as [A _]. cbv zeta in A.
  assert (E : odom_get_angular_velocity (odom_run (odom_new p) (odom_updates l)) = od_gyrof (odom_run (odom_new p) (odom_updates l))).
  { destruct (exists_last H) as (l' & x & ->). unfold odom_updates. rewrite map_app. unfold odom_run. rewrite fold_left_app. reflexivity. }
  rewrite E, A. change (od_alpha (odom_new p)) with (odp_alpha p). rewrite <- average_weighted. f_equal. destruct a; reflexivity.
Qed.
Lemma odom_gyro_range p l a lo hi : 0 <= odp_alpha p <= 1 ->
  Forall (fun x => lo <= pr a (fst x) <= hi) l -> lo <= 0 <= hi -> l <> [] ->
  lo <= pr a (odom_get_angular_velocity (odom_run (odom_new p) (odom_updates l))) <= hi.
Proof.
  intros Ha F Hz Hl. pose proof (odom_gyro p l a Hl) as E. cbv zeta in E. rewrite E. rewrite <- average_weighted.
  apply average_range; [exact Ha| |exact Hz]. apply Forall_map. exact F.
Qed.
(** The reported acceleration is the averaged reading turned by the inverse
    of the previous orientation. *)
Lemma odom_accel p l g ac dt : nonzeroq (odp_ori p) ->
  let l' := l ++ [(g, (ac, dt))] in
  let o := odom_run (odom_new p) (odom_updates l) in let o' := odom_run (odom_new p) (odom_updates l') in
  unitq (odom_get_orientation o) ->
  forall a, pr a (odom_get_linear_acceleration o') =
    to_body (odom_get_orientation o) (vec_of (fun b => weighted (odp_alpha p) (rev (map (fun x => pr b (fst (snd x))) l')))) a.
Proof.
  intros Hp. cbv zeta. intros Hu a.
  assert (F : Forall proper_init (odom_updates l)).
  { unfold odom_updates. apply Forall_map, Forall_forall. intros x _. exact I. }
  pose proof (odom_law p (odom_updates l) g ac dt Hp F Hu) as [L _]. cbv zeta in L. destruct (L a) as [A _].
  assert (E : odom_run (odom_new p) (odom_updates (l ++ [(g, (ac, dt))])) = odom_step (odom_run (odom_new p) (odom_updates l)) (OUpdate g ac dt)).
  { unfold odom_updates. rewrite map_app. unfold odom_run. rewrite fold_left_app. reflexivity. }
  rewrite E, A, <- E. f_equal. apply V3_ax. intros b.
  destruct (odom_filtered (l ++ [(g, (ac, dt))]) (odom_new p) b) as [_ B]. cbv zeta in B. rewrite B, pr_vec_of.
  change (od_alpha (odom_new p)) with (odp_alpha p). rewrite <- average_weighted. f_equal. destruct b; reflexivity.
Qed.

Definition odp_ex : OdomParams R := mkODP (1/2) qz90.
Definition rd_ex : list (V3 R * (V3 R * R)) := [(mkV 1 0 0, (mkV 0 0 2, 1/10)); (mkV 3 0 0, (mkV 0 0 4, 1/10))].
Lemma odom_ex : nonzeroq (odp_ori odp_ex) /\ 0 <= odp_alpha odp_ex <= 1 /\ rd_ex <> [] /\
  weighted (odp_alpha odp_ex) (rev (map (fun x => vx (fst x)) rd_ex)) = 7/4.
Proof.
  split; [apply unitq_nonzero, qz90_unit|]. split; [cbn; lra|]. split; [discriminate|]. cbn. lra.
Qed.
