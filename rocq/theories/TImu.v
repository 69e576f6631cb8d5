(** Property theorems: the IMU and the inertial odometry. *)

From Coq Require Import ZArith List Bool Reals Lra.
From Verif Require Import Scalar LinAlg MUtils MImu SpecDyn SpecImu PBase EBase PImu EImu.
Import ListNotations.
Local Open Scope R_scope.

(** ** C39 *)
Theorem C39_noise_free :
  forall {G : Gen R} (p : ImuParams R) ops dt f w,
  ideal p -> Forall ideal_op ops -> unitq (mount_of p ops) -> 0 < dt ->
  let i : Imu R G := imu_after p ops in let i' := imu_step i (IUpdate dt f w) in
  imu_get_bias i = (mkV 0 0 0, mkV 0 0 0) /\ imu_get_bias i' = (mkV 0 0 0, mkV 0 0 0) /\
  forall a, pr a (fst (imu_get_measurement i')) = to_body (mount_of p ops) w a /\
            pr a (snd (imu_get_measurement i')) = to_body (mount_of p ops) f a.
Proof. exact @ideal_reading. Qed.
Print Assumptions C39_noise_free.

Example C39_case : ideal imp_ex /\ Forall ideal_op ops_ex /\ unitq (mount_of imp_ex ops_ex) /\
  to_body (mount_of imp_ex ops_ex) (mkV 1 0 0) AY = -1.
Proof. exact ideal_ex. Qed.

(** ** C40 *)
Theorem C40_bias_walk :
  forall {G : Gen R} (l : list (R * (V3 R * V3 R))) p ops, Forall (fun x => 0 < fst x) l ->
  let i : Imu R G := imu_after p ops in let i' := imu_run i (updates l) in
  let c := corr_of p ops in
  imu_rng i' = rng_skip G (12 * length l) (imu_rng i) /\
  forall a,
  pr a (fst (imu_get_bias i')) = pr a (fst (imu_get_bias i)) + walk G 4 0 (fst c) l (imu_rng i) a /\
  pr a (snd (imu_get_bias i')) = pr a (snd (imu_get_bias i)) + walk G 5 3 (snd c) l (imu_rng i) a.
Proof. exact @bias_walk. Qed.
Print Assumptions C40_bias_walk.

Theorem C40_reading :
  forall {G : Gen R} p ops (dt : R) f w, 0 < dt -> unitq (mount_of p ops) ->
  let i : Imu R G := imu_after p ops in let i' := imu_step i (IUpdate dt f w) in
  let m := imu_get_measurement i' in let b := imu_get_bias i' in let v := imu_get_variances i in
  forall a,
  pr a (fst m) = to_body (mount_of p ops) w a + pr a (fst b) + sqrt (fst v) * pr a (sample G 6 (imu_rng i) 6) /\
  pr a (snd m) = to_body (mount_of p ops) f a + pr a (snd b) + sqrt (snd v) * pr a (sample G 7 (imu_rng i) 9).
Proof. exact @reading_R. Qed.
Print Assumptions C40_reading.

Theorem C40_initial_bias :
  forall {G : Gen R} (p : ImuParams R),
  let s := (g_seed G (imp_seed p), g_dist0 G) in let b := imu_get_bias (imu_new p : Imu R G) in
  imu_rng (imu_new p : Imu R G) = rng_skip G 6 s /\
  forall a, pr a (fst b) = sqrt (imp_gvar p) * pr a (sample G 2 s 0) /\
            pr a (snd b) = sqrt (imp_avar p) * pr a (sample G 3 s 3).
Proof. exact @initial_bias. Qed.
Print Assumptions C40_initial_bias.

Theorem C40_settings :
  forall {T} {O : Ops T} {G : Gen T} p ops, let i : Imu T G := imu_after p ops in
  im_ori i = mount_of p ops /\ im_inv i = qinv (mount_of p ops) /\
  (im_gac i, im_aac i) = corr_of p ops /\ imu_get_variances i = vars_of p ops.
Proof. exact @settings. Qed.
Print Assumptions C40_settings.

Theorem C40_no_time_no_change :
  forall {T} {O : Ops T} {G : Gen T} (i : Imu T G) dt f w, leb dt zero = true -> imu_step i (IUpdate dt f w) = i.
Proof. exact @update_nothing. Qed.
Print Assumptions C40_no_time_no_change.

Example C40_case : Forall (fun x => 0 < fst x) upd_ex /\
  walk gen1 4 0 9 upd_ex (imu_rng (imu_new imp_noisy : Imu R gen1)) AX = 9.
Proof. exact (conj upd_pos walk_ex). Qed.

(** ** C41: false; reading through the returned reference is undefined *)
Theorem C41_refuted :
  exists i : Imu R gen1, read_ref (imu_get_measurement_ref i) <> Some (imu_get_measurement i).
Proof. exact dangling_ex. Qed.
Print Assumptions C41_refuted.

Theorem C41_always_undefined :
  forall {T} {O : Ops T} {G : Gen T} (i : Imu T G), read_ref (imu_get_measurement_ref i) = None.
Proof. exact @dangling. Qed.
Print Assumptions C41_always_undefined.

Theorem C41_other_getters :
  forall {T} {O : Ops T} {G : Gen T} (i : Imu T G),
  read_ref (imu_get_gyro_ref i) = Some (fst (imu_get_measurement i)) /\
  read_ref (imu_get_accel_ref i) = Some (snd (imu_get_measurement i)).
Proof. exact @other_getters. Qed.
Print Assumptions C41_other_getters.

(** ** C42 *)
Theorem C42_unit_orientation :
  forall p ops gyro accel dt, nonzeroq (odp_ori p) -> Forall proper_init ops ->
  unitq (odom_get_orientation (odom_step (odom_run (odom_new p) ops) (OUpdate gyro accel dt))).
Proof. exact odom_unit. Qed.
Print Assumptions C42_unit_orientation.

Theorem C42_rates_average :
  forall p l a, let o := odom_run (odom_new p) (odom_updates l) in l <> [] ->
  pr a (odom_get_angular_velocity o) = weighted (odp_alpha p) (rev (map (fun x => pr a (fst x)) l)).
Proof. exact odom_gyro. Qed.
Print Assumptions C42_rates_average.

Theorem C42_rates_in_range :
  forall p l a lo hi, 0 <= odp_alpha p <= 1 ->
  Forall (fun x => lo <= pr a (fst x) <= hi) l -> lo <= 0 <= hi -> l <> [] ->
  lo <= pr a (odom_get_angular_velocity (odom_run (odom_new p) (odom_updates l))) <= hi.
Proof. exact odom_gyro_range. Qed.
Print Assumptions C42_rates_in_range.

Theorem C42_acceleration_average :
  forall p l g ac dt, nonzeroq (odp_ori p) ->
  let l' := l ++ [(g, (ac, dt))] in
  let o := odom_run (odom_new p) (odom_updates l) in let o' := odom_run (odom_new p) (odom_updates l') in
  unitq (odom_get_orientation o) ->
  forall a, pr a (odom_get_linear_acceleration o') =
    to_body (odom_get_orientation o) (vec_of (fun b => weighted (odp_alpha p) (rev (map (fun x => pr b (fst (snd x))) l')))) a.
Proof. exact odom_accel. Qed.
Print Assumptions C42_acceleration_average.

Theorem C42_integration :
  forall p ops gyro accel dt, nonzeroq (odp_ori p) -> Forall proper_init ops ->
  unitq (od_ori (odom_run (odom_new p) ops)) ->
  let o := odom_run (odom_new p) ops in let o' := odom_step o (OUpdate gyro accel dt) in
  (forall a,
   pr a (odom_get_linear_acceleration o') = to_body (odom_get_orientation o) (od_accelf o') a /\
   pr a (odom_get_linear_velocity o') = pr a (odom_get_linear_velocity o) + dt * pr a (odom_get_linear_acceleration o') /\
   pr a (odom_get_position o') = pr a (odom_get_position o) + dt * pr a (odom_get_linear_velocity o')) /\
  attitude_step (odom_get_orientation o) (odom_get_angular_velocity o') dt (odom_get_orientation o').
Proof. exact odom_law. Qed.
Print Assumptions C42_integration.

Example C42_case : nonzeroq (odp_ori odp_ex) /\ 0 <= odp_alpha odp_ex <= 1 /\ rd_ex <> [] /\
  weighted (odp_alpha odp_ex) (rev (map (fun x => vx (fst x)) rd_ex)) = 7/4.
Proof. exact odom_ex. Qed.

(** ** C56 *)
Theorem C56_reseed :
  forall {T} {O : Ops T} {G : Gen T} (p1 p2 : ImuParams T) (h1 h2 : list (ImuOp T)) seed ops, paired G ->
  mount_of p1 h1 = mount_of p2 h2 -> corr_of p1 h1 = corr_of p2 h2 -> vars_of p1 h1 = vars_of p2 h2 ->
  imu_run (imu_after p1 h1 : Imu T G) (ISeed seed :: IReset :: ops) =
  imu_run (imu_after p2 h2 : Imu T G) (ISeed seed :: IReset :: ops).
Proof. exact @reseed_reproduces. Qed.
Print Assumptions C56_reseed.

Example C56_case : paired gen2. Proof. exact gen2_paired. Qed.
