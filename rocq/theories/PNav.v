(** Proofs: what a perfect inertial odometry knows about the flight. *)

From Coq Require Import ZArith List Bool Lia Reals Lra.
From Verif Require Import Scalar LinAlg MUtils MModel MDynamics MPid MControl MImu MSim SpecDyn SpecRun SpecImu SpecSim SpecNav
  PBase PDyn PModel PDynR PPhys PVeh PDynMore PImu PSim PSimR PSimEnd.
Import ListNotations.
Local Open Scope R_scope.

(** ** One dynamics step *)
Lemma core_motion {G : Gen R} (d d' : Dyn R G) act dt ext noise :
  euler_core d act dt ext noise = Some d' ->
  mo_cfg (d_model d') = mo_cfg (d_model d) /\
  s_ori (d_state d') = quat_integrate (s_ori (d_state d)) (s_angvel (d_state d)) dt /\
  exists c, mo_cfg (d_model d) = Some c /\
  forall a, pr a (s_vel (d_state d')) = pr a (s_vel (d_state d)) + pr a (s_force (d_state d')) / p_mass (cf_params c) * dt /\
            pr a (s_pos (d_state d')) = pr a (s_pos (d_state d)) + pr a (s_vel (d_state d)) * dt /\
            pr a (s_linacc (d_state d')) = pr a (s_force (d_state d')) / p_mass (cf_params c).
Proof.
  intros E. apply euler_core_inv in E as [[c Hc] Hi].
  destruct (Hi c Hc) as (mo & des & macc & mvel & Hn & Hm & Hd & Ha & Hv & ->). cbv zeta. cbn [d_model d_state s_ori s_vel s_pos s_force].
  split; [apply noise_model_cfg in Hn; exact Hn|]. split; [reflexivity|]. exists c. split; [exact Hc|].
  intros a. destruct a; (split; [reflexivity|split; reflexivity]).
Qed.

Lemma still_turn q dt : unitq q -> quat_integrate q (mkV 0 0 0) dt = q.
Proof.
  intros U. unfold quat_integrate.
  assert (E : qadd q (qmap (fun x => mul x dt) (quat_derivative q (mkV 0 0 0))) = q).
  { destruct q as [w x y z]. unfold quat_derivative, qmul, qmap, qadd. cbn [qw qx qy qz vx vy vz]. unR. f_equal; ring. }
  rewrite E. apply qnormalized_id, U.
Qed.

Section Nav.
Context {G H : Gen R}.
Notation sim := (Sim R G H).
Variables (n : nat) (dt : R) (p : Params R) (ip : ImuParams R).
Hypothesis Hdt : 0 < dt <= 1/100.
Hypothesis Hip : ideal ip.
Hypothesis Hmt : imp_ori ip = mkQ 1 0 0 0.

(** The IMU has only ever been updated or reset. *)
Definition plain_imu (s : sim) : Prop := exists iops, sm_imu s = imu_after ip iops /\ Forall ideal_op iops /\ mount_of ip iops = mkQ 1 0 0 0.

Lemma pilot_frame (s s' : sim) op : piloting op -> next (sim_step n s op) s' ->
  sim_step n s op = Ok s' /\ sm_dyn s' = sm_dyn s /\ sm_imu s' = sm_imu s /\ sm_odom s' = sm_odom s /\
  (without_floor op -> sm_floor_en s = false -> sm_floor_en s' = false).
Proof.
  intros P N. destruct op; try contradiction; cbn [sim_step] in *; destruct N as [N|N]; try discriminate N; split; try exact N; injection N as <-.
  all: try (split; [reflexivity|]; split; [reflexivity|]; split; [reflexivity|]; intros W F; try exact F; try contradiction; reflexivity).
  - unfold update_controller. destruct (sm_armed s); cbn [negb]; [|split; [reflexivity|]; split; [reflexivity|]; split; [reflexivity|]; intros _ F; exact F].
    destruct (sm_yawmode s); cbv zeta; destruct (sm_mode _); (split; [reflexivity|]; split; [reflexivity|]; split; [reflexivity|]; intros _ F; exact F).
  - unfold set_control_mode. destruct (mode_eqb _ _ && yaw_eqb _ _); (split; [reflexivity|]; split; [reflexivity|]; split; [reflexivity|]; intros _ F; exact F).
Qed.

Lemma pilots_frame pilot : forall s s' : sim, Forall piloting pilot -> sim_run n s pilot = Some s' ->
  sm_dyn s' = sm_dyn s /\ sm_imu s' = sm_imu s /\ sm_odom s' = sm_odom s /\
  (Forall without_floor pilot -> sm_floor_en s = false -> sm_floor_en s' = false).
Proof.
  induction pilot as [|op r IH]; intros s s' F E.
  - injection E as <-. split; [reflexivity|]. split; [reflexivity|]. split; [reflexivity|]. intros _ X. exact X.
  - apply Forall_inv in F as F1. apply Forall_inv_tail in F as F2. cbn [sim_run] in E.
    assert (exists s1, next (sim_step n s op) s1 /\ sim_run n s1 r = Some s') as (s1 & N & E1).
    { destruct (sim_step n s op) as [x|x|]; [exists x|exists x|discriminate E]; (split; [|exact E]); [left|right]; reflexivity. }
    destruct (pilot_frame s s1 op F1 N) as (_ & A & B & C & D). destruct (IH s1 s' F2 E1) as (A' & B' & C' & D').
    rewrite A', B', C', A, B, C. split; [reflexivity|]. split; [reflexivity|]. split; [reflexivity|].
    intros W X. apply D'; [exact (Forall_inv_tail W)|]. apply D; [exact (Forall_inv W)|exact X].
Qed.

(** The three updates of a round. *)
Lemma read_plain (s : sim) : plain_imu s ->
  let s1 := update_imu s dt in
  plain_imu s1 /\ im_gyro (sm_imu s1) = s_angvel (sim_state s) /\
  im_accel (sm_imu s1) = vec_of (to_world (s_ori (sim_state s)) (s_force (sim_state s))) /\
  sm_dyn s1 = sm_dyn s /\ sm_odom s1 = sm_odom s /\ sm_floor_en s1 = sm_floor_en s.
Proof.
  intros (iops & E & F & M). cbv zeta.
  assert (U : unitq (mount_of ip iops)) by (rewrite M; unfold unitq; cbn; ring).
  destruct Hdt as [H0 _].
  pose proof (sim_imu_reading n s (update_imu s dt) ip iops dt E Hip F U H0 eq_refl) as L. rewrite M in L.
  assert (Id : forall v b, to_body (mkQ 1 0 0 0) v b = pr b v).
  { intros [p0 p1 p2] b; destruct b; unfold to_body, rot_entry; cbn; ring. }
  split.
  { exists (iops ++ [IUpdate dt (qrot (s_ori (sim_state s)) (s_force (sim_state s))) (s_angvel (sim_state s))]). split.
    - unfold imu_after, imu_run. rewrite fold_left_app. fold (imu_run (G := H) (imu_new ip) iops). fold (imu_after (G := H) ip iops). rewrite <- E. reflexivity.
    - split; [apply Forall_app; split; [exact F|apply Forall_cons; [exact I|apply Forall_nil]]|].
      rewrite <- M. clear. unfold mount_of. rewrite fold_left_app. reflexivity. }
  split; [apply pr_ext; intros b; destruct (L b) as [_ Lb]; rewrite Id in Lb; exact Lb|].
  split; [apply pr_ext; intros b; destruct (L b) as [Lb _]; rewrite Id in Lb; exact Lb|].
  split; [reflexivity|]. split; reflexivity.
Qed.

(** What the unfiltered odometry does with a reading. *)
Lemma odom_take (o : Odom R) gyro accel : od_alpha o = 1 ->
  let o' := odom_update o gyro accel dt in
  od_alpha o' = 1 /\ od_ori o' = quat_integrate (od_ori o) gyro dt /\ od_angvel o' = gyro /\
  (unitq (od_ori o) -> forall a, pr a (od_linacc o') = to_body (od_ori o) accel a /\
    pr a (od_vel o') = pr a (od_vel o) + to_body (od_ori o) accel a * dt /\
    pr a (od_pos o') = pr a (od_pos o) + pr a (od_vel o') * dt).
Proof.
  intros A. cbv zeta. unfold odom_update, odom_integrate. cbn [od_gyrof od_accelf odom_filter od_alpha od_ori od_angvel od_linacc od_vel od_pos od_init].
  assert (F : forall x y : V3 R, vadd (vscale (od_alpha o) x) (vscale (sub one (od_alpha o)) y) = x).
  { intros x y. rewrite A. apply pr_ext. intros a. change (sub one 1) with (1 - 1). rewrite filt_R. ring. }
  rewrite !F. split; [exact A|]. split; [reflexivity|]. split; [reflexivity|]. intros U a.
  rewrite <- (qinv_rot _ accel a U). destruct a; cbn; unR; auto.
Qed.

(** The odometry's attitude is where the vehicle will be after the next step. *)
Definition ahead (s : sim) : Prop :=
  plain_imu s /\ od_alpha (sm_odom s) = 1 /\ unitq (s_ori (sim_state s)) /\
  od_ori (sm_odom s) = quat_integrate (s_ori (sim_state s)) (s_angvel (sim_state s)) dt.

Lemma plain_reset (s : sim) : plain_imu s -> exists iops, imu_reset (sm_imu s) = imu_after ip iops /\ Forall ideal_op iops /\ mount_of ip iops = mkQ 1 0 0 0.
Proof.
  intros (iops & E & F & M). exists (iops ++ [IReset]). split.
  - unfold imu_after, imu_run. rewrite fold_left_app. fold (imu_run (G := H) (imu_new ip) iops). fold (imu_after (G := H) ip iops). rewrite <- E. reflexivity.
  - split; [apply Forall_app; split; [exact F|apply Forall_cons; [exact I|apply Forall_nil]]|].
    rewrite <- M. unfold mount_of. rewrite fold_left_app. reflexivity.
Qed.

Lemma dyn_step_ok (s s' : sim) : next (sim_step n s (SDynamics dt)) s' -> update_dynamics s dt = Ok s'.
Proof.
  intros [N|N]; [exact N|]. exfalso. cbn [sim_step] in N. apply (ud_throw R_sane) in N as [L _]. rewrite (leb_pos dt) in L; [discriminate L|exact (proj1 Hdt)].
Qed.

(** One dynamics update moves the vehicle to the attitude the odometry has. *)
Lemma dyn_meets (s s1 : sim) : ahead s -> update_dynamics s dt = Ok s1 ->
  plain_imu s1 /\ od_alpha (sm_odom s1) = 1 /\ unitq (s_ori (sim_state s1)) /\
  s_ori (sim_state s1) = od_ori (sm_odom s) /\ od_ori (sm_odom s1) = od_ori (sm_odom s) /\
  (sm_floor_en s = false -> sm_odom s1 = sm_odom s /\ sm_floor_en s1 = false /\
     exists ext, euler_core (sm_dyn s) (sm_act s) dt ext (negb (sm_floor_col s)) = Some (sm_dyn s1)).
Proof.
  intros (P & A & U & E) K. apply ud_ok in K as (ext & d & FM & _ & _ & K). cbv zeta in K.
  unfold free_motion in FM. apply (process_small_inv _ _ _ _ _ _ Hdt) in FM.
  destruct (core_motion _ _ _ _ _ _ FM) as (_ & Eo & _).
  change (d_state (sm_dyn s)) with (sim_state s) in Eo. rewrite <- E in Eo.
  assert (U' : unitq (s_ori (d_state d))) by (rewrite Eo, E; apply quat_step_unit, unitq_nonzero, U).
  destruct (below_floor (with_col (with_ext (with_dyn s d) v0) false)) eqn:B.
  - rewrite K. split; [destruct (plain_reset s P) as (io & X); exists io; exact X|].
    split; [exact A|]. split; [exact U'|]. split; [exact Eo|]. split; [exact Eo|].
    intros F. unfold below_floor in B. cbn [sm_floor_en with_col with_ext with_dyn] in B. rewrite F in B. discriminate B.
  - rewrite K. split; [exact P|]. split; [exact A|]. split; [exact U'|]. split; [exact Eo|]. split; [reflexivity|].
    intros F. split; [reflexivity|]. split; [exact F|]. exists ext. exact FM.
Qed.

(** A round: piloting, dynamics, IMU, odometry. *)
Lemma round_split pilot (s s' : sim) : Forall piloting pilot ->
  sim_run n s (pilot ++ [SDynamics dt; SImu dt; SOdom dt]) = Some s' ->
  exists s0 s1, sim_run n s pilot = Some s0 /\ update_dynamics s0 dt = Ok s1 /\ s' = update_odom (update_imu s1 dt) dt.
Proof.
  intros F E. rewrite PSim.run_app in E. destruct (sim_run n s pilot) as [s0|] eqn:E0; [|discriminate E]. rename E into E1. exists s0. cbn [sim_run] in E1.
  assert (exists s1, next (sim_step n s0 (SDynamics dt)) s1 /\ update_odom (update_imu s1 dt) dt = s') as (s1 & N & E2).
  { destruct (sim_step n s0 (SDynamics dt)) as [x|x|]; [exists x|exists x|discriminate E1]; cbn in E1; injection E1 as E1;
      (split; [|exact E1]); [left|right]; reflexivity. }
  exists s1. split; [reflexivity|]. split; [apply dyn_step_ok, N|]. symmetry. exact E2.
Qed.

Lemma ahead_pilots pilot (s s' : sim) : Forall piloting pilot -> sim_run n s pilot = Some s' -> ahead s -> ahead s'.
Proof.
  intros F E (P & A & U & Q). destruct (pilots_frame _ _ _ F E) as (Ed & Ei & Eo & _).
  unfold ahead, plain_imu, sim_state. rewrite Ed, Ei, Eo. split; [exact P|]. split; [exact A|]. split; [exact U|exact Q].
Qed.

Lemma round_ahead pilot (s s' : sim) : Forall piloting pilot -> ahead s ->
  sim_run n s (pilot ++ [SDynamics dt; SImu dt; SOdom dt]) = Some s' ->
  ahead s' /\ od_angvel (sm_odom s') = s_angvel (sim_state s').
Proof.
  intros F J E. destruct (round_split _ _ _ F E) as (s0 & s1 & E0 & E1 & ->).
  pose proof (ahead_pilots _ _ _ F E0 J) as J0. destruct (dyn_meets _ _ J0 E1) as (P1 & A1 & U1 & O1 & O1' & _).
  destruct (read_plain s1 P1) as (P2 & Gy & _ & D2 & Od2 & _).
  destruct (odom_take (sm_odom (update_imu s1 dt)) (im_gyro (sm_imu (update_imu s1 dt))) (im_accel (sm_imu (update_imu s1 dt)))) as (A3 & O3 & W3 & _).
  { rewrite Od2. exact A1. }
  split; [|exact (eq_trans W3 Gy)]. split; [exact P2|]. split; [exact A3|]. split; [exact U1|].
  refine (eq_trans O3 _). rewrite Od2, O1', <- O1, Gy. reflexivity.
Qed.

Lemma flight_ahead rounds : forall (s s' : sim), Forall (Forall piloting) rounds -> ahead s ->
  sim_run n s (flight dt rounds) = Some s' -> ahead s' /\ (rounds <> [] -> od_angvel (sm_odom s') = s_angvel (sim_state s')).
Proof.
  induction rounds as [|p0 r IH] using rev_ind; intros s s' F J E.
  - injection E as <-. split; [exact J|]. intros X. contradiction (X eq_refl).
  - unfold flight in E. rewrite flat_map_app in E. cbn [flat_map] in E. rewrite app_nil_r in E.
    rewrite PSim.run_app in E. destruct (sim_run n s _) as [s1|] eqn:E1 in E; [|discriminate E]. rename E into E2. apply Forall_app in F as [F1 F2].
    destruct (IH s s1 F1 J E1) as [J1 _]. destruct (round_ahead p0 s1 s' (Forall_inv F2) J1 E2) as [J2 W]. split; [exact J2|intros _; exact W].
Qed.

(** Velocity and position, away from floors. *)
Variables (m : R) (x0 u0 : V3 R).
Hypothesis Hm : m <> 0.
Definition navigates (k : nat) (s : sim) : Prop :=
  ahead s /\ sm_floor_en s = false /\ (exists c, mo_cfg (d_model (sm_dyn s)) = Some c /\ p_mass (cf_params c) = m) /\
  forall a, let x := s_pos (sim_state s) in let v := s_vel (sim_state s) in
    pr a (od_vel (sm_odom s)) = m * (pr a v - pr a u0) /\
    pr a (od_pos (sm_odom s)) = m * (pr a x + pr a v * dt - pr a x0 - INR (S k) * pr a u0 * dt).

Lemma round_navigates pilot k (s s' : sim) : Forall piloting pilot -> Forall without_floor pilot -> navigates k s ->
  sim_run n s (pilot ++ [SDynamics dt; SImu dt; SOdom dt]) = Some s' ->
  navigates (S k) s' /\ forall a, pr a (od_linacc (sm_odom s')) = m * pr a (s_linacc (sim_state s')).
Proof.
  intros F W (J & Fl & (c & Hc & Mc) & V) E. destruct (round_ahead _ _ _ F J E) as [J' _].
  destruct (round_split _ _ _ F E) as (s0 & s1 & E0 & E1 & ->).
  pose proof (ahead_pilots _ _ _ F E0 J) as J0. destruct (pilots_frame _ _ _ F E0) as (Ed & _ & Eo & Ef).
  specialize (Ef W Fl). destruct (dyn_meets _ _ J0 E1) as (P1 & A1 & U1 & O1 & O1' & X). destruct (X Ef) as (Eo1 & Ef1 & ext & K).
  destruct (read_plain s1 P1) as (P2 & _ & Ac & D2 & Od2 & Fl2).
  destruct (core_motion _ _ _ _ _ _ K) as (Cf & _ & c' & Hc' & Mv).
  rewrite Ed, Hc in Hc'. injection Hc' as <-. rewrite Mc in Mv. rewrite Ed in Mv, Cf. rewrite Hc in Cf.
  destruct (odom_take (sm_odom (update_imu s1 dt)) (im_gyro (sm_imu (update_imu s1 dt))) (im_accel (sm_imu (update_imu s1 dt)))) as (A3 & O3 & W3 & L3).
  { rewrite Od2. exact A1. }
  rewrite Od2, O1', <- O1 in L3. specialize (L3 U1). rewrite Ac in L3.
  assert (L : forall a, pr a (od_linacc (sm_odom (update_odom (update_imu s1 dt) dt))) = pr a (s_force (sim_state s1)) /\
    pr a (od_vel (sm_odom (update_odom (update_imu s1 dt) dt))) = pr a (od_vel (sm_odom s)) + pr a (s_force (sim_state s1)) * dt /\
    pr a (od_pos (sm_odom (update_odom (update_imu s1 dt) dt))) = pr a (od_pos (sm_odom s)) + pr a (od_vel (sm_odom (update_odom (update_imu s1 dt) dt))) * dt).
  { intros a. specialize (L3 a). rewrite (world_body _ _ a U1) in L3. rewrite Eo1, Eo in L3. unfold update_odom at 1 2 3 4. cbn [sm_odom with_odom].
    rewrite Od2, Eo1, Eo, Ac. exact L3. }
  clear L3. split.
  - split; [exact J'|]. split; [exact Ef1|]. split; [exists c; split; [exact Cf|exact Mc]|].
    intros a. cbv zeta. specialize (V a). cbv zeta in V. destruct V as [V1 V2]. destruct (L a) as (_ & L1 & L2). destruct (Mv a) as (M1 & M2 & _).
    change (sim_state (update_odom (update_imu s1 dt) dt)) with (sim_state s1).
    change (d_state (sm_dyn s1)) with (sim_state s1) in M1, M2. change (d_state (sm_dyn s)) with (sim_state s) in M1, M2.
    assert (Q : pr a (od_vel (sm_odom (update_odom (update_imu s1 dt) dt))) = m * (pr a (s_vel (sim_state s1)) - pr a u0)).
    { rewrite L1, V1, M1. field. exact Hm. }
    split; [exact Q|]. rewrite L2, Q, V2, M2, (S_INR (S k)). ring.
  - intros a. destruct (L a) as (-> & _). change (sim_state (update_odom (update_imu s1 dt) dt)) with (sim_state s1).
    destruct (Mv a) as (_ & _ & M3). change (d_state (sm_dyn s1)) with (sim_state s1) in M3. rewrite M3. field. exact Hm.
Qed.

Lemma flight_navigates rounds : forall k (s s' : sim), Forall (Forall piloting) rounds -> Forall (Forall without_floor) rounds -> navigates k s ->
  sim_run n s (flight dt rounds) = Some s' ->
  navigates (length rounds + k) s' /\ (rounds <> [] -> forall a, pr a (od_linacc (sm_odom s')) = m * pr a (s_linacc (sim_state s'))).
Proof.
  induction rounds as [|p0 r IH] using rev_ind; intros k s s' F W J E.
  - injection E as <-. split; [exact J|]. intros X. contradiction (X eq_refl).
  - unfold flight in E. rewrite flat_map_app in E. cbn [flat_map] in E. rewrite app_nil_r in E.
    rewrite PSim.run_app in E. destruct (sim_run n s _) as [s1|] eqn:E1 in E; [|discriminate E].
    apply Forall_app in F as [F1 F2]. apply Forall_app in W as [W1 W2].
    destruct (IH k s s1 F1 W1 J E1) as [J1 _]. destruct (round_navigates p0 _ s1 s' (Forall_inv F2) (Forall_inv W2) J1 E) as [J2 A].
    rewrite app_length. replace (length r + length [p0] + k)%nat with (S (length r + k)) by (cbn; lia). split; [exact J2|intros _; exact A].
Qed.
End Nav.

(** ** Whole flights *)
Section Whole.
Context {G H : Gen R}.
Notation sim := (Sim R G H).

Lemma start_ahead n sp dt (s : sim) : perfect_sensors sp -> sim_new n sp = Some s -> ahead dt (sp_imu sp) s.
Proof.
  intros (Id & Mt & Al & Oo & U & W) E. unfold sim_new in E. destruct (dyn_new n _ _ _) as [d|] eqn:D; [|discriminate E].
  assert (St : d_state d = sp_state sp).
  { unfold dyn_new in D. destruct (model_new _ _ _); [|discriminate D]. injection D as <-. reflexivity. }
  injection E as <-. split; [|split; [exact Al|]].
  - exists []. split; [reflexivity|]. split; [apply Forall_nil|]. exact Mt.
  - unfold sim_state. cbn [sm_dyn sm_odom odom_new odom_reset od_ori od_init]. rewrite St. split; [exact U|].
    rewrite W, still_turn by exact U. exact Oo.
Qed.

(** The odometry's attitude is the vehicle's after one more step. *)
Lemma attitude_known n sp dt rounds (s s' : sim) : 0 < dt <= 1/100 -> perfect_sensors sp -> Forall (Forall piloting) rounds ->
  sim_after n sp (flight dt rounds) = Some s -> sim_step n s (SDynamics dt) = Ok s' ->
  s_ori (sim_state s') = odom_get_orientation (sm_odom s).
Proof.
  intros Hd P F E K. unfold sim_after in E. destruct (sim_new n sp) as [s0|] eqn:N; [|discriminate E].
  pose proof (start_ahead n sp dt s0 P N) as J. destruct P as (Id & Mt & _).
  destruct (flight_ahead n dt (sp_imu sp) Hd Id rounds s0 s F J E) as [J1 _].
  exact (proj1 (proj2 (proj2 (proj2 (dyn_meets dt (sp_imu sp) Hd s s' J1 K))))).
Qed.

Lemma rates_known n sp dt rounds (s : sim) : 0 < dt <= 1/100 -> perfect_sensors sp -> Forall (Forall piloting) rounds -> rounds <> [] ->
  sim_after n sp (flight dt rounds) = Some s -> odom_get_angular_velocity (sm_odom s) = s_angvel (sim_state s).
Proof.
  intros Hd P F Ne E. unfold sim_after in E. destruct (sim_new n sp) as [s0|] eqn:N; [|discriminate E].
  pose proof (start_ahead n sp dt s0 P N) as J. destruct P as (Id & Mt & _).
  exact (proj2 (flight_ahead n dt (sp_imu sp) Hd Id rounds s0 s F J E) Ne).
Qed.

(** The whole report of the odometry. *)
Lemma report_known n sp dt rounds (s s' : sim) : 0 < dt <= 1/100 -> perfect_sensors sp -> Forall (Forall piloting) rounds -> rounds <> [] ->
  sim_after n sp (flight dt rounds) = Some s -> sim_step n s (SDynamics dt) = Ok s' ->
  let o := sm_odom s in
  get_odometry s = (odom_get_position o, s_ori (sim_state s'), odom_get_linear_velocity o, s_angvel (sim_state s), odom_get_linear_acceleration o).
Proof.
  intros Hd P F Ne E K o. rewrite (attitude_known n sp dt rounds s s' Hd P F E K), <- (rates_known n sp dt rounds s Hd P F Ne E). reflexivity.
Qed.

Lemma motion_known n sp dt rounds (s : sim) : 0 < dt <= 1/100 -> perfect_sensors sp ->
  check_params (sp_model sp) = true -> p_mass (sp_model sp) <> 0 ->
  Forall (Forall piloting) rounds -> Forall (Forall without_floor) rounds ->
  sim_after n sp (flight dt rounds) = Some s ->
  let m := p_mass (sp_model sp) in let o := sm_odom s in
  forall a, let x := pr a (s_pos (sim_state s)) in let v := pr a (s_vel (sim_state s)) in
            let x0 := pr a (s_pos (sp_state sp)) in let v0 := pr a (s_vel (sp_state sp)) in
  pr a (odom_get_linear_velocity o) = m * (v - v0) /\
  pr a (odom_get_position o) = m * (x + v * dt - x0 - INR (S (length rounds)) * v0 * dt) /\
  (rounds <> [] -> pr a (odom_get_linear_acceleration o) = m * pr a (s_linacc (sim_state s))).
Proof.
  intros Hd P C Hm F W E m o a x v x0 u0. unfold sim_after in E. destruct (sim_new n sp) as [s0|] eqn:N; [|discriminate E].
  pose proof (start_ahead n sp dt s0 P N) as J. destruct P as (Id & Mt & _).
  destruct (new_fields n sp s0 N) as (Fl & _ & _ & _ & _ & _ & _ & _ & d & D & Ed).
  destruct (new_params n (sp_model sp) _ _ d D C) as (_ & Gp & St). apply get_params_cfg in Gp as (c & Hc & Mc).
  assert (Od : sm_odom s0 = odom_new (sp_odom sp)).
  { unfold sim_new in N. rewrite D in N. injection N as <-. reflexivity. }
  destruct (flight_navigates n dt (sp_imu sp) Hd Id m (s_pos (sp_state sp)) (s_vel (sp_state sp)) Hm rounds 0%nat s0 s F W) as ((_ & _ & _ & V) & A).
  - split; [exact J|]. split; [exact Fl|]. split; [exists c; split; [rewrite Ed; exact Hc|unfold m; rewrite Mc; reflexivity]|].
    intros b. cbv zeta. unfold sim_state. rewrite Ed, St, Od. unfold m.
    assert (Z : pr b (od_vel (odom_new (sp_odom sp))) = 0 /\ pr b (od_pos (odom_new (sp_odom sp))) = 0) by (destruct b; split; reflexivity).
    destruct Z as [-> ->]. split; [ring|]. cbn [INR]. ring.
  - exact E.
  - destruct (V a) as [V1 V2]. rewrite Nat.add_0_r in V2. split; [exact V1|]. split; [exact V2|]. intros Ne. exact (A Ne a).
Qed.
End Whole.
