(** Proofs: the odometry of a flight with imperfect sensors. *)

From Coq Require Import ZArith List Bool Lia Reals Lra Psatz.
From Verif Require Import Scalar LinAlg MUtils MModel MDynamics MPid MControl MImu MSim SpecDyn SpecRun SpecImu SpecSim SpecNav SpecDrift
  PBase PDyn PModel PDynR PPhys PVeh PDynMore PImu PSim PSimR PSimEnd PNav PDrift.
Import ListNotations.
Local Open Scope R_scope.

(** ** The odometry alone *)
Lemma drift_attitude p l l' eg ea h A : 0 <= odp_alpha p <= 1 -> unitq (odp_ori p) -> 0 <= eg -> 0 <= ea -> 0 <= A -> 0 <= h ->
  Forall2 (close eg ea) l l' -> Forall (paced h A) l ->
  let o := odom_run (odom_new p) (odom_updates l) in let o' := odom_run (odom_new p) (odom_updates l') in
  apartq (odom_get_orientation o) (odom_get_orientation o') <= elapsed l * eg / 2 /\
  apart (odom_get_angular_velocity o) (odom_get_angular_velocity o') <= eg /\
  forall v, apart (vec_of (to_world (odom_get_orientation o) v)) (vec_of (to_world (odom_get_orientation o') v)) <= elapsed l * eg * len3 v.
Proof.
  intros Al U E1 E2 E3 E4 C P. pose proof (drift p l l' eg ea h A Al U E1 E2 E3 E4 C P) as N. cbv zeta.
  split; [exact (n_ori _ _ _ _ _ _ _ _ N)|]. split; [exact (n_w _ _ _ _ _ _ _ _ N)|]. intros v.
  eapply Rle_trans; [apply world_apart; [exact (n_u _ _ _ _ _ _ _ _ N)|exact (n_u' _ _ _ _ _ _ _ _ N)]|].
  pose proof (n_ori _ _ _ _ _ _ _ _ N) as Q. assert (L : 0 <= len3 v) by (rewrite len_nq; apply nq_pos).
  apply Rmult_le_compat_r; [exact L|]. unfold odom_get_orientation. lra.
Qed.
Lemma drift_place p l l' eg ea h A : 0 <= odp_alpha p <= 1 -> unitq (odp_ori p) -> 0 <= eg -> 0 <= ea -> 0 <= A -> 0 <= h ->
  Forall2 (close eg ea) l l' -> Forall (paced h A) l ->
  let o := odom_run (odom_new p) (odom_updates l) in let o' := odom_run (odom_new p) (odom_updates l') in
  apart (odom_get_linear_velocity o) (odom_get_linear_velocity o') <= speed_error eg ea A (elapsed l) /\
  apart (odom_get_position o) (odom_get_position o') <= place_error eg ea A h (elapsed l).
Proof.
  intros Al U E1 E2 E3 E4 C P. pose proof (drift p l l' eg ea h A Al U E1 E2 E3 E4 C P) as N. cbv zeta.
  split; [exact (n_vel _ _ _ _ _ _ _ _ N)|exact (n_pos _ _ _ _ _ _ _ _ N)].
Qed.

(** ** The bounds are reached *)
Definition moving (x v : R) (o : Odom R) : Prop :=
  od_alpha o = 1 /\ od_ori o = mkQ 1 0 0 0 /\ od_vel o = mkV v 0 0 /\ od_pos o = mkV x 0 0.
Lemma moving_step x v o e dt : moving x v o -> moving (x + (v + e * dt) * dt) (v + e * dt) (odom_update o (mkV 0 0 0) (mkV e 0 0) dt).
Proof.
  intros (A & Q & V & P).
  assert (U : unitq (od_ori o)) by (rewrite Q; unfold unitq; cbn [qw qx qy qz]; ring).
  destruct (odom_take dt o (mkV 0 0 0) (mkV e 0 0) A) as (A' & Q' & _ & L). specialize (L U).
  split; [exact A'|]. split; [rewrite Q', still_turn by exact U; exact Q|].
  assert (W : od_vel (odom_update o (mkV 0 0 0) (mkV e 0 0) dt) = mkV (v + e * dt) 0 0).
  { apply pr_ext. intros a. destruct (L a) as (_ & -> & _). rewrite V, Q. destruct a; unfold to_body, rot_entry; cbn [pr vx vy vz qw qx qy qz]; ring. }
  split; [exact W|]. apply pr_ext. intros a. destruct (L a) as (_ & _ & ->). rewrite W, P. destruct a; cbn [pr vx vy vz]; ring.
Qed.
Lemma moving_run e dt k : forall x v o, moving x v o ->
  moving (x + INR k * dt * v + e * (INR k * dt) * (INR k * dt + dt) / 2) (v + e * (INR k * dt)) (odom_run o (odom_updates (repeat (along e dt) k))).
Proof.
  induction k as [|k IH]; intros x v o M.
  - cbn [repeat odom_updates map odom_run fold_left INR]. replace (x + 0 * dt * v + e * (0 * dt) * (0 * dt + dt) / 2) with x by field.
    replace (v + e * (0 * dt)) with v by ring. exact M.
  - change (odom_run o (odom_updates (repeat (along e dt) (S k)))) with (odom_run (odom_update o (mkV 0 0 0) (mkV e 0 0) dt) (odom_updates (repeat (along e dt) k))).
    pose proof (IH _ _ _ (moving_step x v o e dt M)) as X. rewrite S_INR.
    replace (x + (INR k + 1) * dt * v + e * ((INR k + 1) * dt) * ((INR k + 1) * dt + dt) / 2)
      with (x + (v + e * dt) * dt + INR k * dt * (v + e * dt) + e * (INR k * dt) * (INR k * dt + dt) / 2) by field.
    replace (v + e * ((INR k + 1) * dt)) with (v + e * dt + e * (INR k * dt)) by ring. exact X.
Qed.
Lemma elapsed_repeat x k : elapsed (repeat x k) = INR k * snd (snd x).
Proof.
  induction k as [|k IH]; [cbn; ring|]. change (elapsed (repeat x (S k))) with (snd (snd x) + elapsed (repeat x k)). rewrite IH, S_INR. ring.
Qed.
Lemma apart_axis x y : y <= x -> apart (mkV x 0 0) (mkV y 0 0) = x - y.
Proof. intros L. unfold apart. cbn [vx vy vz]. replace ((x - y)^2 + (0 - 0)^2 + (0 - 0)^2) with ((x - y) * (x - y)) by ring. apply sqrt_square. lra. Qed.

Lemma drift_sharp ea dt k : 0 <= ea -> 0 <= dt ->
  let l := repeat (along ea dt) k in let l' := repeat (along 0 dt) k in
  Forall2 (close 0 ea) l l' /\ Forall (paced dt ea) l /\ elapsed l = INR k * dt /\
  let o := odom_run (odom_new odp0) (odom_updates l) in let o' := odom_run (odom_new odp0) (odom_updates l') in
  apart (odom_get_linear_velocity o) (odom_get_linear_velocity o') = speed_error 0 ea ea (INR k * dt) /\
  apart (odom_get_position o) (odom_get_position o') = place_error 0 ea ea dt (INR k * dt).
Proof.
  intros E D. cbv zeta.
  assert (C : close 0 ea (along ea dt) (along 0 dt)).
  { unfold close, along. cbn [fst snd]. split; [rewrite apart_same; lra|]. split; [rewrite apart_axis by exact E; lra|reflexivity]. }
  assert (P : paced dt ea (along ea dt)).
  { unfold paced, along. cbn [fst snd]. split; [lra|]. unfold len3, dot3. cbn [vx vy vz].
    replace (ea * ea + 0 * 0 + 0 * 0) with (ea * ea) by ring. rewrite sqrt_square by exact E. lra. }
  split; [clear - C; induction k as [|k IH]; [apply Forall2_nil|apply Forall2_cons; assumption]|].
  split; [clear - P; induction k as [|k IH]; [apply Forall_nil|apply Forall_cons; assumption]|].
  split; [apply elapsed_repeat|].
  assert (M : moving 0 0 (odom_new odp0)) by (split; [|split; [|split]]; reflexivity).
  destruct (moving_run ea dt k 0 0 _ M) as (_ & _ & V & X). destruct (moving_run 0 dt k 0 0 _ M) as (_ & _ & V' & X').
  assert (T : 0 <= INR k * dt) by (apply Rmult_le_pos; [apply pos_INR|exact D]).
  unfold odom_get_linear_velocity, odom_get_position. rewrite V, V', X, X'. set (t := INR k * dt) in *.
  assert (0 <= ea * t) by (apply Rmult_le_pos; assumption).
  assert (0 <= ea * t * (t + dt)) by (apply Rmult_le_pos; lra).
  rewrite !apart_axis by nra. unfold speed_error, place_error. split; field.
Qed.

(** ** In the simulator *)
Lemma close_sym eg ea x y : close eg ea x y -> close eg ea y x.
Proof. intros (A & B & C). split; [rewrite apart_sym; exact A|]. split; [rewrite apart_sym; exact B|symmetry; exact C]. Qed.
Lemma world_len q v : unitq q -> len3 (vec_of (to_world q v)) = len3 v.
Proof.
  intros U. rewrite !len_nq, pure_world by exact U. rewrite !nq_mul, (nq_unit q) by exact U. rewrite (nq_unit (qconj q)) by (apply conj_unit, U). ring.
Qed.
Lemma elapsed_snoc l x : elapsed (l ++ [x]) = elapsed l + snd (snd x).
Proof. induction l as [|y l IH]; [cbn; ring|]. change (elapsed ((y :: l) ++ [x])) with (snd (snd y) + elapsed (l ++ [x])). rewrite IH. change (elapsed (y :: l)) with (snd (snd y) + elapsed l). ring. Qed.
Lemma updates_snoc o l x : odom_run o (odom_updates (l ++ [x])) = odom_update (odom_run o (odom_updates l)) (fst x) (fst (snd x)) (snd (snd x)).
Proof. unfold odom_updates, odom_run. rewrite map_app, fold_left_app. reflexivity. Qed.

Section Sim.
Context {G H : Gen R}.
Notation sim := (Sim R G H).
Variables (n : nat) (dt eg ea F m : R) (op : OdomParams R) (x0 u0 : V3 R).
Hypothesis Hdt : 0 < dt <= 1/100.
Hypothesis Hm : m <> 0.

(** The odometry was fed readings close to [l'], and fed with [l'] it would know
    the flight. *)
Definition follows (k : nat) (s : sim) : Prop := exists l l',
  sm_odom s = odom_run (odom_new op) (odom_updates l) /\ Forall2 (close eg ea) l l' /\ Forall (paced dt F) l' /\ elapsed l' = INR k * dt /\
  let o' := odom_run (odom_new op) (odom_updates l') in
  od_alpha o' = 1 /\ unitq (s_ori (sim_state s)) /\ od_ori o' = quat_integrate (s_ori (sim_state s)) (s_angvel (sim_state s)) dt /\
  sm_floor_en s = false /\ (exists c, mo_cfg (d_model (sm_dyn s)) = Some c /\ p_mass (cf_params c) = m) /\
  forall a, let x := s_pos (sim_state s) in let v := s_vel (sim_state s) in
    pr a (od_vel o') = m * (pr a v - pr a u0) /\
    pr a (od_pos o') = m * (pr a x + pr a v * dt - pr a x0 - INR (S k) * pr a u0 * dt).

Lemma round_follows pilot k (s s' : sim) : Forall piloting pilot -> Forall without_floor pilot -> follows k s ->
  sim_run n s (pilot ++ [SDynamics dt; SImu dt; SOdom dt]) = Some s' -> sensed eg ea F s' -> follows (S k) s'.
Proof.
  intros P W (l & l' & Od & Cl & Pc & El & Al & U & Q & Fl & (c & Hc & Mc) & V) E (S1 & S2 & S3).
  destruct (round_split n dt Hdt _ _ _ P E) as (s0 & s1 & E0 & E1 & ->). destruct (pilots_frame n _ _ _ P E0) as (Ed & _ & Eo & Ef). specialize (Ef W Fl).
  apply ud_ok in E1 as (ext & d & FM & _ & _ & K). cbv zeta in K.
  assert (B : below_floor (with_col (with_ext (with_dyn s0 d) v0) false) = false).
  { unfold below_floor. cbn [sm_floor_en with_col with_ext with_dyn]. rewrite Ef. reflexivity. }
  rewrite B in K. clear B. unfold free_motion in FM. apply (process_small_inv _ _ _ _ _ _ Hdt) in FM.
  assert (D1 : sm_dyn s1 = d) by (rewrite K; reflexivity). assert (O1 : sm_odom s1 = sm_odom s0) by (rewrite K; reflexivity).
  assert (F1 : sm_floor_en s1 = false) by (rewrite K; exact Ef).
  assert (St1 : sim_state s1 = d_state d) by (unfold sim_state; rewrite D1; reflexivity).
  destruct (core_motion _ _ _ _ _ _ FM) as (Cf & Or & c' & Hc' & Mv). rewrite Ed in Cf, Or, Hc', Mv.
  rewrite Hc in Cf, Hc'. injection Hc' as <-. rewrite Mc in Mv.
  change (d_state (sm_dyn s)) with (sim_state s) in Or, Mv. rewrite <- Q in Or. rewrite <- St1 in Or, Mv.
  set (s2 := update_imu s1 dt). set (gy := im_gyro (sm_imu s2)) in *. set (ac := im_accel (sm_imu s2)) in *.
  change (apart gy (s_angvel (sim_state s1)) <= eg) in S1.
  change (apart ac (vec_of (to_world (s_ori (sim_state s1)) (s_force (sim_state s1)))) <= ea) in S2.
  change (len3 (s_force (sim_state s1)) <= F) in S3.
  set (tr := (s_angvel (sim_state s1), (vec_of (to_world (s_ori (sim_state s1)) (s_force (sim_state s1))), dt))).
  assert (U1 : unitq (s_ori (sim_state s1))) by (rewrite Or, Q; apply quat_step_unit, unitq_nonzero, U).
  exists (l ++ [(gy, (ac, dt))]), (l' ++ [tr]).
  split. { rewrite updates_snoc, <- Od. cbn [fst snd]. rewrite <- Eo, <- O1. reflexivity. }
  split. { apply Forall2_app; [exact Cl|]. apply Forall2_cons; [|apply Forall2_nil]. split; [exact S1|]. split; [exact S2|reflexivity]. }
  split. { apply Forall_app. split; [exact Pc|]. apply Forall_cons; [|apply Forall_nil]. split; [cbn [tr snd]; lra|]. cbn [tr fst snd]. rewrite world_len by exact U1. exact S3. }
  split. { rewrite elapsed_snoc, El, S_INR. cbn [tr snd]. ring. }
  rewrite updates_snoc. cbn [tr fst snd]. set (o' := odom_run (odom_new op) (odom_updates l')) in *. cbv zeta.
  destruct (odom_take dt o' (s_angvel (sim_state s1)) (vec_of (to_world (s_ori (sim_state s1)) (s_force (sim_state s1)))) Al) as (A2 & Q2 & _ & L2).
  rewrite <- Or in Q2, L2. specialize (L2 U1).
  split; [exact A2|]. split; [exact U1|]. split; [exact Q2|]. split; [exact F1|].
  split. { exists c. split; [|exact Mc]. change (mo_cfg (d_model (sm_dyn s1)) = Some c). rewrite D1. exact Cf. }
  intros a. cbv zeta. change (sim_state (update_odom s2 dt)) with (sim_state s1). destruct (L2 a) as (_ & Lv & Lp). destruct (Mv a) as (M1 & M2 & _).
  rewrite (world_body _ _ a U1) in Lv. destruct (V a) as (V1 & V2).
  assert (Vq : pr a (od_vel (odom_update o' (s_angvel (sim_state s1)) (vec_of (to_world (s_ori (sim_state s1)) (s_force (sim_state s1)))) dt)) =
    m * (pr a (s_vel (sim_state s1)) - pr a u0)).
  { rewrite Lv, V1, M1. field. exact Hm. }
  split; [exact Vq|]. rewrite Lp, Vq, V2, M2, (S_INR (S k)). ring.
Qed.

Lemma flight_follows rounds : forall k (s s' : sim), Forall (Forall piloting) rounds -> Forall (Forall without_floor) rounds -> follows k s ->
  (forall r1 r2 s1, rounds = r1 ++ r2 -> r1 <> [] -> sim_run n s (flight dt r1) = Some s1 -> sensed eg ea F s1) ->
  sim_run n s (flight dt rounds) = Some s' -> follows (length rounds + k) s'.
Proof.
  induction rounds as [|p0 r IH] using rev_ind; intros k s s' P W J Sn E.
  - injection E as <-. exact J.
  - pose proof E as E'. unfold flight in E. rewrite flat_map_app in E. cbn [flat_map] in E. rewrite app_nil_r in E.
    rewrite PSim.run_app in E. destruct (sim_run n s _) as [s1|] eqn:E1 in E; [|discriminate E].
    apply Forall_app in P as [P1 P2]. apply Forall_app in W as [W1 W2].
    assert (J1 : follows (length r + k) s1).
    { apply (IH k s s1 P1 W1 J); [|exact E1]. intros r1 r2 t Er Ne Et. apply (Sn r1 (r2 ++ [p0]) t); [rewrite Er, app_assoc; reflexivity|exact Ne|exact Et]. }
    rewrite app_length. replace (length r + length [p0] + k)%nat with (S (length r + k)) by (cbn; lia).
    apply (round_follows p0 _ s1 s' (Forall_inv P2) (Forall_inv W2) J1 E).
    apply (Sn (r ++ [p0]) [] s'); [rewrite app_nil_r; reflexivity|intros X; apply app_eq_nil in X as [_ X]; discriminate X|exact E'].
Qed.
End Sim.

Section Whole.
Context {G H : Gen R}.
Notation sim := (Sim R G H).

Lemma flight_drift n sp dt eg ea F rounds (s : sim) : 0 < dt <= 1/100 -> real_sensors sp ->
  check_params (sp_model sp) = true -> p_mass (sp_model sp) <> 0 -> 0 <= eg -> 0 <= ea -> 0 <= F ->
  Forall (Forall piloting) rounds -> Forall (Forall without_floor) rounds ->
  (forall r1 r2 (s1 : sim), rounds = r1 ++ r2 -> r1 <> [] -> sim_after n sp (flight dt r1) = Some s1 -> sensed eg ea F s1) ->
  sim_after n sp (flight dt rounds) = Some s ->
  let m := p_mass (sp_model sp) in let o := sm_odom s in let t := INR (length rounds) * dt in
  let x := s_pos (sim_state s) in let v := s_vel (sim_state s) in let x0 := s_pos (sp_state sp) in let v0 := s_vel (sp_state sp) in
  (forall s', sim_step n s (SDynamics dt) = Ok s' -> apartq (odom_get_orientation o) (s_ori (sim_state s')) <= t * eg / 2) /\
  apart (odom_get_linear_velocity o) (vec_of (fun a => m * (pr a v - pr a v0))) <= speed_error eg ea F t /\
  apart (odom_get_position o) (vec_of (fun a => m * (pr a x + pr a v * dt - pr a x0 - INR (S (length rounds)) * pr a v0 * dt))) <= place_error eg ea F dt t.
Proof.
  intros Hd (Al & Oo & U & Wz) C Hm E1 E2 E3 P W Sn E. cbv zeta. unfold sim_after in E. destruct (sim_new n sp) as [s0|] eqn:N; [|discriminate E].
  destruct (new_fields n sp s0 N) as (Fl & _ & _ & _ & _ & _ & _ & _ & d & D & Ed).
  destruct (new_params n (sp_model sp) _ _ d D C) as (_ & Gp & St). apply get_params_cfg in Gp as (c & Hc & Mc).
  assert (Od : sm_odom s0 = odom_new (sp_odom sp)) by (unfold sim_new in N; rewrite D in N; injection N as <-; reflexivity).
  assert (J : follows dt eg ea F (p_mass (sp_model sp)) (sp_odom sp) (s_pos (sp_state sp)) (s_vel (sp_state sp)) 0 s0).
  { exists [], []. split; [exact Od|]. split; [apply Forall2_nil|]. split; [apply Forall_nil|]. split; [cbn; ring|].
    unfold sim_state. rewrite Ed, St. split; [exact Al|]. split; [exact U|].
    split; [rewrite Wz, still_turn by exact U; exact Oo|]. split; [exact Fl|]. split; [exists c; split; [exact Hc|rewrite Mc; reflexivity]|].
    intros b. cbv zeta.
    assert (Z : pr b (od_vel (odom_run (odom_new (sp_odom sp)) (odom_updates []))) = 0 /\ pr b (od_pos (odom_run (odom_new (sp_odom sp)) (odom_updates []))) = 0) by (destruct b; split; reflexivity).
    destruct Z as [-> ->]. split; [ring|]. cbn [INR]. ring. }
  pose proof (flight_follows n dt eg ea F _ (sp_odom sp) _ _ Hd Hm rounds 0%nat s0 s P W J) as K. rewrite Nat.add_0_r in K.
  destruct K as (l & l' & Ol & Cl & Pc & El & A2 & U2 & Q2 & F2 & _ & V).
  { intros r1 r2 s1 X Y Z. apply (Sn r1 r2 s1 X Y). unfold sim_after. rewrite N. exact Z. }
  { exact E. }
  assert (Cl' : Forall2 (close eg ea) l' l).
  { clear - Cl. induction Cl as [|x y l l' X _ IH]; [apply Forall2_nil|]. apply Forall2_cons; [apply close_sym, X|exact IH]. }
  assert (Ua : unitq (odp_ori (sp_odom sp))) by (rewrite Oo; exact U). assert (Ha : 0 <= odp_alpha (sp_odom sp) <= 1) by (rewrite Al; lra).
  assert (Hh : 0 <= dt) by lra.
  pose proof (drift _ l' l eg ea dt F Ha Ua E1 E2 E3 Hh Cl' Pc) as Nr. rewrite El, <- Ol in Nr.
  split; [|split].
  - intros s' Es. unfold odom_get_orientation. pose proof (n_ori _ _ _ _ _ _ _ _ Nr) as X. rewrite Q2 in X.
    assert (Or : s_ori (sim_state s') = quat_integrate (s_ori (sim_state s)) (s_angvel (sim_state s)) dt).
    { cbn [sim_step] in Es. apply ud_ok in Es as (ext & d' & FM & _ & _ & Kk). cbv zeta in Kk.
      unfold free_motion in FM. apply (process_small_inv _ _ _ _ _ _ Hd) in FM. destruct (core_motion _ _ _ _ _ _ FM) as (_ & Eo & _).
      change (d_state (sm_dyn s)) with (sim_state s) in Eo. rewrite <- Eo. destruct (below_floor _); rewrite Kk; reflexivity. }
    rewrite Or. eapply Rle_trans; [|exact X]. apply Req_le. unfold apartq. f_equal. ring.
  - pose proof (n_vel _ _ _ _ _ _ _ _ Nr) as X. rewrite apart_sym.
    assert (Ev : vec_of (fun a => p_mass (sp_model sp) * (pr a (s_vel (sim_state s)) - pr a (s_vel (sp_state sp)))) = od_vel (odom_run (odom_new (sp_odom sp)) (odom_updates l'))).
    { apply pr_ext. intros a. rewrite pr_vec_of. destruct (V a) as [-> _]. reflexivity. }
    rewrite Ev. exact X.
  - pose proof (n_pos _ _ _ _ _ _ _ _ Nr) as X. rewrite apart_sym.
    assert (Ev : vec_of (fun a => p_mass (sp_model sp) * (pr a (s_pos (sim_state s)) + pr a (s_vel (sim_state s)) * dt - pr a (s_pos (sp_state sp)) -
      INR (S (length rounds)) * pr a (s_vel (sp_state sp)) * dt)) = od_pos (odom_run (odom_new (sp_odom sp)) (odom_updates l'))).
    { apply pr_ext. intros a. rewrite pr_vec_of. destruct (V a) as [_ ->]. reflexivity. }
    rewrite Ev. exact X.
Qed.
End Whole.
