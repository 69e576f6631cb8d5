(** Proofs: sensors and odometry fed with sensible numbers give numbers, whatever their history. *)

From Coq Require Import ZArith Bool List Reals Lra Lia.
From Flocq Require Import Core BinarySingleNaN.
From Verif Require Import Scalar Float64 LinAlg MUtils MImu SpecDyn SpecRound SpecNumber SpecPidNum SpecImuNum
  PBase PFloat PRound PQuat64 PUnit64 PUp PNumber PExact PPidNum.
Import ListNotations.
Local Open Scope R_scope.

Section Num.
Variable L : Libm.
#[local] Instance FO : Ops b64 := F64Ops L.
Local Open Scope sc_scope.

Lemma low_add e x y : atleast e x -> upto 1000 x -> upto 1000 y -> (0 <= val y)%R -> (-1000 <= e)%Z -> atleast e (x + y).
Proof.
  intros [Fx Ax] Ux Uy Py He. pose proof (up_add L 1000 x y Ux Uy ltac:(lia)) as [F _]. split; [exact F|].
  assert (V : val (x + y) = rnd (val x + val y)%R) by exact (v_add L 1000 x y Ux Uy ltac:(lia)).
  rewrite V. apply rnd_low; [lia|lra].
Qed.
Lemma low_add' e x y : atleast e y -> upto 1000 x -> upto 1000 y -> (0 <= val x)%R -> (-1000 <= e)%Z -> atleast e (x + y).
Proof.
  intros [Fx Ax] Ux Uy Py He. pose proof (up_add L 1000 x y Ux Uy ltac:(lia)) as [F _]. split; [exact F|].
  assert (V : val (x + y) = rnd (val x + val y)%R) by exact (v_add L 1000 x y Ux Uy ltac:(lia)).
  rewrite V. apply rnd_low; [lia|lra].
Qed.
Lemma low_sq x : upto 1 x -> (1/8 <= val x ^ 2)%R -> atleast (-3) (x * x).
Proof.
  intros Ux Hx. pose proof (up_mul L 1 1 x x Ux Ux ltac:(lia)) as [F _]. split; [exact F|].
  assert (V : val (x * x) = rnd (val x * val x)%R) by exact (v_mul L 1 1 x x Ux Ux ltac:(lia)).
  rewrite V. apply rnd_low; [lia|]. change (2^(-3)) with (/ 8)%R. lra.
Qed.
Lemma qsqn_low q : unit_within (1/2) q -> atleast (-3) (qsqn q).
Proof.
  intros Hq. pose proof (unit_up _ Hq) as [Uw (Ux & Uy & Uz)]. destruct Hq as [_ Hl]. apply Rabs_le_inv in Hl. unfold sqlen in Hl. cbn [qvec vx vy vz] in Ux, Uy, Uz.
  assert (M : forall x, upto 1 x -> upto 2 (x * x)) by (intros x X; apply (up_mul L 1 1); [exact X|exact X|lia]).
  assert (P : forall x, upto 1 x -> (0 <= val (x * x)%sc)%R) by (intros x X; apply (sq_nonneg L x 1); [exact X|lia]).
  assert (W : forall e x, (e <= 1000)%Z -> upto e x -> upto 1000 x) by (intros e x He X; apply (up_weak e); assumption).
  unfold qsqn.
  assert (U2 : upto 3 (qx q * qx q + qy q * qy q)) by (apply (up_add L 2); [apply M, Ux|apply M, Uy|lia]).
  assert (P2 : (0 <= val (qx q * qx q + qy q * qy q)%sc)%R) by (apply (add_nonneg L _ _ 2); [apply M, Ux|apply M, Uy|lia|apply P, Ux|apply P, Uy]).
  assert (U3 : upto 4 (qx q * qx q + qy q * qy q + qz q * qz q)) by (apply (up_add L 3); [exact U2|apply (up_weak 2); [lia|apply M, Uz]|lia]).
  assert (P3 : (0 <= val (qx q * qx q + qy q * qy q + qz q * qz q)%sc)%R) by (apply (add_nonneg L _ _ 3); [exact U2|apply (up_weak 2); [lia|apply M, Uz]|lia|exact P2|apply P, Uz]).
  pose proof (W 3%Z _ ltac:(lia) U2) as V2. pose proof (W 4%Z _ ltac:(lia) U3) as V4.
  pose proof (W 2%Z _ ltac:(lia) (M _ Ux)) as Vx. pose proof (W 2%Z _ ltac:(lia) (M _ Uy)) as Vy. pose proof (W 2%Z _ ltac:(lia) (M _ Uz)) as Vz. pose proof (W 2%Z _ ltac:(lia) (M _ Uw)) as Vw.
  destruct (Rle_dec (1/8) (val (qw q) ^ 2)) as [H1|H1].
  { apply low_add'; [apply low_sq; assumption|exact V4|exact Vw|exact P3|lia]. }
  apply low_add; [|exact V4|exact Vw|apply P, Uw|lia].
  destruct (Rle_dec (1/8) (val (qz q) ^ 2)) as [H2|H2].
  { apply low_add'; [apply low_sq; assumption|exact V2|exact Vz|exact P2|lia]. }
  apply low_add; [|exact V2|exact Vz|apply P, Uz|lia].
  destruct (Rle_dec (1/8) (val (qy q) ^ 2)) as [H3|H3].
  { apply low_add'; [apply low_sq; assumption|exact Vx|exact Vy|apply P, Ux|lia]. }
  apply low_add; [|exact Vx|exact Vy|apply P, Uy|lia]. apply low_sq; [exact Ux|lra].
Qed.
Lemma qinv_up q : unit_within (1/2) q -> upto 4 (qw (qinv q)) /\ upto3 4 (qvec (qinv q)).
Proof.
  intros Hq. pose proof (unit_up _ Hq) as [Uw (Ux & Uy & Uz)]. pose proof (qsqn_low q Hq) as Ls. unfold qinv. cbv zeta. cbn [qvec vx vy vz] in Ux, Uy, Uz.
  destruct (zero <? qsqn q).
  - unfold qmap, qconj. cbn [qw qx qy qz qvec]. split; [exact (up_div L 1 (-3) _ _ Uw Ls ltac:(lia))|].
    split; [|split]; cbn [vx vy vz]; apply (up_div L 1 (-3)); [apply (up_neg L); assumption|exact Ls|lia|apply (up_neg L); assumption|exact Ls|lia|apply (up_neg L); assumption|exact Ls|lia].
  - split; [|split; [|split]]; apply up_zero; reflexivity.
Qed.
Lemma rot_up e q v : upto 4 (qw q) -> upto3 4 (qvec q) -> upto3 e v -> (0 <= e <= 900)%Z -> upto3 (e + 16) (qrot q v).
Proof.
  intros Hw Hv A He. unfold qrot.
  assert (U0 : upto3 (e + 5) (vcross (qvec q) v)) by (apply (up3_weak (4 + e + 1)); [lia|apply (up3_cross L); [exact Hv|exact A|lia]]).
  assert (U : upto3 (e + 6) (vadd (vcross (qvec q) v) (vcross (qvec q) v))).
  { replace (e + 6)%Z with (e + 5 + 1)%Z by lia. apply (up3_add L); [exact U0|exact U0|lia]. }
  set (uv := vadd (vcross _ _) _) in *. replace (e + 16)%Z with (e + 14 + 1 + 1)%Z by lia.
  apply (up3_add L); [apply (up3_add L)| |lia].
  - apply (up3_weak e); [lia|exact A].
  - apply (up3_weak (4 + (e + 6))); [lia|]. apply (up3_scale L); [exact Hw|exact U|lia].
  - lia.
  - apply (up3_weak (4 + (e + 6) + 1)); [lia|]. apply (up3_cross L); [exact Hv|exact U|lia].
Qed.
Lemma stag3 e f a b : upto3 e a -> upto3 f b -> (0 <= e <= 1000)%Z -> (f <= e - 55)%Z -> upto3 e (vadd a b).
Proof. intros (A1 & A2 & A3) (B1 & B2 & B3) He Hf. split; [|split]; apply (up_stag L e f); assumption. Qed.

(** ** IMU *)
Lemma root_up e x : upto e x -> (0 <= e <= 128)%Z -> (0 <= val x)%R -> upto 128 (sqrtT x).
Proof. intros U He P. apply (up_weak e); [lia|]. apply (up_sqrt L e); [exact U|lia|exact P]. Qed.
Lemma density_root x : density x -> upto 128 (sqrtT x).
Proof. intros [U P]. apply (root_up 64); [exact U|lia|exact P]. Qed.
Lemma density_step x dt : density x -> sane_step 64 dt -> upto 128 (sqrtT (x / dt)).
Proof.
  intros [U P] [D _]. change (- (64))%Z with (-64)%Z in D. assert (Q : upto 128 (x / dt)) by exact (up_div L 64 (-64) x dt U D ltac:(lia)).
  apply (root_up 128); [exact Q|lia|]. pose proof (pow_pos (-64)). apply (div_nonneg L x dt); [apply U|exact P|destruct D as [_ D]; lra|exact Q].
Qed.
Context {G : Gen b64}.
Definition imu_ok (i : Imu b64 G) : Prop :=
  density (im_gvar i) /\ density (im_avar i) /\ density (im_gac i) /\ density (im_aac i) /\
  (upto 4 (qw (im_inv i)) /\ upto3 4 (qvec (im_inv i))) /\ upto3 400 (im_gbias i) /\ upto3 400 (im_abias i) /\ upto3 450 (im_gyro i) /\ upto3 450 (im_accel i).
Lemma up3_z e : upto3 e v0. Proof. exact (up3_v0 L e). Qed.
Lemma bias_ok i dt : reasonable_gen G -> imu_ok i -> sane_step 64 dt -> imu_ok (process_bias i dt).
Proof.
  intros HG (V1 & V2 & A1 & A2 & Q & B1 & B2 & M) D. unfold process_bias.
  pose proof (draw3_up L 4 _ (im_eng i) (im_dist i) HG (density_step _ _ A1 D)) as D1. destruct (draw3 G 4 _ _ _) as [gd [e1 d1]].
  pose proof (draw3_up L 5 _ e1 d1 HG (density_step _ _ A2 D)) as D2. destruct (draw3 G 5 _ _ _) as [ad [e2 d2]]. cbn [fst] in D1, D2. destruct D as [_ D].
  split; [exact V1|]. split; [exact V2|]. split; [exact A1|]. split; [exact A2|]. split; [exact Q|].
  split; [|split; [|exact M]]; cbn [im_gbias im_abias]; (apply (stag3 400 256); [assumption| |lia|lia]); (apply (up3_scaler L 192 64); [assumption|exact D|lia]).
Qed.
Lemma sum_up a b c : upto3 80 a -> upto3 400 b -> upto3 192 c -> upto3 450 (vadd (vadd a b) c).
Proof.
  intros A B C. apply (up3_weak 402); [lia|]. apply (up3_add L 401); [apply (up3_add L 400); [apply (up3_weak 80); [lia|exact A]|exact B|lia]|apply (up3_weak 192); [lia|exact C]|lia].
Qed.
Lemma measure_ok i f w : reasonable_gen G -> imu_ok i -> upto3 64 f -> upto3 64 w -> imu_ok (process_measurement i f w).
Proof.
  intros HG (V1 & V2 & A1 & A2 & Q & B1 & B2 & _) F W. unfold process_measurement.
  pose proof (draw3_up L 6 _ (im_eng i) (im_dist i) HG (density_root _ V1)) as D1. destruct (draw3 G 6 _ _ _) as [gn [e1 d1]].
  pose proof (draw3_up L 7 _ e1 d1 HG (density_root _ V2)) as D2. destruct (draw3 G 7 _ _ _) as [an [e2 d2]]. cbn [fst] in D1, D2.
  split; [exact V1|]. split; [exact V2|]. split; [exact A1|]. split; [exact A2|]. split; [exact Q|]. split; [exact B1|]. split; [exact B2|].
  destruct Q as [Qw Qv]. split; cbn [im_gyro im_accel]; (apply sum_up; [|assumption|assumption]); apply (rot_up 64); (assumption || lia).
Qed.
Lemma imu_step_ok i op : reasonable_gen G -> imu_ok i -> sane_imu_op op -> imu_ok (imu_step i op).
Proof.
  intros HG H Ho. pose proof H as (V1 & V2 & A1 & A2 & Q & B1 & B2 & M1 & M2).
  assert (W : forall v, upto3 64 v -> upto3 400 v) by (intros v; apply up3_weak; lia).
  destruct op as [dt f w| |sd|g a|g a|gb ab g a|q]; cbn [sane_imu_op imu_step] in *.
  - destruct Ho as (D & F & Ww). unfold imu_update. destruct (leb dt zero) eqn:E; [exact H|].
    destruct D as [D|[Fd Dn]]; [apply measure_ok; [exact HG|apply bias_ok; assumption|exact F|exact Ww]|].
    exfalso. change (Bleb dt (b64_ofZ 0) = false) in E. rewrite Bleb_correct in E by (exact Fd || reflexivity). destruct (Rle_bool_spec (B2R dt) (B2R (b64_ofZ 0))) as [|E']; [discriminate|].
    change (B2R (b64_ofZ 0)) with 0%R in E'. unfold val in Dn. lra.
  - split; [exact V1|]. split; [exact V2|]. split; [exact A1|]. split; [exact A2|]. split; [exact Q|]. split; [apply up3_z|]. split; [apply up3_z|]. split; apply up3_z.
  - exact H.
  - destruct Ho as [Hg Ha]. split; [exact Hg|]. split; [exact Ha|]. split; [exact A1|]. split; [exact A2|]. split; [exact Q|]. split; [exact B1|]. split; [exact B2|]. split; assumption.
  - destruct Ho as [Hg Ha]. split; [exact V1|]. split; [exact V2|]. split; [exact Hg|]. split; [exact Ha|]. split; [exact Q|]. split; [exact B1|]. split; [exact B2|]. split; assumption.
  - destruct Ho as (Hb & Hc & Hg & Ha). split; [exact V1|]. split; [exact V2|]. split; [exact Hg|]. split; [exact Ha|]. split; [exact Q|]. split; [apply W, Hb|]. split; [apply W, Hc|]. split; assumption.
  - split; [exact V1|]. split; [exact V2|]. split; [exact A1|]. split; [exact A2|]. split; [exact (qinv_up q Ho)|]. split; [exact B1|]. split; [exact B2|]. split; assumption.
Qed.
Lemma imu_new_ok p : reasonable_gen G -> sane_imu p -> imu_ok (imu_new p).
Proof.
  intros HG (V1 & V2 & A1 & A2 & Q). unfold imu_new.
  pose proof (draw3_up L 2 _ (g_seed G (imp_seed p)) (g_dist0 G) HG (density_root _ V1)) as D1. destruct (draw3 G 2 _ _ _) as [gb [e1 d1]].
  pose proof (draw3_up L 3 _ e1 d1 HG (density_root _ V2)) as D2. destruct (draw3 G 3 _ _ _) as [ab [e2 d2]]. cbn [fst] in D1, D2.
  split; [exact V1|]. split; [exact V2|]. split; [exact A1|]. split; [exact A2|]. split; [exact (qinv_up _ Q)|].
  split; [apply (up3_weak 192); [lia|exact D1]|]. split; [apply (up3_weak 192); [lia|exact D2]|]. split; apply up3_z.
Qed.
Theorem imu_numbers p ops : reasonable_gen G -> sane_imu p -> Forall sane_imu_op ops -> let i := imu_run (imu_new p : Imu b64 G) ops in
  upto3 450 (fst (imu_get_measurement i)) /\ upto3 450 (snd (imu_get_measurement i)) /\ upto3 450 (fst (imu_get_bias i)) /\ upto3 450 (snd (imu_get_bias i)).
Proof.
  intros HG Hp Hl. cbv zeta. assert (K : forall l i, imu_ok i -> Forall sane_imu_op l -> imu_ok (fold_left imu_step l i)).
  { induction l as [|o r IH]; intros i Hi Hf; cbn [fold_left]; [exact Hi|]. apply Forall_cons_iff in Hf as [Ho Hf]. apply IH; [apply imu_step_ok; assumption|exact Hf]. }
  destruct (K ops _ (imu_new_ok p HG Hp) Hl) as (_ & _ & _ & _ & _ & B1 & B2 & M1 & M2). split; [exact M1|]. split; [exact M2|].
  split; (apply (up3_weak 400); [lia|assumption]).
Qed.
End Num.

Section Odom.
Variable L : Libm.
#[local] Instance FO' : Ops b64 := F64Ops L.
Local Open Scope sc_scope.
Definition odom_ok (o : Odom b64) : Prop :=
  weight (od_alpha o) /\ unit_within (1/2) (od_init o) /\ upto3 200 (od_gyrof o) /\ upto3 200 (od_accelf o) /\ upto3 600 (od_pos o) /\ unit_within (1/2) (od_ori o) /\
  upto3 400 (od_vel o) /\ upto3 200 (od_angvel o) /\ upto3 216 (od_linacc o).
Lemma mix_up al new old : weight al -> upto3 64 new -> upto3 200 old -> upto3 200 (vadd (vscale al new) (vscale (one - al) old)).
Proof.
  intros W (N1 & N2 & N3) (O1 & O2 & O3).
  assert (K : forall x y, upto 64 x -> upto 200 y -> upto 200 (al * x + (one - al) * y)).
  { intros x y X Y. apply (up_stag' L 200 64); [apply (up_mul L 0 64); [apply weight_up, W|exact X|lia]|apply (up_mul L 0 200); [apply weight_up, (weight_rest L), W|exact Y|lia]|lia|lia]. }
  split; [|split]; apply K; assumption.
Qed.
Lemma rates_200 w : upto3 200 w -> rates_below bigw w.
Proof.
  intros ((F1 & A1) & (F2 & A2) & (F3 & A3)). split; [split; [|split]; assumption|].
  assert (B : (4 * 2^200 <= bigw)%R). { unfold bigw. change 4%R with (2^2). rewrite <- bpow_plus. apply bpow_le. lia. }
  pose proof (pow_pos 200). lra.
Qed.
Lemma odom_step_ok o op : odom_ok o -> sane_odom_op op -> odom_ok (odom_step o op).
Proof.
  intros (W & I & Gf & Af & P & Q & V & Wv & Ac) Ho. destruct op as [g a dt| |q]; cbn [sane_odom_op odom_step] in *.
  - destruct Ho as (Hg & Ha & Fd & Hd). unfold odom_update, odom_integrate, odom_filter. cbv zeta. cbn [od_alpha od_init od_gyrof od_accelf od_pos od_ori od_vel].
    pose proof (mix_up _ _ _ W Hg Gf) as Gf'. pose proof (mix_up _ _ _ W Ha Af) as Af'. set (gf := vadd (vscale _ g) _) in *. set (af := vadd (vscale _ a) _) in *. clearbody gf af.
    assert (Ud : upto 0 dt). { split; [exact Fd|]. change (2^0) with 1%R. apply Rabs_le. lra. }
    destruct (qinv_up L _ Q) as [Qw Qv]. assert (A' : upto3 216 (qrot (qinv (od_ori o)) af)) by exact (rot_up L 200 _ af Qw Qv Af' ltac:(lia)).
    set (ac := qrot _ _) in *. clearbody ac.
    assert (V' : upto3 400 (vadd (od_vel o) (vscaler ac dt))). { apply (stag3 L 400 216); [exact V| |lia|lia]. exact (up3_scaler L 216 0 _ _ A' Ud ltac:(lia)). }
    assert (P' : upto3 600 (vadd (od_pos o) (vscaler (vadd (od_vel o) (vscaler ac dt)) dt))). { apply (stag3 L 600 400); [exact P| |lia|lia]. exact (up3_scaler L 400 0 _ _ V' Ud ltac:(lia)). }
    split; [exact W|]. split; [exact I|]. split; [exact Gf'|]. split; [exact Af'|]. split; [exact P'|].
    split; [|split; [exact V'|split; [exact Gf'|exact A']]]. cbn [od_ori]. apply within_weak. exact (integrate64 L (od_ori o) gf dt Q (rates_200 _ Gf') Fd Hd).
  - pose proof (up3_v0 L) as Z. split; [exact W|]. split; [exact I|]. split; [apply Z|]. split; [apply Z|]. split; [apply Z|]. split; [exact I|]. split; [apply Z|]. split; apply Z.
  - split; [exact W|]. split; [exact Ho|]. split; [exact Gf|]. split; [exact Af|]. split; [exact P|]. split; [exact Ho|]. split; [exact V|]. split; [exact Wv|exact Ac].
Qed.
Theorem odom_numbers p ops : weight (odp_alpha p) -> unit_within (1/2) (odp_ori p) -> Forall sane_odom_op ops -> let o := odom_run (odom_new p) ops in
  upto3 600 (odom_get_position o) /\ upto3 600 (odom_get_linear_velocity o) /\ upto3 600 (odom_get_angular_velocity o) /\ upto3 600 (odom_get_linear_acceleration o) /\
  unit_within (1/2) (odom_get_orientation o).
Proof.
  intros W Q Hl. cbv zeta. assert (K : forall l o, odom_ok o -> Forall sane_odom_op l -> odom_ok (fold_left odom_step l o)).
  { induction l as [|o r IH]; intros i Hi Hf; cbn [fold_left]; [exact Hi|]. apply Forall_cons_iff in Hf as [Ho Hf]. apply IH; [apply odom_step_ok; assumption|exact Hf]. }
  assert (N : odom_ok (odom_new p)). { pose proof (up3_v0 L) as Z. split; [exact W|]. split; [exact Q|]. split; [apply Z|]. split; [apply Z|]. split; [apply Z|]. split; [exact Q|]. split; [apply Z|]. split; apply Z. }
  destruct (K ops _ N Hl) as (_ & _ & _ & _ & P & Qo & V & Wv & Ac). split; [exact P|]. split; [apply (up3_weak 400); [lia|exact V]|]. split; [apply (up3_weak 200); [lia|exact Wv]|]. split; [apply (up3_weak 216); [lia|exact Ac]|exact Qo].
Qed.
End Odom.
