(** The faster the vehicle is found to turn, the less its rotors push it that way. *)

From Coq Require Import ZArith List Bool Lia Reals Lra Psatz.
From Verif Require Import Scalar LinAlg MUtils MModel MDynamics MPid MControl MCtlRun MImu MSim SpecDyn SpecRun SpecPid SpecCtl SpecMono SpecHigher SpecDamp
  PBase PDyn PModel PDynR PPhys PMix PPid PPidR PCtl PCtlR PCtlMix PMono PThrottle.
Import ListNotations.
Local Open Scope R_scope.

Lemma ax_dec (a b : Ax) : {a = b} + {a <> b}.
Proof. decide equality. Qed.
Lemma turns_eq a m : turns a m = mt_kf m * cross3 (mt_pos m) (rotor_axis m) a + IZR (mt_dir m) * mt_kt m * pr a (rotor_axis m).
Proof.
  unfold turns, rotor_torque. cbn [rotor_sum]. assert (Q : sq_signed 1 = 1) by (rewrite sq_signed_pos by lra; ring). rewrite Q. ring.
Qed.
Definition lifts (m : Motor R) : R := mt_kf m * pr AZ (rotor_axis m).

Lemma mix_app (m1 m2 m3 m4 : Motor R) x1 x2 x3 x4 :
  let S f := f m1 * x1 + f m2 * x2 + f m3 * x3 + f m4 * x4 in
  m4app (mixer_rows4 (mixer6_col m1) (mixer6_col m2) (mixer6_col m3) (mixer6_col m4)) (mkV4 x1 x2 x3 x4) =
  mkV4 (S lifts) (S (turns AX)) (S (turns AY)) (S (turns AZ)).
Proof.
  cbv zeta. unfold m4app, mixer_rows4, v4dot. cbn [r4a r4b r4c r4d v4a v4b v4c v4d].
  change (vz (fst (mixer6_col ?k))) with (pr AZ (fst (mixer6_col k))).
  change (vx (snd (mixer6_col ?k))) with (pr AX (snd (mixer6_col k))).
  change (vy (snd (mixer6_col ?k))) with (pr AY (snd (mixer6_col k))).
  change (vz (snd (mixer6_col ?k))) with (pr AZ (snd (mixer6_col k))).
  rewrite !mixer6_force, !mixer6_torque, !turns_eq. unfold lifts. unR. f_equal; ring.
Qed.

Lemma app_diff (m : M4 R) s1 s2 s3 s4 t1 x1 y1 z1 t2 x2 y2 z2 : m4det m <> 0 ->
  m4app m (mkV4 s1 s2 s3 s4) = mkV4 (t2 - t1) (x2 - x1) (y2 - y1) (z2 - z1) ->
  let u := m4app (m4inv m) (mkV4 t1 x1 y1 z1) in let v := m4app (m4inv m) (mkV4 t2 x2 y2 z2) in
  v4a v - v4a u = s1 /\ v4b v - v4b u = s2 /\ v4c v - v4c u = s3 /\ v4d v - v4d u = s4.
Proof.
  intros Hd E. cbv zeta. pose proof (m4_left m (mkV4 s1 s2 s3 s4) Hd) as F. rewrite E in F.
  pose proof (f_equal v4a F) as A. pose proof (f_equal v4b F) as B. pose proof (f_equal v4c F) as C. pose proof (f_equal v4d F) as D.
  unfold m4app, v4dot in *. cbn [v4a v4b v4c v4d] in *. unR. lra.
Qed.

(** Rotors whose lifts and torques about the three axes are orthogonal. *)
Definition square (m1 m2 m3 m4 : Motor R) : Prop :=
  let S f g := f m1 * g m1 + f m2 * g m2 + f m3 * g m3 + f m4 * g m4 in
  (forall a, S lifts (turns a) = 0) /\ (forall a b, a <> b -> S (turns a) (turns b) = 0) /\ (forall a, 0 < S (turns a) (turns a)).

Lemma brake_alloc (m1 m2 m3 m4 : Motor R) th a tq1 tq2 :
  square m1 m2 m3 m4 -> m4det (mixer_rows4 (mixer6_col m1) (mixer6_col m2) (mixer6_col m3) (mixer6_col m4)) <> 0 ->
  pr a tq2 <= pr a tq1 -> (forall b, b <> a -> pr b tq1 = pr b tq2) ->
  let w t := map (fun r => sqrtks (row6 r (mkV zero zero th) t)) (quad_mixer_inverse (mixer6_col m1) (mixer6_col m2) (mixer6_col m3) (mixer6_col m4)) in
  brakes a [m1; m2; m3; m4] (w tq1) (w tq2).
Proof.
  intros (Q1 & Q2 & Q3) Hd Hl He. cbv beta zeta in *. rewrite !squares_quad.
  set (n := turns a m1 * turns a m1 + turns a m2 * turns a m2 + turns a m3 * turns a m3 + turns a m4 * turns a m4).
  assert (Hn : 0 < n) by exact (Q3 a). set (q := (pr a tq2 - pr a tq1) / n).
  assert (Hq : q * n = pr a tq2 - pr a tq1) by (unfold q; field; lra).
  assert (Hq0 : q <= 0) by (destruct (Rle_dec q 0); [assumption|nra]).
  assert (E : m4app (mixer_rows4 (mixer6_col m1) (mixer6_col m2) (mixer6_col m3) (mixer6_col m4)) (mkV4 (turns a m1 * q) (turns a m2 * q) (turns a m3 * q) (turns a m4 * q)) =
    mkV4 (th - th) (vx tq2 - vx tq1) (vy tq2 - vy tq1) (vz tq2 - vz tq1)).
  { assert (T : forall b, turns b m1 * (turns a m1 * q) + turns b m2 * (turns a m2 * q) + turns b m3 * (turns a m3 * q) + turns b m4 * (turns a m4 * q) = pr b tq2 - pr b tq1).
    { intros b. destruct (ax_dec b a) as [->|N].
      - rewrite <- Hq. unfold n. ring.
      - rewrite (He b N). transitivity ((turns b m1 * turns a m1 + turns b m2 * turns a m2 + turns b m3 * turns a m3 + turns b m4 * turns a m4) * q); [ring|]. rewrite (Q2 b a N). ring. }
    rewrite mix_app. cbv zeta. f_equal; [|exact (T AX)|exact (T AY)|exact (T AZ)].
    transitivity ((lifts m1 * turns a m1 + lifts m2 * turns a m2 + lifts m3 * turns a m3 + lifts m4 * turns a m4) * q); [ring|]. rewrite (Q1 a). ring. }
  destruct (app_diff _ _ _ _ _ th (vx tq1) (vy tq1) (vz tq1) th (vx tq2) (vy tq2) (vz tq2) Hd E) as (A & B & C & D).
  set (u := m4app _ (mkV4 th (vx tq1) (vy tq1) (vz tq1))) in *. set (v := m4app _ (mkV4 th (vx tq2) (vy tq2) (vz tq2))) in *. clearbody u v.
  split; [reflexivity|]. split; [reflexivity|].
  assert (Z : forall m x y, y - x = turns a m * q -> (0 <= turns a m -> sqrtks y <= sqrtks x) /\ (turns a m <= 0 -> sqrtks x <= sqrtks y)).
  { intros m x y H. split; intros S; apply root_le; nra. }
  intros i m x y Hm Hx Hy. destruct i as [|[|[|[|i]]]]; cbn in Hm, Hx, Hy; [..|destruct i; discriminate Hm]; injection Hm as <-; injection Hx as <-; injection Hy as <-; apply Z; assumption.
Qed.

(** ** The torque the controller asks for *)
Definition asked (c : Ctl R) w des dt : V3 R :=
  vadd (mmulv (in_inertia (ct_indi c)) (pid_output (pid_step (get_pid WIndi c) (OpCompute dt (get_error w des))))) (vcross des (mmulv (in_inertia (ct_indi c)) des)).
Lemma acro_asked (c : Ctl R) w th des dt :
  get_desired_motor_angular_velocity (ctl_step c (CAcro w th des dt)) = map (fun r => sqrtks (row6 r (mkV zero zero th) (asked c w des dt))) (in_minv (ct_indi c)).
Proof. reflexivity. Qed.
Lemma out_same p b dt e1 e2 : Reached p -> willing b p -> 0 < dt -> pr b e1 = pr b e2 ->
  pr b (pid_output (pid_step p (OpCompute dt e1))) = pr b (pid_output (pid_step p (OpCompute dt e2))).
Proof. intros R W D E. apply Rle_antisym; apply larger; try assumption; lra. Qed.
Lemma err_pr b (w des : V3 R) : pr b (get_error w des) = pr b des - pr b w.
Proof. destruct b; cbn; unR; reflexivity. Qed.

Lemma asked_measured n (c : Ctl R) a w1 w2 des dt : CtlReached n c -> willing_loop (get_pid WIndi c) -> principal (in_inertia (ct_indi c)) -> 0 < dt -> apart a w1 w2 ->
  pr a (asked c w2 des dt) <= pr a (asked c w1 des dt) /\ forall b, b <> a -> pr b (asked c w1 des dt) = pr b (asked c w2 des dt).
Proof.
  intros Rc W (x & y & z & I & Hx & Hy & Hz) D [L E].
  pose proof (get_pid_reached n c WIndi Rc) as Rp. unfold asked. rewrite I. set (k := vcross des _). clearbody k.
  assert (O : pr a (pid_output (pid_step (get_pid WIndi c) (OpCompute dt (get_error w2 des)))) <= pr a (pid_output (pid_step (get_pid WIndi c) (OpCompute dt (get_error w1 des))))).
  { apply larger; [exact Rp|exact (W a)|exact D|]. rewrite !err_pr. lra. }
  assert (S : forall b, b <> a -> pr b (pid_output (pid_step (get_pid WIndi c) (OpCompute dt (get_error w1 des)))) = pr b (pid_output (pid_step (get_pid WIndi c) (OpCompute dt (get_error w2 des))))).
  { intros b N. apply out_same; [exact Rp|exact (W b)|exact D|]. rewrite !err_pr, (E b N). reflexivity. }
  set (o1 := pid_output (pid_step (get_pid WIndi c) (OpCompute dt (get_error w1 des)))) in *. set (o2 := pid_output (pid_step (get_pid WIndi c) (OpCompute dt (get_error w2 des)))) in *. clearbody o1 o2.
  assert (P : forall o b, pr b (vadd (mmulv (mkM x 0 0 0 y 0 0 0 z) o) k) = match b with AX => x | AY => y | AZ => z end * pr b o + pr b k).
  { intros o b. destruct o, k, b; cbn; unR; ring. }
  rewrite !P. split.
  - apply Rplus_le_compat_r, Rmult_le_compat_l; [destruct a; assumption|exact O].
  - intros b N. rewrite !P, (S b N). reflexivity.
Qed.
(** Asking for another rate about [a] does not change the gyroscopic torque about [a]. *)
Lemma asked_requested n (c : Ctl R) a w des1 des2 dt : CtlReached n c -> willing a (get_pid WIndi c) -> principal (in_inertia (ct_indi c)) -> 0 < dt -> apart a des1 des2 ->
  pr a (asked c w des1 dt) <= pr a (asked c w des2 dt).
Proof.
  intros Rc W (x & y & z & I & Hx & Hy & Hz) D [L E].
  pose proof (get_pid_reached n c WIndi Rc) as Rp. unfold asked. rewrite I.
  assert (O : pr a (pid_output (pid_step (get_pid WIndi c) (OpCompute dt (get_error w des1)))) <= pr a (pid_output (pid_step (get_pid WIndi c) (OpCompute dt (get_error w des2))))).
  { apply larger; [exact Rp|exact W|exact D|]. rewrite !err_pr. lra. }
  set (o1 := pid_output _) in *. set (o2 := pid_output (pid_step _ (OpCompute dt (get_error w des2)))) in *. clearbody o1 o2.
  assert (K : pr a (vcross des1 (mmulv (mkM x 0 0 0 y 0 0 0 z) des1)) = pr a (vcross des2 (mmulv (mkM x 0 0 0 y 0 0 0 z) des2))).
  { pose proof (E AX) as EX. pose proof (E AY) as EY. pose proof (E AZ) as EZ. clear E L. destruct des1 as [p1 q1 r1], des2 as [p2 q2 r2].
    destruct a; cbn in *; unR; [rewrite (EY ltac:(discriminate)), (EZ ltac:(discriminate))|rewrite (EX ltac:(discriminate)), (EZ ltac:(discriminate))|rewrite (EX ltac:(discriminate)), (EY ltac:(discriminate))]; ring. }
  assert (P : forall o k b, pr b (vadd (mmulv (mkM x 0 0 0 y 0 0 0 z) o) k) = match b with AX => x | AY => y | AZ => z end * pr b o + pr b k).
  { intros o k b. destruct o, k, b; cbn; unR; ring. }
  rewrite !P, K. apply Rplus_le_compat_r, Rmult_le_compat_l; [destruct a; assumption|exact O].
Qed.

(** ** The ready-made quadrotors *)
Lemma sqpos x : x <> 0 -> 0 < x * x. Proof. intros H. nra. Qed.
Lemma square_x kf kt x y mn mx tau J : kf <> 0 -> kt <> 0 -> x <> 0 -> y <> 0 ->
  match quad_x kf kt x y mn mx tau J with [m1; m2; m3; m4] => square m1 m2 m3 m4 | _ => False end.
Proof.
  intros A B C D. unfold quad_x, square. cbv zeta. 
  split; [|split].
  - intros []; rewrite !turns_eq; unfold lifts, rotor_axis, cross3; cbn; unR; ring.
  - intros a b N. destruct a, b; try congruence; rewrite !turns_eq; unfold rotor_axis, cross3; cbn; unR; ring.
  - pose proof (sqpos _ (Rmult_integral_contrapositive_currified _ _ A C)). pose proof (sqpos _ (Rmult_integral_contrapositive_currified _ _ A D)). pose proof (sqpos _ B).
    intros []; rewrite !turns_eq; unfold rotor_axis, cross3; cbn; unR; nra.
Qed.
Lemma square_plus kf kt x y mn mx tau J : kf <> 0 -> kt <> 0 -> x <> 0 -> y <> 0 ->
  match quad_plus kf kt x y mn mx tau J with [m1; m2; m3; m4] => square m1 m2 m3 m4 | _ => False end.
Proof.
  intros A B C D. unfold quad_plus, square. cbv zeta. 
  split; [|split].
  - intros []; rewrite !turns_eq; unfold lifts, rotor_axis, cross3; cbn; unR; ring.
  - intros a b N. destruct a, b; try congruence; rewrite !turns_eq; unfold rotor_axis, cross3; cbn; unR; ring.
  - pose proof (sqpos _ (Rmult_integral_contrapositive_currified _ _ A C)). pose proof (sqpos _ (Rmult_integral_contrapositive_currified _ _ A D)). pose proof (sqpos _ B).
    intros []; rewrite !turns_eq; unfold rotor_axis, cross3; cbn; unR; nra.
Qed.

Lemma ready_made ms kf kt x y mn mx tau J : kf <> 0 -> kt <> 0 -> x <> 0 -> y <> 0 -> ms = quad_x kf kt x y mn mx tau J \/ ms = quad_plus kf kt x y mn mx tau J ->
  exists m1 m2 m3 m4, ms = [m1; m2; m3; m4] /\ square m1 m2 m3 m4 /\ m4det (mixer_rows4 (mixer6_col m1) (mixer6_col m2) (mixer6_col m3) (mixer6_col m4)) <> 0.
Proof.
  intros A B C D [->| ->].
  - pose proof (square_x kf kt x y mn mx tau J A B C D) as S. pose proof (det_x kf kt x y mn mx tau J A B C D) as E. unfold quad_x in *. cbv zeta in *.
    eexists; eexists; eexists; eexists. split; [reflexivity|]. split; [exact S|exact E].
  - pose proof (square_plus kf kt x y mn mx tau J A B C D) as S. pose proof (det_plus kf kt x y mn mx tau J A B C D) as E. unfold quad_plus in *. cbv zeta in *.
    eexists; eexists; eexists; eexists. split; [reflexivity|]. split; [exact S|exact E].
Qed.

Lemma damped n (c : Ctl R) ms kf kt x y mn mx tau J inv a w1 w2 th des dt : CtlReached n c ->
  kf <> 0 -> kt <> 0 -> x <> 0 -> y <> 0 -> ms = quad_x kf kt x y mn mx tau J \/ ms = quad_plus kf kt x y mn mx tau J ->
  quad_inverse ms = Some inv -> in_minv (ct_indi c) = inv -> willing_loop (get_pid WIndi c) -> principal (in_inertia (ct_indi c)) -> 0 < dt -> apart a w1 w2 ->
  brakes a ms (get_desired_motor_angular_velocity (ctl_step c (CAcro w1 th des dt))) (get_desired_motor_angular_velocity (ctl_step c (CAcro w2 th des dt))).
Proof.
  intros Rc A B C D Hms Hi Hc W I Hd Hw. destruct (ready_made ms kf kt x y mn mx tau J A B C D Hms) as (m1 & m2 & m3 & m4 & -> & S & E).
  unfold quad_inverse in Hi. rewrite mixer_cols4 in Hi. injection Hi as <-. rewrite !acro_asked, Hc.
  destruct (asked_measured n c a w1 w2 des dt Rc W I Hd Hw) as [H1 H2]. exact (brake_alloc m1 m2 m3 m4 th a (asked c w1 des dt) (asked c w2 des dt) S E H1 H2).
Qed.

Lemma harder n (c : Ctl R) ms kf kt x y mn mx tau J inv a w th des1 des2 dt : CtlReached n c ->
  kf <> 0 -> kt <> 0 -> x <> 0 -> y <> 0 -> ms = quad_x kf kt x y mn mx tau J \/ ms = quad_plus kf kt x y mn mx tau J ->
  quad_inverse ms = Some inv -> in_minv (ct_indi c) = inv -> willing a (get_pid WIndi c) -> principal (in_inertia (ct_indi c)) -> 0 < dt -> apart a des1 des2 ->
  rotor_torque ms (get_desired_motor_angular_velocity (ctl_step c (CAcro w th des1 dt))) [0; 0; 0; 0] a <=
  rotor_torque ms (get_desired_motor_angular_velocity (ctl_step c (CAcro w th des2 dt))) [0; 0; 0; 0] a.
Proof.
  intros Rc A B C D Hms Hi Hc W I Hd Hw. destruct (ready_made ms kf kt x y mn mx tau J A B C D Hms) as (m1 & m2 & m3 & m4 & -> & S & E).
  unfold quad_inverse in Hi. rewrite mixer_cols4 in Hi. injection Hi as <-. rewrite !acro_asked, Hc.
  destruct (quad_wrench m1 m2 m3 m4 th (asked c w des1 dt) _ E eq_refl) as (_ & _ & T1). destruct (quad_wrench m1 m2 m3 m4 th (asked c w des2 dt) _ E eq_refl) as (_ & _ & T2).
  rewrite T1, T2. apply (asked_requested n); assumption.
Qed.

(** ** Through the simulator *)
Lemma sim_acts {G H : Gen R} n (s : Sim R G H) w th dt : sm_armed s = true -> sm_mode s = ACRO ->
  sm_act (update_controller n (set_ref_acro s th w) dt) = get_desired_motor_angular_velocity (ctl_step (sm_ctl s) (CAcro (s_angvel (sim_state s)) th w dt)).
Proof. intros Ha Hm. destruct s as [dyn ctl imu odo armed fe fc fh refs act ext mode ym]. cbn in Ha, Hm. subst. destruct ym; reflexivity. Qed.
Lemma harder_sim {G H : Gen R} n (s : Sim R G H) ms kf kt x y mn mx tau J inv a th des1 des2 dt : CtlReached n (sm_ctl s) -> sm_armed s = true -> sm_mode s = ACRO ->
  kf <> 0 -> kt <> 0 -> x <> 0 -> y <> 0 -> ms = quad_x kf kt x y mn mx tau J \/ ms = quad_plus kf kt x y mn mx tau J ->
  quad_inverse ms = Some inv -> in_minv (ct_indi (sm_ctl s)) = inv -> willing a (get_pid WIndi (sm_ctl s)) -> principal (in_inertia (ct_indi (sm_ctl s))) -> 0 < dt -> apart a des1 des2 ->
  rotor_torque ms (sm_act (update_controller n (set_ref_acro s th des1) dt)) [0; 0; 0; 0] a <=
  rotor_torque ms (sm_act (update_controller n (set_ref_acro s th des2) dt)) [0; 0; 0; 0] a.
Proof.
  intros Rc Ha Hm A B C D Hms Hi Hc W I Hd Hw. rewrite !sim_acts by assumption. apply (harder n (sm_ctl s) ms kf kt x y mn mx tau J inv); assumption.
Qed.
