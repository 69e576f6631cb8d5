(** Opening the throttle speeds up every rotor. *)

From Coq Require Import ZArith List Bool Lia Reals Lra Psatz.
From Verif Require Import Scalar LinAlg MUtils MModel MDynamics MPid MControl MCtlRun MImu MSim SpecDyn SpecRun SpecPid SpecCtl SpecThrottle
  PBase PDyn PModel PDynR PPhys PMix PPid PPidR PCtl PCtlR PCtlMix.
Import ListNotations.
Local Open Scope R_scope.

Lemma app_thrust (m : M4 R) t1 t2 x y z : m4det m <> 0 ->
  forall s, m4app m (mkV4 s s s s) = mkV4 (t2 - t1) 0 0 0 ->
  let u := m4app (m4inv m) (mkV4 t1 x y z) in let v := m4app (m4inv m) (mkV4 t2 x y z) in
  v4a v - v4a u = s /\ v4b v - v4b u = s /\ v4c v - v4c u = s /\ v4d v - v4d u = s.
Proof.
  intros Hd s E. cbv zeta. pose proof (m4_left m (mkV4 s s s s) Hd) as F. rewrite E in F.
  pose proof (f_equal v4a F) as A. pose proof (f_equal v4b F) as B. pose proof (f_equal v4c F) as C. pose proof (f_equal v4d F) as D.
  unfold m4app, v4dot in *. cbn [v4a v4b v4c v4d] in *. unR. lra.
Qed.

Lemma even_squares (m1 m2 m3 m4 : Motor R) k d : balanced k [m1; m2; m3; m4] -> k <> 0 ->
  m4app (mixer_rows4 (mixer6_col m1) (mixer6_col m2) (mixer6_col m3) (mixer6_col m4)) (mkV4 (d / k) (d / k) (d / k) (d / k)) = mkV4 d 0 0 0.
Proof.
  intros [Hf Ht] Hk. unfold m4app, mixer_rows4, v4dot. cbn [r4a r4b r4c r4d v4a v4b v4c v4d].
  change (vz (fst (mixer6_col ?k))) with (pr AZ (fst (mixer6_col k))).
  change (vx (snd (mixer6_col ?k))) with (pr AX (snd (mixer6_col k))).
  change (vy (snd (mixer6_col ?k))) with (pr AY (snd (mixer6_col k))).
  change (vz (snd (mixer6_col ?k))) with (pr AZ (snd (mixer6_col k))).
  rewrite !mixer6_force, !mixer6_torque. unR.
  pose proof (Ht AX) as T1. pose proof (Ht AY) as T2. pose proof (Ht AZ) as T3. clear Ht.
  unfold rotor_force in Hf. unfold rotor_torque in T1, T2, T3. cbn [rotor_sum map] in Hf, T1, T2, T3.
  assert (Q : sq_signed 1 = 1) by (rewrite sq_signed_pos by lra; ring). rewrite Q in *.
  assert (K : d / k * k = d) by (field; exact Hk). revert K. generalize (d / k). intros q K.
  f_equal; [rewrite <- K, <- Hf; ring|..].
  - transitivity (q * 0); [rewrite <- T1|]; ring.
  - transitivity (q * 0); [rewrite <- T2|]; ring.
  - transitivity (q * 0); [rewrite <- T3|]; ring.
Qed.

(** The torque of the acro call does not depend on its thrust. *)
Lemma acro_motors (c : Ctl R) (w : V3 R) des dt : exists tq, forall th,
  get_desired_motor_angular_velocity (ctl_step c (CAcro w th des dt)) = map (fun r => sqrtks (row6 r (mkV zero zero th) tq)) (in_minv (ct_indi c)).
Proof. eexists. intros t. reflexivity. Qed.

Lemma throttle_law (m1 m2 m3 m4 : Motor R) k inv (c : Ctl R) w des dt t1 t2 :
  balanced k [m1; m2; m3; m4] -> k <> 0 -> 
  m4det (mixer_rows4 (mixer6_col m1) (mixer6_col m2) (mixer6_col m3) (mixer6_col m4)) <> 0 ->
  quad_inverse [m1; m2; m3; m4] = Some inv -> in_minv (ct_indi c) = inv ->
  shares k (t2 - t1) (get_desired_motor_angular_velocity (ctl_step c (CAcro w t1 des dt)))
    (get_desired_motor_angular_velocity (ctl_step c (CAcro w t2 des dt))).
Proof.
  intros Hb Hk Hd Hi Hc. destruct (acro_motors c w des dt) as [tq E]. rewrite !E, Hc.
  unfold quad_inverse in Hi. rewrite mixer_cols4 in Hi. injection Hi as <-. rewrite !squares_quad.
  destruct (app_thrust _ t1 t2 (vx tq) (vy tq) (vz tq) Hd _ (even_squares m1 m2 m3 m4 k (t2 - t1) Hb Hk)) as (A & B & C & D).
  unfold shares. constructor; [rewrite !sq_root; exact A|]. constructor; [rewrite !sq_root; exact B|].
  constructor; [rewrite !sq_root; exact C|]. constructor; [rewrite !sq_root; exact D|constructor].
Qed.
Lemma sq_lt u v : sq_signed u < sq_signed v -> u < v.
Proof. unfold sq_signed. unfold Rabs. destruct (Rcase_abs u), (Rcase_abs v); nra. Qed.
Lemma shares_faster k d w1 w2 : 0 < k -> 0 < d -> shares k d w1 w2 -> Forall2 Rlt w1 w2.
Proof.
  intros Hk Hd H. induction H as [|u v w1 w2 A H IH]; constructor; [|exact IH]. apply sq_lt.
  assert (0 < d / k) by (apply Rdiv_lt_0_compat; assumption). lra.
Qed.


Lemma balanced_x kf kt x y mn mx tau J : balanced (4 * kf) (quad_x kf kt x y mn mx tau J).
Proof.
  assert (Q : sq_signed 1 = 1) by (rewrite sq_signed_pos by lra; ring).
  unfold balanced, quad_x. cbv zeta. unfold rotor_force, rotor_torque. cbn [map rotor_sum]. rewrite Q.
  split; [|intros a; destruct a]; unfold rotor_axis, cross3; cbn; unR; ring.
Qed.
Lemma balanced_plus kf kt x y mn mx tau J : balanced (4 * kf) (quad_plus kf kt x y mn mx tau J).
Proof.
  assert (Q : sq_signed 1 = 1) by (rewrite sq_signed_pos by lra; ring).
  unfold balanced, quad_plus. cbv zeta. unfold rotor_force, rotor_torque. cbn [map rotor_sum]. rewrite Q.
  split; [|intros a; destruct a]; unfold rotor_axis, cross3; cbn; unR; ring.
Qed.

Lemma throttle_x kf kt x y mn mx tau J inv (c : Ctl R) w des dt t1 t2 :
  0 < kf -> kt <> 0 -> x <> 0 -> y <> 0 -> quad_inverse (quad_x kf kt x y mn mx tau J) = Some inv -> in_minv (ct_indi c) = inv ->
  let w1 := get_desired_motor_angular_velocity (ctl_step c (CAcro w t1 des dt)) in
  let w2 := get_desired_motor_angular_velocity (ctl_step c (CAcro w t2 des dt)) in
  shares (4 * kf) (t2 - t1) w1 w2 /\ (t1 < t2 -> Forall2 Rlt w1 w2).
Proof.
  intros A B C D Hi Hc. cbv zeta.
  assert (S : shares (4 * kf) (t2 - t1) (get_desired_motor_angular_velocity (ctl_step c (CAcro w t1 des dt)))
    (get_desired_motor_angular_velocity (ctl_step c (CAcro w t2 des dt)))).
  { pose proof (balanced_x kf kt x y mn mx tau J) as Hb. pose proof (det_x kf kt x y mn mx tau J ltac:(lra) B C D) as Hd.
    unfold quad_x in *. cbv zeta in *. exact (throttle_law _ _ _ _ (4 * kf) inv c w des dt t1 t2 Hb ltac:(lra) Hd Hi Hc). }
  split; [exact S|]. intros H. exact (shares_faster (4 * kf) (t2 - t1) _ _ ltac:(lra) ltac:(lra) S).
Qed.
Lemma throttle_plus kf kt x y mn mx tau J inv (c : Ctl R) w des dt t1 t2 :
  0 < kf -> kt <> 0 -> x <> 0 -> y <> 0 -> quad_inverse (quad_plus kf kt x y mn mx tau J) = Some inv -> in_minv (ct_indi c) = inv ->
  let w1 := get_desired_motor_angular_velocity (ctl_step c (CAcro w t1 des dt)) in
  let w2 := get_desired_motor_angular_velocity (ctl_step c (CAcro w t2 des dt)) in
  shares (4 * kf) (t2 - t1) w1 w2 /\ (t1 < t2 -> Forall2 Rlt w1 w2).
Proof.
  intros A B C D Hi Hc. cbv zeta.
  assert (S : shares (4 * kf) (t2 - t1) (get_desired_motor_angular_velocity (ctl_step c (CAcro w t1 des dt)))
    (get_desired_motor_angular_velocity (ctl_step c (CAcro w t2 des dt)))).
  { pose proof (balanced_plus kf kt x y mn mx tau J) as Hb. pose proof (det_plus kf kt x y mn mx tau J ltac:(lra) B C D) as Hd.
    unfold quad_plus in *. cbv zeta in *. exact (throttle_law _ _ _ _ (4 * kf) inv c w des dt t1 t2 Hb ltac:(lra) Hd Hi Hc). }
  split; [exact S|]. intros H. exact (shares_faster (4 * kf) (t2 - t1) _ _ ltac:(lra) ltac:(lra) S).
Qed.

(** ** Any number of rotors *)
Lemma root_le x y : x <= y -> sqrtks x <= sqrtks y.
Proof.
  intros H. rewrite !sqrtks_R. destruct (Rle_dec 0 x), (Rle_dec 0 y); try lra; [apply sqrt_le_1_alt, H| |].
  - pose proof (sqrt_pos (- x)). pose proof (sqrt_pos y). lra.
  - pose proof (sqrt_le_1_alt (- y) (- x) ltac:(lra)). lra.
Qed.
Lemma throttle_rows (c : Ctl R) w des dt t1 t2 : t1 <= t2 -> Forall (fun r => 0 <= vz (fst r)) (in_minv (ct_indi c)) ->
  Forall2 Rle (get_desired_motor_angular_velocity (ctl_step c (CAcro w t1 des dt))) (get_desired_motor_angular_velocity (ctl_step c (CAcro w t2 des dt))).
Proof.
  intros Ht H. destruct (acro_motors c w des dt) as [tq E]. rewrite !E. clear E.
  induction H as [|r l Hr H IH]; cbn [map]; constructor; [|exact IH]. apply root_le. unfold row6. cbn [vx vy vz]. unR. nra.
Qed.

(** ** Through the simulator *)
Lemma throttle_sim {G H : Gen R} n (s : Sim R G H) kf kt x y mn mx tau J inv w dt t1 t2 :
  sm_armed s = true -> sm_mode s = ACRO ->
  0 < kf -> kt <> 0 -> x <> 0 -> y <> 0 ->
  (quad_inverse (quad_x kf kt x y mn mx tau J) = Some inv \/ quad_inverse (quad_plus kf kt x y mn mx tau J) = Some inv) -> in_minv (ct_indi (sm_ctl s)) = inv -> t1 < t2 ->
  Forall2 Rlt (sm_act (update_controller n (set_ref_acro s t1 w) dt)) (sm_act (update_controller n (set_ref_acro s t2 w) dt)).
Proof.
  intros Ha Hm A B C D Hi Hc Ht.
  assert (E : forall t, sm_act (update_controller n (set_ref_acro s t w) dt) = get_desired_motor_angular_velocity (ctl_step (sm_ctl s) (CAcro (s_angvel (sim_state s)) t w dt))).
  { intros t. destruct s as [dyn ctl imu odo armed fe fc fh refs act ext mode ym]. cbn in Ha, Hm. subst. destruct ym; reflexivity. }
  rewrite !E. destruct Hi as [Hi|Hi].
  - apply (throttle_x kf kt x y mn mx tau J inv); assumption.
  - apply (throttle_plus kf kt x y mn mx tau J inv); assumption.
Qed.
