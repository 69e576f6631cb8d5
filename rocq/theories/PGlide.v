(** Proofs about unpowered motion over many steps: constant force, free spin,
    drag, terminal speed. *)

From Coq Require Import ZArith List Bool Lia Reals Lra Psatz.
From Verif Require Import Scalar LinAlg MUtils MModel MDynamics SpecDyn SpecRun SpecMotion
  PBase PDyn PModel PDynR PPhys PNoise PVeh PDynMore PMotion.
Import ListNotations.
Local Open Scope R_scope.

Lemma steady_core {G : Gen R} (D : nat -> Dyn R G) act dt ext :
  0 < dt <= 1/100 -> steady_flight D act dt ext -> forall k, euler_core (D k) act dt ext false = Some (D (S k)).
Proof. intros Hdt H k. apply process_small_inv; [exact Hdt|apply H]. Qed.

Lemma steady_vehicle {G : Gen R} n (D : nat -> Dyn R G) act dt ext p :
  0 < dt <= 1/100 -> steady_flight D act dt ext -> vehicle n (D O) act p -> forall k, vehicle n (D k) act p.
Proof.
  intros Hdt H Hv k; induction k as [|k IH]; [exact Hv|].
  eapply vehicle_core; [exact IH|apply (steady_core D act dt ext Hdt H)].
Qed.

(** ** Constant force *)
Lemma constant_force {G : Gen R} n (D : nat -> Dyn R G) act dt ext p F :
  vehicle n (D O) act p -> 0 < dt <= 1/100 -> steady_flight D act dt ext ->
  (forall k, s_force (d_state (D (S k))) = F) ->
  forall k a,
    pr a (s_vel (d_state (D k))) = pr a (s_vel (d_state (D O))) + INR k * dt * (pr a F / p_mass p) /\
    pr a (s_pos (d_state (D k))) = pr a (s_pos (d_state (D O))) + INR k * dt * pr a (s_vel (d_state (D O)))
      + INR k * (INR k - 1) / 2 * dt ^ 2 * (pr a F / p_mass p).
Proof.
  intros Hv Hdt H HF k a. induction k as [|k [IV IP]]; [cbn; split; lra|].
  pose proof (steady_vehicle n D act dt ext p Hdt H Hv k) as Hk.
  destruct (step_newton n (D k) (D (S k)) act dt ext false p Hk (steady_core D act dt ext Hdt H k) a) as (_ & N2 & N3 & N4).
  rewrite HF in N2. rewrite N4, N3, N2, IV, IP, S_INR. generalize (pr a F / p_mass p); intros A; split; [lra|field].
Qed.

(** ** Rotors off *)
Lemma rotor_force_still ms n a : rotor_force ms (repeat 0 n) a = 0.
Proof.
  unfold rotor_force. revert ms; induction n as [|k IH]; intros [|m ms]; cbn; try reflexivity.
  rewrite IH. unfold sq_signed. ring.
Qed.
Lemma rotor_torque_still ms n a : rotor_torque ms (repeat 0 n) (repeat 0 n) a = 0.
Proof.
  unfold rotor_torque. revert ms; induction n as [|k IH]; intros [|m ms]; cbn [repeat rotor_sum]; try ring.
  etransitivity; [|exact (IH ms)]. unfold sq_signed. ring.
Qed.

Lemma off_core {G : Gen R} n (d d' : Dyn R G) act dt ext noise p :
  vehicle n d act p -> rotors_off n p (d_state d) act -> euler_core d act dt ext noise = Some d' ->
  rotors_off n p (d_state d') act /\ s_macc (d_state d') = repeat 0 n.
Proof.
  intros (Hr & Hp & Hla & Hlw) (A & W & B) H. apply get_params_cfg in Hp as [c [Hc Hcp]].
  apply euler_core_inv in H as [_ Hi].
  destruct (Hi c Hc) as (mo & des & macc & mvel & Hn & Hm & Hd & Ha & Hv & E). cbv zeta in E. rewrite Hcp in *.
  rewrite (clamp_motors_id act _ B) in Hd. injection Hd as <-.
  rewrite W, <- A in Ha.
  assert (Hms : (length act <= length (p_motors p))%nat).
  { pose proof (clamp_motors_id act _ B) as X. apply clamp_motors_le in X. exact X. }
  rewrite motors_derivative_zero in Ha by exact Hms. injection Ha as <-.
  rewrite W, <- A in Hv. rewrite ladd_zero, (clamp_motors_id act _ B) in Hv. injection Hv as <-.
  subst d'. cbn [d_state]. unfold rotors_off. cbn [s_mvel s_macc]. rewrite Hla. repeat split; assumption || reflexivity.
Qed.

Lemma steady_off {G : Gen R} n (D : nat -> Dyn R G) act dt ext p :
  vehicle n (D O) act p -> rotors_off n p (d_state (D O)) act -> 0 < dt <= 1/100 -> steady_flight D act dt ext ->
  forall k, rotors_off n p (d_state (D k)) act.
Proof.
  intros Hv H0 Hdt H k; induction k as [|k IH]; [exact H0|].
  eapply off_core; [apply (steady_vehicle n D act dt ext p Hdt H Hv k)|exact IH|apply (steady_core D act dt ext Hdt H)].
Qed.

(** Force on a vehicle with its rotors off. *)
Lemma off_force {G : Gen R} n (d d' : Dyn R G) act dt ext p :
  vehicle n d act p -> rotors_off n p (d_state d) act -> euler_core d act dt ext false = Some d' ->
  forall a, pr a (s_force (d_state d')) = pr a (p_grav p) + drag_spec (p_drag p) (s_vel (d_state d)) a + pr a ext.
Proof.
  intros Hv (A & W & B) H a.
  destruct (step_newton n d d' act dt ext false p Hv H a) as (N1 & _). cbv zeta in N1.
  destruct (step_nonoise d d' act dt _ H) as [Hs _]. rewrite N1, Hs, W, pr_v0.
  unfold to_world, vec_of. cbn [vx vy vz]. rewrite !rotor_force_still. ring.
Qed.

Lemma ballistic {G : Gen R} n (D : nat -> Dyn R G) act dt ext p :
  vehicle n (D O) act p -> rotors_off n p (d_state (D O)) act -> p_drag p = 0 ->
  0 < dt <= 1/100 -> steady_flight D act dt ext ->
  forall k a,
    let acc := (pr a (p_grav p) + pr a ext) / p_mass p in let time := INR k * dt in
    let x0 := pr a (s_pos (d_state (D O))) in let v0 := pr a (s_vel (d_state (D O))) in
    pr a (s_vel (d_state (D k))) = v0 + acc * time /\
    pr a (s_pos (d_state (D k))) = x0 + v0 * time + acc * time ^ 2 / 2 - acc * time * dt / 2.
Proof.
  intros Hv H0 Hc Hdt H k a. cbv zeta.
  assert (HF : forall k, s_force (d_state (D (S k))) = vadd (p_grav p) ext).
  { intros j. apply pr_ext; intros b. rewrite pr_vadd.
    rewrite (off_force n (D j) (D (S j)) act dt ext p (steady_vehicle n D act dt ext p Hdt H Hv j)
      (steady_off n D act dt ext p Hv H0 Hdt H j) (steady_core D act dt ext Hdt H j) b).
    rewrite Hc. unfold drag_spec. ring. }
  destruct (constant_force n D act dt ext p _ Hv Hdt H HF k a) as [V P].
  rewrite V, P, pr_vadd. split; lra.
Qed.

(** ** Free spin *)
Lemma spin_rates {G : Gen R} n (D : nat -> Dyn R G) act dt ext p :
  vehicle n (D O) act p -> rotors_off n p (d_state (D O)) act -> spins_freely p (s_angvel (d_state (D O))) ->
  0 < dt <= 1/100 -> steady_flight D act dt ext ->
  forall k, s_angvel (d_state (D k)) = s_angvel (d_state (D O)).
Proof.
  intros Hv H0 (Hdet & Haero & Hcr) Hdt H k. induction k as [|k IH]; [reflexivity|].
  pose proof (steady_vehicle n D act dt ext p Hdt H Hv k) as Hk.
  pose proof (steady_core D act dt ext Hdt H k) as Ek.
  pose proof (steady_off n D act dt ext p Hv H0 Hdt H k) as Ok.
  destruct (off_core n _ _ _ _ _ _ p Hk Ok Ek) as [_ Hmacc]. destruct Ok as (_ & W & _).
  destruct (step_nonoise (D k) (D (S k)) act dt _ Ek) as [Hs _].
  set (w := s_angvel (d_state (D O))) in *.
  assert (T : s_torque (d_state (D (S k))) = v0).
  { apply pr_ext; intros a.
    destruct (step_euler n (D k) (D (S k)) act dt ext false p Hk Hdet Ek a) as (_ & T2 & _). cbv zeta in T2.
    rewrite Hmacc, W, rotor_torque_still, Hs, IH, pr_v0, Hcr in T2. rewrite pr_v0.
    assert (A : aero_spec (p_aero p) w a = 0).
    { unfold aero_spec, mat_vec. rewrite !Haero. ring. }
    rewrite A in T2. lra. }
  assert (Acc : s_angacc (d_state (D (S k))) = v0).
  { pose proof (minv_l (p_inertia p) (s_angacc (d_state (D (S k)))) Hdet) as M.
    rewrite <- M. assert (E : mmulv (p_inertia p) (s_angacc (d_state (D (S k)))) = v0).
    { apply pr_ext; intros a. rewrite pr_mmulv.
      destruct (step_euler n (D k) (D (S k)) act dt ext false p Hk Hdet Ek a) as (T1 & _ & _). cbv zeta in T1.
      rewrite <- T1, T. reflexivity. }
    rewrite E. apply pr_ext; intros a. rewrite pr_mmulv, pr_v0. unfold mat_vec, v0; unR. cbn [vx vy vz]. ring. }
  apply pr_ext; intros a.
  destruct (step_euler n (D k) (D (S k)) act dt ext false p Hk Hdet Ek a) as (_ & _ & T3). cbv zeta in T3.
  rewrite T3, Acc, IH, pr_v0. ring.
Qed.

(** One integration step at rate [w] is the product with a rotation by 2 atan (|w| dt / 2). *)
Lemma len3_pos w : w <> mkV 0 0 0 -> 0 < len3 w.
Proof.
  intros H. unfold len3. apply sqrt_lt_R0. unfold dot3. destruct w as [x y z]. cbn [vx vy vz].
  destruct (Req_dec x 0) as [->|]; [|nra]. destruct (Req_dec y 0) as [->|]; [|nra].
  destruct (Req_dec z 0) as [->|]; [|nra]. contradiction.
Qed.

Lemma cos_sin_atan x : cos (atan x) * sqrt (1 + x ^ 2) = 1 /\ sin (atan x) * sqrt (1 + x ^ 2) = x.
Proof.
  assert (S : 0 < 1 + x ^ 2) by nra. pose proof (sqrt_lt_R0 _ S) as P.
  assert (C : cos (atan x) = 1 / sqrt (1 + x ^ 2)) by (rewrite cos_atan; unfold Rsqr; f_equal; f_equal; ring).
  assert (N : sin (atan x) = x / sqrt (1 + x ^ 2)) by (rewrite sin_atan; unfold Rsqr; f_equal; f_equal; ring).
  rewrite C, N. split; field; lra.
Qed.

Lemma spin_step q w dt : unitq q -> w <> mkV 0 0 0 -> 0 < dt ->
  qnormalized (qadd q (qmap (fun x => mul x dt) (quat_derivative q w)))
  = turnq q (about_axis w (2 * atan (len3 w * dt / 2))).
Proof.
  intros Hq Hw Hdt. pose proof (len3_pos w Hw) as L.
  assert (LL : len3 w * len3 w = dot3 w w).
  { unfold len3. apply sqrt_sqrt. unfold dot3. nra. }
  pose proof (qsum_sq q w dt) as S. cbv zeta in S.
  assert (Q1 : qw q ^ 2 + qx q ^ 2 + qy q ^ 2 + qz q ^ 2 = 1) by exact Hq.
  rewrite Q1, Rmult_1_l in S.
  set (u := qadd q (qmap (fun x => mul x dt) (quat_derivative q w))) in *.
  unfold about_axis. replace (2 * atan (len3 w * dt / 2) / 2) with (atan (len3 w * dt / 2)) by field.
  destruct (cos_sin_atan (len3 w * dt / 2)) as [C N].
  assert (E : 1 + (len3 w * dt / 2) ^ 2 = qsqn u) by (rewrite S, <- LL; field).
  rewrite E in C, N. assert (P : 0 < qsqn u) by (rewrite S, <- LL; nra).
  pose proof (sqrt_lt_R0 _ P) as R0. set (k := sqrt (qsqn u)) in *.
  set (cc := cos (atan (len3 w * dt / 2))) in *. set (ss := sin (atan (len3 w * dt / 2))) in *.
  unfold qnormalized. unR. assert (Rltb 0 (qsqn u) = true) as -> by (apply Rltb_true; exact P). fold k.
  assert (Cv : cc = 1 / k) by (apply (Rmult_eq_reg_r k); [rewrite C; field|]; lra).
  assert (Nv : ss = len3 w * dt / 2 / k) by (apply (Rmult_eq_reg_r k); [rewrite N; field|]; lra).
  rewrite Cv, Nv. clearbody k. clear Cv Nv C N E P S.
  unfold u. unfold quat_derivative. apply Q_eq; unfold turnq; unV; unfold half, lit; unR; field; lra.
Qed.

Lemma turnq_assoc a b c : turnq (turnq a b) c = turnq a (turnq b c).
Proof.
  destruct a as [aw ax ay az], b as [bw bx by0 bz], c as [cw cx cy cz].
  apply Q_eq; unfold turnq; cbn [qw qx qy qz]; ring.
Qed.
Lemma about_axis_add w s t : w <> mkV 0 0 0 -> turnq (about_axis w s) (about_axis w t) = about_axis w (s + t).
Proof.
  intros Hw. pose proof (len3_pos w Hw) as L.
  assert (LL : len3 w * len3 w = dot3 w w).
  { unfold len3. apply sqrt_sqrt. unfold dot3. nra. }
  unfold about_axis. replace ((s + t) / 2) with (s / 2 + t / 2) by field. rewrite cos_plus, sin_plus.
  assert (U : vx w / len3 w * (vx w / len3 w) + vy w / len3 w * (vy w / len3 w) + vz w / len3 w * (vz w / len3 w) = 1).
  { transitivity (dot3 w w / (len3 w * len3 w)); [unfold dot3; field; lra|]. rewrite <- LL. field. lra. }
  set (x := vx w / len3 w) in *. set (y := vy w / len3 w) in *. set (z := vz w / len3 w) in *.
  set (cs := cos (s / 2)). set (ct := cos (t / 2)). set (sns := sin (s / 2)). set (snt := sin (t / 2)).
  apply Q_eq; unfold turnq; cbn [qw qx qy qz]; try ring.
  transitivity (cs * ct - (x * x + y * y + z * z) * (sns * snt)); [ring|]. rewrite U. ring.
Qed.
Lemma about_axis_unit w t : w <> mkV 0 0 0 -> unitq (about_axis w t).
Proof.
  intros Hw. pose proof (len3_pos w Hw) as L.
  assert (LL : len3 w * len3 w = dot3 w w).
  { unfold len3. apply sqrt_sqrt. unfold dot3. nra. }
  assert (U : vx w / len3 w * (vx w / len3 w) + vy w / len3 w * (vy w / len3 w) + vz w / len3 w * (vz w / len3 w) = 1).
  { transitivity (dot3 w w / (len3 w * len3 w)); [unfold dot3; field; lra|]. rewrite <- LL. field. lra. }
  unfold unitq, about_axis. cbn [qw qx qy qz].
  set (x := vx w / len3 w) in *. set (y := vy w / len3 w) in *. set (z := vz w / len3 w) in *.
  pose proof (sin2_cos2 (t / 2)) as T. unfold Rsqr in T.
  transitivity (cos (t/2) * cos (t/2) + (x * x + y * y + z * z) * (sin (t/2) * sin (t/2))); [ring|]. rewrite U. lra.
Qed.

Lemma spin {G : Gen R} n (D : nat -> Dyn R G) act dt ext p :
  vehicle n (D O) act p -> rotors_off n p (d_state (D O)) act -> spins_freely p (s_angvel (d_state (D O))) ->
  unitq (s_ori (d_state (D O))) -> s_angvel (d_state (D O)) <> mkV 0 0 0 ->
  0 < dt <= 1/100 -> steady_flight D act dt ext ->
  forall k, let w := s_angvel (d_state (D O)) in
    s_angvel (d_state (D k)) = w /\
    s_ori (d_state (D k)) = turnq (s_ori (d_state (D O))) (about_axis w (INR k * (2 * atan (len3 w * dt / 2)))).
Proof.
  intros Hv H0 Hs Hu Hw Hdt H k w. split; [eapply spin_rates; eauto|].
  induction k as [|k IH].
  - cbn. rewrite Rmult_0_l. unfold about_axis. replace (0 / 2) with 0 by field. rewrite cos_0, sin_0.
    apply Q_eq; unfold turnq; cbn [qw qx qy qz]; ring.
  - pose proof (steady_core D act dt ext Hdt H k) as Ek.
    pose proof (spin_rates n D act dt ext p Hv H0 Hs Hdt H k) as Rk. fold w in Rk, Hw.
    apply euler_core_inv in Ek as [[c Hc] Hi].
    destruct (Hi c Hc) as (mo & des & macc & mvel & Hn & Hm & Hd & Ha & Hvv & ->).
    cbn [d_state s_ori]. rewrite Rk. rewrite spin_step; [|rewrite IH; apply unitq_turnq; [exact Hu|apply about_axis_unit, Hw]|exact Hw|lra].
    rewrite IH, turnq_assoc, about_axis_add by exact Hw. rewrite S_INR. f_equal. f_equal. ring.
Qed.

(** ** How far the discrete spin lags behind *)
Lemma atan_bounds x : 0 <= x -> 0 <= x - atan x <= x ^ 3 / 3.
Proof.
  intros Hx. destruct (Rle_lt_or_eq_dec 0 x Hx) as [P| <-]; [|rewrite atan_0; lra].
  assert (A : exists c, (x - atan x) - (0 - atan 0) = (1 - / (1 + c ^ 2)) * (x - 0) /\ 0 < c < x).
  { apply (MVT_cor2 (fun y => y - atan y) (fun c => 1 - / (1 + c ^ 2))); [exact P|].
    intros c _. apply (derivable_pt_lim_minus id atan c); [apply derivable_pt_lim_id|].
    apply derivable_pt_lim_atan. }
  assert (B : exists c, (x ^ 3 / 3 - (x - atan x)) - (0 ^ 3 / 3 - (0 - atan 0)) = (c ^ 2 - (1 - / (1 + c ^ 2))) * (x - 0) /\ 0 < c < x).
  { apply (MVT_cor2 (fun y => y ^ 3 / 3 - (y - atan y)) (fun c => c ^ 2 - (1 - / (1 + c ^ 2)))); [exact P|].
    intros c _. apply (derivable_pt_lim_minus (fun y => y ^ 3 / 3) (fun y => y - atan y) c).
    - replace (c ^ 2) with (/ 3 * (INR 3 * c ^ 2)) by (cbn; field).
      apply (derivable_pt_lim_ext (fun y => / 3 * y ^ 3)); [intros z; field|].
      apply derivable_pt_lim_scal. apply derivable_pt_lim_pow.
    - apply (derivable_pt_lim_minus id atan c); [apply derivable_pt_lim_id|].
      apply derivable_pt_lim_atan. }
  destruct A as (c & Ec & Hc). destruct B as (b & Eb & Hb). rewrite atan_0 in *.
  assert (I1 : 0 < / (1 + c ^ 2) <= 1).
  { split; [apply Rinv_0_lt_compat; nra|]. rewrite <- Rinv_1 at 2. apply Rinv_le_contravar; nra. }
  assert (I2 : / (1 + b ^ 2) * (1 + b ^ 2) = 1) by (field; nra).
  assert (I3 : 0 < / (1 + b ^ 2)) by (apply Rinv_0_lt_compat; nra).
  split; [nra|].
  assert (J : 0 <= b ^ 2 - (1 - / (1 + b ^ 2))).
  { replace (b ^ 2 - (1 - / (1 + b ^ 2))) with (b ^ 4 * / (1 + b ^ 2)) by (field; nra).
    apply Rmult_le_pos; [apply pow_le; lra|lra]. }
  pose proof (Rmult_le_pos _ _ J Hx) as K. lra.
Qed.

Lemma atan_less x : 0 < x -> atan x < x.
Proof.
  intros P.
  destruct (MVT_cor2 (fun y => y - atan y) (fun c => 1 - / (1 + c ^ 2)) 0 x P) as (c & Ec & Hc).
  { intros c _. apply (derivable_pt_lim_minus id atan c); [apply derivable_pt_lim_id|].
    apply derivable_pt_lim_atan. }
  rewrite atan_0 in Ec. assert (I1 : / (1 + c ^ 2) < 1).
  { rewrite <- Rinv_1. apply Rinv_lt_contravar; nra. }
  nra.
Qed.

Lemma spin_lag w dt : 0 <= len3 w * dt ->
  0 <= len3 w * dt - 2 * atan (len3 w * dt / 2) <= (len3 w * dt) ^ 3 / 12.
Proof. intros H. pose proof (atan_bounds (len3 w * dt / 2) ltac:(lra)) as A. lra. Qed.

(** ** Drag *)
Lemma off_velocity {G : Gen R} n (D : nat -> Dyn R G) act dt ext p :
  vehicle n (D O) act p -> rotors_off n p (d_state (D O)) act -> 0 < dt <= 1/100 -> steady_flight D act dt ext ->
  forall k a, pr a (s_vel (d_state (D (S k)))) = pr a (s_vel (d_state (D k)))
    + dt * ((pr a (p_grav p) + drag_spec (p_drag p) (s_vel (d_state (D k))) a + pr a ext) / p_mass p).
Proof.
  intros Hv H0 Hdt H k a.
  pose proof (steady_vehicle n D act dt ext p Hdt H Hv k) as Hk.
  pose proof (steady_core D act dt ext Hdt H k) as Ek.
  destruct (step_newton n (D k) (D (S k)) act dt ext false p Hk Ek a) as (_ & N2 & N3 & _). cbv zeta in *.
  rewrite N3, N2, (off_force n (D k) (D (S k)) act dt ext p Hk (steady_off n D act dt ext p Hv H0 Hdt H k) Ek a). reflexivity.
Qed.

Section Braking.
Variables (v : nat -> R) (h : R).
Hypothesis step : forall k, v (S k) = v k - h * sq_signed (v k).

Lemma brake_abs k : v (S k) = v k * (1 - h * Rabs (v k)).
Proof. rewrite step. unfold sq_signed. ring. Qed.

Lemma brake_slows : 0 <= h -> h * Rabs (v 0%nat) <= 1 ->
  forall k, Rabs (v (S k)) <= Rabs (v k) /\ 0 <= v k * v 0%nat /\
    Rabs (v k) * (1 + INR k * (h * Rabs (v 0%nat))) <= Rabs (v 0%nat).
Proof.
  intros Hh H1.
  assert (B : forall k, Rabs (v k) <= Rabs (v 0%nat) /\ 0 <= v k * v 0%nat /\
    Rabs (v k) * (1 + INR k * (h * Rabs (v 0%nat))) <= Rabs (v 0%nat)).
  { induction k as [|k (A1 & A2 & A3)]; [cbn; repeat split; try lra; nra|].
    pose proof (Rabs_pos (v k)) as P. pose proof (Rabs_pos (v 0%nat)) as P0.
    assert (F : 0 <= 1 - h * Rabs (v k) <= 1) by nra.
    assert (E : Rabs (v (S k)) = Rabs (v k) * (1 - h * Rabs (v k))).
    { rewrite brake_abs, Rabs_mult. f_equal. apply Rabs_right. lra. }
    rewrite E, brake_abs. repeat split; [nra|nra|].
    rewrite S_INR. set (x := h * Rabs (v k)) in *. set (z := h * Rabs (v 0%nat)) in *.
    set (u := Rabs (v k)) in *. set (u0 := Rabs (v 0%nat)) in *.
    pose proof (pos_INR k) as Pk.
    assert (Z : u * z = x * u0) by (unfold x, z; ring).
    assert (Q : x * (1 + INR k * z) <= z).
    { unfold x, z at 2. rewrite Rmult_assoc. apply Rmult_le_compat_l; [exact Hh|exact A3]. }
    assert (z0 : 0 <= z) by (unfold z; nra).
    assert (y : u * (1 + INR k * z) * (1 - x) <= u0 * (1 - x)) by (apply Rmult_le_compat_r; lra).
    assert (y2 : u * z * (1 - x) <= u * z * 1) by (apply Rmult_le_compat_l; nra).
    replace (u * (1 - x) * (1 + (INR k + 1) * z)) with (u * (1 + INR k * z) * (1 - x) + u * z * (1 - x)) by ring.
    nra. }
  intros k. destruct (B k) as (A1 & A2 & A3). split; [|split; assumption].
  pose proof (Rabs_pos (v k)) as P. rewrite brake_abs, Rabs_mult.
  rewrite (Rabs_right (1 - h * Rabs (v k))) by nra. nra.
Qed.

Lemma brake_runs_away : 2 < h * Rabs (v 0%nat) ->
  forall k, Rabs (v 0%nat) * (h * Rabs (v 0%nat) - 1) ^ k <= Rabs (v k) /\ v k * v (S k) < 0.
Proof.
  intros H2. pose proof (Rabs_pos (v 0%nat)) as P0.
  assert (Hh : 0 < h) by nra.
  assert (P : 0 < Rabs (v 0%nat)) by nra.
  assert (B : forall k, Rabs (v 0%nat) <= Rabs (v k) /\ Rabs (v 0%nat) * (h * Rabs (v 0%nat) - 1) ^ k <= Rabs (v k)).
  { induction k as [|k (A1 & A2)]; [cbn; lra|].
    assert (E : Rabs (v (S k)) = Rabs (v k) * (h * Rabs (v k) - 1)).
    { rewrite brake_abs, Rabs_mult. f_equal. rewrite Rabs_left; nra. }
    assert (M : h * Rabs (v 0%nat) - 1 <= h * Rabs (v k) - 1) by nra.
    rewrite E. split; [nra|]. cbn [pow].
    replace (Rabs (v 0%nat) * ((h * Rabs (v 0%nat) - 1) * (h * Rabs (v 0%nat) - 1) ^ k))
      with (Rabs (v 0%nat) * (h * Rabs (v 0%nat) - 1) ^ k * (h * Rabs (v 0%nat) - 1)) by ring.
    apply Rmult_le_compat; try lra. apply Rmult_le_pos; [lra|]. apply pow_le. lra. }
  intros k. destruct (B k) as [A1 A2]. split; [exact A2|].
  rewrite brake_abs. assert (M : 1 < h * Rabs (v k)) by nra.
  assert (S : 0 < v k * v k).
  { assert (0 < Rabs (v k) * Rabs (v k)) by nra. rewrite <- Rabs_mult in H.
    rewrite Rabs_right in H; [exact H|]. nra. }
  nra.
Qed.
End Braking.

Lemma drag_slows {G : Gen R} n (D : nat -> Dyn R G) act dt ext p a :
  vehicle n (D O) act p -> rotors_off n p (d_state (D O)) act -> 0 < dt <= 1/100 -> steady_flight D act dt ext ->
  0 < p_mass p -> 0 <= p_drag p -> pr a (p_grav p) + pr a ext = 0 ->
  p_drag p * Rabs (pr a (s_vel (d_state (D O)))) * dt <= p_mass p ->
  forall k, let v := fun j => pr a (s_vel (d_state (D j))) in
    Rabs (v (S k)) <= Rabs (v k) /\ 0 <= v k * v O /\
    Rabs (v k) * (1 + p_drag p / p_mass p * Rabs (v O) * (INR k * dt)) <= Rabs (v O).
Proof.
  intros Hv H0 Hdt H Hm Hc Hg Hs k v.
  assert (St : forall j, v (S j) = v j - (p_drag p / p_mass p * dt) * sq_signed (v j)).
  { intros j. unfold v. rewrite (off_velocity n D act dt ext p Hv H0 Hdt H j a).
    replace (pr a (p_grav p) + drag_spec (p_drag p) (s_vel (d_state (D j))) a + pr a ext)
      with (drag_spec (p_drag p) (s_vel (d_state (D j))) a) by lra.
    unfold drag_spec. field. lra. }
  assert (Ph : 0 <= p_drag p / p_mass p) by (apply Rmult_le_pos; [exact Hc|left; apply Rinv_0_lt_compat; exact Hm]).
  destruct (brake_slows v (p_drag p / p_mass p * dt) St) with (k := k) as (A & B & C).
  - apply Rmult_le_pos; lra.
  - unfold v. replace (p_drag p / p_mass p * dt * Rabs (pr a (s_vel (d_state (D O)))))
      with (p_drag p * Rabs (pr a (s_vel (d_state (D O)))) * dt / p_mass p) by (field; lra).
    apply (Rmult_le_reg_r (p_mass p)); [exact Hm|]. unfold Rdiv. rewrite Rmult_assoc, Rinv_l by lra. lra.
  - split; [exact A|split; [exact B|]]. eapply Rle_trans; [|exact C]. apply Req_le. ring.
Qed.

Lemma drag_runs_away {G : Gen R} n (D : nat -> Dyn R G) act dt ext p a :
  vehicle n (D O) act p -> rotors_off n p (d_state (D O)) act -> 0 < dt <= 1/100 -> steady_flight D act dt ext ->
  0 < p_mass p -> pr a (p_grav p) + pr a ext = 0 ->
  2 * p_mass p < p_drag p * Rabs (pr a (s_vel (d_state (D O)))) * dt ->
  forall k, let v := fun j => pr a (s_vel (d_state (D j))) in
    Rabs (v O) * (p_drag p / p_mass p * Rabs (v O) * dt - 1) ^ k <= Rabs (v k) /\ v k * v (S k) < 0.
Proof.
  intros Hv H0 Hdt H Hm Hg Hs k v.
  assert (St : forall j, v (S j) = v j - (p_drag p / p_mass p * dt) * sq_signed (v j)).
  { intros j. unfold v. rewrite (off_velocity n D act dt ext p Hv H0 Hdt H j a).
    replace (pr a (p_grav p) + drag_spec (p_drag p) (s_vel (d_state (D j))) a + pr a ext)
      with (drag_spec (p_drag p) (s_vel (d_state (D j))) a) by lra.
    unfold drag_spec. field. lra. }
  replace (p_drag p / p_mass p * Rabs (v O) * dt) with (p_drag p / p_mass p * dt * Rabs (v O)) by ring.
  apply (brake_runs_away v _ St).
  unfold v. replace (p_drag p / p_mass p * dt * Rabs (pr a (s_vel (d_state (D O)))))
    with (p_drag p * Rabs (pr a (s_vel (d_state (D O)))) * dt / p_mass p) by (field; lra).
  apply (Rmult_lt_reg_r (p_mass p)); [exact Hm|]. unfold Rdiv. rewrite Rmult_assoc, Rinv_l by lra. lra.
Qed.

(** ** Terminal speed *)
Section Terminal.
Variables (u : nat -> R) (h c F vt : R).
Hypothesis step : forall k, u (S k) = u k + h * (F - c * sq_signed (u k)).
Hypothesis Hh : 0 < h. Hypothesis Hc : 0 < c. Hypothesis Hvt : 0 <= vt. Hypothesis HF : F = c * (vt * vt).
Hypothesis H0 : 0 <= u 0%nat. Hypothesis Hs : h * c * (vt + Rmax (u 0%nat) vt) <= 1.

Lemma terminal_factor x : 0 <= x <= Rmax (u 0%nat) vt -> 0 <= 1 - h * c * (vt + x) <= 1 - h * c * vt /\ 1 - h * c * vt <= 1.
Proof.
  intros Hx. assert (hc : 0 < h * c) by nra.
  assert (A : h * c * (vt + x) <= h * c * (vt + Rmax (u 0%nat) vt)) by (apply Rmult_le_compat_l; lra).
  assert (B : 0 <= h * c * x) by (apply Rmult_le_pos; lra).
  assert (C : 0 <= h * c * vt) by (apply Rmult_le_pos; lra).
  lra.
Qed.

Lemma terminal_steps k :
  0 <= u k <= Rmax (u 0%nat) vt /\ Rabs (u (S k) - vt) <= (1 - h * c * vt) * Rabs (u k - vt) /\ 0 <= (u k - vt) * (u 0%nat - vt).
Proof.
  pose proof (Rmax_l (u 0%nat) vt) as M1. pose proof (Rmax_r (u 0%nat) vt) as M2.
  assert (E : forall j, 0 <= u j -> u (S j) - vt = (u j - vt) * (1 - h * c * (vt + u j))).
  { intros j Hj. rewrite step, HF. unfold sq_signed. rewrite Rabs_right by lra. ring. }
  assert (A : 0 <= u k <= Rmax (u 0%nat) vt /\ 0 <= (u k - vt) * (u 0%nat - vt)).
  { induction k as [|k [[L U] S0]]; [split; [lra|apply Rle_0_sqr]|].
    destruct (terminal_factor (u k) (conj L U)) as [F1 F2].
    pose proof (E k L) as Ek. set (f := 1 - h * c * (vt + u k)) in *. split.
    - destruct (Rle_dec vt (u k)) as [Q|Q].
      + assert (X1 : 0 <= (u k - vt) * f) by (apply Rmult_le_pos; lra).
        assert (X2 : (u k - vt) * f <= (u k - vt) * 1) by (apply Rmult_le_compat_l; lra). lra.
      + assert (X1 : 0 <= (vt - u k) * f) by (apply Rmult_le_pos; lra).
        assert (X2 : (vt - u k) * f <= (vt - u k) * 1) by (apply Rmult_le_compat_l; lra). lra.
    - rewrite Ek. replace ((u k - vt) * f * (u 0%nat - vt)) with ((u k - vt) * (u 0%nat - vt) * f) by ring.
      apply Rmult_le_pos; lra. }
  destruct A as [[L U] S0]. split; [split; assumption|split; [|exact S0]].
  destruct (terminal_factor (u k) (conj L U)) as [F1 F2].
  rewrite (E k L), Rabs_mult. rewrite (Rabs_right (1 - _)) by lra.
  rewrite Rmult_comm. apply Rmult_le_compat_r; [apply Rabs_pos|lra].
Qed.

Lemma terminal_rate k : Rabs (u k - vt) <= (1 - h * c * vt) ^ k * Rabs (u 0%nat - vt).
Proof.
  pose proof (Rmax_l (u 0%nat) vt) as M1.
  destruct (terminal_factor (u 0%nat) (conj H0 M1)) as [F1 F2].
  induction k as [|k IH]; [cbn; lra|]. destruct (terminal_steps k) as (_ & B & _).
  cbn [pow]. rewrite Rmult_assoc. eapply Rle_trans; [exact B|]. apply Rmult_le_compat_l; [lra|exact IH].
Qed.
End Terminal.

Lemma terminal_speed {G : Gen R} n (D : nat -> Dyn R G) act dt ext p a :
  vehicle n (D O) act p -> rotors_off n p (d_state (D O)) act -> 0 < dt <= 1/100 -> steady_flight D act dt ext ->
  0 < p_mass p -> 0 < p_drag p -> pr a (p_grav p) + pr a ext < 0 ->
  let u := fun j => - pr a (s_vel (d_state (D j))) in
  let vt := sqrt (- (pr a (p_grav p) + pr a ext) / p_drag p) in
  0 <= u O -> p_drag p * (vt + Rmax (u O) vt) * dt <= p_mass p ->
  forall k, 0 <= (u k - vt) * (u O - vt) /\ Rabs (u k - vt) <= (1 - p_drag p * vt * dt / p_mass p) ^ k * Rabs (u O - vt).
Proof.
  intros Hv H0 Hdt H Hm Hc Hg u vt Hu Hs k.
  set (F := - (pr a (p_grav p) + pr a ext)) in *.
  assert (PF : 0 < F / p_drag p) by (apply Rmult_lt_0_compat; [unfold F; lra|apply Rinv_0_lt_compat; exact Hc]).
  assert (Hvt : 0 < vt) by (apply sqrt_lt_R0; exact PF).
  assert (VV : vt * vt = F / p_drag p) by (apply sqrt_sqrt; lra).
  assert (St : forall j, u (S j) = u j + dt / p_mass p * (F - p_drag p * sq_signed (u j))).
  { intros j. unfold u. rewrite (off_velocity n D act dt ext p Hv H0 Hdt H j a), sq_signed_opp. unfold drag_spec, F. field. lra. }
  assert (Im : 0 < / p_mass p) by (apply Rinv_0_lt_compat; exact Hm).
  assert (Ph : 0 < dt / p_mass p) by (apply Rmult_lt_0_compat; lra).
  assert (HF : F = p_drag p * (vt * vt)) by (rewrite VV; field; lra).
  assert (Hs' : dt / p_mass p * p_drag p * (vt + Rmax (u O) vt) <= 1).
  { replace (dt / p_mass p * p_drag p * (vt + Rmax (u O) vt)) with (p_drag p * (vt + Rmax (u O) vt) * dt * / p_mass p) by (field; lra).
    apply (Rmult_le_reg_r (p_mass p)); [exact Hm|]. rewrite Rmult_assoc, Rinv_l by lra. lra. }
  split.
  - apply (terminal_steps u _ _ F vt St Ph Hc (Rlt_le _ _ Hvt) HF Hu Hs' k).
  - pose proof (terminal_rate u _ _ F vt St Ph Hc (Rlt_le _ _ Hvt) HF Hu Hs' k) as T.
    replace (p_drag p * vt * dt / p_mass p) with (dt / p_mass p * p_drag p * vt) by (field; lra). exact T.
Qed.

Lemma terminal_limit {G : Gen R} n (D : nat -> Dyn R G) act dt ext p a :
  vehicle n (D O) act p -> rotors_off n p (d_state (D O)) act -> 0 < dt <= 1/100 -> steady_flight D act dt ext ->
  0 < p_mass p -> 0 < p_drag p -> pr a (p_grav p) + pr a ext < 0 ->
  let u := fun j => - pr a (s_vel (d_state (D j))) in
  let vt := sqrt (- (pr a (p_grav p) + pr a ext) / p_drag p) in
  0 <= u O -> p_drag p * (vt + Rmax (u O) vt) * dt <= p_mass p -> Un_cv u vt.
Proof.
  intros Hv H0 Hdt H Hm Hc Hg u vt Hu Hs.
  pose proof (terminal_speed n D act dt ext p a Hv H0 Hdt H Hm Hc Hg Hu Hs) as T. cbv zeta in T. fold vt in T.
  set (F := - (pr a (p_grav p) + pr a ext)) in *.
  assert (PF : 0 < F / p_drag p) by (apply Rmult_lt_0_compat; [unfold F; lra|apply Rinv_0_lt_compat; exact Hc]).
  assert (Hvt : 0 < vt) by (apply sqrt_lt_R0; exact PF).
  set (q := 1 - p_drag p * vt * dt / p_mass p) in *.
  assert (Im : 0 < / p_mass p) by (apply Rinv_0_lt_compat; exact Hm).
  assert (q1 : 0 <= q < 1).
  { pose proof (Rmax_r (u O) vt) as M. unfold q.
    assert (A : 0 < p_drag p * vt * dt / p_mass p).
    { apply Rmult_lt_0_compat; [|exact Im]. apply Rmult_lt_0_compat; [nra|lra]. }
    assert (B : p_drag p * vt * dt / p_mass p <= 1).
    { apply (Rmult_le_reg_r (p_mass p)); [exact Hm|]. unfold Rdiv. rewrite Rmult_assoc, Rinv_l by lra.
      rewrite Rmult_1_r, Rmult_1_l. eapply Rle_trans; [|exact Hs]. apply Rmult_le_compat_r; [lra|].
      apply Rmult_le_compat_l; [lra|]. pose proof (Rle_trans _ _ _ (Rlt_le _ _ Hvt) M). lra. }
    lra. }
  set (e0 := Rabs (u O - vt)) in *.
  intros eps He.
  destruct (pow_lt_1_zero q ltac:(rewrite Rabs_right; lra) (eps / (e0 + 1)) ) as [N HN].
  { apply Rmult_lt_0_compat; [lra|apply Rinv_0_lt_compat; pose proof (Rabs_pos (u O - vt)); unfold e0; lra]. }
  exists N. intros k Hk. unfold R_dist. pose proof (T k) as [_ Tk]. specialize (HN k Hk).
  rewrite Rabs_right in HN by (apply Rle_ge, pow_le; lra).
  assert (E0 : 0 <= e0) by apply Rabs_pos.
  assert (q ^ k * (e0 + 1) < eps).
  { apply (Rmult_lt_compat_r (e0 + 1)) in HN; [|lra]. unfold Rdiv in HN. rewrite Rmult_assoc, Rinv_l in HN by lra. lra. }
  pose proof (pow_le q k ltac:(lra)) as PW. eapply Rle_lt_trans; [exact Tk|]. change (q ^ k * e0 < eps). lra.
Qed.

(** ** Steady flights exist *)
Definition next_dyn {G : Gen R} act dt ext noise (d : Dyn R G) : Dyn R G :=
  match process d act dt ext noise with Ok y => y | _ => d end.
Lemma flight_exists {G : Gen R} n (d : Dyn R G) act dt ext noise p :
  vehicle n d act p -> length (p_motors p) = n -> 0 < dt <= 1/100 ->
  exists D : nat -> Dyn R G, D O = d /\ forall k, process (D k) act dt ext noise = Ok (D (S k)).
Proof.
  intros Hv Hl Hdt. exists (fun k => Nat.iter k (next_dyn act dt ext noise) d). split; [reflexivity|].
  assert (V : forall k, vehicle n (Nat.iter k (next_dyn act dt ext noise) d) act p /\
    process (Nat.iter k (next_dyn act dt ext noise) d) act dt ext noise = Ok (Nat.iter (S k) (next_dyn act dt ext noise) d)).
  { assert (A : forall x : Dyn R G, vehicle n x act p -> vehicle n (next_dyn act dt ext noise x) act p /\ process x act dt ext noise = Ok (next_dyn act dt ext noise x)).
    { intros x Hx. destruct (complete_step_defined n x act dt ext noise p Hx Hl ltac:(lra)) as [y Hy].
      unfold next_dyn. rewrite Hy. split; [|reflexivity]. eapply vehicle_core; [exact Hx|]. apply process_small_inv; [exact Hdt|exact Hy]. }
    intros k. assert (Vk : vehicle n (Nat.iter k (next_dyn act dt ext noise) d) act p).
    { induction k as [|k IH]; [exact Hv|]. cbn [Nat.iter nat_rect]. apply A. exact IH. }
    split; [exact Vk|]. apply A, Vk. }
  intros k. apply V.
Qed.
Lemma steady_exists {G : Gen R} n (d : Dyn R G) act dt ext p :
  vehicle n d act p -> length (p_motors p) = n -> 0 < dt <= 1/100 ->
  exists D : nat -> Dyn R G, D O = d /\ steady_flight D act dt ext.
Proof. apply flight_exists. Qed.
