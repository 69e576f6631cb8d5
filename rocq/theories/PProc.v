(** Proofs about the process noise. *)

From Coq Require Import ZArith List Bool Lia Reals Lra Psatz.
From Verif Require Import Scalar LinAlg MUtils MModel MDynamics SpecDyn SpecRun SpecMix SpecImu SpecMotion SpecNoise
  PBase PDyn PModel PDynR PPhys PNoise EBase PVeh PMix PWitDyn PDynMore PImu PGlide EMotion.
Import ListNotations.
Local Open Scope R_scope.

Lemma set_noise_spec {G : Gen R} (mo mo' : ModelObj R G) dt c :
  0 < dt -> mo_cfg mo = Some c -> set_noise mo dt = Some mo' ->
  let s : Rng G := (mo_eng mo, mo_dist mo) in
  (forall a, pr a (mo_sforce mo') = sqrt (p_fnoise (cf_params c) / dt) * pr a (sample G 0 s 0)) /\
  (forall a, pr a (mo_smoment mo') = sqrt (p_mnoise (cf_params c) / dt) * pr a (sample G 1 s 3)) /\
  (mo_eng mo', mo_dist mo') = rng_skip G 6 s.
Proof.
  intros Hdt Hc. unfold set_noise. assert (leb dt zero = false) as -> by (apply Rleb_false; unR; lra).
  rewrite Hc. cbn [bindo]. cbv zeta. set (s := (mo_eng mo, mo_dist mo)).
  change (mo_eng mo) with (fst s). change (mo_dist mo) with (snd s). rewrite draw3_spec. cbv zeta.
  pose proof (skip_add 3 3 s) as S3.
  pose proof (draw3_spec 1 (sqrtT (div (p_mnoise (cf_params c)) dt)) (rng_skip G 3 s)) as D.
  pose proof (sample_skip 1 3 0 s) as SS. destruct (rng_skip G 3 s) as [e1 d1]. cbn [fst snd] in D. rewrite D. cbv zeta.
  cbn [Nat.add] in SS. rewrite SS. cbn [Nat.add] in S3. destruct (rng_skip G 3 (e1, d1)) as [e2 d2].
  intros E. injection E as <-. cbn [mo_sforce mo_smoment mo_eng mo_dist]. unR. split; [|split; [|symmetry; exact S3]].
  - intros a. destruct a; reflexivity.
  - intros a. destruct a; reflexivity.
Qed.

Lemma core_noise {G : Gen R} (d d' : Dyn R G) act dt ext p :
  0 < dt -> get_params (d_model d) = Some p -> euler_core d act dt ext true = Some d' ->
  (forall a, pr a (mo_sforce (d_model d')) = sqrt (p_fnoise p / dt) * pr a (sample G 0 (dyn_rng d) 0)) /\
  dyn_rng d' = rng_skip G 6 (dyn_rng d).
Proof.
  intros Hdt Hp H. apply get_params_cfg in Hp as [c [Hc Hcp]]. apply euler_core_inv in H as [_ Hi].
  destruct (Hi c Hc) as (mo & des & macc & mvel & Hn & Hm & Hd & Ha & Hv & ->). cbv zeta. cbn [d_model].
  cbn [noise_model] in Hn. destruct (set_noise_spec _ _ dt c Hdt Hc Hn) as (A & _ & C). rewrite Hcp in A. split; [exact A|exact C].
Qed.
Lemma core_quiet {T} {O : Ops T} {G : Gen T} (d d' : Dyn T G) act dt ext :
  euler_core d act dt ext false = Some d' -> dyn_rng d' = dyn_rng d.
Proof.
  intros H. apply euler_core_inv in H as [[c Hc] Hi].
  destruct (Hi c Hc) as (mo & des & macc & mvel & Hn & Hm & Hd & Ha & Hv & ->).
  cbn in Hn. injection Hn as <-. reflexivity.
Qed.

Lemma noise_law {G : Gen R} n (d d1 d0 : Dyn R G) act dt ext p :
  vehicle n d act p -> det3 (p_inertia p) <> 0 -> 0 < dt <= 1/100 ->
  process d act dt ext true = Ok d1 -> process d act dt ext false = Ok d0 ->
  (forall a, let noise := sqrt (p_fnoise p / dt) * pr a (sample G 0 (dyn_rng d) 0) in
    pr a (s_force (d_state d1)) = pr a (s_force (d_state d0)) + noise /\
    pr a (s_torque (d_state d1)) = pr a (s_torque (d_state d0)) + noise) /\
  dyn_rng d1 = rng_skip G 6 (dyn_rng d) /\ dyn_rng d0 = dyn_rng d.
Proof.
  intros Hv Hdet Hdt H1 H0. apply process_small_inv in H1; [|exact Hdt]. apply process_small_inv in H0; [|exact Hdt].
  pose proof Hv as (_ & Hp & _ & _).
  destruct (core_noise d d1 act dt ext p ltac:(lra) Hp H1) as [S R1].
  pose proof (core_quiet d d0 act dt ext H0) as R0. split; [|split; [exact R1|exact R0]].
  destruct (step_nonoise d d0 act dt _ H0) as [S0 _].
  assert (M : s_macc (d_state d1) = s_macc (d_state d0)).
  { pose proof H1 as K1. pose proof H0 as K0. apply get_params_cfg in Hp as [c [Hc Hcp]].
    apply euler_core_inv in K1 as [_ I1]. apply euler_core_inv in K0 as [_ I0].
    destruct (I1 c Hc) as (m1 & e1 & a1 & v1 & Hn1 & Hm1 & Hd1 & Ha1 & Hv1 & E1).
    destruct (I0 c Hc) as (m0 & e0 & a0 & w0 & Hn0 & Hm0 & Hd0 & Ha0 & Hv0 & E0).
    rewrite E1, E0. cbn [d_state s_macc]. rewrite Hd1 in Hd0. injection Hd0 as <-. rewrite Ha1 in Ha0. injection Ha0 as <-. reflexivity. }
  intros a noise. unfold noise. rewrite <- (S a).
  destruct (step_newton n d d1 act dt ext true p Hv H1 a) as (N1 & _).
  destruct (step_newton n d d0 act dt ext false p Hv H0 a) as (N0 & _).
  destruct (step_euler n d d1 act dt ext true p Hv Hdet H1 a) as (_ & T1 & _).
  destruct (step_euler n d d0 act dt ext false p Hv Hdet H0 a) as (_ & T0 & _).
  cbv zeta in *. rewrite S0, pr_v0 in N0, T0. rewrite M in T1. split; lra.
Qed.

Lemma draws {G : Gen R} (d d' : Dyn R G) p l :
  get_params (d_model d) = Some p -> (forall c, In c l -> 0 < k_dt c <= 1/100) -> dyn_run d l = Some d' ->
  dyn_rng d' = rng_skip G (6 * noisy_calls l) (dyn_rng d).
Proof.
  revert d; induction l as [|c l IH]; intros d Hp Hdt H; [cbn in H; injection H as <-; reflexivity|].
  cbn [dyn_run] in H.
  assert (Hc : 0 < k_dt c <= 1/100) by (apply Hdt; left; reflexivity).
  rewrite (process_small d _ _ _ _ Hc) in H.
  destruct (euler_core d (k_act c) (k_dt c) (k_ext c) (k_noise c)) as [d1|] eqn:E; [|discriminate].
  cbn [of_opt] in H.
  assert (Hp1 : get_params (d_model d1) = Some p).
  { revert Hp. unfold get_params. rewrite (euler_core_cfg _ _ _ _ _ _ E). exact (fun x => x). }
  rewrite (IH d1 Hp1 (fun x Hx => Hdt x (or_intror Hx)) H). cbn [noisy_calls].
  destruct (k_noise c).
  - destruct (core_noise d d1 _ _ _ p (proj1 Hc) Hp E) as [_ ->].
    replace (6 * S (noisy_calls l))%nat with (6 + 6 * noisy_calls l)%nat by lia. rewrite skip_add. reflexivity.
  - rewrite (core_quiet _ _ _ _ _ E). reflexivity.
Qed.

Lemma noisy_walk {G : Gen R} n (D : nat -> Dyn R G) act dt ext p :
  vehicle n (D O) act p -> rotors_off n p (d_state (D O)) act -> p_drag p = 0 ->
  0 < dt <= 1/100 -> noisy_flight D act dt ext ->
  forall k a, let time := INR k * dt in
    pr a (s_vel (d_state (D k))) = pr a (s_vel (d_state (D O))) + (pr a (p_grav p) + pr a ext) / p_mass p * time
      + sqrt (p_fnoise p * dt) / p_mass p * walk_sum G (dyn_rng (D O)) a k.
Proof.
  intros Hv H0 Hd Hdt H k a.
  assert (C : forall j, euler_core (D j) act dt ext true = Some (D (S j))).
  { intros j. apply process_small_inv; [exact Hdt|apply H]. }
  assert (V : forall j, vehicle n (D j) act p) by (induction j as [|j IH]; [exact Hv|eapply vehicle_core; [exact IH|apply C]]).
  assert (F : forall j, rotors_off n p (d_state (D j)) act).
  { induction j as [|j IH]; [exact H0|]. eapply off_core; [apply V|exact IH|apply C]. }
  assert (Pj : forall j, get_params (d_model (D j)) = Some p) by (intros j; destruct (V j) as (_ & X & _); exact X).
  assert (S : forall j, dyn_rng (D j) = rng_skip G (6 * j) (dyn_rng (D O))).
  { induction j as [|j IH]; [reflexivity|].
    destruct (core_noise (D j) (D (S j)) act dt ext p ltac:(lra) (Pj j) (C j)) as [_ ->]. rewrite IH.
    replace (6 * Datatypes.S j)%nat with (6 * j + 6)%nat by lia. rewrite skip_add. reflexivity. }
  assert (Sq : sqrt (p_fnoise p / dt) * dt = sqrt (p_fnoise p * dt)).
  { destruct (Rle_dec 0 (p_fnoise p)) as [P|P].
    - assert (Q : 0 <= p_fnoise p / dt) by (apply Rmult_le_pos; [exact P|left; apply Rinv_0_lt_compat; lra]).
      rewrite <- (sqrt_square dt) at 2 by lra. rewrite <- sqrt_mult by nra. f_equal. field. lra.
    - rewrite (sqrt_neg_0 (p_fnoise p / dt)), (sqrt_neg_0 (p_fnoise p * dt)).
      + ring.
      + nra.
      + assert (0 < / dt) by (apply Rinv_0_lt_compat; lra). unfold Rdiv. nra. }
  cbv zeta. induction k as [|k IH]; [cbn; lra|].
  destruct (step_newton n (D k) (D (Datatypes.S k)) act dt ext true p (V k) (C k) a) as (N1 & N2 & N3 & _). cbv zeta in *.
  destruct (core_noise (D k) (D (Datatypes.S k)) act dt ext p ltac:(lra) (Pj k) (C k)) as [Z _].
  destruct (F k) as (_ & W & _). rewrite N3, N2, N1, (Z a), IH, Hd, W, (S k), sample_skip.
  replace (6 * k + 0)%nat with (6 * k)%nat by lia.
  rewrite S_INR. cbn [walk_sum]. rewrite <- Sq.
  unfold to_world, vec_of. cbn [vx vy vz]. rewrite !rotor_force_still.
  unfold drag_spec, Rdiv. ring.
Qed.

Lemma gl_noisy : exists D : nat -> Dyn R gen1, D O = ex_dyn 1 2 ex_grav 0 3 5 (mkV 1 2 3) (mkV 0 0 1) off4 /\
  vehicle 4 (D O) off4 (ex_params 1 2 ex_grav 0 3 5) /\ rotors_off 4 (ex_params 1 2 ex_grav 0 3 5) (d_state (D O)) off4 /\
  p_drag (ex_params 1 2 ex_grav 0 3 5) = 0 /\ p_fnoise (ex_params 1 2 ex_grav 0 3 5) = 3 /\
  det3 (p_inertia (ex_params 1 2 ex_grav 0 3 5)) <> 0 /\ noisy_flight D off4 (1/100) (mkV 0 0 0).
Proof.
  assert (V : vehicle 4 (ex_dyn 1 2 ex_grav 0 3 5 (mkV 1 2 3) (mkV 0 0 1) off4) off4 (ex_params 1 2 ex_grav 0 3 5)).
  { apply ex_vehicle; try lra. reflexivity. }
  destruct (flight_exists 4 _ off4 (1/100) (mkV 0 0 0) true _ V eq_refl ltac:(lra)) as (D & D0 & H).
  exists D. split; [exact D0|]. rewrite D0. split; [exact V|split; [|split; [reflexivity|split; [reflexivity|split; [|exact H]]]]].
  - exact (gl_off ex_grav 0 (mkV 1 2 3) (mkV 0 0 1)).
  - unfold ex_params, det3, mI, mdiag. cbn [p_inertia m00 m01 m02 m10 m11 m12 m20 m21 m22]. unR. lra.
Qed.
