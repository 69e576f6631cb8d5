(** Statements about histories and API-level forms of the dynamics lemmas. *)

From Coq Require Import ZArith List Bool Lia Reals Lra Psatz.
From Verif Require Import Scalar LinAlg MUtils MModel MDynamics SpecDyn SpecRun SpecMix
  PBase PDyn PModel PDynR PPhys PNoise EBase PVeh PMix.
Import ListNotations.

Section Gen.
Context {T : Type} {O : Ops T} {G : Gen T}.

Lemma process_speeds_api (S : Sane O) (d d' : Dyn T G) act dt ext noise p :
  get_params (d_model d) = Some p -> process d act dt ext noise = Ok d' ->
  speeds_ok (p_motors p) (s_mvel (d_state d')).
Proof.
  intros Hp H. apply get_params_cfg in Hp as (c & Hc & <-). eapply process_speeds; eauto.
Qed.

Lemma get_params_of_cfg (m1 m2 : ModelObj T G) : mo_cfg m1 = mo_cfg m2 -> get_params m1 = get_params m2.
Proof. unfold get_params. intros ->. reflexivity. Qed.

Lemma process_params (S : Sane O) (d d' : Dyn T G) act dt ext noise :
  process d act dt ext noise = Ok d' -> get_params (d_model d') = get_params (d_model d).
Proof. intros H. apply get_params_of_cfg. eapply process_cfg; eauto. Qed.

(** Limits hold after every call of a run once they hold at its start. *)
Lemma run_speeds (S : Sane O) p (l : list (Call T)) : forall (d d' : Dyn T G),
  get_params (d_model d) = Some p -> speeds_ok (p_motors p) (s_mvel (d_state d)) ->
  dyn_run d l = Some d' -> speeds_ok (p_motors p) (s_mvel (d_state d')).
Proof.
  induction l as [|c l IH]; intros d d' Hp Hs H; cbn [dyn_run] in H.
  - injection H as <-. exact Hs.
  - destruct (process d (k_act c) (k_dt c) (k_ext c) (k_noise c)) as [x|x|] eqn:E; [| |discriminate].
    + eapply IH; [| |exact H].
      * rewrite (process_params S _ _ _ _ _ _ E). exact Hp.
      * eapply process_speeds_api; eauto.
    + apply (process_throw_only S) in E as [_ ->]. eapply IH; eauto.
Qed.

Lemma vehicle_ready n (d : Dyn T G) act p :
  vehicle n d act p -> length (p_motors p) = n -> ready d act.
Proof.
  intros (Hr & Hp & Ha & Hw) Hn. apply get_params_cfg in Hp as (c & Hc & <-).
  apply model_reach_ok in Hr as [_ Hk]. rewrite Hc in Hk. destruct Hk as (Hk & _).
  exists c. repeat split; try assumption; congruence.
Qed.

(** A short step of a complete vehicle is never undefined, in any arithmetic. *)
Lemma short_step_defined n (d : Dyn T G) act dt ext noise p :
  vehicle n d act p -> length (p_motors p) = n ->
  leb dt zero = false -> ltb dtmax dt = false ->
  exists d', process d act dt ext noise = Ok d'.
Proof.
  intros Hv Hn H0 H1. unfold process. rewrite H0, H1.
  destruct (euler_core_total d act dt ext noise (vehicle_ready n d act p Hv Hn)) as [d' Hd'].
  exists d'. rewrite Hd'. reflexivity.
Qed.

End Gen.

Local Open Scope R_scope.

Lemma run_unit {G : Gen R} (l : list (Call R)) : forall (d d' : Dyn R G),
  unitq (s_ori (d_state d)) -> dyn_run d l = Some d' -> unitq (s_ori (d_state d')).
Proof.
  induction l as [|c l IH]; intros d d' Hq H; cbn [dyn_run] in H.
  - injection H as <-. exact Hq.
  - pose proof (process_unit_any d (k_act c) (k_dt c) (k_ext c) (k_noise c) Hq) as U.
    destruct (process d (k_act c) (k_dt c) (k_ext c) (k_noise c)) as [x|x|]; [| |discriminate]; eapply IH; eauto.
Qed.

Lemma complete_step_defined {G : Gen R} n (d : Dyn R G) act dt ext noise p :
  vehicle n d act p -> length (p_motors p) = n -> 0 < dt <= 2147483647 / 100 ->
  exists d', process d act dt ext noise = Ok d'.
Proof.
  intros Hv Hn Hdt. destruct (process_total d act dt ext noise (vehicle_ready n d act p Hv Hn) Hdt) as (d' & H & _).
  exists d'. exact H.
Qed.

(** The attitude step: old attitude plus dt/2 times attitude * (0, rates),
    scaled back to unit length by a positive factor. *)
Lemma step_attitude {G : Gen R} (d d' : Dyn R G) act dt ext noise :
  nonzeroq (s_ori (d_state d)) -> 0 < dt <= 1/100 -> process d act dt ext noise = Ok d' ->
  let q := s_ori (d_state d) in let q' := s_ori (d_state d') in let w := s_angvel (d_state d) in
  unitq q' /\ exists k, 0 < k /\
    k * qw q' = qw q + dt / 2 * (- qx q * vx w - qy q * vy w - qz q * vz w) /\
    k * qx q' = qx q + dt / 2 * (qw q * vx w + qy q * vz w - qz q * vy w) /\
    k * qy q' = qy q + dt / 2 * (qw q * vy w + qz q * vx w - qx q * vz w) /\
    k * qz q' = qz q + dt / 2 * (qw q * vz w + qx q * vy w - qy q * vx w).
Proof.
  intros Hq Hdt H. cbv zeta. split; [eapply process_unit; eauto|].
  apply process_small_inv in H; [|exact Hdt].
  apply euler_core_inv in H as [[c Hc] Hi].
  destruct (Hi c Hc) as (mo & des & macc & mvel & Hn & Hm & Hd & Ha & Hv & ->).
  cbn [d_state s_ori]. set (q := s_ori (d_state d)) in *. set (w := s_angvel (d_state d)).
  set (r := qadd q (qmap (fun x => mul x dt) (quat_derivative q w))).
  assert (P : 0 < qsqn r). { unfold r. rewrite qsum_sq. apply Rmult_lt_0_compat; [exact Hq|]. unfold dot3. nra. }
  exists (sqrt (qsqn r)). split; [apply sqrt_lt_R0; exact P|].
  assert (S0 : sqrt (qsqn r) <> 0) by (apply Rgt_not_eq, sqrt_lt_R0; exact P).
  unfold qnormalized. unR. assert (Rltb 0 (qsqn r) = true) as -> by (apply Rltb_true; exact P).
  unfold qmap at 1 2 3 4. cbn [qw qx qy qz].
  set (k := sqrt (qsqn r)) in *.
  assert (F : forall x, k * (x / k) = x) by (intros x; field; exact S0). rewrite !F.
  unfold r, quat_derivative. unV. repeat split; field.
Qed.

(** The rotor speed converges to the command. *)
Lemma rotor_limit {G : Gen R} (D : nat -> Dyn R G) act dt (ext : nat -> V3 R) noise p i m cmd w0 (w : nat -> R) :
  get_params (d_model (D O)) = Some p ->
  (forall k, process (D k) act dt (ext k) noise = Ok (D (S k))) -> 0 < dt <= 1/100 ->
  length act = length (s_mvel (d_state (D O))) ->
  nth_error (p_motors p) i = Some m -> nth_error act i = Some cmd -> nth_error (s_mvel (d_state (D O))) i = Some w0 ->
  mt_min m <= cmd <= mt_max m -> mt_min m <= w0 <= mt_max m -> dt <= mt_tau m ->
  (forall k, nth_error (s_mvel (d_state (D k))) i = Some (w k)) ->
  Un_cv w cmd.
Proof.
  intros A1 A2 A3 A4 A5 A6 A7 A8 A9 A10 Hw.
  pose proof (rotor_lag D act dt ext noise p i m cmd w0 A1 A2 A3 A4 A5 A6 A7 A8 A9 A10) as L.
  set (r := 1 - dt / mt_tau m) in *.
  assert (Hr : 0 <= r < 1).
  { unfold r. assert (0 < mt_tau m) by lra.
    assert (0 < dt / mt_tau m) by (apply Rdiv_lt_0_compat; lra).
    assert (dt / mt_tau m <= 1). { apply (Rmult_le_reg_r (mt_tau m)); [lra|]. unfold Rdiv. rewrite Rmult_assoc, Rinv_l by lra. lra. }
    lra. }
  intros eps He.
  destruct (Req_dec w0 cmd) as [E0|E0].
  - exists O. intros k _. destruct (L k) as (wk & Hk & E & _). rewrite Hw in Hk. injection Hk as <-.
    unfold R_dist. rewrite E, E0. replace (r ^ k * (cmd - cmd)) with 0 by ring. rewrite Rabs_R0. exact He.
  - assert (H1 : Rabs r < 1) by (rewrite Rabs_right; lra).
    assert (P : 0 < eps / Rabs (w0 - cmd)) by (apply Rdiv_lt_0_compat; [exact He|apply Rabs_pos_lt; lra]).
    destruct (pow_lt_1_zero r H1 _ P) as [N HN]. exists N. intros k Hk.
    destruct (L k) as (wk & Hk' & E & _). rewrite Hw in Hk'. injection Hk' as <-.
    unfold R_dist. rewrite E, Rabs_mult. specialize (HN k Hk).
    apply (Rmult_lt_compat_r (Rabs (w0 - cmd))) in HN; [|apply Rabs_pos_lt; lra].
    unfold Rdiv in HN. rewrite Rmult_assoc, Rinv_l in HN; [lra|]. apply Rabs_no_R0. lra.
Qed.

(** Hovering through a whole run. *)
Lemma hover_run {G : Gen R} n act p (l : list (Call R)) : forall (d d' : Dyn R G),
  vehicle n d act p -> in_equilibrium p (d_state d) act ->
  (forall c, In c l -> k_act c = act /\ k_ext c = mkV 0 0 0 /\ k_noise c = false) ->
  dyn_run d l = Some d' ->
  s_pos (d_state d') = s_pos (d_state d) /\ s_ori (d_state d') = s_ori (d_state d) /\
  s_vel (d_state d') = mkV 0 0 0 /\ s_angvel (d_state d') = mkV 0 0 0 /\ s_mvel (d_state d') = act.
Proof.
  induction l as [|c l IH]; intros d d' Hv He Hc H; cbn [dyn_run] in H.
  - injection H as <-. destruct He as (A & B & _ & C & _). repeat split; congruence.
  - destruct (Hc c (or_introl eq_refl)) as (E1 & E2 & E3). rewrite E1, E2, E3 in H.
    pose proof (hover_forever n d act (k_dt c) p Hv He) as K.
    destruct (process d act (k_dt c) (mkV 0 0 0) false) as [x|x|]; [| |discriminate].
    + destruct K as (K1 & K2 & K3 & K4).
      destruct (IH x d' K3 K4 (fun c' Hc' => Hc c' (or_intror Hc')) H) as (R1 & R2 & R3).
      rewrite R1, R2, K1, K2. repeat split; apply R3.
    + subst x. apply (IH d d' Hv He (fun c' Hc' => Hc c' (or_intror Hc')) H).
Qed.

(** Newton and Euler at the interface. *)
Lemma process_newton {G : Gen R} n (d d' : Dyn R G) act dt ext noise p :
  vehicle n d act p -> 0 < dt <= 1/100 -> process d act dt ext noise = Ok d' ->
  let s := d_state d in let s' := d_state d' in
  forall a,
    pr a (s_force s') =
      to_world (s_ori s) (vec_of (rotor_force (p_motors p) (s_mvel s))) a
      + pr a (p_grav p) + drag_spec (p_drag p) (s_vel s) a + pr a (mo_sforce (d_model d')) + pr a ext
    /\ pr a (s_linacc s') = pr a (s_force s') / p_mass p
    /\ pr a (s_vel s') = pr a (s_vel s) + dt * pr a (s_linacc s')
    /\ pr a (s_pos s') = pr a (s_pos s) + dt * pr a (s_vel s).
Proof. intros Hv Hdt H. apply process_small_inv in H; [|exact Hdt]. eapply step_newton; eauto. Qed.

Lemma process_euler {G : Gen R} n (d d' : Dyn R G) act dt ext noise p :
  vehicle n d act p -> det3 (p_inertia p) <> 0 -> 0 < dt <= 1/100 -> process d act dt ext noise = Ok d' ->
  let s := d_state d in let s' := d_state d' in
  forall a,
    mat_vec (p_inertia p) (s_angacc s') a =
      rotor_torque (p_motors p) (s_mvel s) (s_macc s') a + aero_spec (p_aero p) (s_angvel s) a
      + pr a (mo_sforce (d_model d'))
      - cross3 (s_angvel s) (vec_of (mat_vec (p_inertia p) (s_angvel s))) a
    /\ pr a (s_torque s') = mat_vec (p_inertia p) (s_angacc s') a
    /\ pr a (s_angvel s') = pr a (s_angvel s) + dt * pr a (s_angacc s').
Proof.
  intros Hv Hdet Hdt H. apply process_small_inv in H; [|exact Hdt]. cbv zeta. intros a.
  destruct (step_euler n d d' _ _ _ _ _ Hv Hdet H a) as (A & B & C).
  split; [lra|]. split; assumption.
Qed.

Lemma process_noise_free {T} {O : Ops T} {G : Gen T} (S : Sane O) (d d' : Dyn T G) act dt ext :
  process d act dt ext false = Ok d' -> mo_sforce (d_model d') = v0 /\ mo_smoment (d_model d') = v0.
Proof.
  apply (process_inv1 S (fun _ => True) (fun d' => mo_sforce (d_model d') = v0 /\ mo_smoment (d_model d') = v0)); [exact I|].
  intros x y h _ E. split; [exact I|]. eapply step_nonoise; eauto.
Qed.

Lemma macc_rule {G : Gen R} (d d' : Dyn R G) act dt ext noise p i a :
  get_params (d_model d) = Some p -> 0 < dt <= 1/100 -> process d act dt ext noise = Ok d' ->
  nth_error (s_macc (d_state d')) i = Some a ->
  exists m cmd w, nth_error (p_motors p) i = Some m /\ nth_error act i = Some cmd /\
    nth_error (s_mvel (d_state d)) i = Some w /\
    a = (limited cmd (mt_min m) (mt_max m) - w) / mt_tau m.
Proof.
  intros Hp Hdt H Ha. apply process_small_inv in H; [|exact Hdt].
  apply get_params_cfg in Hp as [c [Hc Hcp]]. apply euler_core_inv in H as [_ Hi].
  destruct (Hi c Hc) as (mo & des & macc & mvel & Hn & Hm & Hd & Ha' & Hv & ->).
  cbn [d_state s_macc] in Ha. rewrite Hcp in *.
  destruct (motors_derivative_R _ _ _ _ _ _ Ha' Ha) as (x & w & m & A & B & C & D).
  destruct (clamp_motors_R _ _ _ _ _ Hd A) as (cmd & m' & A' & B' & C' & _).
  exists m, cmd, w. assert (m' = m) as -> by congruence. subst. repeat split; assumption.
Qed.
