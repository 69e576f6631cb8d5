(** Counterexamples and non-vacuity witnesses for the dynamics. *)

From Coq Require Import ZArith List Bool Lia Reals Lra Psatz.
From Flocq Require Import BinarySingleNaN.
From Verif Require Import Scalar Float64 LinAlg MUtils MModel MDynamics SpecDyn SpecMix SpecRun
  PBase PFloat PDyn PModel PDynR PPhys PNoise EBase PVeh PMix.
Import ListNotations.
Local Open Scope R_scope.

Definition still : list R := [0;0;0;0].
Definition zero3 : V3 R := mkV 0 0 0.

(** ** C04: time actually simulated *)
Lemma ex_coasting : coasting (ex_params 0 1 zero3 0 0 0).
Proof.
  split; [reflexivity|]. split; [reflexivity|]. intros m Hm. cbn in Hm.
  repeat destruct Hm as [<-|Hm]; try reflexivity. contradiction.
Qed.

Lemma substeps_overshoot :
  exists (d d' : Dyn R gen1) act dt,
    0 < dt /\ process d act dt zero3 false = Ok d' /\
    (* nothing acts on the vehicle *)
    (forall a, pr a (s_force (d_state d')) = 0) /\
    vx (s_pos (d_state d)) = 0 /\ vx (s_vel (d_state d)) = 1 /\ vx (s_vel (d_state d')) = 1 /\
    vx (s_pos (d_state d')) <> vx (s_pos (d_state d)) + vx (s_vel (d_state d)) * dt.
Proof.
  set (d := ex_dyn 0 1 zero3 0 0 0 (mkV 1 0 0) zero3 still).
  assert (Hr : ready d still) by (apply ex_ready; (lra || reflexivity)).
  assert (Hv : vehicle 4 d still (ex_params 0 1 zero3 0 0 0)) by (apply ex_vehicle; (lra || reflexivity)).
  assert (P : process d still (15/1000) zero3 false =
              oiter 2 (fun x => process x still (1/100) zero3 false) d).
  { apply process_is_substeps; cbn; try lra. lia. }
  destruct (process_total d still (15/1000) zero3 false Hr ltac:(lra)) as (d' & Hd' & _).
  rewrite P in Hd'.
  destruct (coast_iter 4 still _ 2 d d' Hv ex_coasting Hd') as [V X].
  exists d, d', still, (15/1000). split; [lra|]. split; [rewrite P; exact Hd'|].
  split.
  { cbn [oiter] in Hd'. destruct (process d still (1/100) zero3 false) as [d1|d1|] eqn:E1; try discriminate.
    destruct (process d1 still (1/100) zero3 false) as [d2|d2|] eqn:E2; try discriminate. injection Hd' as <-.
    apply process_small_inv in E1; [|lra]. apply process_small_inv in E2; [|lra].
    intros a. destruct (step_newton 4 d1 d2 _ _ _ _ _ (vehicle_core _ _ _ _ _ _ _ _ Hv E1) E2 a) as (N1 & _).
    destruct (step_nonoise d1 d2 _ _ _ E2) as [Hs _]. rewrite N1, Hs.
    destruct ex_coasting as (Hg & Hd & Hk). rewrite Hg, Hd. unfold to_world, vec_of. cbn [vx vy vz].
    rewrite !rotor_force_zero by exact Hk. unfold drag_spec, v0, zero3; unR. destruct a; cbn [pr vx vy vz]; ring. }
  split; [reflexivity|]. split; [reflexivity|]. split; [rewrite V; reflexivity|].
  specialize (X AX). cbn [pr] in X. rewrite X.
  replace (vx (s_vel (d_state d))) with 1 by reflexivity. replace (vx (s_pos (d_state d))) with 0 by reflexivity.
  cbn [INR]. lra.
Qed.

(** The same in binary64 for a dt that is a multiple of 0.01 in decimal. *)
Section B64.
Variable L : Libm.
#[local] Instance FO : Ops b64 := F64Ops L.
Definition f_motors (kf : b64) : list (Motor b64) :=
  quad_x kf one one one zero (ofZ 100) (lit 1 10) zero.
Definition f_params (kf m gz : b64) : Params b64 :=
  mkParams (f_motors kf) m mI zero mI (mkV zero zero gz) zero zero.
Definition f_dyn (kf m gz : b64) (v : V3 b64) (sp : list b64) : option (Dyn b64 gen1) :=
  dyn_new 4 (f_params kf m gz) 0 (mkState v0 q1 v v0 v0 v0 v0 v0 sp (repeat zero 4)).
Definition f_nan (x : b64) : bool := negb (eqb x x).

Definition f_coast_x (dt : b64) : option b64 :=
  match f_dyn zero one zero (mkV one zero zero) (repeat zero 4) with
  | Some d => match process d (repeat zero 4) dt v0 false with
              | Ok d' => Some (vx (s_pos (d_state d'))) | _ => None end
  | None => None end.

Definition holds {A} (o : option A) (f : A -> bool) : bool := match o with Some x => f x | None => false end.
Lemma holds_ex {A} (o : option A) f : holds o f = true -> exists x, o = Some x /\ f x = true.
Proof. destruct o as [x|]; [|discriminate]. intros H. exists x. split; [reflexivity|exact H]. Qed.

Lemma b64_eight_steps :
  exists x, f_coast_x (lit 7 100) = Some x /\ andb (ltb (lit 79 1000) x) (ltb x (lit 81 1000)) = true.
Proof. apply (holds_ex (f_coast_x (lit 7 100)) (fun x => andb (ltb (lit 79 1000) x) (ltb x (lit 81 1000)))). vm_compute. reflexivity. Qed.

(** Six hundredths are handled as six steps. *)
Lemma b64_six_steps :
  exists x, f_coast_x (lit 6 100) = Some x /\ andb (ltb (lit 59 1000) x) (ltb x (lit 61 1000)) = true.
Proof. apply (holds_ex (f_coast_x (lit 6 100)) (fun x => andb (ltb (lit 59 1000) x) (ltb x (lit 61 1000)))). vm_compute. reflexivity. Qed.

(** NaN parameters pass validation. *)
Lemma b64_nan_accepted : check_params (f_params one B754_nan (lit (-981) 100)) = true.
Proof. vm_compute. reflexivity. Qed.

(** Zero mass passes validation and the first step yields a NaN position later:
    velocity is already not finite after one step. *)
Definition f_zero_mass : option b64 :=
  match f_dyn one zero (lit (-981) 100) v0 (repeat zero 4) with
  | Some d => match process d (repeat zero 4) (lit 1 1000) v0 false with
              | Ok d' => match process d' (repeat zero 4) (lit 1 1000) v0 false with
                         | Ok d'' => Some (vx (s_pos (d_state d''))) | _ => None end
              | _ => None end
  | None => None end.
Lemma b64_zero_mass_nan : exists x, f_zero_mass = Some x /\ f_nan x = true.
Proof. apply holds_ex. vm_compute. reflexivity. Qed.

(** An infinite and a NaN time step. *)
Lemma b64_nan_dt_accepted :
  leb (B754_nan : b64) zero = false /\ ltb dtmax (B754_nan : b64) = false.
Proof. split; vm_compute; reflexivity. Qed.
Definition f_nan_dt : option b64 :=
  match f_dyn one one (lit (-981) 100) v0 (repeat zero 4) with
  | Some d => match process d (repeat zero 4) B754_nan v0 false with
              | Ok d' => Some (vx (s_pos (d_state d'))) | _ => None end
  | None => None end.
Lemma b64_nan_dt_poisons : exists x, f_nan_dt = Some x /\ f_nan x = true.
Proof. apply holds_ex. vm_compute. reflexivity. Qed.
End B64.

(** ** C05 *)
Lemma ex_free_fall m dt : 0 <= m -> 0 < dt <= 1/100 ->
  exists d', process (ex_dyn 1 m ex_grav 0 0 0 zero3 zero3 still) still dt zero3 false = Ok d' /\
    vz (s_linacc (d_state d')) = (-981/100) / m.
Proof.
  intros Hm Hdt. set (d := ex_dyn 1 m ex_grav 0 0 0 zero3 zero3 still).
  assert (Hr : ready d still) by (apply ex_ready; (lra || reflexivity)).
  assert (Hv : vehicle 4 d still (ex_params 1 m ex_grav 0 0 0)) by (apply ex_vehicle; (lra || reflexivity)).
  destruct (process_total d still dt zero3 false Hr ltac:(lra)) as (d' & Hd' & _).
  exists d'. split; [exact Hd'|].
  apply (free_fall 4 d d' still dt _ Hv eq_refl eq_refl Hdt Hd' AZ).
Qed.

Lemma free_fall_refuted :
  exists (d d' : Dyn R gen1) act dt p,
    vehicle 4 d act p /\ 0 < p_mass p /\ s_mvel (d_state d) = still /\ s_vel (d_state d) = zero3 /\ 0 < dt <= 1/100 /\
    process d act dt zero3 false = Ok d' /\
    vz (s_linacc (d_state d')) <> vz (p_grav p).
Proof.
  destruct (ex_free_fall 2 (1/100) ltac:(lra) ltac:(lra)) as (d' & H & E).
  exists (ex_dyn 1 2 ex_grav 0 0 0 zero3 zero3 still), d', still, (1/100), (ex_params 1 2 ex_grav 0 0 0).
  split; [apply ex_vehicle; (lra || reflexivity)|]. split; [cbn; lra|].
  split; [reflexivity|]. split; [reflexivity|]. split; [lra|]. split; [exact H|]. rewrite E. cbn. lra.
Qed.

(** ** C08 *)
Lemma moment_noise_refuted :
  exists (d : Dyn R gen1) act dt p d1 d2,
    vehicle 4 d act p /\ 0 < p_mnoise p /\
    (* every draw is 1, so a torque disturbance is due *)
    (forall e s, fst (g_draw gen1 e s) = 1) /\
    process d act dt zero3 true = Ok d1 /\ process d act dt zero3 false = Ok d2 /\
    mo_smoment (d_model d1) <> zero3 /\
    s_torque (d_state d1) = s_torque (d_state d2) /\ s_angvel (d_state d1) = s_angvel (d_state d2).
Proof.
  set (d := ex_dyn 1 1 ex_grav 0 0 1 zero3 zero3 still).
  assert (Hr : ready d still) by (apply ex_ready; (lra || reflexivity)).
  destruct (process_total d still (1/100) zero3 true Hr ltac:(lra)) as (d1 & H1 & _).
  destruct (process_total d still (1/100) zero3 false Hr ltac:(lra)) as (d2 & H2 & _).
  exists d, still, (1/100), (ex_params 1 1 ex_grav 0 0 1), d1, d2.
  split; [apply ex_vehicle; (lra || reflexivity)|]. split; [cbn; lra|]. split; [reflexivity|].
  split; [exact H1|]. split; [exact H2|].
  assert (E : d_state d1 = d_state d2).
  { pose proof (zero_correlation_silent d _ [mkCall still (1/100) zero3 true] eq_refl eq_refl) as Z.
    cbn [dyn_run map quiet k_act k_dt k_ext k_noise] in Z. rewrite H1, H2 in Z. exact Z. }
  split; [|rewrite E; split; reflexivity].
  apply process_small_inv in H1; [|lra]. apply euler_core_inv in H1 as [_ Hi].
  destruct (Hi _ eq_refl) as (mo & des & macc & mvel & Hn & Hm & Hd & Ha & Hmv & ->). cbn [d_model].
  cbn in Hn. unfold set_noise in Hn. unR.
  assert (Rleb (1/100) 0 = false) as K by (apply Rleb_false; lra). rewrite K in Hn. cbn in Hn.
  injection Hn as <-. cbn [mo_smoment]. intros B. apply (f_equal vx) in B. cbn in B. unfold one in B; unR.
  rewrite Rmult_1_r in B. assert (S : 0 < sqrt (1 / (1 / 100))) by (apply sqrt_lt_R0; lra). lra.
Qed.

Lemma force_noise_in_torque :
  exists (d : Dyn R gen1) act dt p d1 d2,
    vehicle 4 d act p /\ p_mnoise p = 0 /\
    process d act dt zero3 true = Ok d1 /\ process d act dt zero3 false = Ok d2 /\
    s_torque (d_state d1) <> s_torque (d_state d2).
Proof.
  set (d := ex_dyn 1 1 ex_grav 0 1 0 zero3 zero3 still).
  assert (Hr : ready d still) by (apply ex_ready; (lra || reflexivity)).
  assert (Hv : vehicle 4 d still (ex_params 1 1 ex_grav 0 1 0)) by (apply ex_vehicle; (lra || reflexivity)).
  destruct (process_total d still (1/100) zero3 true Hr ltac:(lra)) as (d1 & H1 & _).
  destruct (process_total d still (1/100) zero3 false Hr ltac:(lra)) as (d2 & H2 & _).
  exists d, still, (1/100), (ex_params 1 1 ex_grav 0 1 0), d1, d2.
  split; [exact Hv|]. split; [reflexivity|]. split; [exact H1|]. split; [exact H2|].
  apply process_small_inv in H1; [|lra]. apply process_small_inv in H2; [|lra].
  assert (Hdet : det3 (p_inertia (ex_params 1 1 ex_grav 0 1 0)) <> 0) by (cbn; unfold det3; cbn; unR; lra).
  destruct (step_euler 4 d d1 _ _ _ _ _ Hv Hdet H1 AX) as (_ & A & _).
  destruct (step_euler 4 d d2 _ _ _ _ _ Hv Hdet H2 AX) as (_ & B & _).
  assert (M : s_macc (d_state d1) = s_macc (d_state d2)).
  { apply euler_core_inv in H1 as [_ Hi]. destruct (Hi _ eq_refl) as (mo & des & macc & mvel & Hn & Hm & Hd & Ha & Hmv & ->).
    apply euler_core_inv in H2 as [_ Hj]. destruct (Hj _ eq_refl) as (mo2 & des2 & macc2 & mvel2 & Hn2 & Hm2 & Hd2 & Ha2 & Hmv2 & ->).
    cbn [d_state s_macc]. congruence. }
  assert (S1 : vx (mo_sforce (d_model d1)) = sqrt (1 / (1/100))).
  { apply euler_core_inv in H1 as [_ Hi]. destruct (Hi _ eq_refl) as (mo & des & macc & mvel & Hn & Hm & Hd & Ha & Hmv & ->).
    cbn in Hn. unfold set_noise in Hn. unR.
    assert (Rleb (1/100) 0 = false) as K by (apply Rleb_false; lra). rewrite K in Hn. cbn in Hn.
    injection Hn as <-. cbn. unR. ring. }
  destruct (step_nonoise d d2 _ _ _ H2) as [S2 _].
  intros E. cbn [pr] in A, B. rewrite E, M, S1 in A. rewrite S2 in B. unfold v0 in B; cbn [vx] in B; unR.
  assert (0 < sqrt (1 / (1 / 100))) by (apply sqrt_lt_R0; lra). lra.
Qed.

(** ** C12 *)
Lemma ex_mass0_accepted : exists (mo : ModelObj R gen1), model_new 4 (ex_params 1 0 ex_grav 0 0 0) 0 = Some mo /\
  get_params mo = Some (ex_params 1 0 ex_grav 0 0 0) /\ p_mass (ex_params 1 0 ex_grav 0 0 0) = 0.
Proof.
  exists (ex_model 1 0 ex_grav 0 0 0). split; [apply ex_model_new; lra|]. split; reflexivity.
Qed.

Definition bad_inertia : Params R :=
  mkParams (ex_motors 1) 1 (mdiag (-1) (-1) 1) 0 mI ex_grav 0 0.
Lemma bad_inertia_accepted : check_params bad_inertia = true /\ ~ pos_def (p_inertia bad_inertia).
Proof.
  split.
  - apply check_params_R. unfold checked, bad_inertia. cbn [p_mass p_inertia p_drag p_aero p_motors].
    split; [lra|]. split; [unfold det3; cbn; unR; lra|]. split; [lra|]. split; [unfold det3; cbn; unR; lra|].
    apply Forall_forall. intros m Hm. apply check_motor_R.
    pose proof (ex_motors_check 1 ltac:(lra)) as F. rewrite forallb_forall in F. apply F, Hm.
  - intros H. specialize (H (mkV 1 0 0)). assert (N : mkV 1 0 0 <> mkV 0 0 0) by (intros E; injection E; lra).
    specialize (H N). unfold dot3, vec_of, mat_vec in H. cbn in H. unR. lra.
Qed.

Lemma accepted_refuted :
  exists (p : Params R) (mo : ModelObj R gen1), model_new 4 p 0 = Some mo /\ get_params mo = Some p /\ ~ meaningful 4 p.
Proof.
  destruct ex_mass0_accepted as (mo & A & B & C). exists (ex_params 1 0 ex_grav 0 0 0), mo.
  split; [exact A|]. split; [exact B|]. intros (M & _). rewrite C in M. lra.
Qed.

(** A zero time constant is accepted as well. *)
Lemma tau0_accepted : exists p : Params R, check_params p = true /\ exists m, In m (p_motors p) /\ mt_tau m = 0.
Proof.
  exists (mkParams (quad_x 1 1 1 1 0 100 0 0) 1 mI 0 mI ex_grav 0 0). split.
  - apply check_params_R. unfold checked. cbn [p_mass p_inertia p_drag p_aero p_motors].
    split; [lra|]. split; [unfold det3; cbn; unR; lra|]. split; [lra|]. split; [unfold det3; cbn; unR; lra|].
    unfold quad_x. repeat (apply Forall_cons; [unfold checked_motor; cbn; lra|]); apply Forall_nil.
  - eexists. split; [left; reflexivity|]. reflexivity.
Qed.

(** Fewer motors than rotors: accepted, then undefined at the first step. *)
Lemma short_list_ub : exists (d : Dyn R gen1) p,
  dyn_new 4 p 0 (ex_state zero3 zero3 still) = Some d /\ get_params (d_model d) = Some p /\
  process d still (1/100) zero3 false = UB.
Proof.
  set (p := mkParams (firstn 3 (ex_motors 1)) 1 mI 0 mI ex_grav 0 0 : Params R).
  assert (K : check_params p = true).
  { apply check_params_R. unfold checked, p. cbn [p_mass p_inertia p_drag p_aero p_motors].
    split; [lra|]. split; [unfold det3; cbn; unR; lra|]. split; [lra|]. split; [unfold det3; cbn; unR; lra|].
    unfold ex_motors, quad_x. cbn [firstn]. repeat (apply Forall_cons; [unfold checked_motor; cbn; lra|]); apply Forall_nil. }
  destruct (update_params_total (G:=gen1) 4 (mkModel (G:=gen1) None None tt tt v0 v0) p) as [mo Hmo]; [cbn; lia|].
  exists (mkDyn mo (ex_state zero3 zero3 still)), p.
  split; [unfold dyn_new, model_new; cbn [g_seed g_dist0 gen1]; rewrite Hmo; reflexivity|].
  destruct (update_accepted 4 _ _ p K Hmo) as [Hp _]. split; [exact Hp|].
  rewrite process_small by lra.
  destruct (euler_core _ _ _ _ _) as [d'|] eqn:E; [|reflexivity]. exfalso.
  apply euler_core_inv in E as [_ Hi]. cbn [d_model] in Hi.
  apply get_params_cfg in Hp as (c & Hc & Hcp). destruct (Hi c Hc) as (m2 & des & macc & mvel & _ & _ & Hd & _).
  apply clamp_motors_le in Hd. rewrite Hcp in Hd. cbn in Hd. lia.
Qed.

(** ** C17 *)
Definition hover_speed : R := sqrt (981/100/4).
Definition hover4 : list R := [hover_speed; hover_speed; hover_speed; hover_speed].
Lemma ex_hover m : 0 <= m -> vehicle 4 (ex_dyn 1 m ex_grav 1 0 0 zero3 zero3 hover4) hover4 (ex_params 1 m ex_grav 1 0 0) /\
  in_equilibrium (ex_params 1 m ex_grav 1 0 0) (d_state (ex_dyn 1 m ex_grav 1 0 0 zero3 zero3 hover4)) hover4.
Proof.
  intros Hm. split; [apply ex_vehicle; (lra || reflexivity)|].
  assert (S0 : 0 <= hover_speed) by apply sqrt_pos.
  assert (S1 : hover_speed * hover_speed = 981/100/4) by (apply sqrt_sqrt; lra).
  assert (S2 : hover_speed <= 100) by nra.
  split; [reflexivity|]. split; [reflexivity|]. split; [unfold unitq; cbn; lra|]. split; [reflexivity|].
  split.
  { intros i x Hi. cbn [ex_params p_motors].
    assert (x = hover_speed /\ (i < 4)%nat) as [-> Hlt].
    { do 4 (destruct i as [|i]; [cbn in Hi; injection Hi as <-; split; [reflexivity|lia]|]). destruct i; discriminate. }
    do 4 (destruct i as [|i]; [eexists; split; [reflexivity|cbn; lra]|]). lia. }
  split.
  - intros a. unfold ex_params, ex_motors, hover4; cbn [p_motors p_grav].
    unfold vec_of. rewrite !quad_x_force. rewrite sq_signed_pos by exact S0. rewrite S1.
    unfold to_world, rot_entry. cbn. destruct a; cbn; unR; lra.
  - intros a. unfold ex_params, ex_motors, hover4; cbn [p_motors length repeat].
    apply (quad_x_torque 1 1 1 1 0 100 (1/10) 0 hover_speed 0 a).
Qed.
