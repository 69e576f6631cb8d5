(** Property theorems: vehicle dynamics. *)

From Coq Require Import ZArith List Bool Reals Lra.
From Flocq Require Import BinarySingleNaN.
From Verif Require Import Scalar Float64 LinAlg MUtils MModel MDynamics SpecDyn SpecRun SpecMix
  PBase PFloat PPhys PNoise EBase PVeh PMix PWitDyn PDynMore EDyn PDyn.
Import ListNotations.
Local Open Scope R_scope.

(** The order facts assumed of "any arithmetic" hold of both arithmetics. *)
Theorem arithmetic_facts : Sane ROps /\ forall L, Sane (F64Ops L).
Proof. exact (conj R_sane F64_sane). Qed.
Print Assumptions arithmetic_facts.

(** ** C01 *)
Theorem C01_rotor_limits :
  forall {T} {O : Ops T} {G : Gen T}, Sane O ->
  forall (d d' : Dyn T G) act dt ext noise p,
  get_params (d_model d) = Some p -> process d act dt ext noise = Ok d' ->
  speeds_ok (p_motors p) (s_mvel (d_state d')).
Proof. exact @process_speeds_api. Qed.
Print Assumptions C01_rotor_limits.

Theorem C01_rotor_limits_history :
  forall {T} {O : Ops T} {G : Gen T}, Sane O ->
  forall p (l : list (Call T)) (d d' : Dyn T G),
  get_params (d_model d) = Some p -> speeds_ok (p_motors p) (s_mvel (d_state d)) ->
  dyn_run d l = Some d' -> speeds_ok (p_motors p) (s_mvel (d_state d')).
Proof. exact @run_speeds. Qed.
Print Assumptions C01_rotor_limits_history.

(** No undefined clamp: a short step of a complete vehicle always returns. *)
Theorem C01_no_undefined_clamp :
  forall {T} {O : Ops T} {G : Gen T} n (d : Dyn T G) act dt ext noise p,
  vehicle n d act p -> length (p_motors p) = n ->
  leb dt zero = false -> ltb dtmax dt = false ->
  exists d', process d act dt ext noise = Ok d'.
Proof. exact @short_step_defined. Qed.
Print Assumptions C01_no_undefined_clamp.

Example C01_case : get_params (d_model exd) = Some exp1 /\
  (exists d', process exd exact1 (1/100) zero3 false = Ok d') /\
  speeds_ok (p_motors exp1) (s_mvel (d_state exd)) /\ vehicle 4 exd exact1 exp1 /\ length (p_motors exp1) = 4%nat.
Proof. exact (conj exd_params (conj (exd_step (1/100) false ltac:(lra)) (conj exd_speeds (conj exd_vehicle eq_refl)))). Qed.
Example C01_case_run : exists d', dyn_run exd [mkCall exact1 (1/100) zero3 true; mkCall exact1 0 zero3 true;
  mkCall exact1 (3/100) zero3 false] = Some d'.
Proof. exact exd_run_calls. Qed.

(** ** C02 *)
Theorem C02_unit_orientation :
  forall {G : Gen R} (d d' : Dyn R G) act dt ext noise,
  nonzeroq (s_ori (d_state d)) -> process d act dt ext noise = Ok d' -> unitq (s_ori (d_state d')).
Proof. exact @process_unit. Qed.
Print Assumptions C02_unit_orientation.

Theorem C02_unit_orientation_history :
  forall {G : Gen R} (l : list (Call R)) (d d' : Dyn R G),
  unitq (s_ori (d_state d)) -> dyn_run d l = Some d' -> unitq (s_ori (d_state d')).
Proof. exact @run_unit. Qed.
Print Assumptions C02_unit_orientation_history.

Example C02_case : unitq (s_ori (d_state exd)) /\ nonzeroq (s_ori (d_state exd)) /\ vx (s_angvel (d_state exd)) = 1 /\
  exists d', process exd exact1 (1/100) zero3 true = Ok d'.
Proof. exact (conj exd_unit (conj (unitq_nonzero _ exd_unit) (conj eq_refl (exd_step (1/100) true ltac:(lra))))). Qed.

(** ** C03 *)
Theorem C03_rejected_without_effect :
  forall {T} {O : Ops T} {G : Gen T} (d : Dyn T G) act dt ext noise,
  leb dt zero = true -> process d act dt ext noise = Throw d.
Proof. exact @process_reject. Qed.
Print Assumptions C03_rejected_without_effect.

Theorem C03_throws_only_then :
  forall {T} {O : Ops T} {G : Gen T}, Sane O -> forall (d : Dyn T G) act dt ext noise d',
  process d act dt ext noise = Throw d' -> leb dt zero = true /\ d' = d.
Proof. exact @process_throw_only. Qed.
Print Assumptions C03_throws_only_then.

Example C03_case : leb (-1) zero = true /\ leb 0 zero = true /\ leb (1/100) zero = false.
Proof. unR. split; [|split]; [apply Rleb_true|apply Rleb_true|apply Rleb_false]; lra. Qed.

(** ** C04: false; the number of 10 ms steps is dt/0.01 rounded up *)
Theorem C04_refuted :
  exists (d d' : Dyn R gen1) act dt,
    0 < dt /\ process d act dt zero3 false = Ok d' /\
    (forall a, pr a (s_force (d_state d')) = 0) /\
    vx (s_pos (d_state d)) = 0 /\ vx (s_vel (d_state d)) = 1 /\ vx (s_vel (d_state d')) = 1 /\
    vx (s_pos (d_state d')) <> vx (s_pos (d_state d)) + vx (s_vel (d_state d)) * dt.
Proof. exact substeps_overshoot. Qed.
Print Assumptions C04_refuted.

(** binary64, coasting at 1 m/s for 0.07 s: the vehicle moves about 0.08 m. *)
Theorem C04_binary64_refuted :
  forall L : Libm, exists x, f_coast_x L (@lit _ (F64Ops L) 7 100) = Some x /\
    andb (@ltb _ (F64Ops L) (@lit _ (F64Ops L) 79 1000) x) (@ltb _ (F64Ops L) x (@lit _ (F64Ops L) 81 1000)) = true.
Proof. exact b64_eight_steps. Qed.
Print Assumptions C04_binary64_refuted.

(** What does hold: a long step is k steps of 0.01 with (k-1)*0.01 < dt <= k*0.01 ... *)
Theorem C04_substeps_partial :
  forall {G : Gen R} (d : Dyn R G) act dt ext noise (k : nat),
  1 / 100 < dt -> (Z.of_nat k <= 2147483647)%Z -> (INR k - 1) * (1 / 100) < dt <= INR k * (1 / 100) ->
  process d act dt ext noise = oiter k (fun x => process x act (1/100) ext noise) d.
Proof. exact @process_is_substeps. Qed.
Print Assumptions C04_substeps_partial.

(** ... and beyond INT_MAX sub-steps the loop counter overflows. *)
Theorem C04_overflow_undefined :
  forall {G : Gen R} (d : Dyn R G) act dt ext noise,
  2147483647 / 100 < dt -> process d act dt ext noise = UB.
Proof. exact @process_overflow. Qed.
Print Assumptions C04_overflow_undefined.

Example C04_case : 1/100 < 15/1000 /\ (Z.of_nat 2 <= 2147483647)%Z /\ (INR 2 - 1) * (1/100) < 15/1000 <= INR 2 * (1/100).
Proof. split; [lra|]. split; [discriminate|]. cbn; lra. Qed.

(** ** C05: false; the acceleration is gravity divided by mass *)
Theorem C05_refuted :
  exists (d d' : Dyn R gen1) act dt p,
    vehicle 4 d act p /\ 0 < p_mass p /\ s_mvel (d_state d) = still /\ s_vel (d_state d) = zero3 /\ 0 < dt <= 1/100 /\
    process d act dt zero3 false = Ok d' /\
    vz (s_linacc (d_state d')) <> vz (p_grav p).
Proof. exact free_fall_refuted. Qed.
Print Assumptions C05_refuted.

Theorem C05_gravity_over_mass :
  forall {G : Gen R} n (d d' : Dyn R G) act dt p,
  vehicle n d act p -> s_mvel (d_state d) = repeat 0 n -> s_vel (d_state d) = mkV 0 0 0 ->
  0 < dt <= 1/100 -> process d act dt (mkV 0 0 0) false = Ok d' ->
  forall a, pr a (s_linacc (d_state d')) = pr a (p_grav p) / p_mass p.
Proof. exact @free_fall. Qed.
Print Assumptions C05_gravity_over_mass.

Example C05_case : exists d', process (ex_dyn 1 2 ex_grav 0 0 0 zero3 zero3 still) still (1/100) zero3 false = Ok d' /\
  vz (s_linacc (d_state d')) = (-981/100) / 2.
Proof. exact (ex_free_fall 2 (1/100) ltac:(lra) ltac:(lra)). Qed.

(** ** C06 *)
Theorem C06_newton :
  forall {G : Gen R} n (d d' : Dyn R G) act dt ext noise p,
  vehicle n d act p -> 0 < dt <= 1/100 -> process d act dt ext noise = Ok d' ->
  let s := d_state d in let s' := d_state d' in
  forall a,
    pr a (s_force s') =
      to_world (s_ori s) (vec_of (rotor_force (p_motors p) (s_mvel s))) a
      + pr a (p_grav p) + drag_spec (p_drag p) (s_vel s) a + pr a (mo_sforce (d_model d')) + pr a ext
    /\ pr a (s_linacc s') = pr a (s_force s') / p_mass p
    /\ pr a (s_vel s') = pr a (s_vel s) + dt * pr a (s_linacc s')
    /\ pr a (s_pos s') = pr a (s_pos s) + dt * pr a (s_vel s).
Proof. exact @process_newton. Qed.
Print Assumptions C06_newton.

Theorem C06_noise_term_absent :
  forall {T} {O : Ops T} {G : Gen T}, Sane O -> forall (d d' : Dyn T G) act dt ext,
  process d act dt ext false = Ok d' -> mo_sforce (d_model d') = v0 /\ mo_smoment (d_model d') = v0.
Proof. exact @process_noise_free. Qed.
Print Assumptions C06_noise_term_absent.

(** ** C07 (the noise term is the force sample, see C08) *)
Theorem C07_rigid_body :
  forall {G : Gen R} n (d d' : Dyn R G) act dt ext noise p,
  vehicle n d act p -> det3 (p_inertia p) <> 0 -> 0 < dt <= 1/100 -> process d act dt ext noise = Ok d' ->
  let s := d_state d in let s' := d_state d' in
  forall a,
    mat_vec (p_inertia p) (s_angacc s') a =
      rotor_torque (p_motors p) (s_mvel s) (s_macc s') a + aero_spec (p_aero p) (s_angvel s) a
      + pr a (mo_sforce (d_model d'))
      - cross3 (s_angvel s) (vec_of (mat_vec (p_inertia p) (s_angvel s))) a
    /\ pr a (s_torque s') = mat_vec (p_inertia p) (s_angacc s') a
    /\ pr a (s_angvel s') = pr a (s_angvel s) + dt * pr a (s_angacc s').
Proof. exact @process_euler. Qed.
Print Assumptions C07_rigid_body.

Theorem C07_attitude_kinematics :
  forall {G : Gen R} (d d' : Dyn R G) act dt ext noise,
  nonzeroq (s_ori (d_state d)) -> 0 < dt <= 1/100 -> process d act dt ext noise = Ok d' ->
  let q := s_ori (d_state d) in let q' := s_ori (d_state d') in let w := s_angvel (d_state d) in
  unitq q' /\ exists k, 0 < k /\
    k * qw q' = qw q + dt / 2 * (- qx q * vx w - qy q * vy w - qz q * vz w) /\
    k * qx q' = qx q + dt / 2 * (qw q * vx w + qy q * vz w - qz q * vy w) /\
    k * qy q' = qy q + dt / 2 * (qw q * vy w + qz q * vx w - qx q * vz w) /\
    k * qz q' = qz q + dt / 2 * (qw q * vz w + qx q * vy w - qy q * vx w).
Proof. exact @step_attitude. Qed.
Print Assumptions C07_attitude_kinematics.

Theorem C07_rotor_acceleration :
  forall {G : Gen R} (d d' : Dyn R G) act dt ext noise p i a,
  get_params (d_model d) = Some p -> 0 < dt <= 1/100 -> process d act dt ext noise = Ok d' ->
  nth_error (s_macc (d_state d')) i = Some a ->
  exists m cmd w, nth_error (p_motors p) i = Some m /\ nth_error act i = Some cmd /\
    nth_error (s_mvel (d_state d)) i = Some w /\
    a = (limited cmd (mt_min m) (mt_max m) - w) / mt_tau m.
Proof. exact @macc_rule. Qed.
Print Assumptions C07_rotor_acceleration.

Example C06_C07_case : vehicle 4 exd exact1 exp1 /\ det3 (p_inertia exp1) <> 0 /\
  exists d', process exd exact1 (1/100) zero3 true = Ok d'.
Proof. exact (conj exd_vehicle (conj exd_det (exd_step (1/100) true ltac:(lra)))). Qed.

(** ** C08: false *)
Theorem C08_refuted :
  exists (d : Dyn R gen1) act dt p d1 d2,
    vehicle 4 d act p /\ 0 < p_mnoise p /\
    (forall e s, fst (g_draw gen1 e s) = 1) /\
    process d act dt zero3 true = Ok d1 /\ process d act dt zero3 false = Ok d2 /\
    mo_smoment (d_model d1) <> zero3 /\
    s_torque (d_state d1) = s_torque (d_state d2) /\ s_angvel (d_state d1) = s_angvel (d_state d2).
Proof. exact moment_noise_refuted. Qed.
Print Assumptions C08_refuted.

Theorem C08_force_sample_in_torque_refuted :
  exists (d : Dyn R gen1) act dt p d1 d2,
    vehicle 4 d act p /\ p_mnoise p = 0 /\
    process d act dt zero3 true = Ok d1 /\ process d act dt zero3 false = Ok d2 /\
    s_torque (d_state d1) <> s_torque (d_state d2).
Proof. exact force_noise_in_torque. Qed.
Print Assumptions C08_force_sample_in_torque_refuted.

(** In any arithmetic, for any generator and any history: the moment noise
    parameter has no influence on the motion at all. *)
Theorem C08_parameter_ignored :
  forall {T} {O : Ops T} {G : Gen T} n p x seed s (l : list (Call T)) (d1 d2 : Dyn T G),
  dyn_new n p seed s = Some d1 -> dyn_new n (set_mnoise p x) seed s = Some d2 ->
  both (fun a b => d_state a = d_state b) (dyn_run d1 l) (dyn_run d2 l).
Proof. exact @moment_param_ignored. Qed.
Print Assumptions C08_parameter_ignored.

Example C08_case : exists d1 d2 : Dyn R gen1,
  dyn_new 4 exp1 0 (d_state exd) = Some d1 /\ dyn_new 4 (set_mnoise exp1 7) 0 (d_state exd) = Some d2.
Proof.
  exists (mkDyn (ex_model 1 2 ex_grav 1 1 1) (d_state exd)), (mkDyn (ex_model 1 2 ex_grav 1 1 7) (d_state exd)).
  unfold dyn_new. change (set_mnoise exp1 7) with (ex_params 1 2 ex_grav 1 1 7). unfold exp1.
  rewrite !ex_model_new by lra. split; reflexivity.
Qed.

(** ** C09 *)
Theorem C09_noise_free_reproducible :
  forall {T} {O : Ops T} {G1 G2 : Gen T} n p seed1 seed2 s (d1 : Dyn T G1) (d2 : Dyn T G2) (l : list (Call T)),
  dyn_new n p seed1 s = Some d1 -> dyn_new n p seed2 s = Some d2 ->
  (forall c, In c l -> k_noise c = false) ->
  both (fun a b => d_state a = d_state b) (dyn_run d1 l) (dyn_run d2 l).
Proof. exact @noise_free_reproducible. Qed.
Print Assumptions C09_noise_free_reproducible.

Theorem C09_zero_noise_is_no_noise :
  forall {G : Gen R} (d : Dyn R G) p (l : list (Call R)),
  get_params (d_model d) = Some p -> p_fnoise p = 0 ->
  both (fun a b => d_state a = d_state b) (dyn_run d l) (dyn_run d (map quiet l)).
Proof. exact @zero_correlation_silent. Qed.
Print Assumptions C09_zero_noise_is_no_noise.

Example C09_case : get_params (d_model (ex_dyn 1 2 ex_grav 1 0 3 zero3 zero3 still)) = Some (ex_params 1 2 ex_grav 1 0 3) /\
  p_fnoise (ex_params 1 2 ex_grav 1 0 3) = 0.
Proof. exact (conj eq_refl eq_refl). Qed.

(** ** C10 *)
Theorem C10_rotor_lag :
  forall {G : Gen R} (D : nat -> Dyn R G) act dt (ext : nat -> V3 R) noise p i m cmd w0,
  get_params (d_model (D O)) = Some p ->
  (forall k, process (D k) act dt (ext k) noise = Ok (D (S k))) -> 0 < dt <= 1/100 ->
  length act = length (s_mvel (d_state (D O))) ->
  nth_error (p_motors p) i = Some m -> nth_error act i = Some cmd -> nth_error (s_mvel (d_state (D O))) i = Some w0 ->
  mt_min m <= cmd <= mt_max m -> mt_min m <= w0 <= mt_max m -> dt <= mt_tau m ->
  forall k, exists wk, nth_error (s_mvel (d_state (D k))) i = Some wk /\
    wk - cmd = (1 - dt / mt_tau m) ^ k * (w0 - cmd) /\ mt_min m <= wk <= mt_max m.
Proof. exact @rotor_lag. Qed.
Print Assumptions C10_rotor_lag.

Theorem C10_rotor_limit :
  forall {G : Gen R} (D : nat -> Dyn R G) act dt (ext : nat -> V3 R) noise p i m cmd w0 (w : nat -> R),
  get_params (d_model (D O)) = Some p ->
  (forall k, process (D k) act dt (ext k) noise = Ok (D (S k))) -> 0 < dt <= 1/100 ->
  length act = length (s_mvel (d_state (D O))) ->
  nth_error (p_motors p) i = Some m -> nth_error act i = Some cmd -> nth_error (s_mvel (d_state (D O))) i = Some w0 ->
  mt_min m <= cmd <= mt_max m -> mt_min m <= w0 <= mt_max m -> dt <= mt_tau m ->
  (forall k, nth_error (s_mvel (d_state (D k))) i = Some (w k)) ->
  Un_cv w cmd.
Proof. exact @rotor_limit. Qed.
Print Assumptions C10_rotor_limit.

Example C10_case : exists D : nat -> Dyn R gen1, D O = exd /\
  forall k, process (D k) exact1 (1/100) zero3 false = Ok (D (S k)).
Proof. exact exd_runs. Qed.
Example C10_case_motor : exists m, nth_error (p_motors exp1) 3 = Some m /\ nth_error exact1 3 = Some 50 /\
  nth_error (s_mvel (d_state exd)) 3 = Some 40 /\ mt_min m <= 50 <= mt_max m /\ mt_min m <= 40 <= mt_max m /\ 1/100 <= mt_tau m.
Proof. eexists. split; [reflexivity|]. split; [reflexivity|]. split; [reflexivity|]. cbn; lra. Qed.

(** ** C17 *)
Theorem C17_hover_fixed_point :
  forall {G : Gen R} n act p (l : list (Call R)) (d d' : Dyn R G),
  vehicle n d act p -> in_equilibrium p (d_state d) act ->
  (forall c, In c l -> k_act c = act /\ k_ext c = mkV 0 0 0 /\ k_noise c = false) ->
  dyn_run d l = Some d' ->
  s_pos (d_state d') = s_pos (d_state d) /\ s_ori (d_state d') = s_ori (d_state d) /\
  s_vel (d_state d') = mkV 0 0 0 /\ s_angvel (d_state d') = mkV 0 0 0 /\ s_mvel (d_state d') = act.
Proof. exact @hover_run. Qed.
Print Assumptions C17_hover_fixed_point.

(** The hovering rotor speed balances g, not m*g, whatever the mass. *)
Example C17_case : vehicle 4 (ex_dyn 1 2 ex_grav 1 0 0 zero3 zero3 hover4) hover4 (ex_params 1 2 ex_grav 1 0 0) /\
  in_equilibrium (ex_params 1 2 ex_grav 1 0 0) (d_state (ex_dyn 1 2 ex_grav 1 0 0 zero3 zero3 hover4)) hover4.
Proof. exact (ex_hover 2 ltac:(lra)). Qed.

(** ** C19 *)
Theorem C19_translation_invariant :
  forall {G : Gen R} (d : Dyn R G) dx (l : list (Call R)),
  both (fun a b => d_state b = moved (d_state a) dx)
       (dyn_run d l) (dyn_run (dyn_set_state d (moved (d_state d) dx)) l).
Proof. exact @translation_invariant. Qed.
Print Assumptions C19_translation_invariant.

Example C19_case : exists d', dyn_run exd [mkCall exact1 (1/100) zero3 true; mkCall exact1 0 zero3 true;
  mkCall exact1 (3/100) zero3 false] = Some d'.
Proof. exact exd_run_calls. Qed.

(** ** C53 *)
Theorem C53_step_defined :
  forall {G : Gen R} n (d : Dyn R G) act dt ext noise p,
  vehicle n d act p -> length (p_motors p) = n -> 0 < dt <= 2147483647 / 100 ->
  exists d', process d act dt ext noise = Ok d'.
Proof. exact @complete_step_defined. Qed.
Print Assumptions C53_step_defined.

Example C53_case : vehicle 4 exd exact1 exp1 /\ length (p_motors exp1) = 4%nat.
Proof. exact (conj exd_vehicle eq_refl). Qed.
