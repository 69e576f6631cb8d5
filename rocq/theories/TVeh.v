(** Property theorems: vehicle parameters, mixer, resistance, signed square. *)

From Coq Require Import ZArith List Bool Reals Lra.
From Flocq Require Import BinarySingleNaN.
From Verif Require Import Scalar Float64 LinAlg MUtils MModel MDynamics SpecDyn SpecRun SpecMix
  PBase PModel EBase PMix PWitDyn EDyn EVeh.
Import ListNotations.
Local Open Scope R_scope.

(** ** C11 *)
Theorem C11_rejected_unchanged :
  forall {T} {O : Ops T} {G : Gen T} n (mo : ModelObj T G) p,
  check_params p = false -> update_params n mo p = Some mo.
Proof. exact @update_rejected. Qed.
Print Assumptions C11_rejected_unchanged.

Theorem C11_accepted_forgets_old :
  forall {T} {O : Ops T} {G : Gen T} n (m1 m2 m1' m2' : ModelObj T G) p,
  check_params p = true -> update_params n m1 p = Some m1' -> update_params n m2 p = Some m2' ->
  get_params m1' = Some p /\ get_params m2' = Some p /\
  (forall w, get_force_by_motors m1' w = get_force_by_motors m2' w) /\
  (forall w, get_thrust_by_motors m1' w = get_thrust_by_motors m2' w) /\
  (forall w a, get_torque_by_motors m1' w a = get_torque_by_motors m2' w a) /\
  (forall v, get_drag_force m1' v = get_drag_force m2' v) /\
  (forall v, get_aero_moment m1' v = get_aero_moment m2' v).
Proof. exact @update_forgets. Qed.
Print Assumptions C11_accepted_forgets_old.

Theorem C11_accepted_keeps_noise_state :
  forall {T} {O : Ops T} {G : Gen T} n (mo mo' : ModelObj T G) p,
  check_params p = true -> update_params n mo p = Some mo' ->
  get_params mo' = Some p /\ mo_sforce mo' = mo_sforce mo /\ mo_smoment mo' = mo_smoment mo /\
  mo_eng mo' = mo_eng mo /\ mo_dist mo' = mo_dist mo.
Proof. exact @update_accepted. Qed.
Print Assumptions C11_accepted_keeps_noise_state.

Example C11_case : check_params (ex_params 1 (-1) ex_grav 1 1 1) = false.
Proof. exact ex_rejected. Qed.
Example C11_case_accepted : check_params (ex_params 3 1 ex_grav 0 0 0) = true /\
  exists m : ModelObj R gen1, update_params 4 (d_model exd) (ex_params 3 1 ex_grav 0 0 0) = Some m.
Proof. exact (conj ex_accepted ex_update). Qed.

(** ** C12: false *)
Theorem C12_refuted :
  exists (p : Params R) (mo : ModelObj R gen1),
    model_new 4 p 0 = Some mo /\ get_params mo = Some p /\ ~ meaningful 4 p.
Proof. exact accepted_refuted. Qed.
Print Assumptions C12_refuted.

Theorem C12_inertia_refuted :
  exists p, check_params p = true /\ ~ pos_def (p_inertia p).
Proof. exact (ex_intro _ bad_inertia bad_inertia_accepted). Qed.
Print Assumptions C12_inertia_refuted.

Theorem C12_time_constant_refuted :
  exists p : Params R, check_params p = true /\ exists m, In m (p_motors p) /\ mt_tau m = 0.
Proof. exact tau0_accepted. Qed.
Print Assumptions C12_time_constant_refuted.

(** Three motors on a quadrotor are accepted; the first step is undefined. *)
Theorem C12_rotor_count_refuted :
  exists (d : Dyn R gen1) p,
  dyn_new 4 p 0 (ex_state zero3 zero3 still) = Some d /\ get_params (d_model d) = Some p /\
  process d still (1/100) zero3 false = UB.
Proof. exact short_list_ub. Qed.
Print Assumptions C12_rotor_count_refuted.

Theorem C12_nan_mass_refuted :
  forall L, @check_params _ (F64Ops L) (f_params L (@one _ (F64Ops L)) B754_nan (@lit _ (F64Ops L) (-981) 100)) = true.
Proof. exact b64_nan_accepted. Qed.
Print Assumptions C12_nan_mass_refuted.

(** A zero-mass vehicle has a NaN position after two steps. *)
Theorem C12_zero_mass_nan_refuted :
  forall L, exists x, f_zero_mass L = Some x /\ f_nan L x = true.
Proof. exact b64_zero_mass_nan. Qed.
Print Assumptions C12_zero_mass_nan_refuted.

(** Exactly what validation guarantees. *)
Theorem C12_validation_partial : forall p : Params R, check_params p = true <-> checked p.
Proof. exact check_params_R. Qed.
Print Assumptions C12_validation_partial.

(** Validation never rejects a meaningful vehicle. *)
Theorem C12_meaningful_accepted :
  forall n p, meaningful n p ->
  m01 (p_inertia p) = m10 (p_inertia p) -> m02 (p_inertia p) = m20 (p_inertia p) -> m12 (p_inertia p) = m21 (p_inertia p) ->
  m01 (p_aero p) = m10 (p_aero p) -> m02 (p_aero p) = m20 (p_aero p) -> m12 (p_aero p) = m21 (p_aero p) ->
  check_params p = true.
Proof. exact meaningful_accepted. Qed.
Print Assumptions C12_meaningful_accepted.
Example C12_case : meaningful 4 exp1.
Proof. exact exd_meaningful. Qed.

(** ** C13: false; the member read by the getter is never written *)
Theorem C13_mixer_getter_refuted :
  forall {T} {O : Ops T} {G : Gen T} n (mo : ModelObj T G),
  ModelReach n mo -> get_mixer_matrix mo = None.
Proof. exact @mixer_never_set. Qed.
Print Assumptions C13_mixer_getter_refuted.
Example C13_case : ModelReach 4 (d_model exd).
Proof. exact exd_reach. Qed.

(** ** C14 *)
Theorem C14_quad_x_pure_thrust :
  forall kf kt x y mn mx tau J w al a,
  rotor_force (quad_x kf kt x y mn mx tau J) [w;w;w;w] a = match a with AZ => 4 * kf * sq_signed w | _ => 0 end /\
  rotor_torque (quad_x kf kt x y mn mx tau J) [w;w;w;w] [al;al;al;al] a = 0.
Proof. exact (fun kf kt x y mn mx tau J w al a => conj (quad_x_force kf kt x y mn mx tau J w a) (quad_x_torque kf kt x y mn mx tau J w al a)). Qed.
Print Assumptions C14_quad_x_pure_thrust.

Theorem C14_quad_plus_pure_thrust :
  forall kf kt x y mn mx tau J w al a,
  rotor_force (quad_plus kf kt x y mn mx tau J) [w;w;w;w] a = match a with AZ => 4 * kf * sq_signed w | _ => 0 end /\
  rotor_torque (quad_plus kf kt x y mn mx tau J) [w;w;w;w] [al;al;al;al] a = 0.
Proof. exact (fun kf kt x y mn mx tau J w al a => conj (quad_plus_force kf kt x y mn mx tau J w a) (quad_plus_torque kf kt x y mn mx tau J w al a)). Qed.
Print Assumptions C14_quad_plus_pure_thrust.

Theorem C14_hexa_pure_thrust :
  forall kf kt r mn mx tau J w al a,
  rotor_force (hexa kf kt r mn mx tau J) [w;w;w;w;w;w] a = match a with AZ => 6 * kf * sq_signed w | _ => 0 end /\
  rotor_torque (hexa kf kt r mn mx tau J) [w;w;w;w;w;w] [al;al;al;al;al;al] a = 0.
Proof. exact (fun kf kt r mn mx tau J w al a => conj (hexa_force kf kt r mn mx tau J w a) (hexa_torque kf kt r mn mx tau J w al a)). Qed.
Print Assumptions C14_hexa_pure_thrust.

(** Direction of every moment of the X frame for unequal speeds. *)
Theorem C14_quad_x_moments :
  forall kf kt x y mn mx tau J a b c d,
  let s := sq_signed in
  let ms := quad_x kf kt x y mn mx tau J in
  rotor_torque ms [a;b;c;d] [0;0;0;0] AX = kf * y * (- s a + s b + s c - s d) /\
  rotor_torque ms [a;b;c;d] [0;0;0;0] AY = kf * x * (- s a - s b + s c + s d) /\
  rotor_torque ms [a;b;c;d] [0;0;0;0] AZ = kt * (s a - s b + s c - s d).
Proof. exact quad_x_moments. Qed.
Print Assumptions C14_quad_x_moments.
Example C14_case : rotor_torque (p_motors exp1) [1;1;2;2] [0;0;0;0] AY = 6.
Proof. exact ex_moment. Qed.

(** ** C15 *)
Theorem C15_force_is_rotor_sum :
  forall {G : Gen R} n (mo : ModelObj R G) p w,
  ModelReach n mo -> get_params mo = Some p -> length (p_motors p) = n -> length w = n ->
  get_force_by_motors mo w = Some (vec_of (rotor_force (p_motors p) w)).
Proof. exact @api_force. Qed.
Print Assumptions C15_force_is_rotor_sum.

Theorem C15_torque_is_rotor_sum :
  forall {G : Gen R} n (mo : ModelObj R G) p w acc,
  ModelReach n mo -> get_params mo = Some p -> length (p_motors p) = n -> length w = n -> length acc = n ->
  get_torque_by_motors mo w acc = Some (vec_of (rotor_torque (p_motors p) w acc)).
Proof. exact @api_torque. Qed.
Print Assumptions C15_torque_is_rotor_sum.

Theorem C15_thrust_is_rotor_sum :
  forall {G : Gen R} n (mo : ModelObj R G) p w,
  ModelReach n mo -> get_params mo = Some p -> length (p_motors p) = n -> length w = n ->
  get_thrust_by_motors mo w = Some (rotor_force (p_motors p) w AZ).
Proof. exact @api_thrust. Qed.
Print Assumptions C15_thrust_is_rotor_sum.

Theorem C15_four_row_mixer :
  forall n (ms : list (Motor R)), (forall m, In m ms -> mt_rot m = mI) ->
  compute_mixer_4D n ms =
  option_map (map (fun ft => mkV4 (vz (fst ft)) (vx (snd ft)) (vy (snd ft)) (vz (snd ft)))) (compute_mixer_6D n ms).
Proof. exact mixer4_rows. Qed.
Print Assumptions C15_four_row_mixer.
Example C15_case : ModelReach 4 (d_model exd) /\ get_params (d_model exd) = Some exp1 /\ length (p_motors exp1) = 4%nat /\
  forall m, In m (p_motors exp1) -> mt_rot m = mI.
Proof. exact (conj exd_reach (conj eq_refl (conj eq_refl ex_vertical))). Qed.

(** ** C16 *)
Theorem C16_drag_dissipates :
  forall {G : Gen R} n (mo : ModelObj R G) p v f,
  ModelReach n mo -> get_params mo = Some p -> get_drag_force mo v = Some f ->
  dot3 f v <= 0 /\ (0 < p_drag p -> dot3 f v = 0 -> v = mkV 0 0 0).
Proof. exact @drag_dissipates. Qed.
Print Assumptions C16_drag_dissipates.

Theorem C16_aerodynamic_moment_dissipates :
  forall {G : Gen R} (mo : ModelObj R G) p w f,
  get_params mo = Some p -> pos_semidef (p_aero p) -> get_aero_moment mo w = Some f -> dot3 f w <= 0.
Proof. exact @aero_dissipates. Qed.
Print Assumptions C16_aerodynamic_moment_dissipates.
Example C16_case : ModelReach 4 (d_model exd) /\ get_params (d_model exd) = Some exp1 /\ pos_semidef (p_aero exp1) /\
  0 < p_drag exp1.
Proof. exact (conj exd_reach (conj eq_refl (conj (proj1 (proj2 (proj2 (proj2 exd_meaningful)))) Rlt_0_1))). Qed.

(** ** C18 *)
Theorem C18_square_of_root : forall x : R, sqks (sqrtks x) = x.
Proof. exact sqks_sqrtks. Qed.
Print Assumptions C18_square_of_root.
Theorem C18_root_of_square : forall x : R, sqrtks (sqks x) = x.
Proof. exact sqrtks_sqks. Qed.
Print Assumptions C18_root_of_square.
Theorem C18_odd : forall x : R, sqks (- x) = - sqks x.
Proof. exact sqks_odd. Qed.
Print Assumptions C18_odd.
Theorem C18_increasing : forall x y : R, x < y -> sqks x < sqks y.
Proof. exact sqks_mono. Qed.
Print Assumptions C18_increasing.
