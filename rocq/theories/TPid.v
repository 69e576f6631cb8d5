(** Property theorems: the PID controllers. *)

From Coq Require Import ZArith List Bool Reals Lra.
From Flocq Require Import BinarySingleNaN.
From Verif Require Import Scalar Float64 LinAlg MPid MPid1 SpecDyn SpecPid PBase PFloat PPid PPid1 PPidR PPidF EPid.
Import ListNotations.
Local Open Scope R_scope.

(** ** C20 *)
Theorem C20_per_axis :
  forall {T} {O : Ops T}, Irrefl O -> forall (p : Pid T) op,
  Reached p -> is_compute op = true -> pid_sat_on p = true -> pid_prop_on p = false ->
  forall a, inside (pr a (pid_output (pid_step p op))) (pr a (fst (pid_limits p))) (pr a (snd (pid_limits p))).
Proof. exact @saturated_always. Qed.
Print Assumptions C20_per_axis.

Theorem C20_scalar :
  forall {T} {O : Ops T}, Irrefl O -> forall (p : Pid1 T) op p',
  is_compute1 op = true -> pid1_sat_on p = true -> pid1_step p op = Some p' ->
  inside (pid1_output p') (fst (pid1_limits p)) (snd (pid1_limits p)).
Proof. exact @saturated1_always. Qed.
Print Assumptions C20_scalar.

Theorem C20_proportional :
  forall p op, is_compute op = true -> pid_sat_on p = true -> pid_prop_on p = true ->
  around_zero (fst (pid_limits p)) (snd (pid_limits p)) ->
  within (pid_output (pid_step p op)) (fst (pid_limits p)) (snd (pid_limits p)).
Proof. exact prop_within. Qed.
Print Assumptions C20_proportional.

(** Rounding alone breaks the proportional case in binary64. *)
Theorem C20_proportional_binary64_refuted :
  forall L, let O := F64Ops L in
  exists pp dt e, let p := pid_new pp in
    pid_sat_on p = true /\ pid_prop_on p = true /\
    (forall a, ltb zero (pr a (fst (pid_limits p))) = true /\ ltb (pr a (snd (pid_limits p))) zero = true) /\
    ltb (pr AX (fst (pid_limits p))) (pr AX (pid_output (pid_step p (OpCompute dt e)))) = true.
Proof. exact prop_rounding. Qed.
Print Assumptions C20_proportional_binary64_refuted.

(** Limits that exclude zero are accepted and then exceeded. *)
Theorem C20_band_refuted :
  exists (pp : PidParams R) dt e, let p := pid_new pp in
    pid_sat_on p = true /\ pid_prop_on p = true /\
    ~ within (pid_output (pid_step p (OpCompute dt e))) (fst (pid_limits p)) (snd (pid_limits p)).
Proof. exact prop_band_refuted. Qed.
Print Assumptions C20_band_refuted.

Example C20_case : Reached (pid_new pp_ex) /\ pid_sat_on (pid_new pp_ex) = true /\ pid_prop_on (pid_new pp_ex) = false /\
  pid_limits (pid_new pp_ex) = (r3 3, r3 (-3)) /\ pid_aw (pid_new pp_ex) = r3 1.
Proof. exact ex_reached. Qed.
Example C20_case_scalar : Reached1 (pid1_new pp1_ex) /\ pid1_sat_on (pid1_new pp1_ex) = true /\
  pid1_limits (pid1_new pp1_ex) = (3, -3) /\ pid1_aw (pid1_new pp1_ex) = 1 /\ pid1_ki (pid1_new pp1_ex) = 1.
Proof. exact ex1_reached. Qed.
Example C20_case_binary64 : forall L, Irrefl (F64Ops L).
Proof. exact F64_irrefl. Qed.

(** ** C21 *)
Theorem C21_one_factor :
  forall p op, is_compute op = true -> pid_sat_on p = true -> pid_prop_on p = true ->
  around_zero (fst (pid_limits p)) (snd (pid_limits p)) ->
  let p' := pid_step p op in
  let raw a := pr a (pid_prop_part p') + pr a (pid_int_part p') + pr a (pid_der_part p') in
  exists k, 0 <= k <= 1 /\ (forall a, pr a (pid_output p') = k * raw a) /\
    ((forall a, pr a (snd (pid_limits p)) <= raw a <= pr a (fst (pid_limits p))) -> k = 1) /\
    (forall k', 0 <= k' <= 1 ->
       (forall a, pr a (snd (pid_limits p)) <= k' * raw a <= pr a (fst (pid_limits p))) -> k' <= k).
Proof. exact prop_direction. Qed.
Print Assumptions C21_one_factor.

Theorem C21_refuted :
  exists (pp : PidParams R) dt e, let p := pid_new pp in
    pid_sat_on p = true /\ pid_prop_on p = true /\
    let p' := pid_step p (OpCompute dt e) in
    ~ exists k, 0 <= k <= 1 /\ forall a, pr a (pid_output p') =
        k * (pr a (pid_prop_part p') + pr a (pid_int_part p') + pr a (pid_der_part p')).
Proof. exact prop_flip_refuted. Qed.
Print Assumptions C21_refuted.

Example C21_case :
  Reached (pid_new pp_exp) /\ pid_sat_on (pid_new pp_exp) = true /\ pid_prop_on (pid_new pp_exp) = true /\
  around_zero (fst (pid_limits (pid_new pp_exp))) (snd (pid_limits (pid_new pp_exp))) /\
  pid_output (pid_step (pid_new pp_exp) (OpCompute 1 (mkV 2 1 1))) = mkV 1 (1/2) (1/2).
Proof. exact pp_exp_case. Qed.

(** ** C22 *)
Theorem C22_bounded :
  forall p op a, Reached p -> is_compute op = true -> (exists b, pr b (pid_aw p) <> 0) -> 0 <= pr a (pid_aw p) ->
  Rabs (pr a (pid_int_part (pid_step p op))) <= Rabs (pr a (pid_ki p)) * pr a (pid_aw p).
Proof. exact int_part_bound. Qed.
Print Assumptions C22_bounded.

Theorem C22_bounded_scalar :
  forall p op p', is_compute1 op = true -> pid1_step p op = Some p' -> 0 < pid1_aw p ->
  Rabs (pid1_int_part p') <= Rabs (pid1_ki p) * pid1_aw p.
Proof. exact int1_part_bound. Qed.
Print Assumptions C22_bounded_scalar.

(** A negative constant is accepted: the vector controller then integrates with
    the wrong sign, the scalar one runs into undefined behaviour, and that is
    the only way it can. *)
Theorem C22_negative_constant_refuted :
  exists (pp : PidParams R) dt e, 0 < dt /\ (forall a, pr a (pp_aw pp) <> 0) /\ (forall a, 0 < pr a (pp_ki pp)) /\
    (forall a, 0 < pr a e) /\ forall a, pr a (pid_int_part (pid_step (pid_new pp) (OpCompute dt e))) < 0.
Proof. exact negative_windup_refuted. Qed.
Print Assumptions C22_negative_constant_refuted.

Theorem C22_negative_constant_scalar_refuted :
  exists pp : P1Params R, pp1_aw pp < 0 /\ pid1_step (pid1_new pp) (Op1Compute 1 1) = None.
Proof. exact negative_windup1. Qed.
Print Assumptions C22_negative_constant_scalar_refuted.

Theorem C22_scalar_defined :
  forall (p : Pid1 R) op, Reached1 p -> (pid1_step p op = None <-> is_compute1 op = true /\ pid1_aw p < 0).
Proof. exact step1_undefined_R. Qed.
Print Assumptions C22_scalar_defined.

Example C22_case : forall a, let p1 := pid_step (pid_new (pp_wind (r3 1) true)) (OpCompute 1 (r3 2)) in
  pr a (pid_int_part p1) = 1 /\ pr a (pid_int_part (pid_step p1 (OpCompute 1 (r3 (-1/2))))) = 1/2.
Proof. exact aw_values. Qed.

(** ** C23 *)
Theorem C23_reset_forgets :
  forall {T} {O : Ops T} (p : Pid T) pp ops, Reached p ->
  pid_get_params p = pid_get_params (pid_new pp) -> pid_sat_on p = pid_sat_on (pid_new pp) ->
  returned (pid_reset p) ops = returned (pid_new pp) ops.
Proof. exact @reset_new. Qed.
Print Assumptions C23_reset_forgets.

Theorem C23_reset_same_settings :
  forall {T} {O : Ops T} (p q : Pid T) ops, Reached p -> Reached q ->
  pid_get_params p = pid_get_params q -> pid_sat_on p = pid_sat_on q ->
  returned (pid_reset p) ops = returned (pid_reset q) ops.
Proof. exact @reset_same. Qed.
Print Assumptions C23_reset_same_settings.

Theorem C23_reset_forgets_scalar :
  forall {T} {O : Ops T} (p q : Pid1 T) ops,
  pid1_get_params p = pid1_get_params q -> pid1_sat_on p = pid1_sat_on q ->
  returned1 (pid1_reset p) ops = returned1 (pid1_reset q) ops.
Proof. exact @reset_same1. Qed.
Print Assumptions C23_reset_forgets_scalar.

Theorem C23_settings_keep_memory :
  forall {T} {O : Ops T} (p : Pid T) op, is_compute op = false -> op <> OpReset -> pid_s (pid_step p op) = pid_s p.
Proof. exact @settings_keep_memory. Qed.
Print Assumptions C23_settings_keep_memory.

Theorem C23_compute_keeps_settings :
  forall {T} {O : Ops T} (p : Pid T) op, is_compute op = true -> pid_c (pid_step p op) = pid_c p.
Proof. exact @compute_keeps_settings. Qed.
Print Assumptions C23_compute_keeps_settings.

Example C23_case : let p := pid_step (pid_new pp_ex) (OpCompute (1/2) (r3 7)) in
  Reached p /\ pid_get_params p = pid_get_params (pid_new pp_ex) /\ pid_sat_on p = pid_sat_on (pid_new pp_ex).
Proof. exact (conj (ex_intro _ pp_ex (ex_intro _ [OpCompute (1/2) (r3 7)] eq_refl)) (conj eq_refl eq_refl)). Qed.

(** ** C24 *)
Theorem C24_no_kick :
  forall p dt e a, Reached p -> (forall b, 0 <= pr b (pid_aw p)) -> pid_prop_on p = false ->
  let p' := pid_step (pid_reset p) (OpCompute dt e) in
  pr a (pid_der_part p') = 0 /\
  pr a (pid_output p') =
    first_value (pid_sat_on p) (pr a (pid_kp p)) (pr a (pid_ki p)) (pr a (pid_aw p))
      (pr a (fst (pid_limits p))) (pr a (snd (pid_limits p))) (pr a e) dt (negb (veqb (pid_aw p) v0)).
Proof. exact first_call. Qed.
Print Assumptions C24_no_kick.

Example C24_case : forall a, let p := pid_new pp_ex in
  pr a (pid_output (pid_step (pid_reset p) (OpCompute (1/2) (r3 1)))) = 5/2 /\
  pr a (pid_output (pid_step (pid_reset p) (OpCompute (1/2) (r3 7)))) = 3.
Proof. exact ex_first. Qed.

(** ** C25: false *)
Theorem C25_refuted :
  exists (pp : PidParams R) e1 e2 dt,
    pp_rflag pp = true /\ 0 < dt /\ (forall a, 0 < pr a (pp_aw pp)) /\ (forall a, pr a (pp_ki pp) = 1) /\
    let p1 := pid_step (pid_new pp) (OpCompute dt e1) in
    let p2 := pid_step p1 (OpCompute dt e2) in
    (forall a, pr a (pid_int_part p1) = pr a (pp_aw pp)) /\ (forall a, pr a e2 < 0 < pr a e1) /\
    forall a, pr a (pid_int_part p2) <> pr a e2 * dt.
Proof. exact reset_flag_refuted. Qed.
Print Assumptions C25_refuted.

(** The flag never has any effect while anti-windup is on and unchanged. *)
Theorem C25_flag_without_effect :
  forall pp ops b, (exists a, pr a (pp_aw pp) <> 0) -> (forall a, 0 <= pr a (pp_aw pp)) -> forallb keeps_windup ops = true ->
  returned (pid_new (with_reset_flag b pp)) ops = returned (pid_new pp) ops.
Proof. exact flag_useless. Qed.
Print Assumptions C25_flag_without_effect.

(** It works when anti-windup is off. *)
Theorem C25_without_windup :
  forall p0 op dt e a, Reached p0 -> is_compute op = true -> pid_reset_flag p0 = true -> (forall b, pr b (pid_aw p0) = 0) ->
  0 < pr a (pid_ki p0) ->
  let p := pid_step p0 op in
  pr a (pid_int_part p) * pr a e < 0 ->
  pr a (pid_int_part (pid_step p (OpCompute dt e))) = pr a (pid_ki p0) * (pr a e * dt).
Proof. exact flag_restarts_api. Qed.
Print Assumptions C25_without_windup.

Example C25_case : exists p : Pid R, exists e,
  Reached p /\ pid_reset_flag p = true /\ (forall b, pr b (pid_aw p) = 0) /\
  pr AX (pid_int_part p) = 2 /\ pr AX e = -1 /\ pr AX (pid_int_part (pid_step p (OpCompute 1 e))) = -1.
Proof. exact flag_restart_case. Qed.

(** ** C26: false *)
Theorem C26_refuted :
  exists p : Pid R, Reached p /\
    let q := pid_update p (pid_get_params p) in
    exists dt e, pid_output (pid_step q (OpCompute dt e)) <> pid_output (pid_step p (OpCompute dt e)).
Proof. exact round_trip_refuted. Qed.
Print Assumptions C26_refuted.

Theorem C26_scalar_refuted :
  exists p : Pid1 R, Reached1 p /\ pid1_update p (pid1_get_params p) <> p.
Proof. exact pp1_rt_refuted. Qed.
Print Assumptions C26_scalar_refuted.

(** Exactly when it is true. *)
Theorem C26_round_trip :
  forall p, Reached p ->
  (pid_update p (pid_get_params p) = p <->
   pid_sat_on p = true \/ exists a, ~ wide (pr a (fst (pid_limits p))) (pr a (snd (pid_limits p)))).
Proof. exact round_trip_pid. Qed.
Print Assumptions C26_round_trip.

Theorem C26_round_trip_scalar :
  forall p, Reached1 p ->
  (pid1_update p (pid1_get_params p) = p <->
   pid1_sat_on p = true \/ ~ wide (fst (pid1_limits p)) (snd (pid1_limits p))).
Proof. exact round_trip_pid1. Qed.
Print Assumptions C26_round_trip_scalar.

Example C26_case : Reached (pid_new pp_ex) /\ pid_sat_on (pid_new pp_ex) = true.
Proof. exact (conj (proj1 ex_reached) (proj1 (proj2 ex_reached))). Qed.

(** ** C27: false for the vector controller *)
Theorem C27_refuted :
  exists (p : Pid R) up lo f, Reached p /\ pid_sat_on p = true /\
    let q := pid_step p (OpSetSat up lo f) in
    pid_sat_on q = false /\ pid_limits q <> pid_limits p.
Proof. exact rejected_limits_refuted. Qed.
Print Assumptions C27_refuted.

Theorem C27_scalar :
  forall {T} {O : Ops T} (p q : Pid1 T) u l,
  pid1_step p (Op1SetSat u l) = Some q -> pid1_sat_on q = false -> pid1_limits q = pid1_limits p.
Proof. exact @rejected1_keeps. Qed.
Print Assumptions C27_scalar.

Theorem C27_validated :
  forall p up lo f, let q := pid_step p (OpSetSat up lo f) in
  ((forall a, wide (pr a up) (pr a lo)) -> pid_sat_on q = true /\ pid_prop_on q = f /\ pid_limits q = (up, lo)) /\
  ((exists a, ~ wide (pr a up) (pr a lo)) -> pid_sat_on q = false).
Proof. exact sat_set_R. Qed.
Print Assumptions C27_validated.

(** What a rejected request leaves behind depends on its first axis only. *)
Theorem C27_first_axis :
  forall p up lo f, let q := pid_step p (OpSetSat up lo f) in
  (~ wide (vx up) (vx lo) -> pid_limits q = pid_limits p) /\ (wide (vx up) (vx lo) -> pid_limits q = (up, lo)).
Proof. exact sat_first_R. Qed.
Print Assumptions C27_first_axis.

Example C27_case : (forall a, wide (pr a (r3 3)) (pr a (r3 (-3)))) /\ ~ wide 1 2.
Proof. split; [intros a; rewrite !pr_r3; apply wide_R; lra|]. unfold wide; unR. lra. Qed.

(** ** C28: false *)
Theorem C28_refuted :
  forall L, let O := F64Ops L in
  exists (pp : PidParams b64) e, (forall a, is_finite (pr a e) = true) /\
    isnan L (vx (pid_output (pid_step (pid_new pp) (OpCompute (fz 0) e)))) = true /\
    isnan L (vx (pid_output (pid_run (pid_new pp) [OpCompute (fz 0) e; OpCompute (fz 1) e]))) = true /\
    eqb (vx (pid_output (pid_run (pid_new pp) [OpCompute (fz 0) e; OpReset; OpCompute (fz 1) e]))) (vx e) = true.
Proof. exact zero_dt_case. Qed.
Print Assumptions C28_refuted.

(** Every controller, every error: one zero step right after a reset makes every
    later two-argument call return NaN until the next reset. *)
Theorem C28_nan_until_reset :
  forall L, let O := F64Ops L in forall (p : Pid b64) s e ops dt e',
  Forall (fun op => op <> OpReset) ops ->
  let p1 := pid_step (pid_reset p) (OpCompute (B754_zero s) e) in
  pid_output p1 = mkV B754_nan B754_nan B754_nan /\
  pid_output (pid_step (pid_run p1 ops) (OpCompute dt e')) = mkV B754_nan B754_nan B754_nan.
Proof. exact zero_dt_forever. Qed.
Print Assumptions C28_nan_until_reset.

Theorem C28_nan_until_reset_scalar :
  forall L, let O := F64Ops L in forall (p : Pid1 b64) s e p1 ops p2 dt e' p3,
  Forall (fun op => op <> Op1Reset) ops ->
  pid1_step (pid1_reset p) (Op1Compute (B754_zero s) e) = Some p1 -> pid1_run p1 ops = Some p2 ->
  pid1_step p2 (Op1Compute dt e') = Some p3 ->
  pid1_output p1 = B754_nan /\ pid1_output p3 = B754_nan.
Proof. exact zero_dt_forever1. Qed.
Print Assumptions C28_nan_until_reset_scalar.

Theorem C28_infinite_later_refuted :
  forall L, let O := F64Ops L in
  exists (pp : PidParams b64) e1 e2,
    is_finite (vx (pid_output (pid_run (pid_new pp) [OpCompute (fz 1) e1; OpCompute (fz 0) e2]))) = false.
Proof. exact zero_dt_later. Qed.
Print Assumptions C28_infinite_later_refuted.

(** ** C29 *)
Theorem C29_textbook :
  forall p l dt e a, Reached p -> plain p -> (forall c, In c (l ++ [(dt, e)]) -> fst c <> 0) ->
  pr a (pid_output (pid_run (pid_reset p) (calls_of (l ++ [(dt, e)])))) =
  textbook (pr a (pid_kp p)) (pr a (pid_ki p)) (pr a (pid_kd p)) (pr a (pid_alpha p)) (axis_calls a (l ++ [(dt, e)])).
Proof. exact (fun p l dt e a H1 H2 _ => pid_textbook p l dt e a H1 H2). Qed.
Print Assumptions C29_textbook.

Theorem C29_textbook_given_derivative :
  forall p l dt e de a, Reached p -> plain p ->
  pr a (pid_output (pid_run (pid_reset p) (dcalls_of (l ++ [(dt, e, de)])))) =
  pr a (pid_kp p) * pr a e +
  pr a (pid_ki p) * int_sum (rev (map (fun c => (fst (fst c), pr a (snd (fst c)))) (l ++ [(dt, e, de)]))) +
  pr a (pid_kd p) * pr a de.
Proof. exact pid_textbook_d. Qed.
Print Assumptions C29_textbook_given_derivative.

Example C29_case : Reached (pid_new pp_tb) /\ plain (pid_new pp_tb).
Proof. exact pp_tb_plain. Qed.
Example C29_case_value : forall a,
  pr a (pid_output (pid_run (pid_reset (pid_new pp_tb)) (calls_of [(1/2, r3 1); (1/4, r3 3); (1/2, r3 2)]))) = 27/4.
Proof. exact tb_value. Qed.

(** ** C30 *)
Theorem C30_axes_are_scalar :
  forall a pp ops, separable pp -> Forall separable_op ops ->
  returned1 (pid1_new (axis_params a pp)) (axis_ops a ops) = map (fun v => Some (pr a v)) (returned (pid_new pp) ops).
Proof. exact axes_are_scalar. Qed.
Print Assumptions C30_axes_are_scalar.

(** Anti-windup on some axes only: the other axes integrate nothing. *)
Theorem C30_mixed_windup_refuted :
  exists (pp : PidParams R) ops,
    pp_pflag pp = false /\ (forall a, 0 <= pr a (pp_aw pp)) /\ pid_sat_on (pid_new pp) = false /\
    returned1 (pid1_new (axis_params AX pp)) (axis_ops AX ops) <>
    map (fun v => Some (pr AX v)) (returned (pid_new pp) ops).
Proof. exact mixed_windup_refuted. Qed.
Print Assumptions C30_mixed_windup_refuted.

(** Gains are full matrices: in binary64 an infinite error on one axis makes the
    others NaN. *)
Theorem C30_contamination_refuted :
  forall L, let O := F64Ops L in
  exists (pp : PidParams b64) dt e,
    is_finite (vy e) = true /\
    isnan L (vy (pid_output (pid_step (pid_new pp) (OpCompute dt e)))) = true /\
    exists q, pid1_step (pid1_new (mkPP1 (vy (pp_kp pp)) (vy (pp_ki pp)) (vy (pp_kd pp)) (vy (pp_aw pp)) (vy (pp_alpha pp))
                 (pp_rflag pp) (vy (pp_up pp)) (vy (pp_lo pp)))) (Op1Compute dt (vy e)) = Some q /\
              eqb (pid1_output q) (vy e) = true.
Proof. exact contamination. Qed.
Print Assumptions C30_contamination_refuted.

Example C30_case : separable pp_ex /\ Forall separable_op ex_ops.
Proof. exact (conj pp_ex_separable ex_ops_separable). Qed.
