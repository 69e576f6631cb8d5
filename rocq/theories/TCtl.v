(** Property theorems: the flight controllers. *)

From Coq Require Import ZArith List Bool Reals Lra.
From Verif Require Import Scalar Float64 LinAlg MUtils MModel MPid MControl MCtlRun SpecDyn SpecRun SpecPid SpecCtl
  PBase PFloat PMix EVeh EPid PCtl PCtlR PCtlMix ECtl.
Import ListNotations.
Local Open Scope R_scope.

(** ** C31 *)
Theorem C31_not_negative :
  forall {T} {O : Ops T}, Irrefl O -> forall (c : Ctl T) op, uses_acc op = true ->
  ltb (get_desired_thrust (ctl_step c op)) zero = false.
Proof. exact @thrust_not_negative. Qed.
Print Assumptions C31_not_negative.

Theorem C31_not_negative_binary64 :
  forall L, let O := F64Ops L in forall (c : Ctl b64) op, uses_acc op = true ->
  ltb (get_desired_thrust (ctl_step c op)) zero = false.
Proof. exact (fun L => @thrust_not_negative _ (F64Ops L) (F64_irrefl L)). Qed.
Print Assumptions C31_not_negative_binary64.

Theorem C31_value :
  forall (c : Ctl R) op, uses_acc op = true ->
  let s := along_z (att_of op) (force_of c op) in
  get_desired_thrust (ctl_step c op) = Rmax 0 s /\
  (s < 0 -> get_desired_angular_velocity (ctl_step c op) = mkV 0 0 0).
Proof. exact thrust_value. Qed.
Print Assumptions C31_value.

Example C31_dive : let op := CAcc (rot_z 0) (mkV 0 0 0) (mkV 1 0 (-20)) 0 (1/100) in
  uses_acc op = true /\ along_z (att_of op) (force_of c_ex op) < 0.
Proof. exact ex_dive. Qed.

(** ** C32 *)
Theorem C32_frame :
  forall (c : Ctl R) op, uses_acc op = true ->
  0 < len3 (force_of c op) -> 0 <= along_z (att_of op) (force_of c op) ->
  ~ parallel (force_of c op) (heading (yaw_of op)) ->
  exists Rd, desired_frame (yaw_of op) (force_of c op) Rd /\
    (forall Rd', desired_frame (yaw_of op) (force_of c op) Rd' -> Rd' = Rd) /\
    forall a, pr a (get_desired_angular_velocity (ctl_step c op)) = prop_rates (ac_kp (ct_acro c)) Rd (att_of op) a.
Proof. exact frame_rates. Qed.
Print Assumptions C32_frame.

Theorem C32_no_force :
  forall (c : Ctl R) op, uses_acc op = true -> len3 (force_of c op) = 0 ->
  get_desired_thrust (ctl_step c op) = 0 /\ get_desired_angular_velocity (ctl_step c op) = mkV 0 0 0.
Proof. exact no_force. Qed.
Print Assumptions C32_no_force.

Theorem C32_parallel :
  forall (c : Ctl R) op, uses_acc op = true -> 0 < len3 (force_of c op) ->
  parallel (force_of c op) (heading (yaw_of op)) -> 0 <= along_z (att_of op) (force_of c op) ->
  let z := vdiv (force_of c op) (len3 (force_of c op)) in
  forall a, pr a (get_desired_angular_velocity (ctl_step c op)) =
    - mat_vec (ac_kp (ct_acro c)) (mkV (dot3 z (col (att_of op) AY) / 2) (- dot3 z (col (att_of op) AX) / 2) 0) a.
Proof. exact parallel_force. Qed.
Print Assumptions C32_parallel.

Example C32_tilt : let op := CAcc (rot_z 0) (mkV 0 0 0) (mkV 10 0 0) 0 (1/100) in
  uses_acc op = true /\ 0 < len3 (force_of c_ex op) /\ 0 <= along_z (att_of op) (force_of c_ex op) /\
  ~ parallel (force_of c_ex op) (heading (yaw_of op)).
Proof. exact ex_tilt. Qed.
Example C32_along_heading : let op := CAcc (rot_z 0) (mkV 0 0 0) (mkV 1 0 (-10)) 0 (1/100) in
  uses_acc op = true /\ 0 < len3 (force_of c_ex op) /\ 0 <= along_z (att_of op) (force_of c_ex op) /\
  parallel (force_of c_ex op) (heading (yaw_of op)).
Proof. exact ex_parallel. Qed.
Example C32_free_fall : let op := CAcc (rot_z 0) (mkV 0 0 0) (mkV 0 0 (-10)) 0 (1/100) in
  uses_acc op = true /\ len3 (force_of c_ex op) = 0.
Proof. exact ex_fall. Qed.

(** ** C33 *)
Theorem C33_aligned :
  forall (c : Ctl R) op, uses_acc op = true ->
  0 < len3 (force_of c op) -> desired_frame (yaw_of op) (force_of c op) (att_of op) ->
  get_desired_angular_velocity (ctl_step c op) = mkV 0 0 0.
Proof. exact aligned_rates. Qed.
Print Assumptions C33_aligned.

Theorem C33_yaw_error :
  forall (c : Ctl R) op cur, uses_acc op = true -> att_of op = rot_z cur ->
  vx (force_of c op) = 0 -> vy (force_of c op) = 0 -> 0 < vz (force_of c op) ->
  forall a, pr a (get_desired_angular_velocity (ctl_step c op)) =
    - ent (ac_kp (ct_acro c)) a AZ * sin (cur - yaw_of op).
Proof. exact yaw_error_rates. Qed.
Print Assumptions C33_yaw_error.

Theorem C33_short_way :
  forall (c : Ctl R) op cur, uses_acc op = true -> att_of op = rot_z cur ->
  vx (force_of c op) = 0 -> vy (force_of c op) = 0 -> 0 < vz (force_of c op) ->
  0 < m22 (ac_kp (ct_acro c)) -> - PI < cur - yaw_of op < PI ->
  (0 < cur - yaw_of op -> vz (get_desired_angular_velocity (ctl_step c op)) < 0) /\
  (cur - yaw_of op < 0 -> 0 < vz (get_desired_angular_velocity (ctl_step c op))).
Proof. exact yaw_short_way. Qed.
Print Assumptions C33_short_way.

(** Turning with the commanded rates changes the mismatch at rate
    [-2 e . K e]: never upwards for a positive gain matrix. *)
Theorem C33_descent :
  forall (c : Ctl R) op Rd path t, uses_acc op = true ->
  0 < len3 (force_of c op) -> 0 <= along_z (att_of op) (force_of c op) ->
  desired_frame (yaw_of op) (force_of c op) Rd ->
  path t = att_of op -> turning path t (get_desired_angular_velocity (ctl_step c op)) ->
  exists l, derivable_pt_lim (fun s => mismatch Rd (path s)) t l /\
  l = - 2 * dot3 (vec_of (axis_err Rd (att_of op)))
        (vec_of (mat_vec (ac_kp (ct_acro c)) (vec_of (axis_err Rd (att_of op))))).
Proof. exact descent. Qed.
Print Assumptions C33_descent.

(** Facing backwards is also a rest position. *)
Theorem C33_only_when_aligned_refuted :
  exists (c : Ctl R) op Rd, CtlReached 4 c /\ uses_acc op = true /\
    0 < len3 (force_of c op) /\ rotation (att_of op) /\ desired_frame (yaw_of op) (force_of c op) Rd /\
    0 < m00 (ac_kp (ct_acro c)) /\ 0 < m11 (ac_kp (ct_acro c)) /\ 0 < m22 (ac_kp (ct_acro c)) /\
    Rd <> att_of op /\ get_desired_angular_velocity (ctl_step c op) = mkV 0 0 0.
Proof. exact backwards_at_rest. Qed.
Print Assumptions C33_only_when_aligned_refuted.

Example C33_case : forall cur yaw, let op := op_yaw cur yaw in
  uses_acc op = true /\ att_of op = rot_z cur /\ yaw_of op = yaw /\
  vx (force_of c_ex op) = 0 /\ vy (force_of c_ex op) = 0 /\ 0 < vz (force_of c_ex op) /\
  0 < len3 (force_of c_ex op).
Proof. exact ex_yaw. Qed.

(** ** C34 *)
Theorem C34_x :
  forall kf kt x y mn mx tau J inv (c : Ctl R) op,
  kf <> 0 -> kt <> 0 -> x <> 0 -> y <> 0 ->
  quad_inverse (quad_x kf kt x y mn mx tau J) = Some inv -> in_minv (ct_indi c) = inv -> commands_motors op = true ->
  let c' := ctl_step c op in let w := get_desired_motor_angular_velocity c' in
  length w = 4%nat /\
  (forall a, rotor_force (quad_x kf kt x y mn mx tau J) w a = match a with AZ => get_desired_thrust c' | _ => 0 end) /\
  forall a, rotor_torque (quad_x kf kt x y mn mx tau J) w [0; 0; 0; 0] a =
    euler_torque (in_inertia (ct_indi c)) (pid_output (get_pid WIndi c')) (get_desired_angular_velocity c') a.
Proof. exact allocation_x. Qed.
Print Assumptions C34_x.

Theorem C34_plus :
  forall kf kt x y mn mx tau J inv (c : Ctl R) op,
  kf <> 0 -> kt <> 0 -> x <> 0 -> y <> 0 ->
  quad_inverse (quad_plus kf kt x y mn mx tau J) = Some inv -> in_minv (ct_indi c) = inv -> commands_motors op = true ->
  let c' := ctl_step c op in let w := get_desired_motor_angular_velocity c' in
  length w = 4%nat /\
  (forall a, rotor_force (quad_plus kf kt x y mn mx tau J) w a = match a with AZ => get_desired_thrust c' | _ => 0 end) /\
  forall a, rotor_torque (quad_plus kf kt x y mn mx tau J) w [0; 0; 0; 0] a =
    euler_torque (in_inertia (ct_indi c)) (pid_output (get_pid WIndi c')) (get_desired_angular_velocity c') a.
Proof. exact allocation_plus. Qed.
Print Assumptions C34_plus.

(** What the vehicle model then reports for those rotor speeds. *)
Theorem C34_vehicle :
  forall {G : Gen R} (mo : ModelObj R G) p (w : list R) th tq,
  ModelReach 4 mo -> get_params mo = Some p -> length (p_motors p) = 4%nat -> length w = 4%nat ->
  (forall a, rotor_force (p_motors p) w a = match a with AZ => th | _ => 0 end) ->
  (forall a, rotor_torque (p_motors p) w [0; 0; 0; 0] a = tq a) ->
  get_force_by_motors mo w = Some (mkV 0 0 th) /\ get_thrust_by_motors mo w = Some th /\
  get_torque_by_motors mo w [0; 0; 0; 0] = Some (vec_of tq).
Proof. exact @allocation_api. Qed.
Print Assumptions C34_vehicle.

Example C34_case : quad_inverse (quad_x 1 1 1 1 0 100 (1/10) 0) = Some inv_ex /\ in_minv (ct_indi c_ex) = inv_ex.
Proof. exact c_ex_inverse. Qed.

(** ** C35 *)
Theorem C35_hover_command :
  forall n (p : CtlParams R) op yaw m g0,
  (forall w, rests (get_pid w (ctl_new n p))) -> holds_still yaw op ->
  ap_mass (cp_acro p) = m -> ap_grav (cp_acro p) = mkV 0 0 (- g0) -> 0 < m -> 0 < g0 ->
  let c' := ctl_step (ctl_new n p) op in
  get_desired_thrust c' = m * g0 /\ get_desired_angular_velocity c' = mkV 0 0 0.
Proof. exact fresh_hover. Qed.
Print Assumptions C35_hover_command.

Theorem C35_hover_x :
  forall n kf kt x y mn mx tau J inv (p : CtlParams R) op yaw m g0,
  0 < kf -> kt <> 0 -> x <> 0 -> y <> 0 ->
  quad_inverse (quad_x kf kt x y mn mx tau J) = Some inv -> ip_minv (cp_indi p) = inv ->
  (forall w, rests (get_pid w (ctl_new n p))) -> holds_still yaw op ->
  ap_mass (cp_acro p) = m -> ap_grav (cp_acro p) = mkV 0 0 (- g0) -> 0 < m -> 0 < g0 ->
  get_desired_motor_angular_velocity (ctl_step (ctl_new n p) op) = repeat (sqrt (m * g0 / (4 * kf))) 4.
Proof. exact fresh_hover_x. Qed.
Print Assumptions C35_hover_x.

Theorem C35_hover_plus :
  forall n kf kt x y mn mx tau J inv (p : CtlParams R) op yaw m g0,
  0 < kf -> kt <> 0 -> x <> 0 -> y <> 0 ->
  quad_inverse (quad_plus kf kt x y mn mx tau J) = Some inv -> ip_minv (cp_indi p) = inv ->
  (forall w, rests (get_pid w (ctl_new n p))) -> holds_still yaw op ->
  ap_mass (cp_acro p) = m -> ap_grav (cp_acro p) = mkV 0 0 (- g0) -> 0 < m -> 0 < g0 ->
  get_desired_motor_angular_velocity (ctl_step (ctl_new n p) op) = repeat (sqrt (m * g0 / (4 * kf))) 4.
Proof. exact fresh_hover_plus. Qed.
Print Assumptions C35_hover_plus.

(** The same for any controller, however used, once it has been reset. *)
Theorem C35_after_reset :
  forall (c0 : Ctl R) op yaw m g0,
  (forall w, rests (get_pid w c0)) -> holds_still yaw op ->
  ac_mass (ct_acro c0) = m -> ac_grav (ct_acro c0) = mkV 0 0 (- g0) -> 0 < m -> 0 < g0 ->
  let c' := ctl_step (ctl_step c0 CReset) op in
  get_desired_thrust c' = m * g0 /\ get_desired_angular_velocity c' = mkV 0 0 0 /\
  in_torque (ct_indi c') = mkV 0 0 0.
Proof. exact hover_command. Qed.
Print Assumptions C35_after_reset.

Example C35_case : (forall w, rests (get_pid w c_ex)) /\
  forall yaw p, holds_still yaw (CPos p (rot_z yaw) (mkV 0 0 0) (mkV 0 0 0) p yaw (1/100)).
Proof. exact (conj c_ex_rests ex_hold). Qed.

(** ** C36 *)
Theorem C36_no_gain :
  forall {T} {O : Ops T} (c : Ctl T) cur rate, eqb (m22 (ac_kp (ct_acro c))) zero = true -> yaw_rate_to_angle c cur rate = cur.
Proof. exact @yaw_rate_no_gain. Qed.
Print Assumptions C36_no_gain.

Theorem C36_response :
  forall (c : Ctl R) cur rate, m22 (ac_kp (ct_acro c)) <> 0 ->
  m22 (ac_kp (ct_acro c)) * (yaw_rate_to_angle c cur rate - cur) = rate.
Proof. exact yaw_rate_R. Qed.
Print Assumptions C36_response.

Example C36_case : m22 (ac_kp (ct_acro c_ex)) = 3. Proof. exact (proj2 (proj2 c_ex_acro)). Qed.

(** ** C37 *)
Theorem C37_limits_refuted :
  exists (c : Ctl R) op, CtlReached 4 c /\
    (exists cp cv A w dp dv da y dt, op = CTraj cp cv A w dp dv da y dt) /\
    pid_sat_on (get_pid WTraj c) = true /\ pid_limits (get_pid WTraj c) = (r3 1, r3 (-1)) /\
    vx (get_desired_linear_acceleration (ctl_step c op)) = 100 /\
    traj_get_desired_acc (get_pid WTraj (ctl_step c op)) = mkV 0 0 0.
Proof. exact feedforward_unlimited. Qed.
Print Assumptions C37_limits_refuted.

(** Only the feedback part is limited. *)
Theorem C37_feedback :
  forall n (c : Ctl R) cp cv A w dp dv da y dt,
  CtlReached n c -> pid_sat_on (get_pid WTraj c) = true -> pid_prop_on (get_pid WTraj c) = false ->
  within (vsub (get_desired_linear_acceleration (ctl_step c (CTraj cp cv A w dp dv da y dt))) da)
    (fst (pid_limits (get_pid WTraj c))) (snd (pid_limits (get_pid WTraj c))).
Proof. exact feedback_within_reached. Qed.
Print Assumptions C37_feedback.

(** ** C38 *)
Theorem C38_thrust_refuted :
  exists (c : Ctl R) op, CtlReached 4 (ctl_step c op) /\ uses_acc op = true /\
    get_desired_thrust (ctl_step c op) = 10 /\ acro_get_desired_thrust (ct_acro (ctl_step c op)) = 0.
Proof. exact acro_thrust_lost. Qed.
Print Assumptions C38_thrust_refuted.

Theorem C38_always_zero :
  forall {T} {O : Ops T} n (c : Ctl T), CtlReached n c -> acro_get_desired_thrust (ct_acro c) = zero.
Proof. exact @acro_thrust_always_zero. Qed.
Print Assumptions C38_always_zero.

(** ** C54 *)
Theorem C54_rate :
  forall (c : Ctl R) cur rate w acc dt,
  let op := CAcc (rot_z cur) w acc (yaw_rate_to_angle c cur rate) dt in
  let k := m22 (ac_kp (ct_acro c)) in
  k <> 0 -> vx (force_of c op) = 0 -> vy (force_of c op) = 0 -> 0 < vz (force_of c op) ->
  vz (get_desired_angular_velocity (ctl_step c op)) = k * sin (rate / k).
Proof. exact yaw_rate_realised. Qed.
Print Assumptions C54_rate.

Theorem C54_realised_refuted :
  exists (c : Ctl R) cur rate w acc dt,
    let op := CAcc (rot_z cur) w acc (yaw_rate_to_angle c cur rate) dt in
    CtlReached 4 c /\ 0 < rate /\ 0 < m22 (ac_kp (ct_acro c)) /\
    get_desired_angular_velocity (ctl_step c op) = mkV 0 0 0.
Proof. exact yaw_rate_lost. Qed.
Print Assumptions C54_realised_refuted.

(** ** C55 *)
Theorem C55_acro :
  forall {T} {O : Ops T} (c : Ctl T) cw th w dt,
  let c' := ctl_step c (CAcro cw th w dt) in
  get_desired_thrust c' = th /\ get_desired_angular_velocity c' = w /\
  get_desired_linear_acceleration c' = get_desired_linear_acceleration c /\
  get_desired_linear_velocity c' = get_desired_linear_velocity c /\
  get_desired_position c' = get_desired_position c /\
  get_pid WPos c' = get_pid WPos c /\ get_pid WTraj c' = get_pid WTraj c /\ get_pid WVel c' = get_pid WVel c /\
  ct_acro c' = ct_acro c.
Proof. exact @acro_records. Qed.
Print Assumptions C55_acro.

Theorem C55_acceleration :
  forall {T} {O : Ops T} (c : Ctl T) A cw acc yaw dt,
  let c' := ctl_step c (CAcc A cw acc yaw dt) in
  get_desired_linear_acceleration c' = acc /\
  get_desired_linear_velocity c' = get_desired_linear_velocity c /\
  get_desired_position c' = get_desired_position c /\
  get_pid WPos c' = get_pid WPos c /\ get_pid WTraj c' = get_pid WTraj c /\ get_pid WVel c' = get_pid WVel c.
Proof. exact @acc_records. Qed.
Print Assumptions C55_acceleration.

Theorem C55_velocity :
  forall {T} {O : Ops T} (c : Ctl T) cv A cw dv yaw dt,
  let c' := ctl_step c (CVel cv A cw dv yaw dt) in
  get_desired_linear_velocity c' = dv /\
  get_desired_linear_acceleration c' = pid_output (get_pid WVel c') /\
  get_desired_position c' = get_desired_position c /\
  get_pid WPos c' = get_pid WPos c /\ get_pid WTraj c' = get_pid WTraj c /\
  get_pid WVel c' = pid_step (get_pid WVel c) (OpCompute dt (vsub dv cv)).
Proof. exact @vel_records. Qed.
Print Assumptions C55_velocity.

Theorem C55_position :
  forall {T} {O : Ops T} (c : Ctl T) cp A cv cw dp yaw dt,
  let c' := ctl_step c (CPos cp A cv cw dp yaw dt) in
  get_desired_position c' = dp /\
  get_desired_linear_velocity c' = pid_output (get_pid WPos c') /\
  get_desired_linear_acceleration c' = pid_output (get_pid WVel c') /\
  get_pid WPos c' = pid_step (get_pid WPos c) (OpCompute dt (vsub dp cp)) /\
  get_pid WVel c' = pid_step (get_pid WVel c) (OpCompute dt (vsub (pid_output (get_pid WPos c')) cv)) /\
  get_pid WTraj c' = get_pid WTraj c.
Proof. exact @pos_records. Qed.
Print Assumptions C55_position.

Theorem C55_trajectory :
  forall {T} {O : Ops T} (c : Ctl T) cp cv A cw dp dv da yaw dt,
  let c' := ctl_step c (CTraj cp cv A cw dp dv da yaw dt) in
  get_desired_position c' = dp /\ get_desired_linear_velocity c' = dv /\
  get_desired_linear_acceleration c' = vadd (pid_output (get_pid WTraj c')) da /\
  get_pid WPos c' = get_pid WPos c /\ get_pid WVel c' = get_pid WVel c /\
  get_pid WTraj c' = pid_step (get_pid WTraj c) (OpComputeD dt (vsub dp cp) (vsub dv cv)).
Proof. exact @traj_records. Qed.
Print Assumptions C55_trajectory.

Theorem C55_reachable_pids :
  forall {T} {O : Ops T} n (c : Ctl T) w, CtlReached n c -> Reached (get_pid w c).
Proof. exact @get_pid_reached. Qed.
Print Assumptions C55_reachable_pids.

Example C55_case : CtlReached 4 c_ex. Proof. exact c_ex_reached. Qed.
