(** Flight controllers in any arithmetic. *)

From Coq Require Import ZArith List Bool Lia.
From Verif Require Import Scalar LinAlg MUtils MModel MPid MControl MCtlRun SpecDyn SpecRun SpecPid SpecCtl PPid.
Import ListNotations.

Section Ctl.
Context {T : Type} {O : Ops T}.
Implicit Types (c : Ctl T) (op : CtlOp T).

Lemma acc_op_shape c op : uses_acc op = true ->
  exists c1 cw acc dt, ctl_step c op = ctl_acc c1 (att_of op) cw acc (yaw_of op) dt /\ ct_acro c1 = ct_acro c /\ ct_indi c1 = ct_indi c.
Proof.
  destruct op; intros H; try discriminate H; cbn [ctl_step att_of yaw_of]; unfold ctl_traj, ctl_pos, ctl_vel; cbv zeta;
  try (destruct (traj_control _ _ _ _ _ _ _) as [p' a] eqn:E);
  do 4 eexists; (split; [reflexivity|split; reflexivity]).
Qed.

Lemma ctl_acc_shape c R cw acc yaw dt :
  let r := acc_to_acro (ct_acro c) acc R yaw in
  let c' := ctl_acc c R cw acc yaw dt in
  ct_dacc c' = acc /\ ct_dthrust c' = fst (snd r) /\ ct_dang c' = snd (snd r) /\ ct_acro c' = fst r /\
  ct_indi c' = acro_to_motor (ct_indi c) cw (fst (snd r)) (snd (snd r)) dt /\
  ct_dmotor c' = in_motor (ct_indi c').
Proof.
  cbv zeta. unfold ctl_acc. destruct (acc_to_acro (ct_acro c) acc R yaw) as [a' [th w]].
  unfold ctl_acro. cbn. repeat split.
Qed.

Lemma acc_op_results c op : uses_acc op = true ->
  let c' := ctl_step c op in
  let r := acc_to_acro (ct_acro c) (get_desired_linear_acceleration c') (att_of op) (yaw_of op) in
  get_desired_thrust c' = fst (snd r) /\ get_desired_angular_velocity c' = snd (snd r) /\ ct_acro c' = fst r.
Proof.
  intros H. cbv zeta. destruct (acc_op_shape c op H) as (c1 & cw & acc & dt & E & Ea & _). rewrite E.
  destruct (ctl_acc_shape c1 (att_of op) cw acc (yaw_of op) dt) as (A & B & C & D & _).
  unfold get_desired_linear_acceleration. rewrite A. unfold get_desired_thrust, get_desired_angular_velocity.
  rewrite B, C, D, Ea. repeat split.
Qed.

(** ** C31 *)
Lemma acro_not_negative (HI : Irrefl O) a acc R yaw :
  ltb (fst (snd (acc_to_acro a acc R yaw))) zero = false.
Proof.
  unfold acc_to_acro. cbv zeta. destruct (ltb (vdot _ _) zero) eqn:E; cbn [fst snd]; [apply HI|exact E].
Qed.
Lemma thrust_not_negative (HI : Irrefl O) c op : uses_acc op = true ->
  ltb (get_desired_thrust (ctl_step c op)) zero = false.
Proof.
  intros H. pose proof (acc_op_results c op H) as R. cbv zeta in R. destruct R as [-> _].
  apply acro_not_negative, HI.
Qed.
(** ** C38 *)
Lemma acro_thrust_step c op : ac_thrust (ct_acro (ctl_step c op)) = ac_thrust (ct_acro c).
Proof.
  destruct (uses_acc op) eqn:H.
  - pose proof (acc_op_results c op H) as R. cbv zeta in R. destruct R as (_ & _ & ->). reflexivity.
  - destruct op; try discriminate H; try reflexivity; cbn [ctl_step]; try (destruct w; reflexivity).
Qed.
Lemma acro_thrust_run ops : forall c, ac_thrust (ct_acro (ctl_run c ops)) = ac_thrust (ct_acro c).
Proof.
  induction ops as [|op ops IH]; intros c; [reflexivity|]. change (ctl_run c (op :: ops)) with (ctl_run (ctl_step c op) ops).
  rewrite IH. apply acro_thrust_step.
Qed.
Lemma acro_thrust_always_zero n c : CtlReached n c -> acro_get_desired_thrust (ct_acro c) = zero.
Proof. intros (p & ops & ->). unfold acro_get_desired_thrust. rewrite acro_thrust_run. reflexivity. Qed.

(** ** C36 *)
Lemma yaw_rate_no_gain c cur rate : eqb (m22 (ac_kp (ct_acro c))) zero = true -> yaw_rate_to_angle c cur rate = cur.
Proof. intros H. unfold yaw_rate_to_angle. rewrite H. reflexivity. Qed.

(** ** What the cascade records and touches *)
Lemma acro_records c cw th w dt :
  let c' := ctl_step c (CAcro cw th w dt) in
  get_desired_thrust c' = th /\ get_desired_angular_velocity c' = w /\
  get_desired_linear_acceleration c' = get_desired_linear_acceleration c /\
  get_desired_linear_velocity c' = get_desired_linear_velocity c /\
  get_desired_position c' = get_desired_position c /\
  get_pid WPos c' = get_pid WPos c /\ get_pid WTraj c' = get_pid WTraj c /\ get_pid WVel c' = get_pid WVel c /\
  ct_acro c' = ct_acro c.
Proof. cbv zeta. repeat split. Qed.

Lemma acc_frame c R cw acc yaw dt :
  let c' := ctl_acc c R cw acc yaw dt in
  ct_dvel c' = ct_dvel c /\ ct_dpos c' = ct_dpos c /\
  ct_pos c' = ct_pos c /\ ct_traj c' = ct_traj c /\ ct_vel c' = ct_vel c.
Proof.
  cbv zeta. unfold ctl_acc. destruct (acc_to_acro (ct_acro c) acc R yaw) as [a' [th w]]. repeat split.
Qed.

Lemma acc_records c R cw acc yaw dt :
  let c' := ctl_step c (CAcc R cw acc yaw dt) in
  get_desired_linear_acceleration c' = acc /\
  get_desired_linear_velocity c' = get_desired_linear_velocity c /\
  get_desired_position c' = get_desired_position c /\
  get_pid WPos c' = get_pid WPos c /\ get_pid WTraj c' = get_pid WTraj c /\ get_pid WVel c' = get_pid WVel c.
Proof.
  cbv zeta. destruct (acc_frame c R cw acc yaw dt) as (A & B & C & D & E).
  destruct (ctl_acc_shape c R cw acc yaw dt) as (F & _). repeat split; assumption.
Qed.

Lemma vel_records c cv R cw dv yaw dt :
  let c' := ctl_step c (CVel cv R cw dv yaw dt) in
  get_desired_linear_velocity c' = dv /\
  get_desired_linear_acceleration c' = pid_output (get_pid WVel c') /\
  get_desired_position c' = get_desired_position c /\
  get_pid WPos c' = get_pid WPos c /\ get_pid WTraj c' = get_pid WTraj c /\
  get_pid WVel c' = pid_step (get_pid WVel c) (OpCompute dt (vsub dv cv)).
Proof.
  cbv zeta. cbn [ctl_step]. unfold ctl_vel. cbv zeta.
  set (c1 := mkCtl _ _ _ _ _ _ _ _ _ _ _).
  destruct (acc_frame c1 R cw (ps_out (pid_s (pid_on_error (ct_vel c) cv dv dt))) yaw dt) as (A & B & C & D & E).
  destruct (ctl_acc_shape c1 R cw (ps_out (pid_s (pid_on_error (ct_vel c) cv dv dt))) yaw dt) as (F & _).
  unfold get_desired_linear_velocity, get_desired_linear_acceleration, get_desired_position, get_pid, pid_output.
  rewrite A, B, C, D, E, F. repeat split.
Qed.

Lemma pos_records c cp R cv cw dp yaw dt :
  let c' := ctl_step c (CPos cp R cv cw dp yaw dt) in
  get_desired_position c' = dp /\
  get_desired_linear_velocity c' = pid_output (get_pid WPos c') /\
  get_desired_linear_acceleration c' = pid_output (get_pid WVel c') /\
  get_pid WPos c' = pid_step (get_pid WPos c) (OpCompute dt (vsub dp cp)) /\
  get_pid WVel c' = pid_step (get_pid WVel c) (OpCompute dt (vsub (pid_output (get_pid WPos c')) cv)) /\
  get_pid WTraj c' = get_pid WTraj c.
Proof.
  cbv zeta. cbn [ctl_step]. unfold ctl_pos. cbv zeta.
  set (c1 := mkCtl _ _ _ _ _ _ _ _ _ _ _).
  set (dv := ps_out (pid_s (pid_on_error (ct_pos c) cp dp dt))).
  pose proof (vel_records c1 cv R cw dv yaw dt) as H. cbv zeta in H. cbn [ctl_step] in H.
  destruct H as (A & B & C & D & E & F). rewrite A, B, C, D, E. cbn [get_pid c1 ct_pos].
  split; [reflexivity|]. split; [reflexivity|]. split; [reflexivity|]. split; [reflexivity|].
  split; [exact F|reflexivity].
Qed.

Lemma traj_records c cp cv R cw dp dv da yaw dt :
  let c' := ctl_step c (CTraj cp cv R cw dp dv da yaw dt) in
  get_desired_position c' = dp /\ get_desired_linear_velocity c' = dv /\
  get_desired_linear_acceleration c' = vadd (pid_output (get_pid WTraj c')) da /\
  get_pid WPos c' = get_pid WPos c /\ get_pid WVel c' = get_pid WVel c /\
  get_pid WTraj c' = pid_step (get_pid WTraj c) (OpComputeD dt (vsub dp cp) (vsub dv cv)).
Proof.
  cbv zeta. cbn [ctl_step]. unfold ctl_traj, traj_control. cbv zeta.
  set (p' := pid_compute_d _ _ _ _). set (acc := vadd _ da). set (c1 := mkCtl _ _ _ _ _ _ _ _ _ _ _).
  destruct (acc_frame c1 R cw acc yaw dt) as (A & B & C & D & E).
  destruct (ctl_acc_shape c1 R cw acc yaw dt) as (F & _).
  unfold get_desired_linear_velocity, get_desired_linear_acceleration, get_desired_position, get_pid, pid_output.
  rewrite A, B, C, D, E, F. repeat split.
Qed.

(** The motor command of every compute operation is the one just computed by
    the INDI controller, and the INDI memory is touched by nothing else. *)
Lemma acc_op_indi c op : uses_acc op = true ->
  exists cw dt, let c' := ctl_step c op in
  ct_indi c' = acro_to_motor (ct_indi c) cw (get_desired_thrust c') (get_desired_angular_velocity c') dt /\
  get_desired_motor_angular_velocity c' = in_motor (ct_indi c').
Proof.
  intros H. destruct (acc_op_shape c op H) as (c1 & cw & acc & dt & E & Ea & Ei). exists cw, dt. cbv zeta. rewrite E.
  destruct (ctl_acc_shape c1 (att_of op) cw acc (yaw_of op) dt) as (A & B & C & D & F & G).
  unfold get_desired_thrust, get_desired_angular_velocity, get_desired_motor_angular_velocity.
  rewrite B, C, <- Ei, <- F. split; [reflexivity|exact G].
Qed.

(** Every controller of a reachable Controller object is a reachable PID. *)
Lemma get_pid_step c op w : Reached (get_pid w c) -> Reached (get_pid w (ctl_step c op)).
Proof.
  intros X0.
  assert (X : forall o, Reached (pid_step (get_pid w c) o)).
  { intros o. destruct X0 as (pp & ops & E). exists pp, (ops ++ [o]). rewrite E. unfold pid_run. rewrite fold_left_app. reflexivity. }
  destruct (uses_acc op) eqn:H.
  - assert (I : Reached (get_pid WIndi c) -> w = WIndi -> Reached (get_pid WIndi (ctl_step c op))).
    { intros _ ->. destruct (acc_op_indi c op H) as (cw & dt & A & _). cbn [get_pid] in *. rewrite A.
      apply (X (OpCompute dt (vsub (get_desired_angular_velocity (ctl_step c op)) cw))). }
    destruct op as [q1 q2 q3 q4|R curw acc yaw dt|cpos cvel R curw dpos dvel dacc yaw dt|cvel R curw dvel yaw dt|cpos R cvel curw dpos yaw dt| | | | | | | | | |w0 pp0|w0 o0| | | | | | ];
      try discriminate H.
    + destruct (acc_records c R curw acc yaw dt) as (_ & _ & _ & P & Q & V).
      destruct w; [apply (I X0 eq_refl)|rewrite P|rewrite Q|rewrite V]; exact X0.
    + destruct (traj_records c cpos cvel R curw dpos dvel dacc yaw dt) as (_ & _ & _ & P & V & Q).
      destruct w; [apply (I X0 eq_refl)|rewrite P; exact X0|rewrite Q; apply X|rewrite V; exact X0].
    + destruct (vel_records c cvel R curw dvel yaw dt) as (_ & _ & _ & P & Q & V).
      destruct w; [apply (I X0 eq_refl)|rewrite P; exact X0|rewrite Q; exact X0|rewrite V; apply X].
    + destruct (pos_records c cpos R cvel curw dpos yaw dt) as (_ & _ & _ & P & V & Q).
      destruct w; [apply (I X0 eq_refl)|rewrite P; apply X|rewrite Q; exact X0|rewrite V; apply X].
  - destruct op as [q1 q2 q3 q4|R curw acc yaw dt|cpos cvel R curw dpos dvel dacc yaw dt|cvel R curw dvel yaw dt|cpos R cvel curw dpos yaw dt| | | | | | | | | |w0 pp0|w0 o0| | | | | | ];
      try discriminate H; try (destruct w0); destruct w; try exact X0;
      first [ exact (X OpReset) | exact (X (OpUpdate _)) | exact (X (OpCompute _ _)) | exact (X (OpComputeD _ _ _)) | exact (X _) ].
Qed.
Lemma get_pid_reached n c w : CtlReached n c -> Reached (get_pid w c).
Proof.
  intros (p & ops & ->).
  assert (H : Reached (get_pid w (ctl_new n p))) by (destruct w; eexists _, []; reflexivity).
  revert H. generalize (ctl_new n p). induction ops as [|o ops IH]; intros c H; [exact H|].
  apply (IH (ctl_step c o)). apply get_pid_step, H.
Qed.

End Ctl.
