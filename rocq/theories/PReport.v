(** Proofs about the reporting getters. *)

From Coq Require Import ZArith List Bool Lia Reals Lra.
From Verif Require Import Scalar LinAlg MUtils MPid MPid1 MControl MCtlRun MReport SpecDyn SpecPid SpecCtl SpecReport
  PBase PPid PPid1 PPidR PDynR PCtl.
Import ListNotations.

Section Gen.
Context {T : Type} {O : Ops T}.

Lemma err_kept (p : Pid T) op : call_of op = None ->
  pid_prop_error (pid_step p op) = pid_prop_error p /\ pid_der_error (pid_step p op) = pid_der_error p /\
  pid_prop_part (pid_step p op) = pid_prop_part p /\ pid_int_part (pid_step p op) = pid_int_part p /\
  pid_der_part (pid_step p op) = pid_der_part p /\ pid_output (pid_step p op) = pid_output p.
Proof. destruct op; intros E; try discriminate E; repeat split. Qed.

Lemma err_step (p : Pid T) op e d : call_of op = Some (e, d) ->
  pid_prop_error (pid_step p op) = e /\ match d with Some de => pid_der_error (pid_step p op) = de | None => pid_der_error (pid_step p op) = pid_der_error p end.
Proof.
  destruct op; intros E; try discriminate E; injection E as <- <-; split; try reflexivity.
  cbn. unfold ps_init. destruct (ps_first (pid_s p)); reflexivity.
Qed.

Lemma last_reported (ops : list (PidOp T)) : forall p : Pid T,
  pid_prop_error (pid_run p ops) = match last_call ops with Some (e, _) => e | None => pid_prop_error p end /\
  pid_der_error (pid_run p ops) = match last_given ops with Some d => d | None => pid_der_error p end.
Proof.
  induction ops as [|op r IH]; intros p; [split; reflexivity|].
  change (pid_run p (op :: r)) with (pid_run (pid_step p op) r). destruct (IH (pid_step p op)) as (A & B).
  rewrite A, B. cbn [last_call last_given]. split.
  - destruct (last_call r) as [[e d]|]; [reflexivity|]. destruct (call_of op) as [[e d]|] eqn:E.
    + apply (err_step p op e d E).
    + apply (err_kept p op E).
  - destruct (last_given r) as [d|]; [reflexivity|]. destruct (call_of op) as [[e d]|] eqn:E.
    + destruct (err_step p op e d E) as (_ & X). destruct op; try discriminate E; injection E as <- <-; exact X.
    + destruct (err_kept p op E) as (_ & X & _). destruct op; try discriminate E; exact X.
Qed.

(** Everything reported after a history is what was reported right after the last control call. *)
Lemma kept_since (ops : list (PidOp T)) : forall p : Pid T, last_call ops = None ->
  let p' := pid_run p ops in
  pid_prop_error p' = pid_prop_error p /\ pid_der_error p' = pid_der_error p /\
  pid_prop_part p' = pid_prop_part p /\ pid_int_part p' = pid_int_part p /\
  pid_der_part p' = pid_der_part p /\ pid_output p' = pid_output p.
Proof.
  induction ops as [|op r IH]; intros p E; [repeat split|]. cbn [last_call] in E.
  destruct (last_call r) as [x|] eqn:E1; [discriminate E|].
  cbv zeta. change (pid_run p (op :: r)) with (pid_run (pid_step p op) r).
  destruct (IH (pid_step p op) eq_refl) as (A & B & C & D & F & K). destruct (err_kept p op E) as (A' & B' & C' & D' & F' & K').
  rewrite A, B, C, D, F, K. auto 10.
Qed.

Lemma last_reported_new pp (ops : list (PidOp T)) e d : last_call ops = Some (e, d) ->
  pid_prop_error (pid_run (pid_new pp) ops) = e.
Proof. intros E. destruct (last_reported ops (pid_new pp)) as (A & _). rewrite E in A. exact A. Qed.

Lemma given_reported pp (ops : list (PidOp T)) :
  pid_der_error (pid_run (pid_new pp) ops) = match last_given ops with Some d => d | None => v0 end.
Proof. destruct (last_reported ops (pid_new pp)) as (_ & B). exact B. Qed.

(** The scalar controller. *)
Lemma err1_step (p p' : Pid1 T) op : pid1_step p op = Some p' ->
  pid1_prop_error p' = match call1_of op with Some (e, _) => e | None => pid1_prop_error p end /\
  (forall e de, call1_of op = Some (e, Some de) -> pid1_der_error p' = de) /\
  (forall e, call1_of op = Some (e, None) -> pid1_der_error p' = pid1_der_error p) /\
  (call1_of op = None -> pid1_der_error p' = pid1_der_error p /\ pid1_prop_part p' = pid1_prop_part p /\
     pid1_int_part p' = pid1_int_part p /\ pid1_der_part p' = pid1_der_part p /\ pid1_output p' = pid1_output p).
Proof.
  destruct op; cbn [pid1_step call1_of]; intros E; try (injection E as <-; split; [reflexivity|]; split; [discriminate|]; split; [discriminate|]; repeat split).
  - unfold pid1_compute in E. apply bindo_Some in E as (a & _ & E). apply bindo_Some in E as (o & _ & E). injection E as <-.
    split; [reflexivity|]. split; [discriminate|]. split; [|discriminate]. intros e0 _. cbn. unfold s1_init. destruct (s1_first (pid1_s p)); reflexivity.
  - unfold pid1_compute_d in E. apply bindo_Some in E as (a & _ & E). apply bindo_Some in E as (o & _ & E). injection E as <-.
    split; [reflexivity|]. split; [intros e0 d0 E0; injection E0 as _ <-; reflexivity|]. split; discriminate.
Qed.

Lemma parts1_report (p p' : Pid1 T) op e d : pid1_step p op = Some p' -> call1_of op = Some (e, d) ->
  pid1_prop_part p' = mul (pp1_kp (pid1_get_params p)) e /\
  match d with Some de => pid1_der_part p' = mul (pp1_kd (pid1_get_params p)) de | None => True end.
Proof.
  destruct op; cbn [pid1_step call1_of]; intros E C; try discriminate C; injection C as <- <-.
  - unfold pid1_compute in E. apply bindo_Some in E as (a & _ & E). apply bindo_Some in E as (o & _ & E). injection E as <-. split; [reflexivity|exact I].
  - unfold pid1_compute_d in E. apply bindo_Some in E as (a & _ & E). apply bindo_Some in E as (o & _ & E). injection E as <-. split; reflexivity.
Qed.
Lemma kept1 (p p' : Pid1 T) op : pid1_step p op = Some p' -> call1_of op = None ->
  pid1_prop_error p' = pid1_prop_error p /\ pid1_der_error p' = pid1_der_error p /\ pid1_prop_part p' = pid1_prop_part p /\
  pid1_int_part p' = pid1_int_part p /\ pid1_der_part p' = pid1_der_part p /\ pid1_output p' = pid1_output p.
Proof. intros E C. destruct (err1_step p p' op E) as (A & _ & _ & F). rewrite C in A. split; [exact A|exact (F C)]. Qed.

Lemma last_reported1 (ops : list (Pid1Op T)) : forall p p' : Pid1 T, pid1_run p ops = Some p' ->
  pid1_prop_error p' = match last_call1 ops with Some (e, _) => e | None => pid1_prop_error p end /\
  (forall e de, last_call1 ops = Some (e, Some de) -> pid1_der_error p' = de).
Proof.
  induction ops as [|op r IH]; intros p p' E.
  - injection E as <-. split; [reflexivity|discriminate].
  - cbn [pid1_run] in E. apply bindo_Some in E as (q & E1 & E). destruct (IH q p' E) as (A & B).
    destruct (err1_step p q op E1) as (C & D & _ & F). cbn [last_call1].
    destruct (last_call1 r) as [[e d]|] eqn:E2.
    + split; [exact A|exact B].
    + split; [rewrite A, C; reflexivity|]. intros e de E3.
      enough (pid1_der_error p' = pid1_der_error q) as -> by exact (D e de E3).
      clear - E E2. revert q E. induction r as [|o r IH]; intros q E; [injection E as <-; reflexivity|].
      cbn [pid1_run] in E. apply bindo_Some in E as (q1 & E1 & E). cbn [last_call1] in E2.
      destruct (last_call1 r) as [x|]; [discriminate E2|]. rewrite (IH eq_refl q1 E).
      destruct (err1_step q q1 o E1) as (_ & _ & _ & F). apply (F E2).
Qed.

Lemma last_reported1_new pp (ops : list (Pid1Op T)) p e d : pid1_run (pid1_new pp) ops = Some p -> last_call1 ops = Some (e, d) ->
  pid1_prop_error p = e /\ match d with Some de => pid1_der_error p = de | None => True end.
Proof.
  intros E1 E2. destruct (last_reported1 ops _ _ E1) as (A & B). rewrite E2 in A. split; [exact A|].
  destruct d as [de|]; [exact (B e de E2)|exact I].
Qed.

(** ** The loops of the flight controller *)
Lemma indi_perr (i : Indi T) cur th des dt : pid_prop_error (in_pid (acro_to_motor i cur th des dt)) = vsub des cur.
Proof. reflexivity. Qed.

Lemma acc_indi (c : Ctl T) op : uses_acc op = true ->
  exists cw dt, ct_indi (ctl_step c op) = acro_to_motor (ct_indi c) cw (get_desired_thrust (ctl_step c op)) (get_desired_angular_velocity (ctl_step c op)) dt /\
  asks WIndi (ctl_step c op) op = Some (cw, get_desired_angular_velocity (ctl_step c op)) /\
  get_desired_motor_angular_velocity (ctl_step c op) = in_motor (ct_indi (ctl_step c op)).
Proof.
  intros H. destruct op as [| R cw acc yaw dt|cp cv R cw dp dv da yaw dt|cv R cw dv yaw dt|cp R cv cw dp yaw dt| | | | | | | | | | | | | | | | | ]; try discriminate H;
  exists cw, dt; cbn [ctl_step asks].
  - destruct (ctl_acc_shape c R cw acc yaw dt) as (_ & B & C & _ & E & F). unfold get_desired_thrust, get_desired_angular_velocity, get_desired_motor_angular_velocity. rewrite B, C.
    split; [exact E|split; [reflexivity|exact F]].
  - unfold ctl_traj, traj_control. cbv zeta. set (c1 := mkCtl _ _ _ _ _ _ _ _ _ _ _). set (acc := vadd _ da).
    destruct (ctl_acc_shape c1 R cw acc yaw dt) as (_ & B & C & _ & E & F). unfold get_desired_thrust, get_desired_angular_velocity, get_desired_motor_angular_velocity. rewrite B, C.
    split; [exact E|split; [reflexivity|exact F]].
  - unfold ctl_vel. cbv zeta. set (c1 := mkCtl _ _ _ _ _ _ _ _ _ _ _). set (acc := ps_out _).
    destruct (ctl_acc_shape c1 R cw acc yaw dt) as (_ & B & C & _ & E & F). unfold get_desired_thrust, get_desired_angular_velocity, get_desired_motor_angular_velocity. rewrite B, C.
    split; [exact E|split; [reflexivity|exact F]].
  - unfold ctl_pos, ctl_vel. cbv zeta. cbn [ct_vel ct_acro ct_indi ct_pos ct_traj ct_dpos ct_dacc ct_dthrust ct_dang ct_dmotor].
    set (c1 := mkCtl _ _ _ _ _ _ _ _ _ _ _). set (acc := ps_out (pid_s (pid_on_error _ cv _ _))).
    destruct (ctl_acc_shape c1 R cw acc yaw dt) as (_ & B & C & _ & E & F). unfold get_desired_thrust, get_desired_angular_velocity, get_desired_motor_angular_velocity. rewrite B, C.
    split; [exact E|split; [reflexivity|exact F]].
Qed.

Lemma pr_vsub_gen a (x y : V3 T) : pr a (vsub x y) = sub (pr a x) (pr a y).
Proof. destruct a; reflexivity. Qed.

Lemma loops_report (c : Ctl T) op w x y a : asks w (ctl_step c op) op = Some (x, y) ->
  pr a (reported_error w (ctl_step c op)) = sub (pr a y) (pr a x).
Proof.
  intros H. rewrite <- pr_vsub_gen. f_equal.
  destruct w.
  - (* INDI *) destruct (uses_acc op) eqn:U.
    + destruct (acc_indi c op U) as (cw & dt & A & B & _). rewrite B in H. injection H as <- <-.
      cbn [reported_error]. unfold indi_get_angular_velocity_error. rewrite A. reflexivity.
    + destruct op; try discriminate U; try discriminate H; injection H as <- <-; reflexivity.
  - destruct op as [| R cw acc yaw dt|cp cv R cw dp dv da yaw dt|cv R cw dv yaw dt|cp R cv cw dp yaw dt| | | | | | | | | | | | | | | | | ];
      try discriminate H; injection H as <- <-; try reflexivity.
    destruct (pos_records c cp R cv cw dp yaw dt) as (_ & _ & _ & D & _). cbn [reported_error get_pid] in *. unfold pos_get_position_error. rewrite D. reflexivity.
  - destruct op as [| R cw acc yaw dt|cp cv R cw dp dv da yaw dt|cv R cw dv yaw dt|cp R cv cw dp yaw dt| | | | | | | | | | | | | | | | | ];
      try discriminate H; injection H as <- <-; try reflexivity.
    destruct (traj_records c cp cv R cw dp dv da yaw dt) as (_ & _ & _ & _ & _ & D). cbn [reported_error get_pid] in *. unfold traj_get_position_error. rewrite D. reflexivity.
  - destruct op as [| R cw acc yaw dt|cp cv R cw dp dv da yaw dt|cv R cw dv yaw dt|cp R cv cw dp yaw dt| | | | | | | | | | | | | | | | | ];
      try discriminate H; cbn [asks] in H.
    + injection H as <- <-. destruct (vel_records c cv R cw dv yaw dt) as (_ & _ & _ & _ & _ & D). cbn [reported_error get_pid] in *. unfold vel_get_velocity_error. rewrite D. reflexivity.
    + injection H as <- <-. destruct (pos_records c cp R cv cw dp yaw dt) as (_ & B & _ & _ & D & _). exact (eq_trans (f_equal pid_prop_error D) (f_equal (fun v => vsub v cv) (eq_sym B))).
    + injection H as <- <-. reflexivity.
Qed.

Lemma loops_keep (c : Ctl T) op w : asks w (ctl_step c op) op = None -> by_hand w op = false ->
  reported_error w (ctl_step c op) = reported_error w c.
Proof.
  intros H B. destruct op as [| R cw acc yaw dt|cp cv R cw dp dv da yaw dt|cv R cw dv yaw dt|cp R cv cw dp yaw dt| | | | | | | | | |w0 pp|w0 o| | | | | | ];
    destruct w; try discriminate H; try reflexivity; cbn [reported_error];
    unfold pos_get_position_error, vel_get_velocity_error, traj_get_position_error, indi_get_angular_velocity_error.
  all: try (destruct w0; reflexivity).
  all: try (destruct (acc_records c R cw acc yaw dt) as (_ & _ & _ & P & Q & V); cbn [get_pid] in *; rewrite ?P, ?Q, ?V; reflexivity).
  all: try (destruct (traj_records c cp cv R cw dp dv da yaw dt) as (_ & _ & _ & P & V & Q); cbn [get_pid] in *; rewrite ?P, ?V; reflexivity).
  all: try (destruct (vel_records c cv R cw dv yaw dt) as (_ & _ & _ & P & Q & V); cbn [get_pid] in *; rewrite ?P, ?Q; reflexivity).
  all: try (destruct (pos_records c cp R cv cw dp yaw dt) as (_ & _ & _ & P & V & Q); cbn [get_pid] in *; rewrite ?Q; reflexivity).
  all: destruct w0; try reflexivity; cbn [by_hand] in B; apply err_kept; destruct o; try discriminate B; reflexivity.
Qed.

Lemma traj_velocity_report (c : Ctl T) cp cv R cw dp dv da yaw dt a :
  pr a (traj_get_velocity_error (ctl_step c (CTraj cp cv R cw dp dv da yaw dt))) = sub (pr a dv) (pr a cv) /\
  pr a (traj_get_velocity_error (ctl_step c (CConvTraj cp cv dp dv da dt))) = sub (pr a dv) (pr a cv).
Proof.
  rewrite <- pr_vsub_gen. split; f_equal.
  - destruct (traj_records c cp cv R cw dp dv da yaw dt) as (_ & _ & _ & _ & _ & D). cbn [get_pid] in *. unfold traj_get_velocity_error. rewrite D. reflexivity.
Qed.

(** The outputs that the single controllers report are the set points of the whole. *)
Lemma outputs_agree (c : Ctl T) op : let c' := ctl_step c op in
  (match op with CPos _ _ _ _ _ _ _ => pos_get_desired_linear_velocity c' = get_desired_linear_velocity c' | _ => True end) /\
  (match op with CPos _ _ _ _ _ _ _ | CVel _ _ _ _ _ _ => vel_get_desired_linear_acceleration c' = get_desired_linear_acceleration c' | _ => True end) /\
  (match op with CAcro _ _ _ _ | CAcc _ _ _ _ _ | CTraj _ _ _ _ _ _ _ _ _ | CVel _ _ _ _ _ _ | CPos _ _ _ _ _ _ _ =>
     indi_get_motor_angular_velocity c' = get_desired_motor_angular_velocity c' | _ => True end).
Proof.
  cbv zeta. assert (M : uses_acc op = true -> indi_get_motor_angular_velocity (ctl_step c op) = get_desired_motor_angular_velocity (ctl_step c op)).
  { intros U. destruct (acc_indi c op U) as (_ & _ & _ & _ & X). symmetry. exact X. }
  destruct op as [| R cw acc yaw dt|cp cv R cw dp dv da yaw dt|cv R cw dv yaw dt|cp R cv cw dp yaw dt| | | | | | | | | | | | | | | | | ];
    try (split; [exact I|split; exact I]).
  - split; [exact I|split; [exact I|reflexivity]].
  - split; [exact I|split; [exact I|exact (M eq_refl)]].
  - split; [exact I|split; [exact I|exact (M eq_refl)]].
  - split; [exact I|split; [|exact (M eq_refl)]]. destruct (vel_records c cv R cw dv yaw dt) as (_ & B & _). symmetry. exact B.
  - destruct (pos_records c cp R cv cw dp yaw dt) as (_ & A & B & _). split; [symmetry; exact A|split; [symmetry; exact B|exact (M eq_refl)]].
Qed.

End Gen.

Local Open Scope R_scope.

Lemma parts_report p op e d a : Reached p -> call_of op = Some (e, d) ->
  let p' := pid_step p op in
  pr a (pid_prop_part p') = pr a (pid_kp p) * pr a e /\
  match d with Some de => pr a (pid_der_part p') = pr a (pid_kd p) * pr a de | None => True end.
Proof.
  intros H E. cbv zeta. assert (K : cfg_inv (pid_c p)) by (apply reached_inv, H).
  destruct K as (_ & Dp & _ & Dd).
  destruct op; try discriminate E; injection E as <- <-; cbn [pid_step pid_compute pid_compute_d pid_prop_part pid_der_part pid_s ps_cp ps_cd].
  - split; [apply diag_ok_mul, Dp|exact I].
  - split; [apply diag_ok_mul, Dp|apply diag_ok_mul, Dd].
Qed.

Lemma allocation_report (c : Ctl R) op th x y : asked_thrust (ctl_step c op) op = Some th -> asks WIndi (ctl_step c op) op = Some (x, y) ->
  let c' := ctl_step c op in
  indi_get_desired_thrust c' = mkV 0 0 th /\
  forall a, pr a (indi_get_desired_torque c') = torque_for (in_inertia (ct_indi c)) (indi_get_desired_angular_acceleration c') y a.
Proof.
  intros H1 H2. cbv zeta.
  assert (G : forall i cur th des dt, in_thrust (acro_to_motor i cur th des dt) = mkV 0 0 th /\
     forall a, pr a (in_torque (acro_to_motor i cur th des dt)) = torque_for (in_inertia i) (pid_output (in_pid (acro_to_motor i cur th des dt))) des a).
  { clear. intros i cur th des dt. split; [reflexivity|]. intros a. unfold acro_to_motor. cbn [in_torque in_pid].
    unfold pid_output. set (al := ps_out _). generalize al. clear. intros al. unfold torque_for.
    destruct (in_inertia i) as [b00 b01 b02 b10 b11 b12 b20 b21 b22], al as [ax ay az], des as [dx dy dz]. destruct a; unfold mat_vec, cross3, vec_of, dot3; cbn; unR; ring. }
  destruct (uses_acc op) eqn:U.
  - destruct (acc_indi c op U) as (cw & dt & A & B & _). rewrite B in H2. injection H2 as _ <-.
    assert (th = get_desired_thrust (ctl_step c op)) as -> by (destruct op; try discriminate U; injection H1 as <-; reflexivity).
    unfold indi_get_desired_thrust, indi_get_desired_torque, indi_get_desired_angular_acceleration. rewrite A. apply G.
  - destruct op; try discriminate U; try discriminate H1; injection H1 as <-; injection H2 as _ <-; apply G.
Qed.
