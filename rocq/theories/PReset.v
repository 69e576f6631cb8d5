(** Proofs: resetting the flight controller forgets the past. *)

From Coq Require Import ZArith List Bool Reals Lra.
From Verif Require Import Scalar LinAlg MUtils MPid MControl MCtlRun SpecPid SpecCtl SpecReset PBase PPid PTwin PCtl.
Import ListNotations.

Section Reset.
Context {T : Type} {O : Ops T}.

Record ctwin (c1 c2 : Ctl T) : Prop := {
  tw_kp : ac_kp (ct_acro c1) = ac_kp (ct_acro c2);
  tw_mass : ac_mass (ct_acro c1) = ac_mass (ct_acro c2);
  tw_grav : ac_grav (ct_acro c1) = ac_grav (ct_acro c2);
  tw_in : in_inertia (ct_indi c1) = in_inertia (ct_indi c2);
  tw_minv : in_minv (ct_indi c1) = in_minv (ct_indi c2);
  tw_pid : forall w, wtwin (get_pid w c1) (get_pid w c2) }.

Lemma twin_compute p q dt e : wtwin p q -> wtwin (pid_compute p dt e) (pid_compute q dt e) /\
  ps_out (pid_s (pid_compute p dt e)) = ps_out (pid_s (pid_compute q dt e)).
Proof. intros H. destruct (step_wtwin p q (OpCompute dt e) H) as [A B]. split; [exact A|exact (B eq_refl)]. Qed.
Lemma twin_compute_d p q dt e ed : wtwin p q -> wtwin (pid_compute_d p dt e ed) (pid_compute_d q dt e ed) /\
  ps_out (pid_s (pid_compute_d p dt e ed)) = ps_out (pid_s (pid_compute_d q dt e ed)).
Proof. intros H. destruct (step_wtwin p q (OpComputeD dt e ed) H) as [A B]. split; [exact A|exact (B eq_refl)]. Qed.

Lemma indi_twin (i j : Indi T) cur th des dt : wtwin (in_pid i) (in_pid j) -> in_inertia i = in_inertia j -> in_minv i = in_minv j ->
  wtwin (in_pid (acro_to_motor i cur th des dt)) (in_pid (acro_to_motor j cur th des dt)) /\
  in_motor (acro_to_motor i cur th des dt) = in_motor (acro_to_motor j cur th des dt).
Proof.
  intros Hp Hi Hm. destruct (twin_compute _ _ dt (get_error cur des) Hp) as [A B]. split; [exact A|].
  cbn [acro_to_motor in_motor]. rewrite B, Hi, Hm. reflexivity.
Qed.
Lemma acro_twin (c1 c2 : Ctl T) cur th des dt : ctwin c1 c2 ->
  ctwin (ctl_acro c1 cur th des dt) (ctl_acro c2 cur th des dt) /\
  get_desired_motor_angular_velocity (ctl_acro c1 cur th des dt) = get_desired_motor_angular_velocity (ctl_acro c2 cur th des dt).
Proof.
  intros [A B C D E F]. destruct (indi_twin (ct_indi c1) (ct_indi c2) cur th des dt (F WIndi) D E) as [G I].
  split; [|exact I]. split; try assumption.
  intros w. destruct w; [exact G|exact (F WPos)|exact (F WTraj)|exact (F WVel)].
Qed.
Lemma conv_twin (a b : Acro T) acc R yaw : ac_kp a = ac_kp b -> ac_mass a = ac_mass b -> ac_grav a = ac_grav b ->
  snd (acc_to_acro a acc R yaw) = snd (acc_to_acro b acc R yaw).
Proof. intros A B C. unfold acc_to_acro, acc_to_thrust, yaw_to_angvel. cbn [snd ac_angvel]. rewrite A, B, C. reflexivity. Qed.

Lemma acc_twin (c1 c2 : Ctl T) R cw acc yaw dt : ctwin c1 c2 ->
  ctwin (ctl_acc c1 R cw acc yaw dt) (ctl_acc c2 R cw acc yaw dt) /\
  get_desired_motor_angular_velocity (ctl_acc c1 R cw acc yaw dt) = get_desired_motor_angular_velocity (ctl_acc c2 R cw acc yaw dt) /\
  get_desired_thrust (ctl_acc c1 R cw acc yaw dt) = get_desired_thrust (ctl_acc c2 R cw acc yaw dt) /\
  get_desired_angular_velocity (ctl_acc c1 R cw acc yaw dt) = get_desired_angular_velocity (ctl_acc c2 R cw acc yaw dt).
Proof.
  intros [A B C D E F]. unfold ctl_acc.
  pose proof (conv_twin (ct_acro c1) (ct_acro c2) acc R yaw A B C) as S.
  destruct (acc_to_acro (ct_acro c1) acc R yaw) as [a1 [th w]] eqn:E1. destruct (acc_to_acro (ct_acro c2) acc R yaw) as [a2 [th2 w2]] eqn:E2.
  cbn [snd] in S. injection S as <- <-.
  unfold acc_to_acro in E1, E2. injection E1 as Ea _. injection E2 as Eb _.
  set (x1 := mkCtl a1 (ct_indi c1) (ct_pos c1) (ct_traj c1) (ct_vel c1) (ct_dpos c1) (ct_dvel c1) acc th w (ct_dmotor c1)).
  set (x2 := mkCtl a2 (ct_indi c2) (ct_pos c2) (ct_traj c2) (ct_vel c2) (ct_dpos c2) (ct_dvel c2) acc th w (ct_dmotor c2)).
  destruct (acro_twin x1 x2 cw th w dt) as [G I].
  { unfold x1, x2. split; cbn [ct_acro ct_indi].
    - rewrite <- Ea, <- Eb. exact A.
    - rewrite <- Ea, <- Eb. exact B.
    - rewrite <- Ea, <- Eb. exact C.
    - exact D.
    - exact E.
    - intros v. destruct v; [exact (F WIndi)|exact (F WPos)|exact (F WTraj)|exact (F WVel)]. }
split; [exact G|]. split; [exact I|]. split; reflexivity.
Qed.

Lemma vel_twin (c1 c2 : Ctl T) cv R cw dv yaw dt : ctwin c1 c2 ->
  ctwin (ctl_vel c1 cv R cw dv yaw dt) (ctl_vel c2 cv R cw dv yaw dt) /\
  get_desired_motor_angular_velocity (ctl_vel c1 cv R cw dv yaw dt) = get_desired_motor_angular_velocity (ctl_vel c2 cv R cw dv yaw dt) /\
  get_desired_thrust (ctl_vel c1 cv R cw dv yaw dt) = get_desired_thrust (ctl_vel c2 cv R cw dv yaw dt) /\
  get_desired_angular_velocity (ctl_vel c1 cv R cw dv yaw dt) = get_desired_angular_velocity (ctl_vel c2 cv R cw dv yaw dt).
Proof.
  intros [A B C D E F]. unfold ctl_vel, pid_on_error. cbv zeta. destruct (twin_compute _ _ dt (get_error cv dv) (F WVel)) as [G I].
  cbn [get_pid] in G, I. rewrite I. apply acc_twin. split; try assumption; (intros v; destruct v; [exact (F WIndi)|exact (F WPos)|exact (F WTraj)|exact G]).
Qed.

Lemma ctl_twin (c1 c2 : Ctl T) op : ctwin c1 c2 -> ctwin (ctl_step c1 op) (ctl_step c2 op) /\ answer c1 op = answer c2 op.
Proof.
  intros H. pose proof H as [A B C D E F].
  destruct op as [cur th des dt|R cw acc yaw dt|cp cv R cw dp dv da yaw dt|cv R cw dv yaw dt|cp R cv cw dp yaw dt|cur th des dt|acc R yaw|cp cv dp dv da dt|cv dv dt|cp dp dt| |p|p|p|w0 p|w0 o|m|g|k|R yaw th|m|m];
    unfold answer; cbn [ctl_step].
  - destruct (acro_twin c1 c2 cur th des dt H) as [G I]. split; [exact G|]. rewrite I. reflexivity.
  - destruct (acc_twin c1 c2 R cw acc yaw dt H) as (G & I & J & K). split; [exact G|]. rewrite I, J, K. reflexivity.
  - unfold ctl_traj, traj_control. cbv zeta. destruct (twin_compute_d _ _ dt (get_error cp dp) (get_error cv dv) (F WTraj)) as [P Q].
    cbn [get_pid] in P, Q. rewrite Q.
    match goal with |- context[ctl_acc (mkCtl (ct_acro c1) ?a1 ?a2 ?a3 ?a4 ?a5 ?a6 ?a7 ?a8 ?a9 ?a10) _ _ _ _ _] => set (x1 := mkCtl (ct_acro c1) a1 a2 a3 a4 a5 a6 a7 a8 a9 a10) end.
    match goal with |- context[ctl_acc (mkCtl (ct_acro c2) ?a1 ?a2 ?a3 ?a4 ?a5 ?a6 ?a7 ?a8 ?a9 ?a10) _ _ _ _ _] => set (x2 := mkCtl (ct_acro c2) a1 a2 a3 a4 a5 a6 a7 a8 a9 a10) end.
    destruct (acc_twin x1 x2 R cw (vadd (ps_out (pid_s (pid_compute_d (ct_traj c2) dt (get_error cp dp) (get_error cv dv)))) da) yaw dt) as (G & I & J & K).
    { unfold x1, x2. split; try assumption; (intros v; destruct v; [exact (F WIndi)|exact (F WPos)|exact P|exact (F WVel)]). }
    split; [exact G|]. rewrite I, J, K. reflexivity.
  - destruct (vel_twin c1 c2 cv R cw dv yaw dt H) as (G & I & J & K). split; [exact G|]. rewrite I, J, K. reflexivity.
  - unfold ctl_pos, pid_on_error. cbv zeta. destruct (twin_compute _ _ dt (get_error cp dp) (F WPos)) as [P Q].
    cbn [get_pid] in P, Q. rewrite Q.
    match goal with |- context[ctl_vel (mkCtl (ct_acro c1) ?a1 ?a2 ?a3 ?a4 ?a5 ?a6 ?a7 ?a8 ?a9 ?a10) _ _ _ _ _ _] => set (x1 := mkCtl (ct_acro c1) a1 a2 a3 a4 a5 a6 a7 a8 a9 a10) end.
    match goal with |- context[ctl_vel (mkCtl (ct_acro c2) ?a1 ?a2 ?a3 ?a4 ?a5 ?a6 ?a7 ?a8 ?a9 ?a10) _ _ _ _ _ _] => set (x2 := mkCtl (ct_acro c2) a1 a2 a3 a4 a5 a6 a7 a8 a9 a10) end.
    destruct (vel_twin x1 x2 cv R cw (ps_out (pid_s (pid_compute (ct_pos c2) dt (get_error cp dp)))) yaw dt) as (G & I & J & K).
    { unfold x1, x2. split; try assumption; (intros v; destruct v; [exact (F WIndi)|exact P|exact (F WTraj)|exact (F WVel)]). }
    split; [exact G|]. rewrite I, J, K. reflexivity.
  - destruct (indi_twin (ct_indi c1) (ct_indi c2) cur th des dt (F WIndi) D E) as [G I]. split; [|cbn [with_indi ct_indi]; rewrite I; reflexivity].
    split; try assumption; (intros v; destruct v; [exact G|exact (F WPos)|exact (F WTraj)|exact (F WVel)]).
  - split; [|rewrite (conv_twin (ct_acro c1) (ct_acro c2) acc R yaw A B C); reflexivity].
    split; try assumption; (intros v; destruct v; [exact (F WIndi)|exact (F WPos)|exact (F WTraj)|exact (F WVel)]).
  - destruct (twin_compute_d _ _ dt (get_error cp dp) (get_error cv dv) (F WTraj)) as [P Q].
    split; [|cbn [traj_control snd]; cbn [get_pid] in Q; rewrite Q; reflexivity].
    split; try assumption; (intros v; destruct v; [exact (F WIndi)|exact (F WPos)|exact P|exact (F WVel)]).
  - destruct (twin_compute _ _ dt (get_error cv dv) (F WVel)) as [P Q].
    split; [|unfold pid_output; cbn [on_pid ct_vel pid_on_error]; cbn [get_pid] in Q; unfold pid_on_error; rewrite Q; reflexivity].
    split; try assumption; (intros v; destruct v; [exact (F WIndi)|exact (F WPos)|exact (F WTraj)|exact P]).
  - destruct (twin_compute _ _ dt (get_error cp dp) (F WPos)) as [P Q].
    split; [|unfold pid_output; cbn [on_pid ct_pos pid_on_error]; cbn [get_pid] in Q; unfold pid_on_error; rewrite Q; reflexivity].
    split; try assumption; (intros v; destruct v; [exact (F WIndi)|exact P|exact (F WTraj)|exact (F WVel)]).
  - split; [|reflexivity]. split; try assumption; (intros v; destruct v; [exact (proj1 (step_wtwin _ _ OpReset (F WIndi)))|exact (proj1 (step_wtwin _ _ OpReset (F WPos)))|exact (proj1 (step_wtwin _ _ OpReset (F WTraj)))|exact (proj1 (step_wtwin _ _ OpReset (F WVel)))]).
  - split; [|reflexivity]. split; try reflexivity; (intros v; destruct v; [exact (proj1 (step_wtwin _ _ (OpUpdate _) (F WIndi)))|exact (proj1 (step_wtwin _ _ (OpUpdate _) (F WPos)))|exact (proj1 (step_wtwin _ _ (OpUpdate _) (F WTraj)))|exact (proj1 (step_wtwin _ _ (OpUpdate _) (F WVel)))]).
  - split; [|reflexivity]. split; try reflexivity; try assumption.
  - split; [|reflexivity]. split; try reflexivity; try assumption; (intros v; destruct v; [exact (proj1 (step_wtwin _ _ (OpUpdate _) (F WIndi)))|exact (F WPos)|exact (F WTraj)|exact (F WVel)]).
  - split; [|reflexivity]. pose proof (proj1 (step_wtwin _ _ (OpUpdate p) (F w0))) as P.
    destruct w0; split; try assumption; intros v; destruct v; first [exact P|exact (F WIndi)|exact (F WPos)|exact (F WTraj)|exact (F WVel)].
  - pose proof (step_wtwin _ _ o (F w0)) as [P Q]. split.
    + destruct w0; split; try assumption; intros v; destruct v; first [exact P|exact (F WIndi)|exact (F WPos)|exact (F WTraj)|exact (F WVel)].
    + destruct (is_compute o); [|reflexivity]. specialize (Q eq_refl). destruct w0; cbn [on_pid get_pid with_indi ct_indi indi_with_pid in_pid ct_pos ct_traj ct_vel] in *; rewrite Q; reflexivity.
  - split; [|reflexivity]. split; try reflexivity; try assumption.
  - split; [|reflexivity]. split; try reflexivity; try assumption.
  - split; [|reflexivity]. split; try reflexivity; try assumption.
  - split; [split; assumption|]. cbn [with_acro ct_acro yaw_to_angvel acro_get_desired_angular_velocity ac_angvel]. unfold acro_get_desired_angular_velocity, yaw_to_angvel. cbn [ac_angvel]. rewrite A. reflexivity.
  - split; [|reflexivity]. split; try reflexivity; try assumption; (intros v; destruct v; [exact (F WIndi)|exact (F WPos)|exact (F WTraj)|exact (F WVel)]).
  - split; [|reflexivity]. split; try reflexivity; try assumption; (intros v; destruct v; [exact (F WIndi)|exact (F WPos)|exact (F WTraj)|exact (F WVel)]).
Qed.

Lemma ctwin_answers ops : forall c1 c2 : Ctl T, ctwin c1 c2 -> answers c1 ops = answers c2 ops.
Proof.
  induction ops as [|op r IH]; intros c1 c2 H; [reflexivity|]. cbn [answers]. destruct (ctl_twin c1 c2 op H) as [G E]. rewrite E, (IH _ _ G). reflexivity.
Qed.

Lemma reset_forgets_flight n (c1 c2 : Ctl T) ops : CtlReached n c1 -> CtlReached n c2 -> alike c1 c2 ->
  answers c1 (CReset :: ops) = answers c2 (CReset :: ops).
Proof.
  intros R1 R2 (A & B & C & D & E & F). cbn [answers answer]. apply ctwin_answers. split; cbn [ctl_step ctl_reset indi_reset ct_acro ct_indi in_inertia in_minv]; try assumption.
  intros w. destruct (F w) as [P S].
  pose proof (same_settings _ _ (get_pid_reached n c1 w R1) (get_pid_reached n c2 w R2) P S) as K.
  destruct w; (apply twin_wtwin; split; [exact K|split; [reflexivity|left; reflexivity]]).
Qed.
Lemma reset_like_new n (c : Ctl T) p ops : CtlReached n c -> alike c (ctl_new n p) -> answers c (CReset :: ops) = answers (ctl_new n p) ops.
Proof. intros R1 A. rewrite (reset_forgets_flight n c (ctl_new n p) ops R1 (ex_intro _ p (ex_intro _ [] eq_refl)) A). reflexivity. Qed.
End Reset.
