(** Asked for more height, an upright vehicle never demands less thrust. *)

From Coq Require Import ZArith List Bool Lia Reals Lra.
From Verif Require Import Scalar LinAlg MUtils MModel MDynamics MPid MControl MCtlRun MImu MSim SpecDyn SpecRun SpecPid SpecCtl SpecMono SpecHigher
  PBase PPid PPidR PCtl PCtlR PMono.
Import ListNotations.
Local Open Scope R_scope.

Lemma thrust_le c op1 op2 : uses_acc op1 = true -> uses_acc op2 = true -> att_of op1 = att_of op2 -> 0 <= ac_mass (ct_acro c) -> upright (att_of op1) ->
  no_lower (get_desired_linear_acceleration (ctl_step c op1)) (get_desired_linear_acceleration (ctl_step c op2)) ->
  get_desired_thrust (ctl_step c op1) <= get_desired_thrust (ctl_step c op2).
Proof.
  intros U1 U2 A M Up (X & Y & Z). destruct (thrust_value c op1 U1) as [-> _]. destruct (thrust_value c op2 U2) as [-> _]. rewrite <- A.
  set (a1 := get_desired_linear_acceleration (ctl_step c op1)) in *. set (a2 := get_desired_linear_acceleration (ctl_step c op2)) in *.
  apply Rle_max_compat_l. unfold along_z, needed_force, dot3, col in *. cbn [vx vy vz] in *. rewrite X, Y.
  unfold upright in Up. set (A1 := att_of op1) in *. clearbody a1 a2 A1. clear U1 U2 A X Y.
  assert (Q : 0 <= / len3 (mkV (ent A1 AX AZ) (ent A1 AY AZ) (ent A1 AZ AZ))).
  { destruct (Req_dec (len3 (mkV (ent A1 AX AZ) (ent A1 AY AZ) (ent A1 AZ AZ))) 0) as [E|E]; [rewrite E, Rinv_0; lra|].
    apply Rlt_le, Rinv_0_lt_compat. pose proof (sqrt_pos (dot3 (mkV (ent A1 AX AZ) (ent A1 AY AZ) (ent A1 AZ AZ)) (mkV (ent A1 AX AZ) (ent A1 AY AZ) (ent A1 AZ AZ)))) as P. unfold len3 in *. lra. }
  unfold Rdiv. apply Rmult_le_compat_r; [exact Q|].
  assert (K : ac_mass (ct_acro c) * (vz a1 - vz (ac_grav (ct_acro c))) * ent A1 AZ AZ <= ac_mass (ct_acro c) * (vz a2 - vz (ac_grav (ct_acro c))) * ent A1 AZ AZ).
  { apply Rmult_le_compat_r; [exact Up|]. apply Rmult_le_compat_l; [exact M|lra]. }
  lra.
Qed.

Lemma pr_sub a (u v : V3 R) : pr a (vsub u v) = pr a u - pr a v. Proof. apply pr_vsub. Qed.
Lemma no_lower_pr (u v : V3 R) : no_lower u v <-> (forall a, pr a u <= pr a v) /\ pr AX v <= pr AX u /\ pr AY v <= pr AY u.
Proof.
  split.
  - intros (X & Y & Z). split; [intros []; cbn [pr]; lra|]. cbn [pr]. lra.
  - intros (A & B & C). pose proof (A AX). pose proof (A AY). pose proof (A AZ). cbn [pr] in *. split; [lra|]. split; lra.
Qed.
Lemma loop_le p dt e1 e2 : Reached p -> willing_loop p -> 0 < dt -> no_lower e1 e2 ->
  no_lower (pid_output (pid_step p (OpCompute dt e1))) (pid_output (pid_step p (OpCompute dt e2))).
Proof.
  intros Rp W Hd H. apply no_lower_pr in H as (A & B & C). apply no_lower_pr.
  split; [intros a; apply larger; auto|]. split; apply larger; auto.
Qed.
Lemma loop_d_le p dt e1 e2 d1 d2 : Reached p -> willing_loop p -> 0 < dt -> no_lower e1 e2 -> no_lower d1 d2 ->
  no_lower (pid_output (pid_step p (OpComputeD dt e1 d1))) (pid_output (pid_step p (OpComputeD dt e2 d2))).
Proof.
  intros Rp W Hd H K. apply no_lower_pr in H as (A & B & C). apply no_lower_pr in K as (D & E & F). apply no_lower_pr.
  split; [intros a; apply larger_d; auto|]. split; apply larger_d; auto.
Qed.
Lemma sub_le u v w : no_lower u v -> no_lower (vsub u w) (vsub v w).
Proof. intros (X & Y & Z). unfold no_lower, vsub, vmap2. cbn [vx vy vz]. unR. split; [lra|]. split; lra. Qed.
Lemma add_le u v w x : no_lower u v -> no_lower w x -> no_lower (vadd u w) (vadd v x).
Proof. intros (X & Y & Z) (X' & Y' & Z'). unfold no_lower, vadd, vmap2. cbn [vx vy vz]. unR. split; [lra|]. split; lra. Qed.

Section Ctl.
Variables (n : nat) (c : Ctl R) (A : M3 R) (w : V3 R) (yaw dt : R).
Hypotheses (Rc : CtlReached n c) (M : 0 <= ac_mass (ct_acro c)) (Up : upright A) (Hd : 0 < dt).

Lemma higher_acc a1 a2 : no_lower a1 a2 -> get_desired_thrust (ctl_step c (CAcc A w a1 yaw dt)) <= get_desired_thrust (ctl_step c (CAcc A w a2 yaw dt)).
Proof.
  intros H. apply thrust_le; try reflexivity; try assumption.
  destruct (acc_records c A w a1 yaw dt) as (-> & _). destruct (acc_records c A w a2 yaw dt) as (-> & _). exact H.
Qed.
Lemma higher_vel cv v1 v2 : willing_loop (get_pid WVel c) -> no_lower v1 v2 ->
  get_desired_thrust (ctl_step c (CVel cv A w v1 yaw dt)) <= get_desired_thrust (ctl_step c (CVel cv A w v2 yaw dt)).
Proof.
  intros W H. apply thrust_le; try reflexivity; try assumption.
  destruct (vel_records c cv A w v1 yaw dt) as (_ & -> & _ & _ & _ & ->). destruct (vel_records c cv A w v2 yaw dt) as (_ & -> & _ & _ & _ & ->).
  apply loop_le; [exact (get_pid_reached n c WVel Rc)|exact W|exact Hd|apply sub_le, H].
Qed.
Lemma higher_pos cp cv p1 p2 : willing_loop (get_pid WPos c) -> willing_loop (get_pid WVel c) -> no_lower p1 p2 ->
  get_desired_thrust (ctl_step c (CPos cp A cv w p1 yaw dt)) <= get_desired_thrust (ctl_step c (CPos cp A cv w p2 yaw dt)).
Proof.
  intros W W' H. apply thrust_le; try reflexivity; try assumption.
  destruct (pos_records c cp A cv w p1 yaw dt) as (_ & _ & -> & P1 & -> & _). rewrite P1. destruct (pos_records c cp A cv w p2 yaw dt) as (_ & _ & -> & P2 & -> & _). rewrite P2.
  apply loop_le; [exact (get_pid_reached n c WVel Rc)|exact W'|exact Hd|]. apply sub_le.
  apply loop_le; [exact (get_pid_reached n c WPos Rc)|exact W|exact Hd|apply sub_le, H].
Qed.
Lemma higher_traj cp cv p1 p2 v1 v2 a1 a2 : willing_loop (get_pid WTraj c) -> no_lower p1 p2 -> no_lower v1 v2 -> no_lower a1 a2 ->
  get_desired_thrust (ctl_step c (CTraj cp cv A w p1 v1 a1 yaw dt)) <= get_desired_thrust (ctl_step c (CTraj cp cv A w p2 v2 a2 yaw dt)).
Proof.
  intros W H1 H2 H3. apply thrust_le; try reflexivity; try assumption.
  destruct (traj_records c cp cv A w p1 v1 a1 yaw dt) as (_ & _ & -> & _ & _ & ->). destruct (traj_records c cp cv A w p2 v2 a2 yaw dt) as (_ & _ & -> & _ & _ & ->).
  apply add_le; [|exact H3]. apply loop_d_le; [exact (get_pid_reached n c WTraj Rc)|exact W|exact Hd|apply sub_le, H1|apply sub_le, H2].
Qed.
End Ctl.

(** ** In the simulator *)
Lemma higher_sim {G H : Gen R} n (s : Sim R G H) dt p1 p2 : CtlReached n (sm_ctl s) -> sm_armed s = true ->
  (sm_mode s = POSITION \/ sm_mode s = HOVER) -> 0 <= ac_mass (ct_acro (sm_ctl s)) -> upright (qmat (s_ori (sim_state s))) -> 0 < dt ->
  willing_loop (get_pid WPos (sm_ctl s)) -> willing_loop (get_pid WVel (sm_ctl s)) -> no_lower p1 p2 ->
  get_desired_thrust (sm_ctl (update_controller n (set_ref_pos s p1) dt)) <= get_desired_thrust (sm_ctl (update_controller n (set_ref_pos s p2) dt)).
Proof.
  intros Rc Ar Mo M Up Hd Wp Wv Hp.
  set (y := match sm_yawmode s with RATE => rf_yaw (sm_refs (update_yaw_reference s)) | ANGLE => rf_yaw (sm_refs s) end).
  assert (E : forall q, sm_ctl (update_controller n (set_ref_pos s q) dt) =
     ctl_step (sm_ctl s) (CPos (s_pos (sim_state s)) (qmat (s_ori (sim_state s))) (s_vel (sim_state s)) (s_angvel (sim_state s)) q y dt)).
  { intros q. unfold y, update_controller. change (sm_armed (set_ref_pos s q)) with (sm_armed s). rewrite Ar. cbn [negb].
    change (sm_yawmode (set_ref_pos s q)) with (sm_yawmode s). destruct (sm_yawmode s); cbv zeta.
    - change (sm_mode (set_ref_pos s q)) with (sm_mode s). destruct Mo as [ -> | -> ]; reflexivity.
    - change (sm_mode (update_yaw_reference (set_ref_pos s q))) with (sm_mode s). destruct Mo as [ -> | -> ]; reflexivity. }
  rewrite !E.
  apply (higher_pos n); assumption.
Qed.
