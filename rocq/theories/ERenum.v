(** Example flights of a vehicle with its rotors numbered in two ways. *)

From Coq Require Import ZArith List Bool Permutation Lia Reals Lra.
From Verif Require Import Scalar LinAlg MUtils MModel MDynamics MPid MControl MImu MSim SpecDyn SpecRun SpecCtl SpecSim SpecRenum
  PBase PDyn PModel PDynR PPhys PVeh PDynMore PSim PSimEnd PRenum EBase ECtl ESim.
Import ListNotations.
Local Open Scope R_scope.

Definition order_ex : list nat := [2; 0; 3; 1]%nat.
Definition st_four : State R := mkState (mkV 1 2 3) (mkQ 1 0 0 0) v0 v0 v0 v0 v0 v0 [1; 2; 3; 4] [0; 0; 0; 0].

Lemma order_perm : Permutation order_ex (seq 0 4).
Proof. cbn. unfold order_ex. apply (Permutation_trans (l' := [0; 2; 3; 1]%nat)); [apply perm_swap|]. apply perm_skip.
  apply (Permutation_trans (l' := [2; 1; 3]%nat)); [apply perm_skip, perm_swap|]. apply perm_swap. Qed.

Section Ex.
Context {G H : Gen R}.
Lemma last_command (s a : Sim R G H) w : sm_armed s = true ->
  sim_run 4 s [SMode MOTOR_W ANGLE; SRefMotors w; SController (1/100)] = Some a -> sm_act a = w.
Proof.
  intros Ar. cbn [sim_run sim_step]. intros E. injection E as <-.
  assert (M : sm_armed (set_control_mode s MOTOR_W ANGLE) = true /\ sm_mode (set_control_mode s MOTOR_W ANGLE) = MOTOR_W /\ sm_yawmode (set_control_mode s MOTOR_W ANGLE) = ANGLE).
  { unfold set_control_mode. destruct (mode_eqb (sm_mode s) MOTOR_W) eqn:E1, (yaw_eqb (sm_yawmode s) ANGLE) eqn:E2; cbn [andb];
      [destruct (sm_mode s); try discriminate E1; destruct (sm_yawmode s); try discriminate E2; split; [exact Ar|split; reflexivity]| | |]; (split; [exact Ar|split; reflexivity]). }
  revert M. generalize (set_control_mode s MOTOR_W ANGLE). clear s Ar. intros s (M1 & M2 & M3).
  unfold update_controller. change (sm_armed (set_ref_motors s w)) with (sm_armed s). change (sm_yawmode (set_ref_motors s w)) with (sm_yawmode s).
  rewrite M1, M3. cbn [negb]. change (sm_mode (set_ref_motors s w)) with (sm_mode s). rewrite M2. reflexivity.
Qed.
Definition renum_ops : list (SimOp R G H) := [SMode ACRO ANGLE; SArm; SRefAcro 2 (mkV 1 2 3); SController (1/100); SDynamics (1/100); SMode MOTOR_W ANGLE; SRefMotors [5; 6; 7; 8]; SController (1/100)].
Lemma renum_ex : exists a b : Sim R G H, let sp := sp_ex 2 4 4 st_four imp_plain in
  fitting_params 4 sp /\ Permutation order_ex (seq 0 4) /\ Forall (fits 4) renum_ops /\
  s_mvel (sp_state (renum_start order_ex sp)) = [3; 1; 4; 2] /\
  sim_after 4 sp renum_ops = Some a /\ sim_after 4 (renum_start order_ex sp) (map (renum_call order_ex) renum_ops) = Some b /\
  sm_act a = [5; 6; 7; 8] /\ sm_act b = [7; 5; 8; 6] /\ s_pos (sim_state a) = s_pos (sim_state b).
Proof.
  set (sp := sp_ex 2 4 4 st_four imp_plain).
  assert (F : fitting_params 4 sp) by (apply sp_fits; [lra|reflexivity]).
  assert (Q : Forall (fits (G := G) (H := H) 4) renum_ops).
  { unfold renum_ops. repeat (apply Forall_cons; [cbn [fits]; first [exact I|lra|reflexivity]|]). apply Forall_nil. }
  destruct (renumbered (G := G) (H := H) 4 order_ex order_perm sp renum_ops F Q) as (a & A & B).
  exists a, (renum_sim order_ex a). split; [exact F|]. split; [exact order_perm|]. split; [exact Q|]. split; [reflexivity|]. split; [exact A|]. split; [exact B|].
  assert (Ac : sm_act a = [5; 6; 7; 8]).
  { change renum_ops with ([SMode ACRO ANGLE; SArm; SRefAcro 2 (mkV 1 2 3); SController (1/100); SDynamics (1/100)] ++ [SMode MOTOR_W ANGLE; SRefMotors [5; 6; 7; 8]; SController (1/100)] : list (SimOp R G H)) in A.
    unfold sim_after in A. destruct (sim_new 4 sp) as [s|] eqn:E; [|discriminate A]. rewrite PSim.run_app in A.
    destruct (sim_run 4 s _) as [s1|] eqn:E1; [|discriminate A].
    assert (Ar : sm_armed s1 = true) by (apply PSim.run_armed in E1; exact E1).
    exact (last_command s1 a [5; 6; 7; 8] Ar A). }
  split; [exact Ac|]. split; [cbn [renum_sim sm_act]; rewrite Ac; reflexivity|reflexivity].
Qed.
End Ex.
