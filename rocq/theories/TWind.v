(** C96 with anti-windup: integral action leaves no standing error unless it
    stands at its bound. *)

From Coq Require Import ZArith List Bool Reals.
From Verif Require Import Scalar LinAlg MUtils MModel MDynamics MPid MControl MCtlRun MImu MSim
  SpecDyn SpecRun SpecPid SpecCtl SpecImu SpecSim SpecClimb SpecTotal PBase PWind EWind.
Import ListNotations.
Local Open Scope R_scope.

Theorem C96_bounded : forall (G H : Gen R) n w a sp ops (s : Sim R G H),
  0 < pr a (pp_aw (loop_params w (sp_ctl sp))) -> Forall keeps_ctl ops -> sim_after n sp ops = Some s ->
  Rabs (integral_part w a s) <= Rabs (pr a (pp_ki (loop_params w (sp_ctl sp)))) * pr a (pp_aw (loop_params w (sp_ctl sp))).
Proof. intros G H. exact (integral_bounded (G := G) (H := H)). Qed.
Print Assumptions C96_bounded.

Theorem C96_settles_bounded : forall (G H : Gen R) n w a sp ops dt (s c : nat -> Sim R G H) L,
  let B := pr a (pp_aw (loop_params w (sp_ctl sp))) in let ki := pr a (pp_ki (loop_params w (sp_ctl sp))) in
  0 < B -> Forall keeps_ctl ops -> 0 < dt ->
  (forall k, sim_after n sp (ops ++ rounds dt k) = Some (s k)) -> (forall k, sim_step n (s k) (SController dt) = Ok (c k)) ->
  sm_armed (s 0%nat) = true -> works w (sm_mode (s 0%nat)) = true ->
  Un_cv (fun k => off w a (s k) (c k)) L ->
  (0 < L -> exists N, forall k, (N <= k)%nat -> integral_part w a (s k) = ki * B) /\
  (L < 0 -> exists N, forall k, (N <= k)%nat -> integral_part w a (s k) = - (ki * B)).
Proof. intros G H. exact (settles_bounded (G := G) (H := H)). Qed.
Print Assumptions C96_settles_bounded.

Theorem C96_settles_inside : forall (G H : Gen R) n w a sp ops dt (s c : nat -> Sim R G H) L,
  let B := pr a (pp_aw (loop_params w (sp_ctl sp))) in let ki := pr a (pp_ki (loop_params w (sp_ctl sp))) in
  0 < B -> Forall keeps_ctl ops -> 0 < dt ->
  (forall k, sim_after n sp (ops ++ rounds dt k) = Some (s k)) -> (forall k, sim_step n (s k) (SController dt) = Ok (c k)) ->
  sm_armed (s 0%nat) = true -> works w (sm_mode (s 0%nat)) = true ->
  (forall N, exists k, (N <= k)%nat /\ Rabs (integral_part w a (s k)) < Rabs ki * B) ->
  Un_cv (fun k => off w a (s k) (c k)) L -> L = 0.
Proof. intros G H. exact (settles_inside (G := G) (H := H)). Qed.
Print Assumptions C96_settles_inside.

(** With the bound on its integral a loop can keep an error for ever. *)
Theorem C96_bound_refuted : forall (G H : Gen R), exists sp ops,
  (forall a, 0 < pr a (pp_aw (loop_params WVel (sp_ctl sp)))) /\ (forall a, pr a (pp_ki (loop_params WVel (sp_ctl sp))) <> 0) /\ fitting_params 4 sp /\
  forall k, exists s c : Sim R G H, sim_after 4 sp (ops ++ rounds (1/100) k) = Some s /\ sim_step 4 s (SController (1/100)) = Ok c /\
  sm_armed s = true /\ sm_mode s = VELOCITY /\ rf_vel (sm_refs s) = mkV 0 0 1 /\ s_vel (sim_state s) = mkV 0 0 0 /\
  integral_part WVel AZ s = 1 /\ off WVel AZ s c = 1.
Proof. intros G H. exact (bounded_case (G := G) (H := H)). Qed.
Print Assumptions C96_bound_refuted.

Example C96_case_inside : forall (G H : Gen R) k, exists s c : Sim R G H, sim_after 4 (sp_bounded 2) (full_ops 0 ++ rounds (1/100) k) = Some s /\
  sim_step 4 s (SController (1/100)) = Ok c /\ sm_armed s = true /\ sm_mode s = VELOCITY /\ integral_part WVel AZ s = 1 /\ off WVel AZ s c = 0.
Proof. intros G H. exact (inside_case (G := G) (H := H)). Qed.
Example C96_case_bounds : pr AZ (pp_aw (loop_params WVel (sp_ctl (sp_bounded 2)))) = 2 /\ pr AZ (pp_ki (loop_params WVel (sp_ctl (sp_bounded 2)))) = 1.
Proof. split; reflexivity. Qed.
