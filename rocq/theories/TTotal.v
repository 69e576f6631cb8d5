(** C96: integral action leaves no standing error. *)

From Coq Require Import ZArith List Bool Reals.
From Verif Require Import Scalar LinAlg MUtils MModel MDynamics MPid MControl MCtlRun MImu MSim
  SpecDyn SpecRun SpecPid SpecCtl SpecImu SpecSim SpecClimb SpecTotal PBase PTotal ETotal.
Import ListNotations.
Local Open Scope R_scope.

Theorem C96_total : forall (G H : Gen R) n w a sp ops (s0 s : Sim R G H),
  free_integral (loop_params w (sp_ctl sp)) -> Forall keeps_ctl ops -> sim_new n sp = Some s0 -> sim_run n s0 ops = Some s ->
  integral_part w a s = pr a (pp_ki (loop_params w (sp_ctl sp))) * total_off w a n s0 ops.
Proof. intros G H. exact (integral_total (G := G) (H := H)). Qed.
Print Assumptions C96_total.

Theorem C96_between : forall (G H : Gen R) n w a sp ops ops' (s s' : Sim R G H),
  free_integral (loop_params w (sp_ctl sp)) -> Forall keeps_ctl ops -> Forall keeps_ctl ops' ->
  sim_after n sp ops = Some s -> sim_run n s ops' = Some s' ->
  integral_part w a s' - integral_part w a s = pr a (pp_ki (loop_params w (sp_ctl sp))) * total_off w a n s ops'.
Proof. intros G H. exact (integral_since (G := G) (H := H)). Qed.
Print Assumptions C96_between.

Theorem C96_mean : forall (G H : Gen R) n w a sp ops ops' (s s' : Sim R G H) B,
  free_integral (loop_params w (sp_ctl sp)) -> Forall keeps_ctl ops -> Forall keeps_ctl ops' ->
  sim_after n sp ops = Some s -> sim_run n s ops' = Some s' ->
  pr a (pp_ki (loop_params w (sp_ctl sp))) <> 0 -> Rabs (integral_part w a s) <= B -> Rabs (integral_part w a s') <= B ->
  Rabs (total_off w a n s ops') <= 2 * B / Rabs (pr a (pp_ki (loop_params w (sp_ctl sp)))).
Proof. intros G H. exact (mean_off (G := G) (H := H)). Qed.
Print Assumptions C96_mean.

Theorem C96_settles : forall (G H : Gen R) n w a sp ops dt (s c : nat -> Sim R G H) B L,
  free_integral (loop_params w (sp_ctl sp)) -> pr a (pp_ki (loop_params w (sp_ctl sp))) <> 0 -> Forall keeps_ctl ops -> 0 < dt ->
  (forall k, sim_after n sp (ops ++ rounds dt k) = Some (s k)) -> (forall k, sim_step n (s k) (SController dt) = Ok (c k)) ->
  sm_armed (s 0%nat) = true -> works w (sm_mode (s 0%nat)) = true ->
  (forall k, Rabs (integral_part w a (s k)) <= B) -> Un_cv (fun k => off w a (s k) (c k)) L -> L = 0.
Proof. intros G H. exact (settles (G := G) (H := H)). Qed.
Print Assumptions C96_settles.

Theorem C96_gain_only_refuted : forall (G H : Gen R), exists sp ops,
  free_integral (loop_params WVel (sp_ctl sp)) /\ fitting_params 4 sp /\
  forall k, exists s : Sim R G H, sim_after 4 sp (ops ++ rounds (1/100) k) = Some s /\
  sm_armed s = true /\ sm_mode s = VELOCITY /\ rf_vel (sm_refs s) = mkV 0 0 1 /\ s_vel (sim_state s) = mkV 0 0 0.
Proof. intros G H. exact (stuck_case (G := G) (H := H)). Qed.
Print Assumptions C96_gain_only_refuted.

Example C96_case_total : forall (G H : Gen R), exists s0 s : Sim R G H,
  sim_new 4 sp_wound = Some s0 /\ sim_run 4 s0 wound_ops = Some s /\ total_off WVel AZ 4 s0 wound_ops = 1.
Proof. intros G H. exact (wound_total (G := G) (H := H)). Qed.
Example C96_case_settled : forall (G H : Gen R) k, exists s c : Sim R G H, sim_after 4 sp_wound (wound_ops ++ rounds (1/100) k) = Some s /\
  sim_step 4 s (SController (1/100)) = Ok c /\
  sm_armed s = true /\ sm_mode s = VELOCITY /\ s_vel (sim_state s) = mkV 0 0 0 /\ integral_part WVel AZ s = 1 /\ off WVel AZ s c = 0.
Proof. intros G H. exact (wound_flight (G := G) (H := H)). Qed.
Example C96_case_free : free_integral (loop_params WVel (sp_ctl sp_wound)) /\ pr AZ (pp_ki (loop_params WVel (sp_ctl sp_wound))) = 1.
Proof. exact wound_free. Qed.
