(** Concrete vertical flights. *)

From Coq Require Import ZArith List Bool Lia Reals Lra.
From Verif Require Import Scalar LinAlg MUtils MModel MDynamics MPid MControl MCtlRun MImu MSim
  SpecDyn SpecRun SpecPid SpecCtl SpecImu SpecSim SpecVertical PBase EBase EPid ECtl PSimEnd ESim PVertical.
Import ListNotations.
Local Open Scope R_scope.

Section Ex.
Context {G H : Gen R}.

Lemma fair_ex m gv g0 : 0 < m -> fair_start 0 (sp_ex m gv g0 st_hover imp_plain).
Proof.
  intros Hm. pose proof PI_RGT_0. unfold fair_start. split.
  { exists 1, 1, 1, 1, 0, 100, (1/10), 0. split; [lra|]. split; [lra|]. split; [lra|]. split; [lra|]. left. reflexivity. }
  split; [apply ex_check; lra|]. split; [reflexivity|]. split; [split; reflexivity|]. split.
  { split; [exact (proj1 c_ex_inverse)|]. split; [split; reflexivity|]. split.
    - intros a. destruct a; split; cbn; lra.
    - intros pp [<-|[<-|[<-|[]]]]; split; split; cbn; lra. }
  split; [reflexivity|]. split; [lra|]. split; [split; reflexivity|]. split; [reflexivity|]. exists 1. reflexivity.
Qed.

(** Calls in all modes with a floor, a climb, a landing and a restart. *)
Definition ops_lift : list (SimOp R G H) :=
  [SArm; SEnableFloor 0; SMode POSITION RATE; SRefPos (mkV 1 2 9); SController (1/100); SDynamics (1/50); SMode VELOCITY ANGLE;
   SRefVel (mkV 0 0 (-3)); SController (1/100); SDynamics 5; SImu (1/100); SOdom (1/100); SMode TRAJECTORY ANGLE;
   SRefTraj (mkV 1 2 4) (mkV 0 0 1) (mkV 0 0 (-1)); SController (1/100); SDynamics (-1); SMode ACRO RATE; SRefAcro (-7) (mkV 0 0 0);
   SController (1/100); SDisarm; SDynamics 1; SMode MOTOR_W ANGLE; SArm; SRefMotors [9; 9; 9; 9]; SController 1; SDynamics (1/10)].
Lemma lift_asked : Forall (asks_vertical (G := G) (H := H) (p_motors (sp_model (sp_ex 1 3 4 st_hover imp_plain))) (mkV 1 2 3) 0) ops_lift.
Proof.
  unfold ops_lift. repeat (apply Forall_cons; [cbn; first [exact I|reflexivity|idtac]|]); try apply Forall_nil.
  - split; reflexivity.
  - split; reflexivity.
  - split; [split; reflexivity|]. split; split; reflexivity.
  - exists 9. reflexivity.
Qed.
Lemma lift_ex : fair_start 0 (sp_ex 1 3 4 st_hover imp_plain) /\
  Forall (asks_vertical (G := G) (H := H) (p_motors (sp_model (sp_ex 1 3 4 st_hover imp_plain))) (mkV 1 2 3) 0) ops_lift /\
  exists s' : Sim R G H, sim_after 4 (sp_ex 1 3 4 st_hover imp_plain) ops_lift = Some s'.
Proof.
  split; [apply fair_ex; lra|]. split; [exact lift_asked|].
  apply (simulator_defined (G := G) (H := H) 4).
  - apply sp_fits; [lra|reflexivity].
  - unfold ops_lift. repeat (apply Forall_cons; [cbn; first [exact I|reflexivity|lra]|]); apply Forall_nil.
Qed.
(** One of them that is seen to climb. *)
Lemma climb_ex : exists sp (s' : Sim R G H), fair_start 0 sp /\
  Forall (asks_vertical (G := G) (H := H) (p_motors (sp_model sp)) (s_pos (sp_state sp)) 0) [SArm; SMode HOVER ANGLE; SController (1/100); SDynamics (1/100)] /\
  sim_after 4 sp [SArm; SMode HOVER ANGLE; SController (1/100); SDynamics (1/100)] = Some s' /\
  vz (s_vel (sim_state s')) = 1/100.
Proof.
  set (sp := sp_ex 2 2 2 st_hover imp_plain).
  destruct (simulator_defined (G := G) (H := H) 4 sp [SArm; SMode HOVER ANGLE; SController (1/100); SDynamics (1/100)]) as [s' E].
  - apply sp_fits; [lra|reflexivity].
  - repeat (apply Forall_cons; [cbn; first [exact I|lra]|]); apply Forall_nil.
  - exists sp, s'. split; [apply fair_ex; lra|]. split; [repeat (apply Forall_cons; [exact I|]); apply Forall_nil|]. split; [exact E|].
    assert (Hh : hover_setup 2 2 1 (mkV 1 2 3) 0 sp) by (apply hover_ex; lra).
    rewrite (hover_drift sp 2 2 1 (mkV 1 2 3) 0 (1/100) (1/100) s' Hh eq_refl eq_refl); [field|lra|exact E].
Qed.
End Ex.
