(** Concrete climbs. *)

From Coq Require Import ZArith List Bool Lia Reals Lra.
From Verif Require Import Scalar LinAlg MUtils MModel MDynamics MPid MControl MCtlRun MImu MSim
  SpecDyn SpecRun SpecPid SpecCtl SpecImu SpecSim SpecVertical SpecClimb
  PBase PDyn PModel PDynR PPhys PNoise PDynMore PVeh PMix PSim PSimR PHover PSimEnd EBase EPid ECtl ESim PVertical PClimb PClimbSim.
Import ListNotations.
Local Open Scope R_scope.

(** A quadrotor of weight 4 that rises at [v] with hovering rotors, with a gain of
    1 on its velocity loop. *)
Definition st_rise (v : R) : State R := mkState (mkV 1 2 3) (level 0) (mkV 0 0 v) LinAlg.v0 LinAlg.v0 LinAlg.v0 LinAlg.v0 LinAlg.v0 [1;1;1;1] [0;0;0;0].
Definition sp_rise (v : R) : SimParams R :=
  mkSP (ex_params 1 1 (mkV 0 0 (-4)) 0 0 0) 0 (st_rise v)
       (mkCP (mkAP 1 mI (mkV 0 0 (-4))) (mkIP mI inv_ex cpx_pid) cpx_pid cpx_pid (mkPP (r3 1) LinAlg.v0 LinAlg.v0 LinAlg.v0 v1 false false LinAlg.v0 LinAlg.v0))
       imp_plain (mkODP 1 (level 0)).

Lemma rise_fits c v : 0 <= c -> fitting_params 4 (in_drag c (sp_rise v)).
Proof. intros Hc. split; [apply (ex_check 1 1 (mkV 0 0 (-4)) c 0 0); lra|]. split; [reflexivity|]. split; reflexivity. Qed.
Lemma rise_climbs v e0 : 0 <= e0 <= 9 -> climbs 0 4 1 (1/10) 1 0 100 1 e0 (sp_rise v).
Proof.
  intros He. pose proof PI_RGT_0.
  assert (Q : quad_layout 1 1 1 1 0 100 (1/10) 0 (p_motors (sp_model (sp_rise v)))) by (left; reflexivity).
  split; try reflexivity; try lra.
  - exact (rise_fits 0 v (Rle_refl 0)).
  - unfold fair_start. split. { exists 1, 1, 1, 1, 0, 100, (1/10), 0. split; [lra|]. split; [lra|]. split; [lra|]. split; [lra|exact Q]. }
    split; [apply ex_check; lra|]. split; [reflexivity|]. split; [split; reflexivity|]. split.
    { split; [exact (proj1 c_ex_inverse)|]. split; [split; reflexivity|]. split.
      - intros a. destruct a; split; cbn; lra.
      - intros pp [<-|[<-|[<-|[]]]]; split; split; cbn; lra. }
    split; [reflexivity|]. split; [lra|]. split; [split; reflexivity|]. split; [reflexivity|]. exists 1. reflexivity.
  - exists 1, 1, 1, 0. split; [lra|]. split; [lra|]. split; [lra|exact Q].
  - cbn. lra.
  - cbn. lra.
  - left. split; reflexivity.
  - cbn. lra.
  - cbn. lra.
Qed.

Section Ex.
Context {G H : Gen R}.
(** Asked to rise at 2 from rest, with rounds of 10 ms. *)
Lemma rise_ex : climbs 0 4 1 (1/10) 1 0 100 1 2 (sp_rise 0) /\ gain_per_round 1 4 1 (1/100) 2 = 2/225 /\
  exists v : nat -> R, v 0%nat = 0 /\
  (forall k, exists s : Sim R G H, sim_after 4 (sp_rise 0) (climb_calls ANGLE 2 (1/100) k) = Some s /\ s_vel (sim_state s) = mkV 0 0 (v k)) /\
  forall k, v k <= v (S k) <= 2 /\ 2 - v k <= 2 * (223/225) ^ k * 2.
Proof.
  assert (C : climbs 0 4 1 (1/10) 1 0 100 1 2 (sp_rise 0)) by (apply rise_climbs; lra).
  assert (Gn : gain_per_round 1 4 1 (1/100) 2 = 2/225) by (unfold gain_per_round; field).
  split; [exact C|]. split; [exact Gn|].
  destruct (climb_flight (G := G) (H := H) _ _ _ _ _ _ _ _ _ _ C ANGLE (1/100)) as (v & A & F & B); [lra|lra|].
  change (vz (s_vel (sp_state (sp_rise 0)))) with 0 in *. replace (0 + 2) with 2 in * by ring.
  exists v. split; [exact A|]. split; [exact F|]. intros k. specialize (B k). change (p_mass (sp_model (sp_rise 0))) with 1 in B. rewrite Gn in B.
  replace (1 - 2/225) with (223/225) in B by field. exact B.
Qed.

(** With drag the vehicle loses the speed it was asked to keep. *)
Lemma drag_loses : exists (sp : SimParams R) (s : Sim R G H),
  climbs 0 4 1 (1/10) 1 0 100 1 0 sp /\ fitting_params 4 (in_drag 1 sp) /\ s_vel (sp_state sp) = mkV 0 0 1 /\
  sim_after 4 (in_drag 1 sp) (climb_calls ANGLE 1 (1/100) 1) = Some s /\ vz (s_vel (sim_state s)) = 99/100.
Proof.
  set (sp := sp_rise 1). assert (F : fitting_params 4 (in_drag 1 sp)) by (apply rise_fits; lra).
  destruct (ex_start (G := G) (H := H) 4 _ F) as (s & _ & A & W & St & _ & Im & Od & Rc & Gp & Ac & _ & Fe & _ & Ex & _).
  pose (s1 := set_ref_vel (arm (set_control_mode s VELOCITY ANGLE)) (mkV 0 0 1)).
  pose (s2 := update_controller 4 s1 (1/100)).
  assert (D1 : sm_dyn s1 = sm_dyn s /\ sm_floor_en s1 = false /\ sm_ext s1 = mkV 0 0 0).
  { unfold s1, set_control_mode. destruct (_ && _); repeat split; assumption. }
  destruct D1 as (D1 & D2 & D3).
  destruct (frame_controller (G := G) (H := H) (T := R) 4 s1 (1/100) s2 eq_refl) as (C1 & _ & _ & _ & C2 & _ & C3 & _).
  destruct (well_run (G := G) (H := H) 4 [SMode VELOCITY ANGLE; SArm; SRefVel (mkV 0 0 1); SController (1/100)] s W) as (s2' & R2 & W2).
  { repeat (apply Forall_cons; [exact I|]). apply Forall_nil. }
  assert (X : s2' = s2).
  { cbn [sim_run sim_step] in R2. fold s1 in R2. fold s2 in R2. injection R2 as <-. reflexivity. }
  subst s2'.
  destruct (ok_step (G := G) (H := H) 4 s2 (1/100) W2) as (s' & E & _); [lra|].
  exists sp, s'. split; [apply rise_climbs; lra|]. split; [exact F|]. split; [reflexivity|]. split.
  { unfold climb_calls, rounds. cbn [repeat concat app].
    rewrite (after_cons 4 _ s (SMode VELOCITY ANGLE) _ (set_control_mode s VELOCITY ANGLE) A (or_introl eq_refl)).
    cbn [sim_run sim_step]. fold s1. fold s2. cbn [sim_step] in E. rewrite E. reflexivity. }
  assert (V : vehicle 4 (sm_dyn s2) (sm_act s2) (sp_model (in_drag 1 sp))).
  { destruct W2 as [(q & (_ & _ & Va & _) & _) _ _]. rewrite C1, D1. split; [exact Rc|]. split; [exact Gp|]. split; [exact Va|].
    change (length (s_mvel (sim_state s)) = 4%nat). rewrite St. reflexivity. }
  cbn [sim_step] in E.
  destruct (ud_ok _ _ _ E) as (ext & d & Fm & Ee & _ & E'). cbv zeta in E'.
  assert (Bf : below_floor s2 = false) by (unfold below_floor; rewrite C2, D2; reflexivity).
  rewrite Bf, C3, D3 in Ee. subst ext.
  assert (Bf2 : below_floor (with_col (with_ext (with_dyn s2 d) LinAlg.v0) false) = false).
  { unfold below_floor. cbn [with_col with_ext with_dyn sm_floor_en]. rewrite C2, D2. reflexivity. }
  rewrite Bf2 in E'. subst s'.
  unfold free_motion in Fm. apply process_small_inv in Fm; [|lra].
  pose proof (silent_core _ _ _ _ _ _ _ (proj1 (proj2 V)) eq_refl Fm) as Hs.
  pose proof (step_newton 4 _ _ _ _ _ _ _ V Fm) as Nw. cbv zeta in Nw. destruct (Nw AZ) as (N1 & N2 & N3 & _). clear Nw.
  unfold sim_state. cbn [with_col with_ext with_dyn sm_dyn]. cbn [pr] in N1, N2, N3. rewrite N3, N2, N1, Hs, C1, D1. fold (sim_state s). rewrite St.
  change (s_ori (sp_state (in_drag 1 sp))) with (level 0). change (s_mvel (sp_state (in_drag 1 sp))) with [1;1;1;1].
  change (s_vel (sp_state (in_drag 1 sp))) with (mkV 0 0 1).
  change (p_motors (sp_model (in_drag 1 sp))) with (quad_x 1 1 1 1 0 100 (1/10) 0).
  unfold vec_of. rewrite !quad_x_force, level_up. unfold drag_spec. cbn [pr LinAlg.v0 vx vy vz in_drag sp sp_rise sp_model p_grav p_drag p_mass ex_params].
  unfold sq_signed. rewrite (Rabs_pos_eq 1) by lra. unR. field.
Qed.
End Ex.
