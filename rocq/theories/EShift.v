(** Example: the same flight somewhere else. *)

From Coq Require Import ZArith List Bool Lia Reals Lra.
From Verif Require Import Scalar LinAlg MUtils MModel MDynamics MPid MControl MCtlRun MImu MSim SpecDyn SpecRun SpecCtl SpecSim SpecShift
  PBase PDyn PModel PDynR PNoise PSim PSimEnd PWell PShift EBase ESim.
Import ListNotations.
Local Open Scope R_scope.

Section Ex.
Context {G H : Gen R}.
Definition up10 : V3 R := mkV 5 0 10.
Definition shift_ops : list (SimOp R G H) :=
  [SEnableFloor 0; SRefPos (mkV 0 0 2); SMode POSITION ANGLE; SArm; SRefPos (mkV 1 2 3); SController (1/100); SDynamics (1/100); SImu (1/100); SOdom (1/100)].
Definition sp_here : SimParams R := sp_ex 1 4 4 st_hover imp_plain.

Lemma shift_ex : exists a b : Sim R G H,
  sim_after 4 sp_here shift_ops = Some a /\
  sim_after 4 (displaced_start up10 sp_here) (map (displaced_call up10) shift_ops) = Some b /\
  here_there up10 a b /\ vz (s_pos (sim_state b)) = vz (s_pos (sim_state a)) + 10 /\ sm_act b = sm_act a /\ sm_odom b = sm_odom a.
Proof.
  assert (F : fitting_params 4 sp_here) by (apply sp_fits; [lra|reflexivity]).
  assert (D : exists a : Sim R G H, sim_after 4 sp_here shift_ops = Some a).
  { destruct (simulator_defined (G := G) (H := H) 4 sp_here shift_ops) as [a E].
    - exact F.
    - unfold shift_ops. repeat (apply Forall_cons; [cbn; try exact I; try lra|]). apply Forall_nil.
    - exists a. exact E. }
  destruct D as [a A]. pose proof (start_shift (G := G) (H := H) 4 up10 sp_here 0 (mkV 0 0 2) (tl (tl shift_ops))) as K.
  change (SEnableFloor 0 :: SRefPos (mkV 0 0 2) :: tl (tl shift_ops)) with shift_ops in K. rewrite A in K. cbn [both] in K.
  destruct (sim_after 4 (displaced_start up10 sp_here) (map (displaced_call up10) shift_ops)) as [b|] eqn:B; [|contradiction K].
  exists a, b. split; [exact A|]. split; [reflexivity|]. split; [exact K|]. destruct K as [q ->].
  split; [reflexivity|]. split; reflexivity.
Qed.

(** Arming asks for height zero when no floor was ever enabled, wherever the
    vehicle is. *)
Lemma arming_refuted : exists sp (a b : Sim R G H),
  sim_after 4 sp [SMode POSITION ANGLE; SArm] = Some a /\
  sim_after 4 (displaced_start up10 sp) (map (displaced_call up10) [SMode POSITION ANGLE; SArm]) = Some b /\
  vz (s_pos (sim_state b)) = vz (s_pos (sim_state a)) + 10 /\ vx (rf_pos (sm_refs b)) = vx (rf_pos (sm_refs a)) + 5 /\
  vz (rf_pos (sm_refs b)) = vz (rf_pos (sm_refs a)).
Proof.
  assert (F : fitting_params 4 sp_here) by (apply sp_fits; [lra|reflexivity]).
  assert (F' : fitting_params 4 (displaced_start up10 sp_here)) by exact F.
  destruct (ex_start (G := G) (H := H) 4 _ F) as (a & _ & A & _ & Sa & _ & _ & _ & _ & _ & _ & _ & _ & Ha & _ & _ & Ma & Ya).
  destruct (ex_start (G := G) (H := H) 4 _ F') as (b & _ & B & _ & Sb & _ & _ & _ & _ & _ & _ & _ & _ & Hb & _ & _ & Mb & Yb).
  exists sp_here, (arm (set_control_mode a POSITION ANGLE)), (arm (set_control_mode b POSITION ANGLE)).
  split; [exact (after_cons 4 _ a (SMode POSITION ANGLE) _ (set_control_mode a POSITION ANGLE) A (or_introl eq_refl))|]. split; [exact (after_cons 4 _ b (SMode POSITION ANGLE) _ (set_control_mode b POSITION ANGLE) B (or_introl eq_refl))|].
  unfold set_control_mode. rewrite Ma, Mb. cbn [mode_eqb andb]. unfold sim_state in *. cbn [arm sm_dyn sm_refs rf_pos vsetz vx vz sm_floor_h]. rewrite Sa, Sb, Ha, Hb.
  split; [reflexivity|]. split; reflexivity.
Qed.
End Ex.
