(** Property theorems: closed-loop flights do not depend on the place. *)

From Coq Require Import ZArith List Bool Reals.
From Verif Require Import Scalar LinAlg MUtils MModel MDynamics MPid MControl MImu MSim SpecDyn SpecRun SpecSim SpecShift PShift ESim EShift.
Import ListNotations.
Local Open Scope R_scope.

(** ** C87 *)
Theorem C87_from_any_state :
  forall {G H : Gen R} n d (ops : list (SimOp R G H)) q s,
  both (fun a b => exists q', b = displaced d q' a)
    (sim_run n s ops) (sim_run n (displaced d q s) (map (displaced_call d) ops)).
Proof. exact @run_shift. Qed.
Print Assumptions C87_from_any_state.

Theorem C87_from_start :
  forall {G H : Gen R} n d sp h p (ops : list (SimOp R G H)),
  both (fun a b => exists q', b = displaced d q' a)
    (sim_after n sp (SEnableFloor h :: SRefPos p :: ops))
    (sim_after n (displaced_start d sp) (map (displaced_call d) (SEnableFloor h :: SRefPos p :: ops))).
Proof. exact @start_shift. Qed.
Print Assumptions C87_from_start.

(** Sideways displacements need no floor. *)
Theorem C87_sideways :
  forall {G H : Gen R} n d sp p (ops : list (SimOp R G H)), vz d = 0 ->
  both (fun a b => exists q', b = displaced d q' a)
    (sim_after n sp (SRefPos p :: ops)) (sim_after n (displaced_start d sp) (map (displaced_call d) (SRefPos p :: ops))).
Proof. exact @level_shift. Qed.
Print Assumptions C87_sideways.

(** Upwards they do: arming asks for the height of a floor that was never enabled. *)
Theorem C87_upwards_refuted :
  forall {G H : Gen R}, exists sp (a b : Sim R G H),
  sim_after 4 sp [SMode POSITION ANGLE; SArm] = Some a /\
  sim_after 4 (displaced_start up10 sp) (map (displaced_call up10) [SMode POSITION ANGLE; SArm]) = Some b /\
  vz (s_pos (sim_state b)) = vz (s_pos (sim_state a)) + 10 /\ vx (rf_pos (sm_refs b)) = vx (rf_pos (sm_refs a)) + 5 /\
  vz (rf_pos (sm_refs b)) = vz (rf_pos (sm_refs a)).
Proof. exact @arming_refuted. Qed.
Print Assumptions C87_upwards_refuted.

Example C87_case : forall {G H : Gen R}, exists a b : Sim R G H,
  sim_after 4 sp_here shift_ops = Some a /\
  sim_after 4 (displaced_start up10 sp_here) (map (displaced_call up10) shift_ops) = Some b /\
  here_there up10 a b /\ vz (s_pos (sim_state b)) = vz (s_pos (sim_state a)) + 10 /\ sm_act b = sm_act a /\ sm_odom b = sm_odom a.
Proof. exact @shift_ex. Qed.
