(** Property theorems: the numbering of the rotors does not matter. *)

From Coq Require Import ZArith List Bool Permutation Reals.
From Verif Require Import Scalar LinAlg MUtils MModel MDynamics MPid MControl MImu MSim SpecDyn SpecRun SpecCtl SpecSim SpecRenum PRenum EBase ESim ERenum.
Import ListNotations.
Local Open Scope R_scope.

(** ** C89 *)
Theorem C89_numbering :
  forall {G H : Gen R} n pi sp ops, Permutation pi (seq 0 n) -> fitting_params n sp -> Forall (fits n) ops ->
  exists a b : Sim R G H, sim_after n sp ops = Some a /\ sim_after n (renum_start pi sp) (map (renum_call pi) ops) = Some b /\ same_flight pi a b.
Proof. exact @flights_agree. Qed.
Print Assumptions C89_numbering.

(** The allocation computed from the renumbered rotors is the renumbered
    allocation. *)
Theorem C89_allocation :
  forall pi ms, Permutation pi (seq 0 4) -> length ms = 4%nat -> quad_inverse (renum pi ms) = option_map (renum pi) (quad_inverse ms).
Proof. exact allocation_renum. Qed.
Print Assumptions C89_allocation.

Example C89_case : forall {G H : Gen R}, exists a b : Sim R G H, let sp := sp_ex 2 4 4 st_four imp_plain in
  fitting_params 4 sp /\ Permutation order_ex (seq 0 4) /\ Forall (fits (G := G) (H := H) 4) renum_ops /\
  s_mvel (sp_state (renum_start order_ex sp)) = [3; 1; 4; 2] /\
  sim_after 4 sp renum_ops = Some a /\ sim_after 4 (renum_start order_ex sp) (map (renum_call order_ex) renum_ops) = Some b /\
  sm_act a = [5; 6; 7; 8] /\ sm_act b = [7; 5; 8; 6] /\ s_pos (sim_state a) = s_pos (sim_state b).
Proof. exact @renum_ex. Qed.
