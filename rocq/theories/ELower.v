(** A concrete descent to a height. *)

From Coq Require Import ZArith List Bool Lia Reals Lra.
From Verif Require Import Scalar LinAlg MUtils MModel MDynamics MPid MControl MCtlRun MImu MSim
  SpecDyn SpecRun SpecPid SpecCtl SpecImu SpecSim SpecVertical SpecClimb SpecSink SpecHeight SpecLower
  PBase PDynR PHeight PHeightSim PLowerSim EBase EPid ECtl ESim EClimb EHeight.
Import ListNotations.
Local Open Scope R_scope.

Lemma hang_hovers Kv Kx tau h : 0 < Kv -> 0 < Kx -> 0 < tau -> 0 <= h -> 4 * (Kv * Kx * h) <= 4 -> hovers 0 4 Kv Kx tau 1 0 100 1 h (sp_hang Kv Kx tau).
Proof.
  intros HKv HKx Ht Hh Hl. destruct (hang_hangs Kv Kx tau h HKv HKx Ht Hh Hl).
  assert (0 <= Kv * Kx * h) by (apply Rmult_le_pos; [apply Rmult_le_pos; lra|exact Hh]).
  split; try assumption.
  - split; [reflexivity|]. split; [reflexivity|]. split; [reflexivity|]. left. split; reflexivity.
  - change (p_mass (sp_model (sp_hang Kv Kx tau))) with 1. split; lra.
  - change (p_mass (sp_model (sp_hang Kv Kx tau))) with 1. split; lra.
  - change (p_mass (sp_model (sp_hang Kv Kx tau))) with 1. split; lra.
Qed.

Section Ex.
Context {G H : Gen R}.
(** Asked to hold a place 1 below, with rounds of 10 ms. *)
Lemma lower_ex : hovers 0 4 2 (2/5) (1/10) 1 0 100 1 1 (sp_hang 2 (2/5) (1/10)) /\ slower_loops 2 (2/5) (1/10) /\
  exists z : nat -> R, z 0%nat = 3 /\
  (forall k, exists s : Sim R G H, sim_after 4 (sp_hang 2 (2/5) (1/10)) (lift_calls ANGLE (mkV 1 2 2) (1/100) k) = Some s /\ s_pos (sim_state s) = mkV 1 2 (z k)) /\
  forall k, 2 <= z (S k) <= z k /\ z k - 2 <= 2 * (749/750) ^ k.
Proof.
  assert (C : hovers 0 4 2 (2/5) (1/10) 1 0 100 1 1 (sp_hang 2 (2/5) (1/10))) by (apply hang_hovers; lra).
  assert (N : slower_loops 2 (2/5) (1/10)) by (split; lra).
  split; [exact C|]. split; [exact N|].
  destruct (drop_flight (G := G) (H := H) _ _ _ _ _ _ _ _ _ _ _ C N ANGLE (1/100)) as (z & A & F & B); [lra|lra|].
  change (s_pos (sp_state (sp_hang 2 (2/5) (1/10)))) with (mkV 1 2 3 : V3 R) in *. unfold down_by in *. cbn [vx vy vz] in *.
  replace (3 - 1) with 2 in * by ring. exists z. split; [exact A|]. split; [exact F|]. intros k. specialize (B k).
  replace (1 - 1 / 3 * (1/100 * (2/5))) with (749/750) in B by field. rewrite Rmult_1_r in B. exact B.
Qed.
End Ex.
