(** A concrete descent. *)

From Coq Require Import ZArith List Bool Lia Reals Lra.
From Verif Require Import Scalar LinAlg MUtils MModel MDynamics MPid MControl MCtlRun MImu MSim
  SpecDyn SpecRun SpecPid SpecCtl SpecImu SpecSim SpecVertical SpecClimb SpecSink
  PBase PVertical PClimb PClimbSim PSink PSinkSim EBase EPid ECtl ESim EClimb.
Import ListNotations.
Local Open Scope R_scope.

Lemma rise_sinks v d0 : 0 <= d0 <= 2 -> sinks 0 4 1 (1/10) 1 0 100 1 d0 (sp_rise v).
Proof.
  intros Hd. destruct (rise_climbs v 0) as [F1 F2 F3 F4 F5 F6 F7 F8 F9 F10 F11 F12 F13 F14 F15 F16 F17 F18 F19 F20 F21 F22]; [lra|].
  split; try assumption; try lra.
  - left. split; reflexivity.
  - cbn. lra.
  - cbn. lra.
Qed.

Section Ex.
Context {G H : Gen R}.
(** Rising at 1 and asked to sink at 1, with rounds of 10 ms. *)
Lemma sink_ex : sinks 0 4 1 (1/10) 1 0 100 1 2 (sp_rise 1) /\
  exists v : nat -> R, v 0%nat = 1 /\
  (forall k, exists s : Sim R G H, sim_after 4 (sp_rise 1) (climb_calls ANGLE (-1) (1/100) k) = Some s /\ s_vel (sim_state s) = mkV 0 0 (v k)) /\
  forall k, -1 <= v (S k) <= v k /\ v k - -1 <= 2 * (397/400) ^ k * 2.
Proof.
  assert (C : sinks 0 4 1 (1/10) 1 0 100 1 2 (sp_rise 1)) by (apply rise_sinks; lra).
  split; [exact C|].
  destruct (sink_flight (G := G) (H := H) _ _ _ _ _ _ _ _ _ _ C ANGLE (1/100)) as (v & A & F & B); [lra|lra|].
  change (vz (s_vel (sp_state (sp_rise 1)))) with 1 in *. replace (1 - 2) with (-1) in * by ring.
  exists v. split; [exact A|]. split; [exact F|]. intros k. specialize (B k).
  replace (1 - 3 / 4 * (1/100 * 1)) with (397/400) in B by field. exact B.
Qed.
End Ex.
