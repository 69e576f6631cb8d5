(** C61: a flight that is told a velocity it does not follow. *)

From Coq Require Import ZArith List Bool Reals.
From Verif Require Import Scalar LinAlg MUtils MModel MDynamics MPid MControl MCtlRun MImu MSim SpecDyn SpecRun SpecPid SpecCtl SpecImu SpecSim SpecFollow
  PBase PFollow.
Import ListNotations.
Local Open Scope R_scope.

Definition refs_one : Refs R := mkRefs [1] 2 (mkV 1 1 1) (mkV 2 2 2) (mkV 3 3 3) (mkV 4 4 4) 5 6.
Definition refs_two : Refs R := mkRefs [2] 1 (mkV 2 1 1) (mkV 2 2 2) (mkV 1 2 3) (mkV 4 5 4) 5 7.
Definition one_flight {G H : Gen R} : list (SimOp R G H) :=
  [SController (1/100); SDynamics (1/100); SImu (1/100); SRefMotors [3]; SMode VELOCITY ANGLE; SController (1/100); SDynamics (1/100); SDisarm; SArm].

Section Ex.
Context {G H : Gen R}.
Lemma follow_ex : follows_same POSITION ANGLE refs_one refs_two /\ rf_vel refs_one <> rf_vel refs_two /\ Forall (no_stale_mode (G := G) (H := H)) one_flight.
Proof.
  split; [split; reflexivity|]. split; [intros K; injection K as K _; apply (f_equal (fun x => x - 1)) in K; ring_simplify in K; revert K; apply Rgt_not_eq; apply Rlt_gt; exact Rlt_0_2|].
  unfold one_flight. do 9 (apply Forall_cons; [first [exact I|split; discriminate]|]). apply Forall_nil.
Qed.
End Ex.
