(** Examples: flights watched by different sensors, and a disarmed vehicle. *)

From Coq Require Import ZArith List Bool Lia Reals Lra.
From Verif Require Import Scalar LinAlg MUtils MModel MDynamics MPid MControl MImu MSim SpecDyn SpecRun SpecSim SpecWatch
  PBase PDyn PSim PSimEnd PWell PWatch EBase ESim.
Import ListNotations.
Local Open Scope R_scope.

Section Ex.
Context {G H : Gen R}.
Definition sp_plain : SimParams R := sp_ex 1 4 4 st_hover imp_plain.
Definition sp_noisy : SimParams R := sp_ex 1 4 4 st_hover (mkIMP 1 2 3 4 (mkQ 0 1 0 0) 7).
Definition watch_ops : list (SimOp R G H) :=
  [SImu (1/100); SMode VELOCITY RATE; SArm; SRefVel (mkV 1 2 3); SController (1/100); SDynamics (1/100); SImu (1/100); SOdom (1/100); SSetImu imp_plain; SDynamics (1/100)].

Lemma watch_ex : exists a b : Sim R G H, same_but_sensors sp_noisy sp_plain /\
  sim_after 4 sp_noisy watch_ops = Some a /\
  sim_after 4 sp_plain [SMode VELOCITY RATE; SArm; SRefVel (mkV 1 2 3); SController (1/100); SDynamics (1/100); SDynamics (1/100)] = Some b /\
  flight_of a = flight_of b.
Proof.
  assert (S : same_but_sensors sp_noisy sp_plain) by (split; [|split; [|split]]; reflexivity).
  assert (F : fitting_params 4 sp_noisy) by (apply sp_fits; [lra|reflexivity]).
  destruct (simulator_defined (G := G) (H := H) 4 sp_noisy watch_ops) as [a E].
  - exact F.
  - unfold watch_ops. repeat (apply Forall_cons; [cbn; first [exact I|lra]|]). apply Forall_nil.
  - pose proof (after_watch (G := G) (H1 := H) (H2 := H) 4 sp_noisy sp_plain watch_ops S) as K. rewrite E in K. cbn [flat_map unwatched watch_ops app] in K.
    destruct (sim_after 4 sp_plain _) as [b|] in K |- *; [|contradiction K]. exists a, b. split; [exact S|]. split; [exact E|]. split; [reflexivity|exact K].
Qed.

Definition idle_ops : list (SimOp R G H) :=
  [SMode VELOCITY RATE; SRefVel (mkV 1 2 3); SController (1/100); SDynamics (1/100); SImu (1/100); SEnableFloor 0; SController (1/100); SDynamics (1/100)].
Lemma idle_ex : exists a b : Sim R G H, same_vehicle sp_noisy sp_plain /\ Forall not_arming idle_ops /\
  sim_after 4 sp_noisy idle_ops = Some a /\ sim_after 4 sp_plain [SDynamics (1/100); SEnableFloor 0; SDynamics (1/100)] = Some b /\ sm_dyn a = sm_dyn b.
Proof.
  assert (S : same_vehicle sp_noisy sp_plain) by (split; [|split]; reflexivity).
  assert (F : fitting_params 4 sp_noisy) by (apply sp_fits; [lra|reflexivity]).
  assert (N : Forall not_arming idle_ops) by (unfold idle_ops; repeat (apply Forall_cons; [exact I|]); apply Forall_nil).
  destruct (simulator_defined (G := G) (H := H) 4 sp_noisy idle_ops) as [a E].
  - exact F.
  - unfold idle_ops. repeat (apply Forall_cons; [cbn; first [exact I|lra]|]). apply Forall_nil.
  - pose proof (after_idle (G := G) (H := H) 4 sp_noisy sp_plain idle_ops S N) as K. rewrite E in K. cbn [filter own_call idle_ops] in K.
    destruct (sim_after 4 sp_plain _) as [b|] in K |- *; [|contradiction K]. exists a, b. split; [exact S|]. split; [exact N|]. split; [exact E|]. split; [reflexivity|exact K].
Qed.
End Ex.
