(** C16 in double precision: drag opposes the motion on every axis and grows with the speed. *)

From Coq Require Import ZArith List Bool Reals.
From Flocq Require Import Core BinarySingleNaN.
From Verif Require Import Scalar Float64 LinAlg MUtils MModel MDynamics SpecDyn SpecRun SpecRound SpecNumber EBase EExact ELag PDrag64 EDrag64.
Local Open Scope R_scope.

Theorem C16_binary64 : forall L, let O := F64Ops L in forall {G : Gen b64} (mo : ModelObj b64 G) p v f,
  get_params mo = Some p -> upto 64 (p_drag p) -> 0 <= val (p_drag p) -> upto3 64 v -> get_drag_force mo v = Some f ->
  forall a, fin (pr a f) /\ val (pr a f) * val (pr a v) <= 0.
Proof. exact @drag64. Qed.
Print Assumptions C16_binary64.

Theorem C16_binary64_grows : forall L, let O := F64Ops L in forall {G : Gen b64} (mo : ModelObj b64 G) p v w f g a,
  get_params mo = Some p -> upto 64 (p_drag p) -> 0 <= val (p_drag p) -> upto3 64 v -> upto3 64 w ->
  get_drag_force mo v = Some f -> get_drag_force mo w = Some g ->
  Rabs (val (pr a v)) <= Rabs (val (pr a w)) -> Rabs (val (pr a f)) <= Rabs (val (pr a g)).
Proof. exact @drag64_grows. Qed.
Print Assumptions C16_binary64_grows.

Example C16_binary64_case : forall L, let O := F64Ops L in exists (d : Dyn b64 gen1) f,
  dyn_new 4 (x_params L) 0 (l_state L) = Some d /\ get_params (d_model d) = Some (x_params L) /\
  reasonable_params (x_params L) /\ Bltb zero (p_drag (x_params L)) = true /\ upto3 64 (gust L) /\
  get_drag_force (d_model d) (gust L) = Some f /\ Bltb (vx f) zero = true /\ Bltb zero (vy f) = true.
Proof. exact gust_ex. Qed.
