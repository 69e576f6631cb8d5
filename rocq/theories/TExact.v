(** Property theorems: in double precision equal rotor speeds lift a quadrotor straight up. *)

From Coq Require Import ZArith Bool List Reals.
From Flocq Require Import Core BinarySingleNaN.
From Verif Require Import Scalar Float64 LinAlg MUtils MModel MDynamics SpecDyn SpecRun SpecRound SpecNumber SpecExact PExactRun EBase EExact.
Import ListNotations.
Local Open Scope R_scope.

(** ** C101 *)
Theorem C101_run :
  forall L, let O := F64Ops L in
  forall (G : Gen b64) (l : list (Call b64)) p, reasonable_params p -> reasonable_gen G -> even_quad L p -> Forall (even_call p) l ->
  forall d d' : Dyn b64 G, ModelReach 4 (d_model d) -> get_params (d_model d) = Some p ->
  numbers (d_state d) -> run_in_range L d l -> upright_still (d_state d) -> dyn_run d l = Some d' ->
  upright_still (d_state d') /\ kept (vx (s_pos (d_state d))) (vx (s_pos (d_state d'))) /\ kept (vy (s_pos (d_state d))) (vy (s_pos (d_state d'))) /\
  (unturned (d_state d) -> unturned (d_state d')).
Proof. exact (fun L G => @run_exact L G). Qed.
Print Assumptions C101_run.

Example C101_case : forall L, let O := F64Ops L in
  reasonable_params (x_params L) /\ reasonable_gen gen1 /\ even_quad L (x_params L) /\ Forall (even_call (x_params L)) (x_calls L) /\
  exists d d', x_dyn L = Some d /\ ModelReach 4 (d_model d) /\ get_params (d_model d) = Some (x_params L) /\ d_state d = x_state L /\
  numbers (x_state L) /\ run_in_range L d (x_calls L) /\ upright_still (x_state L) /\ dyn_run d (x_calls L) = Some d' /\
  Bltb (vz (s_pos (x_state L))) (vz (s_pos (d_state d'))) = true /\ Beqb (vz (s_vel (x_state L))) (vz (s_vel (d_state d'))) = false.
Proof. exact (fun L => conj (x_params_ok L) (conj (ENumber.n_gen_ok L) (conj (x_even L) (conj (x_calls_even L) (x_ok L))))). Qed.
