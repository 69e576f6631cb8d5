(** Property theorems: flights of reasonable size never turn into NaN or infinity. *)

From Coq Require Import ZArith Bool List Reals.
From Flocq Require Import Core BinarySingleNaN.
From Verif Require Import Scalar Float64 LinAlg MUtils MModel MDynamics SpecDyn SpecRun SpecRound SpecNumber PNumber ENumber ERound EBase.
Import ListNotations.
Local Open Scope R_scope.

(** ** C79 *)
Theorem C79_step :
  forall L, let O := F64Ops L in
  forall (G : Gen b64) n (d d' : Dyn b64 G) c p,
  (n <= 100)%nat -> vehicle n d (k_act c) p -> reasonable_params p -> reasonable_gen G -> numbers (d_state d) -> in_range L d c ->
  reasonable_call c -> process d (k_act c) (k_dt c) (k_ext c) (k_noise c) = Ok d' ->
  numbers (d_state d') /\ vehicle n d' (k_act c) p.
Proof. exact (fun L G => @process_numbers L G). Qed.
Print Assumptions C79_step.

Theorem C79_run :
  forall L, let O := F64Ops L in
  forall (G : Gen b64) n (l : list (Call b64)) p, (n <= 100)%nat -> reasonable_params p -> reasonable_gen G ->
  forall d d' : Dyn b64 G, ModelReach n (d_model d) -> get_params (d_model d) = Some p -> length (s_mvel (d_state d)) = n ->
  Forall (fun c => length (k_act c) = n) l ->
  numbers (d_state d) -> run_in_range L d l -> dyn_run d l = Some d' -> numbers (d_state d').
Proof. exact (fun L G => @run_numbers L G). Qed.
Print Assumptions C79_run.

Example C79_case : forall L, reasonable_params (n_params L) /\ reasonable_gen (@gen1 _ (F64Ops L)) /\
  exists d d', r_dyn L = Some d /\ @ModelReach _ (F64Ops L) _ 4 (d_model d) /\ get_params (d_model d) = Some (n_params L) /\ length (s_mvel (d_state d)) = 4%nat /\
  Forall (fun c => length (k_act c) = 4%nat) (n_calls L) /\ numbers (d_state d) /\ run_in_range L d (n_calls L) /\
  @dyn_run _ (F64Ops L) _ d (n_calls L) = Some d' /\ Beqb (vx (s_vel (d_state d'))) (b64_ofZ 0) = false.
Proof. exact (fun L => conj (n_params_ok L) (conj (n_gen_ok L) (n_ok L))). Qed.

(** The bounds are needed: from finite numbers alone a step may give NaN. *)
Theorem C79_bound_needed :
  forall L, let O := F64Ops L in
  exists (d d' : Dyn b64 gen1) act dt p, vehicle 4 d act p /\ reasonable_params p /\ numbers (d_state d) /\
  process d act dt v0 false = Ok d' /\ ~ numbers (d_state d').
Proof. exact finite_only. Qed.
Print Assumptions C79_bound_needed.
