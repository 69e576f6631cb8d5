(** Property theorems: unit orientations in binary64 arithmetic. *)

From Coq Require Import ZArith Bool List Reals.
From Flocq Require Import Core BinarySingleNaN.
From Verif Require Import Scalar Float64 LinAlg MUtils MModel MDynamics MImu SpecDyn SpecRun SpecRound PUnit64 ERound EBase.
Import ListNotations.
Local Open Scope R_scope.

(** ** C02 in binary64 *)
Theorem C02_binary64 :
  forall L, let O := F64Ops L in
  forall (G : Gen b64) (d d' : Dyn b64 G) (l : list (Call b64)),
  unit_within (1/2) (s_ori (d_state d)) -> tame L d l -> l <> [] -> dyn_run d l = Some d' ->
  unit_within (bpow radix2 (-49)) (s_ori (d_state d')).
Proof. exact run_unit_pow. Qed.
Print Assumptions C02_binary64.

Example C02_binary64_case : forall L, exists d d', r_dyn L = Some d /\ unit_within (1/2) (s_ori (d_state d)) /\ tame L d (r_calls L) /\
  @dyn_run _ (F64Ops L) _ d (r_calls L) = Some d' /\ Beqb (qz (s_ori (d_state d'))) (b64_ofZ 0) = false.
Proof. exact r_ok. Qed.

(** ** C42 in binary64 *)
Theorem C42_binary64 :
  forall L, let O := F64Ops L in
  forall e p ops gyro accel dt, (0 <= e <= 390)%Z -> fin (odp_alpha p) -> 0 <= val (odp_alpha p) <= 1 ->
  unit_within (1/2) (odp_ori p) -> Forall (odom_tame (bpow radix2 e)) ops -> odom_tame (bpow radix2 e) (OUpdate gyro accel dt) ->
  let o := odom_step (odom_run (odom_new p) ops) (OUpdate gyro accel dt) in
  unit_within (bpow radix2 (-49)) (odom_get_orientation o) /\ comps_below (bpow radix2 e) (odom_get_angular_velocity o).
Proof. exact odom_unit_pow. Qed.
Print Assumptions C42_binary64.

Example C42_binary64_case : forall L, fin (odp_alpha (r_odp L)) /\ 0 <= val (odp_alpha (r_odp L)) <= 1 /\
  unit_within (1/2) (odp_ori (r_odp L)) /\ odom_tame (bpow radix2 0) (r_update L).
Proof. exact r_odom. Qed.
