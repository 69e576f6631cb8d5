(** Property theorems: the clock of the example flights. *)

From Coq Require Import ZArith List Bool String.
From Verif Require Import Scalar Float64 LinAlg MUtils MDynamics MSim MText MExample MScript MConfig MYaml
  SpecDyn SpecRun SpecSim SpecText SpecExample SpecScript SpecConfig SpecYaml SpecShipped PTick PTickTour EYaml EYaml64.
Import ListNotations.
Local Open Scope string_scope.

(** ** C63, in any arithmetic *)
(** If the share of a reference is passed after exactly [J] steps, and the
    flight is not over after [J] steps for every reference, the list is overrun. *)
Theorem C63_overrun :
  forall {T} {O : Ops T} {G H : Gen T}, Sane O -> forall fmt (v : Tour T) sp (ops : list (SimOp T G H)) s refs tmax dt J,
  fitting_params 4 sp -> Forall (fits_short 4) ops -> sim_after 4 sp ops = Some s ->
  refs <> [] -> ltb dtmax dt = false -> leb dt zero = false -> (1 <= J)%nat ->
  (forall j, (j < J)%nat -> ltb (div tmax (ofZ (Z.of_nat (List.length refs)))) (time_at dt j) = false) ->
  ltb (div tmax (ofZ (Z.of_nat (List.length refs)))) (time_at dt J) = true ->
  (forall i, (i <= List.length refs * J)%nat -> ltb (time_at dt i) tmax = true) ->
  tour fmt v refs tmax dt (S (List.length refs * J)) s = Undefined.
Proof. exact @tour_overruns_law. Qed.
Print Assumptions C63_overrun.

(** If it takes at least [J] steps, and the flight is over by then, it is not. *)
Theorem C63_in_range :
  forall {T} {O : Ops T} {G H : Gen T}, Sane O -> forall fmt (v : Tour T) sp (ops : list (SimOp T G H)) s refs tmax dt J M,
  fitting_params 4 sp -> Forall (fits_short 4) ops -> sim_after 4 sp ops = Some s ->
  refs <> [] -> ltb dtmax dt = false -> leb dt zero = false ->
  (forall j, (j < J)%nat -> ltb (div tmax (ofZ (Z.of_nat (List.length refs)))) (time_at dt j) = false) ->
  ltb (time_at dt M) tmax = false -> (M <= List.length refs * J)%nat ->
  (forall k, sound (tour fmt v refs tmax dt k s)) /\
  exists f, tour fmt v refs tmax dt (S M) s = Landed f /\ ltb (fl_t f) tmax = false.
Proof. exact @tour_in_range. Qed.
Print Assumptions C63_in_range.

(** ** C112, the shipped file in binary64 *)
Theorem C112_shipped_binary64 :
  forall L, let O := F64Ops L in forall {G H : Gen b64} (num : string -> option b64), reads_table num -> forall fmt,
  (forall k, sound (main_fly (G := G) (H := H) num fmt (Holds shipped) k) /\ sound (main_fly_yaw (G := G) (H := H) num fmt (Holds shipped) k)) /\
  (exists k f, main_fly (G := G) (H := H) num fmt (Holds shipped) k = Landed f /\ ltb (fl_t f) (ofZ 60) = false) /\
  (exists k f, main_fly_yaw (G := G) (H := H) num fmt (Holds shipped) k = Landed f /\ ltb (fl_t f) (ofZ 60) = false).
Proof. exact @shipped_lands64. Qed.
Print Assumptions C112_shipped_binary64.

(** The flight through its velocity references indexes past their list. *)
Theorem C112_shipped_velocity_refuted :
  forall L, let O := F64Ops L in forall {G H : Gen b64} (num : string -> option b64), reads_table num -> forall fmt,
  exists k, main_fly_velocity (G := G) (H := H) num fmt (Holds shipped) k = Undefined.
Proof. exact @shipped_overruns64. Qed.
Print Assumptions C112_shipped_velocity_refuted.

Example C63_shipped_case : forall L, let O := F64Ops L in
  ltb (div (ofZ 60) (ofZ 8)) (time_at (lit 1 1000) (Z.to_nat 7499)) = false /\
  ltb (div (ofZ 60) (ofZ 8)) (time_at (lit 1 1000) (Z.to_nat 7500)) = true /\
  ltb (time_at (lit 1 1000) (Z.to_nat 60000)) (ofZ 60) = true /\ ltb (time_at (lit 1 1000) (Z.to_nat 60001)) (ofZ 60) = false.
Proof. exact shipped_clock_case. Qed.
