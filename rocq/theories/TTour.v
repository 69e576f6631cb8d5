(** Property theorems: the calls the example flights make. *)

From Coq Require Import ZArith List Bool String Reals.
From Verif Require Import Scalar LinAlg MUtils MModel MSim MText MExample SpecRun SpecExample SpecTour PTour ETour.
Import ListNotations.

(** ** C63, continued *)
(** Whatever stage the flight has reached, it got there by selecting its mode,
    asking for the references in turn and going round the updates. *)
Theorem C63_calls :
  forall {T} {O : Ops T} {G H : Gen T} fmt (v : Tour T) refs tmax dt k (s : Sim T G H) f,
  tour fmt v refs tmax dt k s = Flying f \/ tour fmt v refs tmax dt k s = Landed f ->
  exists ops, Flown v refs tmax dt (fl_ix f) (fl_t f) (fl_rt f) ops /\ sim_run 4 s ops = Some (fl_sim f).
Proof. exact @tour_calls. Qed.
Print Assumptions C63_calls.

Theorem C63_in_force :
  forall {T} {O : Ops T} {G H : Gen T} fmt (v : Tour T) refs tmax dt k (s : Sim T G H) f,
  tour fmt v refs tmax dt k s = Flying f \/ tour fmt v refs tmax dt k s = Landed f ->
  exists r, nth_error refs (fl_ix f) = Some r /\ in_force v r (fl_sim f).
Proof. exact @tour_force. Qed.
Print Assumptions C63_in_force.

Local Open Scope R_scope.
Example C63_calls_case : forall {G H : Gen R}, let a := mkV 1 0 0 in let b := mkV 2 0 0 in let r := round (G := G) (H := H) (1/100) in
  exists t w, t = 4/100 /\ w = 1/100 /\
  Flown Positions [a; b] (4/100) (1/100) 1 t w
    ([SMode POSITION ANGLE; SRefPos a; SRefYaw 0] ++ r ++ r ++ r ++ r ++ [SRefPos b]).
Proof. exact @places_ex. Qed.
