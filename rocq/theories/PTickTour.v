(** Tours of references and their clock, in any arithmetic. *)

From Coq Require Import ZArith Bool List String Lia.
From Verif Require Import Scalar LinAlg MUtils MModel MDynamics MSim MText MExample
  SpecDyn SpecRun SpecSim SpecText SpecExample SpecScript PBase PWell PExample PTick.
Import ListNotations.

Section Any.
Context {T : Type} {O : Ops T} {G H : Gen T}.
Hypothesis Sn : Sane O.

Lemma tour_overruns_law fmt v sp (ops : list (SimOp T G H)) s refs tmax dt J :
  fitting_params 4 sp -> Forall (fits_short 4) ops -> sim_after 4 sp ops = Some s ->
  refs <> [] -> ltb dtmax dt = false -> leb dt zero = false -> (1 <= J)%nat ->
  (forall j, (j < J)%nat -> ltb (div tmax (ofZ (Z.of_nat (List.length refs)))) (time_at dt j) = false) ->
  ltb (div tmax (ofZ (Z.of_nat (List.length refs)))) (time_at dt J) = true ->
  (forall i, (i <= List.length refs * J)%nat -> ltb (time_at dt i) tmax = true) ->
  tour fmt v refs tmax dt (S (List.length refs * J)) s = Undefined.
Proof.
  intros P F E Nr D0 D1 J1 HJ HJJ HT.
  apply (gtour_overruns Sn); [exact Nr|exact D0|exact D1|exact (gafter_well Sn 4 sp ops s P F E)|].
  assert (Ln : (0 < List.length refs)%nat) by (destruct refs; [congruence|cbn; lia]).
  change (clock (List.length refs) tmax dt (S (List.length refs * J)) (time_at dt 0) (time_at dt 0) 0 = Undefined).
  apply (clock_short _ tmax dt J J1 HJ HJJ HT) with (d := (List.length refs * J)%nat); lia.
Qed.
Lemma tour_in_range fmt v sp (ops : list (SimOp T G H)) s refs tmax dt J M :
  fitting_params 4 sp -> Forall (fits_short 4) ops -> sim_after 4 sp ops = Some s ->
  refs <> [] -> ltb dtmax dt = false -> leb dt zero = false ->
  (forall j, (j < J)%nat -> ltb (div tmax (ofZ (Z.of_nat (List.length refs)))) (time_at dt j) = false) ->
  ltb (time_at dt M) tmax = false -> (M <= List.length refs * J)%nat ->
  (forall k, sound (tour fmt v refs tmax dt k s)) /\
  exists f, tour fmt v refs tmax dt (S M) s = Landed f /\ ltb (fl_t f) tmax = false.
Proof.
  intros P F E Nr D0 D1 HJ HM HN. pose proof (gafter_well Sn 4 sp ops s P F E) as W.
  assert (Ln : (0 < List.length refs)%nat) by (destruct refs; [congruence|cbn; lia]).
  assert (X : forall k, match tour fmt v refs tmax dt k s with Flying _ => (k <= M)%nat | Landed f => ltb (fl_t f) tmax = false | _ => False end).
  { intros k. destruct (gtour_in_step Sn fmt v refs tmax dt k s Nr D0 D1 W) as (s1 & _ & X).
    pose proof (clock_enough _ tmax dt J M HJ HM HN k 0%nat 0%nat 0%nat ltac:(lia) ltac:(lia) Ln) as C.
    pose proof (clock_flying (List.length refs) tmax dt k 0 (time_at dt 0) 0) as D.
    change (time_at dt 0) with (zero : T) in C, D.
    destruct (clock (List.length refs) tmax dt k zero zero 0) as [[[t rt] ix]|[[t rt] ix]| |]; try contradiction;
      destruct (tour fmt v refs tmax dt k s) as [f|f| |]; try contradiction.
    - destruct (Nat.le_gt_cases k M) as [Le|Gt]; [exact Le|]. specialize (D M Gt). cbn [Nat.add] in D. rewrite HM in D. discriminate.
    - destruct X as (Et & _). rewrite Et. exact C. }
  split.
  - intros k. specialize (X k). destruct (tour fmt v refs tmax dt k s); try contradiction; exact I.
  - specialize (X (S M)). destruct (tour fmt v refs tmax dt (S M) s) as [f|f| |]; try contradiction; [lia|].
    exists f. split; [reflexivity|exact X].
Qed.
End Any.
