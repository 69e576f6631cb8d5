(** Example: the calls of a tour of two places. *)

From Coq Require Import ZArith List Bool Reals Lra.
From Verif Require Import Scalar LinAlg MUtils MModel MSim MExample SpecExample SpecTour PBase EBase EPid.
Import ListNotations.
Local Open Scope R_scope.

Lemma places_ex {G H : Gen R} : let a := mkV 1 0 0 in let b := mkV 2 0 0 in let r := round (G := G) (H := H) (1/100) in
  exists t w, t = 4/100 /\ w = 1/100 /\
  Flown Positions [a; b] (4/100) (1/100) 1 t w
    ([SMode POSITION ANGLE; SRefPos a; SRefYaw 0] ++ r ++ r ++ r ++ r ++ [SRefPos b]).
Proof.
  intros a b r. do 2 eexists. split; [|split].
  3:{ apply (flown_next (O := ROps) Positions [a; b] (4/100) (1/100) 0 (0 + 1/100 + 1/100 + 1/100) (0 + 1/100 + 1/100 + 1/100)
        ((([SMode POSITION ANGLE; SRefPos a; SRefYaw 0] ++ r) ++ r) ++ r) b).
      - apply (flown_on (O := ROps)); [apply (flown_on (O := ROps)); [apply (flown_on (O := ROps)); [exact (flown_start (O := ROps) (G := G) (H := H) Positions [a; b] (4/100) (1/100) a eq_refl)|..]|..]|..];
          change (Z.of_nat (length [a; b])) with 2%Z; unR; rdec; reflexivity.
      - unR. rdec. reflexivity.
      - change (Z.of_nat (length [a; b])) with 2%Z. unR. rdec. reflexivity.
      - reflexivity. }
  all: unR; lra.
Qed.
