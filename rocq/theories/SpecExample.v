(** Specification vocabulary for the flights of the example program. *)

From Coq Require Import ZArith List Bool String.
From Verif Require Import Scalar LinAlg MUtils MModel MSim MText MExample SpecText.
Import ListNotations.

Section SpecExample.
Context {T : Type} {O : Ops T} {G H : Gen T}.

(** The three flights that step through a list of references. *)
Inductive Tour := Velocities | Positions | PositionsTurning (rate : T).
Definition tour (fmt : T -> string) (v : Tour) : list (V3 T) -> T -> T -> nat -> Sim T G H -> Watch (Flight T G H) :=
  match v with
  | Velocities => velocity_flight fmt
  | Positions => position_flight fmt
  | PositionsTurning rate => yaw_rate_flight fmt rate
  end.

(** Still flying or landed: no exception, no undefined behaviour. *)
Definition sound {A} (w : Watch A) : Prop :=
  match w with Flying _ | Landed _ => True | Threw | Undefined => False end.

(** A log with one header line, [n] complete rows and nothing else. *)
Definition complete_log (n : nat) (log : string) : Prop :=
  exists header rows, lines log = header :: rows ++ [""%string] /\ List.length rows = n /\
    Forall (fun row => List.length (fields row) = 74%nat) (header :: rows).

End SpecExample.
Arguments Tour : clear implicits.
