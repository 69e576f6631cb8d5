(** Specification vocabulary for the process noise of the vehicle. *)

From Coq Require Import ZArith List Bool Reals.
From Verif Require Import Scalar LinAlg MUtils MModel MDynamics SpecDyn SpecRun SpecImu SpecMotion.
Import ListNotations.
Local Open Scope R_scope.

(** The random stream of a vehicle. *)
Definition dyn_rng {T} {G : Gen T} (d : Dyn T G) : Rng G := (mo_eng (d_model d), mo_dist (d_model d)).

(** A flight with noise and constant command, step and external force. *)
Definition noisy_flight {G : Gen R} (D : nat -> Dyn R G) (act : list R) (dt : R) (ext : V3 R) : Prop :=
  forall k, process (D k) act dt ext true = Ok (D (S k)).

(** Sum of the first [k] force samples on axis [a]: six draws per step, the
    first three of them for the force. *)
Fixpoint walk_sum (G : Gen R) (s : Rng G) (a : Ax) (k : nat) : R :=
  match k with O => 0 | S j => walk_sum G s a j + pr a (sample G 0 s (6 * j)) end.

(** How many calls of a list draw noise. *)
Fixpoint noisy_calls {T} (l : list (Call T)) : nat :=
  match l with [] => O | c :: r => if k_noise c then S (noisy_calls r) else noisy_calls r end.
