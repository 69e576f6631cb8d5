(** Specification vocabulary: what makes vehicle parameters meaningful, and
    dissipation. *)

From Coq Require Import ZArith List Bool Reals.
From Verif Require Import Scalar LinAlg MUtils MModel SpecDyn.
Import ListNotations.
Local Open Scope R_scope.

(** A symmetric positive definite inertia. *)
Definition pos_def (m : M3 R) : Prop := forall v, v <> mkV 0 0 0 -> 0 < dot3 v (vec_of (mat_vec m v)).
Definition pos_semidef (m : M3 R) : Prop := forall v, 0 <= dot3 v (vec_of (mat_vec m v)).

Definition meaningful_motor (m : Motor R) : Prop :=
  mt_min m <= mt_max m /\ 0 < mt_tau m /\ 0 <= mt_J m /\ 0 <= mt_kf m /\ 0 <= mt_kt m.
(** What a user expects of parameters that a constructor with validation let
    through, for a vehicle with [n] rotors. *)
Definition meaningful (n : nat) (p : Params R) : Prop :=
  0 < p_mass p /\ pos_def (p_inertia p) /\ 0 <= p_drag p /\ pos_semidef (p_aero p) /\
  length (p_motors p) = n /\ Forall meaningful_motor (p_motors p).

(** What is actually guaranteed. *)
Definition checked_motor (m : Motor R) : Prop :=
  mt_min m <= mt_max m /\ 0 <= mt_tau m /\ 0 <= mt_J m /\ 0 <= mt_kf m /\ 0 <= mt_kt m.
Definition checked (p : Params R) : Prop :=
  0 <= p_mass p /\ 0 <= det3 (p_inertia p) /\ 0 <= p_drag p /\ 0 <= det3 (p_aero p) /\
  Forall checked_motor (p_motors p).
