(** Specification vocabulary: opening the throttle. *)

From Coq Require Import List Reals.
From Verif Require Import Scalar LinAlg MModel SpecDyn SpecCtl.
Import ListNotations.
Local Open Scope R_scope.

(** Rotors that all turn at one unit of speed lift with force [k] and do not turn the vehicle. *)
Definition balanced (k : R) (ms : list (Motor R)) : Prop :=
  rotor_force ms (map (fun _ => 1) ms) AZ = k /\ forall a, rotor_torque ms (map (fun _ => 1) ms) (map (fun _ => 0) ms) a = 0.
(** Every rotor carries the same share of the change of thrust. *)
Definition shares (k dth : R) (w1 w2 : list R) : Prop :=
  Forall2 (fun u v => sq_signed v - sq_signed u = dth / k) w1 w2.
