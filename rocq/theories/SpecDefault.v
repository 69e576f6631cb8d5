(** Specification vocabulary: using objects as they come. *)

From Coq Require Import ZArith List Bool.
From Flocq Require Import BinarySingleNaN.
From Verif Require Import Scalar Float64 LinAlg MUtils MPid MPid1 MControl MCtlRun SpecTune.
Import ListNotations.

Section Spec.
Context {T : Type}.
(** Control calls and resets of a scalar loop; of the flight controller. *)
Definition flies1 (op : Pid1Op T) : bool := match op with Op1Compute _ _ | Op1ComputeD _ _ _ | Op1Reset => true | _ => false end.
Definition steers (op : CtlOp T) : bool :=
  match op with
  | CUpdate _ | CUpdAcro _ | CUpdIndi _ | CUpdPid _ _ | CMass _ | CGrav _ | CKp _ | CInertia _ | CMixer _ => false
  | CPid _ o => flies o
  | _ => true
  end.
End Spec.

Definition not_a_number (x : b64) : Prop := is_nan x = true.
