(** Specification vocabulary: a rotor following its command in binary64. *)

From Coq Require Import ZArith List Reals.
From Flocq Require Import Core BinarySingleNaN.
From Verif Require Import Scalar Float64 LinAlg MUtils MModel MDynamics SpecRun SpecRound SpecNumber.
Local Open Scope R_scope.

(** On the way from [a] to [c], not past it. *)
Definition toward (a b c : R) : Prop := a <= b <= c \/ c <= b <= a.

(** A step that is shorter than the time constant, by a relative 2^-50; long
    steps are split into steps of [sub]. *)
Definition shorter (sub : R) (dt tau : R) : Prop := Rmin dt sub <= (1 - / 1125899906842624) * tau.

(** Calls that command rotor [i] of [n] to the speed [cmd]. *)
Definition commands {T} (n i : nat) (cmd : T) (c : Call T) : Prop := length (k_act c) = n /\ nth_error (k_act c) i = Some cmd.

(** The same vehicle at another place. *)
Definition put {T} (s : State T) (p : V3 T) : State T :=
  mkState p (s_ori s) (s_vel s) (s_angvel s) (s_linacc s) (s_angacc s) (s_force s) (s_torque s) (s_mvel s) (s_macc s).
