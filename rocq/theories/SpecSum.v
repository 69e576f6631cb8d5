(** Specification vocabulary for binary64: sums of speed times step along a run. *)

From Coq Require Import ZArith Bool List Reals.
From Flocq Require Import Core BinarySingleNaN.
From Verif Require Import Scalar Float64 LinAlg MUtils MModel MDynamics MImu SpecDyn SpecRun SpecRound.
Import ListNotations.
Local Open Scope R_scope.

Section Sums.
Variable L : Libm.
#[local] Instance SO : Ops b64 := F64Ops L.
Context {G : Gen b64}.

(** The exact sum of [f] times the step over the calls that move the vehicle; [f] reads the states
    before and after a call. *)
Fixpoint tally (f : State b64 -> State b64 -> b64) (d : Dyn b64 G) (l : list (Call b64)) : R :=
  match l with
  | [] => 0
  | c :: r => match process d (k_act c) (k_dt c) (k_ext c) (k_noise c) with
              | Ok d' => val (f (d_state d) (d_state d')) * val (k_dt c) + tally f d' r
              | Throw d' => tally f d' r
              | UB => 0
              end
  end.
(** Every state that is seen between calls satisfies [Q]. *)
Fixpoint seen (Q : State b64 -> Prop) (d : Dyn b64 G) (l : list (Call b64)) : Prop :=
  Q (d_state d) /\
  match l with
  | [] => True
  | c :: r => match process d (k_act c) (k_dt c) (k_ext c) (k_noise c) with Ok d' | Throw d' => seen Q d' r | UB => True end
  end.
(** A step that is a number, at most [D], and not split. *)
Definition short_call (D : R) (c : Call b64) : Prop := fin (k_dt c) /\ val (k_dt c) <= D /\ ltb dtmax (k_dt c) = false.
(** A number of at most [B]. *)
Definition within (B : R) (x : b64) : Prop := fin x /\ Rabs (val x) <= B.
(** Rounding errors of one addition whose result is at most [B] and of one product of at most [C]. *)
Definition rounding (B C : R) : R := bpow radix2 (-53) * (B + C) + bpow radix2 (-1074).

(** The same for the odometry: updates with gyroscope, accelerometer, step. *)
Fixpoint odom_tally (f : Odom b64 -> b64) (o : Odom b64) (l : list (V3 b64 * V3 b64 * b64)) : R :=
  match l with
  | [] => 0
  | (g, a, dt) :: r => let o' := odom_update o g a dt in val (f o') * val dt + odom_tally f o' r
  end.
Fixpoint odom_seen (Q : Odom b64 -> Prop) (o : Odom b64) (l : list (V3 b64 * V3 b64 * b64)) : Prop :=
  Q o /\ match l with [] => True | (g, a, dt) :: r => odom_seen Q (odom_update o g a dt) r end.
Definition odom_calls (l : list (V3 b64 * V3 b64 * b64)) : list (OdomOp b64) := map (fun x => OUpdate (fst (fst x)) (snd (fst x)) (snd x)) l.
End Sums.
