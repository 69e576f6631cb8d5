(** Specification vocabulary: a flight with given rotor commands. *)

From Coq Require Import List Reals.
From Verif Require Import Scalar LinAlg MUtils MModel MDynamics MPid MControl MCtlRun MImu MSim.
Import ListNotations.

(** Armed, rotor speeds requested, one control update, then [k] dynamics updates of [dt]. *)
Definition motor_calls {G H : Gen R} (cmd : list R) (d dt : R) (k : nat) : list (SimOp R G H) :=
  [SArm; SRefMotors cmd; SController d] ++ repeat (SDynamics dt) k.
