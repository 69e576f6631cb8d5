(** Specification vocabulary: which rotors speed up for a turn. *)

From Coq Require Import ZArith List Bool Reals.
From Verif Require Import Scalar LinAlg MModel MPid MControl MCtlRun SpecDyn SpecPid SpecCtl.
Import ListNotations.
Local Open Scope R_scope.

(** A vector along one axis. *)
Definition along (b : Ax) (s : R) : V3 R := match b with AX => mkV s 0 0 | AY => mkV 0 s 0 | AZ => mkV 0 0 s end.
(** How a rotor pushes the vehicle about an axis: rolling to the right by being on the left
    (y > 0), pitching forward by being behind (x < 0), yawing to the left by its rotation direction. *)
Definition lever (b : Ax) (m : Motor R) : R :=
  match b with AX => vy (mt_pos m) | AY => - vx (mt_pos m) | AZ => IZR (mt_dir m) end.
(** The rotor speeds [w] are ordered as the levers about [b] are, in the sense of [s]. *)
Definition steers (b : Ax) (s : R) (ms : list (Motor R)) (w : list R) : Prop :=
  forall i j mi mj wi wj, nth_error ms i = Some mi -> nth_error ms j = Some mj -> nth_error w i = Some wi -> nth_error w j = Some wj ->
  (wi < wj <-> s * lever b mi < s * lever b mj).
(** A rate loop that reacts on axis [b]: positive proportional gain, nonnegative integral gain,
    per-axis limits on both sides of zero. *)
Definition reacts (b : Ax) (p : Pid R) : Prop :=
  (forall a, 0 <= pr a (pid_aw p)) /\ pid_prop_on p = false /\ 0 < pr b (pid_kp p) /\ 0 <= pr b (pid_ki p) /\
  (pid_sat_on p = true -> forall a, pr a (snd (pid_limits p)) < 0 < pr a (fst (pid_limits p))).
