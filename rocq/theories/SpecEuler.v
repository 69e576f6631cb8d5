(** Specification of roll, pitch and yaw: the rotation Rz(yaw) Ry(pitch) Rx(roll). *)

From Coq Require Import Reals.
From Verif Require Import Scalar LinAlg SpecDyn.
Local Open Scope R_scope.

(** One entry of an elementary rotation by angle [t] about axis [k]. *)
Definition about (k : Ax) (t : R) (a b : Ax) : R :=
  match k, a, b with
  | AX, AX, AX | AY, AY, AY | AZ, AZ, AZ => 1
  | AX, AY, AY | AX, AZ, AZ | AY, AX, AX | AY, AZ, AZ | AZ, AX, AX | AZ, AY, AY => cos t
  | AX, AZ, AY | AY, AX, AZ | AZ, AY, AX => sin t
  | AX, AY, AZ | AY, AZ, AX | AZ, AX, AY => - sin t
  | _, _, _ => 0
  end.
Definition mat_mul (f g : Ax -> Ax -> R) (a b : Ax) : R := f a AX * g AX b + f a AY * g AY b + f a AZ * g AZ b.
Definition rpy (roll pitch yaw : R) : Ax -> Ax -> R :=
  mat_mul (about AZ yaw) (mat_mul (about AY pitch) (about AX roll)).

(** The rotation described by any non-zero quaternion. *)
Definition attitude (q : Quat R) (a b : Ax) : R :=
  let n := qw q ^ 2 + qx q ^ 2 + qy q ^ 2 + qz q ^ 2 in
  let w := qw q in let x := qx q in let y := qy q in let z := qz q in
  match a, b with
  | AX, AX => (w ^ 2 + x ^ 2 - y ^ 2 - z ^ 2) / n | AX, AY => 2 * (x * y - w * z) / n | AX, AZ => 2 * (x * z + w * y) / n
  | AY, AX => 2 * (x * y + w * z) / n | AY, AY => (w ^ 2 - x ^ 2 + y ^ 2 - z ^ 2) / n | AY, AZ => 2 * (y * z - w * x) / n
  | AZ, AX => 2 * (x * z - w * y) / n | AZ, AY => 2 * (y * z + w * x) / n | AZ, AZ => (w ^ 2 - x ^ 2 - y ^ 2 + z ^ 2) / n
  end.
(** The nose does not point straight up or down. *)
Definition not_vertical (q : Quat R) : Prop := Rabs (attitude q AZ AX) < 1.
Definition scaled_quat (k : R) (q : Quat R) : Quat R := mkQ (k * qw q) (k * qx q) (k * qy q) (k * qz q).
