(** Specification vocabulary for the vehicle model: textbook mechanics over
    the reals, written out componentwise and independently of the functions of
    the model.  Only the data types of the model are used. *)

From Coq Require Import ZArith List Bool Reals.
From Verif Require Import Scalar LinAlg MUtils MModel.
Import ListNotations.
Local Open Scope R_scope.

(** Cartesian axes and vector components. *)
Inductive Ax := AX | AY | AZ.
Definition pr {T} (a : Ax) (v : V3 T) : T := match a with AX => vx v | AY => vy v | AZ => vz v end.
Definition ent {T} (m : M3 T) (a b : Ax) : T :=
  match a, b with
  | AX, AX => m00 m | AX, AY => m01 m | AX, AZ => m02 m
  | AY, AX => m10 m | AY, AY => m11 m | AY, AZ => m12 m
  | AZ, AX => m20 m | AZ, AY => m21 m | AZ, AZ => m22 m
  end.

Definition dot3 (u v : V3 R) : R := vx u * vx v + vy u * vy v + vz u * vz v.
Definition len3 (v : V3 R) : R := sqrt (dot3 v v).
(** Component of the vector product. *)
Definition cross3 (u v : V3 R) (a : Ax) : R :=
  match a with
  | AX => vy u * vz v - vz u * vy v
  | AY => vz u * vx v - vx u * vz v
  | AZ => vx u * vy v - vy u * vx v
  end.
(** Component of matrix times vector. *)
Definition mat_vec (m : M3 R) (v : V3 R) (a : Ax) : R :=
  ent m a AX * vx v + ent m a AY * vy v + ent m a AZ * vz v.
Definition vec_of (f : Ax -> R) : V3 R := mkV (f AX) (f AY) (f AZ).

(** Quaternions as rotations: the standard rotation matrix. *)
Definition unitq (q : Quat R) : Prop := qw q ^ 2 + qx q ^ 2 + qy q ^ 2 + qz q ^ 2 = 1.
Definition nonzeroq (q : Quat R) : Prop := 0 < qw q ^ 2 + qx q ^ 2 + qy q ^ 2 + qz q ^ 2.
Definition rot_entry (q : Quat R) (a b : Ax) : R :=
  let w := qw q in let x := qx q in let y := qy q in let z := qz q in
  match a, b with
  | AX, AX => 1 - 2 * (y ^ 2 + z ^ 2) | AX, AY => 2 * (x * y - w * z) | AX, AZ => 2 * (x * z + w * y)
  | AY, AX => 2 * (x * y + w * z) | AY, AY => 1 - 2 * (x ^ 2 + z ^ 2) | AY, AZ => 2 * (y * z - w * x)
  | AZ, AX => 2 * (x * z - w * y) | AZ, AY => 2 * (y * z + w * x) | AZ, AZ => 1 - 2 * (x ^ 2 + y ^ 2)
  end.
(** Body vector expressed in the world frame. *)
Definition to_world (q : Quat R) (v : V3 R) (a : Ax) : R :=
  rot_entry q a AX * vx v + rot_entry q a AY * vy v + rot_entry q a AZ * vz v.
(** World vector expressed in the body frame (transposed matrix). *)
Definition to_body (q : Quat R) (v : V3 R) (a : Ax) : R :=
  rot_entry q AX a * vx v + rot_entry q AY a * vy v + rot_entry q AZ a * vz v.

(** Rotors: thrust is quadratic in speed and keeps the sign of the speed. *)
Definition sq_signed (w : R) : R := w * Rabs w.
Fixpoint rotor_sum (f : Motor R -> R -> R) (ms : list (Motor R)) (ws : list R) : R :=
  match ms, ws with
  | m :: ms', w :: ws' => f m w + rotor_sum f ms' ws'
  | _, _ => 0
  end.
Definition rotor_axis (m : Motor R) : V3 R := mkV (m02 (mt_rot m)) (m12 (mt_rot m)) (m22 (mt_rot m)).
(** Total rotor force in the body frame. *)
Definition rotor_force (ms : list (Motor R)) (ws : list R) (a : Ax) : R :=
  rotor_sum (fun m w => mt_kf m * sq_signed w * pr a (rotor_axis m)) ms ws.
(** Total rotor torque in the body frame: lever arms, drag torque, and reaction
    to the rotors' angular acceleration [acc]. *)
Definition rotor_torque (ms : list (Motor R)) (ws acc : list R) (a : Ax) : R :=
  rotor_sum (fun m w => mt_kf m * sq_signed w * cross3 (mt_pos m) (rotor_axis m) a
                        + IZR (mt_dir m) * mt_kt m * sq_signed w * pr a (rotor_axis m)) ms ws
  + rotor_sum (fun m al => IZR (mt_dir m) * mt_J m * al * pr a (rotor_axis m)) ms acc.

(** Quadratic drag per world axis, quadratic aerodynamic moment. *)
Definition drag_spec (c : R) (v : V3 R) (a : Ax) : R := - c * sq_signed (pr a v).
Definition aero_spec (C : M3 R) (w : V3 R) (a : Ax) : R := - len3 w * mat_vec C w a.

(** Desired rotor speed after limiting to [lo, hi]. *)
Definition limited (x lo hi : R) : R := Rmax lo (Rmin x hi).
Definition det3 (m : M3 R) : R :=
  m00 m * m11 m * m22 m + m01 m * m12 m * m20 m + m02 m * m10 m * m21 m
  - m02 m * m11 m * m20 m - m01 m * m10 m * m22 m - m00 m * m12 m * m21 m.

(** Speed limits in any arithmetic: neither below the minimum nor above the
    maximum of the motor with the same index. *)
Definition speeds_ok {T} {O : Ops T} (ms : list (Motor T)) (w : list T) : Prop :=
  forall i x, nth_error w i = Some x ->
  exists m, nth_error ms i = Some m /\ ltb x (mt_min m) = false /\ ltb (mt_max m) x = false.
(** The same over the reals. *)
Definition speeds_between (ms : list (Motor R)) (w : list R) : Prop :=
  forall i x, nth_error w i = Some x ->
  exists m, nth_error ms i = Some m /\ mt_min m <= x <= mt_max m.
