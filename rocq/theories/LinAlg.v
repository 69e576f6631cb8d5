(** Vectors, matrices and quaternions with the operations the library takes
    from Eigen.  Sums are evaluated left to right (a modelling choice that is
    visible only through rounding). *)

From Coq Require Import ZArith List Bool.
From Verif Require Import Scalar.
Import ListNotations.

Record V3 (T : Type) := mkV { vx : T; vy : T; vz : T }.
Arguments mkV {T}. Arguments vx {T}. Arguments vy {T}. Arguments vz {T}.

(** Eigen::Quaternion, Hamilton convention, w is the real part. *)
Record Quat (T : Type) := mkQ { qw : T; qx : T; qy : T; qz : T }.
Arguments mkQ {T}. Arguments qw {T}. Arguments qx {T}. Arguments qy {T}. Arguments qz {T}.

(** 3x3 matrix by rows: [m_ij] is row i, column j. *)
Record M3 (T : Type) := mkM {
  m00 : T; m01 : T; m02 : T;
  m10 : T; m11 : T; m12 : T;
  m20 : T; m21 : T; m22 : T }.
Arguments mkM {T}.
Arguments m00 {T}. Arguments m01 {T}. Arguments m02 {T}.
Arguments m10 {T}. Arguments m11 {T}. Arguments m12 {T}.
Arguments m20 {T}. Arguments m21 {T}. Arguments m22 {T}.

(** 4-vector and 4x4 matrix by rows. *)
Record V4 (T : Type) := mkV4 { v4a : T; v4b : T; v4c : T; v4d : T }.
Arguments mkV4 {T}. Arguments v4a {T}. Arguments v4b {T}. Arguments v4c {T}. Arguments v4d {T}.
Record M4 (T : Type) := mkM4 { r4a : V4 T; r4b : V4 T; r4c : V4 T; r4d : V4 T }.
Arguments mkM4 {T}. Arguments r4a {T}. Arguments r4b {T}. Arguments r4c {T}. Arguments r4d {T}.

Section Ops.
Context {T : Type} {O : Ops T}.
Local Open Scope sc_scope.

Definition vmap (f : T -> T) (a : V3 T) : V3 T := mkV (f (vx a)) (f (vy a)) (f (vz a)).
Definition vmap2 (f : T -> T -> T) (a b : V3 T) : V3 T :=
  mkV (f (vx a) (vx b)) (f (vy a) (vy b)) (f (vz a) (vz b)).

Definition v0 : V3 T := mkV zero zero zero.                  (* Vector3::Zero() *)
Definition v1 : V3 T := mkV one one one.                     (* Vector3::Ones() *)
Definition vadd : V3 T -> V3 T -> V3 T := vmap2 add.
Definition vsub : V3 T -> V3 T -> V3 T := vmap2 sub.
Definition vneg : V3 T -> V3 T := vmap neg.
Definition vcmul : V3 T -> V3 T -> V3 T := vmap2 mul.        (* cwiseProduct *)
Definition vscale (k : T) : V3 T -> V3 T := vmap (fun x => k * x).   (* k * v *)
Definition vscaler (a : V3 T) (k : T) : V3 T := vmap (fun x => x * k) a.  (* v * k *)
Definition vdiv (a : V3 T) (k : T) : V3 T := vmap (fun x => x / k) a.    (* v / k *)
Definition vdot (a b : V3 T) : T := vx a * vx b + vy a * vy b + vz a * vz b.
Definition vcross (a b : V3 T) : V3 T :=
  mkV (vy a * vz b - vz a * vy b) (vz a * vx b - vx a * vz b) (vx a * vy b - vy a * vx b).
Definition vsqn (a : V3 T) : T := vdot a a.                  (* squaredNorm *)
Definition vnorm (a : V3 T) : T := sqrtT (vsqn a).           (* norm *)
(** Eigen normalized(): divides by the norm if the squared norm is positive,
    otherwise returns the vector unchanged. *)
Definition vnormalized (a : V3 T) : V3 T :=
  let z := vsqn a in if zero <? z then vdiv a (sqrtT z) else a.
(** Eigen operator== on vectors (all coefficients equal). *)
Definition veqb (a b : V3 T) : bool := (vx a =? vx b) && (vy a =? vy b) && (vz a =? vz b).

Definition mmulv (m : M3 T) (v : V3 T) : V3 T :=
  mkV (m00 m * vx v + m01 m * vy v + m02 m * vz v)
      (m10 m * vx v + m11 m * vy v + m12 m * vz v)
      (m20 m * vx v + m21 m * vy v + m22 m * vz v).
Definition mtrans (m : M3 T) : M3 T :=
  mkM (m00 m) (m10 m) (m20 m) (m01 m) (m11 m) (m21 m) (m02 m) (m12 m) (m22 m).
Definition mcol0 (m : M3 T) := mkV (m00 m) (m10 m) (m20 m).
Definition mcol1 (m : M3 T) := mkV (m01 m) (m11 m) (m21 m).
Definition mcol2 (m : M3 T) := mkV (m02 m) (m12 m) (m22 m).
Definition mofcols (a b c : V3 T) : M3 T :=
  mkM (vx a) (vx b) (vx c) (vy a) (vy b) (vy c) (vz a) (vz b) (vz c).
Definition mmul (a b : M3 T) : M3 T :=
  mofcols (mmulv a (mcol0 b)) (mmulv a (mcol1 b)) (mmulv a (mcol2 b)).
Definition msub (a b : M3 T) : M3 T :=
  mkM (m00 a - m00 b) (m01 a - m01 b) (m02 a - m02 b)
      (m10 a - m10 b) (m11 a - m11 b) (m12 a - m12 b)
      (m20 a - m20 b) (m21 a - m21 b) (m22 a - m22 b).
Definition mdiag (a b c : T) : M3 T :=
  mkM a zero zero zero b zero zero zero c.
Definition mI : M3 T := mdiag one one one.                   (* Matrix3::Identity() *)
Definition mzero : M3 T := mdiag zero zero zero.             (* Matrix3::Zero() *)

(** Eigen bruteforce_det3_helper and determinant of a 3x3 matrix. *)
Definition mdet (m : M3 T) : T :=
  m00 m * (m11 m * m22 m - m12 m * m21 m)
  - m01 m * (m10 m * m22 m - m12 m * m20 m)
  + m02 m * (m10 m * m21 m - m11 m * m20 m).

(** Eigen inverse of a 3x3 matrix: cofactors times the reciprocal of the
    determinant; a singular matrix divides by zero. *)
Definition minv (m : M3 T) : M3 T :=
  let c00 := m11 m * m22 m - m12 m * m21 m in
  let c10 := m21 m * m02 m - m22 m * m01 m in
  let c20 := m01 m * m12 m - m02 m * m11 m in
  let d := one / (c00 * m00 m + c10 * m10 m + c20 * m20 m) in
  mkM (c00 * d) (c10 * d) (c20 * d)
      ((m12 m * m20 m - m10 m * m22 m) * d)
      ((m22 m * m00 m - m20 m * m02 m) * d)
      ((m02 m * m10 m - m00 m * m12 m) * d)
      ((m10 m * m21 m - m11 m * m20 m) * d)
      ((m20 m * m01 m - m21 m * m00 m) * d)
      ((m00 m * m11 m - m01 m * m10 m) * d).

(** Eigen inverse of a 4x4 matrix: transposed cofactors over the determinant
    (expansion along the first row).  Eigen's vectorised variant computes the
    same quotient in another order. *)
Definition m4cof (a b c : V4 T) : V4 T :=
  (* signed 3x3 minors of the rows a, b, c, one per omitted column *)
  mkV4 (mdet (mkM (v4b a) (v4c a) (v4d a) (v4b b) (v4c b) (v4d b) (v4b c) (v4c c) (v4d c)))
       (neg (mdet (mkM (v4a a) (v4c a) (v4d a) (v4a b) (v4c b) (v4d b) (v4a c) (v4c c) (v4d c))))
       (mdet (mkM (v4a a) (v4b a) (v4d a) (v4a b) (v4b b) (v4d b) (v4a c) (v4b c) (v4d c)))
       (neg (mdet (mkM (v4a a) (v4b a) (v4c a) (v4a b) (v4b b) (v4c b) (v4a c) (v4b c) (v4c c)))).
Definition v4dot (a b : V4 T) : T :=
  v4a a * v4a b + v4b a * v4b b + v4c a * v4c b + v4d a * v4d b.
Definition v4neg (a : V4 T) : V4 T := mkV4 (neg (v4a a)) (neg (v4b a)) (neg (v4c a)) (neg (v4d a)).
Definition m4det (m : M4 T) : T := v4dot (r4a m) (m4cof (r4b m) (r4c m) (r4d m)).
Definition m4inv (m : M4 T) : M4 T :=
  let c0 := m4cof (r4b m) (r4c m) (r4d m) in
  let c1 := v4neg (m4cof (r4a m) (r4c m) (r4d m)) in
  let c2 := m4cof (r4a m) (r4b m) (r4d m) in
  let c3 := v4neg (m4cof (r4a m) (r4b m) (r4c m)) in
  let d := v4dot (r4a m) c0 in
  let row f := mkV4 (f c0 / d) (f c1 / d) (f c2 / d) (f c3 / d) in
  mkM4 (row v4a) (row v4b) (row v4c) (row v4d).

Definition q1 : Quat T := mkQ one zero zero zero.            (* Identity() *)
Definition qvec (q : Quat T) : V3 T := mkV (qx q) (qy q) (qz q).
Definition qmul (a b : Quat T) : Quat T :=
  mkQ (qw a * qw b - qx a * qx b - qy a * qy b - qz a * qz b)
      (qw a * qx b + qx a * qw b + qy a * qz b - qz a * qy b)
      (qw a * qy b + qy a * qw b + qz a * qx b - qx a * qz b)
      (qw a * qz b + qz a * qw b + qx a * qy b - qy a * qx b).
Definition qsqn (q : Quat T) : T :=
  qx q * qx q + qy q * qy q + qz q * qz q + qw q * qw q.
Definition qmap (f : T -> T) (q : Quat T) : Quat T :=
  mkQ (f (qw q)) (f (qx q)) (f (qy q)) (f (qz q)).
Definition qadd (a b : Quat T) : Quat T :=
  mkQ (qw a + qw b) (qx a + qx b) (qy a + qy b) (qz a + qz b).
(** Eigen normalize()/normalized() on quaternions (same guard as vectors). *)
Definition qnormalized (q : Quat T) : Quat T :=
  let z := qsqn q in if zero <? z then qmap (fun x => x / sqrtT z) q else q.
Definition qconj (q : Quat T) : Quat T := mkQ (qw q) (neg (qx q)) (neg (qy q)) (neg (qz q)).
(** Eigen inverse(): conjugate / squaredNorm, or the zero quaternion. *)
Definition qinv (q : Quat T) : Quat T :=
  let n2 := qsqn q in
  if zero <? n2 then qmap (fun x => x / n2) (qconj q) else mkQ zero zero zero zero.
(** Eigen _transformVector: q * v. *)
Definition qrot (q : Quat T) (v : V3 T) : V3 T :=
  let uv0 := vcross (qvec q) v in
  let uv := vadd uv0 uv0 in
  vadd (vadd v (vscale (qw q) uv)) (vcross (qvec q) uv).
(** Eigen toRotationMatrix(). *)
Definition qmat (q : Quat T) : M3 T :=
  let tx := ofZ 2 * qx q in let ty := ofZ 2 * qy q in let tz := ofZ 2 * qz q in
  let twx := tx * qw q in let twy := ty * qw q in let twz := tz * qw q in
  let txx := tx * qx q in let txy := ty * qx q in let txz := tz * qx q in
  let tyy := ty * qy q in let tyz := tz * qy q in let tzz := tz * qz q in
  mkM (one - (tyy + tzz)) (txy - twz) (txz + twy)
      (txy + twz) (one - (txx + tzz)) (tyz - twx)
      (txz - twy) (tyz + twx) (one - (txx + tyy)).

(** Componentwise sum of a list of vectors, left to right. *)
Definition vsum (l : list (V3 T)) : V3 T :=
  match l with [] => v0 | x :: r => fold_left vadd r x end.

(** Matrix (list of columns) times vector (list of coefficients), 3xN * N. *)
Definition colsmul (cols : list (V3 T)) (x : list T) : V3 T :=
  vsum (map (fun cx => vscaler (fst cx) (snd cx)) (combine cols x)).

(** Dot product of two dynamic vectors. *)
Definition ldot (a b : list T) : T :=
  sumT (map (fun ab => fst ab * snd ab) (combine a b)).

(** Elementwise operations on rotor vectors. *)
Definition lmap2 (f : T -> T -> T) (a b : list T) : list T :=
  map (fun ab => f (fst ab) (snd ab)) (combine a b).
Definition ladd := lmap2 add.

End Ops.
