(** Scalars: the table of operations that the C++ code performs on its
    floating-point template parameter [P], and the outcome of a C++ call.

    [Ops] contains operations only.  It has no law fields, so a statement
    quantified over [Ops] holds for exact reals, for IEEE doubles with NaN and
    infinities, and for anything else. *)

From Coq Require Import ZArith List Bool.
From Coq Require Import Reals.
Import ListNotations.

Class Ops (T : Type) := {
  ofZ : Z -> T;               (* integer literal converted to P *)
  add : T -> T -> T;
  sub : T -> T -> T;
  mul : T -> T -> T;
  div : T -> T -> T;
  neg : T -> T;               (* unary minus *)
  absT : T -> T;              (* std::abs *)
  sqrtT : T -> T;             (* std::sqrt *)
  ltb : T -> T -> bool;       (* x < y   (and y > x) *)
  leb : T -> T -> bool;       (* x <= y  (and y >= x) *)
  eqb : T -> T -> bool;       (* x == y *)
  signbitT : T -> bool;       (* std::signbit *)
  sinT : T -> T;
  cosT : T -> T;
  asinT : T -> T;
  atan2T : T -> T -> T;
  piT : T;                    (* M_PI *)
}.

Declare Scope sc_scope.
Delimit Scope sc_scope with sc.
Infix "+" := add : sc_scope.
Infix "-" := sub : sc_scope.
Infix "*" := mul : sc_scope.
Infix "/" := div : sc_scope.
Infix "<?" := ltb : sc_scope.
Infix "<=?" := leb : sc_scope.
Infix "=?" := eqb : sc_scope.

Section Generic.
Context {T : Type} {O : Ops T}.
Local Open Scope sc_scope.

Definition zero : T := ofZ 0.
Definition one : T := ofZ 1.
Definition mone : T := ofZ (-1).

(** A decimal literal such as [0.5] or [9.81]: quotient of two integers.  In
    binary64 both integers used below are exact and the quotient is correctly
    rounded, so this is the double denoted by the literal. *)
Definition lit (n d : Z) : T := ofZ n / ofZ d.

(** std::numeric_limits<double>::epsilon(). *)
Definition eps : T := lit 1 (2 ^ 52).

Definition half : T := lit 1 2.

(** std::max(a, b) is [(a < b) ? b : a]; std::copysign. *)
Definition copysignT (m s : T) : T := if signbitT s then neg (absT m) else absT m.

(** Eigen's array sign: [(0 < x) - (x < 0)], and hence 0 for NaN and zeros. *)
Definition signT (x : T) : T :=
  if zero <? x then one else if x <? zero then mone else zero.

(** Left-to-right sum of a list (Eigen reduction; order is a modelling choice
    that matters only to rounding). *)
Definition sumT (l : list T) : T :=
  match l with [] => zero | x :: r => fold_left add r x end.

End Generic.

(** Irreflexivity of [<], the single order fact the order-generic theorems
    use.  True of reals and of IEEE doubles (NaN included). *)
Definition Irrefl {T} (O : Ops T) : Prop := forall x : T, ltb x x = false.

(** ** Outcomes of C++ member functions *)

Inductive outcome (A : Type) : Type :=
| Ok (a : A)          (* normal return *)
| Throw (a : A)       (* exception; [a] is the object state at the throw *)
| UB.                 (* undefined behaviour *)
Arguments Ok {A} a.
Arguments Throw {A} a.
Arguments UB {A}.

Definition obind {A B} (x : outcome A) (f : A -> outcome B) (g : A -> B) : outcome B :=
  match x with Ok a => f a | Throw a => Throw (g a) | UB => UB end.

Definition omap {A B} (f : A -> B) (x : outcome A) : outcome B :=
  match x with Ok a => Ok (f a) | Throw a => Throw (f a) | UB => UB end.

(** An [option] value is used for "defined result or undefined behaviour"
    of functions that cannot throw ([None] = undefined behaviour). *)
Definition bindo {A B} (x : option A) (f : A -> option B) : option B :=
  match x with Some a => f a | None => None end.

Fixpoint map_opt {A B} (f : A -> option B) (l : list A) : option (list B) :=
  match l with
  | [] => Some []
  | x :: r => bindo (f x) (fun y => bindo (map_opt f r) (fun ys => Some (y :: ys)))
  end.

(** std::clamp(v, lo, hi): undefined if [hi < lo] ([alg.clamp]); otherwise
    [(v < lo) ? lo : (hi < v) ? hi : v]. *)
Definition clamp {T} {O : Ops T} (v lo hi : T) : option T :=
  if ltb hi lo then None
  else Some (if ltb v lo then lo else if ltb hi v then hi else v).

(** ** Exact reals *)

Local Open Scope R_scope.

Definition Rltb (x y : R) : bool := if Rlt_dec x y then true else false.
Definition Rleb (x y : R) : bool := if Rle_dec x y then true else false.
Definition Reqb (x y : R) : bool := if Req_EM_T x y then true else false.

(** atan2 with the usual C library case split (a real zero is read as +0). *)
Definition Ratan2 (y x : R) : R :=
  if Rlt_dec 0 x then atan (y / x)
  else if Rlt_dec x 0 then
    (if Rle_dec 0 y then atan (y / x) + PI else atan (y / x) - PI)
  else if Rlt_dec 0 y then PI / 2
  else if Rlt_dec y 0 then - (PI / 2)
  else 0.

#[export] Instance ROps : Ops R := {|
  ofZ := IZR; add := Rplus; sub := Rminus; mul := Rmult; div := Rdiv;
  neg := Ropp; absT := Rabs; sqrtT := sqrt;
  ltb := Rltb; leb := Rleb; eqb := Reqb;
  signbitT := fun x => Rltb x 0;
  sinT := sin; cosT := cos; asinT := asin; atan2T := Ratan2; piT := PI
|}.
