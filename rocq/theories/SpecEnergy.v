(** Specification vocabulary: energy and momentum of a rigid body. *)

From Coq Require Import ZArith List Bool Reals.
From Verif Require Import Scalar LinAlg MUtils MModel MDynamics SpecDyn SpecRun SpecMotion.
Import ListNotations.
Local Open Scope R_scope.

(** Kinetic energy of a mass, potential energy in a constant force, energy and
    angular momentum (body axes) of a turning body. *)
Definition kinetic (m : R) (v : V3 R) : R := m * dot3 v v / 2.
Definition potential (F x : V3 R) : R := - dot3 F x.
Definition momentum (I : M3 R) (w : V3 R) : V3 R := vec_of (mat_vec I w).
Definition spin_energy (I : M3 R) (w : V3 R) : R := dot3 w (momentum I w) / 2.
(** Angular momentum along the world axes. *)
Definition world_momentum (I : M3 R) (s : State R) : V3 R := vec_of (to_world (s_ori s) (momentum I (s_angvel s))).

Definition symmetric (I : M3 R) : Prop := forall a b, ent I a b = ent I b a.
(** Principal moments between [lo] and [hi]. *)
Definition moments_between (I : M3 R) (lo hi : R) : Prop :=
  symmetric I /\ 0 < lo /\ forall v, lo * dot3 v v <= dot3 v (momentum I v) <= hi * dot3 v v.

(** No aerodynamic moment. *)
Definition no_air_moment (p : Params R) : Prop := det3 (p_inertia p) <> 0 /\ forall a b, ent (p_aero p) a b = 0.
Definition mean (u v : V3 R) : V3 R := vec_of (fun a => (pr a u + pr a v) / 2).
Definition together (u v : V3 R) : V3 R := vec_of (fun a => pr a u + pr a v).
