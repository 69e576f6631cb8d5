(** Sequences of calls on the dynamics object. *)

From Coq Require Import ZArith List Bool Reals.
From Verif Require Import Scalar LinAlg MUtils MModel MDynamics SpecDyn.
Import ListNotations.

(** One call of process_euler_explicit. *)
Record Call (T : Type) := mkCall { k_act : list T; k_dt : T; k_ext : V3 T; k_noise : bool }.
Arguments mkCall {T}. Arguments k_act {T}. Arguments k_dt {T}. Arguments k_ext {T}. Arguments k_noise {T}.

(** The same call with noise disabled. *)
Definition quiet (c : Call R) : Call R := mkCall (k_act c) (k_dt c) (k_ext c) false.

(** The caller may catch the exception and go on. *)
Fixpoint dyn_run {T} {O : Ops T} {G : Gen T} (d : Dyn T G) (l : list (Call T)) : option (Dyn T G) :=
  match l with
  | [] => Some d
  | c :: r => match process d (k_act c) (k_dt c) (k_ext c) (k_noise c) with
              | Ok d' => dyn_run d' r | Throw d' => dyn_run d' r | UB => None end
  end.

(** The same parameters with another moment-noise auto-correlation. *)
Definition set_mnoise {T} (p : Params T) (x : T) : Params T :=
  mkParams (p_motors p) (p_mass p) (p_inertia p) (p_drag p) (p_aero p) (p_grav p) (p_fnoise p) x.

(** Two optional results related by [R]; both undefined or both defined. *)
Definition both {A B} (R : A -> B -> Prop) (x : option A) (y : option B) : Prop :=
  match x, y with Some a, Some b => R a b | None, None => True | _, _ => False end.

(** A state moved by a displacement. *)
Definition moved (s : State R) (dx : V3 R) : State R :=
  mkState (mkV (vx (s_pos s) + vx dx)%R (vy (s_pos s) + vy dx)%R (vz (s_pos s) + vz dx)%R)
    (s_ori s) (s_vel s) (s_angvel s) (s_linacc s) (s_angacc s) (s_force s) (s_torque s) (s_mvel s) (s_macc s).

(** k-fold iteration of a body that may throw or be undefined. *)
Fixpoint oiter {A} (k : nat) (body : A -> outcome A) (a : A) : outcome A :=
  match k with
  | O => Ok a
  | S k' => match body a with Ok y => oiter k' body y | Throw y => Throw y | UB => UB end
  end.

(** Order facts about the arithmetic, proved for the reals and for binary64. *)
Record Sane {T} (O : Ops T) : Prop := {
  sane_irrefl : Irrefl O;
  sane_dtmax : leb (dtmax : T) zero = false;
  sane_quot : forall dt : T, ltb dtmax dt = true -> ltb (ofZ 0) (div dt dtmax) = true
}.

(** Model objects obtainable through the public interface. *)
Inductive ModelReach {T} {O : Ops T} {G : Gen T} (n : nat) : ModelObj T G -> Prop :=
| mr_new p seed mo : model_new n p seed = Some mo -> ModelReach n mo
| mr_update mo p mo' : ModelReach n mo -> update_params n mo p = Some mo' -> ModelReach n mo'
| mr_noise mo dt mo' : ModelReach n mo -> set_noise mo dt = Some mo' -> ModelReach n mo'
| mr_disable mo : ModelReach n mo -> ModelReach n (disable_noise mo).

(** A vehicle obtained through the interface whose vectors have the right size. *)
Definition vehicle {T} {O : Ops T} {G : Gen T} (n : nat) (d : Dyn T G) (act : list T) (p : Params T) : Prop :=
  ModelReach n (d_model d) /\ get_params (d_model d) = Some p /\
  length act = n /\ length (s_mvel (d_state d)) = n.

Local Open Scope R_scope.

(** Nothing accelerates the vehicle. *)
Definition coasting (p : Params R) : Prop :=
  p_grav p = mkV 0 0 0 /\ p_drag p = 0 /\ forall m, In m (p_motors p) -> mt_kf m = 0.

(** At rest, rotors at the commanded speeds, forces and moments balanced. *)
Definition in_equilibrium (p : Params R) (s : State R) (act : list R) : Prop :=
  s_vel s = mkV 0 0 0 /\ s_angvel s = mkV 0 0 0 /\ unitq (s_ori s) /\
  act = s_mvel s /\ speeds_between (p_motors p) act /\
  (forall a, to_world (s_ori s) (vec_of (rotor_force (p_motors p) act)) a + pr a (p_grav p) = 0) /\
  (forall a, rotor_torque (p_motors p) act (repeat 0 (length act)) a = 0).
