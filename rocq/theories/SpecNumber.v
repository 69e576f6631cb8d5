(** Specification vocabulary for binary64: numbers of reasonable size. *)

From Coq Require Import ZArith Bool List Reals.
From Flocq Require Import Core BinarySingleNaN.
From Verif Require Import Scalar Float64 LinAlg MUtils MModel MDynamics SpecDyn SpecRun SpecRound.
Local Open Scope R_scope.

(** A finite double of magnitude at most 2^e; at least 2^g. *)
Definition upto (e : Z) (x : b64) : Prop := fin x /\ Rabs (val x) <= bpow radix2 e.
Definition atleast (g : Z) (x : b64) : Prop := fin x /\ bpow radix2 g <= val x.
Definition upto3 (e : Z) (v : V3 b64) : Prop := upto e (vx v) /\ upto e (vy v) /\ upto e (vz v).
Definition upto9 (e : Z) (m : M3 b64) : Prop :=
  upto3 e (mkV (m00 m) (m01 m) (m02 m)) /\ upto3 e (mkV (m10 m) (m11 m) (m12 m)) /\ upto3 e (mkV (m20 m) (m21 m) (m22 m)).

(** Rotor parameters between 2^-64 (time constant) and 2^64, direction one way or the other. *)
Definition reasonable_motor (m : Motor b64) : Prop :=
  (mt_dir m = 1%Z \/ mt_dir m = (-1)%Z) /\ upto 64 (mt_kf m) /\ upto 64 (mt_kt m) /\ upto9 64 (mt_rot m) /\ upto3 64 (mt_pos m) /\
  upto 64 (mt_min m) /\ upto 64 (mt_max m) /\ atleast (-64) (mt_tau m) /\ upto 64 (mt_J m).
(** Such rotors, a mass and a diagonal inertia of at least 2^-64, noise
    intensity not negative, and nothing above 2^64. *)
Definition reasonable_params (p : Params b64) : Prop :=
  Forall reasonable_motor (p_motors p) /\
  atleast (-64) (p_mass p) /\
  (exists a b c z, p_inertia p = mkM a z z z b z z z c /\ val z = 0 /\ fin z /\
     (atleast (-64) a /\ atleast (-64) b /\ atleast (-64) c) /\ upto 64 a /\ upto 64 b /\ upto 64 c) /\
  upto 64 (p_drag p) /\ upto9 64 (p_aero p) /\ upto3 64 (p_grav p) /\
  (upto 64 (p_fnoise p) /\ 0 <= val (p_fnoise p)).
(** A state without NaN or infinity; one with nothing above 2^64 and an
    orientation of squared length between 1/2 and 3/2. *)
Definition numbers (s : State b64) : Prop :=
  finv (s_pos s) /\ finq (s_ori s) /\ finv (s_vel s) /\ finv (s_angvel s) /\ finv (s_linacc s) /\ finv (s_angacc s) /\
  finv (s_force s) /\ finv (s_torque s) /\ Forall fin (s_mvel s) /\ Forall fin (s_macc s).
Definition reasonable_state (s : State b64) : Prop :=
  upto3 64 (s_pos s) /\ unit_within (1/2) (s_ori s) /\ upto3 64 (s_vel s) /\ upto3 64 (s_angvel s) /\ Forall (upto 64) (s_mvel s).
(** Normal variates of reasonable size. *)
Definition reasonable_gen (G : Gen b64) : Prop := forall (e : g_eng G) (d : g_dist G), upto 64 (fst (g_draw G e d)).
(** One call with inputs that are numbers: commands that are not NaN, an external force
    of at most 2^64, a step above zero; with noise, of at least 2^-64. *)
Definition reasonable_call (c : Call b64) : Prop :=
  Forall (fun x => is_nan x = false) (k_act c) /\ upto3 64 (k_ext c) /\
  fin (k_dt c) /\ 0 < val (k_dt c) /\ (k_noise c = true -> bpow radix2 (-64) <= val (k_dt c)).
(** During the call no state made of numbers exceeds 2^64: not the state at the start,
    and for a long step not the one before an internal step of 10 ms. *)
Definition in_range (L : Libm) {G : Gen b64} (d : Dyn b64 G) (c : Call b64) : Prop :=
  (numbers (d_state d) -> reasonable_state (d_state d)) /\
  (@ltb _ (F64Ops L) (@dtmax _ (F64Ops L)) (k_dt c) = true ->
   forall k (x : Dyn b64 G),
   oiter k (fun y => @process _ (F64Ops L) _ y (k_act c) (@dtmax _ (F64Ops L)) (k_ext c) (k_noise c)) d = Ok x ->
   numbers (d_state x) -> reasonable_state (d_state x)).
Fixpoint run_in_range (L : Libm) {G : Gen b64} (d : Dyn b64 G) (l : list (Call b64)) : Prop :=
  match l with
  | nil => True
  | cons c r =>
      reasonable_call c /\ in_range L d c /\
      match @process _ (F64Ops L) _ d (k_act c) (k_dt c) (k_ext c) (k_noise c) with
      | Ok d' => run_in_range L d' r
      | _ => True
      end
  end.
