(** Specification vocabulary for the flight controllers, written over the
    reals and independently of the functions of the model. *)

From Coq Require Import ZArith List Bool Reals.
From Verif Require Import Scalar LinAlg MUtils MModel MPid MControl MCtlRun SpecDyn SpecPid.
Import ListNotations.

(** Controllers that a user can hold, for a vehicle with [n] rotors. *)
Definition CtlReached {T} {O : Ops T} (n : nat) (c : Ctl T) : Prop :=
  exists p ops, c = ctl_run (ctl_new n p) ops.
(** The operations that turn a desired acceleration into thrust and rates. *)
Definition uses_acc {T} (op : CtlOp T) : bool :=
  match op with CAcc _ _ _ _ _ | CTraj _ _ _ _ _ _ _ _ _ | CVel _ _ _ _ _ _ | CPos _ _ _ _ _ _ _ => true | _ => false end.
(** The attitude given to such an operation. *)
Definition att_of {T} {O : Ops T} (op : CtlOp T) : M3 T :=
  match op with
  | CAcc R _ _ _ _ => R | CTraj _ _ R _ _ _ _ _ _ => R | CVel _ R _ _ _ _ => R | CPos _ R _ _ _ _ _ => R
  | _ => mI end.
Definition yaw_of {T} {O : Ops T} (op : CtlOp T) : T :=
  match op with
  | CAcc _ _ _ y _ => y | CTraj _ _ _ _ _ _ _ y _ => y | CVel _ _ _ _ y _ => y | CPos _ _ _ _ _ y _ => y
  | _ => zero end.

Local Open Scope R_scope.

Definition col (m : M3 R) (b : Ax) : V3 R := mkV (ent m AX b) (ent m AY b) (ent m AZ b).
(** Rotation matrix: orthonormal columns, right handed. *)
Definition rotation (m : M3 R) : Prop :=
  (forall a b, dot3 (col m a) (col m b) = match a, b with AX, AX | AY, AY | AZ, AZ => 1 | _, _ => 0 end) /\
  det3 m = 1.
(** Rotation by [psi] about the vertical. *)
Definition rot_z (psi : R) : M3 R := mkM (cos psi) (- sin psi) 0 (sin psi) (cos psi) 0 0 0 1.
(** Heading in the horizontal plane. *)
Definition heading (yaw : R) : V3 R := mkV (cos yaw) (sin yaw) 0.
Definition parallel (u v : V3 R) : Prop := forall a, cross3 u v a = 0.

(** The attitude that points the thrust along [t] and the nose along [yaw]:
    a rotation whose third axis is the direction of [t], whose second axis is
    orthogonal to the heading, and whose first axis is on the heading's side. *)
Definition desired_frame (yaw : R) (t : V3 R) (Rd : M3 R) : Prop :=
  rotation Rd /\
  (forall a, len3 t * pr a (col Rd AZ) = pr a t) /\
  dot3 (col Rd AY) (heading yaw) = 0 /\
  0 < dot3 (col Rd AX) (heading yaw).

(** Attitude error as a vector: half the axial vector of
    [Rd^T R - R^T Rd]. *)
Definition axis_err (Rd A : M3 R) (a : Ax) : R :=
  match a with
  | AX => (dot3 (col Rd AZ) (col A AY) - dot3 (col A AZ) (col Rd AY)) / 2
  | AY => (dot3 (col Rd AX) (col A AZ) - dot3 (col A AX) (col Rd AZ)) / 2
  | AZ => (dot3 (col Rd AY) (col A AX) - dot3 (col A AY) (col Rd AX)) / 2
  end.
(** Body rates of a proportional attitude law with gain matrix [K]. *)
Definition prop_rates (K Rd A : M3 R) (a : Ax) : R := - mat_vec K (vec_of (axis_err Rd A)) a.

(** Force needed for an acceleration, and its part along the body z axis. *)
Definition needed_force (m : R) (g acc : V3 R) : V3 R :=
  mkV (m * (vx acc - vx g)) (m * (vy acc - vy g)) (m * (vz acc - vz g)).
(** Force needed for the acceleration that the controller settles on. *)
Definition force_of (c : Ctl R) (op : CtlOp R) : V3 R :=
  needed_force (ac_mass (ct_acro c)) (ac_grav (ct_acro c)) (get_desired_linear_acceleration (ctl_step c op)).
Definition along_z (A : M3 R) (f : V3 R) : R := dot3 f (col A AZ) / len3 (col A AZ).

(** Attitude mismatch: zero iff the attitudes agree (for rotations). *)
Definition mismatch (Rd A : M3 R) : R :=
  3 - (dot3 (col Rd AX) (col A AX) + dot3 (col Rd AY) (col A AY) + dot3 (col Rd AZ) (col A AZ)).
(** A path of attitudes turning with body rate [w] at time [t]. *)
Definition turning (path : R -> M3 R) (t : R) (w : V3 R) : Prop :=
  forall a,
  derivable_pt_lim (fun s => ent (path s) a AX) t (vz w * ent (path t) a AY - vy w * ent (path t) a AZ) /\
  derivable_pt_lim (fun s => ent (path s) a AY) t (vx w * ent (path t) a AZ - vz w * ent (path t) a AX) /\
  derivable_pt_lim (fun s => ent (path s) a AZ) t (vy w * ent (path t) a AX - vx w * ent (path t) a AY).

(** A PID whose settings let a zero output through: limits around zero when
    saturation is on, and no negative anti-windup. *)
Definition rests (p : Pid R) : Prop :=
  (pid_sat_on p = true -> around_zero (fst (pid_limits p)) (snd (pid_limits p))) /\
  forall a, 0 <= pr a (pid_aw p).
(** A PID without memory: about to start over, or with nothing accumulated. *)
Definition calm (p : Pid R) : Prop :=
  ps_first (pid_s p) = true \/
  ps_acc (pid_s p) = mkV 0 0 0 /\ ps_filt (pid_s p) = mkV 0 0 0 /\ ps_perr (pid_s p) = mkV 0 0 0.
(** Requests made while level with heading [yaw] and not turning, that ask
    to stay in the present state of motion: zero acceleration; the present
    position, velocity and heading on a trajectory without feedforward; the
    present velocity; the present position at rest. *)
Definition holds_still (yaw : R) (op : CtlOp R) : Prop :=
  match op with
  | CAcc A w acc y _ => acc = mkV 0 0 0 /\ A = rot_z yaw /\ w = mkV 0 0 0 /\ y = yaw
  | CTraj cp cv A w dp dv da y _ => cp = dp /\ cv = dv /\ da = mkV 0 0 0 /\ A = rot_z yaw /\ w = mkV 0 0 0 /\ y = yaw
  | CVel cv A w dv y _ => cv = dv /\ A = rot_z yaw /\ w = mkV 0 0 0 /\ y = yaw
  | CPos cp A cv w dp y _ => cp = dp /\ cv = mkV 0 0 0 /\ A = rot_z yaw /\ w = mkV 0 0 0 /\ y = yaw
  | _ => False
  end.

(** Operations that compute a motor command. *)
Definition commands_motors {T} (op : CtlOp T) : bool :=
  uses_acc op || match op with CAcro _ _ _ _ => true | _ => false end.
(** The inverse mixer as a user obtains it: the library's inverse of the
    library's mixer of the motors. *)
Definition quad_inverse (ms : list (Motor R)) : option (list (V3 R * V3 R)) :=
  match compute_mixer_6D 4 ms with Some [a; b; c; d] => Some (quad_mixer_inverse a b c d) | _ => None end.

(** Torque that gives the body angular acceleration [al] at body rate [w]. *)
Definition euler_torque (I : M3 R) (al w : V3 R) (a : Ax) : R :=
  mat_vec I al a + cross3 w (vec_of (mat_vec I w)) a.
