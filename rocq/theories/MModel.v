(** Model of multirotor_simulator/multirotor_dynamic_model/model.hpp.

    Compiled-out assertions: the model follows an NDEBUG build, so a rotation
    direction other than 1 and -1 is used as a number and a rotor list shorter
    than [num_rotors] is accepted by update_params.  A longer list writes
    outside the fixed-size matrix and is undefined behaviour.
    [pose.rotation()] of an Isometry transform is its linear part. *)

From Coq Require Import ZArith List Bool.
From Verif Require Import Scalar LinAlg MUtils.
Import ListNotations.

(** model.hpp:60-78 MotorParams; the pose is split into rotation, translation. *)
Record Motor (T : Type) := mkMotor {
  mt_dir : Z;          (* motor_rotation_direction *)
  mt_kf : T;           (* thrust_coefficient *)
  mt_kt : T;           (* torque_coefficient *)
  mt_rot : M3 T;       (* pose.rotation() *)
  mt_pos : V3 T;       (* pose.translation() *)
  mt_min : T;          (* min_speed *)
  mt_max : T;          (* max_speed *)
  mt_tau : T;          (* time_constant *)
  mt_J : T             (* rotational_inertia *)
}.
Arguments mkMotor {T}.
Arguments mt_dir {T}. Arguments mt_kf {T}. Arguments mt_kt {T}. Arguments mt_rot {T}.
Arguments mt_pos {T}. Arguments mt_min {T}. Arguments mt_max {T}. Arguments mt_tau {T}.
Arguments mt_J {T}.

(** model.hpp:88-115 ModelParams. *)
Record Params (T : Type) := mkParams {
  p_motors : list (Motor T);   (* motors_params *)
  p_mass : T;                  (* vehicle_mass *)
  p_inertia : M3 T;            (* vehicle_inertia *)
  p_drag : T;                  (* vehicle_drag_coefficient *)
  p_aero : M3 T;               (* vehicle_aero_moment_coefficient *)
  p_grav : V3 T;               (* gravity *)
  p_fnoise : T;                (* force_process_noise_auto_correlation *)
  p_mnoise : T                 (* moment_process_noise_auto_correlation *)
}.
Arguments mkParams {T}.
Arguments p_motors {T}. Arguments p_mass {T}. Arguments p_inertia {T}. Arguments p_drag {T}.
Arguments p_aero {T}. Arguments p_grav {T}. Arguments p_fnoise {T}. Arguments p_mnoise {T}.

(** Everything update_params writes (model.hpp:157-163): the parameters and
    the matrices derived from them, matrices as lists of columns. *)
Record Cfg (T : Type) := mkCfg {
  cf_params : Params T;        (* params_ *)
  cf_fvec : list T;            (* mixer_force_vector_ *)
  cf_fmat : list (V3 T);       (* mixer_force_matrix_ *)
  cf_tmat : list (V3 T);       (* mixer_torque_matrix_ *)
  cf_imat : list (V3 T)        (* mixer_inertia_matrix_ *)
}.
Arguments mkCfg {T}.
Arguments cf_params {T}. Arguments cf_fvec {T}. Arguments cf_fmat {T}.
Arguments cf_tmat {T}. Arguments cf_imat {T}.

(** model.hpp:158-181 the Model object.  [mo_cfg = None]: no parameters were
    ever accepted, the members are indeterminate and reading them is undefined
    behaviour.  (Simplification: gravity, drag and the motor list have default
    member initialisers and could be read in that state; mass, inertia and the
    mixers, which every step reads, could not.)
    [mo_mixer] is the member mixer_matrix_ (model.hpp:166), [None] while
    it has never been written. *)
Record ModelObj (T : Type) (G : Gen T) := mkModel {
  mo_cfg : option (Cfg T);
  mo_mixer : option (list (V3 T * V3 T));
  mo_eng : g_eng G;            (* random_number_generator_ *)
  mo_dist : g_dist G;          (* standard_normal_distribution_ *)
  mo_sforce : V3 T;            (* stochastic_force_ *)
  mo_smoment : V3 T            (* stochastic_moment_ *)
}.
Arguments mkModel {T G}.
Arguments mo_cfg {T G}. Arguments mo_mixer {T G}. Arguments mo_eng {T G}.
Arguments mo_dist {T G}. Arguments mo_sforce {T G}. Arguments mo_smoment {T G}.

Section Model.
Context {T : Type} {O : Ops T}.
Local Open Scope sc_scope.

(** model.hpp:496-536 check_params, the loop body for one motor. *)
Definition check_motor (m : Motor T) : bool :=
  if mt_max m <? mt_min m then false
  else if mt_tau m <? zero then false
  else if mt_J m <? zero then false
  else if mt_kf m <? zero then false
  else if mt_kt m <? zero then false
  else true.

(** model.hpp:496-536 check_params. *)
Definition check_params (p : Params T) : bool :=
  if p_mass p <? zero then false
  else if mdet (p_inertia p) <? zero then false
  else if p_drag p <? zero then false
  else if mdet (p_aero p) <? zero then false
  else forallb check_motor (p_motors p).

(** model.hpp:93-114 value-initialised ModelParams(): scalars without an
    initialiser are zero, gravity (0,0,-9.81), [n] zero motors with direction 1
    and identity pose. *)
Definition motor0 : Motor T := mkMotor 1 zero zero mI v0 zero zero zero zero.
Definition params0 (n : nat) : Params T :=
  mkParams (repeat motor0 n) zero mzero zero mzero
           (mkV zero zero (neg (lit 981 100))) zero zero.

(** Columns written for the given motors, the rest of the fixed-size matrix
    stays zero; writing column [num_rotors] or later is undefined. *)
Definition cols {A} (n : nat) (z : A) (f : Motor T -> A) (ms : list (Motor T)) : option (list A) :=
  if Nat.ltb n (length ms) then None
  else Some (map f ms ++ repeat z (n - length ms)).

(** model.hpp:757-796 compute_mixer_matrix_4D, one column (Fz, Tx, Ty, Tz). *)
Definition mixer4_col (m : Motor T) : V4 T :=
  mkV4 (mt_kf m) (vy (mt_pos m) * mt_kf m) (mone * vx (mt_pos m) * mt_kf m)
      (ofZ (mt_dir m) * mt_kt m).
Definition compute_mixer_4D (n : nat) (ms : list (Motor T)) : option (list (V4 T)) :=
  cols n (mkV4 zero zero zero zero) mixer4_col ms.

(** model.hpp:808-860 compute_mixer_matrix_6D, one column (force, torque). *)
Definition mixer6_col (m : Motor T) : V3 T * V3 T :=
  let force_body := mmulv (mt_rot m) (mkV zero zero (mt_kf m)) in
  let torque_body := vcross (mt_pos m) force_body in
  let torque_rot := mmulv (mt_rot m) (mkV zero zero (ofZ (mt_dir m) * mt_kt m)) in
  (force_body, vadd torque_body torque_rot).
Definition compute_mixer_6D (n : nat) (ms : list (Motor T)) : option (list (V3 T * V3 T)) :=
  cols n (v0, v0) mixer6_col ms.

(** model.hpp:872-889 compute_mixer_inertia_matrix. *)
Definition inertia_col (m : Motor T) : V3 T :=
  mmulv (mt_rot m) (mkV zero zero (ofZ (mt_dir m) * mt_J m)).
Definition compute_mixer_inertia (n : nat) (ms : list (Motor T)) : option (list (V3 T)) :=
  cols n v0 inertia_col ms.

(** model.hpp:905-909 get_aerodynamic_moment (static):
    ((-1 * |w|) * C) * w. *)
Definition aero_moment (C : M3 T) (w : V3 T) : V3 T :=
  let k := mone * vnorm w in
  mmulv (mkM (k * m00 C) (k * m01 C) (k * m02 C)
             (k * m10 C) (k * m11 C) (k * m12 C)
             (k * m20 C) (k * m21 C) (k * m22 C)) w.

(** model.hpp:923-926 get_drag_force (static). *)
Definition drag_force (c : T) (v : V3 T) : V3 T := vscale (mone * c) (vmap sqks v).

(** model.hpp:938-941 get_force_thrust_by_motors (static). *)
Definition thrust_by_motors (fvec : list T) (w : list T) : T := ldot fvec (map sqks w).

(** model.hpp:953-956 get_force_vector_thrust_by_motors (static). *)
Definition force_by_motors (fmat : list (V3 T)) (w : list T) : V3 T :=
  colsmul fmat (map sqks w).

(** model.hpp:970-980 get_torque_by_motors (static). *)
Definition torque_by_motors (tmat imat : list (V3 T)) (w acc : list T) : V3 T :=
  vadd (colsmul tmat (map sqks w)) (colsmul imat acc).

(** model.hpp:554-594 create_quadrotor_x_config. *)
Definition quad_x (kf kt x y mn mx tau J : T) : list (Motor T) :=
  let mk d px py := mkMotor d kf kt mI (mkV px py zero) mn mx tau J in
  [mk 1%Z x (neg y); mk (-1)%Z x y; mk 1%Z (neg x) y; mk (-1)%Z (neg x) (neg y)].

(** model.hpp:612-652 create_quadrotor_plus_config. *)
Definition quad_plus (kf kt x y mn mx tau J : T) : list (Motor T) :=
  let mk d px py := mkMotor d kf kt mI (mkV px py zero) mn mx tau J in
  [mk 1%Z x zero; mk (-1)%Z zero y; mk 1%Z (neg x) zero; mk (-1)%Z zero (neg y)].

(** model.hpp:668-720 create_hexacopter_config. *)
Definition hexa (kf kt r mn mx tau J : T) : list (Motor T) :=
  let mk d px py := mkMotor d kf kt mI (mkV px py zero) mn mx tau J in
  let c := cosT (piT / ofZ 3) in
  let s := sinT (piT / ofZ 3) in
  [mk 1%Z r zero; mk (-1)%Z (r * c) (r * s); mk 1%Z (neg r * c) (r * s);
   mk (-1)%Z (neg r) zero; mk 1%Z (neg r * c) (neg r * s); mk (-1)%Z (r * c) (neg r * s)].

Context {G : Gen T}.
Variable n : nat.            (* template parameter num_rotors *)

(** model.hpp:189-208 update_params.  The mixer_matrix_ assigned on line
    199 is a local variable that shadows the member. *)
Definition update_params (mo : ModelObj T G) (p : Params T) : option (ModelObj T G) :=
  if negb (check_params p) then Some mo
  else
    bindo (compute_mixer_6D n (p_motors p)) (fun mixer =>
    bindo (compute_mixer_inertia n (p_motors p)) (fun imat =>
    Some (mkModel
      (Some (mkCfg p (map (fun c => vz (fst c)) mixer) (map fst mixer) (map snd mixer) imat))
      (mo_mixer mo) (mo_eng mo) (mo_dist mo) (mo_sforce mo) (mo_smoment mo)))).

(** model.hpp:150-156 constructor and 158-181 member initialisers. *)
Definition model_new (p : Params T) (seed : Z) : option (ModelObj T G) :=
  update_params (mkModel None None (g_seed G seed) (g_dist0 G) v0 v0) p.

(** model.hpp:251-254 disable_stochastic_noise. *)
Definition disable_noise (mo : ModelObj T G) : ModelObj T G :=
  mkModel (mo_cfg mo) (mo_mixer mo) (mo_eng mo) (mo_dist mo) v0 v0.

(** model.hpp:218-242 set_stochastic_noise. *)
Definition set_noise (mo : ModelObj T G) (dt : T) : option (ModelObj T G) :=
  if dt <=? zero then Some (disable_noise mo)
  else bindo (mo_cfg mo) (fun c =>
    let '(f, (e1, d1)) :=
      draw3 G 0 (sqrtT (p_fnoise (cf_params c) / dt)) (mo_eng mo) (mo_dist mo) in
    let '(m, (e2, d2)) :=
      draw3 G 1 (sqrtT (p_mnoise (cf_params c) / dt)) e1 d1 in
    Some (mkModel (mo_cfg mo) (mo_mixer mo) e2 d2 f m)).

(** model.hpp:482 get_mixer_matrix: returns the member. *)
Definition get_mixer_matrix (mo : ModelObj T G) : option (list (V3 T * V3 T)) := mo_mixer mo.

(** model.hpp:265-475 the remaining getters read [mo_cfg], [mo_sforce] and
    [mo_smoment]; the member forms of the force/torque functions (267-338) call
    the static forms with the stored matrices. *)
Definition get_force_by_motors (mo : ModelObj T G) (w : list T) : option (V3 T) :=
  option_map (fun c => force_by_motors (cf_fmat c) w) (mo_cfg mo).
Definition get_thrust_by_motors (mo : ModelObj T G) (w : list T) : option T :=
  option_map (fun c => thrust_by_motors (cf_fvec c) w) (mo_cfg mo).
Definition get_torque_by_motors (mo : ModelObj T G) (w acc : list T) : option (V3 T) :=
  option_map (fun c => torque_by_motors (cf_tmat c) (cf_imat c) w acc) (mo_cfg mo).
Definition get_drag_force (mo : ModelObj T G) (v : V3 T) : option (V3 T) :=
  option_map (fun c => drag_force (p_drag (cf_params c)) v) (mo_cfg mo).
Definition get_aero_moment (mo : ModelObj T G) (w : V3 T) : option (V3 T) :=
  option_map (fun c => aero_moment (p_aero (cf_params c)) w) (mo_cfg mo).
Definition get_params (mo : ModelObj T G) : option (Params T) :=
  option_map cf_params (mo_cfg mo).

(** model.hpp:991-1006 get_mixer_matrix_ (private): rebuilds the matrix from
    the stored parts; 6 rows as (force, torque), 4 rows as (Fz, torque). *)
Definition get_mixer_6 (mo : ModelObj T G) : option (list (V3 T * V3 T)) :=
  option_map (fun c => combine (cf_fmat c) (cf_tmat c)) (mo_cfg mo).
Definition get_mixer_4 (mo : ModelObj T G) : option (list (V4 T)) :=
  option_map (fun c => map (fun ft => mkV4 (fst ft) (vx (snd ft)) (vy (snd ft)) (vz (snd ft)))
                           (combine (cf_fvec c) (cf_tmat c))) (mo_cfg mo).

End Model.
