(** Model of multirotor_simulator/multirotor_dynamic_model/dynamics.hpp. *)

From Coq Require Import ZArith List Bool.
From Verif Require Import Scalar LinAlg MUtils MModel.
Import ListNotations.

(** ** Loops

    [wloop p f a] runs [f] at most [p] times starting from [a]; [inl] means
    continue, [inr] means stop.  The bound is binary so that a bound such as
    2^31 can be written down. *)
Fixpoint wloop {A B} (p : positive) (f : A -> A + B) (a : A) : A + B :=
  match p with
  | xH => f a
  | xO p' => match wloop p' f a with inl a' => wloop p' f a' | inr b => inr b end
  | xI p' => match f a with
             | inl a' => match wloop p' f a' with
                         | inl a'' => wloop p' f a'' | inr b => inr b end
             | inr b => inr b end
  end.

Definition int_max : Z := 2147483647.

(** [for (int i = 0; i < bound; i++) body] where [bound] is a floating-point
    value, so that [i] is converted before the comparison.  Incrementing past
    INT_MAX is signed overflow, hence undefined.  The counter takes at most 2^31
    values, so the iteration bound is never what ends the loop. *)
Definition for_int {T} {O : Ops T} {A} (bound : T) (body : A -> outcome A) (a : A) : outcome A :=
  match wloop (2 ^ 31)%positive
    (fun ia => let '(i, x) := ia in
       if ltb (ofZ i) bound then
         match body x with
         | Ok y => if Z.eqb i int_max then inr UB else inl (Z.succ i, y)
         | Throw y => inr (Throw y)
         | UB => inr UB
         end
       else inr (Ok x)) (0%Z, a)
  with inr r => r | inl _ => UB end.

(** dynamics.hpp:80-436 the Dynamics object: members model_, state_ (288-290). *)
Record Dyn (T : Type) (G : Gen T) := mkDyn { d_model : ModelObj T G; d_state : State T }.
Arguments mkDyn {T G}. Arguments d_model {T G}. Arguments d_state {T G}.

Section Dynamics.
Context {T : Type} {O : Ops T} {G : Gen T}.
Local Open Scope sc_scope.

(** dynamics.hpp:47 LOWEST_UPDATE_FREQUENCY. *)
Definition dtmax : T := lit 1 100.

(** dynamics.hpp:301-309 clamp_motors_angular_velocity; [motor_params\[i\]] past
    the end of the vector is undefined. *)
Fixpoint clamp_motors (w : list T) (ms : list (Motor T)) : option (list T) :=
  match w, ms with
  | [], _ => Some []
  | x :: w', m :: ms' =>
      bindo (clamp x (mt_min m) (mt_max m)) (fun y =>
      bindo (clamp_motors w' ms') (fun ys => Some (y :: ys)))
  | _ :: _, [] => None
  end.

(** dynamics.hpp:321-332 get_motors_angular_velocity_derivative.  The
    current speeds have the same length as the desired ones (both VectorN). *)
Fixpoint motors_derivative (des cur : list T) (ms : list (Motor T)) : option (list T) :=
  match des, cur, ms with
  | [], _, _ => Some []
  | d :: des', c :: cur', m :: ms' =>
      bindo (motors_derivative des' cur' ms') (fun ys => Some ((d - c) / mt_tau m :: ys))
  | _ :: _, _, _ => None
  end.

(** dynamics.hpp:349-365 get_vehicle_angular_velocity_derivative, total torque. *)
Definition total_torque (w : V3 T) (I : M3 T) (control aero stoch : V3 T) : V3 T :=
  vsub (vadd (vadd control aero) stoch) (vcross w (mmulv I w)).
(** dynamics.hpp:362 angular acceleration from the total torque. *)
Definition ang_acc (I : M3 T) (torque : V3 T) : V3 T := mmulv (minv I) torque.

(** dynamics.hpp:395-408 get_vehicle_linear_velocity_derivative, total force. *)
Definition total_force (thrust grav drag stoch ext : V3 T) : V3 T :=
  vadd (vadd (vadd (vadd thrust grav) drag) stoch) ext.

(** dynamics.hpp:159-209 process_euler_explicit, the body for one sub-step.
    [None] is undefined behaviour. *)
Definition euler_core (d : Dyn T G) (act : list T) (dt : T) (ext : V3 T) (noise : bool)
  : option (Dyn T G) :=
  bindo (if noise then set_noise (d_model d) dt else Some (disable_noise (d_model d))) (fun mo =>
  bindo (mo_cfg mo) (fun c =>
  let p := cf_params c in
  let s := d_state d in
  bindo (clamp_motors act (p_motors p)) (fun des =>
  bindo (motors_derivative des (s_mvel s) (p_motors p)) (fun macc =>
  let torque := total_torque (s_angvel s) (p_inertia p)
                  (torque_by_motors (cf_tmat c) (cf_imat c) (s_mvel s) macc)
                  (aero_moment (p_aero p) (s_angvel s))
                  (mo_sforce mo) in
  let aacc := ang_acc (p_inertia p) torque in
  let qd := quat_derivative (s_ori s) (s_angvel s) in
  let force := total_force (qrot (s_ori s) (force_by_motors (cf_fmat c) (s_mvel s)))
                 (p_grav p) (drag_force (p_drag p) (s_vel s)) (mo_sforce mo) ext in
  let lacc := vdiv force (p_mass p) in
  bindo (clamp_motors (ladd (s_mvel s) (map (fun a => a * dt) macc)) (p_motors p)) (fun mvel =>
  Some (mkDyn mo (mkState
    (vadd (s_pos s) (vscaler (s_vel s) dt))
    (qnormalized (qadd (s_ori s) (qmap (fun x => x * dt) qd)))
    (vadd (s_vel s) (vscaler lacc dt))
    (vadd (s_angvel s) (vscaler aacc dt))
    lacc aacc force torque mvel macc))))))).

Definition of_opt {A} (x : option A) : outcome A :=
  match x with Some a => Ok a | None => UB end.

(** dynamics.hpp:152-155 the recursive call with dt = 0.01.  With IEEE or real
    arithmetic both guards are false and the call is the sub-step; with an
    arithmetic where [0.01 <= 0] it throws and where [0.01 < 0.01] it recurses
    for ever (stack exhaustion, undefined). *)
Definition euler_sub (act : list T) (ext : V3 T) (noise : bool) (d : Dyn T G) : outcome (Dyn T G) :=
  if dtmax <=? zero then Throw d
  else if dtmax <? dtmax then UB
  else of_opt (euler_core d act dtmax ext noise).

(** dynamics.hpp:143-210 process_euler_explicit. *)
Definition process (d : Dyn T G) (act : list T) (dt : T) (ext : V3 T) (noise : bool)
  : outcome (Dyn T G) :=
  if dt <=? zero then Throw d
  else if dtmax <? dt then for_int (dt / dtmax) (euler_sub act ext noise) d
  else of_opt (euler_core d act dt ext noise).

(** dynamics.hpp:57-70, 125-127 DynamicsParams and the constructor from it
    (the constructors at 100, 108, 117 are the same with default arguments). *)
Definition dyn_new (n : nat) (p : Params T) (seed : Z) (s : State T) : option (Dyn T G) :=
  option_map (fun m => mkDyn m s) (model_new n p seed).

(** dynamics.hpp:256 set_state(const State &); 274 set_model(const Model &).
    The pointer overloads (263-267, 281-285) assign a pointer to an object and
    do not compile when instantiated; they are not modelled. *)
Definition dyn_set_state (d : Dyn T G) (s : State T) : Dyn T G := mkDyn (d_model d) s.
Definition dyn_set_model (d : Dyn T G) (m : ModelObj T G) : Dyn T G := mkDyn m (d_state d).

End Dynamics.
