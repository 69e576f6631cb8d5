(** Specification vocabulary: what a caller of the flight controller sees. *)

From Coq Require Import ZArith List Bool.
From Verif Require Import Scalar LinAlg MUtils MPid MControl MCtlRun SpecPid SpecCtl.
Import ListNotations.

(** What one call returns: rotor speeds, with the thrust and rates it settled on; a pair
    of thrust and rates; or a vector. *)
Inductive Answer (T : Type) :=
| ARotors (speeds : list T) (thrust : T) (rates : V3 T)
| AAcro (thrust : T) (rates : V3 T)
| AVec (v : V3 T).
Arguments ARotors {T}. Arguments AAcro {T}. Arguments AVec {T}.

Section Spec.
Context {T : Type} {O : Ops T}.

(** multirotor_controllers.hpp:151-376 the values returned, read from the object after the call. *)
Definition answer (c : Ctl T) (op : CtlOp T) : option (Answer T) :=
  let c' := ctl_step c op in
  match op with
  | CAcro _ _ _ _ | CAcc _ _ _ _ _ | CTraj _ _ _ _ _ _ _ _ _ | CVel _ _ _ _ _ _ | CPos _ _ _ _ _ _ _ =>
      Some (ARotors (get_desired_motor_angular_velocity c') (get_desired_thrust c') (get_desired_angular_velocity c'))
  | CConvAcro _ th des _ => Some (ARotors (in_motor (ct_indi c')) th des)
  | CConvAcc acc R yaw => let r := snd (acc_to_acro (ct_acro c) acc R yaw) in Some (AAcro (fst r) (snd r))
  | CConvTraj cp cv dp dv da dt => Some (AVec (snd (traj_control (ct_traj c) cp cv dp dv da dt)))
  | CConvVel _ _ _ => Some (AVec (pid_output (ct_vel c')))
  | CConvPos _ _ _ => Some (AVec (pid_output (ct_pos c')))
  | CPid w o => if is_compute o then Some (AVec (pid_output (get_pid w c'))) else None
  | CYaw _ _ _ => Some (AVec (acro_get_desired_angular_velocity (ct_acro c')))
  | _ => None
  end.
Fixpoint answers (c : Ctl T) (ops : list (CtlOp T)) : list (Answer T) :=
  match ops with
  | [] => []
  | op :: r => match answer c op with Some a => a :: answers (ctl_step c op) r | None => answers (ctl_step c op) r end
  end.

(** Two controllers set up alike: attitude gains, mass, gravity, inertia, allocation, and the
    parameters of the four PID loops as their getters report them. *)
Definition alike (c1 c2 : Ctl T) : Prop :=
  ac_kp (ct_acro c1) = ac_kp (ct_acro c2) /\ ac_mass (ct_acro c1) = ac_mass (ct_acro c2) /\ ac_grav (ct_acro c1) = ac_grav (ct_acro c2) /\
  in_inertia (ct_indi c1) = in_inertia (ct_indi c2) /\ in_minv (ct_indi c1) = in_minv (ct_indi c2) /\
  forall w, pid_get_params (get_pid w c1) = pid_get_params (get_pid w c2) /\ pid_sat_on (get_pid w c1) = pid_sat_on (get_pid w c2).
End Spec.
