(** Specification vocabulary: where the numbers of a configuration file go. *)

From Coq Require Import ZArith List Bool Reals.
From Verif Require Import Scalar LinAlg MUtils MModel MDynamics MPid MControl MCtlRun MImu MSim MConfig SpecSet.
Import ListNotations.

Section SpecFile.
Context {T : Type} {O : Ops T} {G H : Gen T}.

(** A diagonal matrix with the given entries. *)
Definition diagonal_of (m : M3 T) (v : V3 T) : Prop :=
  m = mkM (vx v) zero zero zero (vy v) zero zero zero (vz v).
(** The vehicle described by a file: a quadrotor in X configuration, rotors
    front right, front left, rear left, rear right, turning in alternate
    directions. *)
Definition rotor_as_written (d : Doc T) (m : Motor T) : Prop :=
  mt_kf m = yd_kf d /\ mt_kt m = yd_kt d /\ mt_min m = yd_min d /\ mt_max m = yd_max d /\
  mt_tau m = yd_tau d /\ mt_J m = yd_J d /\ diagonal_of (mt_rot m) (mkV one one one).
Definition vehicle_as_written (d : Doc T) (p : Params T) : Prop :=
  p_mass p = yd_mass d /\ p_grav p = yd_grav d /\ p_drag p = yd_drag d /\
  p_fnoise p = yd_fnoise d /\ p_mnoise p = yd_mnoise d /\
  diagonal_of (p_inertia p) (yd_inertia d) /\ diagonal_of (p_aero p) (yd_aero d) /\
  Forall (rotor_as_written d) (p_motors p) /\
  map mt_pos (p_motors p) = [mkV (yd_x d) (neg (yd_y d)) zero; mkV (yd_x d) (yd_y d) zero;
                             mkV (neg (yd_x d)) (yd_y d) zero; mkV (neg (yd_x d)) (neg (yd_y d)) zero] /\
  map mt_dir (p_motors p) = [1; -1; 1; -1]%Z.
Definition state_as_written (d : Doc T) (st : State T) : Prop :=
  s_pos st = yd_pos d /\ s_ori st = yd_ori d /\ s_vel st = yd_vel d /\ s_angvel st = yd_angvel d /\
  s_linacc st = yd_linacc d /\ s_angacc st = yd_angacc d /\ s_force st = v0 /\ s_torque st = v0 /\
  s_mvel st = [zero; zero; zero; zero] /\ s_macc st = [zero; zero; zero; zero].
(** A loop set up by a section of the file; the limit applies to both signs. *)
Definition minus (v : V3 T) : V3 T := vscale mone v.
Definition loop_as_written (k : PidSection T) (p : Pid T) : Prop :=
  pid_kp p = ks_kp k /\ pid_ki p = ks_ki k /\ pid_kd p = ks_kd k /\ pid_aw p = ks_aw k /\
  pid_reset_flag p = false /\ pid_prop_on p = true /\
  pid_sat_on p = negb (veqb (minus (ks_limit k)) v0 && veqb (ks_limit k) v0) && usable3 (ks_limit k) (minus (ks_limit k)) /\
  (pid_sat_on p = true -> pid_limits p = (ks_limit k, minus (ks_limit k))).
(** A loop left at the default settings: no gains, no saturation. *)
Definition loop_at_default (p : Pid T) : Prop :=
  pid_kp p = v0 /\ pid_ki p = v0 /\ pid_kd p = v0 /\ pid_aw p = v0 /\ pid_alpha p = v1 /\ pid_reset_flag p = false /\ pid_prop_on p = false.
Definition sensor_as_written (d : Doc T) (s : Sim T G H) : Prop :=
  im_gvar (sm_imu s) = yd_gvar d /\ im_avar (sm_imu s) = yd_avar d /\ im_gac (sm_imu s) = yd_gac d /\ im_aac (sm_imu s) = yd_aac d /\
  od_alpha (sm_odom s) = yd_alpha d /\ od_init (sm_odom s) = yd_ori d.
(** The loops of the controller of each program. *)
Definition loops_of (p : Program) (d : Doc T) (c : Ctl T) : Prop :=
  loop_as_written (yd_indi d) (get_pid WIndi c) /\ ac_kp (ct_acro c) = vdiagm (yd_kprot d) /\
  match p with
  | FlyExample => loop_as_written (yd_posc d) (get_pid WPos c) /\ loop_as_written (yd_velc d) (get_pid WVel c) /\ loop_at_default (get_pid WTraj c) /\
      pid_alpha (get_pid WPos c) = ks_alpha (yd_posc d) /\ pid_alpha (get_pid WVel c) = ks_alpha (yd_velc d)
  | TrajExample => loop_as_written (yd_traj d) (get_pid WTraj c) /\ loop_at_default (get_pid WPos c) /\ loop_at_default (get_pid WVel c)
  end /\ pid_alpha (get_pid WIndi c) = ks_alpha (yd_indi d).
(** The same file with other trajectory gains; with other position and velocity
    gains. *)
Definition other_traj (d : Doc T) (k : PidSection T) : Doc T :=
  mkDoc (yd_floor d) (yd_pos d) (yd_ori d) (yd_vel d) (yd_angvel d) (yd_linacc d) (yd_angacc d) (yd_grav d) (yd_mass d) (yd_inertia d)
        (yd_drag d) (yd_aero d) (yd_fnoise d) (yd_mnoise d) (yd_kf d) (yd_kt d) (yd_x d) (yd_y d) (yd_min d) (yd_max d) (yd_tau d)
        (yd_J d) (yd_indi d) (yd_kprot d) k (yd_velc d) (yd_posc d) (yd_gvar d) (yd_avar d) (yd_gac d) (yd_aac d) (yd_alpha d).
Definition other_posvel (d : Doc T) (kp kv : PidSection T) : Doc T :=
  mkDoc (yd_floor d) (yd_pos d) (yd_ori d) (yd_vel d) (yd_angvel d) (yd_linacc d) (yd_angacc d) (yd_grav d) (yd_mass d) (yd_inertia d)
        (yd_drag d) (yd_aero d) (yd_fnoise d) (yd_mnoise d) (yd_kf d) (yd_kt d) (yd_x d) (yd_y d) (yd_min d) (yd_max d) (yd_tau d)
        (yd_J d) (yd_indi d) (yd_kprot d) (yd_traj d) kv kp (yd_gvar d) (yd_avar d) (yd_gac d) (yd_aac d) (yd_alpha d).
End SpecFile.
