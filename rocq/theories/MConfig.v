(** Model of the configuration code of examples/fly_example.cpp and
    examples/trajectory_fly_example/traj_gen_example.cpp: from the numbers of
    the configuration file (or from the built-in ones) to the simulator that is
    flown.

    A document is the collection of numbers the code looks up; how they are
    looked up is in MYaml.v. *)

From Coq Require Import ZArith List Bool.
From Verif Require Import Scalar LinAlg MUtils MModel MDynamics MPid MControl MImu MSim.
Import ListNotations.

(** One section controller.<name> of the file. *)
Record PidSection (T : Type) := mkPidSec {
  ks_kp : V3 T; ks_ki : V3 T; ks_kd : V3 T; ks_alpha : V3 T; ks_aw : V3 T;
  ks_limit : V3 T   (* angular_acceleration_limit, acceleration_limit, ... *) }.
Arguments mkPidSec {T}. Arguments ks_kp {T}. Arguments ks_ki {T}. Arguments ks_kd {T}.
Arguments ks_alpha {T}. Arguments ks_aw {T}. Arguments ks_limit {T}.

(** simulation_config.yaml. *)
Record Doc (T : Type) := mkDoc {
  yd_floor : T;                                        (* sim_config.floor_height *)
  yd_pos : V3 T; yd_ori : Quat T; yd_vel : V3 T; yd_angvel : V3 T;
  yd_linacc : V3 T; yd_angacc : V3 T;                  (* dynamics.state *)
  yd_grav : V3 T; yd_mass : T; yd_inertia : V3 T; yd_drag : T; yd_aero : V3 T;
  yd_fnoise : T; yd_mnoise : T;                        (* dynamics.model *)
  yd_kf : T; yd_kt : T; yd_x : T; yd_y : T; yd_min : T; yd_max : T; yd_tau : T;
  yd_J : T;                                            (* dynamics.model.motors_params *)
  yd_indi : PidSection T; yd_kprot : V3 T;             (* controller.indi, controller.acro *)
  yd_traj : PidSection T; yd_velc : PidSection T; yd_posc : PidSection T;
  yd_gvar : T; yd_avar : T; yd_gac : T; yd_aac : T;    (* imu *)
  yd_alpha : T                                         (* inertial_odometry.alpha *) }.
Arguments yd_floor {T}. Arguments yd_pos {T}. Arguments yd_ori {T}. Arguments yd_vel {T}.
Arguments yd_angvel {T}. Arguments yd_linacc {T}. Arguments yd_angacc {T}. Arguments yd_grav {T}.
Arguments yd_mass {T}. Arguments yd_inertia {T}. Arguments yd_drag {T}. Arguments yd_aero {T}.
Arguments yd_fnoise {T}. Arguments yd_mnoise {T}. Arguments yd_kf {T}. Arguments yd_kt {T}.
Arguments yd_x {T}. Arguments yd_y {T}. Arguments yd_min {T}. Arguments yd_max {T}.
Arguments yd_tau {T}. Arguments yd_J {T}. Arguments yd_indi {T}. Arguments yd_kprot {T}.
Arguments yd_traj {T}. Arguments yd_velc {T}. Arguments yd_posc {T}. Arguments yd_gvar {T}.
Arguments yd_avar {T}. Arguments yd_gac {T}. Arguments yd_aac {T}. Arguments yd_alpha {T}.
Arguments mkDoc {T}.

Section Config.
Context {T : Type} {O : Ops T} {G H : Gen T}.
Local Open Scope sc_scope.

(** fly_example.cpp:310-329, 345-363, 368-386: gains, anti-windup and symmetric
    limits with proportional saturation; the reset flag keeps its default. *)
Definition pid_of_section (s : PidSection T) : PidParams T :=
  mkPP (ks_kp s) (ks_ki s) (ks_kd s) (ks_aw s) (ks_alpha s) false true (ks_limit s) (vscale mone (ks_limit s)).
(** traj_gen_example.cpp:350-367: the filter constant is not read. *)
Definition pid_of_section_traj (s : PidSection T) : PidParams T :=
  mkPP (ks_kp s) (ks_ki s) (ks_kd s) (ks_aw s) (pp_alpha pp0) false true (ks_limit s) (vscale mone (ks_limit s)).
(** fly_example.cpp:451-456, 465-478 and the like: only gains, filter and anti-windup set. *)
Definition pid_of_gains (kp ki kd alpha aw : V3 T) : PidParams T :=
  mkPP kp ki kd aw alpha (pp_rflag pp0) (pp_pflag pp0) (pp_up pp0) (pp_lo pp0).

(** indi_controller.hpp:278-306 compute_quadrotor_mixer_matrix_inverse on the
    6 x 4 mixer of the motor list (fly_example.cpp:306-309). *)
Definition mixer_inverse_of (ms : list (Motor T)) : list (V3 T * V3 T) :=
  match compute_mixer_6D 4 ms with
  | Some [a; b; c; d] => quad_mixer_inverse a b c d
  | _ => []
  end.

(** fly_example.cpp:304-309 and 334-340: the parts of the controller parameters
    that are taken from the vehicle. *)
Definition vehicle_indi (p : Params T) (k : PidParams T) : IndiParams T :=
  mkIP (p_inertia p) (mixer_inverse_of (p_motors p)) k.
Definition vehicle_acro (p : Params T) (kp : V3 T) : AcroParams T :=
  mkAP (p_mass p) (vdiagm kp) (p_grav p).

(** fly_example.cpp:262-299 (traj_gen_example.cpp:267-304). *)
Definition doc_model (d : Doc T) : Params T :=
  mkParams (quad_x (yd_kf d) (yd_kt d) (yd_x d) (yd_y d) (yd_min d) (yd_max d) (yd_tau d) (yd_J d))
           (yd_mass d) (vdiagm (yd_inertia d)) (yd_drag d) (vdiagm (yd_aero d)) (yd_grav d)
           (yd_fnoise d) (yd_mnoise d).
(** fly_example.cpp:240-259 (traj_gen_example.cpp:245-264); force, torque and
    rotors keep their default. *)
Definition doc_state (d : Doc T) : State T :=
  mkState (yd_pos d) (yd_ori d) (yd_vel d) (yd_angvel d) (yd_linacc d) (yd_angacc d)
          v0 v0 (repeat zero 4) (repeat zero 4).
(** fly_example.cpp:389-401 (traj_gen_example.cpp:370-382). *)
Definition doc_imu (d : Doc T) : ImuParams T :=
  mkIMP (yd_gvar d) (yd_avar d) (yd_gac d) (yd_aac d) (imp_ori imp0) (imp_seed imp0).
Definition doc_odom (d : Doc T) : OdomParams T := mkODP (yd_alpha d) (yd_ori d).

(** fly_example.cpp:228-404 get_simulation_params_from_yaml. *)
Definition fly_params_from_yaml (d : Doc T) : SimParams T :=
  mkSP (doc_model d) 0%Z (doc_state d)
       (mkCP (vehicle_acro (doc_model d) (yd_kprot d)) (vehicle_indi (doc_model d) (pid_of_section (yd_indi d)))
             (pid_of_section (yd_posc d)) pp0 (pid_of_section (yd_velc d)))
       (doc_imu d) (doc_odom d).
(** traj_gen_example.cpp:233-384 get_simulation_params_from_yaml. *)
Definition traj_params_from_yaml (d : Doc T) : SimParams T :=
  mkSP (doc_model d) 0%Z (doc_state d)
       (mkCP (vehicle_acro (doc_model d) (yd_kprot d)) (vehicle_indi (doc_model d) (pid_of_section (yd_indi d)))
             pp0 (pid_of_section_traj (yd_traj d)) pp0)
       (doc_imu d) (doc_odom d).

(** fly_example.cpp:406-490 (traj_gen_example.cpp:386-482)
    get_simulation_params_from_code. *)
Definition all3 (x : T) : V3 T := mkV x x x.
Definition code_model : Params T :=
  mkParams (quad_x (lit 191 100000000) (lit 26 100000000) (lit 8 100) (lit 8 100) zero (ofZ 2200) (lit 2 100) (lit 662 100000000))
           one (vdiagm (mkV (lit 49 10000) (lit 49 10000) (lit 69 10000))) (lit 1 10) (vdiagm (all3 (lit 3 1000)))
           (mkV zero zero (lit (-981) 100)) (lit 5 10000) (lit 125 1000000000).
Definition code_indi : IndiParams T :=
  vehicle_indi code_model (pid_of_gains (all3 (ofZ 9)) (all3 (ofZ 3)) (all3 (lit 3 10)) (all3 (lit 6 10)) (all3 one)).
Definition code_acro : AcroParams T := vehicle_acro code_model (mkV (ofZ 20) (ofZ 20) (ofZ 8)).
Definition code_slow : PidParams T := pid_of_gains (all3 half) v0 v0 (pp_alpha pp0) (pp_aw pp0).
Definition code_imu : ImuParams T :=
  mkIMP (lit 3 1000) (lit 5 1000) (lit 1 10000000) (lit 1 10000000) (imp_ori imp0) (imp_seed imp0).
Definition code_odom : OdomParams T := mkODP (lit 9 10) (odp_ori odp0).
Definition fly_params_from_code : SimParams T :=
  mkSP code_model 0%Z (state0 4) (mkCP code_acro code_indi code_slow pp0 code_slow) code_imu code_odom.
Definition traj_params_from_code : SimParams T :=
  mkSP code_model 0%Z (state0 4)
       (mkCP code_acro code_indi code_slow
             (pid_of_gains (all3 (ofZ 10)) (all3 (lit 5 1000)) (all3 (ofZ 6)) v0 (all3 one)) code_slow)
       code_imu code_odom.

(** fly_example.cpp:492-499, 546-552 (traj_gen_example.cpp:484-490, 552-558)
    get_simulation_params and get_simulator: with the file, the floor height is
    the one it names; without it, the initial value of the global (fly_example.cpp:46). *)
Inductive Source := FromFile (d : Doc T) | FromCode.
Inductive Program := FlyExample | TrajExample.
Definition program_params (p : Program) (c : Source) : SimParams T :=
  match p, c with
  | FlyExample, FromFile d => fly_params_from_yaml d
  | FlyExample, FromCode => fly_params_from_code
  | TrajExample, FromFile d => traj_params_from_yaml d
  | TrajExample, FromCode => traj_params_from_code
  end.
Definition program_floor (c : Source) : T := match c with FromFile d => yd_floor d | FromCode => zero end.
Definition get_simulator (p : Program) (c : Source) : option (Sim T G H) :=
  option_map (fun s => arm (enable_floor s (program_floor c))) (sim_new 4 (program_params p c)).

End Config.
Arguments Source : clear implicits.
