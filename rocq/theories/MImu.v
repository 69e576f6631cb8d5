(** Model of multirotor_simulator/imu_simulator: imu.hpp and
    inertial_odometry.hpp. *)

From Coq Require Import ZArith List Bool.
From Verif Require Import Scalar LinAlg MUtils.
Import ListNotations.

(** imu.hpp:53-69 IMUParams. *)
Record ImuParams (T : Type) := mkIMP {
  imp_gvar : T;      (* gyro_noise_var *)
  imp_avar : T;      (* accel_noise_var *)
  imp_gac : T;       (* gyro_bias_noise_autocorr_time *)
  imp_aac : T;       (* accel_bias_noise_autocorr_time *)
  imp_ori : Quat T;  (* imu_orientation *)
  imp_seed : Z
}.
Arguments mkIMP {T}. Arguments imp_gvar {T}. Arguments imp_avar {T}. Arguments imp_gac {T}.
Arguments imp_aac {T}. Arguments imp_ori {T}. Arguments imp_seed {T}.

(** imu.hpp:293-317 members. *)
Record Imu (T : Type) (G : Gen T) := mkImu {
  im_eng : g_eng G; im_dist : g_dist G;
  im_gvar : T; im_avar : T; im_gac : T; im_aac : T;
  im_ori : Quat T;     (* imu_orientation_ *)
  im_inv : Quat T;     (* imu_orientation_inverse *)
  im_gbias : V3 T; im_abias : V3 T;
  im_gyro : V3 T; im_accel : V3 T
}.
Arguments mkImu {T G}. Arguments im_eng {T G}. Arguments im_dist {T G}. Arguments im_gvar {T G}.
Arguments im_avar {T G}. Arguments im_gac {T G}. Arguments im_aac {T G}. Arguments im_ori {T G}.
Arguments im_inv {T G}. Arguments im_gbias {T G}. Arguments im_abias {T G}.
Arguments im_gyro {T G}. Arguments im_accel {T G}.

(** inertial_odometry.hpp:54-66 InertialOdometryParams. *)
Record OdomParams (T : Type) := mkODP { odp_alpha : T; odp_ori : Quat T }.
Arguments mkODP {T}. Arguments odp_alpha {T}. Arguments odp_ori {T}.

(** inertial_odometry.hpp:198-212 members. *)
Record Odom (T : Type) := mkOdom {
  od_alpha : T; od_init : Quat T;
  od_gyrof : V3 T; od_accelf : V3 T;
  od_pos : V3 T; od_ori : Quat T; od_vel : V3 T; od_angvel : V3 T; od_linacc : V3 T
}.
Arguments mkOdom {T}. Arguments od_alpha {T}. Arguments od_init {T}. Arguments od_gyrof {T}.
Arguments od_accelf {T}. Arguments od_pos {T}. Arguments od_ori {T}. Arguments od_vel {T}.
Arguments od_angvel {T}. Arguments od_linacc {T}.

Section Imu.
Context {T : Type} {O : Ops T} {G : Gen T}.
Local Open Scope sc_scope.

Definition imp0 : ImuParams T := mkIMP zero zero zero zero q1 0%Z.

(** imu.hpp:97-127 constructors with 328-343
    set_bias_standard_normal_distribution and the initialisers 308-317. *)
Definition imu_new (p : ImuParams T) : Imu T G :=
  let '(gb, (e1, d1)) := draw3 G 2 (sqrtT (imp_gvar p)) (g_seed G (imp_seed p)) (g_dist0 G) in
  let '(ab, (e2, d2)) := draw3 G 3 (sqrtT (imp_avar p)) e1 d1 in
  mkImu e2 d2 (imp_gvar p) (imp_avar p) (imp_gac p) (imp_aac p)
        (imp_ori p) (qinv (imp_ori p)) gb ab v0 v0.

(** imu.hpp:350-372 process_bias. *)
Definition process_bias (i : Imu T G) (dt : T) : Imu T G :=
  let '(gd, (e1, d1)) := draw3 G 4 (sqrtT (im_gac i / dt)) (im_eng i) (im_dist i) in
  let '(ad, (e2, d2)) := draw3 G 5 (sqrtT (im_aac i / dt)) e1 d1 in
  mkImu e2 d2 (im_gvar i) (im_avar i) (im_gac i) (im_aac i) (im_ori i) (im_inv i)
        (vadd (im_gbias i) (vscaler gd dt)) (vadd (im_abias i) (vscaler ad dt))
        (im_gyro i) (im_accel i).

(** imu.hpp:380-394 process_measurement. *)
Definition process_measurement (i : Imu T G) (force w : V3 T) : Imu T G :=
  let '(gn, (e1, d1)) := draw3 G 6 (sqrtT (im_gvar i)) (im_eng i) (im_dist i) in
  let '(an, (e2, d2)) := draw3 G 7 (sqrtT (im_avar i)) e1 d1 in
  mkImu e2 d2 (im_gvar i) (im_avar i) (im_gac i) (im_aac i) (im_ori i) (im_inv i)
        (im_gbias i) (im_abias i)
        (vadd (vadd (qrot (im_inv i) w) (im_gbias i)) gn)
        (vadd (vadd (qrot (im_inv i) force) (im_abias i)) an).

(** imu.hpp:136-146 update. *)
Definition imu_update (i : Imu T G) (dt : T) (force w : V3 T) : Imu T G :=
  if dt <=? zero then i else process_measurement (process_bias i dt) force w.

(** imu.hpp:151-159 reset. *)
Definition imu_reset (i : Imu T G) : Imu T G :=
  mkImu (im_eng i) (im_dist i) (im_gvar i) (im_avar i) (im_gac i) (im_aac i)
        (im_ori i) (im_inv i) v0 v0 v0 v0.

(** imu.hpp:168 set_random_seed: reseeds the engine, keeps the distribution. *)
Definition imu_set_seed (i : Imu T G) (seed : Z) : Imu T G :=
  mkImu (g_seed G seed) (im_dist i) (im_gvar i) (im_avar i) (im_gac i) (im_aac i)
        (im_ori i) (im_inv i) (im_gbias i) (im_abias i) (im_gyro i) (im_accel i).
(** imu.hpp:176-179 set_noise_variances. *)
Definition imu_set_var (i : Imu T G) (g a : T) : Imu T G :=
  mkImu (im_eng i) (im_dist i) g a (im_gac i) (im_aac i)
        (im_ori i) (im_inv i) (im_gbias i) (im_abias i) (im_gyro i) (im_accel i).
(** imu.hpp:187-191 set_bias_autocorrelation_time, 201-208 set_bias. *)
Definition imu_set_bias (i : Imu T G) (gb ab : V3 T) (g a : T) : Imu T G :=
  mkImu (im_eng i) (im_dist i) (im_gvar i) (im_avar i) g a
        (im_ori i) (im_inv i) gb ab (im_gyro i) (im_accel i).
Definition imu_set_ac (i : Imu T G) (g a : T) : Imu T G :=
  imu_set_bias i (im_gbias i) (im_abias i) g a.
(** imu.hpp:215-218 set_orientation. *)
Definition imu_set_ori (i : Imu T G) (q : Quat T) : Imu T G :=
  mkImu (im_eng i) (im_dist i) (im_gvar i) (im_avar i) (im_gac i) (im_aac i)
        q (qinv q) (im_gbias i) (im_abias i) (im_gyro i) (im_accel i).

(** imu.hpp:228-231 get_measurement(gyro, accel): copies both vectors. *)
Definition imu_get_measurement (i : Imu T G) : V3 T * V3 T := (im_gyro i, im_accel i).

(** imu.hpp:239-241 get_measurement(): returns a reference to the temporary
    pair built in the return statement.  The temporary dies with the statement,
    so the result of the call is a reference to [Dead] storage; reading through
    such a reference is undefined. *)
Inductive storage (A : Type) := Live (a : A) | Dead.
Arguments Live {A}. Arguments Dead {A}.
Definition read_ref {A} (r : storage A) : option A :=
  match r with Live a => Some a | Dead => None end.
Definition return_ref_to_temporary {A} (_ : A) : storage A := Dead.
Definition imu_get_measurement_ref (i : Imu T G) : storage (V3 T * V3 T) :=
  return_ref_to_temporary (im_gyro i, im_accel i).
(** imu.hpp:277-280 get_bias, 288-291 get_variances. *)
Definition imu_get_bias (i : Imu T G) : V3 T * V3 T := (im_gbias i, im_abias i).
Definition imu_get_variances (i : Imu T G) : T * T := (im_gvar i, im_avar i).
(** imu.hpp:255, 269: references to members. *)
Definition imu_get_gyro_ref (i : Imu T G) : storage (V3 T) := Live (im_gyro i).
Definition imu_get_accel_ref (i : Imu T G) : storage (V3 T) := Live (im_accel i).

(** Public mutating operations of the IMU. *)
Inductive ImuOp :=
| IUpdate (dt : T) (force w : V3 T) | IReset | ISeed (s : Z) | IVar (g a : T)
| IAc (g a : T) | IBias (gb ab : V3 T) (g a : T) | IOri (q : Quat T).
Definition imu_step (i : Imu T G) (op : ImuOp) : Imu T G :=
  match op with
  | IUpdate dt f w => imu_update i dt f w
  | IReset => imu_reset i
  | ISeed s => imu_set_seed i s
  | IVar g a => imu_set_var i g a
  | IAc g a => imu_set_ac i g a
  | IBias gb ab g a => imu_set_bias i gb ab g a
  | IOri q => imu_set_ori i q
  end.

Definition imu_run (i : Imu T G) (ops : list ImuOp) : Imu T G := fold_left imu_step ops i.

(** inertial_odometry.hpp:121-129 reset. *)
Definition odom_reset (o : Odom T) : Odom T :=
  mkOdom (od_alpha o) (od_init o) v0 v0 v0 (od_init o) v0 v0 v0.

(** inertial_odometry.hpp:90-103 constructors (the range assertion on alpha is
    compiled out with NDEBUG and not modelled); 61-65 default parameters. *)
Definition odom_new (p : OdomParams T) : Odom T :=
  odom_reset (mkOdom (odp_alpha p) (odp_ori p) v0 v0 v0 q1 v0 v0 v0).
Definition odp0 : OdomParams T := mkODP one q1.

(** inertial_odometry.hpp:112-115 set_initial_orientation. *)
Definition odom_set_init (o : Odom T) (q : Quat T) : Odom T :=
  mkOdom (od_alpha o) q (od_gyrof o) (od_accelf o) (od_pos o) q (od_vel o) (od_angvel o) (od_linacc o).

(** inertial_odometry.hpp:221-224 filter_measurement. *)
Definition odom_filter (o : Odom T) (gyro accel : V3 T) : Odom T :=
  let f new old := vadd (vscale (od_alpha o) new) (vscale (one - od_alpha o) old) in
  mkOdom (od_alpha o) (od_init o) (f gyro (od_gyrof o)) (f accel (od_accelf o))
         (od_pos o) (od_ori o) (od_vel o) (od_angvel o) (od_linacc o).

(** inertial_odometry.hpp:231-252 integrate_measurement; the quaternion
    integration (264-305) repeats utils.hpp. *)
Definition odom_integrate (o : Odom T) (dt : T) : Odom T :=
  let w := od_gyrof o in
  let a := qrot (qinv (od_ori o)) (od_accelf o) in
  let q := quat_integrate (od_ori o) w dt in
  let v := vadd (od_vel o) (vscaler a dt) in
  let p := vadd (od_pos o) (vscaler v dt) in
  mkOdom (od_alpha o) (od_init o) (od_gyrof o) (od_accelf o) p q v w a.

(** inertial_odometry.hpp:137-140 update. *)
Definition odom_update (o : Odom T) (gyro accel : V3 T) (dt : T) : Odom T :=
  odom_integrate (odom_filter o gyro accel) dt.

(** inertial_odometry.hpp:151-195 getters. *)
Definition odom_get_position (o : Odom T) : V3 T := od_pos o.
Definition odom_get_orientation (o : Odom T) : Quat T := od_ori o.
Definition odom_get_linear_velocity (o : Odom T) : V3 T := od_vel o.
Definition odom_get_angular_velocity (o : Odom T) : V3 T := od_angvel o.
Definition odom_get_linear_acceleration (o : Odom T) : V3 T := od_linacc o.

(** Public mutating operations of the odometry. *)
Inductive OdomOp := OUpdate (gyro accel : V3 T) (dt : T) | OReset | OInit (q : Quat T).
Definition odom_step (o : Odom T) (op : OdomOp) : Odom T :=
  match op with
  | OUpdate g a dt => odom_update o g a dt
  | OReset => odom_reset o
  | OInit q => odom_set_init o q
  end.
Definition odom_run (o : Odom T) (ops : list OdomOp) : Odom T := fold_left odom_step ops o.

End Imu.
Arguments OdomOp : clear implicits.
Arguments ImuOp : clear implicits.
Arguments Live {A}. Arguments Dead {A}.
