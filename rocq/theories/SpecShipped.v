(** Specification vocabulary: examples/simulation_config.yaml as it is shipped,
    as a tree and as numbers. *)

From Coq Require Import ZArith List Bool String.
From Verif Require Import Scalar LinAlg MUtils MConfig MYaml.
Import ListNotations.
Local Open Scope string_scope.

(** The file, lines 1-93; comments are not part of the tree. *)
Definition shipped : Yaml := YMap [
  ("sim_config", YMap [
    ("sim_time", YText "60.0");
    ("dt", YText "0.001");
    ("trajectory_generator_max_speed", YText "10.0");
    ("trajectory_generator_waypoints", YSeq [
      YSeq [YText "10.0"; YText "-10.0"; YText "6.0"];
      YSeq [YText "10.0"; YText "10.0"; YText "3.0"];
      YSeq [YText "-10.0"; YText "-10.0"; YText "6.0"];
      YSeq [YText "-10.0"; YText "10.0"; YText "3.0"];
      YSeq [YText "0.0"; YText "0.0"; YText "3.0"]]);
    ("velocity_references", YSeq [
      YSeq [YText "0.0"; YText "0.0"; YText "2.0"];
      YSeq [YText "0.0"; YText "0.0"; YText "0.0"];
      YSeq [YText "1.0"; YText "0.0"; YText "0.0"];
      YSeq [YText "0.0"; YText "0.0"; YText "0.0"];
      YSeq [YText "0.0"; YText "1.0"; YText "0.0"];
      YSeq [YText "0.0"; YText "0.0"; YText "0.0"];
      YSeq [YText "1.0"; YText "1.0"; YText "0.0"];
      YSeq [YText "0.0"; YText "0.0"; YText "0.0"]]);
    ("position_references", YSeq [
      YSeq [YText "0.0"; YText "0.0"; YText "1.0"];
      YSeq [YText "0.0"; YText "0.0"; YText "2.0"];
      YSeq [YText "0.0"; YText "0.0"; YText "1.0"];
      YSeq [YText "1.0"; YText "0.0"; YText "1.0"];
      YSeq [YText "0.0"; YText "0.0"; YText "1.0"];
      YSeq [YText "0.0"; YText "1.0"; YText "1.0"];
      YSeq [YText "0.0"; YText "0.0"; YText "1.0"];
      YSeq [YText "1.0"; YText "1.0"; YText "1.0"];
      YSeq [YText "0.0"; YText "0.0"; YText "1.0"]]);
    ("yaw_rate_reference", YText "0.1");
    ("floor_height", YText "0.0")]);
  ("dynamics", YMap [
    ("state", YMap [
      ("position", YSeq [YText "0.0"; YText "0.0"; YText "0.0"]);
      ("orientation", YSeq [YText "0.9659258"; YText "0.0"; YText "0.0"; YText "0.2588192"]);
      ("linear_velocity", YSeq [YText "0.0"; YText "0.0"; YText "0.0"]);
      ("angular_velocity", YSeq [YText "0.0"; YText "0.0"; YText "0.0"]);
      ("linear_acceleration", YSeq [YText "0.0"; YText "0.0"; YText "0.0"]);
      ("angular_acceleration", YSeq [YText "0.0"; YText "0.0"; YText "0.0"])]);
    ("model", YMap [
      ("gravity", YSeq [YText "0.0"; YText "0.0"; YText "-9.81"]);
      ("vehicle_mass", YText "1.0");
      ("vehicle_inertia", YSeq [YText "0.0049"; YText "0.0049"; YText "0.0069"]);
      ("vehicle_drag_coefficient", YText "0.1");
      ("vehicle_aero_moment_coefficient", YSeq [YText "0.003"; YText "0.003"; YText "0.003"]);
      ("force_process_noise_auto_correlation", YText "0.0005");
      ("moment_process_noise_auto_correlation", YText "1.25e-7");
      ("motors_params", YMap [
        ("thrust_coefficient", YText "1.91e-6");
        ("torque_coefficient", YText "2.6e-7");
        ("x_dist", YText "0.08");
        ("y_dist", YText "0.08");
        ("min_speed", YText "0.0");
        ("max_speed", YText "2200.0");
        ("time_constant", YText "0.02");
        ("rotational_inertia", YText "6.62e-6")])])]);
  ("controller", YMap [
    ("indi", YMap [
      ("Kp", YSeq [YText "9.0"; YText "9.0"; YText "9.0"]);
      ("Ki", YSeq [YText "3.0"; YText "3.0"; YText "3.0"]);
      ("Kd", YSeq [YText "0.3"; YText "0.3"; YText "0.3"]);
      ("alpha", YSeq [YText "0.6"; YText "0.6"; YText "0.6"]);
      ("antiwindup_cte", YSeq [YText "1.0"; YText "1.0"; YText "1.0"]);
      ("angular_acceleration_limit", YSeq [YText "0.0"; YText "0.0"; YText "0.0"])]);
    ("acro", YMap [
      ("kp_rot", YSeq [YText "20.0"; YText "20.0"; YText "8.0"])]);
    ("trajectory", YMap [
      ("Kp", YSeq [YText "10.0"; YText "10.0"; YText "10.0"]);
      ("Ki", YSeq [YText "0.005"; YText "0.005"; YText "0.005"]);
      ("Kd", YSeq [YText "6.0"; YText "6.0"; YText "6.0"]);
      ("antiwindup_cte", YSeq [YText "1.0"; YText "1.0"; YText "1.0"]);
      ("linear_acceleration_limit", YSeq [YText "0.0"; YText "0.0"; YText "0.0"])]);
    ("velocity", YMap [
      ("Kp", YSeq [YText "6.0"; YText "6.0"; YText "10.0"]);
      ("Ki", YSeq [YText "1.0"; YText "1.0"; YText "2.0"]);
      ("Kd", YSeq [YText "0.4"; YText "0.4"; YText "0.0"]);
      ("alpha", YSeq [YText "0.05"; YText "0.05"; YText "0.0"]);
      ("antiwindup_cte", YSeq [YText "1.0"; YText "1.0"; YText "1.0"]);
      ("acceleration_limit", YSeq [YText "4.0"; YText "4.0"; YText "4.0"])]);
    ("position", YMap [
      ("Kp", YSeq [YText "1.0"; YText "1.0"; YText "1.0"]);
      ("Ki", YSeq [YText "0.01"; YText "0.01"; YText "0.01"]);
      ("Kd", YSeq [YText "0.0"; YText "0.0"; YText "0.0"]);
      ("alpha", YSeq [YText "0.1"; YText "0.1"; YText "0.0"]);
      ("antiwindup_cte", YSeq [YText "0.5"; YText "0.5"; YText "0.5"]);
      ("velocity_limit", YSeq [YText "10.0"; YText "10.0"; YText "10.0"])])]);
  ("imu", YMap [
    ("gyro_noise_var", YText "0.003");
    ("accel_noise_var", YText "0.0005");
    ("gyro_bias_noise_autocorr_time", YText "0.0");
    ("accel_bias_noise_autocorr_time", YText "0.0")]);
  ("inertial_odometry", YMap [
    ("alpha", YText "0.9")])].

(** The numbers written in it. *)
Definition table {T} {O : Ops T} : list (string * T) := [
  ("60.0", ofZ 60); ("0.001", lit 1 1000); ("10.0", ofZ 10); ("-10.0", ofZ (-10));
  ("6.0", ofZ 6); ("3.0", ofZ 3); ("0.0", zero); ("2.0", ofZ 2); ("1.0", ofZ 1); ("0.1", lit 1 10);
  ("0.9659258", lit 9659258 10000000); ("0.2588192", lit 2588192 10000000); ("-9.81", lit (-981) 100); ("0.0049", lit 49 10000); ("0.0069", lit 69 10000); ("0.003", lit 3 1000);
  ("0.0005", lit 5 10000); ("1.25e-7", lit 125 1000000000); ("1.91e-6", lit 191 100000000); ("2.6e-7", lit 26 100000000); ("0.08", lit 8 100); ("2200.0", ofZ 2200);
  ("0.02", lit 2 100); ("6.62e-6", lit 662 100000000); ("9.0", ofZ 9); ("0.3", lit 3 10); ("0.6", lit 6 10); ("20.0", ofZ 20); ("8.0", ofZ 8); ("0.005", lit 5 1000);
  ("0.4", lit 4 10); ("0.05", lit 5 100); ("4.0", ofZ 4); ("0.01", lit 1 100); ("0.5", lit 5 10); ("0.9", lit 9 10)].
Definition reads_table {T} {O : Ops T} (num : string -> option T) : Prop := forall s x, In (s, x) table -> num s = Some x.

(** What it says, in numbers. *)
Section Doc.
Context {T : Type} {O : Ops T}.
Definition thrice (x : T) : V3 T := mkV x x x.
Definition shipped_doc : Doc T :=
  mkDoc zero v0 (mkQ (lit 9659258 10000000) zero zero (lit 2588192 10000000)) v0 v0 v0 v0
    (mkV zero zero (lit (-981) 100)) (ofZ 1) (mkV (lit 49 10000) (lit 49 10000) (lit 69 10000)) (lit 1 10) (thrice (lit 3 1000))
    (lit 5 10000) (lit 125 1000000000)
    (lit 191 100000000) (lit 26 100000000) (lit 8 100) (lit 8 100) zero (ofZ 2200) (lit 2 100) (lit 662 100000000)
    (mkPidSec (thrice (ofZ 9)) (thrice (ofZ 3)) (thrice (lit 3 10)) (thrice (lit 6 10)) (thrice (ofZ 1)) v0)
    (mkV (ofZ 20) (ofZ 20) (ofZ 8))
    (mkPidSec (thrice (ofZ 10)) (thrice (lit 5 1000)) (thrice (ofZ 6)) v0 (thrice (ofZ 1)) v0)
    (mkPidSec (mkV (ofZ 6) (ofZ 6) (ofZ 10)) (mkV (ofZ 1) (ofZ 1) (ofZ 2)) (mkV (lit 4 10) (lit 4 10) zero) (mkV (lit 5 100) (lit 5 100) zero)
              (thrice (ofZ 1)) (thrice (ofZ 4)))
    (mkPidSec (thrice (ofZ 1)) (thrice (lit 1 100)) v0 (mkV (lit 1 10) (lit 1 10) zero) (thrice (lit 5 10)) (thrice (ofZ 10)))
    (lit 3 1000) (lit 5 10000) zero zero (lit 9 10).
Definition shipped_positions : list (V3 T) :=
  [mkV zero zero (ofZ 1); mkV zero zero (ofZ 2); mkV zero zero (ofZ 1); mkV (ofZ 1) zero (ofZ 1); mkV zero zero (ofZ 1);
   mkV zero (ofZ 1) (ofZ 1); mkV zero zero (ofZ 1); mkV (ofZ 1) (ofZ 1) (ofZ 1); mkV zero zero (ofZ 1)].
Definition shipped_velocities : list (V3 T) :=
  [mkV zero zero (ofZ 2); v0; mkV (ofZ 1) zero zero; v0; mkV zero (ofZ 1) zero; v0; mkV (ofZ 1) (ofZ 1) zero; v0].
Definition shipped_waypoints : list (V3 T) :=
  [mkV (ofZ 10) (ofZ (-10)) (ofZ 6); mkV (ofZ 10) (ofZ 10) (ofZ 3); mkV (ofZ (-10)) (ofZ (-10)) (ofZ 6);
   mkV (ofZ (-10)) (ofZ 10) (ofZ 3); mkV zero zero (ofZ 3)].
End Doc.
