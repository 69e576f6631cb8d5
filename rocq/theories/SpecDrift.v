(** Specification vocabulary: two odometries fed with slightly different
    readings. *)

From Coq Require Import ZArith List Bool Reals.
From Verif Require Import Scalar LinAlg MUtils MModel MDynamics MImu MSim SpecDyn SpecRun SpecImu SpecSim SpecNav.
Import ListNotations.
Local Open Scope R_scope.

(** Distances of vectors and of quaternions. *)
Definition apart (u v : V3 R) : R := sqrt ((vx u - vx v)^2 + (vy u - vy v)^2 + (vz u - vz v)^2).
Definition apartq (p q : Quat R) : R :=
  sqrt ((qw p - qw q)^2 + (qx p - qx q)^2 + (qy p - qy q)^2 + (qz p - qz q)^2).

(** Readings (gyroscope, accelerometer, time step) taken at the same times,
    at most [eg] and [ea] apart; steps up to [h], accelerations up to [A]. *)
Definition close (eg ea : R) (x y : V3 R * (V3 R * R)) : Prop :=
  apart (fst x) (fst y) <= eg /\ apart (fst (snd x)) (fst (snd y)) <= ea /\ snd (snd x) = snd (snd y).
Definition paced (h A : R) (x : V3 R * (V3 R * R)) : Prop := 0 <= snd (snd x) <= h /\ len3 (fst (snd x)) <= A.
(** Time covered. *)
Definition elapsed (l : list (V3 R * (V3 R * R))) : R := fold_right (fun x t => snd (snd x) + t) 0 l.

(** Textbook growth of the errors over a time [t]: a rate error tilts the
    vehicle at that rate, an acceleration error adds up, and a tilt misdirects
    an acceleration of size [A]. *)
Definition speed_error (eg ea A t : R) : R := ea * t + eg * A * t^2 / 2.
Definition place_error (eg ea A h t : R) : R := ea * t * (t + h) / 2 + eg * A * ((t + h)^3 - h^3) / 6.

(** Sensors of the simulator that read the body rate up to [eg] and what an
    ideal IMU would read (C39, C43) up to [ea], under a force up to [F]. *)
Definition sensed {G H : Gen R} (eg ea F : R) (s : Sim R G H) : Prop :=
  apart (im_gyro (sm_imu s)) (s_angvel (sim_state s)) <= eg /\
  apart (im_accel (sm_imu s)) (vec_of (to_world (s_ori (sim_state s)) (s_force (sim_state s)))) <= ea /\
  len3 (s_force (sim_state s)) <= F.

(** Unfiltered odometry started with the orientation of a vehicle that is not
    turning.  Nothing is asked of the IMU: its mounting, noise and bias count
    through [sensed]. *)
Definition real_sensors (sp : SimParams R) : Prop :=
  odp_alpha (sp_odom sp) = 1 /\
  odp_ori (sp_odom sp) = s_ori (sp_state sp) /\ unitq (s_ori (sp_state sp)) /\ s_angvel (sp_state sp) = mkV 0 0 0.

(** One reading along the x axis without rotation. *)
Definition along (e dt : R) : V3 R * (V3 R * R) := (mkV 0 0 0, (mkV e 0 0, dt)).
