(** Specification vocabulary: leaning to one side. *)

From Coq Require Import Reals.
From Verif Require Import Scalar LinAlg MPid MControl MCtlRun SpecDyn SpecPid SpecCtl.
Local Open Scope R_scope.

(** The part of a vector ahead of, and to the left of, a heading. *)
Definition ahead (yaw : R) (v : V3 R) : R := vx v * cos yaw + vy v * sin yaw.
Definition leftward (yaw : R) (v : V3 R) : R := vy v * cos yaw - vx v * sin yaw.

(** Attitude gains, each axis for itself. *)
Definition own_gains (K : M3 R) (kx ky kz : R) : Prop := K = mkM kx 0 0 0 ky 0 0 0 kz.

(** How far an attitude leans (its thrust axis) along the horizontal part of [f]. *)
Definition lean (A : M3 R) (f : V3 R) : R := ent A AX AZ * vx f + ent A AY AZ * vy f.

(** A force that tilts the vehicle moderately (a cosine above 1/3, and more the
    further the demanded heading is from the vehicle's). *)
Definition mild_tilt (d : R) (f : V3 R) : Prop :=
  0 < vz f /\ len3 f < 3 * vz f /\ len3 f < 3 * vz f + 2 * (len3 f * cos d).
Definition sideways (f : V3 R) : Prop := vx f <> 0 \/ vy f <> 0.

(** The lean along [f] grows as the vehicle turns along [path]. *)
Definition leans_along (path : R -> M3 R) (t : R) (f : V3 R) : Prop :=
  exists r, derivable_pt_lim (fun s => lean (path s) f) t r /\ 0 < r.

(** A loop that treats the horizontal axes alike: equal positive gains, an
    integral that the error does not overrun in its first step, and limits, if
    any, that scale the whole output. *)
Definition even_loop (p : Pid R) (dt : R) (e : V3 R) : Prop :=
  0 < vx (pid_kp p) /\ vy (pid_kp p) = vx (pid_kp p) /\ 0 <= vx (pid_ki p) /\ vy (pid_ki p) = vx (pid_ki p) /\
  (forall a, 0 <= pr a (pid_aw p)) /\
  ((forall a, pr a (pid_aw p) = 0) \/ Rabs (vx e * dt) <= vx (pid_aw p) /\ Rabs (vy e * dt) <= vy (pid_aw p)) /\
  (pid_sat_on p = true -> pid_prop_on p = true /\ forall a, pr a (snd (pid_limits p)) < 0 < pr a (fst (pid_limits p))).
