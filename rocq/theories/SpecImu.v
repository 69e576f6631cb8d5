(** Specification vocabulary for the IMU and the inertial odometry. *)

From Coq Require Import ZArith List Bool Reals.
From Verif Require Import Scalar LinAlg MUtils MImu SpecDyn.
Import ListNotations.

(** ** The random stream: successive draws of the generator *)
Section Stream.
Context {T : Type} (G : Gen T).
Definition Rng : Type := (g_eng G * g_dist G)%type.
Definition rng_value (s : Rng) : T := fst (g_draw G (fst s) (snd s)).
Definition rng_next (s : Rng) : Rng := snd (g_draw G (fst s) (snd s)).
Fixpoint rng_skip (k : nat) (s : Rng) : Rng :=
  match k with O => s | S k' => rng_skip k' (rng_next s) end.
Definition nth_draw (s : Rng) (k : nat) : T := rng_value (rng_skip k s).
(** Three consecutive draws, starting with the k-th, put on the three axes in
    the order in which the compiler evaluates the arguments at that place. *)
Definition sample (place : nat) (s : Rng) (k : nat) : V3 T :=
  papply (g_perm G place) (nth_draw s k) (nth_draw s (1 + k)) (nth_draw s (2 + k)).
(** Distributions that produce values in pairs and keep the second one, as
    the polar and Box-Muller methods do: nothing is kept after two draws. *)
Definition paired : Prop := forall e, snd (rng_skip 2 (e, g_dist0 G)) = g_dist0 G.
End Stream.

Section Hist.
Context {T : Type} {O : Ops T} {G : Gen T}.
Definition imu_rng (i : Imu T G) : Rng G := (im_eng i, im_dist i).
(** Settings in force after a history of calls: the last ones given. *)
Definition mount_of (p : ImuParams T) (ops : list (ImuOp T)) : Quat T :=
  fold_left (fun q op => match op with IOri q' => q' | _ => q end) ops (imp_ori p).
Definition corr_of (p : ImuParams T) (ops : list (ImuOp T)) : T * T :=
  fold_left (fun c op => match op with IAc g a => (g, a) | IBias _ _ g a => (g, a) | _ => c end) ops (imp_gac p, imp_aac p).
Definition vars_of (p : ImuParams T) (ops : list (ImuOp T)) : T * T :=
  fold_left (fun c op => match op with IVar g a => (g, a) | _ => c end) ops (imp_gvar p, imp_avar p).
(** An IMU used in any way after construction. *)
Definition imu_after (p : ImuParams T) (ops : list (ImuOp T)) : Imu T G := imu_run (imu_new p) ops.
(** One update per element: time step, force, angular velocity. *)
Definition updates (l : list (T * (V3 T * V3 T))) : list (ImuOp T) :=
  map (fun x => IUpdate (fst x) (fst (snd x)) (snd (snd x))) l.
End Hist.

Local Open Scope R_scope.

(** No noise: variances, correlations and biases zero, and never set otherwise. *)
Definition ideal (p : ImuParams R) : Prop := imp_gvar p = 0 /\ imp_avar p = 0 /\ imp_gac p = 0 /\ imp_aac p = 0.
Definition ideal_op (op : ImuOp R) : Prop :=
  match op with
  | IVar g a => g = 0 /\ a = 0
  | IAc g a => g = 0 /\ a = 0
  | IBias gb ab g a => gb = mkV 0 0 0 /\ ab = mkV 0 0 0 /\ g = 0 /\ a = 0
  | _ => True
  end.
(** Random walk: one step of standard deviation [sqrt (c * dt)] per update,
    each update taking twelve draws, of which it uses three starting at [k]. *)
Fixpoint walk (G : Gen R) (place k : nat) (c : R) (l : list (R * (V3 R * V3 R))) (s : Rng G) (a : Ax) : R :=
  match l with
  | [] => 0
  | x :: r => sqrt (c * fst x) * pr a (sample G place s k) + walk G place k c r (rng_skip G 12 s) a
  end.

(** ** Odometry *)
(** Exponential moving average of the readings [l], oldest first, from [y]. *)
Fixpoint average (al : R) (l : list R) (y : R) : R :=
  match l with
  | [] => y
  | x :: r => average al r (al * x + (1 - al) * y)
  end.
(** Closed form of the weights: the k-th newest reading counts al*(1-al)^k. *)
Fixpoint weighted (al : R) (newest_first : list R) : R :=
  match newest_first with
  | [] => 0
  | x :: r => al * x + (1 - al) * weighted al r
  end.
Definition odom_updates (l : list (V3 R * (V3 R * R))) : list (OdomOp R) :=
  map (fun x => OUpdate (fst x) (fst (snd x)) (snd (snd x))) l.
(** Odometry started with a proper orientation and never given an improper one. *)
Definition proper_init (op : OdomOp R) : Prop := match op with OInit q => nonzeroq q | _ => True end.
(** One step of the attitude kinematics with body rate [w]. *)
Definition attitude_step (q : Quat R) (w : V3 R) (dt : R) (q' : Quat R) : Prop :=
  unitq q' /\ exists k, 0 < k /\
    k * qw q' = qw q + dt / 2 * (- qx q * vx w - qy q * vy w - qz q * vz w) /\
    k * qx q' = qx q + dt / 2 * (qw q * vx w + qy q * vz w - qz q * vy w) /\
    k * qy q' = qy q + dt / 2 * (qw q * vy w + qz q * vx w - qx q * vz w) /\
    k * qz q' = qz q + dt / 2 * (qw q * vz w + qx q * vy w - qy q * vx w).
