(** Proofs: energy and momentum of a vehicle left alone. *)

From Coq Require Import ZArith List Bool Lia Reals Lra Psatz.
From Verif Require Import Scalar LinAlg MUtils MModel MDynamics SpecDyn SpecRun SpecMotion SpecDrift SpecEnergy
  PBase PDyn PModel PDynR PPhys PVeh PDynMore PMotion PGlide PDrift.
From Verif Require PNav.
Import ListNotations.
Local Open Scope R_scope.

(** ** Every step: work *)
Lemma kinetic_work m v v' a dt F : m <> 0 -> (forall x, pr x a = pr x F / m) -> (forall x, pr x v' = pr x v + dt * pr x a) ->
  kinetic m v' - kinetic m v = dt * dot3 F (mean v v').
Proof.
  intros M A V. pose proof (V AX) as X. pose proof (V AY) as Y. pose proof (V AZ) as Z. rewrite A in X, Y, Z. cbn [pr] in X, Y, Z.
  unfold kinetic, mean, dot3, vec_of. cbn [vx vy vz pr]. rewrite X, Y, Z. field. exact M.
Qed.
Lemma spin_work I w w' a dt T : symmetric I -> (forall x, pr x T = mat_vec I a x) -> (forall x, pr x w' = pr x w + dt * pr x a) ->
  spin_energy I w' - spin_energy I w = dt * dot3 T (mean w w').
Proof.
  intros S A V. pose proof (V AX) as X. pose proof (V AY) as Y. pose proof (V AZ) as Z.
  pose proof (A AX) as TX. pose proof (A AY) as TY. pose proof (A AZ) as TZ.
  pose proof (S AX AY) as Sxy. pose proof (S AX AZ) as Sxz. pose proof (S AY AZ) as Syz.
  cbn [pr] in X, Y, Z, TX, TY, TZ. unfold spin_energy, momentum, mean, dot3, vec_of. cbn [vx vy vz pr]. rewrite TX, TY, TZ.
  unfold mat_vec. rewrite X, Y, Z, Sxy, Sxz, Syz. field.
Qed.

Lemma step_work {G : Gen R} n (d d' : Dyn R G) act dt ext noise p : vehicle n d act p -> 0 < dt <= 1/100 ->
  process d act dt ext noise = Ok d' ->
  let s := d_state d in let s' := d_state d' in
  (p_mass p <> 0 -> kinetic (p_mass p) (s_vel s') - kinetic (p_mass p) (s_vel s) = dt * dot3 (s_force s') (mean (s_vel s) (s_vel s'))) /\
  (det3 (p_inertia p) <> 0 -> symmetric (p_inertia p) ->
   spin_energy (p_inertia p) (s_angvel s') - spin_energy (p_inertia p) (s_angvel s) = dt * dot3 (s_torque s') (mean (s_angvel s) (s_angvel s'))).
Proof.
  intros V Hd E. apply (process_small_inv _ _ _ _ _ _ Hd) in E. cbv zeta. split.
  - intros M. apply (kinetic_work _ _ _ (s_linacc (d_state d')) _ _ M); intros x; destruct (step_newton n _ _ _ _ _ _ _ V E x) as (_ & A & B & _); assumption.
  - intros D S. apply (spin_work _ _ _ (s_angacc (d_state d')) _ _ S); intros x; destruct (step_euler n _ _ _ _ _ _ _ V D E x) as (A & _ & B); assumption.
Qed.

(** ** Free fall *)
Lemma fall_energy {G : Gen R} n (D : nat -> Dyn R G) act dt ext p :
  vehicle n (D O) act p -> rotors_off n p (d_state (D O)) act -> p_drag p = 0 -> p_mass p <> 0 ->
  0 < dt <= 1/100 -> steady_flight D act dt ext -> forall k,
  let m := p_mass p in let F := together (p_grav p) ext in
  let E j := kinetic m (s_vel (d_state (D j))) + potential F (s_pos (d_state (D j))) in
  E k = E O + INR k * dt ^ 2 * dot3 F F / (2 * m).
Proof.
  intros V Off Dr M Hd Fl. cbv zeta. induction k as [|k IH]; [cbn [INR]; unfold Rdiv; ring|].
  pose proof (steady_core D act dt ext Hd Fl k) as C. pose proof (steady_vehicle n D act dt ext p Hd Fl V k) as Vk.
  pose proof (steady_off n D act dt ext p V Off Hd Fl k) as Ok.
  pose proof (off_force n _ _ act dt ext p Vk Ok C) as Fo.
  assert (St : forall a, pr a (s_vel (d_state (D (S k)))) = pr a (s_vel (d_state (D k))) + dt * ((pr a (p_grav p) + pr a ext) / p_mass p) /\
    pr a (s_pos (d_state (D (S k)))) = pr a (s_pos (d_state (D k))) + dt * pr a (s_vel (d_state (D k)))).
  { intros a. destruct (step_newton n _ _ _ _ _ _ _ Vk C a) as (_ & A & B & X). rewrite Fo in A. unfold drag_spec in A. rewrite Dr in A.
    split; [rewrite B, A; field; exact M|exact X]. }
  rewrite S_INR.
  replace ((INR k + 1) * dt ^ 2) with (INR k * dt ^ 2 + dt ^ 2) by ring.
  assert (Q : forall E0 x y z, y = E0 + x * z / (2 * p_mass p) -> E0 + (x + dt ^ 2) * z / (2 * p_mass p) = y + dt ^ 2 * z / (2 * p_mass p)) by (intros E0 x y z ->; field; exact M).
  rewrite (Q _ _ _ _ IH). clear Q IH.
  destruct (St AX) as [VX PX], (St AY) as [VY PY], (St AZ) as [VZ PZ]. cbn [pr] in *.
  unfold kinetic, potential, together, dot3, vec_of. cbn [vx vy vz pr]. rewrite VX, VY, VZ, PX, PY, PZ. field. exact M.
Qed.

(** ** Tumbling *)
Definition gyro (I : M3 R) (w : V3 R) : V3 R := vec_of (cross3 w (momentum I w)).
Lemma tumble_step {G : Gen R} n (d d' : Dyn R G) act dt ext p : vehicle n d act p -> rotors_off n p (d_state d) act -> no_air_moment p ->
  euler_core d act dt ext false = Some d' ->
  let s := d_state d in let s' := d_state d' in let I := p_inertia p in
  forall a, mat_vec I (s_angacc s') a = - pr a (gyro I (s_angvel s)) /\ pr a (s_angvel s') = pr a (s_angvel s) + dt * pr a (s_angacc s').
Proof.
  intros V Off (Dt & Ae) C. cbv zeta. intros a. destruct (step_euler n _ _ _ _ _ _ _ V Dt C a) as (T1 & T2 & T3). cbv zeta in *.
  destruct (off_core n _ _ _ _ _ _ _ V Off C) as [_ Mc]. destruct Off as (_ & W & _).
  destruct (step_nonoise d d' act dt _ C) as [Hs _]. rewrite Hs, pr_v0, Mc, W, rotor_torque_still in T2.
  assert (aero_spec (p_aero p) (s_angvel (d_state d)) a = 0) as Z by (unfold aero_spec, mat_vec; rewrite !Ae; ring). rewrite Z in T2.
  split; [|exact T3]. rewrite <- T1. unfold gyro. rewrite pr_vec_of. unfold momentum. lra.
Qed.

Lemma tumble_energy I w al dt w' : symmetric I -> (forall a, mat_vec I al a = - pr a (gyro I w)) -> (forall a, pr a w' = pr a w + dt * pr a al) ->
  spin_energy I w' = spin_energy I w + dt ^ 2 * spin_energy I al /\
  dot3 (momentum I w') (momentum I w') = dot3 (momentum I w) (momentum I w) + dt ^ 2 * dot3 (gyro I w) (gyro I w) /\
  forall a, pr a (momentum I w') = pr a (momentum I w) - dt * pr a (gyro I w).
Proof.
  intros S A V.
  assert (L : forall a, pr a (momentum I w') = pr a (momentum I w) - dt * pr a (gyro I w)).
  { intros a. assert (pr a (momentum I w') = pr a (momentum I w) + dt * mat_vec I al a) as ->; [|rewrite A; ring].
    unfold momentum. rewrite !pr_vec_of. unfold mat_vec. pose proof (V AX) as X. pose proof (V AY) as Y. pose proof (V AZ) as Z. cbn [pr] in X, Y, Z.
    rewrite X, Y, Z. ring. }
  split; [|split; [|exact L]].
  - pose proof (spin_work I w w' al dt (vec_of (mat_vec I al)) S ltac:(intros x; apply pr_vec_of) V) as W.
    assert (Z : dot3 w (vec_of (mat_vec I al)) = 0).
    { pose proof (A AX) as X. pose proof (A AY) as Y. pose proof (A AZ) as K. unfold dot3, vec_of. cbn [vx vy vz]. rewrite X, Y, K.
      unfold gyro, cross3, vec_of, momentum. cbn [pr vx vy vz]. ring. }
    assert (W2 : dot3 (vec_of (mat_vec I al)) (mean w w') = dot3 w (vec_of (mat_vec I al)) + dt * spin_energy I al).
    { pose proof (V AX) as X. pose proof (V AY) as Y. pose proof (V AZ) as K. cbn [pr] in X, Y, K.
      unfold mean, dot3, spin_energy, momentum, vec_of, dot3. cbn [vx vy vz pr]. rewrite X, Y, K. field. }
    rewrite W2, Z in W. lra.
  - pose proof (L AX) as X. pose proof (L AY) as Y. pose proof (L AZ) as Z. cbn [pr] in X, Y, Z. unfold dot3. rewrite X, Y, Z.
    unfold gyro, cross3, vec_of. cbn [vx vy vz]. ring.
Qed.

(** *** Bounds *)
Section Moments.
Variables (I : M3 R) (lo hi : R).
Hypothesis Mb : moments_between I lo hi.
Notation "u * v" := (Rmult u v).

Lemma sq_nonneg v : 0 <= dot3 v v.
Proof. unfold dot3. nra. Qed.
Lemma spin_low w : lo * dot3 w w <= 2 * spin_energy I w.
Proof. destruct Mb as (_ & _ & B). destruct (B w) as [X _]. unfold spin_energy. lra. Qed.
Lemma spin_nonneg w : 0 <= spin_energy I w.
Proof. destruct Mb as (_ & P & _). pose proof (spin_low w). pose proof (sq_nonneg w). assert (0 <= lo * dot3 w w) by (apply Rmult_le_pos; lra). lra. Qed.
Lemma hi_pos : lo <= hi.
Proof. destruct Mb as (_ & P & B). destruct (B (mkV 1 0 0)) as [X Y]. assert (dot3 (mkV 1 0 0) (mkV 1 0 0) = 1) as E by (unfold dot3; cbn [vx vy vz]; ring). rewrite E in *. lra. Qed.

(** Cauchy-Schwarz for the inertia. *)
Lemma form_cs u v : (dot3 u (momentum I v)) ^ 2 <= dot3 u (momentum I u) * dot3 v (momentum I v).
Proof.
  destruct Mb as (S & P & B).
  assert (N : forall x, 0 <= dot3 x (momentum I x)).
  { intros x. pose proof (spin_nonneg x) as X. unfold spin_energy in X. lra. }
  set (A := dot3 u (momentum I u)). set (C := dot3 v (momentum I v)). set (K := dot3 u (momentum I v)).
  assert (Q : forall s t, 0 <= s * s * A + 2 * s * t * K + t * t * C).
  { intros s t. pose proof (N (vec_of (fun a => s * pr a u + t * pr a v))) as X.
    replace (s * s * A + 2 * s * t * K + t * t * C) with (dot3 (vec_of (fun a => s * pr a u + t * pr a v)) (momentum I (vec_of (fun a => s * pr a u + t * pr a v)))); [exact X|].
    unfold A, C, K, momentum, dot3, vec_of, mat_vec. cbn [vx vy vz pr]. rewrite (S AY AX), (S AZ AX), (S AZ AY). ring. }
  assert (A0 : 0 <= A) by apply N. assert (C0 : 0 <= C) by apply N.
  destruct (Req_dec C 0) as [Z|Z].
  - pose proof (Q K (- (A + 1))) as X. rewrite Z in *. assert (0 <= - (K ^ 2 * (A + 2))) as Y by nra.
    pose proof (pow2_ge_0 K). nra.
  - pose proof (Q C (- K)) as X. assert (0 <= C * (A * C - K ^ 2)) as Y by nra.
    assert (0 < C) by lra. assert (0 <= A * C - K ^ 2); [|lra]. apply Rmult_le_reg_l with C; lra.
Qed.
Lemma momentum_high w : dot3 (momentum I w) (momentum I w) <= 2 * hi * spin_energy I w.
Proof.
  destruct Mb as (S & P & B). set (u := momentum I w). pose proof (form_cs u w) as X. fold u in X.
  destruct (B u) as [_ Y]. pose proof (spin_nonneg w) as Z. unfold spin_energy in *. fold u in Z. fold u.
  pose proof (sq_nonneg u) as N. set (q := dot3 u u) in *. set (e := dot3 w u) in *. set (f := dot3 u (momentum I u)) in *.
  destruct (Req_dec q 0) as [E|E]; [rewrite E; pose proof hi_pos; nra|].
  assert (q * q <= hi * q * e) as K by nra. apply Rmult_le_reg_l with q; [lra|]. lra.
Qed.
Lemma accel_low al g : (forall a, mat_vec I al a = - pr a g) -> 2 * lo * spin_energy I al <= dot3 g g.
Proof.
  intros A. destruct Mb as (S & P & B). destruct (B al) as [X _].
  assert (E : dot3 al (momentum I al) = - dot3 al g).
  { pose proof (A AX) as a1. pose proof (A AY) as a2. pose proof (A AZ) as a3. cbn [pr] in *.
    unfold momentum, dot3, vec_of. cbn [vx vy vz]. rewrite a1, a2, a3. ring. }
  unfold spin_energy. rewrite E in *.
  assert (Q : 0 <= dot3 (vec_of (fun a => lo * pr a al + pr a g)) (vec_of (fun a => lo * pr a al + pr a g))) by apply sq_nonneg.
  assert (Q2 : dot3 (vec_of (fun a => lo * pr a al + pr a g)) (vec_of (fun a => lo * pr a al + pr a g)) = lo * (lo * dot3 al al) + 2 * lo * dot3 al g + dot3 g g)
    by (unfold dot3, vec_of; cbn [vx vy vz pr]; ring).
  rewrite Q2 in Q. nra.
Qed.
Lemma gyro_high w : dot3 (gyro I w) (gyro I w) <= dot3 w w * dot3 (momentum I w) (momentum I w).
Proof.
  set (L := momentum I w). assert (E : dot3 (gyro I w) (gyro I w) = dot3 w w * dot3 L L - (dot3 w L) ^ 2).
  { unfold gyro. fold L. unfold dot3, cross3, vec_of. cbn [vx vy vz]. ring. }
  rewrite E. pose proof (pow2_ge_0 (dot3 w L)). lra.
Qed.
Lemma accel_energy w al : (forall a, mat_vec I al a = - pr a (gyro I w)) ->
  spin_energy I al <= 2 * hi / lo ^ 2 * (spin_energy I w) ^ 2.
Proof.
  intros A. pose proof (accel_low al _ A) as X. pose proof (gyro_high w) as Y. pose proof (spin_low w) as Z. pose proof (momentum_high w) as W.
  pose proof (spin_nonneg w) as N. pose proof (sq_nonneg w) as M. destruct Mb as (_ & P & _). pose proof hi_pos as Hh.
  set (E := spin_energy I w) in *. set (q := dot3 w w) in *. set (L := dot3 (momentum I w) (momentum I w)) in *.
  assert (q * L <= q * (2 * hi * E)) as K1 by (apply Rmult_le_compat_l; assumption).
  assert (lo * q * (2 * hi * E) <= 2 * E * (2 * hi * E)) as K2 by (apply Rmult_le_compat_r; [nra|exact Z]).
  apply Rmult_le_reg_l with (2 * lo ^ 2); [nra|].
  replace (2 * lo ^ 2 * (2 * hi / lo ^ 2 * E ^ 2)) with (2 * E * (2 * hi * E)) by (field; lra). nra.
Qed.
End Moments.

Lemma slow_growth (E : nat -> R) c : 0 <= c -> (forall k, 0 <= E k) -> (forall k, E (S k) <= E k + c * (E k) ^ 2) ->
  forall k, E k * (1 - INR k * c * E O) <= E O.
Proof.
  intros C P H. induction k as [|k IH]; [cbn [INR]; lra|]. rewrite S_INR. pose proof (H k) as Hk. pose proof (P k) as Pk. pose proof (P O) as P0. pose proof (P (S k)) as Ps.
  destruct (Rle_dec (1 - (INR k + 1) * c * E O) 0) as [N|N].
  { apply Rle_trans with 0; [|exact P0]. rewrite <- (Rmult_0_r (E (S k))). apply Rmult_le_compat_l; assumption. }
  apply Rnot_le_lt in N.
  set (x := E k) in *. set (e := E O) in *. set (y := E (S k)) in *. set (t := INR k * c * e) in *.
  assert (t + c * e < 1) as T by (unfold t; clear - N; ring_simplify in N; ring_simplify; lra). assert (0 <= c * e) by (apply Rmult_le_pos; assumption).
  assert (0 <= t) by (unfold t; apply Rmult_le_pos; [apply Rmult_le_pos; [apply pos_INR|exact C]|exact P0]).
  replace (1 - (INR k + 1) * c * e) with (1 - t - c * e) by (unfold t; ring).
  (* y <= x (1 + c x), x (1 - t) <= e *)
  apply Rle_trans with ((x + c * x ^ 2) * (1 - t - c * e)); [apply Rmult_le_compat_r; lra|].
  (* with u = 1 - t > 0: x <= e/u *)
  assert (0 < 1 - t) by lra. assert (0 <= 1 - t - c * e) by lra. set (u := 1 - t) in *. assert (x <= e / u) as Xu by (apply Rmult_le_reg_r with u; [lra|]; replace (e / u * u) with e by (field; lra); exact IH).
  apply Rle_trans with ((e / u + c * (e / u) ^ 2) * (u - c * e)).
  - apply Rmult_le_compat_r; [lra|]. assert (x ^ 2 <= (e / u) ^ 2) by (apply pow_incr; lra). assert (c * x ^ 2 <= c * (e / u) ^ 2) by (apply Rmult_le_compat_l; assumption). lra.
  - replace ((e / u + c * (e / u) ^ 2) * (u - c * e)) with (e - c ^ 2 * e ^ 3 / u ^ 2) by (field; lra).
    assert (0 <= c ^ 2 * e ^ 3 / u ^ 2); [|lra]. apply Rmult_le_pos; [apply Rmult_le_pos; [apply pow2_ge_0|apply pow_le; exact P0]|].
    left. apply Rinv_0_lt_compat. nra.
Qed.

Lemma tumble_facts {G : Gen R} n (D : nat -> Dyn R G) act dt ext p :
  vehicle n (D O) act p -> rotors_off n p (d_state (D O)) act -> no_air_moment p ->
  0 < dt <= 1/100 -> steady_flight D act dt ext ->
  forall k, let w := s_angvel (d_state (D k)) in let w' := s_angvel (d_state (D (S k))) in let al := s_angacc (d_state (D (S k))) in
  (forall a, mat_vec (p_inertia p) al a = - pr a (gyro (p_inertia p) w)) /\ (forall a, pr a w' = pr a w + dt * pr a al) /\
  s_ori (d_state (D (S k))) = quat_integrate (s_ori (d_state (D k))) w dt.
Proof.
  intros V Off Na Hd Fl k. cbv zeta.
  pose proof (steady_core D act dt ext Hd Fl k) as C. pose proof (steady_vehicle n D act dt ext p Hd Fl V k) as Vk.
  pose proof (steady_off n D act dt ext p V Off Hd Fl k) as Ok.
  pose proof (tumble_step n _ _ act dt ext p Vk Ok Na C) as T. cbv zeta in T.
  split; [intros a; apply T|]. split; [intros a; apply T|].
  destruct (PNav.core_motion _ _ _ _ _ _ C) as (_ & Or & _). exact Or.
Qed.

Lemma tumble_grows {G : Gen R} n (D : nat -> Dyn R G) act dt ext p lo hi :
  vehicle n (D O) act p -> rotors_off n p (d_state (D O)) act -> no_air_moment p -> moments_between (p_inertia p) lo hi ->
  0 < dt <= 1/100 -> steady_flight D act dt ext ->
  forall k, let I := p_inertia p in let w := s_angvel (d_state (D k)) in let w' := s_angvel (d_state (D (S k))) in
  spin_energy I w' = spin_energy I w + dt ^ 2 * spin_energy I (s_angacc (d_state (D (S k)))) /\ spin_energy I w <= spin_energy I w' /\
  dot3 (momentum I w) (momentum I w) <= dot3 (momentum I w') (momentum I w').
Proof.
  intros V Off Na Mb Hd Fl k. cbv zeta. destruct (tumble_facts n D act dt ext p V Off Na Hd Fl k) as (A & B & _).
  destruct (tumble_energy _ _ _ _ _ (proj1 Mb) A B) as (E & M & _). split; [exact E|].
  split; [|rewrite M; pose proof (sq_nonneg (gyro (p_inertia p) (s_angvel (d_state (D k))))); nra].
  rewrite E. pose proof (spin_nonneg _ _ _ Mb (s_angacc (d_state (D (S k))))). nra.
Qed.

Lemma tumble_bound {G : Gen R} n (D : nat -> Dyn R G) act dt ext p lo hi :
  vehicle n (D O) act p -> rotors_off n p (d_state (D O)) act -> no_air_moment p -> moments_between (p_inertia p) lo hi ->
  0 < dt <= 1/100 -> steady_flight D act dt ext ->
  forall k, let E j := spin_energy (p_inertia p) (s_angvel (d_state (D j))) in
  4 * hi * (INR k * dt) * dt * E O <= lo ^ 2 ->
  E O <= E k <= E O + 4 * hi * (INR k * dt) * dt * (E O) ^ 2 / lo ^ 2.
Proof.
  intros V Off Na Mb Hd Fl k. cbv zeta. set (E := fun j => spin_energy (p_inertia p) (s_angvel (d_state (D j)))). fold (E k) (E O). intros Small.
  assert (P : forall j, 0 <= E j) by (intros j; apply (spin_nonneg _ _ _ Mb)).
  assert (L : 0 < lo) by apply Mb. pose proof (hi_pos _ _ _ Mb) as Hh.
  split. { clear Small. induction k as [|k IH]; [lra|]. eapply Rle_trans; [exact IH|]. apply (tumble_grows n D act dt ext p lo hi V Off Na Mb Hd Fl k). }
  assert (St : forall j, E (S j) <= E j + (2 * hi / lo ^ 2 * dt ^ 2) * E j ^ 2).
  { intros j. destruct (tumble_facts n D act dt ext p V Off Na Hd Fl j) as (A & B & _).
    destruct (tumble_grows n D act dt ext p lo hi V Off Na Mb Hd Fl j) as (X & _). cbv zeta in X. fold (E j) in X. fold (E (S j)) in X.
    pose proof (accel_energy _ _ _ Mb _ _ A) as Y. fold (E j) in Y. rewrite X. assert (0 < dt ^ 2) by nra.
    apply Rplus_le_compat_l. rewrite (Rmult_comm (2 * hi / lo ^ 2)), Rmult_assoc. apply Rmult_le_compat_l; lra. }
  assert (C0 : 0 <= 2 * hi / lo ^ 2 * dt ^ 2).
  { apply Rmult_le_pos; [|nra]. apply Rmult_le_pos; [lra|]. left. apply Rinv_0_lt_compat. nra. }
  pose proof (slow_growth E _ C0 P St k) as S. set (c := 2 * hi / lo ^ 2 * dt ^ 2) in *.
  assert (T : INR k * c * E O <= / 2).
  { apply Rmult_le_reg_l with (2 * lo ^ 2); [nra|]. replace (2 * lo ^ 2 * (INR k * c * E O)) with (4 * hi * (INR k * dt) * dt * E O) by (unfold c; field; lra). lra. }
  replace (4 * hi * (INR k * dt) * dt * E O ^ 2 / lo ^ 2) with (2 * (INR k * c * E O) * E O) by (unfold c; field; lra).
  set (x := INR k * c * E O) in *. assert (0 <= x) by (unfold x; apply Rmult_le_pos; [apply Rmult_le_pos; [apply pos_INR|exact C0]|apply P]).
  pose proof (P k) as Pk. pose proof (P O) as P0.
  apply Rmult_le_reg_r with (1 - x); [lra|]. eapply Rle_trans; [exact S|].
  assert (0 <= E O * (x * (1 - 2 * x))); [|nra]. apply Rmult_le_pos; [exact P0|]. apply Rmult_le_pos; lra.
Qed.
