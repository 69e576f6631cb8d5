(** Concrete flights for the theorems on whole motions, and counterexamples. *)

From Coq Require Import ZArith List Bool Lia Reals Lra Psatz.
From Verif Require Import Scalar LinAlg MUtils MModel MDynamics SpecDyn SpecRun SpecMix SpecMotion
  PBase PDyn PModel PDynR PPhys PNoise EBase PVeh PMix PWitDyn PDynMore PMotion PGlide.
Import ListNotations.
Local Open Scope R_scope.

(** A quadrotor of mass 2 with unit inertia, gravity [g], drag [c] and no
    aerodynamic moment, moving at [v] and turning at [w]. *)
Definition gl_params (g : V3 R) (c : R) : Params R := mkParams (ex_motors 1) 2 mI c mzero g 0 0.
Definition gl_model (g : V3 R) (c : R) : ModelObj R gen1 :=
  mkModel (G:=gen1) (Some (mkCfg (gl_params g c) (map (fun x => vz (fst (mixer6_col x))) (ex_motors 1))
    (map (fun x => fst (mixer6_col x)) (ex_motors 1)) (map (fun x => snd (mixer6_col x)) (ex_motors 1))
    (map inertia_col (ex_motors 1)))) None (tt : g_eng gen1) (tt : g_dist gen1) v0 v0.
Definition off4 : list R := [0;0;0;0].
Definition gl_dyn (g : V3 R) (c : R) (v w : V3 R) : Dyn R gen1 := mkDyn (gl_model g c) (ex_state v w off4).

Lemma gl_new g c : 0 <= c -> model_new (G:=gen1) 4 (gl_params g c) 0 = Some (gl_model g c).
Proof.
  intros Hc. unfold model_new, update_params.
  assert (K : check_params (gl_params g c) = true).
  { unfold check_params, gl_params. cbn [p_mass p_inertia p_drag p_aero p_motors].
    rewrite (ex_motors_check 1 ltac:(lra)), !mdet_R. unfold det3, mI, mzero, mdiag. cbn [m00 m01 m02 m10 m11 m12 m20 m21 m22].
    unR. rcase; try lra; try reflexivity. }
  rewrite K. cbn [negb].
  unfold compute_mixer_6D, compute_mixer_inertia, cols. cbn [p_motors gl_params ex_motors quad_x length Nat.ltb Nat.leb Nat.sub].
  reflexivity.
Qed.

Lemma gl_vehicle g c v w : 0 <= c -> vehicle 4 (gl_dyn g c v w) off4 (gl_params g c).
Proof.
  intros Hc. split; [|split; [reflexivity|split; reflexivity]]. eapply mr_new. apply gl_new. exact Hc.
Qed.
Lemma gl_off g c v w : rotors_off 4 (gl_params g c) (d_state (gl_dyn g c v w)) off4.
Proof.
  split; [reflexivity|split; [reflexivity|]]. intros i x Hi.
  destruct i as [|[|[|[|i]]]]; cbn in Hi; try (injection Hi as <-; eexists; split; [reflexivity|cbn; lra]).
  destruct i; discriminate.
Qed.
Lemma gl_flight g c v w : 0 <= c -> exists D : nat -> Dyn R gen1, D O = gl_dyn g c v w /\ steady_flight D off4 (1/100) (mkV 0 0 0).
Proof. intros Hc. apply (steady_exists 4 _ off4 (1/100) _ (gl_params g c)); [apply gl_vehicle, Hc|reflexivity|lra]. Qed.
Lemma gl_spins g c w : spins_freely (gl_params g c) w.
Proof.
  split; [|split].
  - unfold gl_params, det3, mI, mdiag. cbn [p_inertia m00 m01 m02 m10 m11 m12 m20 m21 m22]. unR. lra.
  - intros a b. destruct a, b; reflexivity.
  - intros a. unfold cross3, vec_of, mat_vec, gl_params, mI, mdiag. cbn [p_inertia vx vy vz].
    destruct a; unfold ent; cbn [m00 m01 m02 m10 m11 m12 m20 m21 m22]; unR; ring.
Qed.
Lemma gl_unit g c v w : unitq (s_ori (d_state (gl_dyn g c v w))).
Proof. unfold unitq, gl_dyn, ex_state, q1. cbn [d_state s_ori qw qx qy qz]. unR. lra. Qed.

(** ** A turned scene with drag *)
Definition r7 : Quat R := mkQ (4/5) 0 0 (3/5).
Lemma r7_unit : unitq r7.
Proof. unfold unitq, r7. cbn [qw qx qy qz]. lra. Qed.
Lemma turn_r7 v : turn r7 v = mkV (7/25 * vx v - 24/25 * vy v) (24/25 * vx v + 7/25 * vy v) (vz v).
Proof.
  unfold turn, vec_of, to_world, r7, rot_entry. cbn [qw qx qy qz]. apply V3_eq; cbn [vx vy vz]; field.
Qed.
Lemma ex_grav_turn : turn r7 ex_grav = ex_grav.
Proof. rewrite turn_r7. unfold ex_grav. apply V3_eq; cbn [vx vy vz]; field. Qed.

Lemma heading_refuted :
  exists (d d1 d2 : Dyn R gen1) act p r dt,
    vehicle 4 d act p /\ unitq (s_ori (d_state d)) /\ unitq r /\ turn r (p_grav p) = p_grav p /\
    process d act dt (mkV 0 0 0) false = Ok d1 /\
    process (dyn_set_state d (turned r (d_state d))) act dt (turn r (mkV 0 0 0)) false = Ok d2 /\
    s_vel (d_state d2) <> turn r (s_vel (d_state d1)).
Proof.
  set (v := mkV 1 0 0). set (d := gl_dyn ex_grav 1 v (mkV 0 0 0)). set (p := gl_params ex_grav 1).
  pose proof (gl_vehicle ex_grav 1 v (mkV 0 0 0) ltac:(lra)) as V.
  set (e := dyn_set_state d (turned r7 (d_state d))).
  assert (Ve : vehicle 4 e off4 p).
  { destruct V as (A & B & C & L). split; [exact A|split; [exact B|split; [exact C|exact L]]]. }
  destruct (complete_step_defined 4 d off4 (1/100) (mkV 0 0 0) false p V eq_refl ltac:(lra)) as [d1 H1].
  destruct (complete_step_defined 4 e off4 (1/100) (turn r7 (mkV 0 0 0)) false p Ve eq_refl ltac:(lra)) as [d2 H2].
  exists d, d1, d2, off4, p, r7, (1/100).
  split; [exact V|split; [apply gl_unit|split; [exact r7_unit|split; [exact ex_grav_turn|split; [exact H1|split; [exact H2|]]]]]].
  apply process_small_inv in H1; [|lra]. apply process_small_inv in H2; [|lra].
  destruct (step_newton 4 d d1 off4 (1/100) _ false p V H1 AX) as (_ & N2 & N3 & _).
  destruct (step_newton 4 d d1 off4 (1/100) _ false p V H1 AY) as (_ & K2 & K3 & _).
  destruct (step_newton 4 e d2 off4 (1/100) _ false p Ve H2 AX) as (_ & M2 & M3 & _).
  pose proof (off_force 4 d d1 off4 (1/100) _ p V (gl_off ex_grav 1 v (mkV 0 0 0)) H1) as F1.
  assert (Oe : rotors_off 4 p (d_state e) off4).
  { destruct (gl_off ex_grav 1 v (mkV 0 0 0)) as (A & B & C). split; [exact A|split; [exact B|exact C]]. }
  pose proof (off_force 4 e d2 off4 (1/100) _ p Ve Oe H2) as F2.
  pose proof (F1 AX) as F1x. pose proof (F1 AY) as F1y. pose proof (F2 AX) as F2x. clear F1 F2.
  cbv zeta in *. rewrite F1x in N2. rewrite F1y in K2. rewrite F2x in M2. rewrite N2 in N3. rewrite K2 in K3. rewrite M2 in M3.
  intros E. apply (f_equal vx) in E. rewrite turn_r7 in E. cbn [vx] in E.
  change (vx (s_vel (d_state d2))) with (pr AX (s_vel (d_state d2))) in E. rewrite M3 in E.
  change (vx (s_vel (d_state d1))) with (pr AX (s_vel (d_state d1))) in E. rewrite N3 in E.
  change (vy (s_vel (d_state d1))) with (pr AY (s_vel (d_state d1))) in E. rewrite K3 in E.
  unfold e, dyn_set_state in E. cbn [d_state turned s_vel] in E. change (s_vel (d_state d)) with v in E.
  rewrite !turn_r7 in E. unfold drag_spec, sq_signed, v, p, gl_params, ex_grav in E. cbn [p_grav p_drag p_mass pr vx vy vz] in E.
  rewrite (Rabs_right (7/25*1 - 24/25*0)), (Rabs_right 1), Rabs_R0 in E by lra. lra.
Qed.

(** ** A spin that does not turn as far as it should *)
Lemma spin_refuted :
  exists (D : nat -> Dyn R gen1) act dt p,
    vehicle 4 (D O) act p /\ rotors_off 4 p (d_state (D O)) act /\ spins_freely p (s_angvel (d_state (D O))) /\
    unitq (s_ori (d_state (D O))) /\ 0 < dt <= 1/100 /\ steady_flight D act dt (mkV 0 0 0) /\
    let w := s_angvel (d_state (D O)) in
    exists a b, rot_entry (s_ori (d_state (D 1%nat))) a b <>
                rot_entry (turnq (s_ori (d_state (D O))) (about_axis w (len3 w * dt))) a b.
Proof.
  set (w := mkV 0 0 1).
  destruct (gl_flight ex_grav 0 (mkV 0 0 0) w ltac:(lra)) as (D & D0 & H).
  pose proof (gl_vehicle ex_grav 0 (mkV 0 0 0) w ltac:(lra)) as V.
  pose proof (gl_off ex_grav 0 (mkV 0 0 0) w) as F. pose proof (gl_spins ex_grav 0 w) as S.
  pose proof (gl_unit ex_grav 0 (mkV 0 0 0) w) as U.
  rewrite <- D0 in V, F, U.
  assert (W : s_angvel (d_state (D O)) = w) by (rewrite D0; reflexivity).
  rewrite <- W in S.
  exists D, off4, (1/100), (gl_params ex_grav 0).
  split; [exact V|split; [exact F|split; [exact S|split; [exact U|split; [lra|split; [exact H|]]]]]].
  assert (Hw : s_angvel (d_state (D O)) <> mkV 0 0 0).
  { rewrite W. unfold w. intros E. apply (f_equal vz) in E. cbn in E. lra. }
  destruct (spin 4 D off4 (1/100) (mkV 0 0 0) (gl_params ex_grav 0) V F S U Hw ltac:(lra) H 1) as [_ Q].
  cbv zeta. cbv zeta in Q. rewrite Q, W. clear Q.
  assert (L : len3 w = 1).
  { unfold len3, dot3, w. cbn [vx vy vz]. replace (0*0+0*0+1*1) with 1 by ring. apply sqrt_1. }
  assert (Q0 : s_ori (d_state (D O)) = q1) by (rewrite D0; reflexivity). rewrite Q0.
  exists AX, AX.
  assert (E : forall t, rot_entry (turnq q1 (about_axis w t)) AX AX = cos t).
  { intros t. unfold rot_entry, turnq, about_axis, q1. rewrite L. unfold w. cbn [qw qx qy qz vx vy vz]. unR.
    replace (cos t) with (cos (2 * (t / 2))) by (f_equal; field). rewrite cos_2a_sin. field. }
  rewrite !E, L. cbn [INR]. intros C.
  pose proof (atan_less (1 * (1/100) / 2) ltac:(lra)) as A. pose proof PI2_1 as P.
  assert (A0 : 0 < atan (1 * (1/100) / 2)) by (rewrite <- atan_0; apply atan_increasing; lra).
  assert (X : cos (1 * (1/100)) < cos (1 * (2 * atan (1 * (1/100) / 2)))) by (apply cos_decreasing_1; lra).
  lra.
Qed.

(** ** Drag that speeds the vehicle up *)
Lemma drag_refuted :
  exists (D : nat -> Dyn R gen1) act dt p,
    vehicle 4 (D O) act p /\ rotors_off 4 p (d_state (D O)) act /\ 0 < dt <= 1/100 /\ steady_flight D act dt (mkV 0 0 0) /\
    0 < p_mass p /\ 0 < p_drag p /\ p_grav p = mkV 0 0 0 /\
    forall k, 600 * 2 ^ k <= Rabs (vx (s_vel (d_state (D k)))) /\ vx (s_vel (d_state (D k))) * vx (s_vel (d_state (D (S k)))) < 0.
Proof.
  destruct (gl_flight (mkV 0 0 0) 1 (mkV 600 0 0) (mkV 0 0 0) ltac:(lra)) as (D & D0 & H).
  pose proof (gl_vehicle (mkV 0 0 0) 1 (mkV 600 0 0) (mkV 0 0 0) ltac:(lra)) as V.
  pose proof (gl_off (mkV 0 0 0) 1 (mkV 600 0 0) (mkV 0 0 0)) as F. rewrite <- D0 in V, F.
  exists D, off4, (1/100), (gl_params (mkV 0 0 0) 1).
  split; [exact V|split; [exact F|split; [lra|split; [exact H|split; [cbn; lra|split; [cbn; lra|split; [reflexivity|]]]]]]].
  assert (W : pr AX (s_vel (d_state (D O))) = 600) by (rewrite D0; reflexivity).
  intros k.
  destruct (drag_runs_away 4 D off4 (1/100) (mkV 0 0 0) (gl_params (mkV 0 0 0) 1) AX V F ltac:(lra) H) with (k := k) as [A B].
  - cbn; lra.
  - cbn; lra.
  - rewrite W. rewrite Rabs_right by lra. unfold gl_params. cbn [p_mass p_drag]. lra.
  - cbv zeta in A, B. rewrite W in A. rewrite Rabs_right in A by lra.
    unfold gl_params in A. cbn [p_drag p_mass] in A. replace (1 / 2 * 600 * (1/100) - 1) with 2 in A by field.
    split; [exact A|exact B].
Qed.

(** ** Non-vacuity *)
Lemma gl_terminal : exists D : nat -> Dyn R gen1, D O = gl_dyn ex_grav 1 (mkV 0 0 (-1)) (mkV 0 0 0) /\
  vehicle 4 (D O) off4 (gl_params ex_grav 1) /\ rotors_off 4 (gl_params ex_grav 1) (d_state (D O)) off4 /\
  steady_flight D off4 (1/100) (mkV 0 0 0) /\
  0 <= - vz (s_vel (d_state (D O))) /\
  let vt := sqrt (- (vz ex_grav + 0) / 1) in 1 * (vt + Rmax (- vz (s_vel (d_state (D O)))) vt) * (1/100) <= 2.
Proof.
  destruct (gl_flight ex_grav 1 (mkV 0 0 (-1)) (mkV 0 0 0) ltac:(lra)) as (D & D0 & H).
  exists D. split; [exact D0|]. rewrite D0.
  split; [apply gl_vehicle; lra|split; [apply gl_off|split; [exact H|]]].
  cbn [gl_dyn d_state ex_state s_vel vz]. split; [lra|]. cbv zeta.
  assert (S : sqrt (- (vz ex_grav + 0) / 1) <= 4).
  { rewrite <- (sqrt_square 4) by lra. apply sqrt_le_1_alt. unfold ex_grav. cbn [vz]. lra. }
  pose proof (sqrt_pos (- (vz ex_grav + 0) / 1)) as P. unfold Rmax. destruct (Rle_dec _ _); lra.
Qed.

Lemma gl_slows : exists D : nat -> Dyn R gen1, D O = gl_dyn ex_grav 1 (mkV 3 0 0) (mkV 0 0 0) /\
  vehicle 4 (D O) off4 (gl_params ex_grav 1) /\ rotors_off 4 (gl_params ex_grav 1) (d_state (D O)) off4 /\
  steady_flight D off4 (1/100) (mkV 0 0 0) /\ 1 * Rabs (vx (s_vel (d_state (D O)))) * (1/100) <= 2.
Proof.
  destruct (gl_flight ex_grav 1 (mkV 3 0 0) (mkV 0 0 0) ltac:(lra)) as (D & D0 & H).
  exists D. split; [exact D0|]. rewrite D0.
  split; [apply gl_vehicle; lra|split; [apply gl_off|split; [exact H|]]].
  cbn [gl_dyn d_state ex_state s_vel vx]. rewrite Rabs_right; lra.
Qed.

Lemma gl_spinning : exists D : nat -> Dyn R gen1, D O = gl_dyn ex_grav 0 (mkV 0 0 0) (mkV 1 2 3) /\
  vehicle 4 (D O) off4 (gl_params ex_grav 0) /\ rotors_off 4 (gl_params ex_grav 0) (d_state (D O)) off4 /\
  spins_freely (gl_params ex_grav 0) (s_angvel (d_state (D O))) /\ unitq (s_ori (d_state (D O))) /\
  s_angvel (d_state (D O)) <> mkV 0 0 0 /\ steady_flight D off4 (1/100) (mkV 0 0 0).
Proof.
  destruct (gl_flight ex_grav 0 (mkV 0 0 0) (mkV 1 2 3) ltac:(lra)) as (D & D0 & H).
  exists D. split; [exact D0|]. rewrite D0.
  split; [apply gl_vehicle; lra|split; [apply gl_off|split; [apply gl_spins|split; [apply gl_unit|split; [|exact H]]]]].
  intros E. apply (f_equal vx) in E. cbn in E. lra.
Qed.

Lemma gl_turned : get_params (d_model (gl_dyn ex_grav 0 (mkV 1 2 3) (mkV 1 0 2))) = Some (gl_params ex_grav 0) /\
  p_drag (gl_params ex_grav 0) = 0 /\ unitq r7 /\ turn r7 ex_grav = ex_grav /\
  turn r7 (mkV 1 2 3) <> mkV 1 2 3 /\
  exists d', dyn_run (gl_dyn ex_grav 0 (mkV 1 2 3) (mkV 1 0 2)) [mkCall [1;2;3;4] (1/100) (mkV 0 1 0) false; mkCall off4 (1/200) (mkV 0 0 0) false] = Some d'.
Proof.
  split; [reflexivity|split; [reflexivity|split; [exact r7_unit|split; [exact ex_grav_turn|split]]]].
  - rewrite turn_r7. intros E. apply (f_equal vx) in E. cbn [vx vy] in E. lra.
  - set (d := gl_dyn ex_grav 0 (mkV 1 2 3) (mkV 1 0 2)).
    pose proof (gl_vehicle ex_grav 0 (mkV 1 2 3) (mkV 1 0 2) ltac:(lra)) as V.
    assert (V1 : vehicle 4 d [1;2;3;4] (gl_params ex_grav 0)).
    { destruct V as (A & B & C & L). split; [exact A|split; [exact B|split; [reflexivity|exact L]]]. }
    destruct (complete_step_defined 4 d [1;2;3;4] (1/100) (mkV 0 1 0) false _ V1 eq_refl ltac:(lra)) as [d1 H1].
    pose proof H1 as K1. apply process_small_inv in K1; [|lra].
    pose proof (vehicle_core 4 d d1 _ _ _ _ _ V1 K1) as V2.
    assert (V3' : vehicle 4 d1 off4 (gl_params ex_grav 0)).
    { destruct V2 as (A & B & C & L). split; [exact A|split; [exact B|split; [reflexivity|exact L]]]. }
    destruct (complete_step_defined 4 d1 off4 (1/200) (mkV 0 0 0) false _ V3' eq_refl ltac:(lra)) as [d2 H2].
    exists d2. cbn [dyn_run k_act k_dt k_ext k_noise]. rewrite H1, H2. reflexivity.
Qed.
