(** Example: a tumbling vehicle with principal moments 1, 2 and 3. *)

From Coq Require Import ZArith List Bool Lia Reals Lra Psatz.
From Verif Require Import Scalar LinAlg MUtils MModel MDynamics SpecDyn SpecRun SpecMotion SpecDrift SpecEnergy
  PBase PDyn PModel PDynR PPhys PVeh PDynMore PMotion PGlide PDrift PDriftSim PEnergy PSpinMom EBase EMotion.
Import ListNotations.
Local Open Scope R_scope.

Definition tb_inertia : M3 R := mkM 1 0 0 0 2 0 0 0 3.
Definition tb_params : Params R := mkParams (ex_motors 1) 2 tb_inertia 0 mzero ex_grav 0 0.
Definition tb_model : ModelObj R gen1 :=
  mkModel (G:=gen1) (Some (mkCfg tb_params (map (fun x => vz (fst (mixer6_col x))) (ex_motors 1))
    (map (fun x => fst (mixer6_col x)) (ex_motors 1)) (map (fun x => snd (mixer6_col x)) (ex_motors 1))
    (map inertia_col (ex_motors 1)))) None (tt : g_eng gen1) (tt : g_dist gen1) v0 v0.
Definition tb_dyn : Dyn R gen1 := mkDyn tb_model (ex_state (mkV 1 0 2) (mkV 1 1 0) off4).

Lemma tb_new : model_new (G:=gen1) 4 tb_params 0 = Some tb_model.
Proof.
  unfold model_new, update_params.
  assert (K : check_params tb_params = true).
  { unfold check_params, tb_params, tb_inertia. cbn [p_mass p_inertia p_drag p_aero p_motors].
    rewrite (ex_motors_check 1 ltac:(lra)), !mdet_R. unfold det3, mzero, mdiag. cbn [m00 m01 m02 m10 m11 m12 m20 m21 m22].
    unR. rcase; try lra; try reflexivity. }
  rewrite K. cbn [negb].
  unfold compute_mixer_6D, compute_mixer_inertia, cols. cbn [p_motors tb_params ex_motors quad_x length Nat.ltb Nat.leb Nat.sub].
  reflexivity.
Qed.
Lemma tb_vehicle : vehicle 4 tb_dyn off4 tb_params.
Proof. split; [|split; [reflexivity|split; reflexivity]]. eapply mr_new. exact tb_new. Qed.
Lemma tb_off : rotors_off 4 tb_params (d_state tb_dyn) off4.
Proof.
  split; [reflexivity|split; [reflexivity|]]. intros i x Hi.
  destruct i as [|[|[|[|i]]]]; cbn in Hi; try (injection Hi as <-; eexists; split; [reflexivity|cbn; lra]).
  destruct i; discriminate.
Qed.
Lemma tb_air : no_air_moment tb_params.
Proof.
  split.
  - unfold tb_params, det3, tb_inertia. cbn [p_inertia m00 m01 m02 m10 m11 m12 m20 m21 m22]. lra.
  - intros a b. destruct a, b; reflexivity.
Qed.
Lemma tb_moments : moments_between (p_inertia tb_params) 1 3.
Proof.
  split; [intros a b; destruct a, b; reflexivity|]. split; [lra|]. intros v.
  assert (E : dot3 v (momentum (p_inertia tb_params) v) = vx v * vx v + 2 * (vy v * vy v) + 3 * (vz v * vz v)).
  { unfold momentum, dot3, vec_of, mat_vec. cbn [p_inertia tb_params vx vy vz pr]. unfold ent, tb_inertia. cbn [m00 m01 m02 m10 m11 m12 m20 m21 m22]. ring. }
  rewrite E. unfold dot3. pose proof (Rle_0_sqr (vx v)). pose proof (Rle_0_sqr (vy v)). pose proof (Rle_0_sqr (vz v)). unfold Rsqr in *. lra.
Qed.
Lemma tb_unit : unitq (s_ori (d_state tb_dyn)).
Proof. unfold unitq, tb_dyn, ex_state, q1. cbn [d_state s_ori qw qx qy qz]. unR. lra. Qed.
Lemma tb_energy : spin_energy (p_inertia tb_params) (s_angvel (d_state tb_dyn)) = 3/2.
Proof.
  unfold spin_energy, momentum, dot3, vec_of, mat_vec, tb_dyn, ex_state. cbn [d_state s_angvel p_inertia tb_params vx vy vz pr]. unfold ent, tb_inertia. cbn [m00 m01 m02 m10 m11 m12 m20 m21 m22]. field.
Qed.

Lemma tumbling_case : exists D : nat -> Dyn R gen1, D O = tb_dyn /\ steady_flight D off4 (1/100) (mkV 0 0 0) /\
  vehicle 4 (D O) off4 tb_params /\ rotors_off 4 tb_params (d_state (D O)) off4 /\ no_air_moment tb_params /\ moments_between (p_inertia tb_params) 1 3 /\
  unitq (s_ori (d_state (D O))) /\ p_drag tb_params = 0 /\ p_mass tb_params = 2 /\ spin_energy (p_inertia tb_params) (s_angvel (d_state (D O))) = 3/2.
Proof.
  destruct (steady_exists 4 tb_dyn off4 (1/100) (mkV 0 0 0) tb_params tb_vehicle eq_refl ltac:(lra)) as (D & E & F).
  exists D. rewrite E. split; [reflexivity|]. split; [exact F|]. split; [exact tb_vehicle|]. split; [exact tb_off|]. split; [exact tb_air|].
  split; [exact tb_moments|]. split; [exact tb_unit|]. split; [reflexivity|]. split; [reflexivity|]. exact tb_energy.
Qed.

(** Left alone it gains energy and angular momentum, and it gains total energy
    while it falls. *)
Lemma kept_refuted : exists (D : nat -> Dyn R gen1) act dt p, vehicle 4 (D O) act p /\ rotors_off 4 p (d_state (D O)) act /\
  no_air_moment p /\ moments_between (p_inertia p) 1 3 /\ unitq (s_ori (d_state (D O))) /\ p_drag p = 0 /\ 0 < dt <= 1/100 /\ steady_flight D act dt (mkV 0 0 0) /\
  let s := d_state (D O) in let s' := d_state (D 1%nat) in
  spin_energy (p_inertia p) (s_angvel s) < spin_energy (p_inertia p) (s_angvel s') /\
  kinetic (p_mass p) (s_vel s) + potential (p_grav p) (s_pos s) < kinetic (p_mass p) (s_vel s') + potential (p_grav p) (s_pos s').
Proof.
  destruct tumbling_case as (D & E & F & V & Of & Na & Mb & U & Dr & Ms & _). exists D, off4, (1/100), tb_params.
  split; [exact V|]. split; [exact Of|]. split; [exact Na|]. split; [exact Mb|]. split; [exact U|]. split; [exact Dr|]. assert (Hd : 0 < 1/100 <= 1/100) by lra.
  split; [exact Hd|]. split; [exact F|]. cbv zeta. split.
  - destruct (tumble_facts 4 D off4 (1/100) (mkV 0 0 0) tb_params V Of Na Hd F 0%nat) as (A & B & _).
    destruct (tumble_energy _ _ _ _ _ (proj1 Mb) A B) as (En & _). rewrite En.
    assert (0 < spin_energy (p_inertia tb_params) (s_angacc (d_state (D 1%nat)))); [|nra].
    pose proof (A AZ) as Z. rewrite E in Z. set (al := s_angacc (d_state (D 1%nat))) in *. clear - Z.
    unfold gyro, cross3, momentum, mat_vec, vec_of, tb_dyn, ex_state in Z. cbn [d_state s_angvel p_inertia tb_params vx vy vz pr] in Z.
    unfold ent, tb_inertia in Z. cbn [m00 m01 m02 m10 m11 m12 m20 m21 m22] in Z.
    unfold spin_energy, momentum, dot3, vec_of, mat_vec. cbn [p_inertia tb_params vx vy vz pr]. unfold ent, tb_inertia. cbn [m00 m01 m02 m10 m11 m12 m20 m21 m22].
    assert (vz al = -1/3) as -> by lra. pose proof (Rle_0_sqr (vx al)). pose proof (Rle_0_sqr (vy al)). unfold Rsqr in *. lra.
  - assert (Mn : p_mass tb_params <> 0) by (rewrite Ms; lra).
    pose proof (fall_energy 4 D off4 (1/100) (mkV 0 0 0) tb_params V Of Dr Mn Hd F 1%nat) as K. cbv zeta in K.
    assert (G2 : together (p_grav tb_params) (mkV 0 0 0) = p_grav tb_params).
    { apply pr_ext. intros a. unfold together. rewrite pr_vec_of. destruct a; cbn [pr vx vy vz]; ring. }
    rewrite G2 in K. rewrite K. assert (0 < INR 1 * (1/100) ^ 2 * dot3 (p_grav tb_params) (p_grav tb_params) / (2 * p_mass tb_params)); [|lra].
    rewrite Ms. unfold tb_params, ex_grav, dot3. cbn [p_grav vx vy vz INR]. lra.
Qed.
