(** A motion known in closed form, and its simulation. *)

From Coq Require Import ZArith List Bool Lia Reals Lra.
From Verif Require Import Scalar LinAlg MUtils MModel MDynamics MPid MControl MCtlRun MImu MSim
  SpecDyn SpecRun SpecMotion SpecPid SpecCtl SpecImu SpecSim SpecTrue SpecTrueSim
  PBase PDyn PModel PDynR PPhys PMix PHover EBase ECtl ESim PTrue PTrueSim.
Import ListNotations.
Local Open Scope R_scope.

(** A quadrotor of weight 4 turning at 2 rad/s whose rotors gather speed from 1 to 3/2. *)
Definition E (t : R) : R := exp (-10 * t).
Definition whirl (t : R) : State R :=
  let w := 3/2 - E t / 2 in
  mkState (mkV 0 0 (5/2 * t * t - 3/50 * E t + E t * E t / 400 - 11/20 * t + 23/400)) (mkQ (cos t) 0 0 (sin t))
    (mkV 0 0 (5 * t + 3/5 * E t - E t * E t / 20 - 11/20)) (mkV 0 0 2) (mkV 0 0 0) (mkV 0 0 0) (mkV 0 0 0) (mkV 0 0 0) [w;w;w;w] [0;0;0;0].
Definition whirl_model : Params R := mkParams (quad_x 1 1 1 1 0 100 (1/10) 0) 1 mI 0 mzero (mkV 0 0 (-4)) 0 0.
Definition sp_whirl : SimParams R :=
  mkSP whirl_model 0 (whirl 0)
       (mkCP (mkAP 1 mI (mkV 0 0 (-4))) (mkIP mI inv_ex cpx_pid) cpx_pid cpx_pid cpx_pid) imp_plain (mkODP 1 (level 0)).
Definition whirl_cmd : list R := [3/2;3/2;3/2;3/2].

Lemma D_ext f g t l l' : derivable_pt_lim f t l -> (forall u, f u = g u) -> l = l' -> derivable_pt_lim g t l'.
Proof. intros Hf E' <- e He. destruct (Hf e He) as [d Hd]. exists d. intros h H0 H1. rewrite <- !E'. apply Hd; assumption. Qed.
Lemma D_const k t : derivable_pt_lim (fun _ => k) t 0.
Proof. apply derivable_pt_lim_const. Qed.
Lemma D_id t : derivable_pt_lim (fun u => u) t 1.
Proof. apply derivable_pt_lim_id. Qed.
Lemma D_add f g t a b : derivable_pt_lim f t a -> derivable_pt_lim g t b -> derivable_pt_lim (fun u => f u + g u) t (a + b).
Proof. intros Hf Hg. exact (derivable_pt_lim_plus f g t a b Hf Hg). Qed.
Lemma D_mul f g t a b : derivable_pt_lim f t a -> derivable_pt_lim g t b -> derivable_pt_lim (fun u => f u * g u) t (a * g t + f t * b).
Proof. intros Hf Hg. exact (derivable_pt_lim_mult f g t a b Hf Hg). Qed.
Lemma D_scal k f t a : derivable_pt_lim f t a -> derivable_pt_lim (fun u => k * f u) t (k * a).
Proof. intros Hf. exact (derivable_pt_lim_scal f k t a Hf). Qed.
Lemma D_E t : derivable_pt_lim E t (-10 * E t).
Proof.
  apply (D_ext (comp exp (fun u => -10 * u)) E t (exp (-10 * t) * (-10 * 1))); [|reflexivity|unfold E; ring].
  apply derivable_pt_lim_comp; [apply D_scal, D_id|apply derivable_pt_lim_exp].
Qed.

Lemma E_pos t : 0 < E t.
Proof. apply exp_pos. Qed.
Lemma E_one t : 0 <= t -> E t <= 1.
Proof. intros Ht. unfold E. rewrite <- exp_0. destruct (Req_dec t 0) as [->|N]; [right; f_equal; ring|]. left. apply exp_increasing. lra. Qed.

Lemma spin_limited : limited (3/2) 0 100 = 3/2.
Proof. unfold limited, Rmax, Rmin. repeat destruct Rle_dec; lra. Qed.

Lemma whirl_true T : true_motion whirl_model whirl_cmd (mkV 0 0 0) T whirl.
Proof.
  pose proof D_E as DE.
  assert (DP : forall t, derivable_pt_lim (fun u => 5/2 * u * u - 3/50 * E u + E u * E u / 400 - 11/20 * u + 23/400) t (5 * t + 3/5 * E t - E t * E t / 20 - 11/20)).
  { intros t. eapply D_ext.
    - apply D_add; [apply D_scal, D_mul; apply D_id|]. apply D_add; [apply (D_scal (-3/50)), (DE t)|]. apply D_add; [apply (D_scal (1/400)), D_mul; apply (DE t)|].
      apply D_add; [apply (D_scal (-11/20)), D_id|apply (D_const (23/400))].
    - intros u. cbv beta. instantiate (1 := 5/2). field.
    - cbv beta. field. }
  assert (DV : forall t, derivable_pt_lim (fun u => 5 * u + 3/5 * E u - E u * E u / 20 - 11/20) t (5 - 6 * E t + E t * E t)).
  { intros t. eapply D_ext.
    - apply D_add; [apply (D_scal 5), D_id|]. apply D_add; [apply (D_scal (3/5)), (DE t)|]. apply D_add; [apply (D_scal (-1/20)), D_mul; apply (DE t)|apply (D_const (-11/20))].
    - intros u. cbv beta. field.
    - cbv beta. field. }
  assert (Tz : forall t a, rotor_torque (p_motors whirl_model) (s_mvel (whirl t)) (rotor_pull (p_motors whirl_model) whirl_cmd (s_mvel (whirl t))) a = 0).
  { intros t a. unfold whirl_model, whirl_cmd, whirl. cbn [p_motors s_mvel]. unfold quad_x. cbn [rotor_pull mt_min mt_max mt_tau].
    exact (quad_x_torque 1 1 1 1 0 100 (1/10) 0 _ _ a). }
  split.
  - intros t. reflexivity.
  - intros t a _. unfold moves. destruct a; [exact (D_const 0 t)|exact (D_const 0 t)|]. exact (DP t).
  - intros t a [Ht _]. unfold moves.
    assert (Fc : true_force whirl_model (mkV 0 0 0) (whirl t) a / p_mass whirl_model = match a with AZ => 5 - 6 * E t + E t * E t | _ => 0 end).
    { unfold true_force, vec_of. change (p_motors whirl_model) with (quad_x 1 1 1 1 0 100 (1/10) 0). unfold whirl. cbn [s_mvel s_ori s_vel].
      rewrite !quad_x_force. pose proof (level_up (2 * t) (4 * 1 * sq_signed (3/2 - E t / 2)) a) as L. unfold level in L. replace (2 * t / 2) with t in L by field. rewrite L.
      pose proof (E_pos t). pose proof (E_one t Ht). unfold drag_spec. unfold sq_signed at 1. rewrite (Rabs_pos_eq (3/2 - E t / 2)) by lra.
      cbn [p_grav p_drag p_mass whirl_model]. destruct a; cbn [pr vx vy vz]; field. }
    rewrite Fc. destruct a; [exact (D_const 0 t)|exact (D_const 0 t)|]. exact (DV t).
  - intros t c _ [<-|[<-|[<-|[<-|[]]]]]; unfold moves, turning, whirl; cbn [coord s_ori s_angvel qw qx qy qz vx vy vz].
    + apply (D_ext cos cos t (- sin t)); [apply derivable_pt_lim_cos|reflexivity|field].
    + apply (D_ext (fun _ => 0) (fun _ => 0) t 0); [apply D_const|reflexivity|field].
    + apply (D_ext (fun _ => 0) (fun _ => 0) t 0); [apply D_const|reflexivity|field].
    + apply (D_ext sin sin t (cos t)); [apply derivable_pt_lim_sin|reflexivity|field].
  - intros t _. exists (mkV 0 0 0). split; [intros a; unfold moves; destruct a; [exact (D_const 0 t)|exact (D_const 0 t)|exact (D_const 2 t)]|].
    intros a. unfold true_torque. rewrite Tz. unfold aero_spec, mat_vec, cross3, vec_of, mat_vec, whirl, whirl_model. cbn [p_inertia p_aero s_angvel]. unfold mI, mzero, mdiag.
    destruct a; cbn [ent pr vx vy vz m00 m01 m02 m10 m11 m12 m20 m21 m22]; unR; ring.
  - intros t i _. unfold moves, whirl_model, whirl_cmd, whirl. cbn [p_motors s_mvel coord]. unfold quad_x. cbn [rotor_pull mt_min mt_max mt_tau]. unR. rewrite spin_limited.
    assert (DW : derivable_pt_lim (fun u => 3/2 - E u / 2) t ((3/2 - (3/2 - E t / 2)) / (1/10))).
    { eapply D_ext.
      - apply D_add; [apply (D_const (3/2))|apply (D_scal (-1/2)), (DE t)].
      - intros u. cbv beta. field.
      - field. }
    destruct i as [|[|[|[|i]]]]; cbn [nth]; try exact DW. destruct i; exact (D_const 0 t).
Qed.

Lemma whirl_check : check_params whirl_model = true.
Proof.
  unfold check_params, whirl_model. cbn [p_mass p_inertia p_drag p_aero p_motors]. fold (ex_motors 1). rewrite (ex_motors_check 1) by lra.
  rewrite !mdet_R. unfold det3, mI, mzero, mdiag. cbn [m00 m01 m02 m10 m11 m12 m20 m21 m22]. unR. rcase; try lra; try reflexivity.
Qed.

Section Ex.
Context {G H : Gen R}.
Lemma whirl_case : true_motion whirl_model whirl_cmd (mkV 0 0 0) 1 whirl /\ coord CZ (whirl 1) = sin 1 /\
  exists C d1, 0 < d1 /\ 0 <= C /\ forall dt k, 0 < dt <= d1 -> dt <= 1/100 -> INR k * dt <= 1 ->
    exists s : Sim R G H, sim_after 4 sp_whirl (motor_calls whirl_cmd dt dt k) = Some s /\ agree (C * dt) (sim_state s) (whirl (INR k * dt)).
Proof.
  split; [apply whirl_true|]. split; [reflexivity|].
  destruct (sim_converges (G := G) (H := H) 4 sp_whirl whirl_cmd 1 whirl) as (C & d1 & P1 & P0 & Cv).
  - split; [exact whirl_check|]. split; [reflexivity|]. split; reflexivity.
  - reflexivity.
  - change (p_mass (sp_model sp_whirl)) with 1. lra.
  - change (p_inertia (sp_model sp_whirl)) with (mI (T := R)). unfold det3, mI, mdiag. cbn [m00 m01 m02 m10 m11 m12 m20 m21 m22]. unR. lra.
  - unfold unitq. cbn [sp_whirl sp_state whirl s_ori qw qx qy qz]. rewrite cos_0, sin_0. ring.
  - assert (W : 3/2 - E 0 / 2 = 1) by (unfold E; rewrite Rmult_0_r, exp_0; field).
    cbn [sp_whirl sp_state sp_model whirl_model whirl s_mvel p_motors]. rewrite W. unfold quad_x.
    intros i x Hx. destruct i as [|[|[|[|i]]]]; cbn [nth_error] in Hx; try (injection Hx as <-; eexists; split; [reflexivity|cbn [mt_min mt_max]; unR; lra]). destruct i; discriminate Hx.
  - reflexivity.
  - lra.
  - apply whirl_true.
  - exists C, d1. split; [exact P1|]. split; [exact P0|]. intros dt k Hd Hm Hk.
    destruct (Cv dt dt 0) with (k := k) as (s & S1 & S2); try assumption; [lra| | |].
    + intros m Hin. change (p_motors (sp_model sp_whirl)) with (quad_x 1 1 1 1 0 100 (1/10) 0) in Hin. unfold quad_x in Hin. cbn [In] in Hin.
      destruct Hin as [<-|[<-|[<-|[<-|[]]]]]; cbn [mt_tau]; lra.
    + intros c. change (sp_state sp_whirl) with (whirl 0). unfold Rminus. rewrite Rplus_opp_r, Rabs_R0. lra.
    + exists s. split; [exact S1|]. rewrite Rplus_0_r in S2. exact S2.
Qed.
End Ex.
