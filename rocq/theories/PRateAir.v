(** Where the air resists turning: a state that the rate loop does not leave. *)

From Coq Require Import ZArith List Bool Lia Reals Lra Psatz.
From Verif Require Import Scalar LinAlg MUtils MModel MDynamics MPid MControl MCtlRun MImu MSim
  SpecDyn SpecRun SpecMix SpecPid SpecCtl SpecImu SpecSim SpecVertical SpecClimb SpecRate
  PBase PDyn PModel PDynR PPhys PNoise PDynMore PVeh PMix PPid PPidR PCtl PCtlR PCtlMix PImu PSim PSimR PHover PSimEnd PVertical PClimb PSink PClimbSim PRate PRateSim.
Import ListNotations.
Local Open Scope R_scope.

Section Sim.
Context {G H : Gen R}.
Variables (a : Ax) (up : bool) (p : Params R) (inv : list (V3 R * V3 R)) (I T Kp tau kf kt x y mn mx J r e0 dt : R).
Let L := lever kf kt x y a.
Let m := I / L.
Let u := speed kf (T + m * Kp * e0).
Let v := speed kf (T - m * Kp * e0).
Hypotheses (Hq : p_motors p = quad_x kf kt x y mn mx tau J) (HJ : a = AZ -> J = 0) (Hkt : 0 < kt) (Hx : 0 < x) (Hy : 0 < y)
  (Hinv : quad_inverse (quad_x kf kt x y mn mx tau J) = Some inv)
  (Hn : p_fnoise p = 0) (Hax : forall b, mat_vec (p_inertia p) (along a 1) b = pr b (along a I)) (HI : 0 < I)
  (Hdet : det3 (p_inertia p) <> 0)
  (Hk : 0 < kf) (HT : 0 < T) (HK : 0 < Kp) (Hd : 0 < dt <= 1/100)
  (H0 : 2 * (I * Kp * e0) <= T * L) (He : 0 <= e0) (Hu : mn <= u <= mx) (Hv : mn <= v <= mx)
  (Hair : forall b, aero_spec (p_aero p) (along a (r - sg up * e0)) b = pr b (along a (- (sg up * (I * (Kp * e0)))))).

Let HL : 0 < L.
Proof using Hkt Hx Hy Hk. unfold L, lever. destruct a; [exact Hy|exact Hx|]. apply Rmult_lt_0_compat; [exact Hkt|apply Rinv_0_lt_compat; exact Hk]. Qed.

Lemma stuck_motion s s' : rating (G := G) (H := H) a up p inv T Kp r e0 e0 u v s -> sm_act s = split_in a up u v -> next (update_dynamics s dt) s' ->
  rating a up p inv T Kp r e0 e0 u v s'.
Proof.
  intros [V A M F X Rt Ra In Mi P W Ro] Act N.
  destruct N as [N|N].
  2:{ destruct (ud_throw R_sane _ _ _ N) as [K _]. unR. apply Rleb_true in K. lra. }
  destruct (ud_ok _ _ _ N) as (ext & d & Fm & E & _ & E'). cbv zeta in E'.
  assert (Bf : below_floor s = false) by (unfold below_floor; rewrite F; reflexivity).
  rewrite Bf in E. rewrite X in E. subst ext.
  assert (Bf2 : below_floor (with_col (with_ext (with_dyn s d) v0) false) = false).
  { unfold below_floor. cbn [with_col with_ext with_dyn sm_floor_en]. rewrite F. reflexivity. }
  rewrite Bf2 in E'. subst s'.
  unfold free_motion in Fm. apply process_small_inv in Fm; [|lra].
  pose proof (vehicle_core _ _ _ _ _ _ _ _ V Fm) as V'.
  pose proof V as (Hr & Hp & Hla & Hlw). apply get_params_cfg in Hp as [c [Hc Hcp]].
  pose proof Fm as Fi. apply euler_core_inv in Fi as [_ Hi]. destruct (Hi c Hc) as (mo & des & macc & mvel & _ & _ & I1 & I2 & I3 & I4). cbv zeta in I4.
  rewrite Hcp in *. fold (sim_state s) in *. rewrite Act in I1. rewrite Ro in I2, I3.
  rewrite (split_clamp a up p tau kf kt x y mn mx J Hq u v Hu Hv) in I1. injection I1 as <-.
  rewrite (split_deriv a up p tau kf kt x y mn mx J Hq) in I2. injection I2 as <-.
  assert (Nx : ladd (split_in a up u v) (map (fun q => q * dt) (split_in a up ((u - u) / tau) ((v - v) / tau))) = split_in a up u v).
  { clearbody u v. clear. assert (E : forall w, w + (w - w) / tau * dt = w) by (intros w; unfold Rdiv; ring).
    unfold split_in. destruct a, up; cbn; unR; rewrite !E; reflexivity. }
  unR. rewrite Nx in I3. rewrite (split_clamp a up p tau kf kt x y mn mx J Hq u v Hu Hv) in I3. injection I3 as <-.
  split; cbn [with_col with_ext with_dyn sm_armed sm_mode sm_floor_en sm_refs sm_ctl sm_ext sm_dyn sm_act]; try assumption; try reflexivity.
  - (* rate *)
    pose proof (silent_core _ _ _ _ _ _ p (proj1 (proj2 V)) Hn Fm) as Hs.
    pose proof (step_euler 4 _ _ _ _ _ _ p V Hdet Fm) as Nw. cbv zeta in Nw.
    assert (Mac : s_macc (d_state d) = split_in a up ((u - u) / tau) ((v - v) / tau)) by (rewrite I4; reflexivity).
    fold (sim_state s) in Nw. rewrite W, Ro, Mac, Hs in Nw.
    unfold sim_state. cbn [with_col with_ext with_dyn sm_dyn].
    assert (Sq : sg up * (2 * kf * L * (sq_signed u - sq_signed v)) = sg up * (I * (Kp * e0))).
    { assert (B : 0 <= m * Kp * e0) by (apply Rmult_le_pos; [apply Rmult_le_pos|]; try lra; unfold m; apply Rmult_le_pos; [lra|left; apply Rinv_0_lt_compat; exact HL]).
      assert (B' : m * Kp * e0 <= T).
      { apply Rmult_le_reg_r with L; [exact HL|]. replace (m * Kp * e0 * L) with (I * Kp * e0) by (unfold m; field; lra).
        assert (0 <= I * Kp * e0) by (apply Rmult_le_pos; [apply Rmult_le_pos|]; lra). lra. }
      pose proof (lift_speed kf Hk (T + m * Kp * e0) ltac:(lra)) as E1. pose proof (lift_speed kf Hk (T - m * Kp * e0) ltac:(lra)) as E2.
      fold u in E1. fold v in E2. unfold lift in E1, E2. unfold sq_signed.
      rewrite (Rabs_pos_eq u), (Rabs_pos_eq v) by apply sqrt_pos.
      replace (2 * kf * L * (u * u - v * v)) with (L / 2 * (4 * kf * (u * u) - 4 * kf * (v * v))) by field.
      replace (4 * kf * (u * u)) with (T + m * Kp * e0) by lra. replace (4 * kf * (v * v)) with (T - m * Kp * e0) by lra. unfold m. field. lra. }
    assert (Acc : s_angacc (d_state d) = along a 0).
    { rewrite <- (minv_l (p_inertia p) (s_angacc (d_state d)) Hdet), <- (minv_l (p_inertia p) (along a 0) Hdet). f_equal.
      rewrite (along_mul _ a I _ Hax). apply pr_ext. intros b. rewrite pr_mmulv. destruct (Nw b) as (N1 & N2 & _). rewrite <- N1. rewrite Hq in N2.
      rewrite (split_torque kf kt x y mn mx tau J a up _ _ _ _ b Hk HJ) in N2. fold L in N2. rewrite Sq, Hair in N2.
      assert (Cr : cross3 (along a (r - sg up * e0)) (vec_of (mat_vec (p_inertia p) (along a (r - sg up * e0)))) b = 0).
      { replace (vec_of (mat_vec (p_inertia p) (along a (r - sg up * e0)))) with (along a (I * (r - sg up * e0))).
        - clear. destruct a, b; cbn [along]; unfold cross3; cbn [vx vy vz pr]; ring.
        - rewrite <- (along_mul _ a I _ Hax). apply pr_ext. intros b'. rewrite pr_mmulv. destruct b'; reflexivity. }
      rewrite Cr in N2. replace (pr b LinAlg.v0) with 0 in N2 by (destruct b; reflexivity).
      set (q := sg up * (I * (Kp * e0))) in *. clearbody q. clear - N2. destruct a, b; cbn [along pr vx vy vz] in *; lra. }
    apply pr_ext. intros b. destruct (Nw b) as (_ & _ & ->). rewrite Acc. clear. destruct a, b; cbn [along pr vx vy vz]; ring.
  - (* rotors *) unfold sim_state. cbn [with_col with_ext with_dyn sm_dyn]. rewrite I4. reflexivity.
Qed.

Lemma stuck_rounds s k : rating (G := G) (H := H) a up p inv T Kp r e0 e0 u v s -> forall s', sim_run 4 s (rounds dt k) = Some s' ->
  rating a up p inv T Kp r e0 e0 u v s'.
Proof.
  intros C. induction k as [|k IH]; intros s' K.
  - injection K as <-. exact C.
  - rewrite rounds_snoc, run_app in K. destruct (sim_run 4 s (rounds dt k)) as [s1|]; [|discriminate]. specialize (IH s1 eq_refl).
    cbn [sim_run sim_step] in K.
    assert (R : let s' := update_controller 4 s1 dt in rating a up p inv T Kp r e0 e0 u v s' /\ sm_act s' = split_in a up u v).
    { apply (rate_control a up p inv I T Kp tau kf kt x y mn mx J r e0 dt); try assumption. lra. }
    cbv zeta in R. destruct R as [C1 C2].
    destruct (update_dynamics (update_controller 4 s1 dt) dt) as [s2|s2|] eqn:U; [| |discriminate]; injection K as <-;
    (apply (stuck_motion (update_controller 4 s1 dt)); [exact C1|exact C2|]); [left|right]; exact U.
Qed.
End Sim.
