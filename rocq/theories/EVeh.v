(** Examples for the parameter and mixer theorems. *)

From Coq Require Import ZArith List Bool Lia Reals Lra Psatz.
From Verif Require Import Scalar LinAlg MUtils MModel MDynamics SpecDyn SpecRun SpecMix
  PBase PDyn PModel PDynR PPhys PNoise EBase PVeh PMix PWitDyn PDynMore EDyn.
Import ListNotations.
Local Open Scope R_scope.

Lemma ex_rejected : check_params (ex_params 1 (-1) ex_grav 1 1 1) = false.
Proof.
  destruct (check_params _) eqn:E; [|reflexivity]. apply check_params_R in E as (M & _). cbn in M. lra.
Qed.

Lemma exd_reach : ModelReach 4 (d_model exd).
Proof. apply exd_vehicle. Qed.

Lemma exd_meaningful : meaningful 4 exp1.
Proof.
  split; [cbn; lra|]. split.
  { intros v Hv. unfold dot3, vec_of, mat_vec. cbn.
    destruct v as [a b c]. cbn.
    assert (a <> 0 \/ b <> 0 \/ c <> 0) as H.
    { destruct (Req_dec a 0); [|tauto]. destruct (Req_dec b 0); [|tauto]. destruct (Req_dec c 0); [|tauto].
      exfalso. apply Hv. congruence. }
    destruct H as [H|[H|H]]; apply Rsqr_pos_lt in H; unfold Rsqr in H; nra. }
  split; [cbn; lra|]. split.
  { intros v. unfold dot3, vec_of, mat_vec. cbn. nra. }
  split; [reflexivity|].
  unfold exp1, ex_params, ex_motors, quad_x; cbn [p_motors].
  repeat (apply Forall_cons; [unfold meaningful_motor; cbn; lra|]); apply Forall_nil.
Qed.

Lemma meaningful_checked_motor m : meaningful_motor m -> checked_motor m.
Proof. unfold meaningful_motor, checked_motor. lra. Qed.

(** A positive definite matrix need not be symmetric here; its determinant is
    positive, so meaningful parameters pass. *)
Lemma posdef_det m : pos_semidef m -> m01 m = m10 m -> m02 m = m20 m -> m12 m = m21 m -> 0 <= det3 m.
Proof.
  destruct m as [a b c b' d e c' e' f]. intros H. cbn [m00 m01 m02 m10 m11 m12 m20 m21 m22]. intros <- <- <-.
  unfold pos_semidef, dot3, vec_of, mat_vec in H; cbn in H.
  assert (Q : forall x y z, 0 <= a*x*x + d*y*y + f*z*z + 2*b*x*y + 2*c*x*z + 2*e*y*z).
  { intros x y z. specialize (H (mkV x y z)); cbn in H. lra. }
  clear H. unfold det3; cbn.
  assert (Ha : 0 <= a) by (specialize (Q 1 0 0); lra).
  (* evaluate at the last row of the adjugate *)
  set (u := b*e - c*d). set (v := b*c - a*e). set (w := a*d - b*b).
  pose proof (Q u v w) as K.
  assert (E : a*u*u + d*v*v + f*w*w + 2*b*u*v + 2*c*u*w + 2*e*v*w
              = w * (a*d*f + b*e*c + c*b*e - c*d*c - b*b*f - a*e*e)) by (unfold u, v, w; ring).
  rewrite E in K.
  assert (Hw : 0 <= w).
  { unfold w. destruct (Req_dec a 0) as [A|A].
    - pose proof (Q (-d-1) b 0) as K1. pose proof (Q 1 0 0) as K0. rewrite A in *.
      assert (b = 0). { destruct (Req_dec b 0) as [|B]; [assumption|]. exfalso.
        specialize (Q (-(d+1)/(2*b)) 1 0).
        replace (0 * (- (d + 1) / (2 * b)) * (- (d + 1) / (2 * b)) + d * 1 * 1 + f * 0 * 0 +
     2 * b * (- (d + 1) / (2 * b)) * 1 + 2 * c * (- (d + 1) / (2 * b)) * 0 + 2 * e * 1 * 0) with (-1) in Q by (field; exact B).
        lra. }
      subst b. lra.
    - pose proof (Q (-b) a 0) as K1. assert (a*(a*d-b*b) >= 0) by nra.
      destruct (Rlt_dec (a*d-b*b) 0) as [L|L]; [exfalso; assert (0 < a) by lra; nra|lra]. }
  destruct (Req_dec w 0) as [W|W].
  - (* the determinant is then at least zero by perturbation along any vector *)
    unfold w in W.
    destruct (Req_dec a 0) as [A|A].
    + assert (B : b = 0) by (rewrite A in W; nra).
      assert (C : c = 0). { destruct (Req_dec c 0) as [|B0]; [assumption|]. exfalso.
        specialize (Q (-(f+1)/(2*c)) 0 1). rewrite A in Q.
        replace (0 * (- (f + 1) / (2 * c)) * (- (f + 1) / (2 * c)) + d * 0 * 0 + f * 1 * 1 +
     2 * b * (- (f + 1) / (2 * c)) * 0 + 2 * c * (- (f + 1) / (2 * c)) * 1 + 2 * e * 0 * 1) with (-1) in Q by (field; exact B0).
        lra. }
      rewrite A, B, C. lra.
    + assert (D : d = b*b/a). { apply (Rmult_eq_reg_l a); [|exact A]. replace (a * (b*b/a)) with (b*b) by (field; exact A). lra. }
      assert (V : v = 0).
      { destruct (Req_dec v 0) as [|V]; [assumption|]. exfalso.
        (* along (-b,a,0) + t*(...) the form is linear in t *)
        set (t := - (a*(f*a - c*c) + 1) / (2 * (- v) * a) ).
        pose proof (Q (t*(-b) - c) (t*a) a) as K2.
        assert (E2 : a*(t*(-b) - c)*(t*(-b) - c) + d*(t*a)*(t*a) + f*a*a + 2*b*(t*(-b) - c)*(t*a) + 2*c*(t*(-b) - c)*a + 2*e*(t*a)*a
                 = t*t*a*(a*d-b*b) + 2*t*a*(-v) + a*(f*a-c*c)) by (unfold v; ring).
        rewrite E2, W in K2. unfold t in K2.
        replace (- (a * (f * a - c * c) + 1) / (2 * - v * a) * (- (a * (f * a - c * c) + 1) / (2 * - v * a)) * a * 0 +
     2 * (- (a * (f * a - c * c) + 1) / (2 * - v * a)) * a * - v + a * (f * a - c * c)) with (-1) in K2 by (field; split; assumption).
        lra. }
      assert (Ee : e = b*c/a). { apply (Rmult_eq_reg_l a); [|exact A]. replace (a*(b*c/a)) with (b*c) by (field; exact A). unfold v in V. lra. }
      rewrite D, Ee. right. field. exact A.
  - assert (0 < w) by lra. nra.
Qed.

Lemma meaningful_accepted n p : meaningful n p ->
  m01 (p_inertia p) = m10 (p_inertia p) -> m02 (p_inertia p) = m20 (p_inertia p) -> m12 (p_inertia p) = m21 (p_inertia p) ->
  m01 (p_aero p) = m10 (p_aero p) -> m02 (p_aero p) = m20 (p_aero p) -> m12 (p_aero p) = m21 (p_aero p) ->
  check_params p = true.
Proof.
  intros (M & I & D & A & L & F) S1 S2 S3 S4 S5 S6. apply check_params_R.
  split; [lra|]. split; [|split; [exact D|split]].
  - apply posdef_det; try assumption. intros v.
    destruct (Req_dec (vx v) 0) as [X|X]; [destruct (Req_dec (vy v) 0) as [Y|Y]; [destruct (Req_dec (vz v) 0) as [Z|Z]|]|].
    + destruct v as [x y z]; cbn in X, Y, Z; subst. unfold dot3; cbn. lra.
    + left. apply I. intros E. rewrite E in Z. apply Z; reflexivity.
    + left. apply I. intros E. rewrite E in Y. apply Y; reflexivity.
    + left. apply I. intros E. rewrite E in X. apply X; reflexivity.
  - apply posdef_det; assumption.
  - eapply Forall_impl; [|exact F]. intros m. apply meaningful_checked_motor.
Qed.

Lemma update_forgets {T} {O : Ops T} {G : Gen T} n (m1 m2 m1' m2' : ModelObj T G) p :
  check_params p = true -> update_params n m1 p = Some m1' -> update_params n m2 p = Some m2' ->
  get_params m1' = Some p /\ get_params m2' = Some p /\
  (forall w, get_force_by_motors m1' w = get_force_by_motors m2' w) /\
  (forall w, get_thrust_by_motors m1' w = get_thrust_by_motors m2' w) /\
  (forall w a, get_torque_by_motors m1' w a = get_torque_by_motors m2' w a) /\
  (forall v, get_drag_force m1' v = get_drag_force m2' v) /\
  (forall v, get_aero_moment m1' v = get_aero_moment m2' v).
Proof.
  intros Hc H1 H2.
  destruct (update_accepted n m1 m1' p Hc H1) as [P1 _]. destruct (update_accepted n m2 m2' p Hc H2) as [P2 _].
  assert (C : mo_cfg m1' = mo_cfg m2').
  { unfold update_params in *. rewrite Hc in *. cbn [negb] in *.
    destruct (compute_mixer_6D n (p_motors p)); cbn in *; [|discriminate].
    destruct (compute_mixer_inertia n (p_motors p)); cbn in *; [|discriminate].
    injection H1 as <-. injection H2 as <-. reflexivity. }
  split; [exact P1|]. split; [exact P2|].
  unfold get_force_by_motors, get_thrust_by_motors, get_torque_by_motors, get_drag_force, get_aero_moment, bindo.
  rewrite C. repeat split; reflexivity.
Qed.

Lemma ex_update : exists m : ModelObj R gen1, update_params 4 (d_model exd) (ex_params 3 1 ex_grav 0 0 0) = Some m.
Proof. apply update_params_total. cbn. lia. Qed.
Lemma ex_accepted : check_params (ex_params 3 1 ex_grav 0 0 0) = true.
Proof. apply ex_check; lra. Qed.
Lemma ex_vertical : forall m, In m (p_motors exp1) -> mt_rot m = mI.
Proof. intros m Hm. cbn in Hm. repeat destruct Hm as [<-|Hm]; try reflexivity. contradiction. Qed.
Lemma ex_moment : rotor_torque (p_motors exp1) [1;1;2;2] [0;0;0;0] AY = 6.
Proof.
  unfold exp1, ex_params, ex_motors; cbn [p_motors].
  rewrite (proj1 (proj2 (quad_x_moments 1 1 1 1 0 100 (1/10) 0 1 1 2 2))).
  rewrite !sq_signed_pos by lra. lra.
Qed.
