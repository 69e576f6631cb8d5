(** Physics of one step over the reals: Newton, Euler, attitude, rotors. *)

From Coq Require Import ZArith List Bool Lia Reals Lra Psatz.
From Verif Require Import Scalar LinAlg MUtils MModel MDynamics SpecDyn SpecRun PBase PDyn PModel PDynR.
Import ListNotations.
Local Open Scope R_scope.

Lemma get_params_cfg {T} {O : Ops T} {G : Gen T} (mo : ModelObj T G) p :
  get_params mo = Some p -> exists c, mo_cfg mo = Some c /\ cf_params c = p.
Proof. unfold get_params. destruct (mo_cfg mo) as [c|]; cbn; [|discriminate]. intros H; injection H as <-. eauto. Qed.


Lemma process_small_inv {G : Gen R} (d d' : Dyn R G) act dt ext noise :
  0 < dt <= 1 / 100 -> process d act dt ext noise = Ok d' -> euler_core d act dt ext noise = Some d'.
Proof.
  intros Hdt H. rewrite process_small in H by exact Hdt.
  destruct (euler_core d act dt ext noise); [injection H as <-; reflexivity|discriminate].
Qed.

Lemma step_newton {G : Gen R} n (d d' : Dyn R G) act dt ext noise p :
  vehicle n d act p -> euler_core d act dt ext noise = Some d' ->
  let s := d_state d in let s' := d_state d' in
  forall a,
    pr a (s_force s') =
      to_world (s_ori s) (vec_of (rotor_force (p_motors p) (s_mvel s))) a
      + pr a (p_grav p) + drag_spec (p_drag p) (s_vel s) a + pr a (mo_sforce (d_model d')) + pr a ext
    /\ pr a (s_linacc s') = pr a (s_force s') / p_mass p
    /\ pr a (s_vel s') = pr a (s_vel s) + dt * pr a (s_linacc s')
    /\ pr a (s_pos s') = pr a (s_pos s) + dt * pr a (s_vel s).
Proof.
  intros (Hr & Hp & Hla & Hlw) H s s' a.
  apply get_params_cfg in Hp as [c [Hc Hcp]].
  apply euler_core_inv in H as [_ Hi].
  destruct (Hi c Hc) as (mo & des & macc & mvel & Hn & Hm & Hd & Ha & Hv & E). cbv zeta in E.
  pose proof (model_reach_ok n _ Hr) as [_ Hok]. rewrite Hc in Hok.
  destruct Hok as (_ & Hlen & _ & Hf & _ & _).
  assert (Hms : (n <= length (p_motors p))%nat).
  { apply clamp_motors_le in Hd. rewrite Hcp in Hd. lia. }
  subst d' s s'. cbn [d_state d_model s_force s_linacc s_vel s_pos]. rewrite Hcp in *.
  split; [|split; [|split]].
  - unfold total_force. rewrite !pr_vadd, qrot_R, drag_R.
    unfold to_world, vec_of. cbn [vx vy vz].
    rewrite Hf. change (vx ?v) with (pr AX v). change (vy ?v) with (pr AY v). change (vz ?v) with (pr AZ v).
    rewrite !force_by_motors_R by lia. reflexivity.
  - apply pr_vdiv.
  - rewrite pr_vadd, pr_vscaler. ring.
  - rewrite pr_vadd, pr_vscaler. ring.
Qed.

Lemma step_euler {G : Gen R} n (d d' : Dyn R G) act dt ext noise p :
  vehicle n d act p -> det3 (p_inertia p) <> 0 -> euler_core d act dt ext noise = Some d' ->
  let s := d_state d in let s' := d_state d' in
  forall a,
    pr a (s_torque s') = mat_vec (p_inertia p) (s_angacc s') a
    /\ pr a (s_torque s') + cross3 (s_angvel s) (vec_of (mat_vec (p_inertia p) (s_angvel s))) a =
       rotor_torque (p_motors p) (s_mvel s) (s_macc s') a + aero_spec (p_aero p) (s_angvel s) a
       + pr a (mo_sforce (d_model d'))
    /\ pr a (s_angvel s') = pr a (s_angvel s) + dt * pr a (s_angacc s').
Proof.
  intros (Hr & Hp & Hla & Hlw) Hdet H s s' a.
  apply get_params_cfg in Hp as [c [Hc Hcp]].
  apply euler_core_inv in H as [_ Hi].
  destruct (Hi c Hc) as (mo & des & macc & mvel & Hn & Hm & Hd & Ha & Hv & E). cbv zeta in E.
  pose proof (model_reach_ok n _ Hr) as [_ Hok]. rewrite Hc in Hok.
  destruct Hok as (_ & Hlen & _ & _ & Ht & Him).
  pose proof (clamp_motors_le _ _ _ Hd) as Hms.
  pose proof (clamp_motors_length _ _ _ Hd) as Hld.
  pose proof (motors_derivative_length _ _ _ _ Ha) as Hlm.
  subst d' s s'. cbn [d_state d_model s_torque s_angacc s_angvel s_macc]. rewrite Hcp in *.
  split; [|split].
  - unfold ang_acc. rewrite <- pr_mmulv, minv_R by exact Hdet. reflexivity.
  - unfold total_torque. rewrite pr_vsub, !pr_vadd, Ht, Him, torque_by_motors_R by lia.
    rewrite aero_R, pr_vcross.
    assert (E : vec_of (mat_vec (p_inertia p) (s_angvel (d_state d))) = mmulv (p_inertia p) (s_angvel (d_state d)))
      by reflexivity.
    rewrite E. ring.
  - rewrite pr_vadd, pr_vscaler. ring.
Qed.

(** The stochastic force after a noise-free step. *)
Lemma step_nonoise {T} {O : Ops T} {G : Gen T} (d d' : Dyn T G) act dt ext :
  euler_core d act dt ext false = Some d' -> mo_sforce (d_model d') = v0 /\ mo_smoment (d_model d') = v0.
Proof.
  intros H. apply euler_core_inv in H as [[c Hc] Hi].
  destruct (Hi c Hc) as (mo & des & macc & mvel & Hn & Hm & Hd & Ha & Hv & ->).
  cbn in Hn. injection Hn as <-. split; reflexivity.
Qed.

(** ** Attitude *)
Lemma qsum_sq (q : Quat R) (w : V3 R) dt :
  let r := qadd q (qmap (fun x => mul x dt) (quat_derivative q w)) in
  qsqn r = (qw q ^ 2 + qx q ^ 2 + qy q ^ 2 + qz q ^ 2) * (1 + dot3 w w * dt ^ 2 / 4).
Proof. unfold quat_derivative, dot3. unV. field. Qed.

Lemma qnormalized_unit (q : Quat R) : 0 < qsqn q -> unitq (qnormalized q).
Proof.
  intros H. unfold qnormalized, unitq. unR. assert (Rltb 0 (qsqn q) = true) as -> by (apply Rltb_true; exact H).
  unfold qmap. cbn [qw qx qy qz]. set (z := qsqn q) in *.
  assert (Hs : sqrt z * sqrt z = z) by (apply sqrt_sqrt; lra).
  assert (sqrt z <> 0) by (intros E; rewrite E in Hs; lra).
  replace ((qw q / sqrt z)^2 + (qx q / sqrt z)^2 + (qy q / sqrt z)^2 + (qz q / sqrt z)^2)
    with ((qw q ^2 + qx q ^2 + qy q ^2 + qz q ^2) / (sqrt z * sqrt z)) by (field; exact H0).
  rewrite Hs. unfold z, qsqn in *. unR. field. lra.
Qed.

Lemma quat_step_unit (q : Quat R) (w : V3 R) dt :
  nonzeroq q -> unitq (qnormalized (qadd q (qmap (fun x => mul x dt) (quat_derivative q w)))).
Proof.
  intros H. apply qnormalized_unit. rewrite qsum_sq. unfold nonzeroq in H.
  apply Rmult_lt_0_compat; [exact H|]. unfold dot3. nra.
Qed.

Lemma unitq_nonzero q : unitq q -> nonzeroq q.
Proof. unfold unitq, nonzeroq. lra. Qed.

Lemma step_unit {G : Gen R} (d d' : Dyn R G) act dt ext noise :
  nonzeroq (s_ori (d_state d)) -> euler_core d act dt ext noise = Some d' -> unitq (s_ori (d_state d')).
Proof.
  intros Hq H. apply euler_core_inv in H as [[c Hc] Hi].
  destruct (Hi c Hc) as (mo & des & macc & mvel & Hn & Hm & Hd & Ha & Hv & ->).
  cbn [d_state s_ori]. apply quat_step_unit. exact Hq.
Qed.

Lemma process_unit {G : Gen R} (d d' : Dyn R G) act dt ext noise :
  nonzeroq (s_ori (d_state d)) -> process d act dt ext noise = Ok d' -> unitq (s_ori (d_state d')).
Proof.
  intros Hq. apply (process_inv1 R_sane (fun x => nonzeroq (s_ori (d_state x))) (fun x => unitq (s_ori (d_state x)))).
  - exact Hq.
  - intros x y h Hx E. pose proof (step_unit _ _ _ _ _ _ Hx E) as U. split; [apply unitq_nonzero|]; exact U.
Qed.

Lemma process_unit_any {G : Gen R} (d : Dyn R G) act dt ext noise :
  unitq (s_ori (d_state d)) ->
  match process d act dt ext noise with Ok d' | Throw d' => unitq (s_ori (d_state d')) | UB => True end.
Proof.
  intros Hq. apply (process_inv (fun x => unitq (s_ori (d_state x)))); [exact Hq|].
  intros x y h Hx E. eapply step_unit; [apply unitq_nonzero; exact Hx|exact E].
Qed.

(** ** Rotors: one step *)
Lemma ladd_nth (w a : list R) dt i x :
  nth_error (ladd w (map (fun k => mul k dt) a)) i = Some x ->
  exists u v, nth_error w i = Some u /\ nth_error a i = Some v /\ x = u + v * dt.
Proof.
  unfold ladd, lmap2. revert a i; induction w as [|u w IH]; intros [|v a] [|i] H; cbn in H; try discriminate.
  - injection H as <-. exists u, v. repeat split; reflexivity.
  - destruct (IH a i H) as (u' & v' & A & B & C). exists u', v'. repeat split; assumption.
Qed.

Lemma step_rotor {G : Gen R} (d d' : Dyn R G) act dt ext noise p i w' :
  get_params (d_model d) = Some p -> euler_core d act dt ext noise = Some d' ->
  nth_error (s_mvel (d_state d')) i = Some w' ->
  exists m cmd w, nth_error (p_motors p) i = Some m /\ nth_error act i = Some cmd /\
    nth_error (s_mvel (d_state d)) i = Some w /\
    w' = limited (w + (limited cmd (mt_min m) (mt_max m) - w) / mt_tau m * dt) (mt_min m) (mt_max m).
Proof.
  intros Hp H Hw. apply get_params_cfg in Hp as [c [Hc Hcp]].
  apply euler_core_inv in H as [_ Hi].
  destruct (Hi c Hc) as (mo & des & macc & mvel & Hn & Hm & Hd & Ha & Hv & ->).
  cbn [d_state s_mvel] in Hw. rewrite Hcp in *.
  destruct (clamp_motors_R _ _ _ _ _ Hv Hw) as (y & m & Hy & Hm' & -> & _).
  destruct (ladd_nth _ _ _ _ _ Hy) as (u & v & Hu & Hv' & ->).
  destruct (motors_derivative_R _ _ _ _ _ _ Ha Hv') as (de & cu & m2 & A & B & C & ->).
  destruct (clamp_motors_R _ _ _ _ _ Hd A) as (cmd & m3 & D & E & -> & _).
  assert (m2 = m) by congruence. assert (m3 = m) by congruence. assert (cu = u) by congruence. subst.
  exists m, cmd, u. repeat split; assumption || reflexivity.
Qed.

Lemma limited_id x lo hi : lo <= x <= hi -> limited x lo hi = x.
Proof. intros H. unfold limited. rewrite Rmin_left by lra. apply Rmax_right. lra. Qed.
