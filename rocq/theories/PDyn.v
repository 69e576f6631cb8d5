(** Proofs about the dynamics: any arithmetic. *)

From Coq Require Import ZArith List Bool Lia.
From Verif Require Import Scalar LinAlg MUtils MModel MDynamics SpecDyn SpecRun PBase.
Import ListNotations.

Section Gen.
Context {T : Type} {O : Ops T} {G : Gen T}.

(** ** clamp *)
Lemma clamp_ok (HI : Irrefl O) (x lo hi y : T) :
  clamp x lo hi = Some y -> ltb y lo = false /\ ltb hi y = false.
Proof.
  unfold clamp. destruct (ltb hi lo) eqn:E1; [discriminate|].
  destruct (ltb x lo) eqn:E2; intros H; injection H as <-.
  - split; [apply HI|exact E1].
  - destruct (ltb hi x) eqn:E3; [split; [exact E1|apply HI]|split; assumption].
Qed.

Lemma clamp_motors_ok (HI : Irrefl O) (w : list T) ms w' :
  clamp_motors w ms = Some w' -> speeds_ok ms w'.
Proof.
  revert ms w'; induction w as [|x w IH]; intros ms w' H; cbn in H.
  - injection H as <-. intros i x Hx. destruct i; discriminate.
  - destruct ms as [|m ms]; [discriminate|].
    apply bindo_Some in H as [y [Hy H]]. apply bindo_Some in H as [ys [Hys H]].
    injection H as <-. intros [|i] z Hz; cbn in Hz.
    + injection Hz as <-. exists m. split; [reflexivity|]. eapply clamp_ok; eauto.
    + destruct (IH ms ys Hys i z Hz) as [m' Hm]. exists m'. exact Hm.
Qed.

Lemma clamp_motors_length (w : list T) ms w' : clamp_motors w ms = Some w' -> length w' = length w.
Proof.
  revert ms w'; induction w as [|x w IH]; intros ms w' H; cbn in H.
  - injection H as <-; reflexivity.
  - destruct ms as [|m ms]; [discriminate|].
    apply bindo_Some in H as [y [Hy H]]. apply bindo_Some in H as [ys [Hys H]].
    injection H as <-. cbn. f_equal. eapply IH; eauto.
Qed.

Lemma clamp_motors_le (w : list T) ms w' : clamp_motors w ms = Some w' -> length w <= length ms.
Proof.
  revert ms w'; induction w as [|x w IH]; intros ms w' H; cbn in H; [cbn; lia|].
  destruct ms as [|m ms]; [discriminate|].
  apply bindo_Some in H as [y [Hy H]]. apply bindo_Some in H as [ys [Hys H]].
  cbn. apply IH in Hys. lia.
Qed.

Lemma motors_derivative_length (des cur : list T) ms r :
  motors_derivative des cur ms = Some r -> length r = length des.
Proof.
  revert cur ms r; induction des as [|d des IH]; intros cur ms r H; cbn in H.
  - injection H as <-; reflexivity.
  - destruct cur as [|c cur]; [discriminate|]. destruct ms as [|m ms]; [discriminate|].
    apply bindo_Some in H as [ys [Hys H]]. injection H as <-. cbn. f_equal. eapply IH; eauto.
Qed.

(** ** Noise does not touch the configuration *)
Lemma set_noise_cfg (mo mo' : ModelObj T G) dt : set_noise mo dt = Some mo' -> mo_cfg mo' = mo_cfg mo.
Proof.
  unfold set_noise. destruct (leb dt zero); [intros H; injection H as <-; reflexivity|].
  intros H. apply bindo_Some in H as [c [Hc H]].
  destruct (draw3 G 0 _ _ _) as [f [e1 d1]]. destruct (draw3 G 1 _ _ _) as [m [e2 d2]].
  injection H as <-. reflexivity.
Qed.

Definition noise_model (mo : ModelObj T G) (dt : T) (noise : bool) :=
  if noise then set_noise mo dt else Some (disable_noise mo).

Lemma noise_model_cfg mo dt noise mo' : noise_model mo dt noise = Some mo' -> mo_cfg mo' = mo_cfg mo.
Proof.
  destruct noise; cbn; [apply set_noise_cfg|]. intros H; injection H as <-; reflexivity.
Qed.

(** ** Inversion of one sub-step *)
Record step_data (d : Dyn T G) (act : list T) (dt : T) (ext : V3 T) (noise : bool) (d' : Dyn T G) : Prop := {
  sd_cfg : exists c, mo_cfg (d_model d) = Some c;
  sd_inv : forall c, mo_cfg (d_model d) = Some c ->
    exists mo des macc mvel,
    noise_model (d_model d) dt noise = Some mo /\ mo_cfg mo = Some c /\
    clamp_motors act (p_motors (cf_params c)) = Some des /\
    motors_derivative des (s_mvel (d_state d)) (p_motors (cf_params c)) = Some macc /\
    clamp_motors (ladd (s_mvel (d_state d)) (map (fun a => mul a dt) macc)) (p_motors (cf_params c)) = Some mvel /\
    let s := d_state d in let p := cf_params c in
    let torque := total_torque (s_angvel s) (p_inertia p)
                  (torque_by_motors (cf_tmat c) (cf_imat c) (s_mvel s) macc)
                  (aero_moment (p_aero p) (s_angvel s)) (mo_sforce mo) in
    let force := total_force (qrot (s_ori s) (force_by_motors (cf_fmat c) (s_mvel s)))
                 (p_grav p) (drag_force (p_drag p) (s_vel s)) (mo_sforce mo) ext in
    d' = mkDyn mo (mkState
      (vadd (s_pos s) (vscaler (s_vel s) dt))
      (qnormalized (qadd (s_ori s) (qmap (fun x => mul x dt) (quat_derivative (s_ori s) (s_angvel s)))))
      (vadd (s_vel s) (vscaler (vdiv force (p_mass p)) dt))
      (vadd (s_angvel s) (vscaler (ang_acc (p_inertia p) torque) dt))
      (vdiv force (p_mass p)) (ang_acc (p_inertia p) torque) force torque mvel macc)
}.

Lemma euler_core_inv (d : Dyn T G) act dt ext noise (d' : Dyn T G) :
  euler_core d act dt ext noise = Some d' -> step_data d act dt ext noise d'.
Proof.
  unfold euler_core. intros H.
  apply bindo_Some in H as [mo [Hmo H]].
  apply bindo_Some in H as [c [Hc H]].
  apply bindo_Some in H as [des [Hdes H]].
  apply bindo_Some in H as [macc [Hmacc H]].
  apply bindo_Some in H as [mvel [Hmvel H]].
  pose proof (noise_model_cfg (d_model d) dt noise mo Hmo) as Hcfg.
  assert (Hc0 : mo_cfg (d_model d) = Some c) by congruence.
  split; [exists c; exact Hc0|].
  intros c' Hc'. assert (c' = c) by congruence. subst c'.
  exists mo, des, macc, mvel. repeat split; try assumption.
  injection H as <-. reflexivity.
Qed.

Lemma euler_core_cfg (d : Dyn T G) act dt ext noise (d' : Dyn T G) :
  euler_core d act dt ext noise = Some d' -> mo_cfg (d_model d') = mo_cfg (d_model d).
Proof.
  intros H. apply euler_core_inv in H as [[c Hc] Hi].
  destruct (Hi c Hc) as (mo & des & macc & mvel & Hn & Hm & _ & _ & _ & ->). cbn. congruence.
Qed.

Lemma euler_core_speeds (HI : Irrefl O) (d : Dyn T G) act dt ext noise (d' : Dyn T G) c :
  euler_core d act dt ext noise = Some d' -> mo_cfg (d_model d) = Some c ->
  speeds_ok (p_motors (cf_params c)) (s_mvel (d_state d')).
Proof.
  intros H Hc. apply euler_core_inv in H as [_ Hi].
  destruct (Hi c Hc) as (mo & des & macc & mvel & Hn & Hm & _ & _ & Hv & ->). cbn.
  eapply clamp_motors_ok; eauto.
Qed.

Lemma euler_core_rotors (d : Dyn T G) act dt ext noise (d' : Dyn T G) :
  euler_core d act dt ext noise = Some d' -> length act = length (s_mvel (d_state d)) ->
  length (s_mvel (d_state d')) = length (s_mvel (d_state d)) /\
  length (s_macc (d_state d')) = length act.
Proof.
  intros H Hl. apply euler_core_inv in H as [[c Hc] Hi].
  destruct (Hi c Hc) as (mo & des & macc & mvel & Hn & Hm & Hd & Ha & Hv & ->). cbn.
  apply clamp_motors_length in Hv, Hd. apply motors_derivative_length in Ha.
  rewrite Hv, Ha, Hd. split; [|reflexivity].
  unfold ladd, lmap2. rewrite map_length, combine_length, map_length. lia.
Qed.

(** ** process *)

Lemma euler_sub_eq (S : Sane O) act ext noise (d : Dyn T G) :
  euler_sub act ext noise d = of_opt (euler_core d act dtmax ext noise).
Proof. unfold euler_sub. rewrite (sane_dtmax _ S), (sane_irrefl _ S). reflexivity. Qed.

(** Every successful call is a sequence of sub-steps. *)
Lemma process_inv (P : Dyn T G -> Prop) (d : Dyn T G) act dt ext noise :
  P d ->
  (forall x y h, P x -> euler_core x act h ext noise = Some y -> P y) ->
  match process d act dt ext noise with Ok y => P y | Throw y => P y | UB => True end.
Proof.
  intros Hd Hs. unfold process. destruct (leb dt zero); [exact Hd|].
  destruct (ltb dtmax dt).
  - apply for_int_inv; [exact Hd|]. intros x Hx. unfold euler_sub.
    destruct (leb dtmax zero); [exact Hx|]. destruct (ltb dtmax dtmax); [exact I|].
    destruct (euler_core x act dtmax ext noise) eqn:E; cbn; [|exact I]. eapply Hs; eauto.
  - destruct (euler_core d act dt ext noise) eqn:E; cbn; [|exact I]. eapply Hs; eauto.
Qed.

(** A successful call runs at least one sub-step. *)
Lemma process_inv1 (S : Sane O) (I0 P : Dyn T G -> Prop) (d : Dyn T G) act dt ext noise (d' : Dyn T G) :
  I0 d ->
  (forall x y h, I0 x -> euler_core x act h ext noise = Some y -> I0 y /\ P y) ->
  process d act dt ext noise = Ok d' -> P d'.
Proof.
  intros Hd Hs H. unfold process in H.
  destruct (leb dt zero); [discriminate|].
  destruct (ltb dtmax dt) eqn:Edt.
  - assert (A : match for_int (div dt dtmax) (euler_sub act ext noise) d with
                | Ok y => I0 y /\ P y | Throw _ => True | UB => True end).
    { rewrite for_int_nloop.
      destruct (Pos2Nat.is_succ (2 ^ 31)) as [k ->]. cbn [nloop fstep].
      rewrite (sane_quot _ S dt Edt).
      assert (B : forall x, I0 x -> match euler_sub act ext noise x with
                  | Ok y => I0 y /\ P y | Throw _ => True | UB => True end).
      { intros x Hx. unfold euler_sub. destruct (leb dtmax zero); [exact I|].
        destruct (ltb dtmax dtmax); [exact I|].
        destruct (euler_core x act dtmax ext noise) eqn:E; cbn; [|exact I]. eapply Hs; eauto. }
      pose proof (B d Hd) as Bd.
      destruct (euler_sub act ext noise d) as [y|y|]; [|exact I|exact I].
      destruct (Z.eqb 0 int_max); [exact I|].
      pose proof (fstep_inv (fun z => I0 z /\ P z) (fun _ => True) (div dt dtmax)
                   (euler_sub act ext noise) (fun x Hx => B x (proj1 Hx)) k (Z.succ 0) y Bd) as F.
      destruct (nloop _ _ _) as [[j z]|r]; [exact I|]. destruct r; exact F || exact I. }
    rewrite H in A. exact (proj2 A).
  - destruct (euler_core d act dt ext noise) eqn:E; cbn in H; [|discriminate].
    injection H as <-. eapply Hs; eauto.
Qed.

Lemma process_cfg (d : Dyn T G) act dt ext noise (d' : Dyn T G) :
  process d act dt ext noise = Ok d' -> mo_cfg (d_model d') = mo_cfg (d_model d).
Proof.
  intros H.
  pose proof (process_inv (fun x => mo_cfg (d_model x) = mo_cfg (d_model d)) d act dt ext noise eq_refl) as A.
  rewrite H in A. apply A. intros x y h Hx E. apply euler_core_cfg in E. congruence.
Qed.

Lemma process_speeds (S : Sane O) (d : Dyn T G) act dt ext noise (d' : Dyn T G) c :
  mo_cfg (d_model d) = Some c -> process d act dt ext noise = Ok d' ->
  speeds_ok (p_motors (cf_params c)) (s_mvel (d_state d')).
Proof.
  intros Hc.
  apply (process_inv1 S (fun x => mo_cfg (d_model x) = Some c)
           (fun x => speeds_ok (p_motors (cf_params c)) (s_mvel (d_state x)))); [exact Hc|].
  intros x y h Hx E. split.
  - apply euler_core_cfg in E. congruence.
  - eapply euler_core_speeds; eauto. apply S.
Qed.

(** A successful call requires accepted parameters. *)
Lemma process_Ok_cfg (S : Sane O) (d : Dyn T G) act dt ext noise (d' : Dyn T G) :
  process d act dt ext noise = Ok d' -> exists c, mo_cfg (d_model d) = Some c.
Proof.
  intros H. rewrite <- (process_cfg _ _ _ _ _ _ H). revert H.
  apply (process_inv1 S (fun _ => True) (fun x => exists c, mo_cfg (d_model x) = Some c)); [exact I|].
  intros x y h _ E. split; [exact I|]. pose proof (euler_core_cfg _ _ _ _ _ _ E) as Hc.
  apply euler_core_inv in E as [[c Hx] _]. exists c. congruence.
Qed.

(** Exceptions. *)
Lemma process_reject (d : Dyn T G) act dt ext noise :
  leb dt zero = true -> process d act dt ext noise = Throw d.
Proof. intros H. unfold process. rewrite H. reflexivity. Qed.

Lemma process_throw_only (S : Sane O) (d : Dyn T G) act dt ext noise (d' : Dyn T G) :
  process d act dt ext noise = Throw d' -> leb dt zero = true /\ d' = d.
Proof.
  unfold process. destruct (leb dt zero) eqn:E; [intros H; injection H as <-; auto|].
  intros H. exfalso. destruct (ltb dtmax dt).
  - pose proof (for_int_inv (fun _ => True) (fun _ => False) (div dt dtmax) (euler_sub act ext noise) d I) as A.
    rewrite H in A. apply A. intros x _. unfold euler_sub.
    rewrite (sane_dtmax _ S). destruct (ltb dtmax dtmax); [exact I|].
    destruct (euler_core x act dtmax ext noise); exact I.
  - destruct (euler_core d act dt ext noise); discriminate.
Qed.

End Gen.
