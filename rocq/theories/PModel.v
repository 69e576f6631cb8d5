(** Proofs about the model object and the mixers. *)

From Coq Require Import ZArith List Bool Lia Reals Lra.
From Verif Require Import Scalar LinAlg MUtils MModel MDynamics SpecDyn SpecRun PBase PDyn.
Import ListNotations.

Section Gen.
Context {T : Type} {O : Ops T} {G : Gen T}.
Variable n : nat.


(** The stored matrices are those of the stored parameters. *)
Definition cfg_ok (c : Cfg T) : Prop :=
  check_params (cf_params c) = true /\ length (p_motors (cf_params c)) <= n /\
  let ms := p_motors (cf_params c) in
  let pad := n - length ms in
  cf_fvec c = map (fun m => vz (fst (mixer6_col m))) ms ++ repeat zero pad /\
  cf_fmat c = map (fun m => fst (mixer6_col m)) ms ++ repeat v0 pad /\
  cf_tmat c = map (fun m => snd (mixer6_col m)) ms ++ repeat v0 pad /\
  cf_imat c = map inertia_col ms ++ repeat v0 pad.

Definition model_ok (mo : ModelObj T G) : Prop :=
  mo_mixer mo = None /\ match mo_cfg mo with Some c => cfg_ok c | None => True end.

Lemma update_params_cases (mo : ModelObj T G) p mo' :
  update_params n mo p = Some mo' ->
  (check_params p = false /\ mo' = mo) \/
  (check_params p = true /\ exists c, mo_cfg mo' = Some c /\ cf_params c = p /\ cfg_ok c /\
     mo_mixer mo' = mo_mixer mo /\ mo_eng mo' = mo_eng mo /\ mo_dist mo' = mo_dist mo /\
     mo_sforce mo' = mo_sforce mo /\ mo_smoment mo' = mo_smoment mo).
Proof.
  unfold update_params. destruct (check_params p) eqn:E; cbn [negb].
  - intros H. right. split; [reflexivity|].
    unfold compute_mixer_6D, compute_mixer_inertia, cols in H.
    destruct (Nat.ltb n (length (p_motors p))) eqn:El; [discriminate|]. cbn [bindo] in H.
    apply Nat.ltb_ge in El. injection H as <-. cbn [mo_cfg mo_mixer mo_eng mo_dist mo_sforce mo_smoment].
    eexists. split; [reflexivity|]. cbn [cf_params]. split; [reflexivity|].
    split; [|repeat split].
    unfold cfg_ok; cbn [cf_params cf_fvec cf_fmat cf_tmat cf_imat].
    split; [exact E|]. split; [exact El|].
    repeat split; rewrite ?map_app, ?map_map; f_equal;
      (induction (n - length (p_motors p)) as [|k IH]; cbn; [reflexivity|]; cbn in IH; rewrite IH; reflexivity).
  - intros H. injection H as <-. left. split; reflexivity.
Qed.

Lemma model_reach_ok (mo : ModelObj T G) : ModelReach n mo -> model_ok mo.
Proof.
  induction 1 as [p seed mo Hn|mo p mo' Hr IH Hu|mo dt mo' Hr IH Hs|mo Hr IH].
  - unfold model_new in Hn. apply update_params_cases in Hn.
    destruct Hn as [[_ ->]|(_ & c & Hc & _ & Hok & Hm & _)].
    + split; reflexivity || exact I.
    + split; [exact Hm|]. rewrite Hc. exact Hok.
  - apply update_params_cases in Hu. destruct Hu as [[_ ->]|(_ & c & Hc & _ & Hok & Hm & _)]; [exact IH|].
    split; [rewrite Hm; apply IH|]. rewrite Hc. exact Hok.
  - pose proof (set_noise_cfg mo mo' dt Hs) as Hc. destruct IH as [I1 I2].
    split; [|rewrite Hc; exact I2].
    unfold set_noise in Hs. destruct (leb dt zero); [injection Hs as <-; exact I1|].
    apply bindo_Some in Hs as [c [Hc' Hs]].
    destruct (draw3 G 0 _ _ _) as [f [e1 d1]]. destruct (draw3 G 1 _ _ _) as [m [e2 d2]].
    injection Hs as <-. exact I1.
  - exact IH.
Qed.

(** Construction and update with at most [n] motors are defined. *)
Lemma update_params_total (mo : ModelObj T G) p :
  length (p_motors p) <= n -> exists mo', update_params n mo p = Some mo'.
Proof.
  intros Hl. unfold update_params, compute_mixer_6D, compute_mixer_inertia, cols.
  destruct (check_params p); cbn [negb]; [|eauto].
  apply Nat.ltb_ge in Hl. rewrite Hl. cbn. eauto.
Qed.

Lemma forallb_check ms : forallb check_motor ms = true ->
  forall m, In m ms -> ltb (mt_max m) (mt_min m) = false.
Proof.
  intros H m Hm. rewrite forallb_forall in H. specialize (H m Hm).
  unfold check_motor in H. destruct (ltb (mt_max m) (mt_min m)); [discriminate|reflexivity].
Qed.

Lemma check_params_motors p : check_params p = true -> forallb check_motor (p_motors p) = true.
Proof.
  unfold check_params. repeat match goal with |- context [if ?b then _ else _] => destruct b; [discriminate|] end.
  tauto.
Qed.

(** ** Totality of a sub-step *)
Lemma clamp_motors_total ms : forall w,
  length w <= length ms -> (forall m, In m ms -> ltb (mt_max m) (mt_min m) = false) ->
  exists w', clamp_motors w ms = Some w'.
Proof.
  induction ms as [|m ms IH]; intros w Hl Hm.
  - destruct w; [exists []; reflexivity|cbn in Hl; lia].
  - destruct w as [|x w]; [exists []; reflexivity|]. cbn in Hl.
    destruct (IH w) as [w' Hw]; [lia|intros m' H'; apply Hm; right; exact H'|].
    cbn. unfold clamp. rewrite (Hm m) by (left; reflexivity). cbn. rewrite Hw. cbn. eauto.
Qed.

Lemma motors_derivative_total ms : forall des cur,
  length des <= length ms -> length des <= length cur -> exists r, motors_derivative des cur ms = Some r.
Proof.
  induction ms as [|m ms IH]; intros des cur H1 H2.
  - destruct des; [exists []; reflexivity|cbn in H1; lia].
  - destruct des as [|x des]; [exists []; reflexivity|].
    destruct cur as [|c cur]; [cbn in H2; lia|]. cbn in H1, H2.
    destruct (IH des cur) as [r Hr]; [lia|lia|]. cbn. rewrite Hr. cbn. eauto.
Qed.

Lemma set_noise_total (mo : ModelObj T G) dt c : mo_cfg mo = Some c -> exists mo', set_noise mo dt = Some mo'.
Proof.
  intros Hc. unfold set_noise. destruct (leb dt zero); [eauto|]. rewrite Hc. cbn [bindo].
  destruct (draw3 G 0 _ _ _) as [f [e1 d1]]. destruct (draw3 G 1 _ _ _) as [m [e2 d2]]. eauto.
Qed.

(** A vehicle whose parameters were accepted and whose motor list, command and
    speed vectors all have the same length. *)
Definition ready (d : Dyn T G) (act : list T) : Prop :=
  exists c, mo_cfg (d_model d) = Some c /\ check_params (cf_params c) = true /\
    length act = length (p_motors (cf_params c)) /\
    length (s_mvel (d_state d)) = length (p_motors (cf_params c)).

Lemma euler_core_total (d : Dyn T G) act dt ext noise : ready d act -> exists d', euler_core d act dt ext noise = Some d'.
Proof.
  intros (c & Hc & Hk & Ha & Hw).
  assert (Hm : exists mo, (if noise then set_noise (d_model d) dt else Some (disable_noise (d_model d))) = Some mo).
  { destruct noise; [eapply set_noise_total; eauto|eauto]. }
  destruct Hm as [mo Hmo]. unfold euler_core. rewrite Hmo. cbn [bindo].
  pose proof (noise_model_cfg (d_model d) dt noise mo Hmo) as Hcfg. rewrite Hcfg, Hc. cbn [bindo].
  pose proof (forallb_check _ (check_params_motors _ Hk)) as Hmm.
  destruct (clamp_motors_total _ act (Nat.eq_le_incl _ _ Ha) Hmm) as [des Hdes]. rewrite Hdes. cbn [bindo].
  pose proof (clamp_motors_length _ _ _ Hdes) as Hld.
  destruct (motors_derivative_total (p_motors (cf_params c)) des (s_mvel (d_state d))) as [macc Hmacc]; [lia|lia|].
  rewrite Hmacc. cbn [bindo].
  pose proof (motors_derivative_length _ _ _ _ Hmacc) as Hlm.
  destruct (clamp_motors_total (p_motors (cf_params c)) (ladd (s_mvel (d_state d)) (map (fun a => mul a dt) macc))) as [mvel Hmvel].
  - unfold ladd, lmap2. rewrite map_length, combine_length, map_length. lia.
  - exact Hmm.
  - rewrite Hmvel. cbn [bindo]. eauto.
Qed.

Lemma euler_core_ready (d : Dyn T G) act dt ext noise (d' : Dyn T G) :
  ready d act -> euler_core d act dt ext noise = Some d' -> ready d' act.
Proof.
  intros (c & Hc & Hk & Ha & Hw) H. exists c.
  rewrite (euler_core_cfg _ _ _ _ _ _ H). repeat split; try assumption.
  apply euler_core_rotors in H as [H _]; congruence.
Qed.

Lemma oiter_total (d : Dyn T G) act ext noise k (S : Sane O) :
  ready d act -> exists d', oiter k (euler_sub act ext noise) d = Ok d' /\ ready d' act.
Proof.
  revert d; induction k as [|k IH]; intros d Hd; cbn [oiter]; [eauto|].
  rewrite (euler_sub_eq S).
  destruct (euler_core_total d act dtmax ext noise Hd) as [d1 H1]. rewrite H1. cbn [of_opt].
  apply IH. eapply euler_core_ready; eauto.
Qed.

End Gen.
