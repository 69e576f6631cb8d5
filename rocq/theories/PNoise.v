(** Two-run properties of the dynamics: noise parameters, generators,
    translation. *)

From Coq Require Import ZArith List Bool Lia Reals Lra.
From Verif Require Import Scalar LinAlg MUtils MModel MDynamics SpecDyn SpecRun PBase PDyn PModel PDynR PPhys.
Import ListNotations.

(** Lifting a relation preserved by sub-steps to calls and runs. *)
Lemma process_rel {T} {O : Ops T} {G1 G2 : Gen T} (Rel : Dyn T G1 -> Dyn T G2 -> Prop) act dt ext noise :
  (forall x y h, Rel x y -> optrel Rel (euler_core x act h ext noise) (euler_core y act h ext noise)) ->
  forall d1 d2, Rel d1 d2 -> orel Rel (process d1 act dt ext noise) (process d2 act dt ext noise).
Proof.
  intros Hs d1 d2 H. unfold process. destruct (leb dt zero); [exact H|].
  destruct (ltb dtmax dt).
  - apply for_int_rel; [exact H|]. intros x y Hxy. unfold euler_sub.
    destruct (leb dtmax zero); [exact Hxy|]. destruct (ltb dtmax dtmax); [exact I|].
    apply orel_of_opt, Hs, Hxy.
  - apply orel_of_opt, Hs, H.
Qed.

Lemma run_rel {T} {O : Ops T} {G1 G2 : Gen T} (Rel : Dyn T G1 -> Dyn T G2 -> Prop) (l : list (Call T)) :
  (forall x y c h, In c l -> Rel x y ->
     optrel Rel (euler_core x (k_act c) h (k_ext c) (k_noise c)) (euler_core y (k_act c) h (k_ext c) (k_noise c))) ->
  forall d1 d2, Rel d1 d2 -> both Rel (dyn_run d1 l) (dyn_run d2 l).
Proof.
  induction l as [|c l IH]; intros Hs d1 d2 H; cbn [dyn_run]; [exact H|].
  pose proof (process_rel Rel (k_act c) (k_dt c) (k_ext c) (k_noise c)
    (fun x y h Hxy => Hs x y c h (or_introl eq_refl) Hxy) d1 d2 H) as P.
  destruct (process d1 _ _ _ _), (process d2 _ _ _ _); cbn in P; try contradiction; try exact I;
  (apply IH; [intros x y c' h Hc; apply Hs; right; exact Hc|exact P]).
Qed.

Section Gen.
Context {T : Type} {O : Ops T}.

(** *** The moment-noise parameter *)
Definition cfg_like (c1 c2 : Cfg T) : Prop :=
  cf_fvec c1 = cf_fvec c2 /\ cf_fmat c1 = cf_fmat c2 /\ cf_tmat c1 = cf_tmat c2 /\ cf_imat c1 = cf_imat c2 /\
  let p := cf_params c1 in let q := cf_params c2 in
  p_motors p = p_motors q /\ p_mass p = p_mass q /\ p_inertia p = p_inertia q /\ p_drag p = p_drag q /\
  p_aero p = p_aero q /\ p_grav p = p_grav q /\ p_fnoise p = p_fnoise q.

Definition like {G : Gen T} (d1 d2 : Dyn T G) : Prop :=
  d_state d1 = d_state d2 /\ mo_eng (d_model d1) = mo_eng (d_model d2) /\
  mo_dist (d_model d1) = mo_dist (d_model d2) /\ mo_sforce (d_model d1) = mo_sforce (d_model d2) /\
  optrel cfg_like (mo_cfg (d_model d1)) (mo_cfg (d_model d2)).

Lemma draw3_eng {G : Gen T} site k k' e dd : snd (draw3 G site k e dd) = snd (draw3 G site k' e dd).
Proof.
  unfold draw3. destruct (g_draw G e dd) as [a [e1 d1]]. destruct (g_draw G e1 d1) as [b [e2 d2]].
  destruct (g_draw G e2 d2) as [c [e3 d3]]. reflexivity.
Qed.

Lemma set_noise_like {G : Gen T} (m1 m2 : ModelObj T G) dt :
  mo_eng m1 = mo_eng m2 -> mo_dist m1 = mo_dist m2 -> optrel cfg_like (mo_cfg m1) (mo_cfg m2) ->
  optrel (fun a b => mo_eng a = mo_eng b /\ mo_dist a = mo_dist b /\ mo_sforce a = mo_sforce b /\
                     mo_cfg a = mo_cfg m1 /\ mo_cfg b = mo_cfg m2)
         (set_noise m1 dt) (set_noise m2 dt).
Proof.
  intros He Hd Hc. unfold set_noise. destruct (leb dt zero).
  - cbn. repeat split; assumption.
  - destruct (mo_cfg m1) as [c1|] eqn:E1, (mo_cfg m2) as [c2|] eqn:E2; cbn in Hc; try contradiction; [|exact I].
    destruct Hc as (_ & _ & _ & _ & _ & _ & _ & _ & _ & _ & Hf). cbn [bindo]. rewrite Hf, He, Hd.
    destruct (draw3 G 0 _ (mo_eng m2) (mo_dist m2)) as [f [e1 d1]].
    pose proof (draw3_eng (G:=G) 1 (sqrtT (div (p_mnoise (cf_params c1)) dt)) (sqrtT (div (p_mnoise (cf_params c2)) dt)) e1 d1) as Hs.
    destruct (draw3 G 1 (sqrtT (div (p_mnoise (cf_params c1)) dt)) e1 d1) as [a1 [e2 d2]].
    destruct (draw3 G 1 (sqrtT (div (p_mnoise (cf_params c2)) dt)) e1 d1) as [a2 [e3 d3]].
    cbn in Hs. injection Hs as -> ->. cbn. repeat split.
Qed.

Lemma euler_core_like {G : Gen T} (d1 d2 : Dyn T G) act h ext noise :
  like d1 d2 -> optrel like (euler_core d1 act h ext noise) (euler_core d2 act h ext noise).
Proof.
  intros (Hs & He & Hd & Hf & Hc). unfold euler_core.
  assert (N : optrel (fun a b => mo_eng a = mo_eng b /\ mo_dist a = mo_dist b /\ mo_sforce a = mo_sforce b /\
                     mo_cfg a = mo_cfg (d_model d1) /\ mo_cfg b = mo_cfg (d_model d2))
     (if noise then set_noise (d_model d1) h else Some (disable_noise (d_model d1)))
     (if noise then set_noise (d_model d2) h else Some (disable_noise (d_model d2)))).
  { destruct noise; [apply set_noise_like; assumption|]. cbn. repeat split; assumption. }
  destruct (if noise then set_noise (d_model d1) h else _) as [m1|],
           (if noise then set_noise (d_model d2) h else _) as [m2|]; cbn in N; try contradiction; [|exact I].
  destruct N as (Ne & Nd & Nf & Nc1 & Nc2). cbn [bindo]. rewrite Nc1, Nc2.
  destruct (mo_cfg (d_model d1)) as [c1|] eqn:E1, (mo_cfg (d_model d2)) as [c2|] eqn:E2; cbn in Hc; try contradiction; [|exact I].
  cbn [bindo]. pose proof Hc as Hc'.
  destruct Hc as (C1 & C2 & C3 & C4 & C5 & C6 & C7 & C8 & C9 & C10 & C11).
  cbv zeta. rewrite Hs, C2, C3, C4, C5, C6, C7, C8, C9, C10, Nf.
  destruct (clamp_motors act _) as [des|]; cbn [bindo]; [|exact I].
  destruct (motors_derivative des _ _) as [macc|]; cbn [bindo]; [|exact I].
  destruct (clamp_motors (ladd _ _) _) as [mv|]; cbn [bindo]; [|exact I].
  cbn. unfold like. cbn [d_state d_model]. repeat split; try assumption.
  rewrite Nc1, Nc2. exact Hc'.
Qed.

Lemma check_mnoise (p : Params T) x : check_params (set_mnoise p x) = check_params p.
Proof. reflexivity. Qed.

Lemma dyn_new_like {G : Gen T} n p x seed s :
  optrel (like (G:=G)) (dyn_new n p seed s) (dyn_new n (set_mnoise p x) seed s).
Proof.
  unfold dyn_new, model_new, update_params. rewrite check_mnoise.
  destruct (check_params p); cbn [negb set_mnoise p_motors].
  - destruct (compute_mixer_6D n (p_motors p)) as [mx|]; cbn; [|exact I].
    destruct (compute_mixer_inertia n (p_motors p)) as [im|]; cbn; [|exact I].
    repeat split.
  - cbn. repeat split.
Qed.

Lemma moment_param_ignored {G : Gen T} n p x seed s (l : list (Call T)) (d1 d2 : Dyn T G) :
  dyn_new n p seed s = Some d1 -> dyn_new n (set_mnoise p x) seed s = Some d2 ->
  both (fun a b => d_state a = d_state b) (dyn_run d1 l) (dyn_run d2 l).
Proof.
  intros H1 H2. pose proof (dyn_new_like (G:=G) n p x seed s) as L. rewrite H1, H2 in L. cbn in L.
  pose proof (run_rel like l (fun a b c h _ => euler_core_like a b (k_act c) h (k_ext c) (k_noise c)) d1 d2 L) as R.
  destruct (dyn_run d1 l), (dyn_run d2 l); cbn in *; try contradiction; [apply R|exact I].
Qed.

(** *** Different generators, noise off *)
Definition same_vehicle {G1 G2 : Gen T} (d1 : Dyn T G1) (d2 : Dyn T G2) : Prop :=
  d_state d1 = d_state d2 /\ mo_cfg (d_model d1) = mo_cfg (d_model d2).

Lemma euler_core_nonoise {G1 G2 : Gen T} (d1 : Dyn T G1) (d2 : Dyn T G2) act h ext :
  same_vehicle d1 d2 -> optrel same_vehicle (euler_core d1 act h ext false) (euler_core d2 act h ext false).
Proof.
  intros [Hs Hc]. unfold euler_core. cbn [bindo disable_noise mo_cfg mo_sforce]. rewrite Hs, Hc.
  destruct (mo_cfg (d_model d2)) as [c|] eqn:E2; cbn [bindo]; [|exact I].
  destruct (clamp_motors act _) as [des|]; cbn [bindo]; [|exact I].
  destruct (motors_derivative des _ _) as [macc|]; cbn [bindo]; [|exact I].
  destruct (clamp_motors (ladd _ _) _) as [mv|]; cbn [bindo]; [|exact I].
  split; [reflexivity|]. cbn [d_model disable_noise mo_cfg]. congruence.
Qed.

Lemma noise_free_run {G1 G2 : Gen T} (d1 : Dyn T G1) (d2 : Dyn T G2) (l : list (Call T)) :
  d_state d1 = d_state d2 -> mo_cfg (d_model d1) = mo_cfg (d_model d2) ->
  (forall c, In c l -> k_noise c = false) ->
  both (fun a b => d_state a = d_state b) (dyn_run d1 l) (dyn_run d2 l).
Proof.
  intros Hs Hc Hl.
  assert (R : both same_vehicle (dyn_run d1 l) (dyn_run d2 l)).
  { apply run_rel; [|split; assumption]. intros x y c h Hin Hxy. rewrite (Hl c Hin).
    apply euler_core_nonoise, Hxy. }
  destruct (dyn_run d1 l), (dyn_run d2 l); cbn in *; try contradiction; [apply R|exact I].
Qed.

Lemma dyn_new_cfg {G1 G2 : Gen T} n p seed1 seed2 s (d1 : Dyn T G1) (d2 : Dyn T G2) :
  dyn_new n p seed1 s = Some d1 -> dyn_new n p seed2 s = Some d2 ->
  d_state d1 = d_state d2 /\ mo_cfg (d_model d1) = mo_cfg (d_model d2).
Proof.
  unfold dyn_new, model_new, update_params. destruct (check_params p); cbn [negb].
  - destruct (compute_mixer_6D n (p_motors p)) as [mx|]; cbn; [|discriminate].
    destruct (compute_mixer_inertia n (p_motors p)) as [im|]; cbn; [|discriminate].
    intros H1 H2; injection H1 as <-; injection H2 as <-. split; reflexivity.
  - intros H1 H2; injection H1 as <-; injection H2 as <-. split; reflexivity.
Qed.

Lemma noise_free_reproducible {G1 G2 : Gen T} n p seed1 seed2 s (d1 : Dyn T G1) (d2 : Dyn T G2) (l : list (Call T)) :
  dyn_new n p seed1 s = Some d1 -> dyn_new n p seed2 s = Some d2 ->
  (forall c, In c l -> k_noise c = false) ->
  both (fun a b => d_state a = d_state b) (dyn_run d1 l) (dyn_run d2 l).
Proof.
  intros H1 H2. destruct (dyn_new_cfg n p seed1 seed2 s d1 d2 H1 H2). apply noise_free_run; assumption.
Qed.

End Gen.

(** *** Zero force auto-correlation over the reals *)
Local Open Scope R_scope.

Lemma set_noise_zero {G : Gen R} (mo mo' : ModelObj R G) dt c :
  mo_cfg mo = Some c -> p_fnoise (cf_params c) = 0 -> set_noise mo dt = Some mo' -> mo_sforce mo' = v0.
Proof.
  intros Hc Hf. unfold set_noise. unR. destruct (Rleb dt 0); [intros H; injection H as <-; reflexivity|].
  rewrite Hc. cbn [bindo]. rewrite Hf. unfold draw3 at 1.
  destruct (g_draw G (mo_eng mo) (mo_dist mo)) as [a [e1 d1]].
  destruct (g_draw G e1 d1) as [b [e2 d2]]. destruct (g_draw G e2 d2) as [x [e3 d3]].
  destruct (draw3 G 1 _ e3 d3) as [m [e4 d4]].
  intros H; injection H as <-. cbn [mo_sforce]. unR.
  replace (sqrt (0 / dt)) with 0 by (unfold Rdiv; rewrite Rmult_0_l; symmetry; apply sqrt_0).
  rewrite !Rmult_0_l. unfold v0. destruct (g_perm G 0); reflexivity.
Qed.

Lemma euler_core_zero_noise {G1 G2 : Gen R} (d1 : Dyn R G1) (d2 : Dyn R G2) act h ext noise1 noise2 c :
  mo_cfg (d_model d1) = Some c -> p_fnoise (cf_params c) = 0 ->
  same_vehicle d1 d2 ->
  optrel same_vehicle (euler_core d1 act h ext noise1) (euler_core d2 act h ext noise2).
Proof.
  intros Hc1 Hf [Hs Hc].
  assert (N : forall (G : Gen R) (d : Dyn R G) (b : bool), mo_cfg (d_model d) = Some c ->
     exists mo, (if b then set_noise (d_model d) h else Some (disable_noise (d_model d))) = Some mo /\
       mo_cfg mo = Some c /\ mo_sforce mo = v0).
  { intros G d b Hd. destruct b.
    - destruct (set_noise_total (d_model d) h c Hd) as [mo Hmo]. exists mo. split; [exact Hmo|].
      split; [rewrite (set_noise_cfg _ _ _ Hmo); exact Hd|]. eapply set_noise_zero; eauto.
    - eexists. split; [reflexivity|]. split; [exact Hd|reflexivity]. }
  assert (Hc2 : mo_cfg (d_model d2) = Some c) by congruence.
  destruct (N _ d1 noise1 Hc1) as (m1 & E1 & F1 & S1).
  destruct (N _ d2 noise2 Hc2) as (m2 & E2 & F2 & S2).
  unfold euler_core. rewrite E1, E2. cbn [bindo]. rewrite F1, F2. cbn [bindo]. rewrite S1, S2, Hs.
  destruct (clamp_motors act _) as [des|]; cbn [bindo]; [|exact I].
  destruct (motors_derivative des _ _) as [macc|]; cbn [bindo]; [|exact I].
  destruct (clamp_motors (ladd _ _) _) as [mv|]; cbn [bindo]; [|exact I].
  split; cbn; [reflexivity|congruence].
Qed.

(** Same calls with the noise switch forced off. *)

Lemma process_rel2 {G1 G2 : Gen R} (Rel : Dyn R G1 -> Dyn R G2 -> Prop) act dt ext n1 n2 :
  (forall x y h, Rel x y -> optrel Rel (euler_core x act h ext n1) (euler_core y act h ext n2)) ->
  forall d1 d2, Rel d1 d2 -> orel Rel (process d1 act dt ext n1) (process d2 act dt ext n2).
Proof.
  intros Hs d1 d2 H. unfold process. destruct (leb dt zero); [exact H|].
  destruct (ltb dtmax dt).
  - apply for_int_rel; [exact H|]. intros x y Hxy. unfold euler_sub.
    destruct (leb dtmax zero); [exact Hxy|]. destruct (ltb dtmax dtmax); [exact I|].
    apply orel_of_opt, Hs, Hxy.
  - apply orel_of_opt, Hs, H.
Qed.

Lemma zero_correlation_silent {G : Gen R} (d : Dyn R G) p (l : list (Call R)) :
  get_params (d_model d) = Some p -> p_fnoise p = 0 ->
  both (fun a b => d_state a = d_state b) (dyn_run d l) (dyn_run d (map quiet l)).
Proof.
  intros Hp Hf. apply get_params_cfg in Hp as [c [Hc Hcp]]. subst p.
  set (Rel := fun x y : Dyn R G => mo_cfg (d_model x) = Some c /\ same_vehicle x y).
  assert (R : both Rel (dyn_run d l) (dyn_run d (map quiet l))).
  { assert (A : forall d1 d2, Rel d1 d2 -> both Rel (dyn_run d1 l) (dyn_run d2 (map quiet l))).
    { induction l as [|k l IH]; intros d1 d2 H; cbn [dyn_run map]; [exact H|].
      cbn [quiet k_act k_dt k_ext k_noise].
      pose proof (process_rel2 Rel (k_act k) (k_dt k) (k_ext k) (k_noise k) false) as P.
      assert (S : forall x y h, Rel x y -> optrel Rel (euler_core x (k_act k) h (k_ext k) (k_noise k)) (euler_core y (k_act k) h (k_ext k) false)).
      { intros x y h [Hx Hxy].
        pose proof (euler_core_zero_noise x y (k_act k) h (k_ext k) (k_noise k) false c Hx Hf Hxy) as Q.
        destruct (euler_core x _ _ _ _) as [x'|] eqn:Ex, (euler_core y _ _ _ _); cbn in *; try contradiction; [|exact I].
        split; [|exact Q]. rewrite (euler_core_cfg _ _ _ _ _ _ Ex). exact Hx. }
      specialize (P S d1 d2 H).
      destruct (process d1 _ _ _ _), (process d2 _ _ _ _); cbn in P; try contradiction; try exact I; apply IH; exact P. }
    apply A. split; [exact Hc|split; reflexivity]. }
  destruct (dyn_run d l), (dyn_run d (map quiet l)); cbn in *; try contradiction; [apply R|exact I].
Qed.

(** *** Translation *)
Definition shifted {G : Gen R} (dx : V3 R) (d1 d2 : Dyn R G) : Prop :=
  d_model d1 = d_model d2 /\ d_state d2 = moved (d_state d1) dx.

Lemma euler_core_shift {G : Gen R} dx (d1 d2 : Dyn R G) act h ext noise :
  shifted dx d1 d2 -> optrel (shifted dx) (euler_core d1 act h ext noise) (euler_core d2 act h ext noise).
Proof.
  intros [Hm Hs]. unfold euler_core. rewrite Hm, Hs.
  destruct (if noise then _ else _) as [mo|]; cbn [bindo]; [|exact I].
  destruct (mo_cfg mo) as [c|]; cbn [bindo]; [|exact I].
  cbn [moved s_pos s_ori s_vel s_angvel s_mvel].
  destruct (clamp_motors act _) as [des|]; cbn [bindo]; [|exact I].
  destruct (motors_derivative des _ _) as [macc|]; cbn [bindo]; [|exact I].
  destruct (clamp_motors (ladd _ _) _) as [mv|]; cbn [bindo]; [|exact I].
  split; [reflexivity|]. cbn [d_state]. unfold moved. cbn [s_pos s_ori s_vel s_angvel s_linacc s_angacc s_force s_torque s_mvel s_macc].
  f_equal. unV. f_equal; ring.
Qed.

Lemma translation_invariant {G : Gen R} (d : Dyn R G) dx (l : list (Call R)) :
  both (fun a b => d_state b = moved (d_state a) dx)
       (dyn_run d l) (dyn_run (dyn_set_state d (moved (d_state d) dx)) l).
Proof.
  pose proof (run_rel (shifted dx) l (fun a b c h _ => euler_core_shift dx a b (k_act c) h (k_ext c) (k_noise c))
    d (dyn_set_state d (moved (d_state d) dx)) (conj eq_refl eq_refl)) as R.
  destruct (dyn_run d l), (dyn_run (dyn_set_state d _) l); cbn in *; try contradiction; [apply R|exact I].
Qed.
