(** Proofs: rounding errors of the integration add up no faster than linearly. *)

From Coq Require Import ZArith Bool List Reals Lra Lia.
From Flocq Require Import Core Relative BinarySingleNaN.
From Verif Require Import Scalar Float64 LinAlg MUtils MModel MDynamics MImu SpecDyn SpecRun SpecRound SpecSum PBase PFloat PRound PDyn PUnit64 PUp.
Import ListNotations.
Local Open Scope R_scope.

(** ** One operation *)
Lemma sum_exact (x y : b64) : fin (Bplus mode_NE x y) -> val (Bplus mode_NE x y) = rnd (val x + val y).
Proof.
  intros F. assert (Fx : fin x) by (destruct x as [s|s| |s m e h]; destruct y as [t|t| |t k f j]; try reflexivity; cbn in F; try discriminate F; destruct (Bool.eqb s t); discriminate F).
  assert (Fy : fin y) by (destruct x as [s|s| |s m e h]; destruct y as [t|t| |t k f j]; try reflexivity; cbn in F; try discriminate F; destruct (Bool.eqb s t); discriminate F).
  pose proof (Bplus_correct 53 1024 _ _ mode_NE x y Fx Fy) as C. destruct (Rlt_bool _ _); [exact (proj1 C)|].
  exfalso. destruct C as [C _]. unfold fin in F. rewrite <- is_finite_SF_B2SF, C in F. discriminate F.
Qed.
Lemma prod_exact (x y : b64) : fin (Bmult mode_NE x y) -> val (Bmult mode_NE x y) = rnd (val x * val y).
Proof.
  intros F. pose proof (Bmult_correct 53 1024 _ _ mode_NE x y) as C. destruct (Rlt_bool _ _); [exact (proj1 C)|].
  exfalso. unfold fin in F. rewrite <- is_finite_SF_B2SF, C in F. discriminate F.
Qed.
Lemma sum_parts (x y : b64) : fin (Bplus mode_NE x y) -> fin y.
Proof. intros F. destruct x as [s|s| |s m e h]; destruct y as [t|t| |t k f j]; try reflexivity; cbn in F; try discriminate F; destruct (Bool.eqb s t); discriminate F. Qed.

(** Half a unit in the last place of the result. *)
Lemma round_near x : Rabs (rnd x - x) <= 2^(-53) * Rabs (rnd x) + 2^(-1075).
Proof.
  change (SpecFloat.fexp 53 1024) with (FLT_exp (-1074) 53).
  assert (V : Valid_exp (FLT_exp (-1074) 53)) by (apply FLT_exp_valid; reflexivity).
  assert (M : Monotone_exp (FLT_exp (-1074) 53)) by apply FLT_exp_monotone.
  pose proof (error_le_half_ulp_round radix2 (FLT_exp (-1074) 53) (fun z => negb (Z.even z)) x) as E.
  change (round radix2 (FLT_exp (-1074) 53) (round_mode mode_NE) x) with (round radix2 (FLT_exp (-1074) 53) (Znearest (fun z => negb (Z.even z))) x).
  set (r := round _ _ _ x) in *. clearbody r. eapply Rle_trans; [exact E|]. pose proof (Rabs_pos r) as Pr.
  assert (U : ulp radix2 (FLT_exp (-1074) 53) r <= 2^(-52) * Rabs r + 2^(-1074)).
  { destruct (Rlt_or_le (Rabs r) (2^(-1074 + 53))) as [S|B].
    - rewrite ulp_FLT_small by (reflexivity || exact S). pose proof (bpow_gt_0 radix2 (-52)). assert (0 <= 2^(-52) * Rabs r) by (apply Rmult_le_pos; lra). lra.
    - assert (B' : 2^(-1074 + 53 - 1) <= Rabs r) by (eapply Rle_trans; [|exact B]; apply bpow_le; lia).
      pose proof (ulp_FLT_le radix2 (-1074) 53 r B') as W. change (1 - 53)%Z with (-52)%Z in W. pose proof (bpow_gt_0 radix2 (-1074)). lra. }
  replace (2^(-53)) with (/2 * 2^(-52)) by (change (-52)%Z with (1 + -53)%Z; rewrite bpow_plus; change (2^1) with 2; lra).
  replace (2^(-1075)) with (/2 * 2^(-1074)) by (change (-1074)%Z with (1 + -1075)%Z; rewrite bpow_plus; change (2^1) with 2; lra). lra.
Qed.
Lemma round_near' x : Rabs (rnd x - x) <= 2^(-53) * Rabs x + 2^(-1075).
Proof.
  destruct (error_N_FLT radix2 (-1074) 53 eq_refl (fun z => negb (Z.even z)) x) as (eps & eta & He & Ht & _ & E).
  change (SpecFloat.fexp 53 1024) with (FLT_exp (-1074) 53). change (round_mode mode_NE) with (Znearest (fun z => negb (Z.even z))). rewrite E.
  assert (He' : Rabs eps <= /2 * 2^(-52)) by exact He. assert (Ht' : Rabs eta <= /2 * 2^(-1074)) by exact Ht. replace (x * (1 + eps) + eta - x) with (eps * x + eta) by ring.
  assert (H1 : /2 * 2^(-52) = 2^(-53)) by (change (-52)%Z with (1 + -53)%Z; rewrite bpow_plus; change (2^1) with 2; lra).
  assert (H2 : /2 * 2^(-1074) = 2^(-1075)) by (change (-1074)%Z with (1 + -1075)%Z; rewrite bpow_plus; change (2^1) with 2; lra). rewrite H1 in He'. rewrite H2 in Ht'.
  eapply Rle_trans; [apply Rabs_triang|]. rewrite Rabs_mult. apply Rplus_le_compat; [|exact Ht']. apply Rmult_le_compat_r; [apply Rabs_pos|exact He'].
Qed.

(** One step of an integration. *)
Lemma step_error (p v dt : b64) P V D : fin (Bplus mode_NE p (Bmult mode_NE v dt)) -> Rabs (val (Bplus mode_NE p (Bmult mode_NE v dt))) <= P -> Rabs (val v) <= V -> Rabs (val dt) <= D ->
  Rabs (val (Bplus mode_NE p (Bmult mode_NE v dt)) - (val p + val v * val dt)) <= rounding P (V * D).
Proof.
  intros F Hp Hv Hd. pose proof (sum_exact _ _ F) as E1. pose proof (prod_exact v dt (sum_parts _ _ F)) as E2.
  rewrite E1 in Hp |- *. rewrite E2 in Hp |- *. set (m := val v * val dt) in *. pose proof (round_near' m) as Em. pose proof (round_near (val p + rnd m)) as Ea.
  assert (Am : Rabs m <= V * D). { unfold m. rewrite Rabs_mult. apply Rmult_le_compat; try apply Rabs_pos; assumption. }
  pose proof (bpow_gt_0 radix2 (-53)) as Q.
  replace (rnd (val p + rnd m) - (val p + m)) with ((rnd (val p + rnd m) - (val p + rnd m)) + (rnd m - m)) by ring. eapply Rle_trans; [apply Rabs_triang|].
  assert (2^(-53) * Rabs m <= 2^(-53) * (V * D)) by (apply Rmult_le_compat_l; lra).
  assert (2^(-53) * Rabs (rnd (val p + rnd m)) <= 2^(-53) * P) by (apply Rmult_le_compat_l; lra).
  unfold rounding. replace (bpow radix2 (-1074)) with (2^(-1075) + 2^(-1075)) by (change (-1074)%Z with (1 + -1075)%Z; rewrite bpow_plus; change (2^1) with 2; lra). lra.
Qed.

(** ** Along a run *)
Section Run.
Variable L : Libm.
#[local] Instance FO : Ops b64 := F64Ops L.
Context {G : Gen b64}.
Lemma pr_step a (p v : V3 b64) dt : pr a (vadd p (vscaler v dt)) = Bplus mode_NE (pr a p) (Bmult mode_NE (pr a v) dt).
Proof. destruct a; reflexivity. Qed.

Lemma run_sum (x : State b64 -> b64) (f : State b64 -> State b64 -> b64) (Q : State b64 -> Prop) P V D : 0 <= D ->
  (forall s, Q s -> within P (x s)) ->
  (forall (d d' : Dyn b64 G) act dt ext noise, euler_core d act dt ext noise = Some d' -> x (d_state d') = Bplus mode_NE (x (d_state d)) (Bmult mode_NE (f (d_state d) (d_state d')) dt)) ->
  (forall s s', Q s -> Q s' -> Rabs (val (f s s')) <= V) ->
  forall l (d d' : Dyn b64 G), Forall (short_call L D) l -> seen L Q d l -> dyn_run d l = Some d' ->
  Rabs (val (x (d_state d')) - (val (x (d_state d)) + tally L f d l)) <= INR (length l) * rounding P (V * D).
Proof.
  intros HD Hx Hs Hf. induction l as [|c r IH]; intros d d' Hl Hq Hr; cbn [dyn_run seen tally] in *.
  - injection Hr as <-. replace (val (x (d_state d)) - _) with 0 by ring. rewrite Rabs_R0. cbn [length INR]. lra.
  - pose proof (Forall_inv Hl) as (Fd & Dd & Sd). apply Forall_inv_tail in Hl. destruct Hq as [Hq Hq']. change (length (_ :: r)) with (S (length r)). rewrite S_INR.
    assert (Pr : 0 <= P /\ 0 <= V).
    { pose proof (Hx _ Hq) as [_ B]. pose proof (Hf _ _ Hq Hq) as B'. pose proof (Rabs_pos (val (x (d_state d)))). pose proof (Rabs_pos (val (f (d_state d) (d_state d)))). lra. }
    destruct (process d _ _ _ _) as [e|e|] eqn:E; [| |discriminate Hr].
    + assert (NZ : leb (k_dt c) zero = false). { unfold process in E. destruct (leb (k_dt c) zero); [discriminate E|reflexivity]. }
      apply (process_short _ _ _ _ _ _ NZ Sd) in E. pose proof (Hs _ _ _ _ _ _ E) as X.
      assert (Qe : Q (d_state e)) by (destruct r; destruct Hq' as [Hq' _]; exact Hq').
      pose proof (IH e d' Hl Hq' Hr) as B. pose proof (Hx _ Qe) as [Fe Be].
      assert (Pd : 0 <= val (k_dt c)).
      { change (Bleb (k_dt c) (b64_ofZ 0) = false) in NZ. rewrite Bleb_correct in NZ by (exact Fd || reflexivity). destruct (Rle_bool_spec (B2R (k_dt c)) (B2R (b64_ofZ 0))) as [|N]; [discriminate NZ|]. change (B2R (b64_ofZ 0)) with 0 in N. unfold val. lra. }
      rewrite X in Fe, Be, B. pose proof (step_error _ _ _ P V D Fe Be (Hf _ _ Hq Qe) ltac:(rewrite Rabs_pos_eq; lra)) as SE.
      set (t := tally L f e r) in *. set (z := val (x (d_state d'))) in *. set (w := val (Bplus _ _ _)) in *. set (m := val (f _ _) * val (k_dt c)) in *.
      replace (z - (val (x (d_state d)) + (m + t))) with ((z - (w + t)) + (w - (val (x (d_state d)) + m))) by ring. eapply Rle_trans; [apply Rabs_triang|]. lra.
    + assert (e = d). { apply (process_throw_only (F64_sane L)) in E. apply E. } subst e.
      pose proof (IH d d' Hl Hq' Hr) as B. assert (0 <= rounding P (V * D)); [|lra].
      unfold rounding. pose proof (bpow_gt_0 radix2 (-53)). pose proof (bpow_gt_0 radix2 (-1074)). assert (0 <= V * D) by (apply Rmult_le_pos; lra). assert (0 <= 2^(-53) * (P + V * D)) by (apply Rmult_le_pos; lra). lra.
Qed.
Lemma core_sums (d d' : Dyn b64 G) act dt ext noise a : euler_core d act dt ext noise = Some d' ->
  pr a (s_pos (d_state d')) = Bplus mode_NE (pr a (s_pos (d_state d))) (Bmult mode_NE (pr a (s_vel (d_state d))) dt) /\
  pr a (s_vel (d_state d')) = Bplus mode_NE (pr a (s_vel (d_state d))) (Bmult mode_NE (pr a (s_linacc (d_state d'))) dt) /\
  pr a (s_angvel (d_state d')) = Bplus mode_NE (pr a (s_angvel (d_state d))) (Bmult mode_NE (pr a (s_angacc (d_state d'))) dt).
Proof.
  intros E. apply euler_core_inv in E as [[c Hc] X]. destruct (X c Hc) as (mo & des & macc & mvel & Y). assert (Ed := Y). repeat (apply proj2 in Ed). rewrite Ed. clear Y Ed. cbn [d_state s_pos s_vel s_angvel s_linacc s_angacc].
  split; [apply pr_step|]. split; apply pr_step.
Qed.
Theorem position_sum a l (d d' : Dyn b64 G) P V D : 0 <= D -> Forall (short_call L D) l ->
  seen L (fun s => within P (pr a (s_pos s)) /\ within V (pr a (s_vel s))) d l -> dyn_run d l = Some d' ->
  Rabs (val (pr a (s_pos (d_state d'))) - (val (pr a (s_pos (d_state d))) + tally L (fun s _ => pr a (s_vel s)) d l)) <= INR (length l) * rounding P (V * D).
Proof.
  intros HD Hl Hq Hr. refine (run_sum (fun s => pr a (s_pos s)) (fun s _ => pr a (s_vel s)) _ P V D HD _ _ _ l d d' Hl Hq Hr).
  - intros s [A _]. exact A.
  - intros x y act dt ext noise E. exact (proj1 (core_sums _ _ _ _ _ _ a E)).
  - intros s _ [_ [_ B]] _. exact B.
Qed.
Theorem velocity_sum a l (d d' : Dyn b64 G) V A D : 0 <= D -> Forall (short_call L D) l ->
  seen L (fun s => within V (pr a (s_vel s)) /\ within A (pr a (s_linacc s))) d l -> dyn_run d l = Some d' ->
  Rabs (val (pr a (s_vel (d_state d'))) - (val (pr a (s_vel (d_state d))) + tally L (fun _ s => pr a (s_linacc s)) d l)) <= INR (length l) * rounding V (A * D).
Proof.
  intros HD Hl Hq Hr. refine (run_sum (fun s => pr a (s_vel s)) (fun _ s => pr a (s_linacc s)) _ V A D HD _ _ _ l d d' Hl Hq Hr).
  - intros s [B _]. exact B.
  - intros x y act dt ext noise E. exact (proj1 (proj2 (core_sums _ _ _ _ _ _ a E))).
  - intros _ s _ [_ [_ B]]. exact B.
Qed.
Theorem rate_sum a l (d d' : Dyn b64 G) W A D : 0 <= D -> Forall (short_call L D) l ->
  seen L (fun s => within W (pr a (s_angvel s)) /\ within A (pr a (s_angacc s))) d l -> dyn_run d l = Some d' ->
  Rabs (val (pr a (s_angvel (d_state d'))) - (val (pr a (s_angvel (d_state d))) + tally L (fun _ s => pr a (s_angacc s)) d l)) <= INR (length l) * rounding W (A * D).
Proof.
  intros HD Hl Hq Hr. refine (run_sum (fun s => pr a (s_angvel s)) (fun _ s => pr a (s_angacc s)) _ W A D HD _ _ _ l d d' Hl Hq Hr).
  - intros s [B _]. exact B.
  - intros x y act dt ext noise E. exact (proj2 (proj2 (core_sums _ _ _ _ _ _ a E))).
  - intros _ s _ [_ [_ B]]. exact B.
Qed.

(** ** Odometry *)
Lemma odom_sum (x f : Odom b64 -> b64) (Q : Odom b64 -> Prop) P V D :
  (forall o, Q o -> within P (x o)) -> (forall o g b dt, x (odom_update o g b dt) = Bplus mode_NE (x o) (Bmult mode_NE (f (odom_update o g b dt)) dt)) ->
  (forall o, Q o -> Rabs (val (f o)) <= V) ->
  forall l o, Forall (fun c => Rabs (val (snd c)) <= D) l -> odom_seen L Q o l ->
  Rabs (val (x (odom_run o (odom_calls l))) - (val (x o) + odom_tally L f o l)) <= INR (length l) * rounding P (V * D).
Proof.
  intros Hx Hs Hf. unfold odom_run. induction l as [|[[g b] dt] r IH]; intros o Hl Hq.
  - cbn [odom_calls map fold_left odom_tally length INR]. replace (val (x o) - _) with 0 by ring. rewrite Rabs_R0. lra.
  - pose proof (Forall_inv Hl) as Dd. apply Forall_inv_tail in Hl. cbn [snd] in Dd. cbn [odom_seen] in Hq. destruct Hq as [_ Hq]. change (length (_ :: r)) with (S (length r)). rewrite S_INR.
    cbn [odom_calls map fold_left odom_tally fst snd odom_step]. pose proof (IH _ Hl Hq) as B. unfold odom_calls in B. set (e := odom_update o g b dt) in *.
    assert (Qe : Q e) by (destruct r as [|[[? ?] ?] ?]; destruct Hq as [Hq _]; exact Hq). assert (X : x e = Bplus mode_NE (x o) (Bmult mode_NE (f e) dt)) by exact (Hs o g b dt). pose proof (Hx _ Qe) as [Fe Be]. rewrite X in Fe, Be.
    pose proof (step_error _ _ _ P V D Fe Be (Hf _ Qe) Dd) as SE. rewrite <- X in SE.
    set (t := odom_tally L f e r) in *. set (z := val (x (fold_left _ _ _))) in *. set (w := val (x e)) in *. set (m := val (f e) * val dt) in *.
    replace (z - (val (x o) + (m + t))) with ((z - (w + t)) + (w - (val (x o) + m))) by ring. eapply Rle_trans; [apply Rabs_triang|]. lra.
Qed.
Theorem odometry_sums a l o P V A D : Forall (fun c => Rabs (val (snd c)) <= D) l ->
  odom_seen L (fun o => within P (pr a (odom_get_position o)) /\ within V (pr a (odom_get_linear_velocity o)) /\ within A (pr a (odom_get_linear_acceleration o))) o l ->
  let o' := odom_run o (odom_calls l) in
  Rabs (val (pr a (odom_get_position o')) - (val (pr a (odom_get_position o)) + odom_tally L (fun o => pr a (odom_get_linear_velocity o)) o l)) <= INR (length l) * rounding P (V * D) /\
  Rabs (val (pr a (odom_get_linear_velocity o')) - (val (pr a (odom_get_linear_velocity o)) + odom_tally L (fun o => pr a (odom_get_linear_acceleration o)) o l)) <= INR (length l) * rounding V (A * D).
Proof.
  intros Hl Hq o'. split.
  - refine (odom_sum (fun o => pr a (odom_get_position o)) _ _ P V D _ _ _ l o Hl Hq); [intros x (B & _); exact B| |intros x (_ & (_ & B) & _); exact B]. intros x g b dt. unfold odom_update, odom_integrate. cbv zeta. cbn [odom_get_position odom_get_linear_velocity od_pos od_vel]. unfold odom_get_position, odom_get_linear_velocity. cbn [od_pos od_vel]. apply pr_step.
  - refine (odom_sum (fun o => pr a (odom_get_linear_velocity o)) _ _ V A D _ _ _ l o Hl Hq); [intros x (_ & B & _); exact B| |intros x (_ & _ & _ & B); exact B]. intros x g b dt. unfold odom_update, odom_integrate, odom_get_linear_acceleration, odom_get_linear_velocity. cbv zeta. cbn [od_linacc od_vel]. apply pr_step.
Qed.
End Run.
