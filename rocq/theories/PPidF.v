(** PID in binary64: a zero time step, rounding in the proportional
    saturation, contamination between axes. *)

From Coq Require Import ZArith List Bool Lia Reals.
From Flocq Require Import Core BinarySingleNaN.
From Verif Require Import Scalar Float64 LinAlg MPid MPid1 SpecDyn SpecPid PFloat PPid PPid1.
Import ListNotations.

Section B64.
Variable L : Libm.
#[local] Instance FO : Ops b64 := F64Ops L.

Notation nan := (B754_nan : b64).
Notation nan3 := (mkV nan nan nan).

Lemma nan_add_l x : add nan x = nan. Proof. destruct x; reflexivity. Qed.
Lemma nan_add_r x : add x nan = nan. Proof. destruct x; reflexivity. Qed.
Lemma nan_mul_r x : mul x nan = nan. Proof. destruct x; reflexivity. Qed.
Lemma nan_mul_l x : mul nan x = nan. Proof. destruct x; reflexivity. Qed.
Lemma nan_ltb_l x : ltb nan x = false. Proof. destruct x; reflexivity. Qed.
Lemma nan_ltb_r x : ltb x nan = false. Proof. destruct x as [[]|[]| |[] ? ? ?]; reflexivity. Qed.

Lemma self_over_zero (x : b64) s : div (sub x x) (B754_zero s) = nan.
Proof.
  destruct x as [b|b| |b m e H]; cbn [sub div FO F64Ops].
  - destruct b; reflexivity.
  - destruct b; reflexivity.
  - reflexivity.
  - assert (Z : exists t, Bminus mode_NE (B754_finite b m e H) (B754_finite b m e H) = B754_zero t).
    { pose proof (Bminus_correct 53 1024 prec53 max1024 mode_NE (B754_finite b m e H) (B754_finite b m e H) eq_refl eq_refl) as C.
      rewrite Rminus_diag_eq in C by reflexivity. rewrite round_0 in C by typeclasses eauto.
      rewrite Rabs_R0 in C. rewrite Rlt_bool_true in C by (apply bpow_gt_0).
      destruct C as (C1 & C2 & _).
      destruct (Bminus mode_NE (B754_finite b m e H) (B754_finite b m e H)) as [t|t| |t m' e' H'] eqn:E;
        cbn in C2; try discriminate; [exists t; reflexivity|].
      exfalso. revert C1. cbn. apply F2R_neq_0. destruct t; discriminate. }
    destruct Z as [t ->]. reflexivity.
Qed.

(** A filter that holds NaN. *)
Definition poisoned (p : Pid b64) : Prop := ps_first (pid_s p) = false /\ ps_filt (pid_s p) = nan3.

Lemma mmulv_nan m : mmulv m nan3 = nan3.
Proof. unfold mmulv. cbn [vx vy vz]. rewrite !nan_mul_r, !nan_add_l. reflexivity. Qed.
Lemma vadd_nan_r v : vadd v nan3 = nan3.
Proof. unfold vadd, vmap2. cbn [vx vy vz]. rewrite !nan_add_r. reflexivity. Qed.
Lemma vcmul_nan_r v : vcmul v nan3 = nan3.
Proof. unfold vcmul, vmap2. cbn [vx vy vz]. rewrite !nan_mul_r. reflexivity. Qed.
Lemma vadd_nan_l v : vadd nan3 v = nan3.
Proof. unfold vadd, vmap2. cbn [vx vy vz]. rewrite !nan_add_l. reflexivity. Qed.
Lemma vscale_nan k : vscale k nan3 = nan3.
Proof. unfold vscale, vmap. cbn [vx vy vz]. rewrite !nan_mul_r. reflexivity. Qed.

Lemma psat1_nan get up lo : get nan3 = nan -> psat1 get up lo nan3 = nan3.
Proof. intros H. unfold psat1. rewrite H, nan_ltb_r, nan_ltb_l. apply vscale_nan. Qed.

Lemma saturate_nan up lo b : saturate nan3 up lo b = nan3.
Proof.
  unfold saturate. destruct b; cbn [negb].
  - rewrite !psat1_nan by reflexivity. reflexivity.
  - unfold sat1. cbn [vx vy vz]. rewrite !nan_ltb_r, !nan_ltb_l. reflexivity.
Qed.

Lemma out_nan c cp ci : pid_out c cp ci nan3 = nan3.
Proof. unfold pid_out. rewrite vadd_nan_r. destruct (pc_sflag c); [apply saturate_nan|reflexivity]. Qed.

Lemma filt_poisoned c s dt e : ps_filt s = nan3 -> pid_filt c s dt e = nan3.
Proof. intros H. unfold pid_filt. rewrite H, vcmul_nan_r, vadd_nan_r. reflexivity. Qed.

Lemma poisoned_step p op : op <> OpReset -> poisoned p -> poisoned (pid_step p op).
Proof.
  intros N [A B]. destruct op; try (split; [exact A|exact B]); [contradiction N; reflexivity| |]; cbn [pid_step].
  - split; [reflexivity|]. cbn [pid_compute pid_s ps_filt]. apply filt_poisoned. unfold ps_init. rewrite A. exact B.
  - split; [reflexivity|]. cbn [pid_compute_d pid_s ps_filt]. unfold ps_init. rewrite A. exact B.
Qed.

Lemma poisoned_run ops : forall p, Forall (fun op => op <> OpReset) ops -> poisoned p -> poisoned (pid_run p ops).
Proof.
  induction ops as [|op ops IH]; intros p F P; [exact P|]. inversion F; subst. cbn [pid_run fold_left].
  apply IH; [assumption|]. apply poisoned_step; assumption.
Qed.

Lemma poisoned_output p dt e : poisoned p -> pid_output (pid_step p (OpCompute dt e)) = nan3.
Proof.
  intros [A B]. cbn [pid_step pid_compute pid_output pid_s ps_out].
  rewrite filt_poisoned by (unfold ps_init; rewrite A; exact B). rewrite mmulv_nan. apply out_nan.
Qed.

Lemma first_zero_poisons p s e :
  poisoned (pid_step (pid_reset p) (OpCompute (B754_zero s) e)) /\
  pid_output (pid_step (pid_reset p) (OpCompute (B754_zero s) e)) = nan3.
Proof.
  assert (F : pid_filt (pid_c p) (ps_init (ps_reset (pid_s p)) e) (B754_zero s) e = nan3).
  { unfold pid_filt, vdiv, vsub, vmap, vmap2. cbn [ps_init ps_reset ps_first ps_perr vx vy vz]. rewrite !self_over_zero.
    rewrite vcmul_nan_r. apply vadd_nan_l. }
  split; [split; [reflexivity|exact F]|].
  cbn [pid_step pid_compute pid_output pid_s ps_out pid_reset pid_c]. rewrite F, mmulv_nan. apply out_nan.
Qed.

Lemma zero_dt_forever p s e ops dt e' :
  Forall (fun op => op <> OpReset) ops ->
  let p1 := pid_step (pid_reset p) (OpCompute (B754_zero s) e) in
  pid_output p1 = nan3 /\ pid_output (pid_step (pid_run p1 ops) (OpCompute dt e')) = nan3.
Proof.
  intros F p1. destruct (first_zero_poisons p s e) as [P O1]. split; [exact O1|].
  apply poisoned_output, poisoned_run; [exact F|exact P].
Qed.

(** The scalar controller. *)
Definition poisoned1 (p : Pid1 b64) : Prop := s1_first (pid1_s p) = false /\ s1_filt (pid1_s p) = nan.

Lemma out1_nan c cp ci o : pid1_out c cp ci nan = Some o -> o = nan.
Proof.
  unfold pid1_out, saturate1, clamp. rewrite nan_add_r. destruct (c1_sflag c); [|intros H; injection H as <-; reflexivity].
  destruct (ltb (c1_up c) (c1_lo c)); [discriminate|]. rewrite nan_ltb_l, nan_ltb_r. intros H; injection H as <-; reflexivity.
Qed.

Lemma poisoned1_step p op p' : op <> Op1Reset -> poisoned1 p -> pid1_step p op = Some p' ->
  poisoned1 p' /\ (forall dt e, op = Op1Compute dt e -> pid1_output p' = nan).
Proof.
  intros N [A B] H. destruct op; cbn [pid1_step] in H;
    try (injection H as <-; split; [split; [exact A|exact B]|intros ? ? D; discriminate D]); [contradiction N; reflexivity| |].
  - unfold pid1_compute in H.
    assert (F : pid1_filt (pid1_c p) (s1_init (pid1_s p) e) dt e = nan)
      by (unfold pid1_filt, s1_init; rewrite A, B, nan_mul_r, nan_add_r; reflexivity).
    rewrite F, nan_mul_r in H.
    destruct (pid1_acc _ _ _ _) as [a|]; [|discriminate H]. cbn [bindo] in H.
    destruct (pid1_out _ _ _ _) as [o|] eqn:E; [|discriminate H]. cbn [bindo] in H. injection H as <-.
    apply out1_nan in E. subst o. split; [split; reflexivity|]. intros ? ? _. reflexivity.
  - unfold pid1_compute_d in H.
    destruct (pid1_acc _ _ _ _) as [a|]; [|discriminate H]. cbn [bindo] in H.
    destruct (pid1_out _ _ _ _) as [o|] eqn:E; [|discriminate H]. cbn [bindo] in H. injection H as <-.
    split; [|intros ? ? D; discriminate D]. split; [reflexivity|]. cbn [pid1_s s1_filt]. unfold s1_init. rewrite A. exact B.
Qed.

Lemma poisoned1_run ops : forall p p', Forall (fun op => op <> Op1Reset) ops -> poisoned1 p ->
  pid1_run p ops = Some p' -> poisoned1 p'.
Proof.
  induction ops as [|op ops IH]; intros p p' F P H; cbn [pid1_run] in H; [injection H as <-; exact P|].
  inversion F; subst. destruct (pid1_step p op) as [p1|] eqn:E; [|discriminate H]. cbn [bindo] in H.
  apply (IH p1); [assumption| |exact H]. eapply poisoned1_step; eassumption.
Qed.

Lemma first_zero_poisons1 p s e p1 :
  pid1_step (pid1_reset p) (Op1Compute (B754_zero s) e) = Some p1 -> poisoned1 p1 /\ pid1_output p1 = nan.
Proof.
  cbn [pid1_step]. unfold pid1_compute. intros H.
  assert (F : pid1_filt (pid1_c (pid1_reset p)) (s1_init (pid1_s (pid1_reset p)) e) (B754_zero s) e = nan).
  { unfold pid1_filt. cbn [pid1_reset pid1_s s1_init s1_reset s1_first s1_perr]. rewrite self_over_zero, nan_mul_r. apply nan_add_l. }
  rewrite F, nan_mul_r in H.
  destruct (pid1_acc _ _ _ _) as [a|]; [|discriminate H]. cbn [bindo] in H.
  destruct (pid1_out _ _ _ _) as [o|] eqn:E; [|discriminate H]. cbn [bindo] in H. injection H as <-.
  apply out1_nan in E. subst o. split; [split; reflexivity|reflexivity].
Qed.

Lemma zero_dt_forever1 p s e p1 ops p2 dt e' p3 :
  Forall (fun op => op <> Op1Reset) ops ->
  pid1_step (pid1_reset p) (Op1Compute (B754_zero s) e) = Some p1 -> pid1_run p1 ops = Some p2 ->
  pid1_step p2 (Op1Compute dt e') = Some p3 ->
  pid1_output p1 = nan /\ pid1_output p3 = nan.
Proof.
  intros F H1 H2 H3. destruct (first_zero_poisons1 _ _ _ _ H1) as [P O1]. split; [exact O1|].
  pose proof (poisoned1_run ops _ _ F P H2) as P2.
  refine (proj2 (poisoned1_step _ _ _ _ P2 H3) dt e' eq_refl). discriminate.
Qed.

(** ** Concrete controllers *)
Definition fz (n : Z) : b64 := b64_ofZ n.
Definition f3 (a b c : Z) : V3 b64 := mkV (fz a) (fz b) (fz c).
Definition isnan (x : b64) : bool := negb (eqb x x).

(** Limits -7..7 with proportional saturation; error (25, 0, 0), unit gain:
    the output exceeds 7. *)
Definition pp_prop : PidParams b64 := mkPP (f3 1 1 1) v0 v0 v0 v1 false true (f3 7 7 7) (f3 (-7) (-7) (-7)).
Lemma prop_rounding :
  exists pp dt e, let p := pid_new pp in
    pid_sat_on p = true /\ pid_prop_on p = true /\
    (forall a, ltb zero (pr a (fst (pid_limits p))) = true /\ ltb (pr a (snd (pid_limits p))) zero = true) /\
    ltb (pr AX (fst (pid_limits p))) (pr AX (pid_output (pid_step p (OpCompute dt e)))) = true.
Proof.
  exists pp_prop, (fz 1), (f3 25 0 0). cbv zeta. split; [vm_compute; reflexivity|]. split; [vm_compute; reflexivity|].
  split; [intros []; split; vm_compute; reflexivity|vm_compute; reflexivity].
Qed.

(** An infinite error on one axis destroys the other axes of the vector
    controller; the scalar controller of the same axis is unaffected. *)
Definition pp_cont : PidParams b64 := mkPP (f3 1 1 1) v0 v0 v0 v1 false false v0 v0.
Lemma contamination :
  exists (pp : PidParams b64) dt e,
    is_finite (vy e) = true /\
    isnan (vy (pid_output (pid_step (pid_new pp) (OpCompute dt e)))) = true /\
    exists q, pid1_step (pid1_new (mkPP1 (vy (pp_kp pp)) (vy (pp_ki pp)) (vy (pp_kd pp)) (vy (pp_aw pp)) (vy (pp_alpha pp))
                 (pp_rflag pp) (vy (pp_up pp)) (vy (pp_lo pp)))) (Op1Compute dt (vy e)) = Some q /\
              eqb (pid1_output q) (vy e) = true.
Proof.
  exists pp_cont, (fz 1), (mkV (B754_infinity false) (fz 1) (fz 1)).
  split; [vm_compute; reflexivity|]. split; [vm_compute; reflexivity|].
  eexists. split; [reflexivity|]. vm_compute. reflexivity.
Qed.

(** A zero error difference divided by a zero step: the hypotheses above hold
    for an ordinary controller with finite data. *)
Lemma zero_dt_case :
  exists (pp : PidParams b64) e, (forall a, is_finite (pr a e) = true) /\
    isnan (vx (pid_output (pid_step (pid_new pp) (OpCompute (fz 0) e)))) = true /\
    isnan (vx (pid_output (pid_run (pid_new pp) [OpCompute (fz 0) e; OpCompute (fz 1) e]))) = true /\
    eqb (vx (pid_output (pid_run (pid_new pp) [OpCompute (fz 0) e; OpReset; OpCompute (fz 1) e]))) (vx e) = true.
Proof.
  exists pp_cont, (f3 2 3 4). split; [intros []; vm_compute; reflexivity|].
  repeat split; vm_compute; reflexivity.
Qed.

(** Later than the first call a zero step gives an infinite output. *)
Lemma zero_dt_later :
  exists (pp : PidParams b64) e1 e2,
    is_finite (vx (pid_output (pid_run (pid_new pp) [OpCompute (fz 1) e1; OpCompute (fz 0) e2]))) = false.
Proof.
  exists (mkPP v0 v0 (f3 1 1 1) v0 v1 false false v0 v0), (f3 1 1 1), (f3 2 2 2). vm_compute. reflexivity.
Qed.
End B64.
