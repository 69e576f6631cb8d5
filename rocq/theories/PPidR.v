(** Proofs about the PID controllers over the reals. *)

From Coq Require Import ZArith List Bool Lia Reals Lra.
From Verif Require Import Scalar LinAlg MPid MPid1 SpecDyn SpecPid PBase PPid PPid1.
Import ListNotations.
Local Open Scope R_scope.

Lemma V3_ax (u v : V3 R) : (forall a, pr a u = pr a v) -> u = v.
Proof. intros H. apply V3_eq; [exact (H AX)|exact (H AY)|exact (H AZ)]. Qed.

Lemma diag_mul (k x : V3 R) a : pr a (mmulv (vdiagm k) x) = pr a k * pr a x.
Proof. destruct a; unfold vdiagm, mdiag, mmulv; unR; cbn [m00 m01 m02 m10 m11 m12 m20 m21 m22 vx vy vz pr]; ring. Qed.
Lemma diag_ok_mul m x a : diag_ok m -> pr a (mmulv m x) = pr a (mdiagv m) * pr a x.
Proof. intros H. rewrite H at 1. apply diag_mul. Qed.

Lemma pr_vadd (u v : V3 R) a : pr a (vadd u v) = pr a u + pr a v. Proof. destruct a; reflexivity. Qed.
Lemma pr_vsub (u v : V3 R) a : pr a (vsub u v) = pr a u - pr a v. Proof. destruct a; reflexivity. Qed.
Lemma pr_vscale k (v : V3 R) a : pr a (vscale k v) = k * pr a v. Proof. destruct a; reflexivity. Qed.
Lemma pr_vscaler k (v : V3 R) a : pr a (vscaler v k) = pr a v * k. Proof. destruct a; reflexivity. Qed.
Lemma pr_vdiv k (v : V3 R) a : pr a (vdiv v k) = pr a v / k. Proof. destruct a; reflexivity. Qed.
Lemma pr_vcmul (u v : V3 R) a : pr a (vcmul u v) = pr a u * pr a v. Proof. destruct a; reflexivity. Qed.
Lemma pr_v0 a : pr a (v0 : V3 R) = 0. Proof. destruct a; reflexivity. Qed.
Lemma pr_v1 a : pr a (v1 : V3 R) = 1. Proof. destruct a; reflexivity. Qed.

Lemma veqb_v0_true (v : V3 R) : veqb v v0 = true <-> forall a, pr a v = 0.
Proof.
  unfold veqb, v0; unR; cbn [vx vy vz]. rewrite !andb_true_iff, !Reqb_true. split.
  - intros [[A B] C] a. destruct a; assumption.
  - intros H. exact (conj (conj (H AX) (H AY)) (H AZ)).
Qed.
Lemma veqb_v0_false (v : V3 R) : veqb v v0 = false <-> exists a, pr a v <> 0.
Proof.
  unfold veqb, v0; unR; cbn [vx vy vz]. rewrite !andb_false_iff, !Reqb_false. split.
  - intros [[A|A]|A]; [exists AX|exists AY|exists AZ]; exact A.
  - intros [a A]. destruct a; cbn in A; tauto.
Qed.

Lemma eps_pos : 0 < (@eps R _).
Proof. unR. lra. Qed.
Lemma sat_bad_R u l : sat_bad u l = false <-> wide u l.
Proof.
  unfold sat_bad, wide. rewrite orb_false_iff. pose proof eps_pos as E. cbn [absT ltb sub ROps].
  rewrite !Rltb_false. split.
  - intros [A B]. unfold Rabs in A. destruct (Rcase_abs (u - l)); lra.
  - intros H. split; [unfold Rabs; destruct (Rcase_abs (u - l)); lra|lra].
Qed.
Lemma sat_bad_Rt u l : sat_bad u l = true <-> ~ wide u l.
Proof. rewrite <- sat_bad_R. destruct (sat_bad u l); split; congruence. Qed.

Lemma sat1_limited x u l : l <= u -> sat1 x u l = limited x l u.
Proof.
  intros H. unfold sat1, limited. cbn [ltb ROps]. rcase; unfold Rmin;
    destruct (Rle_dec x u); unfold Rmax; match goal with |- context [Rle_dec ?a ?b] => destruct (Rle_dec a b) end; lra.
Qed.
Lemma inside_R x u l : inside x u l <-> l <= x <= u.
Proof. unfold inside; unR. rewrite !Rltb_false. tauto. Qed.

(** ** Proportional saturation *)
Lemma psat_step a (up lo x s : V3 R) k :
  pr a lo <= 0 <= pr a up -> (forall b, pr b s = k * pr b x) -> 0 <= k ->
  exists k2, 0 <= k2 <= k /\ (forall b, pr b (psat1 (pr a) up lo s) = k2 * pr b x) /\
    pr a lo <= k2 * pr a x <= pr a up /\
    (forall k', 0 <= k' <= k -> pr a lo <= k' * pr a x <= pr a up -> k' <= k2).
Proof.
  intros H Hs Hk. unfold psat1.
  pose proof (Hs a) as Ha. unR. rcase.
  - assert (0 < pr a x) by (rewrite Ha in E; nra). assert (0 < k) by (rewrite Ha in E; nra).
    exists (pr a up / pr a x). assert (Q : pr a up / pr a x * pr a x = pr a up) by (field; lra).
    assert (0 <= pr a up / pr a x) by (apply Rle_mult_inv_pos; lra).
    repeat split; try lra.
    + apply Rmult_le_reg_r with (pr a x); [lra|]. rewrite Q. lra.
    + intros b. rewrite pr_vscale, (Hs b), Ha. field. split; lra.
    + intros k' _ K. apply Rmult_le_reg_r with (pr a x); [lra|]. rewrite Q. lra.
  - assert (pr a x < 0) by (rewrite Ha in E0; nra). assert (0 < k) by (rewrite Ha in E0; nra).
    exists (pr a lo / pr a x). assert (Q : pr a lo / pr a x * pr a x = pr a lo) by (field; lra).
    assert (0 <= pr a lo / pr a x).
    { replace (pr a lo / pr a x) with ((- pr a lo) / (- pr a x)) by (field; lra). apply Rle_mult_inv_pos; lra. }
    repeat split; try lra.
    + apply Rmult_le_reg_r with (- pr a x); [lra|]. nra.
    + intros b. rewrite pr_vscale, (Hs b), Ha. field. split; lra.
    + intros k' _ K. apply Rmult_le_reg_r with (- pr a x); [lra|]. nra.
  - exists k. repeat split; try lra.
    + intros b. rewrite pr_vscale, (Hs b). ring.
    + intros k' K _. lra.
Qed.

Lemma shrink k k' x lo up : 0 <= k <= k' -> lo <= 0 <= up -> lo <= k' * x <= up -> lo <= k * x <= up.
Proof.
  intros H Z B. destruct (Rle_dec 0 x) as [P|P].
  - assert (0 <= k * x) by (apply Rmult_le_pos; lra). assert (k * x <= k' * x) by (apply Rmult_le_compat_r; lra). lra.
  - assert (0 <= k * - x) by (apply Rmult_le_pos; lra). assert (k * - x <= k' * - x) by (apply Rmult_le_compat_r; lra). lra.
Qed.

Lemma psat_scale (up lo x : V3 R) :
  around_zero up lo ->
  exists k, 0 <= k <= 1 /\ (forall a, pr a (saturate x up lo true) = k * pr a x) /\
    within (saturate x up lo true) up lo /\
    (forall k', 0 <= k' <= 1 -> (forall a, pr a lo <= k' * pr a x <= pr a up) -> k' <= k).
Proof.
  intros H. unfold saturate. cbn [negb].
  destruct (psat_step AX up lo x x 1 (H AX)) as (k1 & K1 & S1 & B1 & M1); [intros b; ring|lra|].
  destruct (psat_step AY up lo x _ k1 (H AY) S1) as (k2 & K2 & S2 & B2 & M2); [lra|].
  destruct (psat_step AZ up lo x _ k2 (H AZ) S2) as (k3 & K3 & S3 & B3 & M3); [lra|].
  pose proof (H AX) as HX. pose proof (H AY) as HY.
  exists k3. split; [lra|]. split; [exact S3|]. split.
  - intros a.
    match goal with |- _ <= pr a ?t <= _ => replace (pr a t) with (k3 * pr a x) by (symmetry; exact (S3 a)) end.
    destruct a; [apply shrink with k1; [lra|exact HX|exact B1]|apply shrink with k2; [lra|exact HY|exact B2]|exact B3].
  - intros k' Hk Hw. apply M3; [|apply (Hw AZ)]. split; [lra|]. apply M2; [|apply (Hw AY)].
    split; [lra|]. apply M1; [lra|apply (Hw AX)].
Qed.

Lemma psat_identity (up lo x : V3 R) : within x up lo -> saturate x up lo true = x.
Proof.
  intros H. unfold saturate. cbn [negb].
  assert (P : forall a, psat1 (pr a) up lo x = x).
  { intros a. unfold psat1. pose proof (H a) as Ha. unR. rcase; try lra.
    apply V3_ax. intros b. rewrite pr_vscale. ring. }
  change (psat1 vz up lo) with (psat1 (pr AZ) up lo). change (psat1 vy up lo) with (psat1 (pr AY) up lo).
  change (psat1 vx up lo) with (psat1 (pr AX) up lo). rewrite !P. reflexivity.
Qed.

Lemma prop_within p op :
  is_compute op = true -> pid_sat_on p = true -> pid_prop_on p = true ->
  around_zero (fst (pid_limits p)) (snd (pid_limits p)) ->
  within (pid_output (pid_step p op)) (fst (pid_limits p)) (snd (pid_limits p)).
Proof.
  intros Ho Hs Hp Hz. unfold pid_sat_on, pid_prop_on, pid_limits in *. cbn [fst snd] in *.
  destruct op; try discriminate Ho; cbn [pid_step pid_compute pid_compute_d pid_output pid_s ps_out]; unfold pid_out;
    rewrite Hs, Hp; destruct (psat_scale _ _ (vadd (vadd (mmulv (pc_kp (pid_c p)) e)
      (mmulv (pc_ki (pid_c p)) (pid_acc (pid_c p) (ps_acc (ps_init (pid_s p) e)) dt e)))
      (mmulv (pc_kd (pid_c p)) (pid_filt (pid_c p) (ps_init (pid_s p) e) dt e))) Hz) as (k & _ & _ & W & _);
    try exact W.
  destruct (psat_scale _ _ (vadd (vadd (mmulv (pc_kp (pid_c p)) e)
      (mmulv (pc_ki (pid_c p)) (pid_acc (pid_c p) (ps_acc (ps_init (pid_s p) e)) dt e)))
      (mmulv (pc_kd (pid_c p)) de)) Hz) as (k2 & _ & _ & W2 & _). exact W2.
Qed.

(** The unsaturated value is the sum of the three reported contributions. *)
Lemma prop_direction p op :
  is_compute op = true -> pid_sat_on p = true -> pid_prop_on p = true ->
  around_zero (fst (pid_limits p)) (snd (pid_limits p)) ->
  let p' := pid_step p op in
  let raw a := pr a (pid_prop_part p') + pr a (pid_int_part p') + pr a (pid_der_part p') in
  exists k, 0 <= k <= 1 /\ (forall a, pr a (pid_output p') = k * raw a) /\
    ((forall a, pr a (snd (pid_limits p)) <= raw a <= pr a (fst (pid_limits p))) -> k = 1) /\
    (forall k', 0 <= k' <= 1 ->
       (forall a, pr a (snd (pid_limits p)) <= k' * raw a <= pr a (fst (pid_limits p))) -> k' <= k).
Proof.
  intros Ho Hs Hp Hz p' raw. unfold pid_sat_on, pid_prop_on, pid_limits in *. cbn [fst snd] in *.
  set (x := vadd (vadd (pid_prop_part p') (pid_int_part p')) (pid_der_part p')).
  assert (E : pid_output p' = saturate x (pc_up (pid_c p)) (pc_lo (pid_c p)) true).
  { subst x p'. destruct op; try discriminate Ho; cbn [pid_step pid_compute pid_compute_d pid_output pid_prop_part
      pid_int_part pid_der_part pid_s ps_out ps_cp ps_ci ps_cd]; unfold pid_out; rewrite Hs, Hp; reflexivity. }
  assert (X : forall a, pr a x = raw a) by (intros a; subst x raw; rewrite !pr_vadd; reflexivity).
  destruct (psat_scale _ _ x Hz) as (k & K & S & _ & M).
  exists k. split; [exact K|]. split; [intros a; rewrite E, S, X; reflexivity|]. split.
  - intros W. apply Rle_antisym; [lra|]. apply M; [lra|]. intros a. rewrite X, Rmult_1_l. apply W.
  - intros k' K' W. apply M; [exact K'|]. intros a. rewrite X. apply W.
Qed.

(** ** Anti-windup *)
Lemma acc_bound c acc dt e a :
  veqb (pc_aw c) v0 = false -> 0 <= pr a (pc_aw c) -> - pr a (pc_aw c) <= pr a (pid_acc c acc dt e) <= pr a (pc_aw c).
Proof.
  intros H Ha. pose proof (acc_inside R_irrefl c acc dt e H a) as K.
  rewrite inside_R in K. unR. assert (E : Rltb (pr a (pc_aw c)) (-1 * pr a (pc_aw c)) = false) by (apply Rltb_false; lra).
  specialize (K E). lra.
Qed.

Lemma Rabs_mul_le k x b : - b <= x <= b -> Rabs (k * x) <= Rabs k * b.
Proof. intros H. rewrite Rabs_mult. apply Rmult_le_compat_l; [apply Rabs_pos|]. apply Rabs_le. exact H. Qed.

Lemma int_part_bound p op a :
  Reached p -> is_compute op = true -> (exists b, pr b (pid_aw p) <> 0) -> 0 <= pr a (pid_aw p) ->
  Rabs (pr a (pid_int_part (pid_step p op))) <= Rabs (pr a (pid_ki p)) * pr a (pid_aw p).
Proof.
  intros Hr Ho Hn Ha. apply reached_inv in Hr as (_ & _ & Di & _). unfold pid_aw in *.
  apply veqb_v0_false in Hn.
  destruct op; try discriminate Ho; cbn [pid_step pid_compute pid_compute_d pid_int_part pid_s ps_ci];
    rewrite diag_ok_mul by exact Di; apply Rabs_mul_le; apply acc_bound; assumption.
Qed.

Lemma int1_part_bound p op p' :
  is_compute1 op = true -> pid1_step p op = Some p' -> 0 < pid1_aw p ->
  Rabs (pid1_int_part p') <= Rabs (pid1_ki p) * pid1_aw p.
Proof.
  unfold pid1_aw, pid1_ki. intros Ho H Ha.
  assert (Hn : eqb (c1_aw (pid1_c p)) zero = false) by (unR; apply Reqb_false; lra).
  destruct op; try discriminate Ho; cbn [pid1_step] in H; [unfold pid1_compute in H|unfold pid1_compute_d in H];
    apply bindo_Some in H as (x & E & H); apply bindo_Some in H as (o & _ & H); injection H as <-;
    cbn [pid1_int_part pid1_s s1_ci]; apply (acc1_inside R_irrefl) in E; try exact Hn; rewrite inside_R in E;
    apply Rabs_mul_le; unR; lra.
Qed.

(** ** First call after a reset *)
Lemma rst1_zero flag aw e : rst1 flag 0 aw e = 0.
Proof. unfold rst1; unR. destruct flag; [|reflexivity]. destruct (Rltb aw (Rabs 0)); [|reflexivity]. destruct (xorb _ _); reflexivity. Qed.

Lemma first_acc c s dt e a :
  (forall b, 0 <= pr b (pc_aw c)) ->
  pr a (pid_acc c (ps_acc (ps_init (ps_reset s) e)) dt e) =
  if veqb (pc_aw c) v0 then pr a e * dt else limited (pr a e * dt) (- pr a (pc_aw c)) (pr a (pc_aw c)).
Proof.
  intros Hw. unfold pid_acc. cbn [ps_init ps_reset ps_first ps_acc v0 vx vy vz]. change (@zero R _) with 0.
  rewrite !rst1_zero. destruct (veqb (pc_aw c) v0); cbn [negb].
  - rewrite pr_vadd, pr_vscaler. destruct a; cbn [pr vx vy vz]; ring.
  - rewrite saturate_false_pr, pr_vscale, pr_vadd, pr_vscaler. pose proof (Hw a) as Ha.
    rewrite sat1_limited by (unR; lra). unR.
    replace (pr a (mkV 0 0 0) + pr a e * dt) with (pr a e * dt) by (destruct a; cbn [pr vx vy vz]; ring).
    replace (-1 * pr a (pc_aw c)) with (- pr a (pc_aw c)) by ring. reflexivity.
Qed.

Lemma pid_filt_pr c s dt e a :
  pr a (pid_filt c s dt e) =
  pr a (pc_alpha c) * ((pr a e - pr a (ps_perr s)) / dt) + (1 - pr a (pc_alpha c)) * pr a (ps_filt s).
Proof. unfold pid_filt. rewrite pr_vadd, !pr_vcmul, pr_vdiv, !pr_vsub, pr_v1. reflexivity. Qed.

Lemma first_call p dt e a :
  Reached p -> (forall b, 0 <= pr b (pid_aw p)) -> pid_prop_on p = false ->
  let p' := pid_step (pid_reset p) (OpCompute dt e) in
  pr a (pid_der_part p') = 0 /\
  pr a (pid_output p') =
    first_value (pid_sat_on p) (pr a (pid_kp p)) (pr a (pid_ki p)) (pr a (pid_aw p))
      (pr a (fst (pid_limits p))) (pr a (snd (pid_limits p))) (pr a e) dt (negb (veqb (pid_aw p) v0)).
Proof.
  intros Hr Hw Hp p'. apply reached_inv in Hr as (L & Dp & Di & Dd).
  assert (F : pr a (pid_filt (pid_c p) (ps_init (ps_reset (pid_s p)) e) dt e) = 0).
  { rewrite pid_filt_pr. cbn [ps_init ps_reset ps_first ps_perr ps_filt]. rewrite pr_v0. unfold Rdiv. ring. }
  assert (D : pr a (pid_der_part p') = 0).
  { subst p'. cbn [pid_step pid_compute pid_der_part pid_s ps_cd pid_reset pid_c]. rewrite diag_ok_mul by exact Dd.
    rewrite F. ring. }
  split; [exact D|].
  subst p'. cbn [pid_step pid_compute pid_output pid_der_part pid_s ps_out ps_cd pid_reset pid_c] in *.
  unfold pid_out, pid_sat_on, pid_prop_on, pid_limits, first_value in *. cbn [fst snd].
  assert (X : pr a (vadd (vadd (mmulv (pc_kp (pid_c p)) e)
     (mmulv (pc_ki (pid_c p)) (pid_acc (pid_c p) (ps_acc (ps_init (ps_reset (pid_s p)) e)) dt e)))
     (mmulv (pc_kd (pid_c p)) (pid_filt (pid_c p) (ps_init (ps_reset (pid_s p)) e) dt e))) =
     pr a (pid_kp p) * pr a e + pr a (pid_ki p) *
       (if negb (veqb (pid_aw p) v0) then limited (pr a e * dt) (- pr a (pid_aw p)) (pr a (pid_aw p)) else pr a e * dt)).
  { rewrite !pr_vadd, D, !diag_ok_mul by assumption. rewrite first_acc by exact Hw. unfold pid_aw.
    destruct (veqb (pc_aw (pid_c p)) v0); cbn [negb]; unfold pid_kp, pid_ki; ring. }
  destruct (pc_sflag (pid_c p)) eqn:Es; [|exact X].
  rewrite Hp, saturate_false_pr, X. apply sat1_limited.
  pose proof (L Es a) as B. apply sat_bad_R in B. unfold wide in B. pose proof eps_pos. lra.
Qed.

(** ** Textbook sum *)
Definition hist_ok (c : PidCfg R) (p : Pid R) (h : list (R * V3 R)) : Prop :=
  pid_c p = c /\
  match h with
  | [] => ps_first (pid_s p) = true
  | (_, e) :: _ => ps_first (pid_s p) = false /\ ps_perr (pid_s p) = e /\
     forall a, pr a (ps_acc (pid_s p)) = int_sum (map (fun x => (fst x, pr a (snd x))) h) /\
               pr a (ps_filt (pid_s p)) = filtered (pr a (pc_alpha c)) (map (fun x => (fst x, pr a (snd x))) h)
  end.

Lemma plain_acc p acc dt e a : plain p -> pr a (pid_acc (pid_c p) acc dt e) = pr a acc + pr a e * dt.
Proof.
  intros (_ & Hw & Hf). unfold pid_acc. unfold pid_reset_flag in Hf. rewrite Hf. apply veqb_v0_true in Hw. unfold pid_aw in Hw. rewrite Hw.
  cbn [negb rst1]. destruct a; reflexivity.
Qed.

Lemma hist_step p h dt e : plain p -> hist_ok (pid_c p) p h ->
  hist_ok (pid_c p) (pid_compute p dt e) ((dt, e) :: h).
Proof.
  intros P [_ H]. split; [reflexivity|]. cbn [pid_compute pid_s ps_first ps_perr ps_acc ps_filt].
  split; [reflexivity|]. split; [reflexivity|]. intros a. rewrite (plain_acc p) by exact P. rewrite pid_filt_pr.
  destruct h as [|[dt' e'] h].
  - unfold ps_init. rewrite H. cbn [ps_acc ps_perr ps_filt map int_sum filtered fst snd]. rewrite pr_v0.
    split; [ring|]. unfold Rdiv. ring.
  - destruct H as (H1 & H2 & H3). destruct (H3 a) as [A B]. unfold ps_init. rewrite H1.
    rewrite A, B, H2. cbn [map int_sum filtered fst snd]. split; reflexivity.
Qed.

Lemma hist_run l : forall p h, plain p -> hist_ok (pid_c p) p h ->
  hist_ok (pid_c p) (pid_run p (calls_of l)) (rev l ++ h).
Proof.
  induction l as [|[dt e] l IH]; intros p h P H; [exact H|].
  cbn [calls_of map pid_run fold_left fst snd pid_step].
  cbn [rev]. rewrite <- app_assoc. cbn [app].
  assert (P' : plain (pid_compute p dt e)) by (destruct P as (A & B & C); repeat split; assumption).
  apply (IH (pid_compute p dt e) _ P'). exact (hist_step p h dt e P H).
Qed.

Lemma pid_textbook p l dt e a :
  Reached p -> plain p ->
  pr a (pid_output (pid_run (pid_reset p) (calls_of (l ++ [(dt, e)])))) =
  textbook (pr a (pid_kp p)) (pr a (pid_ki p)) (pr a (pid_kd p)) (pr a (pid_alpha p)) (axis_calls a (l ++ [(dt, e)])).
Proof.
  intros Hr P. apply reached_inv in Hr as (_ & Dp & Di & Dd).
  set (q := pid_run (pid_reset p) (calls_of l)).
  assert (H : hist_ok (pid_c p) q (rev l ++ [])).
  { assert (P' : plain (pid_reset p)) by (destruct P as (A & B & C); repeat split; assumption).
    apply (hist_run l (pid_reset p) [] P'). split; reflexivity. }
  rewrite app_nil_r in H.
  assert (E : pid_run (pid_reset p) (calls_of (l ++ [(dt, e)])) = pid_compute q dt e).
  { unfold calls_of. rewrite map_app. unfold pid_run at 1. rewrite fold_left_app. reflexivity. }
  rewrite E. destruct H as [Hc Hh].
  assert (Pq : plain q) by (unfold plain, pid_sat_on, pid_aw, pid_reset_flag in *; rewrite Hc; exact P).
  pose proof (hist_step q (rev l) dt e Pq ltac:(split; [reflexivity|rewrite Hc; exact Hh])) as [_ H].
  cbn [pid_compute pid_s ps_first ps_perr ps_acc ps_filt] in H. destruct H as (_ & _ & H). destruct (H a) as [A B].
  cbn [pid_compute pid_output pid_s ps_out]. unfold pid_out. destruct P as (Hs & _). unfold pid_sat_on in Hs.
  rewrite Hc in *. rewrite Hs. rewrite !pr_vadd, !diag_ok_mul by assumption. rewrite A, B.
  unfold axis_calls, textbook. rewrite map_app, rev_app_distr. cbn [map rev app fst snd].
  rewrite <- map_rev. unfold pid_kp, pid_ki, pid_kd, pid_alpha. reflexivity.
Qed.

Lemma dhist_run l : forall p, plain p -> ps_first (pid_s p) = false ->
  let q := pid_run p (dcalls_of l) in
  pid_c q = pid_c p /\ ps_first (pid_s q) = false /\
  forall a, pr a (ps_acc (pid_s q)) = pr a (ps_acc (pid_s p)) + int_sum (rev (map (fun c => (fst (fst c), pr a (snd (fst c)))) l)).
Proof.
  induction l as [|[[dt e] de] l IH]; intros p P F.
  - cbn. split; [reflexivity|]. split; [exact F|]. intros a. ring.
  - cbn [dcalls_of map pid_run fold_left fst snd pid_step].
    assert (P' : plain (pid_compute_d p dt e de)) by (destruct P as (A & B & C); repeat split; assumption).
    destruct (IH (pid_compute_d p dt e de) P' eq_refl) as (C & F' & A). unfold pid_run, dcalls_of in *.
    split; [exact C|]. split; [exact F'|]. intros a. rewrite A.
    cbn [pid_compute_d pid_s ps_acc rev]. rewrite (plain_acc p) by exact P. unfold ps_init. rewrite F.
    assert (S : forall l1 x, int_sum (l1 ++ [x]) = int_sum l1 + snd x * fst x).
    { induction l1 as [|[u v] l1 IH1]; intros [d f]; cbn [app int_sum fst snd]; [ring|]. rewrite IH1. cbn [fst snd]. ring. }
    rewrite S. cbn [fst snd]. ring.
Qed.

Lemma pid_textbook_d p l dt e de a :
  Reached p -> plain p ->
  pr a (pid_output (pid_run (pid_reset p) (dcalls_of (l ++ [(dt, e, de)])))) =
  pr a (pid_kp p) * pr a e +
  pr a (pid_ki p) * int_sum (rev (map (fun c => (fst (fst c), pr a (snd (fst c)))) (l ++ [(dt, e, de)]))) +
  pr a (pid_kd p) * pr a de.
Proof.
  intros Hr P. apply reached_inv in Hr as (_ & Dp & Di & Dd).
  set (q := pid_run (pid_reset p) (dcalls_of l)).
  assert (H : pid_c q = pid_c p /\ forall a, pr a (ps_acc (ps_init (pid_s q) e)) =
    int_sum (rev (map (fun c => (fst (fst c), pr a (snd (fst c)))) l))).
  { subst q. destruct l as [|[[dt1 e1] de1] l].
    - split; [reflexivity|]. intros b. cbn. destruct b; reflexivity.
    - cbn [dcalls_of map pid_run fold_left fst snd pid_step].
      assert (P' : plain (pid_compute_d (pid_reset p) dt1 e1 de1)) by (destruct P as (A & B & C); repeat split; assumption).
      destruct (dhist_run l _ P' eq_refl) as (C & F' & A). unfold pid_run, dcalls_of in *.
      split; [exact C|]. intros b. unfold ps_init at 1. rewrite F', A.
      cbn [pid_compute_d pid_s ps_acc rev].
      replace (pid_c (pid_reset p)) with (pid_c p) by reflexivity. rewrite (plain_acc p) by exact P.
      assert (S : forall l1 x, int_sum (l1 ++ [x]) = int_sum l1 + snd x * fst x).
      { induction l1 as [|[u v] l1 IH1]; intros [d f]; cbn [app int_sum fst snd]; [ring|]. rewrite IH1. cbn [fst snd]. ring. }
      rewrite S. cbn [fst snd]. cbn [ps_init pid_reset pid_s ps_reset ps_first ps_acc]. rewrite pr_v0. ring. }
  assert (E : pid_run (pid_reset p) (dcalls_of (l ++ [(dt, e, de)])) = pid_compute_d q dt e de).
  { unfold dcalls_of. rewrite map_app. unfold pid_run at 1. rewrite fold_left_app. reflexivity. }
  rewrite E. destruct H as [Hc Hh].
  cbn [pid_compute_d pid_output pid_s ps_out]. unfold pid_out. pose proof P as (Hs & _). unfold pid_sat_on in Hs.
  rewrite Hc, Hs. rewrite !pr_vadd, !diag_ok_mul by assumption. rewrite (plain_acc p) by exact P. rewrite Hh.
  rewrite map_app, rev_app_distr. cbn [map rev app int_sum fst snd]. unfold pid_kp, pid_ki, pid_kd. reflexivity.
Qed.

(** ** The integral-reset flag *)
Definition cfg_twin (c d : PidCfg R) : Prop :=
  pc_kp c = pc_kp d /\ pc_ki c = pc_ki d /\ pc_kd c = pc_kd d /\ pc_aw c = pc_aw d /\ pc_alpha c = pc_alpha d /\
  pc_sflag c = pc_sflag d /\ pc_pflag c = pc_pflag d /\ pc_up c = pc_up d /\ pc_lo c = pc_lo d.
Definition windup_on (c : PidCfg R) : Prop := (exists b, pr b (pc_aw c) <> 0) /\ forall a, 0 <= pr a (pc_aw c).
Definition acc_in (p : Pid R) : Prop :=
  ps_first (pid_s p) = true \/ forall a, Rabs (pr a (ps_acc (pid_s p))) <= pr a (pc_aw (pid_c p)).
Definition flag_twin (p q : Pid R) : Prop :=
  cfg_twin (pid_c p) (pid_c q) /\ pid_s p = pid_s q /\ windup_on (pid_c p) /\ acc_in p.

Lemma rst1_inside flag acc aw e : Rabs acc <= aw -> rst1 flag acc aw e = acc.
Proof.
  intros H. unfold rst1. destruct flag; [|reflexivity]. unR.
  destruct (Rltb aw (Rabs acc)) eqn:E; [apply Rltb_true in E; lra|reflexivity].
Qed.

Lemma init_acc_in p e a : acc_in p -> windup_on (pid_c p) ->
  Rabs (pr a (ps_acc (ps_init (pid_s p) e))) <= pr a (pc_aw (pid_c p)).
Proof.
  intros H [_ W]. unfold ps_init. destruct (ps_first (pid_s p)) eqn:E.
  - cbn [ps_acc]. rewrite pr_v0, Rabs_R0. apply W.
  - destruct H as [H|H]; [congruence|apply H].
Qed.

Lemma acc_flag_free c d acc dt e :
  (forall a, Rabs (pr a acc) <= pr a (pc_aw c)) -> pc_aw c = pc_aw d -> pid_acc c acc dt e = pid_acc d acc dt e.
Proof.
  intros H E. unfold pid_acc. rewrite <- E.
  rewrite !rst1_inside; [reflexivity| | | | | |]; (exact (H AX) || exact (H AY) || exact (H AZ)).
Qed.

Lemma acc_in_after c acc dt e : windup_on c -> forall a, Rabs (pr a (pid_acc c acc dt e)) <= pr a (pc_aw c).
Proof.
  intros [N W] a. apply veqb_v0_false in N. apply Rabs_le. apply acc_bound; [exact N|apply W].
Qed.

Lemma out_twin c d cp ci cd : cfg_twin c d -> pid_out c cp ci cd = pid_out d cp ci cd.
Proof. intros (_ & _ & _ & _ & _ & A & B & C & D). unfold pid_out. rewrite A, B, C, D. reflexivity. Qed.

Lemma set_sat_twin c d up lo f : cfg_twin c d -> cfg_twin (pc_set_sat c up lo f) (pc_set_sat d up lo f).
Proof.
  intros (A & B & C & D & E & F & G & H & I). unfold pc_set_sat.
  destruct (sat_bad (vx up) (vx lo)); [repeat split; assumption|].
  destruct (sat_bad (vy up) (vy lo)); [repeat split; assumption|].
  destruct (sat_bad (vz up) (vz lo)); repeat split; assumption.
Qed.

Lemma step_flag_twin p q op : keeps_windup op = true -> flag_twin p q ->
  flag_twin (pid_step p op) (pid_step q op) /\ pid_output (pid_step p op) = pid_output (pid_step q op).
Proof.
  intros K (C & S & W & A).
  pose proof C as (C1 & C2 & C3 & C4 & C5 & C6 & C7 & C8 & C9).
  destruct op; try discriminate K; cbn [pid_step];
    try (split; [split; [repeat split; assumption|split; [exact S|split; [exact W|exact A]]]|unfold pid_output; cbn; rewrite S; reflexivity]).
  - (* reset *) split; [|unfold pid_output; cbn; rewrite S; reflexivity].
    split; [exact C|]. split; [cbn; rewrite S; reflexivity|]. split; [exact W|left; reflexivity].
  - (* set_sat *) split; [|unfold pid_output; cbn; rewrite S; reflexivity].
    split; [apply set_sat_twin; exact C|]. split; [exact S|].
    destruct (set_sat_gains (pid_c p) up lo pflag) as (_ & _ & _ & E & _).
    unfold windup_on, acc_in, on_cfg. cbn [pid_c pid_s]. rewrite E. split; [exact W|exact A].
  - assert (E : pid_acc (pid_c p) (ps_acc (ps_init (pid_s p) e)) dt e = pid_acc (pid_c q) (ps_acc (ps_init (pid_s q) e)) dt e).
    { rewrite <- S. apply acc_flag_free; [|exact C4]. intros a. apply init_acc_in; assumption. }
    assert (F : pid_filt (pid_c p) (ps_init (pid_s p) e) dt e = pid_filt (pid_c q) (ps_init (pid_s q) e) dt e)
      by (unfold pid_filt; rewrite S, C5; reflexivity).
    assert (X : pid_s (pid_compute p dt e) = pid_s (pid_compute q dt e)).
    { cbn [pid_compute pid_s]. rewrite E, F, C1, C2, C3, S. rewrite (out_twin _ _ _ _ _ C). reflexivity. }
    split; [|unfold pid_output; rewrite X; reflexivity].
    split; [exact C|]. split; [exact X|]. split; [exact W|]. right. apply acc_in_after. exact W.
  - assert (E : pid_acc (pid_c p) (ps_acc (ps_init (pid_s p) e)) dt e = pid_acc (pid_c q) (ps_acc (ps_init (pid_s q) e)) dt e).
    { rewrite <- S. apply acc_flag_free; [|exact C4]. intros a. apply init_acc_in; assumption. }
    assert (X : pid_s (pid_compute_d p dt e de) = pid_s (pid_compute_d q dt e de)).
    { cbn [pid_compute_d pid_s]. rewrite E, C1, C2, C3, S. rewrite (out_twin _ _ _ _ _ C). reflexivity. }
    split; [|unfold pid_output; rewrite X; reflexivity].
    split; [exact C|]. split; [exact X|]. split; [exact W|]. right. apply acc_in_after. exact W.
Qed.

Lemma flag_twin_returned ops : forall p q, forallb keeps_windup ops = true -> flag_twin p q ->
  returned p ops = returned q ops.
Proof.
  induction ops as [|op ops IH]; intros p q K H; [reflexivity|]. cbn [forallb] in K.
  apply andb_true_iff in K as [K1 K2]. cbn [returned].
  destruct (step_flag_twin p q op K1 H) as [H' E]. rewrite (IH _ _ K2 H'), E. reflexivity.
Qed.

Lemma flag_useless pp ops b :
  (exists a, pr a (pp_aw pp) <> 0) -> (forall a, 0 <= pr a (pp_aw pp)) -> forallb keeps_windup ops = true ->
  returned (pid_new (with_reset_flag b pp)) ops = returned (pid_new pp) ops.
Proof.
  intros N W K. apply flag_twin_returned; [exact K|].
  assert (C : cfg_twin (pid_c (pid_new (with_reset_flag b pp))) (pid_c (pid_new pp))).
  { unfold pid_new, pid_reset, pid_update. cbn [pid_c]. unfold pc_update, with_reset_flag. cbn [pp_lo pp_up pp_kp pp_ki pp_kd pp_aw pp_alpha pp_rflag pp_pflag].
    destruct (_ || _); [apply set_sat_twin|]; repeat split. }
  split; [exact C|]. split; [reflexivity|].
  assert (Aw : pc_aw (pid_c (pid_new (with_reset_flag b pp))) = pp_aw pp).
  { unfold pid_new, pid_reset, pid_update, pc_update, with_reset_flag. cbn [pid_c pp_lo pp_up pp_kp pp_ki pp_kd pp_aw pp_alpha pp_rflag pp_pflag].
    destruct (_ || _); [|reflexivity].
    match goal with |- pc_aw (pc_set_sat ?c _ _ _) = _ => destruct (set_sat_gains c (pp_up pp) (pp_lo pp) (pp_pflag pp)) as (_ & _ & _ & E & _); rewrite E end.
    reflexivity. }
  split; [unfold windup_on; rewrite Aw; split; assumption|]. left. reflexivity.
Qed.

(** Without anti-windup the flag does restart the sum. *)
Lemma flag_restarts p dt e a :
  Reached p -> pid_reset_flag p = true -> (forall b, pr b (pid_aw p) = 0) -> ps_first (pid_s p) = false ->
  pr a (ps_acc (pid_s p)) * pr a e < 0 ->
  pr a (pid_int_part (pid_step p (OpCompute dt e))) = pr a (pid_ki p) * (pr a e * dt).
Proof.
  intros Hr Hf Hw H1 Hs. apply reached_inv in Hr as (_ & _ & Di & _).
  cbn [pid_step pid_compute pid_int_part pid_s ps_ci]. rewrite diag_ok_mul by exact Di. unfold pid_ki. f_equal.
  unfold pid_acc, pid_reset_flag, pid_aw in *. rewrite Hf. pose proof (proj2 (veqb_v0_true _) Hw) as E. rewrite E. cbn [negb].
  rewrite pr_vadd, pr_vscaler. unfold ps_init. rewrite H1.
  assert (Z : forall x y aw, aw = 0 -> x * y < 0 -> rst1 true x aw y = 0).
  { intros x y aw -> H. unfold rst1; unR. rcase; cbn [xorb]; try reflexivity; try nra.
    all: assert (x = 0) by (unfold Rabs in *; destruct (Rcase_abs x); lra); subst; lra. }
  pose proof (Hw AX : vx (pc_aw (pid_c p)) = 0) as WX. pose proof (Hw AY : vy (pc_aw (pid_c p)) = 0) as WY.
  pose proof (Hw AZ : vz (pc_aw (pid_c p)) = 0) as WZ.
  destruct a; cbn [pr vx vy vz] in Hs |- *;
    [rewrite (Z _ _ _ WX Hs)|rewrite (Z _ _ _ WY Hs)|rewrite (Z _ _ _ WZ Hs)]; ring.
Qed.

(** ** get_params / update round trip *)
Lemma round_trip_pid p : Reached p ->
  (pid_update p (pid_get_params p) = p <->
   pid_sat_on p = true \/ exists a, ~ wide (pr a (fst (pid_limits p))) (pr a (snd (pid_limits p)))).
Proof.
  intros Hr. apply reached_inv in Hr as (L & Dp & Di & Dd). unfold lim_ok, diag_ok in *.
  destruct p as [c s]. unfold pid_update, pid_get_params, pid_sat_on, pid_limits, pc_update in *.
  cbn [pid_c pid_s pp_lo pp_up pp_kp pp_ki pp_kd pp_aw pp_alpha pp_rflag pp_pflag fst snd] in *.
  destruct c as [kp ki kd aw al rf sf pf up lo].
  cbn [pc_kp pc_ki pc_kd pc_aw pc_alpha pc_rflag pc_sflag pc_pflag pc_up pc_lo pc_set_pflag pc_set_rflag pc_set_alpha
       pc_set_aw pc_set_gains pc_disable_sat] in *.
  unfold pc_disable_sat, pc_set_pflag, pc_set_rflag, pc_set_alpha, pc_set_aw, pc_set_gains.
  cbn [pc_kp pc_ki pc_kd pc_aw pc_alpha pc_rflag pc_sflag pc_pflag pc_up pc_lo].
  rewrite <- Dp, <- Di, <- Dd.
  assert (W0 : forall a, wide (pr a up) (pr a lo) -> negb (veqb lo v0) || negb (veqb up v0) = true).
  { intros a Ha. unfold wide in Ha. pose proof eps_pos as P0. apply orb_true_iff. rewrite !negb_true_iff.
    destruct (Req_dec (pr a lo) 0) as [Z|Z]; [right|left]; apply veqb_v0_false; exists a; lra. }
  destruct sf.
  - assert (B : forall a, sat_bad (pr a up) (pr a lo) = false) by (intros a; apply L; reflexivity).
    split; [left; reflexivity|]. intros _. rewrite (W0 AX) by (apply sat_bad_R, B).
    rewrite set_sat_on by exact B. reflexivity.
  - split.
    + intros H. right.
      destruct (sat_bad (vx up) (vx lo)) eqn:X; [exists AX; apply sat_bad_Rt; exact X|].
      destruct (sat_bad (vy up) (vy lo)) eqn:Y; [exists AY; apply sat_bad_Rt; exact Y|].
      destruct (sat_bad (vz up) (vz lo)) eqn:Z; [exists AZ; apply sat_bad_Rt; exact Z|].
      assert (B : forall a, sat_bad (pr a up) (pr a lo) = false) by (intros []; assumption).
      rewrite (W0 AX) in H by (apply sat_bad_R, B). rewrite set_sat_on in H by exact B. discriminate H.
    + intros [H|[a Ha]]; [discriminate|]. apply sat_bad_Rt in Ha.
      destruct (_ || _); [|reflexivity]. unfold pc_set_sat.
      destruct (sat_bad (vx up) (vx lo)) eqn:X; [reflexivity|].
      destruct (sat_bad (vy up) (vy lo)) eqn:Y; [reflexivity|].
      destruct (sat_bad (vz up) (vz lo)) eqn:Z; [reflexivity|].
      destruct a; cbn [pr] in Ha; congruence.
Qed.

Lemma round_trip_pid1 p : Reached1 p ->
  (pid1_update p (pid1_get_params p) = p <->
   pid1_sat_on p = true \/ ~ wide (fst (pid1_limits p)) (snd (pid1_limits p))).
Proof.
  assert (Inv : forall p, Reached1 p -> pid1_sat_on p = true -> wide (fst (pid1_limits p)) (snd (pid1_limits p))).
  { clear p. intros p (pp & ops & H).
    assert (Set1 : forall c u l, c1_sflag (c1_set_sat c u l) = true -> wide (c1_up (c1_set_sat c u l)) (c1_lo (c1_set_sat c u l))).
    { intros c u l. destruct (sat_bad u l) eqn:E.
      - rewrite set_sat1_rejected by exact E. discriminate.
      - rewrite set_sat1_accepted by exact E. intros _. apply sat_bad_R. exact E. }
    set (I := fun p : Pid1 R => pid1_sat_on p = true -> wide (fst (pid1_limits p)) (snd (pid1_limits p))).
    assert (Upd : forall q v, I (pid1_update q v)).
    { intros q v. unfold I, pid1_update, pid1_sat_on, pid1_limits, c1_update. cbn [pid1_c fst snd].
      destruct (_ || _); [apply Set1|discriminate]. }
    assert (G : forall ops q, I q -> pid1_run q ops = Some p -> I p).
    { clear H ops. induction ops as [|op ops IH]; intros q K H; cbn [pid1_run] in H; [injection H as <-; exact K|].
      apply bindo_Some in H as (q1 & H1 & H). apply (IH q1); [|exact H].
      destruct op; cbn [pid1_step] in H1; try (injection H1 as <-; exact K).
      - injection H1 as <-. apply Upd.
      - injection H1 as <-. unfold I. apply Set1.
      - injection H1 as <-. intros D. discriminate D.
      - unfold I, pid1_sat_on, pid1_limits. rewrite (compute1_cfg _ _ _ _ H1). exact K.
      - unfold I, pid1_sat_on, pid1_limits. rewrite (compute1_d_cfg _ _ _ _ _ H1). exact K. }
    apply (G ops (pid1_new pp)); [|exact H]. apply (Upd (mkPid1 c10 s10) pp). }
  intros Hr. specialize (Inv p Hr). clear Hr.
  destruct p as [c s]. unfold pid1_update, pid1_get_params, pid1_sat_on, pid1_limits, c1_update in *.
  cbn [pid1_c pid1_s pp1_lo pp1_up pp1_kp pp1_ki pp1_kd pp1_aw pp1_alpha pp1_rflag fst snd] in *.
  destruct c as [kp ki kd aw al rf sf up lo].
  cbn [c1_kp c1_ki c1_kd c1_aw c1_alpha c1_rflag c1_sflag c1_up c1_lo c1_set_rflag c1_set_alpha
       c1_set_aw c1_set_gains c1_disable_sat] in *.
  unfold c1_disable_sat, c1_set_rflag, c1_set_alpha, c1_set_aw, c1_set_gains.
  cbn [c1_kp c1_ki c1_kd c1_aw c1_alpha c1_rflag c1_sflag c1_up c1_lo].
  assert (W0 : wide up lo -> negb (eqb up zero) || negb (eqb lo zero) = true).
  { unfold wide. intros Ha. pose proof eps_pos as P0. apply orb_true_iff. rewrite !negb_true_iff.
    cbn [eqb ROps]. rewrite !Reqb_false. change (@zero R _) with 0. destruct (Req_dec lo 0); [left|right]; lra. }
  destruct sf.
  - specialize (Inv eq_refl). split; [left; reflexivity|]. intros _. rewrite (W0 Inv).
    rewrite set_sat1_accepted by (apply sat_bad_R; exact Inv). reflexivity.
  - split.
    + intros H. right. intros W. rewrite (W0 W) in H. rewrite set_sat1_accepted in H by (apply sat_bad_R; exact W).
      discriminate H.
    + intros [H|Ha]; [discriminate|]. apply sat_bad_Rt in Ha. destruct (_ || _); [|reflexivity].
      rewrite set_sat1_rejected by exact Ha. reflexivity.
Qed.

(** ** Axes as scalar controllers *)
Definition cfg_axis (a : Ax) (c : PidCfg R) (d : P1Cfg R) : Prop :=
  c1_kp d = pr a (mdiagv (pc_kp c)) /\ c1_ki d = pr a (mdiagv (pc_ki c)) /\ c1_kd d = pr a (mdiagv (pc_kd c)) /\
  c1_aw d = pr a (pc_aw c) /\ c1_alpha d = pr a (pc_alpha c) /\ c1_rflag d = pc_rflag c /\
  c1_sflag d = pc_sflag c /\ (pc_sflag c = true -> c1_up d = pr a (pc_up c) /\ c1_lo d = pr a (pc_lo c)).
Definition st_axis (a : Ax) (s : PidSt R) (t : P1St R) : Prop :=
  s1_first t = ps_first s /\ s1_acc t = pr a (ps_acc s) /\ s1_filt t = pr a (ps_filt s) /\ s1_perr t = pr a (ps_perr s).
Definition sim (a : Ax) (p : Pid R) (q : Pid1 R) : Prop :=
  cfg_inv (pid_c p) /\ pc_pflag (pid_c p) = false /\ uniform_windup (pc_aw (pid_c p)) /\
  cfg_axis a (pid_c p) (pid1_c q) /\ st_axis a (pid_s p) (pid1_s q).

Lemma sat1_clamp x u l : l <= u -> clamp x l u = Some (sat1 x u l).
Proof.
  intros H. unfold clamp, sat1. cbn [ltb ROps]. rcase; try lra; reflexivity.
Qed.

Lemma init_axis a s t e : st_axis a s t -> st_axis a (ps_init s e) (s1_init t (pr a e)).
Proof.
  intros (A & B & C & D). unfold ps_init, s1_init. rewrite A. destruct (ps_first s) eqn:F.
  - repeat split; cbn [s1_acc s1_filt ps_acc ps_filt]; rewrite pr_v0; reflexivity.
  - split; [congruence|]. split; [exact B|]. split; [exact C|exact D].
Qed.

Lemma acc_axis a c d acc dt e :
  uniform_windup (pc_aw c) -> c1_aw d = pr a (pc_aw c) -> c1_rflag d = pc_rflag c ->
  pid1_acc d (pr a acc) dt (pr a e) = Some (pr a (pid_acc c acc dt e)).
Proof.
  intros U Ha Hf. unfold pid1_acc, pid_acc, saturate1. rewrite Ha, Hf.
  assert (P : forall x y z : R, pr a (mkV x y z) = match a with AX => x | AY => y | AZ => z end) by (intros; destruct a; reflexivity).
  destruct U as [U|U].
  - pose proof (proj2 (veqb_v0_true _) U) as E. rewrite E. rewrite U. cbn [eqb ROps]. unR.
    assert (Z : Reqb 0 0 = true) by (apply Reqb_true; reflexivity). rewrite Z. cbn [negb].
    rewrite pr_vadd, pr_vscaler, P. f_equal. f_equal.
    destruct a; [change (vx (pc_aw c)) with (pr AX (pc_aw c))|change (vy (pc_aw c)) with (pr AY (pc_aw c))|
      change (vz (pc_aw c)) with (pr AZ (pc_aw c))]; rewrite U; reflexivity.
  - assert (E : veqb (pc_aw c) v0 = false) by (apply veqb_v0_false; exists a; specialize (U a); lra). rewrite E.
    assert (Z : eqb (pr a (pc_aw c)) zero = false) by (unR; apply Reqb_false; specialize (U a); lra). rewrite Z. cbn [negb].
    rewrite sat1_clamp by (unR; specialize (U a); lra). f_equal. rewrite saturate_false_pr, pr_vscale, pr_vadd, pr_vscaler, P.
    destruct a; reflexivity.
Qed.

Lemma out_axis a c d cp ci cd :
  cfg_axis a c d -> lim_ok c -> pc_pflag c = false ->
  pid1_out d (pr a cp) (pr a ci) (pr a cd) = Some (pr a (pid_out c cp ci cd)).
Proof.
  intros (_ & _ & _ & _ & _ & _ & S & B) L Hp. unfold pid1_out, pid_out, saturate1. rewrite S.
  destruct (pc_sflag c) eqn:E; [|rewrite !pr_vadd; reflexivity].
  destruct (B eq_refl) as [-> ->]. rewrite Hp, saturate_false_pr, !pr_vadd.
  apply sat1_clamp. pose proof (proj1 (sat_bad_R _ _) (L E a)) as W. unfold wide in W. pose proof eps_pos; lra.
Qed.

Lemma set_sat_axis a c d up lo : uniform_limits up lo -> cfg_axis a c d ->
  cfg_axis a (pc_set_sat c up lo false) (c1_set_sat d (pr a up) (pr a lo)).
Proof.
  intros U (A & B & C & D & E & F & G & H). destruct U as [U|U].
  - rewrite set_sat_on by (intros b; apply sat_bad_R, U). rewrite set_sat1_accepted by (apply sat_bad_R, U).
    repeat split; assumption.
  - rewrite set_sat1_rejected by (apply sat_bad_Rt, U).
    destruct (set_sat_gains c up lo false) as (E1 & E2 & E3 & E4 & E5 & E6).
    pose proof (set_sat_off c up lo false (ex_intro _ AX (proj2 (sat_bad_Rt _ _) (U AX)))) as Off.
    unfold cfg_axis. rewrite E1, E2, E3, E4, E5, E6, Off.
    cbn [c1_kp c1_ki c1_kd c1_aw c1_alpha c1_rflag c1_sflag]. repeat (split; [assumption||reflexivity|]). discriminate.
Qed.

Lemma set_sat_pflag c up lo : pc_pflag c = false -> pc_pflag (pc_set_sat c up lo false) = false.
Proof.
  intros H. unfold pc_set_sat. destruct (sat_bad (vx up) (vx lo)); [exact H|].
  destruct (sat_bad (vy up) (vy lo)); [exact H|]. destruct (sat_bad (vz up) (vz lo)); [exact H|reflexivity].
Qed.

Lemma update_axis a c d pp : separable pp -> cfg_axis a (pc_update c pp) (c1_update d (axis_params a pp)).
Proof.
  intros (Hp & Hw & Hl). unfold pc_update, c1_update.
  set (c' := pc_set_pflag _ _). set (d' := c1_set_rflag _ _).
  assert (K : pc_sflag c' = c1_sflag d' -> (pc_sflag c' = true -> c1_up d' = pr a (pc_up c') /\ c1_lo d' = pr a (pc_lo c')) ->
    cfg_axis a c' d').
  { intros S B. unfold cfg_axis. split; [destruct a; reflexivity|]. split; [destruct a; reflexivity|].
    split; [destruct a; reflexivity|]. repeat (split; [reflexivity|]). split; [symmetry; exact S|exact B]. }
  assert (K' : cfg_axis a (pc_disable_sat c') (c1_disable_sat d')).
  { unfold cfg_axis. split; [destruct a; reflexivity|]. split; [destruct a; reflexivity|].
    split; [destruct a; reflexivity|]. repeat (split; [reflexivity|]). discriminate. }
  clearbody c' d'. clear K.
  rewrite Hp. cbn [axis_params pp1_up pp1_lo].
  assert (V : pc_set_sat c' (pp_up pp) (pp_lo pp) false = pc_set_sat (pc_disable_sat c') (pp_up pp) (pp_lo pp) false \/
              (forall b, ~ wide (pr b (pp_up pp)) (pr b (pp_lo pp)))).
  { destruct Hl as [U|U]; [left|right; exact U]. rewrite !set_sat_on by (intros b; apply sat_bad_R, U). reflexivity. }
  destruct Hl as [U|U].
  - assert (E1 : negb (veqb (pp_lo pp) v0) || negb (veqb (pp_up pp) v0) = true).
    { specialize (U a). unfold wide in U. pose proof eps_pos as P0. apply orb_true_iff. rewrite !negb_true_iff.
      destruct (Req_dec (pr a (pp_lo pp)) 0) as [Z|Z]; [right|left]; apply veqb_v0_false; exists a; lra. }
    assert (E2 : negb (eqb (pr a (pp_up pp)) zero) || negb (eqb (pr a (pp_lo pp)) zero) = true).
    { specialize (U a). unfold wide in U. pose proof eps_pos as P0. apply orb_true_iff. rewrite !negb_true_iff.
      cbn [eqb ROps]. rewrite !Reqb_false. change (@zero R _) with 0. destruct (Req_dec (pr a (pp_lo pp)) 0); [left|right]; lra. }
    rewrite E1, E2.
    replace (pc_set_sat c' (pp_up pp) (pp_lo pp) false) with (pc_set_sat (pc_disable_sat c') (pp_up pp) (pp_lo pp) false)
      by (rewrite !set_sat_on by (intros b; apply sat_bad_R, U); reflexivity).
    replace (c1_set_sat d' (pr a (pp_up pp)) (pr a (pp_lo pp))) with (c1_set_sat (c1_disable_sat d') (pr a (pp_up pp)) (pr a (pp_lo pp)))
      by (rewrite !set_sat1_accepted by (apply sat_bad_R, U); reflexivity).
    apply set_sat_axis; [left; exact U|exact K'].
  - assert (Q : cfg_axis a (pc_set_sat (pc_disable_sat c') (pp_up pp) (pp_lo pp) false) (c1_disable_sat d')).
    { pose proof (set_sat_axis a _ _ _ _ (or_intror U) K') as S.
      rewrite set_sat1_rejected in S by (apply sat_bad_Rt, U). exact S. }
    assert (Q' : cfg_axis a (pc_set_sat c' (pp_up pp) (pp_lo pp) false) (c1_disable_sat d')).
    { destruct (set_sat_gains c' (pp_up pp) (pp_lo pp) false) as (E1 & E2 & E3 & E4 & E5 & E6).
      pose proof (set_sat_off c' (pp_up pp) (pp_lo pp) false (ex_intro _ AX (proj2 (sat_bad_Rt _ _) (U AX)))) as Off.
      unfold cfg_axis in *. rewrite E1, E2, E3, E4, E5, E6, Off.
      destruct K' as (A & B & C & D & E & F & _). repeat (split; [assumption||reflexivity|]). discriminate. }
    assert (R1 : c1_set_sat d' (pr a (pp_up pp)) (pr a (pp_lo pp)) = c1_disable_sat d')
      by (rewrite set_sat1_rejected by (apply sat_bad_Rt, U); reflexivity).
    destruct (negb (veqb (pp_lo pp) v0) || negb (veqb (pp_up pp) v0)), (negb (eqb (pr a (pp_up pp)) zero) || negb (eqb (pr a (pp_lo pp)) zero));
      rewrite ?R1; assumption.
Qed.

Lemma update_pflag c pp : separable pp -> pc_pflag (pc_update c pp) = false /\ pc_aw (pc_update c pp) = pp_aw pp.
Proof.
  intros (Hp & _ & _). unfold pc_update. destruct (_ || _).
  - rewrite Hp at 2. split; [apply set_sat_pflag; exact Hp|].
    match goal with |- pc_aw (pc_set_sat ?c ?u ?l ?f) = _ => destruct (set_sat_gains c u l f) as (_ & _ & _ & E & _); rewrite E end. reflexivity.
  - split; [exact Hp|reflexivity].
Qed.

Lemma axis_out_eq (x y : R) : x = y -> Some x = Some y. Proof. congruence. Qed.

(** One vector call corresponds to the scalar calls; outputs agree. *)
Lemma axis_sim_step a p q op : separable_op op -> sim a p q ->
  exists q', pid1_run q (axis_op a op) = Some q' /\ sim a (pid_step p op) q' /\
    returned1 q (axis_op a op) = (if is_compute op then [Some (pr a (pid_output (pid_step p op)))] else []).
Proof.
  intros Hop (Inv & Hp & U & C & S).
  pose proof C as (C1 & C2 & C3 & C4 & C5 & C6 & C7 & C8).
  pose proof (step_cfg_inv p op Inv) as Inv'.
  destruct op; cbn [axis_op pid1_run returned1 pid1_step bindo is_compute1 is_compute];
    try (eexists; split; [reflexivity|]; split; [|reflexivity]; split; [exact Inv'|];
         split; [exact Hp|]; split; [exact U|]; split; [|exact S];
         unfold cfg_axis; cbn; repeat (split; [assumption||reflexivity|]); first [exact C8|discriminate]).
  - (* update *) eexists; split; [reflexivity|]; split; [|reflexivity].
    destruct (update_pflag (pid_c p) pp Hop) as [P1 P2].
    split; [exact Inv'|]. split; [exact P1|]. split; [cbn [pid_step pid_update pid_c]; rewrite P2; apply Hop|].
    split; [|exact S]. apply update_axis. exact Hop.
  - (* reset *) eexists; split; [reflexivity|]; split; [|reflexivity].
    split; [exact Inv'|]. split; [exact Hp|]. split; [exact U|]. split; [exact C|].
    destruct S as (S1 & S2 & S3 & S4). repeat split; assumption.
  - (* set_sat *) destruct Hop as [-> Hl]. eexists; split; [reflexivity|]; split; [|reflexivity].
    split; [exact Inv'|]. split; [apply set_sat_pflag; exact Hp|].
    split; [cbn [pid_step on_cfg pid_c]; destruct (set_sat_gains (pid_c p) up lo false) as (_ & _ & _ & E & _); rewrite E; exact U|].
    split; [|exact S]. apply set_sat_axis; assumption.
  - (* aw *) eexists; split; [reflexivity|]; split; [|reflexivity].
    split; [exact Inv'|]. split; [exact Hp|]. split; [exact Hop|]. split; [|exact S].
    unfold cfg_axis; cbn; repeat (split; [assumption||reflexivity|]); exact C8.
  - (* pflag *) eexists; split; [reflexivity|]; split; [|reflexivity].
    split; [exact Inv'|]. split; [exact Hop|]. split; [exact U|]. split; [|exact S]. exact C.
  - (* compute *)
    pose proof (init_axis a _ _ e S) as (I1 & I2 & I3 & I4). destruct Inv as (L & Dp & Di & Dd).
    set (acc := pid_acc (pid_c p) (ps_acc (ps_init (pid_s p) e)) dt e).
    set (flt := pid_filt (pid_c p) (ps_init (pid_s p) e) dt e).
    assert (EA : pid1_acc (pid1_c q) (s1_acc (s1_init (pid1_s q) (pr a e))) dt (pr a e) = Some (pr a acc))
      by (rewrite I2; apply acc_axis; assumption).
    assert (EF : pid1_filt (pid1_c q) (s1_init (pid1_s q) (pr a e)) dt (pr a e) = pr a flt).
    { unfold pid1_filt. subst flt. rewrite pid_filt_pr, I3, I4, C5. reflexivity. }
    assert (EO : pid1_out (pid1_c q) (c1_kp (pid1_c q) * pr a e) (c1_ki (pid1_c q) * pr a acc) (c1_kd (pid1_c q) * pr a flt) =
                 Some (pr a (pid_output (pid_step p (OpCompute dt e))))).
    { rewrite C1, C2, C3. rewrite <- !diag_ok_mul by assumption. apply (out_axis a (pid_c p)); assumption. }
    unfold pid1_compute. rewrite EA. cbn [bindo]. rewrite EF. cbn [mul ROps]. rewrite EO. cbn [bindo].
    eexists. split; [reflexivity|]. split; [|reflexivity].
    split; [exact Inv'|]. split; [exact Hp|]. split; [exact U|]. split; [exact C|]. repeat split.
  - pose proof (init_axis a _ _ e S) as (I1 & I2 & I3 & I4). destruct Inv as (L & Dp & Di & Dd).
    set (acc := pid_acc (pid_c p) (ps_acc (ps_init (pid_s p) e)) dt e).
    assert (EA : pid1_acc (pid1_c q) (s1_acc (s1_init (pid1_s q) (pr a e))) dt (pr a e) = Some (pr a acc))
      by (rewrite I2; apply acc_axis; assumption).
    assert (EO : pid1_out (pid1_c q) (c1_kp (pid1_c q) * pr a e) (c1_ki (pid1_c q) * pr a acc) (c1_kd (pid1_c q) * pr a de) =
                 Some (pr a (pid_output (pid_step p (OpComputeD dt e de))))).
    { rewrite C1, C2, C3. rewrite <- !diag_ok_mul by assumption. apply (out_axis a (pid_c p)); assumption. }
    unfold pid1_compute_d. rewrite EA. cbn [bindo]. cbn [mul ROps]. rewrite EO. cbn [bindo].
    eexists. split; [reflexivity|]. split; [|reflexivity].
    split; [exact Inv'|]. split; [exact Hp|]. split; [exact U|]. split; [exact C|]. repeat split. exact I3.
Qed.

Lemma returned1_app (ops1 ops2 : list (Pid1Op R)) : forall q q', pid1_run q ops1 = Some q' ->
  returned1 q (ops1 ++ ops2) = returned1 q ops1 ++ returned1 q' ops2.
Proof.
  induction ops1 as [|op ops1 IH]; intros q q' H; cbn [pid1_run] in H; [injection H as <-; reflexivity|].
  apply bindo_Some in H as (q1 & H1 & H). cbn [app returned1]. rewrite H1.
  destruct (is_compute1 op); rewrite (IH _ _ H); reflexivity.
Qed.

Lemma sim_returned a ops : forall p q, Forall separable_op ops -> sim a p q ->
  returned1 q (axis_ops a ops) = map (fun v => Some (pr a v)) (returned p ops).
Proof.
  induction ops as [|op ops IH]; intros p q H S; [reflexivity|]. inversion H as [|? ? H1 H2]; subst.
  cbn [axis_ops flat_map returned].
  destruct (axis_sim_step a p q op H1 S) as (q' & R1 & S' & O1). rewrite (returned1_app _ _ q q' R1), O1.
  unfold axis_ops in IH. rewrite (IH _ _ H2 S'). destruct (is_compute op); reflexivity.
Qed.

Lemma axes_are_scalar a pp ops : separable pp -> Forall separable_op ops ->
  returned1 (pid1_new (axis_params a pp)) (axis_ops a ops) = map (fun v => Some (pr a v)) (returned (pid_new pp) ops).
Proof.
  intros Hs Ho. apply sim_returned; [exact Ho|].
  destruct (update_pflag pc0 pp Hs) as [P1 P2].
  split; [apply new_cfg_inv|]. split; [exact P1|]. split; [cbn [pid_new pid_reset pid_update pid_c]; rewrite P2; apply Hs|].
  split; [apply update_axis; exact Hs|]. repeat split; cbn; destruct a; reflexivity.
Qed.

Lemma flag_restarts_api p0 op dt e a :
  Reached p0 -> is_compute op = true -> pid_reset_flag p0 = true -> (forall b, pr b (pid_aw p0) = 0) ->
  0 < pr a (pid_ki p0) ->
  let p := pid_step p0 op in
  pr a (pid_int_part p) * pr a e < 0 ->
  pr a (pid_int_part (pid_step p (OpCompute dt e))) = pr a (pid_ki p0) * (pr a e * dt).
Proof.
  intros Hr Ho Hf Hw Hk p Hs.
  assert (C : pid_c p = pid_c p0) by (apply compute_keeps_settings; exact Ho).
  pose proof (reached_inv _ Hr) as (_ & _ & Di & _).
  assert (I1 : pr a (pid_int_part p) = pr a (pid_ki p0) * pr a (ps_acc (pid_s p))).
  { subst p. destruct op; try discriminate Ho; cbn [pid_step pid_compute pid_compute_d pid_int_part pid_s ps_ci ps_acc];
      rewrite diag_ok_mul by exact Di; reflexivity. }
  rewrite flag_restarts.
  - unfold pid_ki. rewrite C. reflexivity.
  - destruct Hr as (pp & ops & ->). exists pp, (ops ++ [op]). subst p. unfold pid_run. rewrite fold_left_app. reflexivity.
  - unfold pid_reset_flag in *. rewrite C. exact Hf.
  - unfold pid_aw in *. rewrite C. exact Hw.
  - subst p. destruct op; try discriminate Ho; reflexivity.
  - rewrite I1 in Hs. nra.
Qed.
