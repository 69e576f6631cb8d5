(** Proofs about the scalar PID: any arithmetic. *)

From Coq Require Import ZArith List Bool Lia.
From Verif Require Import Scalar LinAlg MPid MPid1 SpecDyn SpecPid PBase PPid.
Import ListNotations.

Section Gen.
Context {T : Type} {O : Ops T}.

Definition lim_ok1 (c : P1Cfg T) : Prop := c1_sflag c = true -> ltb (c1_up c) (c1_lo c) = false.

Lemma set_sat1_lim c u l : lim_ok1 (c1_set_sat c u l).
Proof.
  unfold c1_set_sat, lim_ok1. destruct (ltb (absT _) eps); [cbn; discriminate|].
  destruct (ltb u l) eqn:E; [cbn; discriminate|]. intros _. exact E.
Qed.

Lemma update1_lim c pp : lim_ok1 (c1_update c pp).
Proof.
  unfold c1_update. destruct (_ || _); [apply set_sat1_lim|]. intros H. discriminate H.
Qed.

Lemma compute1_cfg p dt e p' : pid1_compute p dt e = Some p' -> pid1_c p' = pid1_c p.
Proof.
  unfold pid1_compute. intros H. apply bindo_Some in H as (a & _ & H). apply bindo_Some in H as (o & _ & H).
  injection H as <-. reflexivity.
Qed.
Lemma compute1_d_cfg p dt e de p' : pid1_compute_d p dt e de = Some p' -> pid1_c p' = pid1_c p.
Proof.
  unfold pid1_compute_d. intros H. apply bindo_Some in H as (a & _ & H). apply bindo_Some in H as (o & _ & H).
  injection H as <-. reflexivity.
Qed.

Lemma step1_lim p op p' : lim_ok1 (pid1_c p) -> pid1_step p op = Some p' -> lim_ok1 (pid1_c p').
Proof.
  intros K H.
  destruct op; cbn [pid1_step] in H; try (injection H as <-; exact K).
  - injection H as <-. apply update1_lim.
  - injection H as <-. apply set_sat1_lim.
  - injection H as <-. intros D. discriminate D.
  - rewrite (compute1_cfg _ _ _ _ H). exact K.
  - rewrite (compute1_d_cfg _ _ _ _ _ H). exact K.
Qed.

Lemma run1_lim ops : forall p p', lim_ok1 (pid1_c p) -> pid1_run p ops = Some p' -> lim_ok1 (pid1_c p').
Proof.
  induction ops as [|op ops IH]; intros p p' K H; cbn [pid1_run] in H; [injection H as <-; exact K|].
  apply bindo_Some in H as (p1 & H1 & H). eapply IH; [|exact H]. eapply step1_lim; eassumption.
Qed.

Lemma reached1_lim p : Reached1 p -> lim_ok1 (pid1_c p).
Proof.
  intros (pp & ops & H). eapply run1_lim; [|exact H]. unfold pid1_new, pid1_reset, pid1_update. cbn [pid1_c].
  apply update1_lim.
Qed.

Lemma clamp_inside (HI : Irrefl O) x lo hi y : clamp x lo hi = Some y -> inside y hi lo.
Proof.
  unfold clamp, inside. destruct (ltb hi lo) eqn:E; [discriminate|]. intros H. injection H as <-.
  destruct (ltb x lo) eqn:E1; [split; [exact E|apply HI]|].
  destruct (ltb hi x) eqn:E2; [split; [apply HI|exact E]|split; assumption].
Qed.

Lemma clamp_some x lo hi : ltb hi lo = false -> exists y, clamp x lo hi = Some y.
Proof. intros H. unfold clamp. rewrite H. eauto. Qed.
Lemma clamp_none x lo hi : clamp x lo hi = None <-> ltb hi lo = true.
Proof. unfold clamp. destruct (ltb hi lo); split; try discriminate; reflexivity. Qed.

Lemma pid1_out_inside (HI : Irrefl O) c cp ci cd o :
  c1_sflag c = true -> pid1_out c cp ci cd = Some o -> inside o (c1_up c) (c1_lo c).
Proof. unfold pid1_out, saturate1. intros -> H. apply clamp_inside in H; assumption. Qed.

Lemma saturated1_always (HI : Irrefl O) p op p' :
  is_compute1 op = true -> pid1_sat_on p = true -> pid1_step p op = Some p' ->
  inside (pid1_output p') (fst (pid1_limits p)) (snd (pid1_limits p)).
Proof.
  intros Ho Hs H. destruct op; try discriminate Ho; cbn [pid1_step] in H.
  - unfold pid1_compute in H. apply bindo_Some in H as (a & _ & H). apply bindo_Some in H as (o & E & H).
    injection H as <-. cbn. eapply pid1_out_inside; eassumption.
  - unfold pid1_compute_d in H. apply bindo_Some in H as (a & _ & H). apply bindo_Some in H as (o & E & H).
    injection H as <-. cbn. eapply pid1_out_inside; eassumption.
Qed.

(** When a call is undefined. *)
Lemma pid1_acc_none c acc dt e :
  pid1_acc c acc dt e = None <-> eqb (c1_aw c) zero = false /\ ltb (c1_aw c) (mul mone (c1_aw c)) = true.
Proof.
  unfold pid1_acc, saturate1. destruct (eqb (c1_aw c) zero); cbn [negb].
  - split; [discriminate|intros [H _]; discriminate H].
  - rewrite clamp_none. split; [intros H; split; [reflexivity|exact H]|intros [_ H]; exact H].
Qed.

Lemma pid1_out_defined c cp ci cd : lim_ok1 c -> exists o, pid1_out c cp ci cd = Some o.
Proof.
  intros K. unfold pid1_out, saturate1. destruct (c1_sflag c) eqn:E; [|eauto].
  apply clamp_some. apply K, E.
Qed.

Lemma step1_undefined p op :
  Reached1 p ->
  (pid1_step p op = None <->
   is_compute1 op = true /\ eqb (pid1_aw p) zero = false /\ ltb (pid1_aw p) (mul mone (pid1_aw p)) = true).
Proof.
  intros Hr. apply reached1_lim in Hr. unfold pid1_aw.
  destruct op; cbn [pid1_step is_compute1]; try (split; [discriminate|intros [H _]; discriminate H]).
  - unfold pid1_compute.
    destruct (pid1_acc (pid1_c p) (s1_acc (s1_init (pid1_s p) e)) dt e) as [a|] eqn:E; cbn [bindo].
    + destruct (pid1_out_defined (pid1_c p) (mul (c1_kp (pid1_c p)) e) (mul (c1_ki (pid1_c p)) a)
        (mul (c1_kd (pid1_c p)) (pid1_filt (pid1_c p) (s1_init (pid1_s p) e) dt e)) Hr) as [o Eo].
      rewrite Eo. cbn. split; [discriminate|]. intros [_ H]. apply pid1_acc_none with (acc:=s1_acc (s1_init (pid1_s p) e)) (dt:=dt) (e:=e) in H.
      congruence.
    + apply pid1_acc_none in E. split; [intros _; split; [reflexivity|exact E]|reflexivity].
  - unfold pid1_compute_d.
    destruct (pid1_acc (pid1_c p) (s1_acc (s1_init (pid1_s p) e)) dt e) as [a|] eqn:E; cbn [bindo].
    + destruct (pid1_out_defined (pid1_c p) (mul (c1_kp (pid1_c p)) e) (mul (c1_ki (pid1_c p)) a)
        (mul (c1_kd (pid1_c p)) de) Hr) as [o Eo].
      rewrite Eo. cbn. split; [discriminate|]. intros [_ H]. apply pid1_acc_none with (acc:=s1_acc (s1_init (pid1_s p) e)) (dt:=dt) (e:=e) in H.
      congruence.
    + apply pid1_acc_none in E. split; [intros _; split; [reflexivity|exact E]|reflexivity].
Qed.

(** ** Reset *)
Definition same_next1 (s1 s2 : P1St T) : Prop :=
  s1_first s1 = s1_first s2 /\
  (s1_first s1 = true \/ (s1_acc s1 = s1_acc s2 /\ s1_filt s1 = s1_filt s2 /\ s1_perr s1 = s1_perr s2)).
Definition twin1 (p q : Pid1 T) : Prop := pid1_c p = pid1_c q /\ same_next1 (pid1_s p) (pid1_s q).

Lemma init_twin1 s1 s2 e : same_next1 s1 s2 ->
  s1_acc (s1_init s1 e) = s1_acc (s1_init s2 e) /\ s1_filt (s1_init s1 e) = s1_filt (s1_init s2 e) /\
  s1_perr (s1_init s1 e) = s1_perr (s1_init s2 e).
Proof.
  intros [F H]. unfold s1_init. rewrite <- F. destruct (s1_first s1); [repeat split|].
  destruct H as [H|H]; [discriminate|exact H].
Qed.

Lemma step_twin1 p q op : twin1 p q ->
  match pid1_step p op, pid1_step q op with
  | Some p', Some q' => twin1 p' q' /\ (is_compute1 op = true -> pid1_output p' = pid1_output q')
  | None, None => True
  | _, _ => False
  end.
Proof.
  intros [C S].
  destruct op; cbn [pid1_step is_compute1];
    try (split; [split; [unfold on_cfg1, pid1_update, pid1_reset; cbn; rewrite ?C; reflexivity|exact S]|discriminate]).
  - split; [|discriminate]. split; [exact C|]. split; [reflexivity|left; reflexivity].
  - destruct (init_twin1 _ _ e S) as (A & B & D). unfold pid1_compute, pid1_filt. rewrite C, A, B, D.
    destruct (pid1_acc _ _ _ _) as [a|]; [|exact I]. cbn [bindo].
    destruct (pid1_out _ _ _ _) as [o|]; [|exact I]. cbn [bindo].
    split; [|reflexivity]. split; [reflexivity|]. split; [reflexivity|right; repeat split].
  - destruct (init_twin1 _ _ e S) as (A & B & D). unfold pid1_compute_d. rewrite C, A, B.
    destruct (pid1_acc _ _ _ _) as [a|]; [|exact I]. cbn [bindo].
    destruct (pid1_out _ _ _ _) as [o|]; [|exact I]. cbn [bindo].
    split; [|reflexivity]. split; [reflexivity|]. split; [reflexivity|right; repeat split].
Qed.

Lemma twin1_returned ops : forall p q, twin1 p q -> returned1 p ops = returned1 q ops.
Proof.
  induction ops as [|op ops IH]; intros p q H; [reflexivity|]. cbn [returned1].
  pose proof (step_twin1 p q op H) as K.
  destruct (pid1_step p op) as [p'|], (pid1_step q op) as [q'|]; try contradiction; [|reflexivity].
  destruct K as [H' E]. rewrite (IH _ _ H'). destruct (is_compute1 op); [rewrite E by reflexivity|]; reflexivity.
Qed.

Lemma reset_forgets1 p q ops : pid1_c p = pid1_c q -> returned1 (pid1_reset p) ops = returned1 (pid1_reset q) ops.
Proof. intros C. apply twin1_returned. split; [exact C|]. split; [reflexivity|left; reflexivity]. Qed.

Lemma reset_same1 (p q : Pid1 T) ops :
  pid1_get_params p = pid1_get_params q -> pid1_sat_on p = pid1_sat_on q ->
  returned1 (pid1_reset p) ops = returned1 (pid1_reset q) ops.
Proof.
  intros E S. apply reset_forgets1. destruct p as [c s], q as [d t]. unfold pid1_get_params, pid1_sat_on in *.
  destruct c as [a1 a2 a3 a4 a5 a6 a7 a8 a9], d as [b1 b2 b3 b4 b5 b6 b7 b8 b9]. cbn in *. congruence.
Qed.

Lemma reset_like_new1 p pp ops : pid1_c p = pid1_c (pid1_new pp) ->
  returned1 (pid1_reset p) ops = returned1 (pid1_new pp) ops.
Proof. intros C. change (pid1_new pp) with (pid1_reset (pid1_new pp)). apply reset_forgets1. exact C. Qed.

(** ** Rejected saturation leaves the limits alone and switches saturation off *)
Lemma set_sat1_rejected c u l : sat_bad u l = true ->
  c1_set_sat c u l = mkPC1 (c1_kp c) (c1_ki c) (c1_kd c) (c1_aw c) (c1_alpha c) (c1_rflag c) false (c1_up c) (c1_lo c).
Proof.
  intros H. unfold c1_set_sat, sat_bad in *. destruct (ltb (absT (sub u l)) eps); [reflexivity|].
  cbn in H. rewrite H. reflexivity.
Qed.
Lemma set_sat1_accepted c u l : sat_bad u l = false ->
  c1_set_sat c u l = mkPC1 (c1_kp c) (c1_ki c) (c1_kd c) (c1_aw c) (c1_alpha c) (c1_rflag c) true u l.
Proof.
  intros H. unfold sat_bad in H. apply orb_false_iff in H as [A B]. unfold c1_set_sat. rewrite A, B. reflexivity.
Qed.

(** ** Anti-windup *)
Lemma acc1_inside (HI : Irrefl O) c acc dt e a : eqb (c1_aw c) zero = false ->
  pid1_acc c acc dt e = Some a -> inside a (c1_aw c) (mul mone (c1_aw c)).
Proof. intros H. unfold pid1_acc, saturate1. rewrite H. cbn [negb]. apply clamp_inside, HI. Qed.

End Gen.
