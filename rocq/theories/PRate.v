(** A rate loop that is a mere gain, with first-order rotors: two rotors are sped
    up as in a climb, two are slowed down as in a descent. *)

From Coq Require Import ZArith List Bool Lia Reals Lra Psatz.
From Verif Require Import PClimb PSink.
Import ListNotations.
Local Open Scope R_scope.

Section Rec.
Variables kf m W Kp tau dt e0 : R.
Hypotheses (Hk : 0 < kf) (Hm : 0 < m) (HW : 0 < W) (HK : 0 < Kp) (Ht : 0 < tau) (Hd : 0 < dt <= tau) (Hg : 5 * Kp * tau <= 1) (H0 : 2 * (m * Kp * e0) <= W) (He : 0 <= e0).

Let Hg4 : 4 * Kp * tau <= 1.
Proof. assert (0 < Kp * tau) by (apply Rmult_lt_0_compat; lra). lra. Qed.

Definition turning (e a b : R) : Prop := steady kf m W Kp e a /\ sinking kf m W Kp e0 e b.
Definition turn_e (e a b : R) : R := e - dt * ((lift kf a - lift kf b) / (2 * m)).
Definition turn_a (e a : R) : R := next_w kf m W Kp tau dt e a.
Definition turn_b (e b : R) : R := sink_w kf m W Kp tau dt e b.

Lemma turn_mean e a b : turn_e e a b = (next_e kf m W dt e a + sink_d kf m W dt e b) / 2.
Proof using Hm. unfold turn_e, next_e, sink_d. field. lra. Qed.
Lemma turn_less e a b : turning e a b -> (1 - 2 * Kp * dt) * e <= turn_e e a b <= e.
Proof.
  intros [S1 S2]. rewrite turn_mean.
  pose proof (next_e_low kf m W Kp tau dt Hm Hd e a S1).
  assert (next_e kf m W dt e a <= e) by (eapply next_e_up; eassumption).
  pose proof (sink_less kf m W Kp tau dt e0 Hk Hm HW HK Hd H0 e b S2). lra.
Qed.

(** The rotors keep their places for any error that falls by no more. *)
Lemma keep_a e a e' : steady kf m W Kp e a -> (1 - 2 * Kp * dt) * e <= e' -> steady kf m W Kp e' (turn_a e a).
Proof.
  intros (E & A & L) Lo. pose proof (r_range tau dt Ht Hd) as Hr. pose proof (gain_r Kp tau dt Ht Hd Hg4) as Gr.
  assert (Kd : 0 < Kp * dt) by (apply Rmult_lt_0_compat; lra).
  assert (Kt : Kp * dt <= Kp * tau) by (apply Rmult_le_compat_l; lra).
  unfold turn_a. split; [|split].
  - assert (0 <= (1 - 2 * Kp * dt) * e) by (apply Rmult_le_pos; lra). lra.
  - rewrite (next_w_mean kf m W Kp tau dt Ht). assert (C : wh kf W <= speed kf (W + m * Kp * e)) by (apply cmd_wh; assumption).
    set (r := dt / tau) in *.
    assert ((1 - r) * wh kf W <= (1 - r) * a) by (apply Rmult_le_compat_l; lra).
    assert (r * wh kf W <= r * speed kf (W + m * Kp * e)) by (apply Rmult_le_compat_l; lra). lra.
  - rewrite (next_w_mean kf m W Kp tau dt Ht).
    assert (M : lift kf ((1 - dt / tau) * a + dt / tau * speed kf (W + m * Kp * e)) <= (1 - dt / tau) * lift kf a + dt / tau * lift kf (speed kf (W + m * Kp * e))).
    { apply lift_mean; [exact Hk|lra]. }
    rewrite lift_speed in M by (try exact Hk; apply cmd_pos; assumption). set (r := dt / tau) in *.
    assert (M' : lift kf ((1 - r) * a + r * speed kf (W + m * Kp * e)) - W <= (1 - r) * (2 * m * Kp * e) + r * (m * Kp * e)).
    { assert ((1 - r) * (lift kf a - W) <= (1 - r) * (2 * m * Kp * e)) by (apply Rmult_le_compat_l; lra). lra. }
    assert (P : 0 <= m * Kp * e) by (apply Rmult_le_pos; [apply Rmult_le_pos; lra|lra]).
    assert (Q : 2 * m * Kp * ((1 - 2 * Kp * dt) * e) <= 2 * m * Kp * e').
    { apply Rmult_le_compat_l; [|exact Lo]. apply Rmult_le_pos; lra. }
    assert (4 * Kp * dt * (m * Kp * e) <= r * (m * Kp * e)) by (apply Rmult_le_compat_r; lra).
    nra.
Qed.
Lemma keep_b e b e' : sinking kf m W Kp e0 e b -> (1 - 2 * Kp * dt) * e <= e' <= e -> sinking kf m W Kp e0 e' (turn_b e b).
Proof.
  intros (D & A & B) [Lo Up]. pose proof (rr tau dt Ht Hd) as Hr. pose proof (gain_rr Kp tau dt HK Ht Hd Hg) as Gr.
  pose proof (part_range m W Kp e0 Hm HW HK H0 e D) as P.
  pose proof (cmd_behind kf m W Kp tau dt e0 Hk Hm HW HK Hd Hg H0 e D) as CC. cbv zeta in CC. destruct CC as [C1 C2].
  assert (Kd : 0 < Kp * dt) by (apply Rmult_lt_0_compat; lra).
  assert (Kt : Kp * dt <= Kp * tau) by (apply Rmult_le_compat_l; lra).
  assert (mk : 0 < m * Kp) by (apply Rmult_lt_0_compat; lra).
  assert (P' : (1 - 2 * Kp * dt) * part m W Kp e <= part m W Kp e').
  { unfold part. replace ((1 - 2 * Kp * dt) * (m * Kp * e / W)) with (m * Kp * ((1 - 2 * Kp * dt) * e) / W) by (field; lra).
    apply Rmult_le_compat_r; [left; apply Rinv_0_lt_compat; lra|]. apply Rmult_le_compat_l; lra. }
  unfold turn_b. split; [|rewrite (next_behind kf m W Kp tau dt Hk HW Ht); set (r := dt / tau) in *; set (c := behind kf W (speed kf (W - m * Kp * e))) in *; set (x := behind kf W b) in *; split].
  - assert (0 <= (1 - 2 * Kp * dt) * e) by (apply Rmult_le_pos; lra). lra.
  - assert (0 <= (1 - r) * x) by (apply Rmult_le_pos; lra). assert (0 <= r * c) by (apply Rmult_le_pos; lra). lra.
  - apply Rle_trans with ((1 - 2 * Kp * dt) * part m W Kp e); [|exact P'].
    assert ((1 - r) * x <= (1 - r) * part m W Kp e) by (apply Rmult_le_compat_l; lra).
    assert (r * c <= r * (3 / 5 * part m W Kp e)) by (apply Rmult_le_compat_l; lra).
    assert (5 * Kp * dt * part m W Kp e <= r * part m W Kp e) by (apply Rmult_le_compat_r; lra). lra.
Qed.
Lemma next_turning e a b : turning e a b -> turning (turn_e e a b) (turn_a e a) (turn_b e b).
Proof.
  intros S. pose proof (turn_less e a b S) as L. destruct S as [S1 S2]. split; [apply keep_a; [exact S1|lra]|apply keep_b; [exact S2|lra]].
Qed.

(** Where the rotors are. *)
Lemma a_range e a b : turning e a b -> 0 <= a /\ W <= lift kf a <= 2 * W.
Proof.
  intros [(E & A & L) (D & _)]. pose proof (wh_pos kf W Hk HW) as Pw. split; [lra|].
  assert (lift kf (wh kf W) <= lift kf a) by (apply lift_mono; [exact Hk|lra]). rewrite lift_wh in * by assumption.
  assert (m * Kp * e <= m * Kp * e0) by (apply Rmult_le_compat_l; [apply Rmult_le_pos|]; lra). lra.
Qed.
Lemma b_range e a b : turning e a b -> 0 <= b /\ W / 4 <= lift kf b <= W.
Proof.
  intros [_ (D & A)]. pose proof (wh_pos kf W Hk HW) as Pw. pose proof (part_range m W Kp e0 Hm HW HK H0 e D) as P.
  assert (Eb : b = wh kf W * (1 - behind kf W b)) by (unfold behind; field; lra).
  split; [rewrite Eb; apply Rmult_le_pos; lra|].
  pose proof (lift_behind kf W Hk HW b) as L. set (x := behind kf W b) in *.
  assert (U : 0 <= x * (2 - x) <= 3/4) by nra.
  assert (0 <= W * (x * (2 - x))) by (apply Rmult_le_pos; lra). assert (W * (x * (2 - x)) <= W * (3/4)) by (apply Rmult_le_compat_l; lra). lra.
Qed.

(** ** How fast *)
Definition both_store (e a b : R) : R := (energy kf m W tau e a + store kf m W tau e b) / 2.
Lemma both_low e a b : turning e a b -> e <= 2 * both_store e a b.
Proof.
  intros [S1 S2]. assert (e <= 2 * energy kf m W tau e a) by (eapply energy_low; eassumption).
  assert (e <= 2 * store kf m W tau e b) by (eapply store_low; eassumption). unfold both_store. lra.
Qed.
Lemma both_up e a b : turning e a b -> both_store e a b <= e.
Proof.
  intros [S1 S2]. assert (energy kf m W tau e a <= e) by (eapply energy_up; try eassumption; apply S1).
  assert (store kf m W tau e b <= e) by (eapply store_up; eassumption). unfold both_store. lra.
Qed.
Lemma rate_enough : 3 / 4 * (dt * Kp) <= rate m W Kp dt e0.
Proof.
  assert (mk : 0 < m * Kp) by (apply Rmult_lt_0_compat; lra). assert (0 <= m * Kp * e0) by (apply Rmult_le_pos; lra).
  assert (B : 0 <= m * Kp * e0 / (4 * W) <= 1/8).
  { split; [apply Rmult_le_pos; [lra|left; apply Rinv_0_lt_compat; lra]|]. apply Rmult_le_reg_r with (4 * W); [lra|].
    unfold Rdiv at 1. rewrite Rmult_assoc, Rinv_l by lra. lra. }
  assert (D : 0 < dt * Kp) by (apply Rmult_lt_0_compat; lra).
  unfold rate. set (x := m * Kp * e0 / (4 * W)) in *. apply Rmult_le_reg_r with (1 + x); [lra|].
  unfold Rdiv. rewrite (Rmult_assoc (dt * Kp)), Rinv_l by lra. nra.
Qed.
Lemma both_next e a b : turning e a b ->
  both_store (turn_e e a b) (turn_a e a) (turn_b e b) <= (1 - 3 / 4 * (dt * Kp)) * both_store e a b.
Proof.
  intros [S1 S2]. pose proof rate_enough as Rt.
  assert (E1 : energy kf m W tau (next_e kf m W dt e a) (turn_a e a) <= (1 - rate m W Kp dt e0) * energy kf m W tau e a).
  { unfold turn_a. eapply energy_next; try eassumption. apply S2. }
  assert (E2 : store kf m W tau (sink_d kf m W dt e b) (turn_b e b) <= (1 - 3 / 4 * (dt * Kp)) * store kf m W tau e b).
  { unfold turn_b. eapply store_next; eassumption. }
  assert (P : e <= 2 * energy kf m W tau e a) by (eapply energy_low; eassumption). destruct S1 as [E _].
  assert (Q : (1 - rate m W Kp dt e0) * energy kf m W tau e a <= (1 - 3 / 4 * (dt * Kp)) * energy kf m W tau e a) by (apply Rmult_le_compat_r; lra).
  unfold both_store. unfold energy at 1. unfold store at 1. rewrite turn_mean. unfold energy at 1 in E1. unfold store at 1 in E2. lra.
Qed.

(** ** Many rounds *)
Fixpoint after (w0 : R) (k : nat) : R * (R * R) :=
  match k with
  | 0%nat => (e0, (w0, w0))
  | Datatypes.S j => let x := after w0 j in (turn_e (fst x) (fst (snd x)) (snd (snd x)), (turn_a (fst x) (fst (snd x)), turn_b (fst x) (snd (snd x))))
  end.
Lemma start w0 : 0 <= w0 -> lift kf w0 = W -> turning e0 w0 w0.
Proof.
  intros P L. assert (Ew : w0 = wh kf W).
  { apply Rle_antisym; apply (lift_le kf Hk); rewrite ?L, ?lift_wh by assumption; try lra. pose proof (wh_pos kf W Hk HW). lra. }
  assert (mk : 0 <= m * Kp * e0) by (apply Rmult_le_pos; [apply Rmult_le_pos|]; lra).
  assert (B : behind kf W w0 = 0) by (unfold behind; rewrite Ew; unfold Rdiv; rewrite Rminus_diag_eq by reflexivity; ring).
  split.
  - split; [exact He|]. split; [lra|]. rewrite L. lra.
  - split; [lra|]. rewrite B. split; [lra|]. unfold part. apply Rmult_le_pos; [exact mk|left; apply Rinv_0_lt_compat; exact HW].
Qed.
Lemma after_turning w0 k : turning e0 w0 w0 -> let x := after w0 k in turning (fst x) (fst (snd x)) (snd (snd x)).
Proof. intros S. cbv zeta. induction k as [|k IH]; [exact S|]. cbn [after fst snd]. apply next_turning. exact IH. Qed.
Lemma after_store w0 k : turning e0 w0 w0 -> let x := after w0 k in
  both_store (fst x) (fst (snd x)) (snd (snd x)) <= (1 - 3 / 4 * (dt * Kp)) ^ k * e0.
Proof.
  intros S. cbv zeta. induction k as [|k IH].
  - cbn [after fst snd pow]. rewrite Rmult_1_l. apply both_up. exact S.
  - cbn [after fst snd]. eapply Rle_trans; [apply both_next; apply (after_turning w0 k S)|]. cbn [pow]. rewrite Rmult_assoc.
    apply Rmult_le_compat_l; [|exact IH]. assert (Kp * dt <= Kp * tau) by (apply Rmult_le_compat_l; lra). lra.
Qed.
Lemma after_close w0 k : turning e0 w0 w0 -> 0 <= fst (after w0 k) <= 2 * (1 - 3 / 4 * (dt * Kp)) ^ k * e0.
Proof.
  intros S. pose proof (after_store w0 k S) as E. pose proof (after_turning w0 k S) as T. cbv zeta in *.
  pose proof (both_low _ _ _ T). split; [apply T|lra].
Qed.
Lemma after_less w0 k : turning e0 w0 w0 -> fst (after w0 (Datatypes.S k)) <= fst (after w0 k) <= e0.
Proof.
  intros S. pose proof (after_turning w0 k S) as T. cbv zeta in T. split; [cbn [after fst]; apply turn_less; exact T|apply T].
Qed.
End Rec.
