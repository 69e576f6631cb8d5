(** A climb under a proportional velocity loop and a first-order rotor. *)

From Coq Require Import ZArith List Bool Lia Reals Lra Psatz.
Import ListNotations.
Local Open Scope R_scope.

(** ** The scalar recurrence *)
Section Rec.
Variables kf m W Kp tau dt e0 : R.
Hypotheses (Hk : 0 < kf) (Hm : 0 < m) (HW : 0 < W) (HK : 0 < Kp) (Ht : 0 < tau) (Hd : 0 < dt <= tau) (Hg : 4 * Kp * tau <= 1).

(** Lift of rotor speed [w], and the speed for lift [f]. *)
Definition lift (w : R) : R := 4 * kf * (w * w).
Definition speed (f : R) : R := sqrt (f / (4 * kf)).
Lemma lift_speed f : 0 <= f -> lift (speed f) = f.
Proof.
  intros F. unfold lift, speed. rewrite sqrt_sqrt; [field; lra|]. apply Rmult_le_pos; [exact F|]. left. apply Rinv_0_lt_compat. lra.
Qed.
Lemma speed_pos f : 0 <= speed f. Proof. apply sqrt_pos. Qed.
Lemma lift_mono a b : 0 <= a <= b -> lift a <= lift b.
Proof. intros [A B]. unfold lift. apply Rmult_le_compat_l; [lra|]. apply Rmult_le_compat; lra. Qed.
Lemma lift_le a b : 0 <= b -> lift a <= lift b -> a <= b.
Proof.
  unfold lift. intros B L. assert (a * a <= b * b) by (apply Rmult_le_reg_l with (4 * kf); lra). nra.
Qed.
Definition wh : R := speed W.
Lemma lift_wh : lift wh = W. Proof. apply lift_speed. lra. Qed.
Lemma wh_pos : 0 < wh.
Proof. apply sqrt_lt_R0. apply Rmult_lt_0_compat; [exact HW|]. apply Rinv_0_lt_compat. lra. Qed.

Definition next_e (e w : R) : R := e - dt * ((lift w - W) / m).
Definition next_w (e w : R) : R := w + (speed (W + m * Kp * e) - w) / tau * dt.
Definition steady (e w : R) : Prop := 0 <= e /\ wh <= w /\ lift w - W <= 2 * m * Kp * e.

(** Share of the way to the command that is made in a step. *)
Let r := dt / tau.
Lemma r_range : 0 < r <= 1.
Proof.
  unfold r. split; [apply Rmult_lt_0_compat; [lra|apply Rinv_0_lt_compat; lra]|].
  apply Rmult_le_reg_r with tau; [lra|]. unfold Rdiv. rewrite Rmult_assoc, Rinv_l by lra. lra.
Qed.
Lemma next_w_mean e w : next_w e w = (1 - r) * w + r * speed (W + m * Kp * e).
Proof. unfold next_w, r. field. lra. Qed.
Lemma gain_r : 4 * Kp * dt <= r.
Proof.
  unfold r. apply Rmult_le_reg_r with tau; [lra|]. unfold Rdiv. rewrite (Rmult_assoc dt), Rinv_l by lra. nra.
Qed.
Lemma cmd_pos e : 0 <= e -> 0 <= W + m * Kp * e.
Proof. intros E. pose proof (Rmult_le_pos (m * Kp) e). assert (0 < m * Kp) by (apply Rmult_lt_0_compat; lra). lra. Qed.
Lemma cmd_wh e : 0 <= e -> wh <= speed (W + m * Kp * e).
Proof.
  intros E. apply lift_le; [apply speed_pos|]. rewrite lift_wh, lift_speed by (apply cmd_pos; exact E).
  assert (0 < m * Kp) by (apply Rmult_lt_0_compat; lra). pose proof (Rmult_le_pos (m * Kp) e). lra.
Qed.
Lemma lift_mean w c : 0 <= r <= 1 -> lift ((1 - r) * w + r * c) <= (1 - r) * lift w + r * lift c.
Proof.
  intros Hr. unfold lift.
  replace (4 * kf * (((1 - r) * w + r * c) * ((1 - r) * w + r * c)))
    with ((1 - r) * (4 * kf * (w * w)) + r * (4 * kf * (c * c)) - 4 * kf * ((r * (1 - r)) * ((w - c) * (w - c)))) by ring.
  assert (0 <= (r * (1 - r)) * ((w - c) * (w - c))).
  { apply Rmult_le_pos; [apply Rmult_le_pos; lra|]. apply Rle_0_sqr. }
  assert (0 <= 4 * kf * ((r * (1 - r)) * ((w - c) * (w - c)))) by (apply Rmult_le_pos; lra). lra.
Qed.
Lemma next_e_low e w : steady e w -> (1 - 2 * Kp * dt) * e <= next_e e w.
Proof.
  intros (E & A & L). unfold next_e.
  assert ((lift w - W) / m <= 2 * Kp * e).
  { apply Rmult_le_reg_r with m; [lra|]. unfold Rdiv. rewrite Rmult_assoc, Rinv_l by lra. lra. }
  assert (dt * ((lift w - W) / m) <= dt * (2 * Kp * e)) by (apply Rmult_le_compat_l; lra). lra.
Qed.
Lemma next_e_up e w : steady e w -> next_e e w <= e.
Proof.
  intros (E & A & L). unfold next_e. pose proof wh_pos. assert (lift wh <= lift w) by (apply lift_mono; lra). rewrite lift_wh in *.
  assert (0 <= dt * ((lift w - W) / m)); [|lra]. apply Rmult_le_pos; [lra|]. apply Rmult_le_pos; [lra|]. left. apply Rinv_0_lt_compat. lra.
Qed.
Lemma next_steady e w : steady e w -> steady (next_e e w) (next_w e w).
Proof.
  intros S. pose proof (next_e_low e w S) as Lo. destruct S as (E & A & L). pose proof r_range as Hr. pose proof gain_r as Gr.
  assert (Kd : 0 < Kp * dt) by (apply Rmult_lt_0_compat; lra).
  split; [|split].
  - assert (0 <= (1 - 2 * Kp * dt) * e) by (apply Rmult_le_pos; lra). lra.
  - rewrite next_w_mean. pose proof (cmd_wh e E). assert ((1 - r) * wh <= (1 - r) * w) by (apply Rmult_le_compat_l; lra).
    assert (r * wh <= r * speed (W + m * Kp * e)) by (apply Rmult_le_compat_l; lra). lra.
  - rewrite next_w_mean. pose proof (lift_mean w (speed (W + m * Kp * e))) as M. rewrite lift_speed in M by (apply cmd_pos; exact E).
    assert (M' : lift ((1 - r) * w + r * speed (W + m * Kp * e)) - W <= (1 - r) * (2 * m * Kp * e) + r * (m * Kp * e)).
    { assert ((1 - r) * (lift w - W) <= (1 - r) * (2 * m * Kp * e)) by (apply Rmult_le_compat_l; lra). lra. }
    assert (P : 0 <= m * Kp * e) by (apply Rmult_le_pos; [apply Rmult_le_pos; lra|lra]).
    assert (Q : 2 * m * Kp * ((1 - 2 * Kp * dt) * e) <= 2 * m * Kp * next_e e w).
    { apply Rmult_le_compat_l; [|exact Lo]. apply Rmult_le_pos; lra. }
    assert (4 * Kp * dt * (m * Kp * e) <= r * (m * Kp * e)) by (apply Rmult_le_compat_r; lra).
    nra.
Qed.

(** ** How fast *)
Definition ahead (w : R) : R := (w - wh) / wh.
Definition energy (e w : R) : R := e - 2 * (W / m) * tau * ahead w.
Lemma ahead_pos w : wh <= w -> 0 <= ahead w.
Proof. intros A. unfold ahead. pose proof wh_pos. apply Rmult_le_pos; [lra|]. left. apply Rinv_0_lt_compat. lra. Qed.
Lemma lift_ahead w : lift w - W = W * (ahead w * (2 + ahead w)).
Proof.
  pose proof wh_pos. assert (Ew : w = wh * (1 + ahead w)) by (unfold ahead; field; lra).
  rewrite Ew at 1. unfold lift.
  replace (4 * kf * (wh * (1 + ahead w) * (wh * (1 + ahead w)))) with (lift wh * ((1 + ahead w) * (1 + ahead w))) by (unfold lift; ring).
  rewrite lift_wh. ring.
Qed.
Lemma ahead_low w : wh <= w -> 2 * W * ahead w <= lift w - W.
Proof. intros A. pose proof (ahead_pos w A). rewrite lift_ahead. nra. Qed.
Lemma energy_low e w : steady e w -> e <= 2 * energy e w.
Proof.
  intros (E & A & L). pose proof (ahead_low w A) as B. unfold energy.
  assert (W * ahead w <= m * Kp * e) by lra.
  assert (W / m * ahead w <= Kp * e).
  { apply Rmult_le_reg_l with m; [lra|]. replace (m * (W / m * ahead w)) with (W * ahead w) by (field; lra). lra. }
  assert (2 * tau * (W / m * ahead w) <= 2 * tau * (Kp * e)) by (apply Rmult_le_compat_l; lra).
  assert (4 * Kp * tau * e <= 1 * e) by (apply Rmult_le_compat_r; lra). lra.
Qed.
Lemma energy_up e w : wh <= w -> energy e w <= e.
Proof.
  intros A. pose proof (ahead_pos w A). unfold energy.
  assert (0 <= 2 * (W / m) * tau * ahead w); [|lra]. apply Rmult_le_pos; [|assumption]. apply Rmult_le_pos; [|lra].
  assert (0 < W / m) by (apply Rmult_lt_0_compat; [lra|apply Rinv_0_lt_compat; lra]). lra.
Qed.

(** Share of the error that goes away in a step. *)
Definition rate : R := dt * Kp / (1 + m * Kp * e0 / (4 * W)).
Lemma cmd_ahead e : 0 <= e <= e0 -> m * Kp * e / W <= ahead (speed (W + m * Kp * e)) * (2 + m * Kp * e0 / (2 * W)).
Proof.
  intros [E1 E2]. pose proof (cmd_wh e E1) as C. pose proof (ahead_pos _ C) as A. pose proof (lift_ahead (speed (W + m * Kp * e))) as L.
  rewrite lift_speed in L by (apply cmd_pos; exact E1). set (z := ahead _) in *.
  assert (Q : m * Kp * e / W = z * (2 + z)). { apply Rmult_eq_reg_l with W; [|lra]. rewrite <- L. field. lra. }
  assert (K0 : 0 < m * Kp) by (apply Rmult_lt_0_compat; lra).
  assert (Z : z <= m * Kp * e0 / (2 * W)).
  { assert (2 * z <= m * Kp * e / W) by (rewrite Q; nra).
    assert (m * Kp * e / W <= m * Kp * e0 / W). { apply Rmult_le_compat_r; [left; apply Rinv_0_lt_compat; lra|]. apply Rmult_le_compat_l; lra. }
    replace (m * Kp * e0 / (2 * W)) with (m * Kp * e0 / W / 2) by (field; lra). lra. }
  rewrite Q. apply Rmult_le_compat_l; lra.
Qed.
Lemma rate_range : 0 <= e0 -> 0 < rate <= dt * Kp.
Proof.
  intros E. assert (K0 : 0 < m * Kp) by (apply Rmult_lt_0_compat; lra).
  assert (B : 0 <= m * Kp * e0 / (4 * W)). { apply Rmult_le_pos; [apply Rmult_le_pos; lra|]. left. apply Rinv_0_lt_compat. lra. }
  assert (D : 0 < dt * Kp) by (apply Rmult_lt_0_compat; lra).
  unfold rate. split; [apply Rmult_lt_0_compat; [exact D|apply Rinv_0_lt_compat; lra]|].
  apply Rmult_le_reg_r with (1 + m * Kp * e0 / (4 * W)); [lra|]. unfold Rdiv. rewrite Rmult_assoc, Rinv_l by (unfold Rdiv in B; lra).
  unfold Rdiv in B. nra.
Qed.
Lemma energy_next e w : steady e w -> e <= e0 -> energy (next_e e w) (next_w e w) <= (1 - rate) * energy e w.
Proof.
  intros S B. destruct S as (E & A & L). pose proof r_range as Hr. pose proof wh_pos as Hw.
  pose proof (ahead_pos w A) as Z. pose proof (ahead_low w A) as Z1. pose proof (cmd_ahead e (conj E B)) as C.
  set (c := speed (W + m * Kp * e)) in *. pose proof (ahead_pos c (cmd_wh e E)) as Zc.
  assert (K0 : 0 < m * Kp) by (apply Rmult_lt_0_compat; lra).
  assert (N : ahead (next_w e w) = (1 - r) * ahead w + r * ahead c).
  { rewrite next_w_mean. fold c. unfold ahead. field. lra. }
  set (g := W / m). assert (Hgp : 0 < g) by (apply Rmult_lt_0_compat; [lra|apply Rinv_0_lt_compat; lra]).
  assert (F1 : 2 * g * ahead w <= (lift w - W) / m).
  { apply Rmult_le_reg_l with m; [lra|]. unfold g. replace (m * (2 * (W / m) * ahead w)) with (2 * W * ahead w) by (field; lra).
    replace (m * ((lift w - W) / m)) with (lift w - W) by (field; lra). exact Z1. }
  assert (F2 : dt * (2 * g * ahead w) <= dt * ((lift w - W) / m)) by (apply Rmult_le_compat_l; lra).
  assert (Rt : r * tau = dt) by (unfold r; field; lra).
  set (T := 2 + m * Kp * e0 / (2 * W)) in *.
  assert (HT : 2 <= T). { unfold T. assert (0 <= m * Kp * e0 / (2 * W)); [|lra]. apply Rmult_le_pos; [apply Rmult_le_pos; lra|]. left. apply Rinv_0_lt_compat. lra. }
  assert (Er : rate = 2 * dt * Kp / T).
  { assert (0 <= m * Kp * e0) by (apply Rmult_le_pos; lra). unfold rate, T. field. repeat split; lra. }
  assert (F3 : rate * e <= 2 * g * tau * (r * ahead c)).
  { rewrite Er. replace (2 * g * tau * (r * ahead c)) with (2 * dt * (g * ahead c)) by (rewrite <- Rt; ring).
    replace (2 * dt * Kp / T * e) with (2 * dt * (Kp * e / T)) by (field; lra). apply Rmult_le_compat_l; [lra|].
    apply Rmult_le_reg_r with T; [lra|]. replace (Kp * e / T * T) with (Kp * e) by (field; lra).
    replace (Kp * e) with (g * (m * Kp * e / W)) by (unfold g; field; lra). replace (g * ahead c * T) with (g * (ahead c * T)) by ring. apply Rmult_le_compat_l; lra. }
  assert (R0 : 0 < rate) by (apply rate_range; lra).
  unfold energy. rewrite N. unfold next_e. fold g.
  assert (F4 : 2 * g * tau * ((1 - r) * ahead w) = 2 * g * tau * ahead w - 2 * g * dt * ahead w) by (rewrite <- Rt; ring).
  assert (F5 : 0 <= rate * (2 * g * tau * ahead w)).
  { apply Rmult_le_pos; [lra|]. apply Rmult_le_pos; [|lra]. apply Rmult_le_pos; lra. }
  rewrite Rmult_plus_distr_l, F4. nra.
Qed.
End Rec.
