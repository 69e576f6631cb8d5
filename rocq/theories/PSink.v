(** A descent under a proportional velocity loop and a first-order rotor. *)

From Coq Require Import ZArith List Bool Lia Reals Lra Psatz.
From Verif Require Import PClimb.
Import ListNotations.
Local Open Scope R_scope.

Section Rec.
Variables kf m W Kp tau dt d0 : R.
Hypotheses (Hk : 0 < kf) (Hm : 0 < m) (HW : 0 < W) (HK : 0 < Kp) (Ht : 0 < tau) (Hd : 0 < dt <= tau) (Hg : 5 * Kp * tau <= 1) (Hd0 : 2 * (m * Kp * d0) <= W).

(** How far the rotor is below hovering speed, as a part of it; the demanded part of the weight. *)
Definition behind (w : R) : R := (wh kf W - w) / wh kf W.
Definition part (d : R) : R := m * Kp * d / W.
Definition sinking (d w : R) : Prop := 0 <= d <= d0 /\ 0 <= behind w <= part d.
Definition sink_d (d w : R) : R := d - dt * ((W - lift kf w) / m).
Definition sink_w (d w : R) : R := w + (speed kf (W - m * Kp * d) - w) / tau * dt.

Let r := dt / tau.
Let whp : 0 < wh kf W := wh_pos kf W Hk HW.
Let mk : 0 < m * Kp := Rmult_lt_0_compat m Kp Hm HK.
Lemma part_range d : 0 <= d <= d0 -> 0 <= part d <= 1/2.
Proof using mk HW Hd0.
  intros [A B]. assert (0 <= m * Kp * d) by (apply Rmult_le_pos; lra). assert (m * Kp * d <= m * Kp * d0) by (apply Rmult_le_compat_l; lra).
  unfold part. split; [apply Rmult_le_pos; [lra|left; apply Rinv_0_lt_compat; lra]|].
  apply Rmult_le_reg_r with W; [lra|]. unfold Rdiv at 1. rewrite Rmult_assoc, Rinv_l by lra. lra.
Qed.
Lemma lift_behind w : W - lift kf w = W * (behind w * (2 - behind w)).
Proof using whp Hk HW.
  assert (Ew : w = wh kf W * (1 - behind w)) by (unfold behind; field; lra).
  rewrite Ew at 1. unfold lift.
  replace (4 * kf * (wh kf W * (1 - behind w) * (wh kf W * (1 - behind w)))) with (lift kf (wh kf W) * ((1 - behind w) * (1 - behind w))) by (unfold lift; ring).
  rewrite lift_wh by assumption. ring.
Qed.
Lemma cmd_sink d : 0 <= d <= d0 -> 0 <= W - m * Kp * d.
Proof using mk HW Hd0. intros [A B]. assert (m * Kp * d <= m * Kp * d0) by (apply Rmult_le_compat_l; lra). lra. Qed.
(** The commanded speed. *)
Lemma cmd_behind d : 0 <= d <= d0 -> let c := behind (speed kf (W - m * Kp * d)) in part d / 2 <= c <= 3 / 5 * part d.
Proof.
  intros D. cbv zeta. pose proof (part_range d D) as P. pose proof (lift_behind (speed kf (W - m * Kp * d))) as L.
  rewrite (lift_speed kf Hk) in L by (apply cmd_sink; exact D). set (c := behind _) in *.
  assert (Q : part d = c * (2 - c)). { apply Rmult_eq_reg_l with W; [|lra]. rewrite <- L. unfold part. field. lra. }
  assert (C1 : c <= 1).
  { unfold c, behind. pose proof (speed_pos kf (W - m * Kp * d)) as Sp. apply Rmult_le_reg_r with (wh kf W); [exact whp|].
    unfold Rdiv. rewrite Rmult_assoc, Rinv_l by lra. lra. }
  assert (C0 : 0 <= c) by nra. assert (C2 : c <= 1 - 7/10) by nra. split; nra.
Qed.
Lemma rr : 0 < r <= 1.
Proof using Ht Hd.
  unfold r. split; [apply Rmult_lt_0_compat; [lra|apply Rinv_0_lt_compat; lra]|].
  apply Rmult_le_reg_r with tau; [lra|]. unfold Rdiv. rewrite Rmult_assoc, Rinv_l by lra. lra.
Qed.
Lemma gain_rr : 5 * Kp * dt <= r.
Proof using Ht Hd Hg HK. unfold r. apply Rmult_le_reg_r with tau; [lra|]. unfold Rdiv. rewrite (Rmult_assoc dt), Rinv_l by lra. nra. Qed.
Lemma next_behind d w : behind (sink_w d w) = (1 - r) * behind w + r * behind (speed kf (W - m * Kp * d)).
Proof using whp Ht. unfold sink_w, r, behind. field. lra. Qed.

(** The loss of speed in one step. *)
Lemma loss d w : sinking d w -> let q := (W - lift kf w) / m in
  q = W / m * (behind w * (2 - behind w)) /\ 0 <= q <= 2 * Kp * d.
Proof.
  intros [D [A B]]. cbv zeta. pose proof (part_range d D) as P. rewrite lift_behind. set (a := behind w) in *.
  assert (E : W * (a * (2 - a)) / m = W / m * (a * (2 - a))) by (field; lra). rewrite E.
  assert (G : 0 < W / m) by (apply Rmult_lt_0_compat; [lra|apply Rinv_0_lt_compat; lra]).
  split; [reflexivity|]. assert (U : 0 <= a * (2 - a)) by (apply Rmult_le_pos; lra). split; [apply Rmult_le_pos; lra|].
  replace (2 * Kp * d) with (W / m * (2 * part d)) by (unfold part; field; lra). apply Rmult_le_compat_l; [lra|]. nra.
Qed.
Lemma sink_less d w : sinking d w -> (1 - 2 * Kp * dt) * d <= sink_d d w <= d.
Proof.
  intros S. destruct (loss d w S) as [_ L]. cbv zeta in L. unfold sink_d. set (q := (W - lift kf w) / m) in *.
  assert (0 <= dt * q) by (apply Rmult_le_pos; lra). assert (dt * q <= dt * (2 * Kp * d)) by (apply Rmult_le_compat_l; lra). lra.
Qed.
Lemma next_sinking d w : sinking d w -> sinking (sink_d d w) (sink_w d w).
Proof.
  intros S. pose proof (sink_less d w S) as [Lo Up]. destruct S as (D & A & B). pose proof rr as Hr. pose proof gain_rr as Gr.
  pose proof (part_range d D) as P. pose proof (cmd_behind d D) as [C1 C2]. cbv zeta in C1, C2.
  assert (Kd : 0 < Kp * dt) by (apply Rmult_lt_0_compat; lra).
  assert (P' : (1 - 2 * Kp * dt) * part d <= part (sink_d d w)).
  { unfold part. replace ((1 - 2 * Kp * dt) * (m * Kp * d / W)) with (m * Kp * ((1 - 2 * Kp * dt) * d) / W) by (field; lra).
    apply Rmult_le_compat_r; [left; apply Rinv_0_lt_compat; lra|]. apply Rmult_le_compat_l; lra. }
  split; [|rewrite next_behind; set (c := behind (speed kf (W - m * Kp * d))) in *; set (a := behind w) in *; split].
  - assert (0 <= (1 - 2 * Kp * dt) * d) by (apply Rmult_le_pos; lra). lra.
  - assert (0 <= (1 - r) * a) by (apply Rmult_le_pos; lra). assert (0 <= r * c) by (apply Rmult_le_pos; lra). lra.
  - apply Rle_trans with ((1 - 2 * Kp * dt) * part d); [|exact P'].
    assert ((1 - r) * a <= (1 - r) * part d) by (apply Rmult_le_compat_l; lra).
    assert (r * c <= r * (3 / 5 * part d)) by (apply Rmult_le_compat_l; lra).
    assert (5 * Kp * dt * part d <= r * part d) by (apply Rmult_le_compat_r; lra). lra.
Qed.

Definition store (d w : R) : R := d - 3 / 2 * (W / m) * tau * behind w.
Lemma store_low d w : sinking d w -> d <= 2 * store d w.
Proof.
  intros (D & A & B). unfold store.
  assert (W / m * behind w <= Kp * d).
  { replace (Kp * d) with (W / m * part d) by (unfold part; field; lra). apply Rmult_le_compat_l; [|exact B].
    left. apply Rmult_lt_0_compat; [lra|apply Rinv_0_lt_compat; lra]. }
  assert (tau * (W / m * behind w) <= tau * (Kp * d)) by (apply Rmult_le_compat_l; lra).
  assert (5 * Kp * tau * d <= 1 * d) by (apply Rmult_le_compat_r; lra). lra.
Qed.
Lemma store_up d w : sinking d w -> store d w <= d.
Proof.
  intros (D & A & B). unfold store. assert (0 < W / m) by (apply Rmult_lt_0_compat; [lra|apply Rinv_0_lt_compat; lra]).
  assert (0 <= 3 / 2 * (W / m) * tau * behind w); [|lra]. apply Rmult_le_pos; [|lra]. apply Rmult_le_pos; lra.
Qed.
Lemma store_next d w : sinking d w -> store (sink_d d w) (sink_w d w) <= (1 - 3 / 4 * (dt * Kp)) * store d w.
Proof.
  intros S. pose proof (store_up d w S) as Su. destruct (loss d w S) as [L _]. cbv zeta in L.
  destruct S as (D & A & B). pose proof (cmd_behind d D) as [C1 _]. cbv zeta in C1. pose proof (part_range d D) as P.
  assert (G : 0 < W / m) by (apply Rmult_lt_0_compat; [lra|apply Rinv_0_lt_compat; lra]).
  unfold store in *. rewrite next_behind. unfold sink_d. rewrite L.
  set (c := behind (speed kf (W - m * Kp * d))) in *. set (a := behind w) in *.
  assert (Kd : Kp * d = W / m * part d) by (unfold part; field; lra). set (g := W / m) in *.
  assert (Rt : tau * r = dt) by (unfold r; field; lra).
  replace (3 / 2 * g * tau * ((1 - r) * a + r * c)) with (3 / 2 * g * tau * a + 3 / 2 * g * (tau * r) * (c - a)) by ring. rewrite Rt.
  assert (E1 : 3 / 2 * a <= a * (2 - a)) by nra.
  assert (E2 : dt * (g * (3 / 2 * a)) <= dt * (g * (a * (2 - a)))) by (apply Rmult_le_compat_l; [lra|]; apply Rmult_le_compat_l; lra).
  assert (E3 : dt * (g * (part d / 2)) <= dt * (g * c)) by (apply Rmult_le_compat_l; [lra|]; apply Rmult_le_compat_l; lra).
  assert (E4 : dt * Kp * (d - 3 / 2 * g * tau * a) <= dt * Kp * d).
  { apply Rmult_le_compat_l; [|exact Su]. apply Rmult_le_pos; lra. }
  replace (dt * Kp * d) with (dt * (g * part d)) in E4 by (rewrite <- Kd; ring). lra.
Qed.
End Rec.
