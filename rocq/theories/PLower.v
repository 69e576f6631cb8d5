(** A descent to a requested height: position gain, velocity gain, first-order rotor. *)

From Coq Require Import ZArith List Bool Lia Reals Lra Psatz.
From Verif Require Import PClimb PHeight.
Import ListNotations.
Local Open Scope R_scope.

Section Rec.
Variables kf m W Kv Kx tau dt h : R.
Hypotheses (Hk : 0 < kf) (Hm : 0 < m) (HW : 0 < W) (HKv : 0 < Kv) (HKx : 0 < Kx) (Ht : 0 < tau) (Hd : 0 < dt <= tau)
  (Hg : 5 * Kv * tau <= 1) (Hx : 5 * Kx <= Kv) (Hh : 4 * (m * Kv * Kx * h) <= W).
Let Hx4 : 4 * Kx <= Kv. Proof. lra. Qed.

Let g := W / m.
Let r := dt / tau.
(** How far the rotors are behind the hover speed, and the downward acceleration. *)
Definition behind (w : R) : R := - ahead kf W w.
Let b := behind.
Definition down (w : R) : R := - acc kf m W w.
Let whp : 0 < wh kf W := wh_pos kf W Hk HW.
Let gp : 0 < g := g_pos m W Hm HW.
Let hs : 4 * (Kv * Kx * h) <= g := h_small m W Kv Kx h Hm Hh.
Let hrr : 0 < r <= 1 := hr tau dt Ht Hd.
Let gh : 5 * Kv * dt <= r := gain_hr Kv tau dt Ht Hd Hg.

Lemma down_b w : down w = g * (b w * (2 - b w)).
Proof. unfold down, b, behind. rewrite (acc_z kf m W Hk Hm HW). fold g. ring. Qed.
Lemma down_le w : down w <= 2 * g * b w.
Proof. rewrite down_b. assert (0 <= g * (b w * b w)) by (apply Rmult_le_pos; [lra|apply Rle_0_sqr]). lra. Qed.

(** [p] above the place, sinking at [v]. *)
Record settling (p v w : R) : Prop := {
  st_p : 0 <= p <= h; st_v : 0 <= v; st_f : v <= 2 * Kx * p;
  st_a : 2 * g * b w <= Kv * (2 * Kx * p - v) - 2 * Kx * v;
  st_z : - (Kv * v) <= g * b w }.

Lemma sizes p v w : settling p v w -> 0 <= Kv * v <= 2 * (Kv * Kx * p) /\ 0 <= Kv * Kx * p <= Kv * Kx * h /\ 0 <= Kx * v.
Proof.
  intros [[P1 P2] V F _ _]. assert (K0 : 0 < Kv * Kx) by (apply Rmult_lt_0_compat; lra).
  assert (0 <= Kv * v) by (apply Rmult_le_pos; lra). assert (Kv * v <= Kv * (2 * Kx * p)) by (apply Rmult_le_compat_l; lra).
  assert (0 <= Kv * Kx * p) by (apply Rmult_le_pos; lra). assert (Kv * Kx * p <= Kv * Kx * h) by (apply Rmult_le_compat_l; lra).
  assert (0 <= Kx * v) by (apply Rmult_le_pos; lra). lra.
Qed.
Lemma b_range p v w : settling p v w -> - (1/2) <= b w <= 1/4.
Proof.
  intros N. destruct (sizes p v w N) as (S1 & S2 & S3). destruct N as [[P1 P2] V F A Z]. split; apply Rmult_le_reg_l with g; try exact gp; lra.
Qed.
Lemma down_low p v w : settling p v w -> (0 <= b w -> 7/4 * (g * b w) <= down w) /\ (b w <= 0 -> 5/2 * (g * b w) <= down w).
Proof.
  intros N. pose proof (b_range p v w N) as B. rewrite down_b. set (x := b w) in *. clearbody x. split; intros S.
  - assert (g * (7/4 * x) <= g * (x * (2 - x))) by (apply Rmult_le_compat_l; [lra|nra]). lra.
  - assert (g * (5/2 * x) <= g * (x * (2 - x))) by (apply Rmult_le_compat_l; [lra|nra]). lra.
Qed.
Lemma want_down p v w : settling p v w -> let u := want Kv Kx p v in - (Kv * v) <= u /\ - (g / 4) <= u <= g / 4.
Proof. intros N. destruct (sizes p v w N) as (S1 & S2 & S3). cbv zeta. unfold want. lra. Qed.

Lemma cmd_b p v w : settling p v w -> let u := want Kv Kx p v in let c := b (speed kf (W + m * - u)) in
  u = g * (c * (2 - c)) /\ u / 2 <= g * c /\ (0 <= u -> 2 * (g * c) <= 108/100 * u) /\ (u <= 0 -> 2 * (g * c) <= 94/100 * u).
Proof.
  intros N. cbv zeta. destruct (want_down p v w N) as [_ [U1 U2]]. cbv zeta in U1, U2. set (u := want Kv Kx p v) in *. clearbody u.
  assert (Gm : m * g = W) by (unfold g; field; lra).
  assert (P : 0 <= W + m * - u). { assert (m * u <= m * (g / 4)) by (apply Rmult_le_compat_l; lra). lra. }
  pose proof (down_b (speed kf (W + m * - u))) as E. unfold down, acc in E. rewrite (lift_speed kf Hk) in E by exact P.
  replace (- ((W + m * - u - W) / m)) with u in E by (field; lra).
  assert (C1 : b (speed kf (W + m * - u)) <= 1).
  { unfold b, behind, ahead. pose proof (speed_pos kf (W + m * - u)) as Sp. set (x := speed kf _) in *. clearbody x.
    apply Rmult_le_reg_r with (wh kf W); [exact whp|].
    replace (- ((x - wh kf W) / wh kf W) * wh kf W) with (wh kf W - x) by (field; lra). lra. }
  set (c := b _) in *. clearbody c.
  assert (Q1 : - (1/4) <= c * (2 - c) <= 1/4).
  { assert (D : c * (2 - c) * g = u) by (rewrite E; ring). split; apply Rmult_le_reg_r with g; try exact gp; rewrite D; lra. }
  assert (C2 : - (12/100) <= c <= 14/100) by nra.
  split; [exact E|]. split; [|split; intros S].
  - rewrite E. assert (g * (c * (2 - c) / 2) <= g * c) by (apply Rmult_le_compat_l; [lra|nra]). lra.
  - rewrite E in S |- *. assert (S0 : 0 <= c * (2 - c)) by (apply Rmult_le_reg_l with g; [exact gp|rewrite Rmult_0_r; exact S]). assert (0 <= c) by nra.
    assert (g * (2 * c) <= g * (108/100 * (c * (2 - c)))) by (apply Rmult_le_compat_l; [lra|nra]). lra.
  - rewrite E in S |- *. assert (S0 : c * (2 - c) <= 0) by (apply Rmult_le_reg_l with g; [exact gp|rewrite Rmult_0_r; exact S]). assert (c <= 0) by nra.
    assert (g * (2 * c) <= g * (94/100 * (c * (2 - c)))) by (apply Rmult_le_compat_l; [lra|nra]). lra.
Qed.

(** The three updates, in these variables. *)
Definition dp (p v : R) : R := p - dt * v.
Definition dv (v w : R) : R := v + dt * down w.
Definition dw (p v w : R) : R := hw kf m W Kv Kx tau dt (- p) (- v) w.
Lemma dp_hp p v : hp dt (- p) (- v) = - dp p v. Proof. unfold hp, dp. ring. Qed.
Lemma dv_hv v w : hv kf m W dt (- v) w = - dv v w. Proof. unfold hv, dv, down. ring. Qed.
Lemma want_neg p v : want Kv Kx (- p) (- v) = - want Kv Kx p v. Proof. unfold want. ring. Qed.
Lemma next_b p v w : b (dw p v w) = (1 - r) * b w + r * b (speed kf (W + m * - want Kv Kx p v)).
Proof. unfold dw, hw. rewrite want_neg. unfold b, behind, ahead, r. field. lra. Qed.

Lemma dp_next p v w : settling p v w -> 0 <= dp p v <= p.
Proof.
  intros [[P1 P2] V F _ _]. unfold dp.
  assert (dt * v <= dt * (2 * Kx * p)) by (apply Rmult_le_compat_l; lra). assert (0 <= dt * v) by (apply Rmult_le_pos; lra).
  assert (D : dt * (4 * Kx) <= dt * Kv) by (apply Rmult_le_compat_l; lra).
  assert (0 <= (1 - 2 * Kx * dt) * p) by (apply Rmult_le_pos; lra). lra.
Qed.
Lemma dv_next p v w : settling p v w -> 0 <= dv v w.
Proof.
  intros N. destruct (down_low p v w N) as [D1 D2]. destruct N as [[P1 P2] V F A Z]. unfold dv. set (x := b w) in *. clearbody x. set (a := down w) in *. clearbody a.
  assert (La : - (5/2 * (Kv * v)) <= a).
  { assert (0 <= Kv * v) by (apply Rmult_le_pos; lra). destruct (Rle_dec 0 x) as [S|S].
    - specialize (D1 S). assert (0 <= g * x) by (apply Rmult_le_pos; lra). lra.
    - specialize (D2 ltac:(lra)). lra. }
  assert (dt * (- (5/2 * (Kv * v))) <= dt * a) by (apply Rmult_le_compat_l; lra).
  assert (0 <= (1 - 5/2 * Kv * dt) * v) by (apply Rmult_le_pos; lra). lra.
Qed.

Lemma next_settling p v w : settling p v w -> settling (dp p v) (dv v w) (dw p v w).
Proof.
  intros N. pose proof (dp_next p v w N) as Pn. pose proof (dv_next p v w N) as Vn.
  destruct (cmd_b p v w N) as (_ & C0 & C1 & C2). cbv zeta in C0, C1, C2. destruct (want_down p v w N) as [U0 _]. cbv zeta in U0.
  destruct (down_low p v w N) as [D1 D2]. pose proof (down_le w) as L. pose proof (sizes p v w N) as (S1 & S2 & S3).
  destruct N as [[P1 P2] V F A Z].
  assert (KD : 0 < dt * Kv) by (apply Rmult_lt_0_compat; lra). assert (KX : 0 < dt * Kx) by (apply Rmult_lt_0_compat; lra).
  assert (KXD : dt * (5 * Kx) <= dt * Kv) by (apply Rmult_le_compat_l; lra).
  split; [lra|exact Vn| | |].
  - unfold dv, dp. set (a := down w) in *. clearbody a. set (x := b w) in *. clearbody x.
    assert (dt * (a + 2 * Kx * v) <= dt * (Kv * (2 * Kx * p - v))) by (apply Rmult_le_compat_l; lra).
    assert (0 <= (1 - dt * Kv) * (2 * Kx * p - v)) by (apply Rmult_le_pos; lra). lra.
  - rewrite next_b. set (c := b (speed kf _)) in *. clearbody c. unfold dv, dp. set (a := down w) in *. clearbody a. set (x := b w) in *. clearbody x.
    set (s := 2 * g * x) in *.
    replace (2 * g * ((1 - r) * x + r * c)) with ((1 - r) * s + r * (2 * (g * c))) by (unfold s; ring). clearbody s. set (y := 2 * (g * c)) in *. clearbody y. clear Pn Vn D1 D2 Z U0 C0.
    set (ro := r - dt * (Kv + 2 * Kx)).
    assert (Ro : 7/10 * r <= ro <= r) by (unfold ro; lra).
    set (f := 2 * Kv * Kx * p - (Kv + 2 * Kx) * v - s). assert (F0 : 0 <= f) by (unfold f; lra).
    assert (Ff : 0 <= (1 - ro) * f) by (apply Rmult_le_pos; lra).
    assert (Sa : (Kv + 2 * Kx) * (dt * a) <= (Kv + 2 * Kx) * (dt * s)) by (apply Rmult_le_compat_l; [lra|apply Rmult_le_compat_l; lra]).
    assert (Main : r * y <= ro * (2 * Kv * Kx * p - (Kv + 2 * Kx) * v) - 2 * dt * Kv * Kx * v).
    { unfold want in C1, C2. destruct (Rle_dec v (Kx * p)) as [Q|Q].
      - assert (U : 0 <= Kv * (Kx * p - v)) by (apply Rmult_le_pos; lra). specialize (C1 U).
        assert (T1 : r * y <= r * (108/100 * (Kv * (Kx * p - v)))) by (apply Rmult_le_compat_l; lra).
        set (t := Kx * p - v) in *. assert (Ep : Kx * p = v + t) by (unfold t; ring).
        replace (ro * (2 * Kv * Kx * p - (Kv + 2 * Kx) * v)) with (ro * (2 * Kv * (Kx * p) - (Kv + 2 * Kx) * v)) by ring. rewrite Ep.
        replace (ro * (2 * Kv * (v + t) - (Kv + 2 * Kx) * v)) with (ro * ((Kv - 2 * Kx) * v) + ro * (2 * (Kv * t))) by ring.
        assert (T2 : 7/10 * r * ((Kv - 2 * Kx) * v) <= ro * ((Kv - 2 * Kx) * v)) by (apply Rmult_le_compat_r; [apply Rmult_le_pos; lra|lra]).
        assert (T3 : 7/10 * r * (2 * (Kv * t)) <= ro * (2 * (Kv * t))) by (apply Rmult_le_compat_r; lra).
        assert (T4 : r * (3/5 * Kv * v) <= r * ((Kv - 2 * Kx) * v)) by (apply Rmult_le_compat_l; [lra|apply Rmult_le_compat_r; lra]).
        assert (T5 : 2 * dt * Kv * Kx * v <= 2/25 * r * (Kv * v)).
        { replace (2 * dt * Kv * Kx * v) with (2 * (dt * Kx) * (Kv * v)) by ring. apply Rmult_le_compat_r; [lra|]. lra. }
        assert (T6 : 0 <= r * (Kv * t)) by (apply Rmult_le_pos; lra). assert (T7 : 0 <= r * (Kv * v)) by (apply Rmult_le_pos; lra). lra.
      - assert (U : 0 <= Kv * (v - Kx * p)) by (apply Rmult_le_pos; lra). specialize (C2 ltac:(lra)).
        assert (T1 : r * y <= r * (94/100 * (Kv * (Kx * p - v)))) by (apply Rmult_le_compat_l; lra).
        (* v = Kx p + t with 0 <= t <= Kx p; put Kx p = t + q *)
        set (t := v - Kx * p) in *. set (q := Kx * p - t). assert (Q0 : 0 <= q) by (unfold q, t; lra). assert (T0 : 0 <= t) by (unfold t; lra).
        assert (Ep : Kx * p = t + q) by (unfold q; ring). assert (Ev : v = 2 * t + q) by (unfold q, t; ring).
        replace (Kv * (Kx * p - v)) with (- (Kv * t)) in T1 by (unfold t; ring).
        replace (ro * (2 * Kv * Kx * p - (Kv + 2 * Kx) * v)) with (ro * (2 * Kv * (Kx * p) - (Kv + 2 * Kx) * v)) by ring. rewrite Ep, Ev. clearbody q t.
        replace (ro * (2 * Kv * (t + q) - (Kv + 2 * Kx) * (2 * t + q))) with (ro * ((Kv - 2 * Kx) * q) - 4 * (ro * (Kx * t))) by ring.
        assert (T2 : 7/10 * r * ((Kv - 2 * Kx) * q) <= ro * ((Kv - 2 * Kx) * q)) by (apply Rmult_le_compat_r; [apply Rmult_le_pos; lra|lra]).
        assert (T4 : r * (3/5 * Kv * q) <= r * ((Kv - 2 * Kx) * q)) by (apply Rmult_le_compat_l; [lra|apply Rmult_le_compat_r; lra]).
        assert (Kt : 0 <= Kv * t) by (apply Rmult_le_pos; lra). assert (Kq : 0 <= Kv * q) by (apply Rmult_le_pos; lra).
        assert (Kxt : Kx * t <= 1/5 * (Kv * t)) by (assert (5 * Kx * t <= Kv * t) by (apply Rmult_le_compat_r; lra); lra).
        assert (T3 : ro * (Kx * t) <= ro * (1/5 * (Kv * t))) by (apply Rmult_le_compat_l; lra).
        assert (T5 : 2 * dt * Kv * Kx * q <= 2/25 * r * (Kv * q)).
        { replace (2 * dt * Kv * Kx * q) with (2 * (dt * Kx) * (Kv * q)) by ring. apply Rmult_le_compat_r; [lra|]. lra. }
        assert (T6 : 4 * dt * Kv * Kx * t <= 4/5 * (dt * Kv) * (Kv * t)).
        { replace (4 * dt * Kv * Kx * t) with (4 * (dt * Kx) * (Kv * t)) by ring. apply Rmult_le_compat_r; [lra|]. lra. }
        assert (T7 : 4/5 * ro * (Kv * t) <= 4/5 * (r - dt * Kv) * (Kv * t)) by (apply Rmult_le_compat_r; [lra|unfold ro; lra]).
        assert (T8 : 0 <= r * (Kv * t)) by (apply Rmult_le_pos; lra). assert (T9 : 0 <= r * (Kv * q)) by (apply Rmult_le_pos; lra). lra. }
    unfold ro in *. unfold f in Ff. lra.
  - rewrite next_b. set (c := b (speed kf _)) in *. clearbody c. unfold dv. set (a := down w) in *. clearbody a. set (x := b w) in *. clearbody x.
    assert (Cl : - (1/2) * (Kv * v) <= g * c) by lra.
    assert (T1 : r * (- (1/2) * (Kv * v)) <= r * (g * c)) by (apply Rmult_le_compat_l; lra).
    assert (T4 : 5 * Kv * dt * (Kv * v) <= r * (Kv * v)) by (apply Rmult_le_compat_r; lra).
    assert (T5 : r * (Kv * v) <= 1 * (Kv * v)) by (apply Rmult_le_compat_r; lra).
    destruct (Rle_dec 0 x) as [S|S].
    + specialize (D1 S). assert (X0 : 0 <= g * x) by (apply Rmult_le_pos; lra).
      assert (0 <= (1 - r) * (g * x)) by (apply Rmult_le_pos; lra). assert (0 <= Kv * dt * a) by (apply Rmult_le_pos; lra). lra.
    + specialize (D2 ltac:(lra)).
      assert (T2 : Kv * dt * (5/2 * (g * x)) <= Kv * dt * a) by (apply Rmult_le_compat_l; lra).
      assert (T3 : (1 - r + 5/2 * (Kv * dt)) * - (Kv * v) <= (1 - r + 5/2 * (Kv * dt)) * (g * x)) by (apply Rmult_le_compat_l; lra). lra.
Qed.

(** ** How fast *)
Definition rest (p v w : R) : R := p - 5 / (6 * Kv) * v - 5 * g * tau / (3 * Kv) * b w.
Lemma rest_up p v w : settling p v w -> rest p v w <= p.
Proof.
  intros [_ V _ _ Z]. unfold rest.
  replace (5 / (6 * Kv) * v) with (5/6 * (v / Kv)) by (field; lra).
  replace (5 * g * tau / (3 * Kv) * b w) with (5/3 * tau / Kv * (g * b w)) by (field; lra).
  assert (T0 : 0 <= 5/3 * tau / Kv) by (apply Rmult_le_pos; [lra|left; apply Rinv_0_lt_compat; lra]).
  assert (T1 : 5/3 * tau / Kv * - (Kv * v) <= 5/3 * tau / Kv * (g * b w)) by (apply Rmult_le_compat_l; lra).
  replace (5/3 * tau / Kv * - (Kv * v)) with (- (5/3 * (tau * v))) in T1 by (field; lra).
  assert (Vk : 0 <= v / Kv) by (apply Rmult_le_pos; [lra|left; apply Rinv_0_lt_compat; lra]).
  assert (E : tau * v = Kv * tau * (v / Kv)) by (field; lra).
  assert (5 * Kv * tau * (v / Kv) <= 1 * (v / Kv)) by (apply Rmult_le_compat_r; lra). lra.
Qed.
Lemma rest_low p v w : settling p v w -> p <= 2 * rest p v w.
Proof.
  intros [[P1 P2] V F A Z]. unfold rest.
  replace (5 / (6 * Kv) * v) with (5/6 * (v / Kv)) by (field; lra).
  replace (5 * g * tau / (3 * Kv) * b w) with (5/6 * tau / Kv * (2 * g * b w)) by (field; lra).
  assert (T0 : 0 <= 5/6 * tau / Kv) by (apply Rmult_le_pos; [lra|left; apply Rinv_0_lt_compat; lra]).
  assert (T1 : 5/6 * tau / Kv * (2 * g * b w) <= 5/6 * tau / Kv * (Kv * (2 * Kx * p - v) - 2 * Kx * v)) by (apply Rmult_le_compat_l; lra).
  assert (T2 : 5/6 * tau / Kv * (Kv * (2 * Kx * p - v) - 2 * Kx * v) <= 5/6 * tau * (2 * Kx * p - v)).
  { replace (5/6 * tau * (2 * Kx * p - v)) with (5/6 * tau / Kv * (Kv * (2 * Kx * p - v))) by (field; lra).
    apply Rmult_le_compat_l; [exact T0|]. assert (0 <= 2 * Kx * v) by (apply Rmult_le_pos; lra). lra. }
  assert (Q : Kx * p / Kv <= p / 5).
  { apply Rmult_le_reg_r with Kv; [lra|]. replace (Kx * p / Kv * Kv) with (Kx * p) by (field; lra).
    assert (5 * Kx * p <= Kv * p) by (apply Rmult_le_compat_r; lra). lra. }
  assert (T3 : tau * (2 * Kx * p - v) <= 1/5 * ((2 * Kx * p - v) / Kv)).
  { replace (tau * (2 * Kx * p - v)) with (Kv * tau * ((2 * Kx * p - v) / Kv)) by (field; lra). apply Rmult_le_compat_r; [|lra].
    apply Rmult_le_pos; [lra|]. left. apply Rinv_0_lt_compat. lra. }
  assert (T4 : (2 * Kx * p - v) / Kv = 2 * (Kx * p / Kv) - v / Kv) by (field; lra).
  assert (T5 : v / Kv <= 2 * (Kx * p / Kv)).
  { replace (2 * (Kx * p / Kv)) with (2 * Kx * p / Kv) by (field; lra). apply Rmult_le_compat_r; [left; apply Rinv_0_lt_compat; lra|lra]. }
  lra.
Qed.
Lemma rest_next p v w : settling p v w -> rest (dp p v) (dv v w) (dw p v w) <= (1 - 1 / 3 * (dt * Kx)) * rest p v w.
Proof.
  intros N. pose proof (rest_up p v w N) as Ru. destruct (cmd_b p v w N) as (_ & C0 & _). cbv zeta in C0.
  pose proof (b_range p v w N) as Br. pose proof (sizes p v w N) as (S1 & S2 & S3). pose proof (down_b w) as Da.
  destruct N as [[P1 P2] V F A Z].
  set (E := rest p v w) in *. assert (Ee : E = p - 5 / (6 * Kv) * v - 5 * g * tau / (3 * Kv) * b w) by reflexivity. clearbody E.
  unfold rest, dp, dv. rewrite next_b. unfold want in C0. set (c := b (speed kf _)) in *. clearbody c. rewrite Da. set (x := b w) in *. clearbody x.
  assert (Rt : tau * r = dt) by (unfold r; field; lra).
  replace (5 * g * tau / (3 * Kv) * ((1 - r) * x + r * c)) with (5 * g * tau / (3 * Kv) * x + 5 * g * (tau * r) / (3 * Kv) * (c - x)) by (field; lra).
  rewrite Rt.
  assert (I5 : 0 < 5 / (6 * Kv)) by (apply Rmult_lt_0_compat; [lra|apply Rinv_0_lt_compat; lra]).
  set (al := 5 / (6 * Kv)) in *. assert (Ea : al * Kv = 5/6) by (unfold al; field; lra).
  replace (5 * g * tau / (3 * Kv) * x) with (2 * al * tau * (g * x)) in * by (unfold al; field; lra).
  replace (5 * g * dt / (3 * Kv) * (c - x)) with (2 * al * dt * (g * c - g * x)) by (unfold al; field; lra). clearbody al.
  assert (Sq : al * (g * (x * x)) <= 5/24 * (Kx * p) \/ al * (g * (x * x)) <= 5/12 * v).
  { destruct (Rle_dec 0 x) as [S|S].
    - left. assert (G1 : g * x <= Kv * (Kx * p)) by lra.
      assert (G2 : g * (x * x) <= 1/4 * (Kv * (Kx * p))).
      { apply Rle_trans with (g * x * (1/4)); [|lra]. replace (g * (x * x)) with (g * x * x) by ring. apply Rmult_le_compat_l; [apply Rmult_le_pos; lra|lra]. }
      apply Rle_trans with (al * (1/4 * (Kv * (Kx * p)))); [apply Rmult_le_compat_l; lra|].
      replace (al * (1/4 * (Kv * (Kx * p)))) with (al * Kv * (1/4 * (Kx * p))) by ring. rewrite Ea. lra.
    - right. assert (G2 : g * (x * x) <= 1/2 * (Kv * v)).
      { apply Rle_trans with (- (g * x) * (1/2)); [|lra]. replace (g * (x * x)) with (- (g * x) * - x) by ring. apply Rmult_le_compat_l; [|lra].
        assert (0 <= g * - x) by (apply Rmult_le_pos; lra). lra. }
      apply Rle_trans with (al * (1/2 * (Kv * v))); [apply Rmult_le_compat_l; lra|].
      replace (al * (1/2 * (Kv * v))) with (al * Kv * (1/2 * v)) by ring. rewrite Ea. lra. }
  assert (Cc : 5/6 * (Kx * p - v) <= 2 * (al * (g * c))).
  { assert (al * (Kv * (Kx * p - v) / 2) <= al * (g * c)) by (apply Rmult_le_compat_l; lra).
    replace (al * (Kv * (Kx * p - v) / 2)) with (al * Kv * ((Kx * p - v) / 2)) in H by field. rewrite Ea in H. lra. }
  assert (Xp : 0 <= Kx * p) by (apply Rmult_le_pos; lra).
  assert (T2 : 1/3 * (Kx * p) <= v - al * (g * (x * x)) + 2 * (al * (g * c))) by (destruct Sq as [Sq|Sq]; lra).
  assert (T3 : dt * (1/3 * (Kx * p)) <= dt * (v - al * (g * (x * x)) + 2 * (al * (g * c)))) by (apply Rmult_le_compat_l; lra).
  assert (T4 : 1/3 * (dt * Kx) * E <= 1/3 * (dt * Kx) * p).
  { apply Rmult_le_compat_l; [|exact Ru]. assert (0 < dt * Kx) by (apply Rmult_lt_0_compat; lra). lra. }
  replace (g * (x * (2 - x))) with (2 * (g * x) - g * (x * x)) by ring.
  apply Rle_trans with (E - 1/3 * (dt * Kx) * p); [rewrite Ee; lra|lra].
Qed.

(** ** Lift stays in a range *)
Lemma drop_range p v w : settling p v w -> W - 2 * (m * Kv * Kx * h) <= lift kf w <= W + 5 * (m * Kv * Kx * h).
Proof.
  intros N. destruct (down_low p v w N) as [D1 D2]. pose proof (down_le w) as L. destruct (sizes p v w N) as (S1 & S2 & S3). destruct N as [[P1 P2] V F A Z].
  assert (E : lift kf w = W - m * down w) by (unfold down, acc; field; lra). rewrite E. set (a := down w) in *. clearbody a. set (x := b w) in *. clearbody x.
  assert (A1 : - (5 * (Kv * Kx * h)) <= a <= 2 * (Kv * Kx * h)).
  { split; [|lra]. destruct (Rle_dec 0 x) as [S|S].
    - specialize (D1 S). assert (0 <= g * x) by (apply Rmult_le_pos; lra). lra.
    - specialize (D2 ltac:(lra)). lra. }
  assert (m * - (5 * (Kv * Kx * h)) <= m * a) by (apply Rmult_le_compat_l; lra).
  assert (m * a <= m * (2 * (Kv * Kx * h))) by (apply Rmult_le_compat_l; lra). lra.
Qed.
Lemma drop_rotor p v w : settling p v w -> 0 <= w.
Proof.
  intros N. pose proof (b_range p v w N) as B. assert (E : w = wh kf W * (1 - b w)) by (unfold b, behind, ahead; field; lra). rewrite E. apply Rmult_le_pos; lra.
Qed.
Lemma want_drop p v w : settling p v w -> W - 2 * (m * Kv * Kx * h) <= W + m * want Kv Kx (- p) (- v) <= W + 5 * (m * Kv * Kx * h).
Proof.
  intros N. destruct (sizes p v w N) as (S1 & S2 & S3). rewrite want_neg. unfold want.
  assert (m * - (Kv * Kx * h) <= m * - (Kv * (Kx * p - v))) by (apply Rmult_le_compat_l; lra).
  assert (m * - (Kv * (Kx * p - v)) <= m * (Kv * Kx * h)) by (apply Rmult_le_compat_l; lra).
  assert (0 <= m * (Kv * Kx * h)) by (apply Rmult_le_pos; lra). lra.
Qed.
End Rec.
