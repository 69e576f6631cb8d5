(** A climb to a requested height: position gain, velocity gain, first-order rotor. *)

From Coq Require Import ZArith List Bool Lia Reals Lra Psatz.
From Verif Require Import PClimb.
Import ListNotations.
Local Open Scope R_scope.

Section Rec.
Variables kf m W Kv Kx tau dt h : R.
Hypotheses (Hk : 0 < kf) (Hm : 0 < m) (HW : 0 < W) (HKv : 0 < Kv) (HKx : 0 < Kx) (Ht : 0 < tau) (Hd : 0 < dt <= tau)
  (Hg : 5 * Kv * tau <= 1) (Hx : 4 * Kx <= Kv) (Hh : 4 * (m * Kv * Kx * h) <= W).

(** Acceleration at rotor speed [w], the demanded one, and the three updates. *)
Definition acc (w : R) : R := (lift kf w - W) / m.
Definition want (p v : R) : R := Kv * (Kx * p - v).
Definition hp (p v : R) : R := p - dt * v.
Definition hv (v w : R) : R := v + dt * acc w.
Definition hw (p v w : R) : R := w + (speed kf (W + m * want p v) - w) / tau * dt.

Let g := W / m.
Let r := dt / tau.
Let z := ahead kf W.
Let whp : 0 < wh kf W := wh_pos kf W Hk HW.
Lemma g_pos : 0 < g. Proof. unfold g. apply Rmult_lt_0_compat; [lra|apply Rinv_0_lt_compat; lra]. Qed.
Lemma acc_z w : acc w = g * (z w * (2 + z w)).
Proof. unfold acc, z. rewrite (lift_ahead kf W Hk HW). unfold g. field. lra. Qed.
Lemma acc_low w : 2 * g * z w <= acc w.
Proof. rewrite acc_z. pose proof g_pos. assert (0 <= g * (z w * z w)) by (apply Rmult_le_pos; [lra|apply Rle_0_sqr]). lra. Qed.
Lemma h_small : 4 * (Kv * Kx * h) <= g.
Proof. unfold g. apply Rmult_le_reg_l with m; [lra|]. replace (m * (W / m)) with W by (field; lra). lra. Qed.
Lemma hr : 0 < r <= 1.
Proof.
  unfold r. split; [apply Rmult_lt_0_compat; [lra|apply Rinv_0_lt_compat; lra]|].
  apply Rmult_le_reg_r with tau; [lra|]. unfold Rdiv. rewrite Rmult_assoc, Rinv_l by lra. lra.
Qed.
Lemma gain_hr : 5 * Kv * dt <= r.
Proof. unfold r. apply Rmult_le_reg_r with tau; [lra|]. unfold Rdiv. rewrite (Rmult_assoc dt), Rinv_l by lra. nra. Qed.

Record nearing (p v w : R) : Prop := {
  nr_p : 0 <= p <= h; nr_v : 0 <= v; nr_f : v <= 2 * Kx * p;
  nr_a : acc w <= Kv * (2 * Kx * p - v) - 2 * Kx * v;
  nr_z : - (Kv * v) <= g * z w }.

Lemma want_range p v w : nearing p v w -> - (Kv * v) <= want p v /\ - (g / 4) <= want p v <= g / 4.
Proof.
  intros [[P1 P2] V F _ _]. unfold want. pose proof h_small as Hs.
  assert (K0 : 0 < Kv * Kx) by (apply Rmult_lt_0_compat; lra).
  assert (A : 0 <= Kv * Kx * p) by (apply Rmult_le_pos; lra).
  assert (B : Kv * Kx * p <= Kv * Kx * h) by (apply Rmult_le_compat_l; lra).
  assert (C : Kv * v <= Kv * (2 * Kx * p)) by (apply Rmult_le_compat_l; lra).
  assert (D : 0 <= Kv * v) by (apply Rmult_le_pos; lra). lra.
Qed.
(** The commanded rotor speed. *)
Lemma cmd_z p v w : nearing p v w -> let u := want p v in let c := z (speed kf (W + m * u)) in
  u = g * (c * (2 + c)) /\ (0 <= u -> 47 / 100 * u <= g * c) /\ (u <= 0 -> 3 / 5 * u <= g * c).
Proof.
  intros N. cbv zeta. destruct (want_range p v w N) as [_ [U1 U2]]. set (u := want p v) in *. pose proof g_pos as G0.
  assert (Gm : m * g = W) by (unfold g; field; lra).
  assert (P : 0 <= W + m * u). { assert (m * - (g / 4) <= m * u) by (apply Rmult_le_compat_l; lra). lra. }
  pose proof (acc_z (speed kf (W + m * u))) as E. unfold acc in E. rewrite (lift_speed kf Hk) in E by exact P.
  replace ((W + m * u - W) / m) with u in E by (field; lra).
  assert (C1 : -1 <= z (speed kf (W + m * u))).
  { unfold z, ahead. pose proof (speed_pos kf (W + m * u)). apply Rmult_le_reg_r with (wh kf W); [exact whp|].
    unfold Rdiv. rewrite Rmult_assoc, Rinv_l by lra. lra. }
  set (c := z _) in *. clearbody c.
  assert (Q : c * (2 + c) = u / g) by (rewrite E; field; lra).
  assert (Q1 : - (1/4) <= c * (2 + c) <= 1/4).
  { assert (D : c * (2 + c) * g = u) by (rewrite E; ring). split; apply Rmult_le_reg_r with g; try exact G0; rewrite D; lra. }
  assert (C2 : - (14/100) <= c <= 12/100) by nra.
  split; [exact E|]. split; intros S; rewrite E in S |- *.
  - assert (S0 : 0 <= c * (2 + c)) by (apply Rmult_le_reg_l with g; [exact G0|rewrite Rmult_0_r; exact S]). assert (0 <= c) by nra. assert (47/100 * (c * (2 + c)) <= c) by nra.
    assert (g * (47/100 * (c * (2 + c))) <= g * c) by (apply Rmult_le_compat_l; lra). lra.
  - assert (S0 : c * (2 + c) <= 0) by (apply Rmult_le_reg_l with g; [exact G0|rewrite Rmult_0_r; exact S]). assert (c <= 0) by nra. assert (3/5 * (c * (2 + c)) <= c) by nra.
    assert (g * (3/5 * (c * (2 + c))) <= g * c) by (apply Rmult_le_compat_l; lra). lra.
Qed.
Lemma next_z p v w : z (hw p v w) = (1 - r) * z w + r * z (speed kf (W + m * want p v)).
Proof. unfold hw, z, ahead, r. field. lra. Qed.
Lemma next_acc p v w : nearing p v w -> acc (hw p v w) <= (1 - r) * acc w + r * want p v.
Proof.
  intros N. destruct (cmd_z p v w N) as (E & _). cbv zeta in E. rewrite !acc_z, next_z.
  set (c := z (speed kf _)) in *. clearbody c. rewrite E. set (b := z w). clearbody b. pose proof hr as Hr. pose proof g_pos.
  replace (g * (((1 - r) * b + r * c) * (2 + ((1 - r) * b + r * c)))) with
    ((1 - r) * (g * (b * (2 + b))) + r * (g * (c * (2 + c))) - g * (r * (1 - r) * ((b - c) * (b - c)))) by ring.
  assert (0 <= g * (r * (1 - r) * ((b - c) * (b - c)))); [|lra].
  apply Rmult_le_pos; [lra|]. apply Rmult_le_pos; [apply Rmult_le_pos; lra|apply Rle_0_sqr].
Qed.

Lemma p_next p v w : nearing p v w -> 0 <= hp p v <= p.
Proof.
  intros [[P1 P2] V F _ _]. unfold hp. pose proof gain_hr as Gr. pose proof hr as Hr.
  assert (dt * v <= dt * (2 * Kx * p)) by (apply Rmult_le_compat_l; lra).
  assert (0 <= dt * v) by (apply Rmult_le_pos; lra).
  assert (D : dt * (4 * Kx) <= dt * Kv) by (apply Rmult_le_compat_l; lra).
  assert (0 <= (1 - 2 * Kx * dt) * p) by (apply Rmult_le_pos; lra). lra.
Qed.
Lemma v_next p v w : nearing p v w -> 0 <= hv v w.
Proof.
  intros [[P1 P2] V F A Z]. unfold hv. pose proof gain_hr as Gr. pose proof hr as Hr. pose proof (acc_low w) as L.
  assert (dt * (- (2 * (Kv * v))) <= dt * acc w) by (apply Rmult_le_compat_l; lra).
  assert (0 <= (1 - 2 * Kv * dt) * v) by (apply Rmult_le_pos; lra). lra.
Qed.
Lemma next_nearing p v w : nearing p v w -> nearing (hp p v) (hv v w) (hw p v w).
Proof.
  intros N. pose proof (p_next p v w N) as Pn. pose proof (v_next p v w N) as Vn. pose proof (next_acc p v w N) as An.
  destruct (cmd_z p v w N) as (_ & C1 & C2). cbv zeta in C1, C2. destruct (want_range p v w N) as [U0 _].
  pose proof gain_hr as Gr. pose proof hr as Hr. pose proof g_pos as G0. pose proof (acc_low w) as L.
  destruct N as [[P1 P2] V F A Z]. split; [lra|exact Vn| | |].
  - unfold hv, hp. set (a := acc w) in *. clearbody a.
    assert (dt * (a + 2 * Kx * v) <= dt * (Kv * (2 * Kx * p - v))) by (apply Rmult_le_compat_l; lra).
    assert (0 <= (1 - dt * Kv) * (2 * Kx * p - v)) by (apply Rmult_le_pos; lra). lra.
  - apply Rle_trans with (1 := An). unfold hv, hp, want in *. set (a := acc w) in *. clearbody a. clear An Pn Vn C1 C2 U0 L Z.
    set (ro := r - dt * (Kv + 2 * Kx)).
    assert (Ro : r / 2 <= ro <= 1). { unfold ro. assert (dt * (4 * Kx) <= dt * Kv) by (apply Rmult_le_compat_l; lra). assert (0 < dt * Kv) by (apply Rmult_lt_0_compat; lra). assert (0 < dt * Kx) by (apply Rmult_lt_0_compat; lra). lra. }
    set (f := 2 * Kv * Kx * p - (Kv + 2 * Kx) * v - a). assert (F0 : 0 <= f) by (unfold f; lra).
    assert (Ff : 0 <= (1 - ro) * f) by (apply Rmult_le_pos; lra).
    assert (Main : 0 <= ro * (2 * Kv * Kx * p - (Kv + 2 * Kx) * v) - 2 * dt * Kv * Kx * v - r * (Kv * Kx * p) + r * (Kv * v)).
    { set (A0 := Kv * Kx * (2 * ro - r)). set (B0 := r * Kv - ro * (Kv + 2 * Kx) - 2 * dt * Kv * Kx).
      replace (ro * (2 * Kv * Kx * p - (Kv + 2 * Kx) * v) - 2 * dt * Kv * Kx * v - r * (Kv * Kx * p) + r * (Kv * v)) with (A0 * p + B0 * v) by (unfold A0, B0; ring).
      assert (A1 : 0 <= A0) by (unfold A0; apply Rmult_le_pos; [apply Rmult_le_pos; lra|lra]).
      assert (A2 : 0 <= A0 + 2 * Kx * B0).
      { replace (A0 + 2 * Kx * B0) with (Kx * (r * (Kv - 4 * Kx) + dt * (8 * Kx * Kx))) by (unfold A0, B0, ro; ring).
        apply Rmult_le_pos; [lra|]. assert (0 <= r * (Kv - 4 * Kx)) by (apply Rmult_le_pos; lra).
        assert (0 <= dt * (8 * Kx * Kx)) by (apply Rmult_le_pos; [lra|apply Rmult_le_pos; lra]). lra. }
      destruct (Rle_dec 0 B0) as [B1|B1].
      - assert (0 <= A0 * p) by (apply Rmult_le_pos; assumption). assert (0 <= B0 * v) by (apply Rmult_le_pos; assumption). lra.
      - assert (B0 * (2 * Kx * p) <= B0 * v) by (apply Rmult_le_compat_neg_l; lra).
        assert (0 <= (A0 + 2 * Kx * B0) * p) by (apply Rmult_le_pos; assumption). lra. }
    unfold ro in *. unfold f in Ff. lra.
  - rewrite next_z. set (c := z (speed kf _)) in *. clearbody c. set (b := z w) in *. clearbody b. unfold hv. set (a := acc w) in *. clearbody a.
    assert (Cl : - (3/5) * (Kv * v) <= g * c).
    { assert (0 <= Kv * v) by (apply Rmult_le_pos; lra). destruct (Rle_dec 0 (want p v)) as [S|S]; [specialize (C1 S); lra|]. specialize (C2 ltac:(lra)). lra. }
    assert (T1 : r * (- (3/5) * (Kv * v)) <= r * (g * c)) by (apply Rmult_le_compat_l; lra).
    assert (T2 : Kv * dt * (2 * g * b) <= Kv * dt * a) by (apply Rmult_le_compat_l; [apply Rmult_le_pos; lra|lra]).
    assert (T3 : (1 - r + 2 * Kv * dt) * - (Kv * v) <= (1 - r + 2 * Kv * dt) * (g * b)).
    { apply Rmult_le_compat_l; [|exact Z]. assert (0 < Kv * dt) by (apply Rmult_lt_0_compat; lra). lra. }
    assert (T4 : 5 * Kv * dt * (Kv * v) <= r * (Kv * v)) by (apply Rmult_le_compat_r; [apply Rmult_le_pos; lra|exact Gr]).
    lra.
Qed.

(** ** How fast *)
Definition reserve (p v w : R) : R := p - 5 / (6 * Kv) * v - 5 * g * tau / (3 * Kv) * z w.
Lemma reserve_up p v w : nearing p v w -> reserve p v w <= p.
Proof.
  intros [_ V _ _ Z]. unfold reserve.
  replace (5 / (6 * Kv) * v) with (5/6 * (v / Kv)) by (field; lra).
  replace (5 * g * tau / (3 * Kv) * z w) with (5/3 * tau / Kv * (g * z w)) by (field; lra).
  assert (T0 : 0 <= 5/3 * tau / Kv) by (apply Rmult_le_pos; [lra|left; apply Rinv_0_lt_compat; lra]).
  assert (T1 : 5/3 * tau / Kv * - (Kv * v) <= 5/3 * tau / Kv * (g * z w)) by (apply Rmult_le_compat_l; lra).
  replace (5/3 * tau / Kv * - (Kv * v)) with (- (5/3 * (tau * v))) in T1 by (field; lra).
  assert (Vk : 0 <= v / Kv) by (apply Rmult_le_pos; [lra|left; apply Rinv_0_lt_compat; lra]).
  assert (E : tau * v = Kv * tau * (v / Kv)) by (field; lra).
  assert (5 * Kv * tau * (v / Kv) <= 1 * (v / Kv)) by (apply Rmult_le_compat_r; lra). lra.
Qed.
Lemma reserve_low p v w : nearing p v w -> p <= 2 * reserve p v w.
Proof.
  intros [[P1 P2] V F A Z]. pose proof (acc_low w) as L. pose proof g_pos as G0. unfold reserve.
  replace (5 / (6 * Kv) * v) with (5/6 * (v / Kv)) by (field; lra).
  replace (5 * g * tau / (3 * Kv) * z w) with (5/6 * tau / Kv * (2 * g * z w)) by (field; lra).
  assert (T0 : 0 <= 5/6 * tau / Kv) by (apply Rmult_le_pos; [lra|left; apply Rinv_0_lt_compat; lra]).
  assert (T1 : 5/6 * tau / Kv * (2 * g * z w) <= 5/6 * tau / Kv * (Kv * (2 * Kx * p - v) - 2 * Kx * v)) by (apply Rmult_le_compat_l; lra).
  assert (I : 0 < / Kv) by (apply Rinv_0_lt_compat; lra).
  assert (T2 : 5/6 * tau / Kv * (Kv * (2 * Kx * p - v) - 2 * Kx * v) <= 5/6 * tau * (2 * Kx * p - v)).
  { replace (5/6 * tau * (2 * Kx * p - v)) with (5/6 * tau / Kv * (Kv * (2 * Kx * p - v))) by (field; lra).
    apply Rmult_le_compat_l; [exact T0|]. assert (0 <= 2 * Kx * v) by (apply Rmult_le_pos; lra). lra. }
  assert (Q : Kx * p / Kv <= p / 4).
  { apply Rmult_le_reg_r with Kv; [lra|]. replace (Kx * p / Kv * Kv) with (Kx * p) by (field; lra).
    assert (4 * Kx * p <= Kv * p) by (apply Rmult_le_compat_r; lra). lra. }
  assert (T3 : tau * (2 * Kx * p - v) <= 1/5 * ((2 * Kx * p - v) / Kv)).
  { replace (tau * (2 * Kx * p - v)) with (Kv * tau * ((2 * Kx * p - v) / Kv)) by (field; lra). apply Rmult_le_compat_r; [|lra].
    apply Rmult_le_pos; lra. }
  assert (T4 : (2 * Kx * p - v) / Kv = 2 * (Kx * p / Kv) - v / Kv) by (field; lra).
  assert (T5 : v / Kv <= 2 * (Kx * p / Kv)).
  { replace (2 * (Kx * p / Kv)) with (2 * Kx * p / Kv) by (field; lra). apply Rmult_le_compat_r; lra. }
  lra.
Qed.
Lemma reserve_next p v w : nearing p v w -> reserve (hp p v) (hv v w) (hw p v w) <= (1 - 3 / 4 * (dt * Kx)) * reserve p v w.
Proof.
  intros N. pose proof (reserve_up p v w N) as Ru. destruct (cmd_z p v w N) as (_ & C1 & C2). cbv zeta in C1, C2.
  pose proof (acc_low w) as L. pose proof g_pos as G0. destruct N as [[P1 P2] V F A Z].
  set (E := reserve p v w) in *. assert (Ee : E = p - 5 / (6 * Kv) * v - 5 * g * tau / (3 * Kv) * z w) by reflexivity. clearbody E.
  unfold reserve, hp, hv. rewrite next_z. unfold want in *. set (c := z (speed kf _)) in *. clearbody c. set (b := z w) in *. clearbody b. set (a := acc w) in *. clearbody a.
  assert (Rt : tau * r = dt) by (unfold r; field; lra).
  replace (5 * g * tau / (3 * Kv) * ((1 - r) * b + r * c)) with (5 * g * tau / (3 * Kv) * b + 5 * g * (tau * r) / (3 * Kv) * (c - b)) by (field; lra).
  rewrite Rt.
  assert (I : 0 < / Kv) by (apply Rinv_0_lt_compat; lra).
  assert (T1 : 5 / (6 * Kv) * (dt * (2 * g * b)) <= 5 / (6 * Kv) * (dt * a)).
  { apply Rmult_le_compat_l; [|apply Rmult_le_compat_l; lra]. apply Rmult_le_pos; [lra|]. left. apply Rinv_0_lt_compat. lra. }
  replace (5 / (6 * Kv) * (dt * (2 * g * b))) with (5 * g * dt / (3 * Kv) * b) in T1 by (field; lra).
  assert (T2 : 3/4 * (Kx * p) <= v + 5 / (3 * Kv) * (g * c)).
  { set (u := Kv * (Kx * p - v)) in *. assert (Eu : 5 / (3 * Kv) * u = 5/3 * (Kx * p - v)) by (unfold u; field; lra).
    assert (I5 : 0 <= 5 / (3 * Kv)) by (apply Rmult_le_pos; [lra|left; apply Rinv_0_lt_compat; lra]).
    assert (Xp : 0 <= Kx * p) by (apply Rmult_le_pos; lra).
    destruct (Rle_dec 0 u) as [S|S].
    - specialize (C1 S). assert (5 / (3 * Kv) * (47/100 * u) <= 5 / (3 * Kv) * (g * c)) by (apply Rmult_le_compat_l; lra). lra.
    - specialize (C2 ltac:(lra)). assert (5 / (3 * Kv) * (3/5 * u) <= 5 / (3 * Kv) * (g * c)) by (apply Rmult_le_compat_l; lra). lra. }
  assert (T3 : dt * (3/4 * (Kx * p)) <= dt * (v + 5 / (3 * Kv) * (g * c))) by (apply Rmult_le_compat_l; lra).
  replace (dt * (v + 5 / (3 * Kv) * (g * c))) with (dt * v + 5 * g * dt / (3 * Kv) * c) in T3 by (field; lra).
  assert (T4 : 3/4 * (dt * Kx) * E <= 3/4 * (dt * Kx) * p).
  { apply Rmult_le_compat_l; [|exact Ru]. assert (0 < dt * Kx) by (apply Rmult_lt_0_compat; lra). lra. }
  assert (S1 : 5 / (6 * Kv) * (v + dt * a) = 5 / (6 * Kv) * v + 5 / (6 * Kv) * (dt * a)) by ring.
  rewrite S1. rewrite Rmult_minus_distr_r. rewrite Rmult_1_l, Ee at 1. 
  assert (S2 : 5 * g * dt / (3 * Kv) * (c - b) = 5 * g * dt / (3 * Kv) * c - 5 * g * dt / (3 * Kv) * b) by ring. rewrite S2. lra.
Qed.

(** ** Lift stays in a range *)
Lemma lift_range p v w : nearing p v w -> W - 4 * (m * Kv * Kx * h) <= lift kf w <= W + 2 * (m * Kv * Kx * h).
Proof.
  intros [[P1 P2] V F A Z]. pose proof (acc_low w) as L. unfold acc in *.
  assert (E : lift kf w = W + m * ((lift kf w - W) / m)) by (field; lra). set (a := (lift kf w - W) / m) in *.
  assert (K0 : 0 < Kv * Kx) by (apply Rmult_lt_0_compat; lra).
  assert (B : Kv * Kx * p <= Kv * Kx * h) by (apply Rmult_le_compat_l; lra).
  assert (C : Kv * v <= Kv * (2 * Kx * p)) by (apply Rmult_le_compat_l; lra).
  assert (0 <= Kv * v) by (apply Rmult_le_pos; lra). assert (0 <= Kx * v) by (apply Rmult_le_pos; lra).
  assert (A1 : - (4 * (Kv * Kx * h)) <= a <= 2 * (Kv * Kx * h)) by lra.
  assert (m * - (4 * (Kv * Kx * h)) <= m * a) by (apply Rmult_le_compat_l; lra).
  assert (m * a <= m * (2 * (Kv * Kx * h))) by (apply Rmult_le_compat_l; lra). rewrite E. lra.
Qed.
Lemma rotor_pos p v w : nearing p v w -> 0 <= w.
Proof.
  intros [[P1 P2] V F A Z]. pose proof g_pos as G0. pose proof h_small as Hs.
  assert (K0 : 0 < Kv * Kx) by (apply Rmult_lt_0_compat; lra).
  assert (B : Kv * Kx * p <= Kv * Kx * h) by (apply Rmult_le_compat_l; lra).
  assert (C : Kv * v <= Kv * (2 * Kx * p)) by (apply Rmult_le_compat_l; lra).
  assert (Zl : -1 <= z w). { apply Rmult_le_reg_l with g; [exact G0|]. lra. }
  assert (E : w = wh kf W * (1 + z w)) by (unfold z, ahead; field; lra). rewrite E. apply Rmult_le_pos; lra.
Qed.
Lemma want_lift p v w : nearing p v w -> W - 4 * (m * Kv * Kx * h) <= W + m * want p v <= W + 2 * (m * Kv * Kx * h).
Proof.
  intros [[P1 P2] V F A Z]. unfold want.
  assert (K0 : 0 < Kv * Kx) by (apply Rmult_lt_0_compat; lra).
  assert (0 <= Kv * Kx * p) by (apply Rmult_le_pos; lra).
  assert (B : Kv * Kx * p <= Kv * Kx * h) by (apply Rmult_le_compat_l; lra).
  assert (C : Kv * v <= Kv * (2 * Kx * p)) by (apply Rmult_le_compat_l; lra).
  assert (0 <= Kv * v) by (apply Rmult_le_pos; lra).
  assert (m * - (4 * (Kv * Kx * h)) <= m * (Kv * (Kx * p - v))) by (apply Rmult_le_compat_l; lra).
  assert (m * (Kv * (Kx * p - v)) <= m * (2 * (Kv * Kx * h))) by (apply Rmult_le_compat_l; lra). lra.
Qed.
End Rec.
