(** Convergence of the explicit Euler steps to the differential equations. *)

From Coq Require Import ZArith List Bool Lia Reals Lra Psatz.
From Verif Require Import Scalar LinAlg MUtils MModel MDynamics SpecDyn SpecRun SpecMotion SpecTrue
  PBase PDyn PModel PDynR PPhys PNoise PDynMore PVeh PGlide PSimR PLip.
Import ListNotations.
Local Open Scope R_scope.

(** ** Euler's method *)
Lemma exp_above x : 1 + x <= exp x.
Proof. destruct (Req_dec x 0) as [->|N]; [rewrite exp_0; lra|left; apply exp_ineq1; exact N]. Qed.
Lemma exp_one x : 0 <= x -> 1 <= exp x.
Proof. intros H. pose proof (exp_above x). lra. Qed.
Lemma exp_grows x y : x <= y -> exp x <= exp y.
Proof. intros [H|H]; [left; apply exp_increasing; exact H|right; rewrite H; reflexivity]. Qed.

Section Method.
Variables (n : nat) (F : Coord -> State R -> R) (X : R -> State R) (T : R) (Rel : R -> State R -> State R -> Prop).
Hypotheses (HT : 0 <= T) (HF : forall c, good n (F c)) (HZ : forall i s, (n <= i)%nat -> sized n s -> F (CRotor i) s = 0)
  (XS : forall t, sized n (X t)) (XD : forall t c, 0 <= t <= T -> moves X c t (F c (X t)))
  (ST : forall B, exists K, 0 <= K /\ forall dt s s', 0 < dt -> Rel dt s s' -> inball B s -> forall c, Rabs (coord c s' - coord c s - dt * F c s) <= K * (dt * dt)).

Lemma bounded_one c : exists B, 0 <= B /\ forall t, 0 <= t <= T -> Rabs (coord c (X t)) <= B.
Proof.
  assert (Ct : forall t, 0 <= t <= T -> continuity_pt (fun u => coord c (X u)) t).
  { intros t Ht. apply derivable_continuous_pt. exists (F c (X t)). exact (XD t c Ht). }
  destruct (continuity_ab_maj _ 0 T HT Ct) as (a & Ha & _). destruct (continuity_ab_min _ 0 T HT Ct) as (b & Hb & _).
  exists (Rabs (coord c (X a)) + Rabs (coord c (X b))). split; [pose proof (Rabs_pos (coord c (X a))); pose proof (Rabs_pos (coord c (X b))); lra|].
  intros t Ht. specialize (Ha t Ht). specialize (Hb t Ht). cbn beta in Ha, Hb.
  pose proof (Rle_abs (coord c (X a))). pose proof (Rle_abs (- coord c (X b))) as Q. rewrite Rabs_Ropp in Q.
  pose proof (Rabs_pos (coord c (X a))). pose proof (Rabs_pos (coord c (X b))). apply Rabs_le. lra.
Qed.
Lemma bounded_list l : exists B, 0 <= B /\ forall c t, In c l -> 0 <= t <= T -> Rabs (coord c (X t)) <= B.
Proof.
  induction l as [|c l (B & B0 & IH)]; [exists 0; split; [lra|intros c t []]|].
  destruct (bounded_one c) as (B' & B0' & H'). exists (B + B'). split; [lra|]. intros c' t [<-|I] Ht.
  - specialize (H' t Ht). lra.
  - specialize (IH c' t I Ht). lra.
Qed.
Lemma bounded_all : exists B, 0 <= B /\ forall t, 0 <= t <= T -> inball B (X t).
Proof.
  destruct (bounded_list (all_coords n)) as (B & B0 & H). exists B. split; [exact B0|]. intros t Ht c.
  destruct (all_coords_all n c) as [I|(i & -> & K)]; [apply H; assumption|].
  cbn [coord]. rewrite nth_overflow by (rewrite (XS t); exact K). rewrite Rabs_R0. exact B0.
Qed.

Section Consts.
Variables (B M L : R).
Hypotheses (HB : forall t, 0 <= t <= T -> inball B (X t)) (HG : forall c, goodc n (B + 1) M L (F c)).

Lemma ball_up t : 0 <= t <= T -> inball (B + 1) (X t).
Proof using HB. intros Ht c. specialize (HB t Ht c). lra. Qed.
Lemma moves_slow s t : 0 <= s -> s <= t -> t <= T -> agree (M * (t - s)) (X t) (X s).
Proof using HB HG XS XD.
  intros Hs Hst Ht c. destruct Hst as [Hst|<-].
  - destruct (MVT_cor2 (fun u => coord c (X u)) (fun u => F c (X u)) s t Hst) as (x & E & Hx); [intros u Hu; apply XD; lra|].
    cbn beta in E. rewrite E, Rabs_mult. rewrite (Rabs_pos_eq (t - s)) by lra. apply Rmult_le_compat_r; [lra|].
    apply (HG c); [apply XS|apply ball_up; lra].
  - unfold Rminus. rewrite Rplus_opp_r, Rabs_R0, Rplus_opp_r, Rmult_0_r. lra.
Qed.
Lemma truncation t dt c : 0 <= t -> 0 < dt -> t + dt <= T -> Rabs (coord c (X (t + dt)) - coord c (X t) - dt * F c (X t)) <= L * M * (dt * dt).
Proof using HB HG XS XD.
  intros Ht Hd HT'. destruct (MVT_cor2 (fun u => coord c (X u)) (fun u => F c (X u)) t (t + dt)) as (x & E & Hx); [lra|intros u Hu; apply XD; lra|].
  cbn beta in E. rewrite E. replace (F c (X x) * (t + dt - t) - dt * F c (X t)) with (dt * (F c (X x) - F c (X t))) by ring.
  rewrite Rabs_mult, (Rabs_pos_eq dt) by lra. destruct (HG c) as (M0 & L0 & _ & Hl).
  assert (A : Rabs (F c (X x) - F c (X t)) <= L * (M * (x - t))).
  { apply Hl; try apply XS; try (apply ball_up; lra). apply moves_slow; lra. }
  assert (L * (M * (x - t)) <= L * (M * dt)) by (apply Rmult_le_compat_l; [exact L0|]; apply Rmult_le_compat_l; [exact M0|lra]).
  apply Rle_trans with (dt * (L * (M * dt))); [apply Rmult_le_compat_l; lra|]. right. ring.
Qed.
End Consts.

Theorem euler_converges : exists C d1, 0 < d1 /\ 0 <= C /\ forall dt d0 S, 0 < dt <= d1 -> 0 <= d0 <= d1 ->
  (forall k, Rel dt (S k) (S (Datatypes.S k)) /\ sized n (S k)) -> agree d0 (S 0%nat) (X 0) ->
  forall k, INR k * dt <= T -> agree (C * (dt + d0)) (S k) (X (INR k * dt)).
Proof.
  destruct bounded_all as (B & B0 & HB). destruct (goods_all n F (B + 1) HF HZ) as (M & L & HG).
  destruct (ST (B + 1)) as (K & K0 & HK). destruct (HG CW) as (M0 & L0 & _).
  set (A := L * M + K). assert (A0 : 0 <= A) by (unfold A; pose proof (Rmult_le_pos _ _ L0 M0); lra).
  set (E := exp (L * T)). assert (E1 : 1 <= E) by (apply exp_one, Rmult_le_pos; assumption).
  set (C := (A * T + 1) * E). assert (AT : 0 <= A * T) by (apply Rmult_le_pos; assumption).
  assert (C1 : 1 <= C). { unfold C. rewrite <- (Rmult_1_l 1) at 1. apply Rmult_le_compat; lra. }
  exists C, (/ (2 * C)). assert (Q0 : 0 < / (2 * C)) by (apply Rinv_0_lt_compat; lra). split; [exact Q0|]. split; [lra|].
  intros dt d0 S [Hd Hd1] [Hz Hz1] HS H0.
  assert (Cd : C * (dt + d0) <= 1).
  { apply Rle_trans with (C * (/ (2 * C) + / (2 * C))); [apply Rmult_le_compat_l; lra|]. right. field. lra. }
  assert (G : forall k, INR k * dt <= T -> agree ((A * dt * (INR k * dt) + d0) * exp (L * (INR k * dt))) (S k) (X (INR k * dt)) /\
    (A * dt * (INR k * dt) + d0) * exp (L * (INR k * dt)) <= C * (dt + d0)).
  { assert (Le : forall k, INR k * dt <= T -> (A * dt * (INR k * dt) + d0) * exp (L * (INR k * dt)) <= C * (dt + d0)).
    { intros k Hk. assert (P : 0 <= INR k * dt) by (apply Rmult_le_pos; [apply pos_INR|lra]).
      assert (X1 : exp (L * (INR k * dt)) <= E) by (apply exp_grows, Rmult_le_compat_l; assumption).
      assert (X2 : A * dt * (INR k * dt) + d0 <= (A * T + 1) * (dt + d0)).
      { assert (A * dt * (INR k * dt) <= A * dt * T) by (apply Rmult_le_compat_l; [apply Rmult_le_pos; lra|exact Hk]).
        assert (0 <= A * T * d0) by (apply Rmult_le_pos; assumption). lra. }
      assert (X3 : 0 <= A * dt * (INR k * dt)) by (apply Rmult_le_pos; [apply Rmult_le_pos; lra|exact P]).
      apply Rle_trans with ((A * T + 1) * (dt + d0) * E); [|right; unfold C; ring].
      apply Rmult_le_compat; [lra|left; apply exp_pos|exact X2|exact X1]. }
    induction k as [|k IH]; intros Hk.
    - split; [|apply Le; exact Hk]. cbn [INR]. rewrite Rmult_0_l, !Rmult_0_r, exp_0, Rplus_0_l, Rmult_1_r. exact H0.
    - split; [|apply Le; exact Hk]. rewrite S_INR in *. assert (P : 0 <= INR k * dt) by (apply Rmult_le_pos; [apply pos_INR|lra]).
      destruct (IH ltac:(lra)) as [Ag Lk]. set (t := INR k * dt) in *. replace ((INR k + 1) * dt) with (t + dt) in * by (unfold t; ring). clearbody t.
      set (e := (A * dt * t + d0) * exp (L * t)) in *.
      assert (Ib : inball (B + 1) (S k)).
      { intros c. specialize (Ag c). pose proof (HB t ltac:(lra) c) as Hx. replace (coord c (S k)) with (coord c (X t) + (coord c (S k) - coord c (X t))) by ring.
        eapply Rle_trans; [apply Rabs_triang|]. lra. }
      destruct (HS k) as [Rk Sk].
      assert (Step : agree (e + dt * (L * e) + A * (dt * dt)) (S (Datatypes.S k)) (X (t + dt))).
      { intros c. pose proof (HK dt _ _ Hd Rk Ib c) as P1. pose proof (truncation B M L HB HG t dt c P Hd Hk) as P2.
        destruct (HG c) as (_ & _ & _ & Hl). pose proof (Hl (S k) (X t) e Sk (XS t) Ib (ball_up B HB t ltac:(lra)) Ag) as P3. pose proof (Ag c) as P4.
        replace (coord c (S (Datatypes.S k)) - coord c (X (t + dt)))
          with ((coord c (S (Datatypes.S k)) - coord c (S k) - dt * F c (S k)) + ((coord c (S k) - coord c (X t)) + (dt * (F c (S k) - F c (X t)) + - (coord c (X (t + dt)) - coord c (X t) - dt * F c (X t))))) by ring.
        eapply Rle_trans; [apply Rabs_triang|]. eapply Rle_trans; [apply Rplus_le_compat_l, Rabs_triang|].
        eapply Rle_trans; [apply Rplus_le_compat_l, Rplus_le_compat_l, Rabs_triang|]. rewrite Rabs_Ropp, Rabs_mult, (Rabs_pos_eq dt) by lra.
        assert (dt * Rabs (F c (S k) - F c (X t)) <= dt * (L * e)) by (apply Rmult_le_compat_l; lra).
        unfold A. lra. }
      intros c. eapply Rle_trans; [apply Step|].
      assert (Ex : exp (L * (t + dt)) = exp (L * t) * exp (L * dt)) by (rewrite Rmult_plus_distr_l; apply exp_plus).
      assert (Y1 : 1 + L * dt <= exp (L * dt)) by apply exp_above.
      assert (Y2 : 1 <= exp (L * t)) by (apply exp_one, Rmult_le_pos; assumption).
      assert (Y3 : 1 <= exp (L * (t + dt))) by (apply exp_one, Rmult_le_pos; lra).
      assert (At : 0 <= A * dt * t) by (apply Rmult_le_pos; [apply Rmult_le_pos; lra|exact P]).
      assert (e0 : 0 <= e) by (unfold e; apply Rmult_le_pos; lra).
      assert (Z1 : e * (1 + L * dt) <= e * exp (L * dt)) by (apply Rmult_le_compat_l; assumption).
      assert (Z2 : A * (dt * dt) * 1 <= A * (dt * dt) * exp (L * (t + dt))) by (apply Rmult_le_compat_l; [apply Rmult_le_pos; [exact A0|apply Rmult_le_pos; lra]|exact Y3]).
      assert (Z3 : e * exp (L * dt) = (A * dt * t + d0) * exp (L * (t + dt))) by (unfold e; rewrite Ex; ring).
      apply Rle_trans with (e * (1 + L * dt) + A * (dt * dt) * 1); [right; ring|].
      replace ((A * dt * (t + dt) + d0) * exp (L * (t + dt))) with ((A * dt * t + d0) * exp (L * (t + dt)) + A * (dt * dt) * exp (L * (t + dt))) by ring. lra. }
  intros k Hk c. destruct (G k Hk) as [Ag Lk]. eapply Rle_trans; [apply Ag|exact Lk].
Qed.
End Method.

(** ** The vehicle *)
Definition solved (J : M3 R) (r : Ax -> R) (a : Ax) : R :=
  match a with
  | AX => (m11 J * m22 J - m12 J * m21 J) * r AX + (m02 J * m21 J - m01 J * m22 J) * r AY + (m01 J * m12 J - m02 J * m11 J) * r AZ
  | AY => (m12 J * m20 J - m10 J * m22 J) * r AX + (m00 J * m22 J - m02 J * m20 J) * r AY + (m02 J * m10 J - m00 J * m12 J) * r AZ
  | AZ => (m10 J * m21 J - m11 J * m20 J) * r AX + (m01 J * m20 J - m00 J * m21 J) * r AY + (m00 J * m11 J - m01 J * m10 J) * r AZ
  end / det3 J.
Lemma solve J al r : det3 J <> 0 -> (forall a, mat_vec J al a = r a) -> forall a, pr a al = solved J r a.
Proof.
  intros D E a. unfold solved. rewrite <- (E AX), <- (E AY), <- (E AZ). unfold mat_vec. cbn [ent]. destruct a; cbn [pr]; unfold det3 in *; field; exact D.
Qed.

Definition field (p : Params R) (cmd : list R) (ext : V3 R) (c : Coord) (s : State R) : R :=
  match c with
  | CPos a => pr a (s_vel s)
  | CVel a => true_force p ext s a / p_mass p
  | CRate a => solved (p_inertia p) (true_torque p cmd s) a
  | CRotor i => nth i (rotor_pull (p_motors p) cmd (s_mvel s)) 0
  | _ => turning s c
  end.
Lemma good_field n p cmd ext c : good n (field p cmd ext c).
Proof.
  destruct c as [a|a|a| | | | |i]; try exact (good_turning n _).
  - exact (good_coord n (CVel a)).
  - apply good_div, good_force.
  - cbn [field]. unfold solved. apply good_div.
    destruct a; (apply good_add; [apply good_add|]); (apply good_mul; [apply good_const|apply good_torque]).
  - exact (good_pull n i (p_motors p) cmd 0).
Qed.
Lemma pull_length ms : forall cmd ws, (length (rotor_pull ms cmd ws) <= length ws)%nat.
Proof. induction ms as [|m ms IH]; intros [|c cmd] [|w ws]; cbn; try lia. specialize (IH cmd ws). lia. Qed.
Lemma field_zero n p cmd ext i s : (n <= i)%nat -> sized n s -> field p cmd ext (CRotor i) s = 0.
Proof. intros K S. cbn [field]. apply nth_overflow. pose proof (pull_length (p_motors p) cmd (s_mvel s)). unfold sized in S. lia. Qed.

Lemma pull_model ms : forall cmd ws des macc, clamp_motors cmd ms = Some des -> motors_derivative des ws ms = Some macc -> macc = rotor_pull ms cmd ws.
Proof.
  induction ms as [|m ms IH]; intros [|c cmd] ws des macc Hc Hd; cbn in Hc; try discriminate.
  - injection Hc as <-. injection Hd as <-. reflexivity.
  - injection Hc as <-. injection Hd as <-. reflexivity.
  - apply bindo_Some in Hc as [y [Hy Hc]]. apply bindo_Some in Hc as [ys [Hys Hc]]. injection Hc as <-.
    destruct ws as [|w ws]; [discriminate Hd|]. cbn in Hd. apply bindo_Some in Hd as [zs [Hzs Hd]]. injection Hd as <-.
    cbn [rotor_pull]. rewrite <- (IH _ _ _ _ Hys Hzs).
    assert (Cl : clamp_motors [c] [m] = Some [y]) by (cbn; rewrite Hy; reflexivity).
    destruct (clamp_motors_R [c] [m] [y] 0 y Cl eq_refl) as (y0 & m0 & A1 & A2 & A3 & _). cbn in A1, A2. injection A1 as <-. injection A2 as <-. subst y. reflexivity.
Qed.

(** Rotor speeds within their limits stay there without being cut. *)
Definition pushed (dt : R) (ws accs : list R) : list R := ladd ws (map (fun a => a * dt) accs).
Lemma pushed_nth dt : forall ws accs i, length accs = length ws -> nth i (pushed dt ws accs) 0 = nth i ws 0 + dt * nth i accs 0.
Proof.
  unfold pushed. induction ws as [|w ws IH]; intros [|a accs] i L; try discriminate L.
  - destruct i; cbn; ring.
  - destruct i as [|i]; [cbn; unR; ring|]. cbn in L. injection L as L. specialize (IH accs i L). cbn in *. exact IH.
Qed.
Lemma pushed_between dt ms : 0 < dt -> (forall m, In m ms -> dt <= mt_tau m) -> forall cmd ws, length cmd = length ws -> speeds_between ms ws ->
  speeds_between ms (pushed dt ws (rotor_pull ms cmd ws)) /\ length (rotor_pull ms cmd ws) = length ws.
Proof.
  intros Hd. induction ms as [|m ms IH]; intros Ht cmd ws L Sb.
  - destruct ws as [|w ws]; [split; [intros i x E; destruct i; discriminate|reflexivity]|].
    destruct (Sb 0%nat w eq_refl) as (m & E & _). discriminate E.
  - destruct ws as [|w ws]; [split; [destruct cmd; intros i x E; destruct i; discriminate|destruct cmd; reflexivity]|].
    destruct cmd as [|c cmd]; [discriminate L|]. cbn in L. injection L as L.
    destruct (IH (fun m' I => Ht m' (or_intror I)) cmd ws L) as [S1 S2].
    { intros i x E. apply (Sb (S i) x E). }
    split; [|cbn; rewrite S2; reflexivity].
    intros [|i] x E; [|exact (S1 i x E)]. cbn in E. injection E as <-. exists m. split; [reflexivity|]. unR.
    destruct (Sb 0%nat w eq_refl) as (m' & E' & Hw). cbn in E'. injection E' as <-.
    pose proof (Ht m (or_introl eq_refl)) as Hm. assert (Lc : mt_min m <= limited c (mt_min m) (mt_max m) <= mt_max m).
    { unfold limited. split; [apply Rmax_l|]. apply Rmax_lub; [lra|apply Rmin_r]. }
    set (l := limited c (mt_min m) (mt_max m)) in *. clearbody l.
    assert (E : w + (l - w) / mt_tau m * dt = (1 - dt / mt_tau m) * w + dt / mt_tau m * l) by (field; lra). rewrite E.
    assert (R0 : 0 <= dt / mt_tau m) by (left; apply Rdiv_lt_0_compat; lra).
    assert (R1 : dt / mt_tau m <= 1). { apply (Rmult_le_reg_r (mt_tau m)); [lra|]. unfold Rdiv. rewrite Rmult_assoc, Rinv_l by lra. lra. }
    set (r := dt / mt_tau m) in *. clearbody r.
    assert (A1 : (1 - r) * mt_min m <= (1 - r) * w <= (1 - r) * mt_max m) by (split; apply Rmult_le_compat_l; lra).
    assert (A2 : r * mt_min m <= r * l <= r * mt_max m) by (split; apply Rmult_le_compat_l; lra). lra.
Qed.

Section Flight.
Context {G : Gen R}.
Variables (n : nat) (p : Params R) (cmd : list R) (ext : V3 R) (ns : bool).
Hypothesis (Hq : ns = false \/ p_fnoise p = 0) (Hdet : det3 (p_inertia p) <> 0).

Definition slow_steps (dt : R) : Prop := 0 < dt <= 1/100 /\ forall m, In m (p_motors p) -> dt <= mt_tau m.
Definition one_step (dt : R) (s s' : State R) : Prop := slow_steps dt /\ exists d d' : Dyn R G, d_state d = s /\ d_state d' = s' /\
  vehicle n d cmd p /\ unitq (s_ori s) /\ speeds_between (p_motors p) (s_mvel s) /\ process d cmd dt ext ns = Ok d'.

Lemma one_rotors dt s s' : one_step dt s s' -> s_mvel s' = pushed dt (s_mvel s) (rotor_pull (p_motors p) cmd (s_mvel s)) /\
  s_macc s' = rotor_pull (p_motors p) cmd (s_mvel s) /\ speeds_between (p_motors p) (s_mvel s') /\ length (rotor_pull (p_motors p) cmd (s_mvel s)) = length (s_mvel s).
Proof.
  intros ([Hd Ht] & d & d' & <- & <- & V & U & Sb & E). apply process_small_inv in E; [|exact Hd].
  destruct V as (Hr & Hp & Hla & Hlw). apply get_params_cfg in Hp as [c [Hc Hcp]].
  apply euler_core_inv in E as [_ Hi]. destruct (Hi c Hc) as (mo & des & macc & mvel & _ & _ & I1 & I2 & I3 & I4). cbv zeta in I4. rewrite Hcp in *.
  pose proof (pull_model _ _ _ _ _ I1 I2) as Em.
  destruct (pushed_between dt (p_motors p) (proj1 Hd) Ht cmd (s_mvel (d_state d))) as [S1 S2]; [congruence|exact Sb|].
  subst macc. change (clamp_motors (pushed dt (s_mvel (d_state d)) (rotor_pull (p_motors p) cmd (s_mvel (d_state d)))) (p_motors p) = Some mvel) in I3.
  rewrite clamp_motors_id in I3 by exact S1. injection I3 as <-. rewrite I4. cbn [d_state s_mvel s_macc].
  split; [reflexivity|]. split; [reflexivity|]. split; assumption.
Qed.

Lemma unit_part (a b c d : R) : a ^ 2 + b ^ 2 + c ^ 2 + d ^ 2 = 1 -> Rabs a <= 1 /\ Rabs b <= 1 /\ Rabs c <= 1 /\ Rabs d <= 1.
Proof.
  intros U. pose proof (pow2_ge_0 a). pose proof (pow2_ge_0 b). pose proof (pow2_ge_0 c). pose proof (pow2_ge_0 d).
  assert (Q : forall x, x ^ 2 <= 1 -> Rabs x <= 1) by (intros x Hx; apply Rabs_le; nra).
  split; [apply Q; lra|]. split; [apply Q; lra|]. split; apply Q; lra.
Qed.

Lemma sq_le B x : Rabs x <= B -> x * x <= B ^ 2.
Proof. intros Hx. pose proof (Rabs_pos x). replace (x * x) with (Rabs x * Rabs x) by (rewrite <- Rabs_mult; apply Rabs_pos_eq, Rle_0_sqr). nra. Qed.
Lemma scale_near k y : 0 < k -> 0 <= y -> k * k = 1 + y -> 1 <= k /\ k - 1 <= y / 2.
Proof. intros Kp Y E. assert (1 <= k) by nra. split; [assumption|nra]. Qed.
Lemma one_close B dt s s' : 0 < dt -> one_step dt s s' -> inball B s -> forall c, Rabs (coord c s' - coord c s - dt * field p cmd ext c s) <= 3 * B ^ 2 / 8 * (dt * dt).
Proof.
  intros Hd O Ib c. pose proof (one_rotors dt s s' O) as (Rv & Ra & _ & Rl). destruct O as ([Hd' _] & d & d' & Es & Es' & V & U & Sb & E).
  assert (K0 : 0 <= 3 * B ^ 2 / 8 * (dt * dt)) by (pose proof (pow2_ge_0 B); apply Rmult_le_pos; [lra|nra]).
  assert (Ex : coord c s' - coord c s - dt * field p cmd ext c s = 0 -> Rabs (coord c s' - coord c s - dt * field p cmd ext c s) <= 3 * B ^ 2 / 8 * (dt * dt)).
  { intros ->. rewrite Rabs_R0. exact K0. }
  assert (E' := E). apply process_small_inv in E'; [|exact Hd'].
  assert (Sl : mo_sforce (d_model d') = v0).
  { destruct Hq as [-> |Hf]; [exact (proj1 (process_noise_free R_sane _ _ _ _ _ E))|]. exact (silent_core d d' cmd dt ext ns p (proj1 (proj2 V)) Hf E'). }
  assert (Att : let K := 3 * B ^ 2 / 8 * (dt * dt) in Rabs (coord CW s' - coord CW s - dt * turning s CW) <= K /\ Rabs (coord CX s' - coord CX s - dt * turning s CX) <= K /\
    Rabs (coord CY s' - coord CY s - dt * turning s CY) <= K /\ Rabs (coord CZ s' - coord CZ s - dt * turning s CZ) <= K).
  { cbv zeta. assert (Nz : nonzeroq (s_ori (d_state d))) by (rewrite Es; apply unitq_nonzero; exact U).
    destruct (step_attitude d d' cmd dt ext ns Nz Hd' E) as (U' & k & Kp & A1 & A2 & A3 & A4). rewrite Es, Es' in *.
    pose proof (Ib (CRate AX)) as B1. pose proof (Ib (CRate AY)) as B2. pose proof (Ib (CRate AZ)) as B3. cbn [coord pr] in B1, B2, B3.
    unfold unitq in U, U'. destruct (unit_part _ _ _ _ U') as (P1 & P2 & P3 & P4).
    cbn [coord turning]. set (q := s_ori s) in *. set (r := s_ori s') in *. set (w := s_angvel s) in *.
    assert (Kk : k * k = 1 + dt * dt * (vx w * vx w + vy w * vy w + vz w * vz w) / 4).
    { transitivity ((k * qw r) ^ 2 + (k * qx r) ^ 2 + (k * qy r) ^ 2 + (k * qz r) ^ 2); [transitivity (k * k * 1); [ring|rewrite <- U'; ring]|].
      rewrite A1, A2, A3, A4.
      transitivity ((qw q ^ 2 + qx q ^ 2 + qy q ^ 2 + qz q ^ 2) * (1 + dt * dt * (vx w * vx w + vy w * vy w + vz w * vz w) / 4)); [field|rewrite U; ring]. }
    assert (Sq : forall x, Rabs x <= B -> x * x <= B ^ 2) by exact (sq_le B).
    pose proof (Sq _ B1). pose proof (Sq _ B2). pose proof (Sq _ B3).
    set (y := dt * dt * (vx w * vx w + vy w * vy w + vz w * vz w) / 4) in *.
    assert (Dd : 0 <= dt * dt) by exact (Rle_0_sqr dt).
    assert (y0 : 0 <= y) by (unfold y; assert (0 <= dt * dt * (vx w * vx w + vy w * vy w + vz w * vz w)) by (apply Rmult_le_pos; [exact Dd|]; pose proof (Rle_0_sqr (vx w)); pose proof (Rle_0_sqr (vy w)); pose proof (Rle_0_sqr (vz w)); unfold Rsqr in *; lra); lra).
    assert (y1 : y <= 2 * (3 * B ^ 2 / 8 * (dt * dt))).
    { unfold y. assert (dt * dt * (vx w * vx w + vy w * vy w + vz w * vz w) <= dt * dt * (3 * B ^ 2)) by (apply Rmult_le_compat_l; lra). lra. }
    clearbody y. destruct (scale_near k y Kp y0 Kk) as [K1 K2].
    assert (Fin : forall x' x t, Rabs x' <= 1 -> k * x' = x + dt / 2 * t -> Rabs (x' - x - dt * (t / 2)) <= 3 * B ^ 2 / 8 * (dt * dt)).
    { intros x' x t Hx Ek. replace (x' - x - dt * (t / 2)) with ((1 - k) * x') by lra. rewrite Rabs_mult, (Rabs_left1 (1 - k)) by lra.
      apply Rle_trans with (- (1 - k) * 1); [apply Rmult_le_compat_l; lra|lra]. }
    split; [apply Fin; assumption|]. split; [apply Fin; assumption|]. split; apply Fin; assumption. }
  destruct c as [a|a|a| | | | |i].
  - apply Ex. destruct (step_newton n _ _ _ _ _ _ p V E' a) as (_ & _ & _ & N4). rewrite Es, Es' in N4. cbn [coord field]. rewrite N4. ring.
  - apply Ex. destruct (step_newton n _ _ _ _ _ _ p V E' a) as (N1 & N2 & N3 & _). rewrite Es, Es', Sl in *. cbn [coord field]. rewrite N3, N2, N1. unfold true_force.
    replace (pr a (v0 : V3 R)) with 0 by (destruct a; reflexivity). unfold Rdiv. ring.
  - apply Ex. cbn [coord field]. 
    assert (Q : forall b, mat_vec (p_inertia p) (s_angacc s') b = true_torque p cmd s b).
    { intros b. destruct (step_euler n _ _ _ _ _ _ p V Hdet E' b) as (N1 & N2 & _). rewrite Es, Es', Sl in *. rewrite Ra in N2. unfold true_torque.
      rewrite <- N1. replace (pr b (v0 : V3 R)) with 0 in N2 by (destruct b; reflexivity). lra. }
    destruct (step_euler n _ _ _ _ _ _ p V Hdet E' a) as (_ & _ & N3). rewrite Es, Es' in N3. rewrite N3, (solve _ _ _ Hdet Q a). ring.
  - exact (proj1 Att).
  - exact (proj1 (proj2 Att)).
  - exact (proj1 (proj2 (proj2 Att))).
  - exact (proj2 (proj2 (proj2 Att))).
  - apply Ex. cbn [coord field]. rewrite Rv, pushed_nth by exact Rl. ring.
Qed.

(** ** Flights *)
Lemma flight_steps (D : nat -> Dyn R G) dt : slow_steps dt -> (forall k, process (D k) cmd dt ext ns = Ok (D (S k))) -> vehicle n (D 0%nat) cmd p ->
  unitq (s_ori (d_state (D 0%nat))) -> speeds_between (p_motors p) (s_mvel (d_state (D 0%nat))) ->
  forall k, one_step dt (d_state (D k)) (d_state (D (S k))) /\ sized n (d_state (D k)).
Proof.
  intros Sl St V U Sb k. assert (Vk : forall j, vehicle n (D j) cmd p) by (induction j as [|j IH]; [exact V|eapply vehicle_core; [exact IH|apply process_small_inv; [exact (proj1 Sl)|apply St]]]).
  assert (I : unitq (s_ori (d_state (D k))) /\ speeds_between (p_motors p) (s_mvel (d_state (D k)))).
  { induction k as [|k [I1 I2]]; [split; assumption|].
    assert (O : one_step dt (d_state (D k)) (d_state (D (S k)))).
    { split; [exact Sl|]. exists (D k), (D (S k)). split; [reflexivity|]. split; [reflexivity|]. split; [apply Vk|]. split; [exact I1|]. split; [exact I2|apply St]. }
    split; [|exact (proj1 (proj2 (proj2 (one_rotors _ _ _ O))))].
    eapply process_unit; [|apply St]. apply unitq_nonzero. exact I1. }
  destruct I as [I1 I2]. split; [|apply Vk].
  split; [exact Sl|]. exists (D k), (D (S k)). split; [reflexivity|]. split; [reflexivity|]. split; [apply Vk|]. split; [exact I1|]. split; [exact I2|apply St].
Qed.
End Flight.

Lemma motion_field p cmd ext T X : det3 (p_inertia p) <> 0 -> true_motion p cmd ext T X -> forall t c, 0 <= t <= T -> moves X c t (field p cmd ext c (X t)).
Proof.
  intros Hdet [Tl Tp Tv To Tr Ts] t c Ht. destruct c as [a|a|a| | | | |i].
  - apply Tp, Ht.
  - apply Tv, Ht.
  - destruct (Tr t Ht) as (al & A1 & A2). cbn [field]. rewrite <- (solve _ al _ Hdet A2 a). apply A1.
  - apply To; [exact Ht|cbn; tauto].
  - apply To; [exact Ht|cbn; tauto].
  - apply To; [exact Ht|cbn; tauto].
  - apply To; [exact Ht|cbn; tauto].
  - apply Ts, Ht.
Qed.

Theorem flight_converges {G : Gen R} n p cmd ext ns T X : ns = false \/ p_fnoise p = 0 -> 0 <= T -> 0 < p_mass p -> det3 (p_inertia p) <> 0 -> true_motion p cmd ext T X -> length cmd = n ->
  exists C d1, 0 < d1 /\ 0 <= C /\ forall (D : nat -> Dyn R G) dt d0, 0 < dt <= d1 -> dt <= 1/100 -> 0 <= d0 <= d1 ->
    (forall m, In m (p_motors p) -> dt <= mt_tau m) -> vehicle n (D 0%nat) cmd p -> (forall k, process (D k) cmd dt ext ns = Ok (D (S k))) ->
    unitq (s_ori (d_state (D 0%nat))) -> speeds_between (p_motors p) (s_mvel (d_state (D 0%nat))) -> agree d0 (d_state (D 0%nat)) (X 0) ->
    forall k, INR k * dt <= T -> agree (C * (dt + d0)) (d_state (D k)) (X (INR k * dt)).
Proof.
  intros Hq HT _ Hdet Hm Hn.
  destruct (euler_converges n (field p cmd ext) X T (one_step (G := G) n p cmd ext ns) HT (good_field n p cmd ext) (field_zero n p cmd ext)) as (C & d1 & P1 & P0 & H).
  - intros t. unfold sized. rewrite (tm_rotors _ _ _ _ _ Hm t). exact Hn.
  - intros t c Ht. apply (motion_field p cmd ext T X); assumption.
  - intros B. exists (3 * B ^ 2 / 8). split; [pose proof (pow2_ge_0 B); lra|]. intros dt s s' Hd O Ib c. apply (one_close (G := G) n p cmd ext ns Hq Hdet); assumption.
  - exists C, d1. split; [exact P1|]. split; [exact P0|]. intros D dt d0 Hd Hdm Hd0 Ht V St U Sb A k Hk.
    apply (H dt d0 (fun k => d_state (D k)) Hd Hd0); [|exact A|exact Hk].
    intros j. apply flight_steps; try assumption. split; [lra|exact Ht].
Qed.
