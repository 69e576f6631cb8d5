(** Functions of the state that are Lipschitz on every ball. *)

From Coq Require Import ZArith List Bool Lia Reals Lra Psatz.
From Verif Require Import Scalar LinAlg MUtils MModel MDynamics SpecDyn SpecRun SpecMotion SpecTrue.
Import ListNotations.
Local Open Scope R_scope.

Section Lip.
Variable n : nat.
Definition sized (s : State R) : Prop := length (s_mvel s) = n.
Definition inball (B : R) (s : State R) : Prop := forall c, Rabs (coord c s) <= B.
Definition goodc (B M L : R) (f : State R -> R) : Prop :=
  0 <= M /\ 0 <= L /\ (forall s, sized s -> inball B s -> Rabs (f s) <= M) /\
  forall s s' d, sized s -> sized s' -> inball B s -> inball B s' -> agree d s s' -> Rabs (f s - f s') <= L * d.
Definition good (f : State R -> R) : Prop := forall B, exists M L, goodc B M L f.

Lemma agree_pos d s s' : agree d s s' -> 0 <= d.
Proof. intros A. specialize (A CW). eapply Rle_trans; [apply Rabs_pos|exact A]. Qed.

Lemma good_ext f g : (forall s, sized s -> f s = g s) -> good f -> good g.
Proof.
  intros E F B. destruct (F B) as (M & L & M0 & L0 & Fm & Fl). exists M, L. split; [exact M0|]. split; [exact L0|]. split.
  - intros s S I. rewrite <- E by exact S. apply Fm; assumption.
  - intros s s' d S S' I I' A. rewrite <- !E by assumption. apply Fl; assumption.
Qed.
Lemma good_const k : good (fun _ => k).
Proof.
  intros B. exists (Rabs k), 0. split; [apply Rabs_pos|]. split; [lra|]. split; [intros; lra|].
  intros s s' d _ _ _ _ _. replace (k - k) with 0 by ring. rewrite Rabs_R0. lra.
Qed.
Lemma good_coord c : good (coord c).
Proof.
  intros B. exists (Rabs B), 1. split; [apply Rabs_pos|]. split; [lra|]. split.
  - intros s _ I. eapply Rle_trans; [apply I|apply Rle_abs].
  - intros s s' d _ _ _ _ A. rewrite Rmult_1_l. apply A.
Qed.
Lemma good_add f g : good f -> good g -> good (fun s => f s + g s).
Proof.
  intros F H B. destruct (F B) as (M & L & M0 & L0 & Fm & Fl). destruct (H B) as (M' & L' & M0' & L0' & Hm & Hl).
  exists (M + M'), (L + L'). split; [lra|]. split; [lra|]. split.
  - intros s S I. eapply Rle_trans; [apply Rabs_triang|]. specialize (Fm s S I). specialize (Hm s S I). lra.
  - intros s s' d S S' I I' A. specialize (Fl s s' d S S' I I' A). specialize (Hl s s' d S S' I I' A).
    replace (f s + g s - (f s' + g s')) with ((f s - f s') + (g s - g s')) by ring.
    eapply Rle_trans; [apply Rabs_triang|]. lra.
Qed.
Lemma good_mul f g : good f -> good g -> good (fun s => f s * g s).
Proof.
  intros F H B. destruct (F B) as (M & L & M0 & L0 & Fm & Fl). destruct (H B) as (M' & L' & M0' & L0' & Hm & Hl).
  exists (M * M'), (M * L' + M' * L). split; [apply Rmult_le_pos; assumption|].
  split; [apply Rplus_le_le_0_compat; apply Rmult_le_pos; assumption|]. split.
  - intros s S I. rewrite Rabs_mult. apply Rmult_le_compat; try apply Rabs_pos; [apply Fm|apply Hm]; assumption.
  - intros s s' d S S' I I' A. specialize (Fl s s' d S S' I I' A). specialize (Hl s s' d S S' I I' A).
    replace (f s * g s - f s' * g s') with (f s * (g s - g s') + g s' * (f s - f s')) by ring.
    eapply Rle_trans; [apply Rabs_triang|]. rewrite !Rabs_mult.
    assert (Rabs (f s) * Rabs (g s - g s') <= M * (L' * d)) by (apply Rmult_le_compat; try apply Rabs_pos; [apply Fm; assumption|assumption]).
    assert (Rabs (g s') * Rabs (f s - f s') <= M' * (L * d)) by (apply Rmult_le_compat; try apply Rabs_pos; [apply Hm; assumption|assumption]).
    lra.
Qed.
Lemma good_abs f : good f -> good (fun s => Rabs (f s)).
Proof.
  intros F B. destruct (F B) as (M & L & M0 & L0 & Fm & Fl). exists M, L. split; [exact M0|]. split; [exact L0|]. split.
  - intros s S I. rewrite Rabs_Rabsolu. apply Fm; assumption.
  - intros s s' d S S' I I' A. eapply Rle_trans; [apply Rabs_triang_inv2|]. apply Fl; assumption.
Qed.
Lemma good_opp f : good f -> good (fun s => - f s).
Proof. intros F. apply (good_ext (fun s => -1 * f s)); [intros; ring|]. apply good_mul; [apply good_const|exact F]. Qed.
Lemma good_sub f g : good f -> good g -> good (fun s => f s - g s).
Proof. intros F H. apply good_add; [exact F|apply good_opp, H]. Qed.
Lemma good_div f k : good f -> good (fun s => f s / k).
Proof. intros F. apply good_mul; [exact F|apply good_const]. Qed.
Lemma good_sq f : good f -> good (fun s => f s ^ 2).
Proof. intros F. apply (good_ext (fun s => f s * f s)); [intros; ring|]. apply good_mul; exact F. Qed.

(** Length of a vector. *)
Lemma len_diff (x y z x' y' z' : R) : Rabs (sqrt (x * x + y * y + z * z) - sqrt (x' * x' + y' * y' + z' * z')) <= Rabs (x - x') + Rabs (y - y') + Rabs (z - z').
Proof.
  assert (Tri : forall a b c a' b' c', sqrt (a * a + b * b + c * c) <= sqrt (a' * a' + b' * b' + c' * c') + (Rabs (a - a') + Rabs (b - b') + Rabs (c - c'))).
  { intros a b c a' b' c'.
    set (S := sqrt (a' * a' + b' * b' + c' * c')). set (D := Rabs (a - a') + Rabs (b - b') + Rabs (c - c')).
    assert (S0 : 0 <= S) by apply sqrt_pos.
    assert (E : S * S = a' * a' + b' * b' + c' * c') by (apply sqrt_def; nra). clearbody S.
    assert (A1 : Rabs a' <= S) by (apply Rsqr_incr_0; [rewrite <- Rsqr_abs; unfold Rsqr; pose proof (Rle_0_sqr a'); pose proof (Rle_0_sqr b'); pose proof (Rle_0_sqr c'); unfold Rsqr in *; lra|apply Rabs_pos|exact S0]).
    assert (A2 : Rabs b' <= S) by (apply Rsqr_incr_0; [rewrite <- Rsqr_abs; unfold Rsqr; pose proof (Rle_0_sqr a'); pose proof (Rle_0_sqr b'); pose proof (Rle_0_sqr c'); unfold Rsqr in *; lra|apply Rabs_pos|exact S0]).
    assert (A3 : Rabs c' <= S) by (apply Rsqr_incr_0; [rewrite <- Rsqr_abs; unfold Rsqr; pose proof (Rle_0_sqr a'); pose proof (Rle_0_sqr b'); pose proof (Rle_0_sqr c'); unfold Rsqr in *; lra|apply Rabs_pos|exact S0]).
    assert (D0 : 0 <= D) by (unfold D; pose proof (Rabs_pos (a - a')); pose proof (Rabs_pos (b - b')); pose proof (Rabs_pos (c - c')); lra).
    rewrite <- (sqrt_square (S + D)) by lra. apply sqrt_le_1_alt.
    assert (P : forall u u', Rabs u' <= S -> u * u <= u' * u' + 2 * (S * Rabs (u - u')) + Rabs (u - u') * Rabs (u - u')).
    { intros u u' H. replace (u * u) with (u' * u' + 2 * (u' * (u - u')) + (u - u') * (u - u')) by ring.
      assert (u' * (u - u') <= S * Rabs (u - u')).
      { eapply Rle_trans; [apply Rle_abs|]. rewrite Rabs_mult. apply Rmult_le_compat_r; [apply Rabs_pos|exact H]. }
      assert (Rabs (u - u') * Rabs (u - u') = (u - u') * (u - u')) by (rewrite <- Rabs_mult; apply Rabs_pos_eq; exact (Rle_0_sqr (u - u'))). lra. }
    pose proof (P a a' A1) as Pa. pose proof (P b b' A2) as Pb. pose proof (P c c' A3) as Pc. unfold D in *.
    set (u := Rabs (a - a')) in *. set (v := Rabs (b - b')) in *. set (w := Rabs (c - c')) in *.
    assert (0 <= u) by apply Rabs_pos. assert (0 <= v) by apply Rabs_pos. assert (0 <= w) by apply Rabs_pos.
    assert (0 <= u * v) by (apply Rmult_le_pos; assumption). assert (0 <= u * w) by (apply Rmult_le_pos; assumption). assert (0 <= v * w) by (apply Rmult_le_pos; assumption).
    lra. }
  apply Rabs_le. split.
  - specialize (Tri x' y' z' x y z). rewrite (Rabs_minus_sym x' x), (Rabs_minus_sym y' y), (Rabs_minus_sym z' z) in Tri. lra.
  - specialize (Tri x y z x' y' z'). lra.
Qed.
Lemma good_len f g h : good f -> good g -> good h -> good (fun s => sqrt (f s * f s + g s * g s + h s * h s)).
Proof.
  intros F G H B. destruct (F B) as (M & L & M0 & L0 & Fm & Fl). destruct (G B) as (M' & L' & M0' & L0' & Gm & Gl). destruct (H B) as (M2 & L2 & M20 & L20 & Hm & Hl).
  exists (M + M' + M2), (L + L' + L2). split; [lra|]. split; [lra|]. split.
  - intros s S I. pose proof (len_diff (f s) (g s) (h s) 0 0 0) as D. rewrite !Rminus_0_r in D.
    replace (0 * 0 + 0 * 0 + 0 * 0) with 0 in D by ring. rewrite sqrt_0, Rminus_0_r in D.
    specialize (Fm s S I). specialize (Gm s S I). specialize (Hm s S I). lra.
  - intros s s' d S S' I I' A. eapply Rle_trans; [apply len_diff|].
    specialize (Fl s s' d S S' I I' A). specialize (Gl s s' d S S' I I' A). specialize (Hl s s' d S S' I I' A). lra.
Qed.

(** Sums over the rotors. *)
Lemma nth_skip (l : list R) k : (k < length l)%nat -> skipn k l = nth k l 0 :: skipn (S k) l.
Proof. revert k. induction l as [|x l IH]; intros [|k] K; cbn in *; try lia; [reflexivity|]. apply IH. lia. Qed.
Lemma good_sum (f : Motor R -> R -> R) : (forall m g, good g -> good (fun s => f m (g s))) ->
  forall ms k, good (fun s => rotor_sum f ms (skipn k (s_mvel s))).
Proof.
  intros Hf. induction ms as [|m ms IH]; intros k.
  - apply (good_ext (fun _ => 0)); [reflexivity|apply good_const].
  - destruct (Nat.lt_ge_cases k n) as [K|K].
    + apply (good_ext (fun s => f m (coord (CRotor k) s) + rotor_sum f ms (skipn (S k) (s_mvel s)))).
      * intros s S. rewrite (nth_skip (s_mvel s) k) by (rewrite S; exact K). reflexivity.
      * apply good_add; [apply Hf, good_coord|apply IH].
    + apply (good_ext (fun _ => 0)); [|apply good_const]. intros s S. rewrite skipn_all2 by (rewrite S; exact K). reflexivity.
Qed.
(** The same over the rotor accelerations. *)
Lemma good_pull i : forall ms cmd k, good (fun s => nth i (rotor_pull ms cmd (skipn k (s_mvel s))) 0).
Proof.
  induction i as [|i IH]; intros ms cmd k; (destruct ms as [|m ms]; [apply (good_ext (fun _ => 0)); [reflexivity|apply good_const]|]);
  (destruct cmd as [|c cmd]; [apply (good_ext (fun _ => 0)); [reflexivity|apply good_const]|]); destruct (Nat.lt_ge_cases k n) as [K|K].
  - apply (good_ext (fun s => (limited c (mt_min m) (mt_max m) - coord (CRotor k) s) / mt_tau m)).
    + intros s S. rewrite (nth_skip (s_mvel s) k) by (rewrite S; exact K). reflexivity.
    + apply good_div, good_sub; [apply good_const|apply good_coord].
  - apply (good_ext (fun _ => 0)); [|apply good_const]. intros s S. rewrite skipn_all2 by (rewrite S; exact K). reflexivity.
  - apply (good_ext (fun s => nth i (rotor_pull ms cmd (skipn (S k) (s_mvel s))) 0)); [|apply IH].
    intros s S. rewrite (nth_skip (s_mvel s) k) by (rewrite S; exact K). reflexivity.
  - apply (good_ext (fun _ => 0)); [|apply good_const]. intros s S. rewrite skipn_all2 by (rewrite S; exact K). reflexivity.
Qed.
Lemma good_pull_sum (f : Motor R -> R -> R) : (forall m g, good g -> good (fun s => f m (g s))) ->
  forall ms ms' cmd k, good (fun s => rotor_sum f ms (rotor_pull ms' cmd (skipn k (s_mvel s)))).
Proof.
  intros Hf. induction ms as [|m ms IH]; intros ms' cmd k.
  - apply (good_ext (fun _ => 0)); [reflexivity|apply good_const].
  - destruct ms' as [|m' ms']; [apply (good_ext (fun _ => 0)); [reflexivity|apply good_const]|].
    destruct cmd as [|c cmd]; [apply (good_ext (fun _ => 0)); [reflexivity|apply good_const]|].
    destruct (Nat.lt_ge_cases k n) as [K|K].
    + apply (good_ext (fun s => f m ((limited c (mt_min m') (mt_max m') - coord (CRotor k) s) / mt_tau m') + rotor_sum f ms (rotor_pull ms' cmd (skipn (S k) (s_mvel s))))).
      * intros s S. rewrite (nth_skip (s_mvel s) k) by (rewrite S; exact K). reflexivity.
      * apply good_add; [|apply IH]. apply (Hf m (fun s => (limited c (mt_min m') (mt_max m') - coord (CRotor k) s) / mt_tau m')).
        apply good_div, good_sub; [apply good_const|apply good_coord].
    + apply (good_ext (fun _ => 0)); [|apply good_const]. intros s S. rewrite skipn_all2 by (rewrite S; exact K). reflexivity.
Qed.

(** ** The equations of motion *)
Ltac goods := repeat first [apply good_const | apply good_add | apply good_sub | apply good_opp | apply good_mul | apply good_abs | apply good_div | apply good_sq].
Ltac gc c := apply (good_ext (coord c)); [reflexivity|apply good_coord].
Lemma g_vx : good (fun s => vx (s_angvel s)). Proof. gc (CRate AX). Qed.
Lemma g_vy : good (fun s => vy (s_angvel s)). Proof. gc (CRate AY). Qed.
Lemma g_vz : good (fun s => vz (s_angvel s)). Proof. gc (CRate AZ). Qed.
Lemma g_qw : good (fun s => qw (s_ori s)). Proof. gc CW. Qed.
Lemma g_qx : good (fun s => qx (s_ori s)). Proof. gc CX. Qed.
Lemma g_qy : good (fun s => qy (s_ori s)). Proof. gc CY. Qed.
Lemma g_qz : good (fun s => qz (s_ori s)). Proof. gc CZ. Qed.
Ltac gq := repeat first [exact g_vx | exact g_vy | exact g_vz | exact g_qw | exact g_qx | exact g_qy | exact g_qz | progress goods].

Lemma good_rot a b : good (fun s => rot_entry (s_ori s) a b).
Proof. destruct a, b; cbn [rot_entry]; gq. Qed.
Lemma good_force p ext a : good (fun s => true_force p ext s a).
Proof.
  unfold true_force, to_world, vec_of. cbn [vx vy vz].
  assert (Rf : forall b, good (fun s => rotor_force (p_motors p) (s_mvel s) b)).
  { intros b. apply (good_sum (fun m w => mt_kf m * sq_signed w * pr b (rotor_axis m))) with (k := 0%nat).
    intros m g Hg. unfold sq_signed. apply good_mul; [|apply good_const]. apply good_mul; [apply good_const|]. apply good_mul; [exact Hg|apply good_abs; exact Hg]. }
  apply good_add; [|apply good_const]. apply good_add.
  - apply good_add; [|apply good_const]. apply good_add; [apply good_add|]; apply good_mul; first [apply good_rot|apply Rf].
  - unfold drag_spec, sq_signed. apply good_mul; [apply good_const|].
    apply good_mul; [apply (good_coord (CVel a))|apply good_abs, (good_coord (CVel a))].
Qed.
Lemma good_torque p cmd a : good (fun s => true_torque p cmd s a).
Proof.
  unfold true_torque. apply good_sub.
  - apply good_add.
    + unfold rotor_torque. apply good_add.
      * apply (good_sum (fun m w => mt_kf m * sq_signed w * cross3 (mt_pos m) (rotor_axis m) a + IZR (mt_dir m) * mt_kt m * sq_signed w * pr a (rotor_axis m))) with (k := 0%nat).
        intros m g Hg. unfold sq_signed. apply good_add; (apply good_mul; [|apply good_const]); (apply good_mul; [apply good_const|]); (apply good_mul; [exact Hg|apply good_abs; exact Hg]).
      * apply (good_pull_sum (fun m al => IZR (mt_dir m) * mt_J m * al * pr a (rotor_axis m))) with (k := 0%nat).
        intros m g Hg. apply good_mul; [|apply good_const]. apply good_mul; [apply good_const|exact Hg].
    + unfold aero_spec, mat_vec, len3, dot3. apply good_mul; [apply good_opp, good_len; gq|gq].
  - unfold vec_of, mat_vec. destruct a; cbn [cross3 vx vy vz ent]; gq.
Qed.
Lemma good_turning c : good (fun s => turning s c).
Proof. destruct c; cbn [turning]; gq. Qed.

(** ** One bound for all numbers *)
Definition all_coords : list Coord :=
  [CPos AX; CPos AY; CPos AZ; CVel AX; CVel AY; CVel AZ; CRate AX; CRate AY; CRate AZ; CW; CX; CY; CZ] ++ map CRotor (seq 0 n).
Lemma all_coords_all c : In c all_coords \/ exists i, c = CRotor i /\ (n <= i)%nat.
Proof.
  destruct c as [[]|[]|[]| | | | |i]; try (left; unfold all_coords; cbn [app In]; tauto).
  destruct (Nat.lt_ge_cases i n) as [K|K]; [left|right; exists i; split; [reflexivity|exact K]].
  unfold all_coords. apply in_or_app. right. apply in_map, in_seq. lia.
Qed.
Lemma goods_on (F : Coord -> State R -> R) B l : (forall c, In c l -> good (F c)) -> exists M L, forall c, In c l -> goodc B M L (F c).
Proof.
  induction l as [|c l IH]; intros H.
  - exists 0, 0. intros c [].
  - destruct (IH (fun c' H' => H c' (or_intror H'))) as (M & L & U). destruct (H c (or_introl eq_refl) B) as (M' & L' & M0 & L0 & Fm & Fl).
    exists (Rmax M M'), (Rmax L L'). intros c' [<-|I'].
    + split; [eapply Rle_trans; [exact M0|apply Rmax_r]|]. split; [eapply Rle_trans; [exact L0|apply Rmax_r]|]. split.
      * intros s S I. eapply Rle_trans; [apply Fm; assumption|apply Rmax_r].
      * intros s s' d S S' I I' A. eapply Rle_trans; [apply Fl; eassumption|]. apply Rmult_le_compat_r; [exact (agree_pos _ _ _ A)|apply Rmax_r].
    + destruct (U c' I') as (M1 & L1 & Um & Ul). split; [eapply Rle_trans; [exact M1|apply Rmax_l]|]. split; [eapply Rle_trans; [exact L1|apply Rmax_l]|]. split.
      * intros s S I. eapply Rle_trans; [apply Um; assumption|apply Rmax_l].
      * intros s s' d S S' I I1 A. eapply Rle_trans; [apply Ul; eassumption|]. apply Rmult_le_compat_r; [exact (agree_pos _ _ _ A)|apply Rmax_l].
Qed.
Lemma goods_all (F : Coord -> State R -> R) B : (forall c, good (F c)) -> (forall i s, (n <= i)%nat -> sized s -> F (CRotor i) s = 0) ->
  exists M L, forall c, goodc B M L (F c).
Proof.
  intros H Z. destruct (goods_on F B all_coords (fun c _ => H c)) as (M & L & U). exists M, L. intros c.
  destruct (all_coords_all c) as [I|(i & -> & K)]; [exact (U c I)|].
  destruct (U CW (or_intror (or_intror (or_intror (or_intror (or_intror (or_intror (or_intror (or_intror (or_intror (or_introl eq_refl)))))))))) ) as (M0 & L0 & _).
  split; [exact M0|]. split; [exact L0|]. split.
  - intros s S _. rewrite Z by assumption. rewrite Rabs_R0. exact M0.
  - intros s s' d S S' _ _ A. rewrite !Z by assumption. rewrite Rminus_0_r, Rabs_R0. apply Rmult_le_pos; [exact L0|exact (agree_pos _ _ _ A)].
Qed.
End Lip.
