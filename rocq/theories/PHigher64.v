(** Asked for more height, an upright vehicle never demands less thrust: double precision. *)

From Coq Require Import ZArith Bool List Reals Lra Lia.
From Flocq Require Import Core BinarySingleNaN.
From Verif Require Import Scalar Float64 LinAlg MUtils MPid MPid1 MControl MCtlRun SpecDyn SpecPid SpecRound SpecNumber SpecPidNum SpecExact SpecCtl SpecCtlNum SpecMono SpecHigher64
  PBase PFloat PRound PQuat64 PUnit64 PUp PNumber PExact PPid PPidNum PPid64 PLag PMono PMono64 PCtl PNorm64 PCtlNum.
Import ListNotations.

Section Loop.
Variable L : Libm.
#[local] Instance FO : Ops b64 := F64Ops L.
Variables (g h : Z).
Hypothesis Hgh : (0 <= g <= h)%Z.
Hypothesis Hcap : (h + 2 * g + 60 <= 1000)%Z.
Notation big := (h + g + 56)%Z.
Local Notation vle x y := (Rle (val x) (val y)).
Local Open Scope sc_scope.

Lemma loop64 p dt e1 e2 a : pid_ok g h p -> Reached p -> sane_step g dt -> upto3 h e1 -> upto3 h e2 -> willing64 a p -> pid_reset_flag p = false ->
  vle (pr a e1) (pr a e2) -> vle (pr a (ps_out (pid_s (pid_compute p dt e1)))) (pr a (ps_out (pid_s (pid_compute p dt e2)))).
Proof.
  intros [C S] Rp D E1 E2. pose proof (reached_inv p Rp) as (Lm & D1 & D2 & D3). intros (Kp & Ki & Kd & Aw & Sat) St E.
  unfold pid_kp, pid_ki, pid_kd, pid_aw, pid_sat_on, pid_prop_on, pid_reset_flag in *.
  pose proof C as (G1 & G2 & G3 & _). assert (S1 : st_ok g h (ps_init (pid_s p) e1)) by exact (init_ok L g h _ _ S E1). assert (S2 : st_ok g h (ps_init (pid_s p) e2)) by exact (init_ok L g h _ _ S E2).
  pose proof (acc_ok L g h Hgh Hcap _ _ dt e1 C S1 D E1) as A1. pose proof (acc_ok L g h Hgh Hcap _ _ dt e2 C S2 D E2) as A2.
  pose proof (filt_ok L g h Hgh Hcap _ _ dt e1 C S1 D E1) as T1. pose proof (filt_ok L g h Hgh Hcap _ _ dt e2 C S2 D E2) as T2.
  assert (B1 : upto3 big e1) by (apply (up3_weak h); [lia|exact E1]). assert (B2 : upto3 big e2) by (apply (up3_weak h); [lia|exact E2]).
  assert (F : ps_acc (ps_init (pid_s p) e1) = ps_acc (ps_init (pid_s p) e2)) by (unfold ps_init; destruct (ps_first (pid_s p)); reflexivity).
  unfold pid_compute. cbv zeta. cbn [pid_s ps_out]. rewrite F in *.
  apply (le_out L g h Hgh Hcap); try assumption; try (apply (gain_ok L g h Hgh Hcap big); [lia|assumption|assumption]); apply (le_gain L g h Hgh Hcap); try assumption.
  - apply (le_acc L g h Hgh Hcap); try assumption. left. exact St.
  - apply (le_filt L g h Hgh Hcap); assumption.
Qed.
Lemma loop64_d p dt e1 e2 d1 d2 a : pid_ok g h p -> Reached p -> sane_step g dt -> upto3 h e1 -> upto3 h e2 -> upto3 h d1 -> upto3 h d2 -> willing64 a p -> pid_reset_flag p = false ->
  vle (pr a e1) (pr a e2) -> vle (pr a d1) (pr a d2) -> vle (pr a (ps_out (pid_s (pid_compute_d p dt e1 d1)))) (pr a (ps_out (pid_s (pid_compute_d p dt e2 d2)))).
Proof.
  intros [C S] Rp D E1 E2 T1 T2. pose proof (reached_inv p Rp) as (Lm & D1 & D2 & D3). intros (Kp & Ki & Kd & Aw & Sat) St E Ed.
  unfold pid_kp, pid_ki, pid_kd, pid_aw, pid_sat_on, pid_prop_on, pid_reset_flag in *.
  pose proof C as (G1 & G2 & G3 & _). assert (S1 : st_ok g h (ps_init (pid_s p) e1)) by exact (init_ok L g h _ _ S E1). assert (S2 : st_ok g h (ps_init (pid_s p) e2)) by exact (init_ok L g h _ _ S E2).
  pose proof (acc_ok L g h Hgh Hcap _ _ dt e1 C S1 D E1) as A1. pose proof (acc_ok L g h Hgh Hcap _ _ dt e2 C S2 D E2) as A2.
  assert (B1 : upto3 big e1) by (apply (up3_weak h); [lia|exact E1]). assert (B2 : upto3 big e2) by (apply (up3_weak h); [lia|exact E2]).
  assert (B3 : upto3 big d1) by (apply (up3_weak h); [lia|exact T1]). assert (B4 : upto3 big d2) by (apply (up3_weak h); [lia|exact T2]).
  assert (F : ps_acc (ps_init (pid_s p) e1) = ps_acc (ps_init (pid_s p) e2)) by (unfold ps_init; destruct (ps_first (pid_s p)); reflexivity).
  unfold pid_compute_d. cbv zeta. cbn [pid_s ps_out]. rewrite F in *.
  apply (le_out L g h Hgh Hcap); try assumption; try (apply (gain_ok L g h Hgh Hcap big); [lia|assumption|assumption]); apply (le_gain L g h Hgh Hcap); try assumption.
  apply (le_acc L g h Hgh Hcap); try assumption. left. exact St.
Qed.
End Loop.

Section Ctl.
Variable L : Libm.
#[local] Instance FC : Ops b64 := F64Ops L.
Local Notation vle x y := (Rle (val x) (val y)).
Local Open Scope sc_scope.

Lemma low_pr (u v : V3 b64) : no_lower64 u v <-> (forall a, vle (pr a u) (pr a v)) /\ vle (pr AX v) (pr AX u) /\ vle (pr AY v) (pr AY u).
Proof.
  split.
  - intros (X & Y & Z). split; [intros []; cbn [pr]; lra|]. cbn [pr]. lra.
  - intros (A & B & C). pose proof (A AX). pose proof (A AY). pose proof (A AZ). cbn [pr] in *. split; [lra|]. split; lra.
Qed.
Lemma low_loop h p dt e1 e2 : (32 <= h)%Z -> (h + 2 * 32 + 60 <= 1000)%Z -> pid_ok 32 h p -> Reached p -> willing_loop64 p -> sane_step 32 dt -> upto3 h e1 -> upto3 h e2 -> no_lower64 e1 e2 ->
  no_lower64 (ps_out (pid_s (pid_compute p dt e1))) (ps_out (pid_s (pid_compute p dt e2))).
Proof.
  intros H1 H2 P Rp [W F] D U1 U2 H. apply low_pr in H as (A & B & C). apply low_pr.
  split; [intros a|split]; apply (loop64 L 32 h ltac:(lia) H2); auto.
Qed.
Lemma low_loop_d h p dt e1 e2 d1 d2 : (32 <= h)%Z -> (h + 2 * 32 + 60 <= 1000)%Z -> pid_ok 32 h p -> Reached p -> willing_loop64 p -> sane_step 32 dt ->
  upto3 h e1 -> upto3 h e2 -> upto3 h d1 -> upto3 h d2 -> no_lower64 e1 e2 -> no_lower64 d1 d2 ->
  no_lower64 (ps_out (pid_s (pid_compute_d p dt e1 d1))) (ps_out (pid_s (pid_compute_d p dt e2 d2))).
Proof.
  intros H1 H2 P Rp [W F] D U1 U2 V1 V2 H K. apply low_pr in H as (A & B & C). apply low_pr in K as (A' & B' & C'). apply low_pr.
  split; [intros a|split]; apply (loop64_d L 32 h ltac:(lia) H2); auto.
Qed.
(** Sums, differences and products with a common factor keep the order. *)
Lemma low_map e f (F : V3 b64 -> V3 b64) (u v : V3 b64) (k : Ax -> R -> R) : upto3 e u -> upto3 e v ->
  (forall w a, upto3 e w -> val (pr a (F w)) = k a (val (pr a w))) -> f = tt -> (forall a x y, (x <= y)%R -> (k a x <= k a y)%R) -> no_lower64 u v -> no_lower64 (F u) (F v).
Proof.
  intros U V E _ M H. apply low_pr in H as (A & B & C). apply low_pr.
  split; [intros a|split]; rewrite (E _ _ U), (E _ _ V); apply M; auto.
Qed.
Lemma low_sub e u v w : (-1000 <= e <= 1022)%Z -> upto3 e u -> upto3 e v -> upto3 e w -> no_lower64 u v -> no_lower64 (vsub u w) (vsub v w).
Proof.
  intros He U V W. apply (low_map e tt (fun x => vsub x w) u v (fun a x => rnd (x - val (pr a w)))); try assumption; try reflexivity.
  - intros x a X. assert (Q : val (pr a x - pr a w) = rnd (val (pr a x) - val (pr a w))) by (apply (v_sub_at L e); [destruct X as (? & ? & ?); destruct a; assumption|destruct W as (? & ? & ?); destruct a; assumption|exact He]).
    rewrite <- Q. destruct a; reflexivity.
  - intros a x y H. apply rnd_le. lra.
Qed.
Lemma low_add e u v w x : (-1000 <= e <= 1022)%Z -> upto3 e u -> upto3 e v -> upto3 e w -> upto3 e x -> no_lower64 u v -> no_lower64 w x -> no_lower64 (vadd u w) (vadd v x).
Proof.
  intros He U V W X H K. apply low_pr in H as (A & B & C). apply low_pr in K as (A' & B' & C'). apply low_pr.
  assert (Q : forall y z a, upto3 e y -> upto3 e z -> val (pr a (vadd y z)) = rnd (val (pr a y) + val (pr a z))).
  { intros y z a (Y1 & Y2 & Y3) (Z1 & Z2 & Z3). destruct a; [exact (v_add L e _ _ Y1 Z1 He)|exact (v_add L e _ _ Y2 Z2 He)|exact (v_add L e _ _ Y3 Z3 He)]. }
  split; [intros a; pose proof (A a); pose proof (A' a)|split]; rewrite !Q by assumption; apply rnd_le; lra.
Qed.
Lemma low_scaler e f u v m : (-1000 <= e + f <= 1023)%Z -> upto3 e u -> upto3 e v -> upto f m -> (0 <= val m)%R -> no_lower64 u v -> no_lower64 (vscaler u m) (vscaler v m).
Proof.
  intros He U V M Pm. apply (low_map e tt (fun x => vscaler x m) u v (fun a x => rnd (x * val m))); try assumption; try reflexivity.
  - intros x a (X1 & X2 & X3). destruct a; [exact (v_mul L e f _ _ X1 M He)|exact (v_mul L e f _ _ X2 M He)|exact (v_mul L e f _ _ X3 M He)].
  - intros a x y H. apply rnd_le, Rmult_le_compat_r; assumption.
Qed.

(** ** The thrust axis *)
Lemma div_nonneg x y : fin x -> (0 < val y)%R -> upto 2 (x / y) -> (0 <= val x)%R -> Rle 0 (val (x / y)).
Proof.
  intros Fx Py [F _] Px. assert (Ny : B2R y <> 0%R) by (unfold val in Py; lra).
  pose proof (Bdiv_correct 53 1024 _ _ mode_NE x y Ny) as C. destruct (Rlt_bool _ _) eqn:B in C.
  - destruct C as (C & _). unfold val. change (x / y) with (Bdiv mode_NE x y). rewrite C. apply rnd_pos. unfold val in *. apply Rmult_le_pos; [exact Px|apply Rlt_le, Rinv_0_lt_compat, Py].
  - exfalso. change (x / y) with (Bdiv mode_NE x y) in F. unfold fin in F. destruct (Bdiv mode_NE x y); try discriminate F; discriminate C.
Qed.
Lemma axis_up A : upto9 32 A -> upright64 A -> upto3 2 (vnormalized (mcol2 A)) /\ (0 <= val (vz (vnormalized (mcol2 A))))%R.
Proof.
  intros HA Up. pose proof (proj2 (proj2 (up9_col _ _ HA))) as U. pose proof (normalized_up L 32 _ U ltac:(lia)) as N. split; [exact N|].
  destruct N as (_ & _ & N). revert N. destruct (up_sqn L 32 (mcol2 A) U ltac:(lia)) as [[Fz _] Pz].
  assert (Lt : (zero <? vsqn (mcol2 A)) = true -> (0 < val (vsqn (mcol2 A)))%R) by (intros X; exact (proj1 (ltb_of L zero (vsqn (mcol2 A)) eq_refl Fz) X)).
  assert (Hs : (0 < val (vsqn (mcol2 A)))%R -> (0 < val (sqrtT (vsqn (mcol2 A))))%R) by (intros X; exact (proj1 (proj2 (sqrt_half L _ Fz X)))).
  unfold vnormalized. cbv zeta. destruct (zero <? vsqn (mcol2 A)); [|intros _; exact Up].
  intros N. apply div_nonneg; [apply U|apply Hs, Lt; reflexivity|exact N|exact Up].
Qed.

Lemma thrust64 a acc1 acc2 A yaw : acro_ok a -> (0 <= val (ac_mass a))%R -> upto9 32 A -> upright64 A -> upto3 290 acc1 -> upto3 290 acc2 -> no_lower64 acc1 acc2 ->
  vle (fst (snd (acc_to_acro a acc1 A yaw))) (fst (snd (acc_to_acro a acc2 A yaw))).
Proof.
  intros Ha Pm HA Up U1 U2 H. destruct (axis_up A HA Up) as [(N1 & N2 & N3) Nz].
  pose proof (thrust_up L a acc1 Ha U1) as T1. pose proof (thrust_up L a acc2 Ha U2) as T2.
  assert (K : no_lower64 (acc_to_thrust a acc1) (acc_to_thrust a acc2)).
  { destruct Ha as (_ & M & G & _). unfold acc_to_thrust. pose proof (up3_weak 32 290 _ ltac:(lia) G) as G'.
    apply (low_scaler 291 32); [lia|apply (up3_sub L 290); [exact U1|exact G'|lia]|apply (up3_sub L 290); [exact U2|exact G'|lia]|exact M|exact Pm|].
    apply (low_sub 290); [lia|exact U1|exact U2|exact G'|exact H]. }
  unfold acc_to_acro. cbv zeta. cbn [snd]. set (w1 := acc_to_thrust a acc1) in *. set (w2 := acc_to_thrust a acc2) in *. set (z := vnormalized (mcol2 A)) in *.
  clearbody w1 w2 z. clear Ha U1 U2 H Up HA. destruct T1 as (X1 & Y1 & Z1), T2 as (X2 & Y2 & Z2). destruct K as (Kx & Ky & Kz).
  pose proof (up_mul L 323 2 _ _ X1 N1 ltac:(lia)) as A1. pose proof (up_mul L 323 2 _ _ Y1 N2 ltac:(lia)) as B1. pose proof (up_mul L 323 2 _ _ Z1 N3 ltac:(lia)) as C1.
  pose proof (up_mul L 323 2 _ _ X2 N1 ltac:(lia)) as A2. pose proof (up_mul L 323 2 _ _ Y2 N2 ltac:(lia)) as B2. pose proof (up_mul L 323 2 _ _ Z2 N3 ltac:(lia)) as C2.
  change (323 + 2)%Z with 325%Z in *.
  pose proof (up_add L 325 _ _ A1 B1 ltac:(lia)) as S1. pose proof (up_add L 325 _ _ A2 B2 ltac:(lia)) as S2. change (325 + 1)%Z with 326%Z in *.
  apply (up_weak 325 326 _ ltac:(lia)) in C1, C2.
  assert (V1 : val (vdot w1 z) = rnd (val (vx w1 * vx z + vy w1 * vy z) + val (vz w1 * vz z))) by (exact (v_add L 326 _ _ S1 C1 ltac:(lia))).
  assert (V2 : val (vdot w2 z) = rnd (val (vx w2 * vx z + vy w2 * vy z) + val (vz w2 * vz z))) by (exact (v_add L 326 _ _ S2 C2 ltac:(lia))).
  assert (E : val (vx w1 * vx z + vy w1 * vy z) = val (vx w2 * vx z + vy w2 * vy z)).
  { transitivity (rnd (val (vx w1 * vx z) + val (vy w1 * vy z))); [exact (v_add L 325 _ _ A1 B1 ltac:(lia))|].
    transitivity (rnd (val (vx w2 * vx z) + val (vy w2 * vy z))); [|symmetry; exact (v_add L 325 _ _ A2 B2 ltac:(lia))].
    f_equal. f_equal.
    - transitivity (rnd (val (vx w1) * val (vx z))); [exact (v_mul L 323 2 _ _ X1 N1 ltac:(lia))|rewrite Kx; symmetry; exact (v_mul L 323 2 _ _ X2 N1 ltac:(lia))].
    - transitivity (rnd (val (vy w1) * val (vy z))); [exact (v_mul L 323 2 _ _ Y1 N2 ltac:(lia))|rewrite Ky; symmetry; exact (v_mul L 323 2 _ _ Y2 N2 ltac:(lia))]. }
  assert (Q : vle (vz w1 * vz z) (vz w2 * vz z)).
  { eapply Rle_trans; [right; exact (v_mul L 323 2 _ _ Z1 N3 ltac:(lia))|]. eapply Rle_trans; [|right; symmetry; exact (v_mul L 323 2 _ _ Z2 N3 ltac:(lia))].
    apply rnd_le, Rmult_le_compat_r; assumption. }
  assert (R : vle (vdot w1 z) (vdot w2 z)) by (rewrite V1, V2, E; apply rnd_le; lra).
  pose proof (up_fin _ _ (up_add L 326 _ _ S1 C1 ltac:(lia))) as F1. pose proof (up_fin _ _ (up_add L 326 _ _ S2 C2 ltac:(lia))) as F2.
  assert (F1' : fin (vdot w1 z)) by exact F1. assert (F2' : fin (vdot w2 z)) by exact F2. clear F1 F2.
  assert (Z : forall x : b64, fin x -> (x <? zero) = true <-> (val x < 0)%R) by (intros x Fx; exact (ltb_of L x zero Fx eq_refl)).
  assert (Vz : val zero = 0%R) by reflexivity.
  destruct (vdot w1 z <? zero) eqn:L1; destruct (vdot w2 z <? zero) eqn:L2; cbn [fst]; try exact R; try (rewrite Vz).
  - lra.
  - apply Rnot_lt_le. intros N. apply (Z _ F2') in N. congruence.
  - apply (Z _ F2') in L2. assert (N : (val (vdot w1 z) < 0)%R) by lra. apply (Z _ F1') in N. congruence.
Qed.

(** ** The controller *)
Section Reach.
Variables (n : nat) (p : CtlParams b64) (ops : list (CtlOp b64)) (A : M3 b64) (w : V3 b64) (yaw dt : b64).
Hypotheses (Tr : trig_range L) (Hp : sane_ctl p) (Hl : Forall sane_ctl_op ops).
Let c := ctl_run (ctl_new n p) ops.
Hypotheses (Pm : (0 <= val (ac_mass (ct_acro c)))%R) (HA : upto9 32 A) (Up : upright64 A) (Hd : sane_step 32 dt).

Lemma run_fine : ctl_ok c.
Proof.
  assert (K : forall l c, ctl_ok c -> Forall sane_ctl_op l -> ctl_ok (fold_left ctl_step l c)).
  { induction l as [|o r IH]; intros k Hc Hf; cbn [fold_left]; [exact Hc|]. apply Forall_cons_iff in Hf as [Ho Hf]. apply IH; [apply (ctl_step_ok L); assumption|exact Hf]. }
  exact (K ops _ (ctl_new_ok L n p Hp) Hl).
Qed.
Lemma run_reach v : Reached (get_pid v c).
Proof. apply (get_pid_reached n). exists p, ops. reflexivity. Qed.

Lemma thr_acc k cw acc : get_desired_thrust (ctl_acc k A cw acc yaw dt) = fst (snd (acc_to_acro (ct_acro k) acc A yaw)).
Proof. unfold ctl_acc. destruct (acc_to_acro (ct_acro k) acc A yaw) as [a' [th v]]. reflexivity. Qed.
Lemma thr_vel k cv cw dv : get_desired_thrust (ctl_vel k cv A cw dv yaw dt) = fst (snd (acc_to_acro (ct_acro k) (ps_out (pid_s (pid_compute (ct_vel k) dt (get_error cv dv)))) A yaw)).
Proof. unfold ctl_vel. cbv zeta. rewrite thr_acc. reflexivity. Qed.

Lemma acc64 a1 a2 : upto3 32 a1 -> upto3 32 a2 -> no_lower64 a1 a2 ->
  vle (get_desired_thrust (ctl_step c (CAcc A w a1 yaw dt))) (get_desired_thrust (ctl_step c (CAcc A w a2 yaw dt))).
Proof.
  intros U1 U2 H. pose proof run_fine as (Ha & _).
  cbn [ctl_step]. rewrite !thr_acc.
  exact (thrust64 (ct_acro c) a1 a2 A yaw Ha Pm HA Up (up3_weak 32 290 _ ltac:(lia) U1) (up3_weak 32 290 _ ltac:(lia) U2) H).
Qed.
Lemma vel64 cv v1 v2 : upto3 32 cv -> upto3 32 v1 -> upto3 32 v2 -> willing_loop64 (get_pid WVel c) -> no_lower64 v1 v2 ->
  vle (get_desired_thrust (ctl_step c (CVel cv A w v1 yaw dt))) (get_desired_thrust (ctl_step c (CVel cv A w v2 yaw dt))).
Proof.
  intros Uc U1 U2 W H. pose proof run_fine as (Ha & _ & _ & _ & V & _).
  pose proof (up3_weak 33 158 _ ltac:(lia) (err_up L 32 _ _ Uc U1 ltac:(lia))) as E1. pose proof (up3_weak 33 158 _ ltac:(lia) (err_up L 32 _ _ Uc U2 ltac:(lia))) as E2.
  pose proof (out_up _ _ (compute_ok L 32 158 ltac:(lia) ltac:(lia) _ dt _ V Hd E1)) as O1. pose proof (out_up _ _ (compute_ok L 32 158 ltac:(lia) ltac:(lia) _ dt _ V Hd E2)) as O2.
  assert (K : no_lower64 (ps_out (pid_s (pid_compute (ct_vel c) dt (get_error cv v1)))) (ps_out (pid_s (pid_compute (ct_vel c) dt (get_error cv v2))))).
  { apply (low_loop 158); [lia|lia|exact V|exact (run_reach WVel)|exact W|exact Hd|exact E1|exact E2|]. apply (low_sub 32); [lia|exact U1|exact U2|exact Uc|exact H]. }
  cbn [ctl_step]. rewrite !thr_vel.
  exact (thrust64 (ct_acro c) _ _ A yaw Ha Pm HA Up (up3_weak 282 290 _ ltac:(lia) O1) (up3_weak 282 290 _ ltac:(lia) O2) K).
Qed.
Lemma pos64 cp cv p1 p2 : upto3 32 cp -> upto3 32 cv -> upto3 32 p1 -> upto3 32 p2 -> willing_loop64 (get_pid WPos c) -> willing_loop64 (get_pid WVel c) -> no_lower64 p1 p2 ->
  vle (get_desired_thrust (ctl_step c (CPos cp A cv w p1 yaw dt))) (get_desired_thrust (ctl_step c (CPos cp A cv w p2 yaw dt))).
Proof.
  intros Ucp Uc U1 U2 Wp W H. pose proof run_fine as (Ha & _ & P & _ & V & _).
  pose proof (err_up L 32 _ _ Ucp U1 ltac:(lia)) as D1. pose proof (err_up L 32 _ _ Ucp U2 ltac:(lia)) as D2. change (32 + 1)%Z with 33%Z in *.
  pose proof (out_up _ _ (compute_ok L 32 33 ltac:(lia) ltac:(lia) _ dt _ P Hd D1)) as Q1. pose proof (out_up _ _ (compute_ok L 32 33 ltac:(lia) ltac:(lia) _ dt _ P Hd D2)) as Q2.
  change (33 + 2 * 32 + 60)%Z with 157%Z in *.
  assert (K1 : no_lower64 (ps_out (pid_s (pid_compute (ct_pos c) dt (get_error cp p1)))) (ps_out (pid_s (pid_compute (ct_pos c) dt (get_error cp p2))))).
  { apply (low_loop 33); [lia|lia|exact P|exact (run_reach WPos)|exact Wp|exact Hd|exact D1|exact D2|]. apply (low_sub 32); [lia|exact U1|exact U2|exact Ucp|exact H]. }
  pose proof (up3_weak 32 157 _ ltac:(lia) Uc) as Uc'.
  pose proof (err_up L 157 _ _ Uc' Q1 ltac:(lia)) as E1. pose proof (err_up L 157 _ _ Uc' Q2 ltac:(lia)) as E2. change (157 + 1)%Z with 158%Z in *.
  pose proof (out_up _ _ (compute_ok L 32 158 ltac:(lia) ltac:(lia) _ dt _ V Hd E1)) as O1. pose proof (out_up _ _ (compute_ok L 32 158 ltac:(lia) ltac:(lia) _ dt _ V Hd E2)) as O2.
  cbn [ctl_step]. unfold ctl_pos. cbv zeta. rewrite !thr_vel. cbn [ct_acro ct_vel].
  refine (thrust64 (ct_acro c) _ _ A yaw Ha Pm HA Up (up3_weak _ 290 _ _ O1) (up3_weak _ 290 _ _ O2) _); [lia|lia|].
  apply (low_loop 158); [lia|lia|exact V|exact (run_reach WVel)|exact W|exact Hd|exact E1|exact E2|]. apply (low_sub 157); [lia|exact Q1|exact Q2|exact Uc'|exact K1].
Qed.
Lemma traj64 cp cv p1 p2 v1 v2 a1 a2 : upto3 32 cp -> upto3 32 cv -> upto3 32 p1 -> upto3 32 p2 -> upto3 32 v1 -> upto3 32 v2 -> upto3 32 a1 -> upto3 32 a2 ->
  willing_loop64 (get_pid WTraj c) -> no_lower64 p1 p2 -> no_lower64 v1 v2 -> no_lower64 a1 a2 ->
  vle (get_desired_thrust (ctl_step c (CTraj cp cv A w p1 v1 a1 yaw dt))) (get_desired_thrust (ctl_step c (CTraj cp cv A w p2 v2 a2 yaw dt))).
Proof.
  intros Ucp Ucv U1 U2 V1 V2 G1 G2 W H K J. pose proof run_fine as (Ha & _ & _ & T & _).
  pose proof (err_up L 32 _ _ Ucp U1 ltac:(lia)) as D1. pose proof (err_up L 32 _ _ Ucp U2 ltac:(lia)) as D2.
  pose proof (err_up L 32 _ _ Ucv V1 ltac:(lia)) as E1. pose proof (err_up L 32 _ _ Ucv V2 ltac:(lia)) as E2. change (32 + 1)%Z with 33%Z in *.
  pose proof (out_up _ _ (compute_d_ok L 32 33 ltac:(lia) ltac:(lia) _ dt _ _ T Hd D1 E1)) as Q1. pose proof (out_up _ _ (compute_d_ok L 32 33 ltac:(lia) ltac:(lia) _ dt _ _ T Hd D2 E2)) as Q2.
  change (33 + 2 * 32 + 60)%Z with 157%Z in *. pose proof (up3_weak 32 157 _ ltac:(lia) G1) as G1'. pose proof (up3_weak 32 157 _ ltac:(lia) G2) as G2'.
  pose proof (up3_add L 157 _ _ Q1 G1' ltac:(lia)) as S1. pose proof (up3_add L 157 _ _ Q2 G2' ltac:(lia)) as S2.
  cbn [ctl_step]. unfold ctl_traj, traj_control. cbv zeta. rewrite !thr_acc. cbn [ct_acro].
  refine (thrust64 (ct_acro c) _ _ A yaw Ha Pm HA Up (up3_weak _ 290 _ _ S1) (up3_weak _ 290 _ _ S2) _); [lia|lia|].
  apply (low_add 157); [lia|exact Q1|exact Q2|exact G1'|exact G2'| |exact J].
  apply (low_loop_d 33); [lia|lia|exact T|exact (run_reach WTraj)|exact W|exact Hd|exact D1|exact D2|exact E1|exact E2| |].
  - apply (low_sub 32); [lia|exact U1|exact U2|exact Ucp|exact H].
  - apply (low_sub 32); [lia|exact V1|exact V2|exact Ucv|exact K].
Qed.
End Reach.
End Ctl.
