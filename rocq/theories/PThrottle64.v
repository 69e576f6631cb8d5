(** Opening the throttle slows no rotor in double precision. *)

From Coq Require Import ZArith Bool List Reals Lra Lia.
From Flocq Require Import Core BinarySingleNaN.
From Verif Require Import Scalar Float64 LinAlg MUtils MPid MControl MCtlRun SpecDyn SpecRound SpecNumber SpecPidNum SpecCtlNum
  PBase PFloat PRound PQuat64 PUnit64 PUp PNumber PExact PPidNum PNorm64 PCtlNum PLag.
Import ListNotations.

Section Throttle64.
Variable L : Libm.
#[local] Instance FO : Ops b64 := F64Ops L.
Local Open Scope sc_scope.
Local Notation vle x y := (Rle (val x) (val y)).

Lemma w_add e (x y : b64) : upto e x -> upto e y -> (-1000 <= e <= 1022)%Z -> val (x + y) = rnd (val x + val y).
Proof. exact (v_add L e x y). Qed.
Lemma w_mul e f (x y : b64) : upto e x -> upto f y -> (-1000 <= e + f <= 1023)%Z -> val (x * y) = rnd (val x * val y).
Proof. exact (v_mul L e f x y). Qed.
Lemma le_addl e x1 x2 y : upto e x1 -> upto e x2 -> upto e y -> (-1000 <= e <= 1022)%Z -> vle x1 x2 -> vle (x1 + y) (x2 + y).
Proof. intros A B C He H. rewrite (w_add e x1 y A C He), (w_add e x2 y B C He). apply rnd_le. lra. Qed.
Lemma le_addr e x1 x2 y : upto e x1 -> upto e x2 -> upto e y -> (-1000 <= e <= 1022)%Z -> vle x1 x2 -> vle (y + x1) (y + x2).
Proof. intros A B C He H. rewrite (w_add e y x1 C A He), (w_add e y x2 C B He). apply rnd_le. lra. Qed.
Lemma le_mul e f k x y : upto f k -> upto e x -> upto e y -> (-1000 <= f + e <= 1023)%Z -> (0 <= val k)%R -> vle x y -> vle (k * x) (k * y).
Proof. intros A B C He K H. rewrite (w_mul f e k x A B He), (w_mul f e k y A C He). apply rnd_le, Rmult_le_compat_l; assumption. Qed.
Lemma ltb_t x y : fin x -> fin y -> (x <? y) = true <-> (val x < val y)%R.
Proof. exact (ltb_of L x y). Qed.
Lemma ltb_f x y : fin x -> fin y -> (x <? y) = false -> (val y <= val x)%R.
Proof. intros A B E. apply Rnot_lt_le. intros N. apply (ltb_t x y A B) in N. congruence. Qed.

(** ** The signed root keeps the order *)
Lemma v_sqrt (x : b64) : val (sqrtT x) = rnd (sqrt (val x)).
Proof. pose proof (Bsqrt_correct 53 1024 _ _ mode_NE x) as (C & _). exact C. Qed.
Lemma v_abs (x : b64) : val (absT x) = Rabs (val x).
Proof. unfold val. change (absT x) with (Babs x). apply B2R_Babs. Qed.
Lemma fin_zero : fin zero. Proof. reflexivity. Qed.
Lemma v_zero : val zero = 0%R. Proof. reflexivity. Qed.
Lemma v_one : val one = 1%R. Proof. exact val_one. Qed.
Lemma v_mone : val mone = (-1)%R. Proof. unfold mone, val. cbn. unfold F2R. cbn. lra. Qed.
Lemma v_root e x : upto e x -> (0 <= e <= 1000)%Z ->
  exists s : R, val (sqrtks x) = rnd (rnd (sqrt (Rabs (val x))) * s) /\ ((0 < val x)%R /\ s = 1%R \/ (val x < 0)%R /\ s = (-1)%R \/ (val x = 0)%R /\ s = 0%R).
Proof.
  intros U He. destruct (up_abs L e x U) as [Ua Pa]. pose proof (up_sqrt L e _ Ua ltac:(lia) Pa) as Us.
  exists (val (signT x)). split.
  - assert (V : val (sqrtT (absT x)) = rnd (sqrt (Rabs (val x)))) by (rewrite v_sqrt, v_abs; reflexivity).
    rewrite <- V. exact (w_mul e 1 (sqrtT (absT x)) (signT x) Us (up_sign L x) ltac:(lia)).
  - destruct U as [F _]. unfold signT. destruct (zero <? x) eqn:A.
    + apply (ltb_t zero x fin_zero F) in A. rewrite v_zero in A. left. split; [exact A|exact v_one].
    + apply (ltb_f zero x fin_zero F) in A. rewrite v_zero in A. destruct (x <? zero) eqn:B.
      * apply (ltb_t x zero F fin_zero) in B. rewrite v_zero in B. right; left. split; [exact B|exact v_mone].
      * apply (ltb_f x zero F fin_zero) in B. rewrite v_zero in B. right; right. split; [lra|exact v_zero].
Qed.
Lemma root_le64 e x y : upto e x -> upto e y -> (0 <= e <= 1000)%Z -> vle x y -> vle (sqrtks x) (sqrtks y).
Proof.
  intros Ux Uy He H. destruct (v_root e x Ux He) as (s & -> & Cs). destruct (v_root e y Uy He) as (t & -> & Ct). apply rnd_le.
  assert (Px : (0 <= rnd (sqrt (Rabs (val x))))%R) by (apply rnd_pos, sqrt_pos).
  assert (Py : (0 <= rnd (sqrt (Rabs (val y))))%R) by (apply rnd_pos, sqrt_pos).
  destruct Cs as [[X ->]|[[X ->]|[X ->]]]; destruct Ct as [[Y ->]|[[Y ->]|[Y ->]]]; try lra.
  - rewrite !Rabs_pos_eq by lra. pose proof (rnd_le _ _ (sqrt_le_1_alt _ _ H)). lra.
  - rewrite !Rabs_left1 by lra. pose proof (rnd_le _ _ (sqrt_le_1_alt (- val y) (- val x) ltac:(lra))). lra.
Qed.

(** ** One row *)
Lemma row_le r t1 t2 tq : upto3 32 (fst r) -> upto3 32 (snd r) -> upto 327 t1 -> upto 327 t2 -> upto3 327 tq -> (0 <= val (vz (fst r)))%R -> vle t1 t2 ->
  vle (row6 r (mkV zero zero t1) tq) (row6 r (mkV zero zero t2) tq).
Proof.
  intros (A1 & A2 & A3) (B1 & B2 & B3) C1 C2 (D1 & D2 & D3) K H. unfold row6. cbn [vx vy vz].
  assert (Z : upto 327 zero) by (apply up_zero; reflexivity).
  pose proof (up_mul L 32 327 _ _ A1 Z ltac:(lia)) as P1. pose proof (up_mul L 32 327 _ _ A2 Z ltac:(lia)) as P2.
  pose proof (up_mul L 32 327 _ _ A3 C1 ltac:(lia)) as P3. pose proof (up_mul L 32 327 _ _ A3 C2 ltac:(lia)) as Q3.
  pose proof (up_mul L 32 327 _ _ B1 D1 ltac:(lia)) as P4. pose proof (up_mul L 32 327 _ _ B2 D2 ltac:(lia)) as P5. pose proof (up_mul L 32 327 _ _ B3 D3 ltac:(lia)) as P6.
  pose proof (up_add L 359 _ _ P1 P2 ltac:(lia)) as S1.
  pose proof (up_add L 360 _ _ S1 (up_weak 359 360 _ ltac:(lia) P3) ltac:(lia)) as S2. pose proof (up_add L 360 _ _ S1 (up_weak 359 360 _ ltac:(lia) Q3) ltac:(lia)) as T2.
  pose proof (up_add L 361 _ _ S2 (up_weak 359 361 _ ltac:(lia) P4) ltac:(lia)) as S3. pose proof (up_add L 361 _ _ T2 (up_weak 359 361 _ ltac:(lia) P4) ltac:(lia)) as T3.
  pose proof (up_add L 362 _ _ S3 (up_weak 359 362 _ ltac:(lia) P5) ltac:(lia)) as S4. pose proof (up_add L 362 _ _ T3 (up_weak 359 362 _ ltac:(lia) P5) ltac:(lia)) as T4.
  apply (le_addl 363); [exact S4|exact T4|exact (up_weak 359 363 _ ltac:(lia) P6)|lia|].
  apply (le_addl 362); [exact S3|exact T3|exact (up_weak 359 362 _ ltac:(lia) P5)|lia|].
  apply (le_addl 361); [exact S2|exact T2|exact (up_weak 359 361 _ ltac:(lia) P4)|lia|].
  apply (le_addr 360); [exact (up_weak 359 360 _ ltac:(lia) P3)|exact (up_weak 359 360 _ ltac:(lia) Q3)|exact S1|lia|].
  apply (le_mul 327 32); [exact A3|exact C1|exact C2|lia|exact K|exact H].
Qed.

(** ** The acro call *)
Lemma throttle64 n p ops w des dt t1 t2 : trig_range L -> sane_ctl p -> Forall sane_ctl_op ops ->
  let c := ctl_run (ctl_new n p) ops in
  upto3 32 w -> upto 32 t1 -> upto 32 t2 -> upto3 32 des -> sane_step 32 dt -> Forall (fun r => (0 <= val (vz (fst r)))%R) (in_minv (ct_indi c)) -> vle t1 t2 ->
  Forall2 (fun u v => vle u v) (get_desired_motor_angular_velocity (ctl_step c (CAcro w t1 des dt))) (get_desired_motor_angular_velocity (ctl_step c (CAcro w t2 des dt))).
Proof.
  intros Tr Hp Hl. cbv zeta. assert (K : forall l c, ctl_ok c -> Forall sane_ctl_op l -> ctl_ok (fold_left ctl_step l c)).
  { induction l as [|o r IH]; intros c Hc Hf; cbn [fold_left]; [exact Hc|]. apply Forall_cons_iff in Hf as [Ho Hf]. apply IH; [apply (ctl_step_ok L); assumption|exact Hf]. }
  assert (I : indi_ok (ct_indi (ctl_run (ctl_new n p) ops))) by (exact (proj1 (proj2 (K ops _ (ctl_new_ok L n p Hp) Hl)))).
  set (c := ctl_run _ _) in *. clearbody c. clear K Hl Hp.
  intros Uw U1 U2 Ud S Hr H. destruct I as (P & J & M & _).
  assert (E : upto3 72 (get_error w des)) by (apply (up3_weak 33); [lia|]; exact (up3_sub L 32 _ _ Ud Uw ltac:(lia))).
  pose proof (compute_ok L 32 72 ltac:(lia) ltac:(lia) _ dt _ P S E) as [_ (_ & _ & _ & _ & _ & _ & Uo)]. change (72 + 2 * 32 + 60)%Z with 196%Z in Uo.
  pose proof (up3_weak 32 71 _ ltac:(lia) Ud) as D.
  pose proof (up3_mmulv L 32 196 _ _ J Uo ltac:(lia)) as T1. pose proof (up3_mmulv L 32 71 _ _ J D ltac:(lia)) as T2. pose proof (up3_cross L 71 105 _ _ D T2 ltac:(lia)) as T3.
  pose proof (up3_add L 230 _ _ T1 (up3_weak 177 230 _ ltac:(lia) T3) ltac:(lia)) as Tq.
  assert (G : exists tq, upto3 231 tq /\ forall t, get_desired_motor_angular_velocity (ctl_step c (CAcro w t des dt)) = map (fun r => sqrtks (row6 r (mkV zero zero t) tq)) (in_minv (ct_indi c))).
  { eexists. split; [exact Tq|]. intros t. reflexivity. }
  destruct G as (tq & Uq & G). rewrite !G. clear - U1 U2 Uq M Hr H. unfold sane_rows in M.
  induction M as [|r l [R1 R2] M IH]; cbn [map]; [constructor|]. inversion Hr as [|r' l' K Hr' E1]; subst. constructor; [|apply IH, Hr'].
  assert (V1 : upto3 327 (mkV zero zero t1)) by (split; [apply up_zero; reflexivity|split; [apply up_zero; reflexivity|exact (up_weak 32 327 _ ltac:(lia) U1)]]).
  assert (V2 : upto3 327 (mkV zero zero t2)) by (split; [apply up_zero; reflexivity|split; [apply up_zero; reflexivity|exact (up_weak 32 327 _ ltac:(lia) U2)]]).
  pose proof (up3_weak 231 327 _ ltac:(lia) Uq) as Vq.
  apply (root_le64 364); [exact (row_up L r _ tq R1 R2 V1 Vq)|exact (row_up L r _ tq R1 R2 V2 Vq)|lia|].
  apply row_le; [exact R1|exact R2|apply V1|apply V2|exact Vq|exact K|exact H].
Qed.
End Throttle64.
