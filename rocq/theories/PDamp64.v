(** The faster the vehicle is found to turn, the less its rotors push it that way: double precision. *)

From Coq Require Import ZArith Bool List Reals Lra Lia.
From Flocq Require Import Core BinarySingleNaN.
From Verif Require Import Scalar Float64 LinAlg MUtils MPid MControl MCtlRun SpecDyn SpecPid SpecRound SpecNumber SpecPidNum SpecExact SpecCtl SpecCtlNum SpecMono SpecHigher64 SpecDamp64
  PBase PFloat PRound PQuat64 PUnit64 PUp PNumber PExact PPid PPidNum PPid64 PLag PMono PMono64 PCtl PNorm64 PCtlNum PThrottle64 PHigher64.
Import ListNotations.

Section Damp64.
Variable L : Libm.
#[local] Instance FO : Ops b64 := F64Ops L.
Local Open Scope sc_scope.
Local Notation vle x y := (Rle (val x) (val y)).

Lemma x_add e (x y : b64) : upto e x -> upto e y -> (-1000 <= e <= 1022)%Z -> val (x + y) = rnd (val x + val y).
Proof. exact (v_add L e x y). Qed.
Lemma x_mul e f (x y : b64) : upto e x -> upto f y -> (-1000 <= e + f <= 1023)%Z -> val (x * y) = rnd (val x * val y).
Proof. exact (v_mul L e f x y). Qed.
Lemma x_sub e (x y : b64) : upto e x -> upto e y -> (-1000 <= e <= 1022)%Z -> val (x - y) = rnd (val x - val y).
Proof. exact (v_sub_at L e x y). Qed.
Lemma ax_cases (a b : Ax) : a = b \/ a <> b.
Proof. destruct a, b; (left; reflexivity) || (right; discriminate). Qed.
Lemma pr_up3 e (v : V3 b64) a : upto3 e v -> upto e (pr a v).
Proof. intros (A & B & C). destruct a; assumption. Qed.

(** Sums of three products keep the order of the products. *)
Lemma sum3_le e p1 p2 p3 q1 q2 q3 : upto e p1 -> upto e p2 -> upto e p3 -> upto e q1 -> upto e q2 -> upto e q3 -> (0 <= e <= 1000)%Z ->
  vle p1 q1 -> vle p2 q2 -> vle p3 q3 -> vle (p1 + p2 + p3) (q1 + q2 + q3).
Proof.
  intros A1 A2 A3 B1 B2 B3 He H1 H2 H3.
  pose proof (up_add L e _ _ A1 A2 ltac:(lia)) as S. pose proof (up_add L e _ _ B1 B2 ltac:(lia)) as T.
  assert (E : vle (p1 + p2) (q1 + q2)) by (rewrite (x_add e p1 p2 A1 A2 ltac:(lia)), (x_add e q1 q2 B1 B2 ltac:(lia)); apply rnd_le; lra).
  assert (X : val (p1 + p2 + p3) = rnd (val (p1 + p2) + val p3)) by (apply (x_add (e + 1)); [exact S|exact (up_weak e (e + 1) _ ltac:(lia) A3)|lia]).
  assert (Y : val (q1 + q2 + q3) = rnd (val (q1 + q2) + val q3)) by (apply (x_add (e + 1)); [exact T|exact (up_weak e (e + 1) _ ltac:(lia) B3)|lia]).
  rewrite X, Y. apply rnd_le. lra.
Qed.
Lemma prod_le e f k x y : upto f k -> upto e x -> upto e y -> (-1000 <= f + e <= 1023)%Z -> (0 <= val k)%R -> vle x y -> vle (k * x) (k * y).
Proof. intros A B C He K H. rewrite (x_mul f e k x A B He), (x_mul f e k y A C He). apply rnd_le, Rmult_le_compat_l; assumption. Qed.
Lemma prod_ge e f k x y : upto f k -> upto e x -> upto e y -> (-1000 <= f + e <= 1023)%Z -> (val k <= 0)%R -> vle x y -> vle (k * y) (k * x).
Proof. intros A B C He K H. rewrite (x_mul f e k x A B He), (x_mul f e k y A C He). apply rnd_le. apply Rmult_le_compat_neg_l; assumption. Qed.
Lemma prod_eq e f k x y : upto f k -> upto e x -> upto e y -> (-1000 <= f + e <= 1023)%Z -> (val k = 0 \/ val x = val y)%R -> val (k * x) = val (k * y).
Proof. intros A B C He K. rewrite (x_mul f e k x A B He), (x_mul f e k y A C He). destruct K as [K|K]; [rewrite K, !Rmult_0_l; reflexivity|rewrite K; reflexivity]. Qed.

(** Principal moments scale an ordered pair axis by axis. *)
Lemma moments_apart a m (u v : V3 b64) e : upto9 32 m -> principal64 m -> upto3 e u -> upto3 e v -> (0 <= e <= 900)%Z -> apart64 a u v -> apart64 a (mmulv m u) (mmulv m v).
Proof.
  intros Um ((Z1 & Z2 & Z3 & Z4 & Z5 & Z6) & D1 & D2 & D3) U V He [H N].
  destruct Um as ((M1 & M2 & M3) & (M4 & M5 & M6) & (M7 & M8 & M9)) || destruct Um as (M1 & M2 & M3 & M4 & M5 & M6 & M7 & M8 & M9).
  destruct U as (U1 & U2 & U3), V as (V1 & V2 & V3).
  assert (Nx : AX <> a -> val (vx u) = val (vx v)) by exact (N AX). assert (Ny : AY <> a -> val (vy u) = val (vy v)) by exact (N AY). assert (Nz : AZ <> a -> val (vz u) = val (vz v)) by exact (N AZ).
  assert (Lx : vle (vx u) (vx v)) by (destruct (ax_cases AX a) as [E|E]; [subst a; exact H|rewrite (Nx E); lra]).
  assert (Ly : vle (vy u) (vy v)) by (destruct (ax_cases AY a) as [E|E]; [subst a; exact H|rewrite (Ny E); lra]).
  assert (Lz : vle (vz u) (vz v)) by (destruct (ax_cases AZ a) as [E|E]; [subst a; exact H|rewrite (Nz E); lra]).
  assert (Gle : forall k x y, upto 32 k -> upto e x -> upto e y -> (0 <= val k)%R -> vle x y -> vle (k * x) (k * y)).
  { intros k x y A B C K Q. exact (prod_le e 32 k x y A B C ltac:(lia) K Q). }
  assert (Geq : forall k x y, upto 32 k -> upto e x -> upto e y -> (val k = 0 \/ val x = val y)%R -> vle (k * y) (k * x)).
  { intros k x y A B C K. rewrite (prod_eq e 32 k x y A B C ltac:(lia) K). lra. }
  assert (Gup : forall k x, upto 32 k -> upto e x -> upto (32 + e) (k * x)) by (intros k x A B; exact (up_mul L 32 e _ _ A B ltac:(lia))).
  assert (Up : forall b, vle (pr b (mmulv m u)) (pr b (mmulv m v))).
  { intros []; cbn [mmulv pr vx vy vz]; apply (sum3_le (32 + e)); try (apply Gup; assumption); try lia; apply Gle; try assumption; lra. }
  assert (Dn : forall b, b <> a -> vle (pr b (mmulv m v)) (pr b (mmulv m u))).
  { intros b Nb. destruct b; cbn [mmulv pr vx vy vz]; apply (sum3_le (32 + e)); try (apply Gup; assumption); try lia; apply Geq; try assumption; first [left; assumption|right; auto]. }
  split; [apply Up|]. intros b Nb. apply Rle_antisym; [apply Up|apply Dn, Nb].
Qed.
Lemma shift_apart a (u v k : V3 b64) e : upto3 e u -> upto3 e v -> upto3 e k -> (0 <= e <= 1000)%Z -> apart64 a u v -> apart64 a (vadd u k) (vadd v k).
Proof.
  intros U V K He [H N].
  assert (E : forall w b, upto3 e w -> val (pr b (vadd w k)) = rnd (val (pr b w) + val (pr b k))).
  { intros w b W. assert (Q : val (pr b w + pr b k) = rnd (val (pr b w) + val (pr b k))) by (apply (x_add e); [apply pr_up3, W|apply pr_up3, K|lia]). rewrite <- Q. destruct b; reflexivity. }
  split; [rewrite (E _ _ U), (E _ _ V); apply rnd_le; lra|]. intros b Nb. rewrite (E _ _ U), (E _ _ V), (N b Nb). reflexivity.
Qed.
Lemma error_apart a (w1 w2 des : V3 b64) e : upto3 e w1 -> upto3 e w2 -> upto3 e des -> (0 <= e <= 1000)%Z -> apart64 a w1 w2 -> apart64 a (get_error w2 des) (get_error w1 des).
Proof.
  intros U V K He [H N].
  assert (E : forall w b, upto3 e w -> val (pr b (get_error w des)) = rnd (val (pr b des) - val (pr b w))).
  { intros w b W. assert (Q : val (pr b des - pr b w) = rnd (val (pr b des) - val (pr b w))) by (apply (x_sub e); [apply pr_up3, K|apply pr_up3, W|lia]). rewrite <- Q. destruct b; reflexivity. }
  split; [rewrite (E _ _ U), (E _ _ V); apply rnd_le; lra|]. intros b Nb. rewrite (E _ _ U), (E _ _ V), (N b Nb). reflexivity.
Qed.
Lemma loop_apart a p dt e1 e2 : pid_ok 32 72 p -> Reached p -> willing_loop64 p -> sane_step 32 dt -> upto3 72 e1 -> upto3 72 e2 -> apart64 a e1 e2 ->
  apart64 a (ps_out (pid_s (pid_compute p dt e1))) (ps_out (pid_s (pid_compute p dt e2))).
Proof.
  intros P Rp [W F] S U1 U2 [H N]. split.
  - exact (loop64 L 32 72 ltac:(lia) ltac:(lia) p dt e1 e2 a P Rp S U1 U2 (W a) F H).
  - intros b Nb. apply Rle_antisym.
    + exact (loop64 L 32 72 ltac:(lia) ltac:(lia) p dt e1 e2 b P Rp S U1 U2 (W b) F (Req_le _ _ (N b Nb))).
    + exact (loop64 L 32 72 ltac:(lia) ltac:(lia) p dt e2 e1 b P Rp S U2 U1 (W b) F (Req_le _ _ (eq_sym (N b Nb)))).
Qed.

(** ** One row *)
Lemma row_mono r t (u v : V3 b64) : upto3 32 (fst r) -> upto3 32 (snd r) -> upto 327 t -> upto3 327 u -> upto3 327 v ->
  vle (vx (snd r) * vx u) (vx (snd r) * vx v) -> vle (vy (snd r) * vy u) (vy (snd r) * vy v) -> vle (vz (snd r) * vz u) (vz (snd r) * vz v) ->
  vle (row6 r (mkV zero zero t) u) (row6 r (mkV zero zero t) v).
Proof.
  intros (A1 & A2 & A3) (B1 & B2 & B3) C (D1 & D2 & D3) (E1 & E2 & E3) H1 H2 H3. unfold row6. cbn [vx vy vz].
  assert (Z : upto 327 zero) by (apply up_zero; reflexivity).
  pose proof (up_mul L 32 327 _ _ A1 Z ltac:(lia)) as P1. pose proof (up_mul L 32 327 _ _ A2 Z ltac:(lia)) as P2. pose proof (up_mul L 32 327 _ _ A3 C ltac:(lia)) as P3.
  pose proof (up_mul L 32 327 _ _ B1 D1 ltac:(lia)) as P4. pose proof (up_mul L 32 327 _ _ B2 D2 ltac:(lia)) as P5. pose proof (up_mul L 32 327 _ _ B3 D3 ltac:(lia)) as P6.
  pose proof (up_mul L 32 327 _ _ B1 E1 ltac:(lia)) as Q4. pose proof (up_mul L 32 327 _ _ B2 E2 ltac:(lia)) as Q5. pose proof (up_mul L 32 327 _ _ B3 E3 ltac:(lia)) as Q6.
  pose proof (up_add L 359 _ _ P1 P2 ltac:(lia)) as S1. pose proof (up_add L 360 _ _ S1 (up_weak 359 360 _ ltac:(lia) P3) ltac:(lia)) as S2.
  set (s := _ + vz (fst r) * t) in *. clearbody s.
  assert (G : forall x y p q e, upto e x -> upto e y -> upto e p -> upto e q -> (0 <= e <= 1000)%Z -> vle x y -> vle p q -> vle (x + p) (y + q)).
  { intros x y p q e X Y P Q He K M. rewrite (x_add e x p X P ltac:(lia)), (x_add e y q Y Q ltac:(lia)). apply rnd_le. lra. }
  pose proof (up_add L 361 _ _ S2 (up_weak 359 361 _ ltac:(lia) P4) ltac:(lia)) as S3. pose proof (up_add L 361 _ _ S2 (up_weak 359 361 _ ltac:(lia) Q4) ltac:(lia)) as T3.
  pose proof (up_add L 362 _ _ S3 (up_weak 359 362 _ ltac:(lia) P5) ltac:(lia)) as S4. pose proof (up_add L 362 _ _ T3 (up_weak 359 362 _ ltac:(lia) Q5) ltac:(lia)) as T4.
  apply (G _ _ _ _ 363%Z); [exact S4|exact T4|exact (up_weak 359 363 _ ltac:(lia) P6)|exact (up_weak 359 363 _ ltac:(lia) Q6)|lia| |exact H3].
  apply (G _ _ _ _ 362%Z); [exact S3|exact T3|exact (up_weak 359 362 _ ltac:(lia) P5)|exact (up_weak 359 362 _ ltac:(lia) Q5)|lia| |exact H2].
  apply (G _ _ _ _ 361%Z); [exact S2|exact S2|exact (up_weak 359 361 _ ltac:(lia) P4)|exact (up_weak 359 361 _ ltac:(lia) Q4)|lia|lra|exact H1].
Qed.
Lemma row_apart a r t (u v : V3 b64) : upto3 32 (fst r) -> upto3 32 (snd r) -> upto 327 t -> upto3 327 u -> upto3 327 v -> apart64 a u v ->
  ((0 <= val (pr a (snd r)))%R -> vle (row6 r (mkV zero zero t) u) (row6 r (mkV zero zero t) v)) /\
  ((val (pr a (snd r)) <= 0)%R -> vle (row6 r (mkV zero zero t) v) (row6 r (mkV zero zero t) u)).
Proof.
  intros F S T U V [H N].
  assert (P : forall b, (b = a -> 0 <= val (pr a (snd r)))%R -> vle (pr b (snd r) * pr b u) (pr b (snd r) * pr b v)).
  { intros b K. destruct (ax_cases b a) as [E|E].
    - subst b. apply (prod_le 327 32); [apply pr_up3, S|apply pr_up3, U|apply pr_up3, V|lia|apply K; reflexivity|exact H].
    - apply Req_le, (prod_eq 327 32); [apply pr_up3, S|apply pr_up3, U|apply pr_up3, V|lia|right; exact (N b E)]. }
  assert (Q : forall b, (b = a -> val (pr a (snd r)) <= 0)%R -> vle (pr b (snd r) * pr b v) (pr b (snd r) * pr b u)).
  { intros b K. destruct (ax_cases b a) as [E|E].
    - subst b. apply (prod_ge 327 32); [apply pr_up3, S|apply pr_up3, U|apply pr_up3, V|lia|apply K; reflexivity|exact H].
    - apply Req_le, (prod_eq 327 32); [apply pr_up3, S|apply pr_up3, V|apply pr_up3, U|lia|right; exact (eq_sym (N b E))]. }
  split; intros K; apply row_mono; try assumption; [apply (P AX)|apply (P AY)|apply (P AZ)|apply (Q AX)|apply (Q AY)|apply (Q AZ)]; intros _; exact K.
Qed.
Lemma rows_brake a t (u v : V3 b64) : upto 327 t -> upto3 327 u -> upto3 327 v -> apart64 a v u -> forall rows, sane_rows rows ->
  brakes64 a rows (map (fun r => sqrtks (row6 r (mkV zero zero t) u)) rows) (map (fun r => sqrtks (row6 r (mkV zero zero t) v)) rows).
Proof.
  intros T U V H rows M. split; [apply map_length|]. split; [apply map_length|].
  intros i r x y Hr Hx Hy. rewrite nth_error_map, Hr in Hx. rewrite nth_error_map, Hr in Hy. injection Hx as <-. injection Hy as <-.
  assert (R : upto3 32 (fst r) /\ upto3 32 (snd r)) by (apply nth_error_In in Hr; unfold sane_rows in M; rewrite Forall_forall in M; exact (M r Hr)).
  destruct R as [R1 R2].
  assert (T3 : upto3 327 (mkV zero zero t)) by (split; [apply up_zero; reflexivity|split; [apply up_zero; reflexivity|exact T]]).
  assert (Xu : upto 364 (row6 r (mkV zero zero t) u)) by exact (row_up L r _ u R1 R2 T3 U). assert (Xv : upto 364 (row6 r (mkV zero zero t) v)) by exact (row_up L r _ v R1 R2 T3 V).
  destruct (row_apart a r t v u R1 R2 T V U H) as [K1 K2].
  split; intros K; [exact (root_le64 L 364 _ _ Xv Xu ltac:(lia) (K1 K))|exact (root_le64 L 364 _ _ Xu Xv ltac:(lia) (K2 K))].
Qed.

(** ** The acro call *)
Lemma damped64 n p ops a w1 w2 th des dt : trig_range L -> sane_ctl p -> Forall sane_ctl_op ops ->
  let c := ctl_run (ctl_new n p) ops in
  upto3 32 w1 -> upto3 32 w2 -> upto 32 th -> upto3 32 des -> sane_step 32 dt -> willing_loop64 (get_pid WIndi c) -> principal64 (in_inertia (ct_indi c)) -> apart64 a w1 w2 ->
  brakes64 a (in_minv (ct_indi c)) (get_desired_motor_angular_velocity (ctl_step c (CAcro w1 th des dt))) (get_desired_motor_angular_velocity (ctl_step c (CAcro w2 th des dt))).
Proof.
  intros Tr Hp Hl. cbv zeta. assert (K : forall l c, ctl_ok c -> Forall sane_ctl_op l -> ctl_ok (fold_left ctl_step l c)).
  { induction l as [|o r IH]; intros c Hc Hf; cbn [fold_left]; [exact Hc|]. apply Forall_cons_iff in Hf as [Ho Hf]. apply IH; [apply (ctl_step_ok L); assumption|exact Hf]. }
  assert (I : indi_ok (ct_indi (ctl_run (ctl_new n p) ops))) by (exact (proj1 (proj2 (K ops _ (ctl_new_ok L n p Hp) Hl)))).
  assert (Rp : Reached (get_pid WIndi (ctl_run (ctl_new n p) ops))) by (apply (get_pid_reached n); exists p, ops; reflexivity).
  set (c := ctl_run _ _) in *. clearbody c. clear K Hl Hp.
  intros U1 U2 Ut Ud S W J Hw. destruct I as (P & Ui & M & _). change (in_pid (ct_indi c)) with (get_pid WIndi c) in P.
  assert (E1 : upto3 72 (get_error w1 des)) by (apply (up3_weak 33); [lia|]; exact (up3_sub L 32 _ _ Ud U1 ltac:(lia))).
  assert (E2 : upto3 72 (get_error w2 des)) by (apply (up3_weak 33); [lia|]; exact (up3_sub L 32 _ _ Ud U2 ltac:(lia))).
  pose proof (compute_ok L 32 72 ltac:(lia) ltac:(lia) _ dt _ P S E1) as [_ (_ & _ & _ & _ & _ & _ & O1)]. change (72 + 2 * 32 + 60)%Z with 196%Z in O1.
  pose proof (compute_ok L 32 72 ltac:(lia) ltac:(lia) _ dt _ P S E2) as [_ (_ & _ & _ & _ & _ & _ & O2)]. change (72 + 2 * 32 + 60)%Z with 196%Z in O2.
  pose proof (error_apart a w1 w2 des 32 U1 U2 Ud ltac:(lia) Hw) as He.
  pose proof (loop_apart a _ dt _ _ P Rp W S E2 E1 He) as Ho.
  pose proof (moments_apart a _ _ _ 196 Ui J O2 O1 ltac:(lia) Ho) as Hm.
  pose proof (up3_weak 32 71 _ ltac:(lia) Ud) as D. pose proof (up3_mmulv L 32 71 _ _ Ui D ltac:(lia)) as T2. pose proof (up3_cross L 71 105 _ _ D T2 ltac:(lia)) as T3.
  pose proof (up3_mmulv L 32 196 _ _ Ui O1 ltac:(lia)) as M1. pose proof (up3_mmulv L 32 196 _ _ Ui O2 ltac:(lia)) as M2.
  pose proof (up3_weak 177 230 _ ltac:(lia) T3) as T4.
  pose proof (shift_apart a _ _ _ 230 M2 M1 T4 ltac:(lia) Hm) as Hs.
  pose proof (up3_weak 231 327 _ ltac:(lia) (up3_add L 230 _ _ M1 T4 ltac:(lia))) as V1. pose proof (up3_weak 231 327 _ ltac:(lia) (up3_add L 230 _ _ M2 T4 ltac:(lia))) as V2.
  exact (rows_brake a th _ _ (up_weak 32 327 _ ltac:(lia) Ut) V1 V2 Hs (in_minv (ct_indi c)) M).
Qed.
End Damp64.
