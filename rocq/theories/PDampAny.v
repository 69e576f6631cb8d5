(** The faster the vehicle is found to turn, the less its rotors push it that way: any allocation. *)

From Coq Require Import ZArith List Bool Lia Reals Lra Psatz.
From Verif Require Import Scalar LinAlg MUtils MModel MDynamics MPid MControl MCtlRun MImu MSim SpecDyn SpecRun SpecPid SpecCtl SpecMono SpecHigher SpecDamp SpecDampAny
  PBase PPid PPidR PCtl PCtlR PMono PThrottle PDamp.
Import ListNotations.
Local Open Scope R_scope.

Lemma row_diff a (r : V3 R * V3 R) th (u v : V3 R) : (forall b, b <> a -> pr b u = pr b v) ->
  row6 r (mkV zero zero th) v - row6 r (mkV zero zero th) u = pr a (snd r) * (pr a v - pr a u).
Proof.
  intros N. pose proof (N AX) as X. pose proof (N AY) as Y. pose proof (N AZ) as Z. unfold row6. cbn [vx vy vz]. unR.
  destruct a; cbn [pr] in *; [rewrite (Y ltac:(discriminate)), (Z ltac:(discriminate))|rewrite (X ltac:(discriminate)), (Z ltac:(discriminate))|rewrite (X ltac:(discriminate)), (Y ltac:(discriminate))]; ring.
Qed.
Lemma down_le (p q k x y : R) : q - p = k * (y - x) -> y <= x -> 0 <= k -> q <= p.
Proof. intros D H K. pose proof (Rmult_le_compat_l k y x K H). lra. Qed.
Lemma up_le (p q k x y : R) : q - p = k * (y - x) -> y <= x -> k <= 0 -> p <= q.
Proof. intros D H K. pose proof (Rmult_le_compat_neg_l k y x K H). lra. Qed.
Lemma damped_any n (c : Ctl R) a w1 w2 th des dt : CtlReached n c ->
  willing_loop (get_pid WIndi c) -> principal (in_inertia (ct_indi c)) -> 0 < dt -> apart a w1 w2 ->
  brakes_by a (in_minv (ct_indi c)) (get_desired_motor_angular_velocity (ctl_step c (CAcro w1 th des dt))) (get_desired_motor_angular_velocity (ctl_step c (CAcro w2 th des dt))).
Proof.
  intros Rc W I Hd Hw. rewrite !acro_asked. destruct (asked_measured n c a w1 w2 des dt Rc W I Hd Hw) as [H N].
  set (u := asked c w1 des dt) in *. set (v := asked c w2 des dt) in *. clearbody u v.
  split; [apply map_length|]. split; [apply map_length|].
  intros i r x y Hr Hx Hy. rewrite nth_error_map, Hr in Hx. rewrite nth_error_map, Hr in Hy. injection Hx as <-. injection Hy as <-.
  pose proof (row_diff a r th u v N) as D. split; intros K; apply root_le; [exact (down_le _ _ _ _ _ D H K)|exact (up_le _ _ _ _ _ D H K)].
Qed.
Lemma damped_any_sim {G H : Gen R} n (s1 s2 : Sim R G H) a th des dt : CtlReached n (sm_ctl s1) -> sm_ctl s2 = sm_ctl s1 ->
  sm_armed s1 = true -> sm_mode s1 = ACRO -> sm_armed s2 = true -> sm_mode s2 = ACRO ->
  willing_loop (get_pid WIndi (sm_ctl s1)) -> principal (in_inertia (ct_indi (sm_ctl s1))) -> 0 < dt -> apart a (s_angvel (sim_state s1)) (s_angvel (sim_state s2)) ->
  brakes_by a (in_minv (ct_indi (sm_ctl s1))) (sm_act (update_controller n (set_ref_acro s1 th des) dt)) (sm_act (update_controller n (set_ref_acro s2 th des) dt)).
Proof. intros Rc E A1 M1 A2 M2 W I D Hw. rewrite !sim_acts, E by assumption. apply (damped_any n); assumption. Qed.
