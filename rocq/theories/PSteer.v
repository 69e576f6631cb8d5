(** Proofs: a demanded turn speeds up the rotors that turn the vehicle that way. *)

From Coq Require Import ZArith List Bool Lia Reals Lra.
From Verif Require Import Scalar LinAlg MUtils MModel MPid MControl MCtlRun SpecDyn SpecPid SpecCtl SpecSteer PBase PDynR PPid PPidR PCtl PCtlR PCtlMix.
Import ListNotations.
Local Open Scope R_scope.

Lemma sq_signed_lt x y : x < y -> sq_signed x < sq_signed y.
Proof.
  unfold sq_signed, Rabs. intros K. destruct (Rcase_abs x) as [X|X], (Rcase_abs y) as [Y|Y]; nra.
Qed.
Lemma sq_signed_mono x y : sq_signed x < sq_signed y <-> x < y.
Proof.
  split; [|apply sq_signed_lt]. intros K. destruct (Rtotal_order x y) as [L|[L|L]]; [exact L|subst; lra|].
  apply sq_signed_lt in L. lra.
Qed.

(** The order of the rotor speeds follows from force and torque. *)
Lemma steers4 b t (m1 m2 m3 m4 : Motor R) w1 w2 w3 w4 :
  (forall m w m' w', In (m, w) [(m1, w1); (m2, w2); (m3, w3); (m4, w4)] -> In (m', w') [(m1, w1); (m2, w2); (m3, w3); (m4, w4)] ->
    (sq_signed w < sq_signed w' <-> t * lever b m < t * lever b m')) ->
  steers b t [m1; m2; m3; m4] [w1; w2; w3; w4].
Proof.
  intros H i j mi mj wi wj A B C D. rewrite <- sq_signed_mono.
  assert (K : forall k m w, nth_error [m1; m2; m3; m4] k = Some m -> nth_error [w1; w2; w3; w4] k = Some w -> In (m, w) [(m1, w1); (m2, w2); (m3, w3); (m4, w4)]).
  { intros k m w X Y. do 4 (destruct k as [|k]; [cbn in X, Y; injection X as <-; injection Y as <-; cbn; tauto|]). cbn in X. destruct k; discriminate X. }
  apply H; [exact (K i mi wi A C)|exact (K j mj wj B D)].
Qed.
Ltac four H := cbn [In] in H; destruct H as [H|[H|[H|[H|[]]]]]; injection H as <- <-.

Lemma order_x kf kt x y mn mx tau J (w : list R) b t :
  0 < kf -> 0 < kt -> 0 < x -> 0 < y -> length w = 4%nat ->
  (forall a, rotor_torque (quad_x kf kt x y mn mx tau J) w [0; 0; 0; 0] a = pr a (along b t)) ->
  steers b t (quad_x kf kt x y mn mx tau J) w.
Proof.
  intros Hkf Hkt Hx Hy Hl Htq.
  destruct w as [|w1 [|w2 [|w3 [|w4 [|w5 w]]]]]; try discriminate Hl. clear Hl.
  pose proof (Htq AX) as TX. pose proof (Htq AY) as TY. pose proof (Htq AZ) as TZ. clear Htq.
  apply steers4. unfold rotor_torque, quad_x, rotor_sum, rotor_axis, cross3 in *.
  cbn [mt_dir mt_kf mt_kt mt_rot mt_pos mt_J m02 m12 m22 mI vx vy vz pr] in *. revert TX TY TZ. change (@m02 R mI) with 0. change (@m12 R mI) with 0. change (@m22 R mI) with 1. unR. intros TX TY TZ.
  intros m v m' v' H1 H2.
  set (q1 := sq_signed w1) in *. set (q2 := sq_signed w2) in *. set (q3 := sq_signed w3) in *. set (q4 := sq_signed w4) in *.
  assert (EX : kf * y * (- q1 + q2 + q3 - q4) = pr AX (along b t)) by (cbn [pr]; rewrite <- TX; ring).
  assert (EY : kf * x * (- q1 - q2 + q3 + q4) = pr AY (along b t)) by (cbn [pr]; rewrite <- TY; ring).
  assert (EZ : kt * (q1 - q2 + q3 - q4) = pr AZ (along b t)) by (cbn [pr]; rewrite <- TZ; ring).
  clear TX TY TZ.
  assert (KX : 0 < kf * y) by (apply Rmult_lt_0_compat; assumption). assert (KY : 0 < kf * x) by (apply Rmult_lt_0_compat; assumption).
  assert (Z0 : forall k d, 0 < k -> k * d = 0 -> d = 0) by (intros k d A B; apply Rmult_integral in B as [B|B]; lra).
  assert (Zs : forall k d, 0 < k -> k * d = t -> (0 < t /\ 0 < d) \/ (t < 0 /\ d < 0) \/ (t = 0 /\ d = 0)).
  { intros k d A B. destruct (Rtotal_order t 0) as [C|[C|C]]; [right; left|right; right|left]; (split; [exact C|]); subst t; destruct (Rtotal_order d 0) as [D|[D|D]]; try assumption; exfalso; nra. }
  assert (PX : (0 < t -> 0 < t * x) /\ (t < 0 -> t * x < 0)) by (split; intros; nra).
  assert (PY : (0 < t -> 0 < t * y) /\ (t < 0 -> t * y < 0)) by (split; intros; nra).
  destruct b; cbn [along pr vx vy vz] in EX, EY, EZ.
  - apply Z0 in EY; [|exact KY]. apply Z0 in EZ; [|exact Hkt]. destruct (Zs _ _ KX EX) as [[S D]|[[S D]|[S D]]]; destruct PY as [P1 P2];
      [specialize (P1 S)|specialize (P2 S)|]; four H1; four H2; cbn [lever mt_pos vy]; unR; fold q1 q2 q3 q4; try (rewrite S, !Rmult_0_l); split; intros; lra.
  - apply Z0 in EX; [|exact KX]. apply Z0 in EZ; [|exact Hkt]. destruct (Zs _ _ KY EY) as [[S D]|[[S D]|[S D]]]; destruct PX as [P1 P2];
      [specialize (P1 S)|specialize (P2 S)|]; four H1; four H2; cbn [lever mt_pos vx]; unR; fold q1 q2 q3 q4; try (rewrite S, !Rmult_0_l); split; intros; lra.
  - apply Z0 in EX; [|exact KX]. apply Z0 in EY; [|exact KY]. destruct (Zs _ _ Hkt EZ) as [[S D]|[[S D]|[S D]]];
      four H1; four H2; cbn [lever mt_dir]; fold q1 q2 q3 q4; try (rewrite S, !Rmult_0_l); split; intros; lra.
Qed.

Lemma order_plus kf kt x y mn mx tau J (w : list R) b t :
  0 < kf -> 0 < kt -> 0 < x -> 0 < y -> length w = 4%nat ->
  (forall a, rotor_torque (quad_plus kf kt x y mn mx tau J) w [0; 0; 0; 0] a = pr a (along b t)) ->
  steers b t (quad_plus kf kt x y mn mx tau J) w.
Proof.
  intros Hkf Hkt Hx Hy Hl Htq.
  destruct w as [|w1 [|w2 [|w3 [|w4 [|w5 w]]]]]; try discriminate Hl. clear Hl.
  pose proof (Htq AX) as TX. pose proof (Htq AY) as TY. pose proof (Htq AZ) as TZ. clear Htq.
  apply steers4. unfold rotor_torque, quad_plus, rotor_sum, rotor_axis, cross3 in *.
  cbn [mt_dir mt_kf mt_kt mt_rot mt_pos mt_J m02 m12 m22 mI vx vy vz pr] in *. revert TX TY TZ. change (@m02 R mI) with 0. change (@m12 R mI) with 0. change (@m22 R mI) with 1. unR. intros TX TY TZ.
  intros m v m' v' H1 H2.
  set (q1 := sq_signed w1) in *. set (q2 := sq_signed w2) in *. set (q3 := sq_signed w3) in *. set (q4 := sq_signed w4) in *.
  assert (EX : kf * y * (q2 - q4) = pr AX (along b t)) by (cbn [pr]; rewrite <- TX; ring).
  assert (EY : kf * x * (q3 - q1) = pr AY (along b t)) by (cbn [pr]; rewrite <- TY; ring).
  assert (EZ : kt * (q1 - q2 + q3 - q4) = pr AZ (along b t)) by (cbn [pr]; rewrite <- TZ; ring).
  clear TX TY TZ.
  assert (KX : 0 < kf * y) by (apply Rmult_lt_0_compat; assumption). assert (KY : 0 < kf * x) by (apply Rmult_lt_0_compat; assumption).
  assert (Z0 : forall k d, 0 < k -> k * d = 0 -> d = 0) by (intros k d A B; apply Rmult_integral in B as [B|B]; lra).
  assert (Zs : forall k d, 0 < k -> k * d = t -> (0 < t /\ 0 < d) \/ (t < 0 /\ d < 0) \/ (t = 0 /\ d = 0)).
  { intros k d A B. destruct (Rtotal_order t 0) as [C|[C|C]]; [right; left|right; right|left]; (split; [exact C|]); subst t; destruct (Rtotal_order d 0) as [D|[D|D]]; try assumption; exfalso; nra. }
  assert (PX : (0 < t -> 0 < t * x) /\ (t < 0 -> t * x < 0)) by (split; intros; nra).
  assert (PY : (0 < t -> 0 < t * y) /\ (t < 0 -> t * y < 0)) by (split; intros; nra).
  destruct b; cbn [along pr vx vy vz] in EX, EY, EZ.
  - apply Z0 in EY; [|exact KY]. apply Z0 in EZ; [|exact Hkt]. destruct (Zs _ _ KX EX) as [[S D]|[[S D]|[S D]]]; destruct PY as [P1 P2];
      [specialize (P1 S)|specialize (P2 S)|]; four H1; four H2; cbn [lever mt_pos vy]; unR; fold q1 q2 q3 q4; try (rewrite S, !Rmult_0_l); split; intros; lra.
  - apply Z0 in EX; [|exact KX]. apply Z0 in EZ; [|exact Hkt]. destruct (Zs _ _ KY EY) as [[S D]|[[S D]|[S D]]]; destruct PX as [P1 P2];
      [specialize (P1 S)|specialize (P2 S)|]; four H1; four H2; cbn [lever mt_pos vx]; unR; fold q1 q2 q3 q4; try (rewrite S, !Rmult_0_l); split; intros; lra.
  - apply Z0 in EX; [|exact KX]. apply Z0 in EY; [|exact KY]. destruct (Zs _ _ Hkt EZ) as [[S D]|[[S D]|[S D]]];
      four H1; four H2; cbn [lever mt_dir]; fold q1 q2 q3 q4; try (rewrite S, !Rmult_0_l); split; intros; lra.
Qed.

(** The torque demanded by the first call after a reset. *)
Lemma first_sign sat kp ki aw up lo e dt wd : 0 < kp -> 0 <= ki -> 0 <= aw -> 0 < dt -> (sat = true -> lo < 0 < up) ->
  (0 < e -> 0 < first_value sat kp ki aw up lo e dt wd) /\ (e < 0 -> first_value sat kp ki aw up lo e dt wd < 0).
Proof.
  intros Hp Hi Ha Hd Hs. unfold first_value. cbv zeta.
  set (i := if wd then limited (e * dt) (- aw) aw else e * dt).
  assert (I1 : 0 < e -> 0 <= i).
  { intros E. assert (0 < e * dt) by (apply Rmult_lt_0_compat; assumption). unfold i, limited. destruct wd; [|lra].
    apply Rle_trans with (Rmin (e * dt) aw); [apply Rmin_glb; lra|apply Rmax_r]. }
  assert (I2 : e < 0 -> i <= 0).
  { intros E. assert (e * dt < 0) by nra. unfold i, limited. destruct wd; [|lra].
    apply Rmax_lub; [lra|]. apply Rle_trans with (e * dt); [apply Rmin_l|lra]. }
  split; intros E.
  - assert (0 < kp * e) by (apply Rmult_lt_0_compat; assumption). assert (0 <= ki * i) by (apply Rmult_le_pos; auto).
    destruct sat; [|lra]. destruct (Hs eq_refl) as [L U]. unfold limited. apply Rlt_le_trans with (Rmin (kp * e + ki * i) up); [apply Rmin_glb_lt; lra|apply Rmax_r].
  - specialize (I2 E). assert (kp * e < 0) by nra. assert (ki * i <= 0) by nra.
    destruct sat; [|lra]. destruct (Hs eq_refl) as [L U]. unfold limited. apply Rmax_lub_lt; [lra|]. apply Rle_lt_trans with (kp * e + ki * i); [apply Rmin_l|lra].
Qed.
Lemma first_zero sat kp ki aw up lo dt wd : 0 <= aw -> (sat = true -> lo < 0 < up) -> first_value sat kp ki aw up lo 0 dt wd = 0.
Proof.
  intros Ha Hs. unfold first_value. cbv zeta.
  assert (I : (if wd then limited (0 * dt) (- aw) aw else 0 * dt) = 0).
  { destruct wd; [|ring]. unfold limited. rewrite Rmult_0_l, Rmin_left, Rmax_right by lra. reflexivity. }
  rewrite I. replace (kp * 0 + ki * 0) with 0 by ring. destruct sat; [|reflexivity]. destruct (Hs eq_refl). unfold limited. rewrite Rmin_left, Rmax_right by lra. reflexivity.
Qed.

Lemma pr_along b s a : pr a (along b s) = if match a, b with AX, AX | AY, AY | AZ, AZ => true | _, _ => false end then s else 0.
Proof. destruct a, b; reflexivity. Qed.

Lemma steer_torque n (c0 : Ctl R) b th s dt jx jy jz :
  CtlReached n c0 -> reacts b (get_pid WIndi c0) -> in_inertia (ct_indi c0) = mkM jx 0 0 0 jy 0 0 0 jz -> 0 < jx -> 0 < jy -> 0 < jz ->
  0 < dt ->
  let c := ctl_step c0 CReset in let c' := ctl_step c (CAcro v0 th (along b s) dt) in
  exists t, (forall a, euler_torque (in_inertia (ct_indi c)) (pid_output (get_pid WIndi c')) (get_desired_angular_velocity c') a = pr a (along b t)) /\
    (0 < s -> 0 < t) /\ (s < 0 -> t < 0) /\ (s = 0 -> t = 0).
Proof.
  intros Hr (Ha & Hp & Hkp & Hki & Hs) HJ X1 X2 X3 Hdt. cbv zeta.
  pose proof (get_pid_reached n c0 WIndi Hr) as Rp.
  assert (F : forall a, pr a (pid_output (get_pid WIndi (ctl_step (ctl_step c0 CReset) (CAcro v0 th (along b s) dt)))) =
    first_value (pid_sat_on (get_pid WIndi c0)) (pr a (pid_kp (get_pid WIndi c0))) (pr a (pid_ki (get_pid WIndi c0))) (pr a (pid_aw (get_pid WIndi c0)))
      (pr a (fst (pid_limits (get_pid WIndi c0)))) (pr a (snd (pid_limits (get_pid WIndi c0)))) (pr a (along b s)) dt (negb (veqb (pid_aw (get_pid WIndi c0)) v0))).
  { intros a. destruct (first_call (get_pid WIndi c0) dt (get_error v0 (along b s)) a Rp Ha Hp) as [_ E].
    assert (G : pr a (get_error v0 (along b s)) = pr a (along b s)) by (unfold get_error; rewrite PDynR.pr_vsub; destruct a; cbn; unR; ring).
    rewrite G in E. exact E. }
  set (o := pid_output (get_pid WIndi (ctl_step (ctl_step c0 CReset) (CAcro v0 th (along b s) dt)))) in *.
  assert (O1 : forall a, a <> b -> pr a o = 0).
  { intros a Hab. rewrite F, pr_along. replace (match a, b with AX, AX | AY, AY | AZ, AZ => true | _, _ => false end) with false by (destruct a, b; congruence).
    apply first_zero; [apply Ha|intros E; apply Hs, E]. }
  assert (O2 : (0 < s -> 0 < pr b o) /\ (s < 0 -> pr b o < 0)).
  { rewrite F, pr_along. replace (match b, b with AX, AX | AY, AY | AZ, AZ => true | _, _ => false end) with true by (destruct b; reflexivity).
    apply first_sign; [exact Hkp|exact Hki|apply Ha|exact Hdt|intros E; apply Hs, E]. }
  assert (O4 : s = 0 -> pr b o = 0).
  { intros Z. rewrite F, Z. replace (pr b (along b 0)) with 0 by (destruct b; reflexivity). apply first_zero; [apply Ha|intros E; apply Hs, E]. }
  exists (match b with AX => jx | AY => jy | AZ => jz end * pr b o). split.
  - intros a. change (get_desired_angular_velocity (ctl_step (ctl_step c0 CReset) (CAcro v0 th (along b s) dt))) with (along b s).
    change (in_inertia (ct_indi (ctl_step c0 CReset))) with (in_inertia (ct_indi c0)). rewrite HJ.
    assert (E : o = along b (pr b o)).
    { apply V3_ax. intros k. rewrite pr_along. destruct k, b; first [reflexivity|apply O1; discriminate]. }
    rewrite E. clear. destruct b; destruct a; unfold euler_torque, mat_vec, cross3, vec_of; cbn; ring.
  - destruct O2 as [O2 O3]. split; [intros K; specialize (O2 K); destruct b; nra|]. split; [intros K; specialize (O3 K); destruct b; nra|].
    intros K. rewrite (O4 K). ring.
Qed.

Lemma steers_sign b s t ms w : (0 < s -> 0 < t) -> (s < 0 -> t < 0) -> (s = 0 -> t = 0) -> steers b t ms w -> steers b s ms w.
Proof.
  intros A B S H i j mi mj wi wj E1 E2 E3 E4. rewrite (H i j mi mj wi wj E1 E2 E3 E4). destruct (Rtotal_order s 0) as [C|[C|C]].
  - specialize (B C). split; intros K; nra.
  - rewrite (S C), C. reflexivity.
  - specialize (A C). split; intros K; nra.
Qed.

Theorem steer_x n kf kt x y mn mx tau J inv (c0 : Ctl R) b th s dt jx jy jz :
  0 < kf -> 0 < kt -> 0 < x -> 0 < y -> CtlReached n c0 -> reacts b (get_pid WIndi c0) ->
  in_inertia (ct_indi c0) = mkM jx 0 0 0 jy 0 0 0 jz -> 0 < jx -> 0 < jy -> 0 < jz ->
  quad_inverse (quad_x kf kt x y mn mx tau J) = Some inv -> in_minv (ct_indi c0) = inv -> 0 < dt ->
  steers b s (quad_x kf kt x y mn mx tau J) (get_desired_motor_angular_velocity (ctl_step (ctl_step c0 CReset) (CAcro v0 th (along b s) dt))).
Proof.
  intros A1 A2 A3 A4 Hr Hg HJ X1 X2 X3 Hi Hm Hdt.
  destruct (steer_torque n c0 b th s dt jx jy jz Hr Hg HJ X1 X2 X3 Hdt) as (t & T1 & T2 & T3 & T4).
  destruct (allocation_x kf kt x y mn mx tau J inv (ctl_step c0 CReset) (CAcro v0 th (along b s) dt)) as (L & _ & Q); try assumption; try lra; try reflexivity.
  apply (steers_sign b s t); try assumption. apply order_x; try assumption.
  intros a. rewrite Q. apply T1.
Qed.
Theorem steer_plus n kf kt x y mn mx tau J inv (c0 : Ctl R) b th s dt jx jy jz :
  0 < kf -> 0 < kt -> 0 < x -> 0 < y -> CtlReached n c0 -> reacts b (get_pid WIndi c0) ->
  in_inertia (ct_indi c0) = mkM jx 0 0 0 jy 0 0 0 jz -> 0 < jx -> 0 < jy -> 0 < jz ->
  quad_inverse (quad_plus kf kt x y mn mx tau J) = Some inv -> in_minv (ct_indi c0) = inv -> 0 < dt ->
  steers b s (quad_plus kf kt x y mn mx tau J) (get_desired_motor_angular_velocity (ctl_step (ctl_step c0 CReset) (CAcro v0 th (along b s) dt))).
Proof.
  intros A1 A2 A3 A4 Hr Hg HJ X1 X2 X3 Hi Hm Hdt.
  destruct (steer_torque n c0 b th s dt jx jy jz Hr Hg HJ X1 X2 X3 Hdt) as (t & T1 & T2 & T3 & T4).
  destruct (allocation_plus kf kt x y mn mx tau J inv (ctl_step c0 CReset) (CAcro v0 th (along b s) dt)) as (L & _ & Q); try assumption; try lra; try reflexivity.
  apply (steers_sign b s t); try assumption. apply order_plus; try assumption.
  intros a. rewrite Q. apply T1.
Qed.
