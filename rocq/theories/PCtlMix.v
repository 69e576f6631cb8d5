(** Rotor allocation and hover over the reals. *)

From Coq Require Import ZArith List Bool Lia Reals Lra Psatz.
From Verif Require Import Scalar LinAlg MUtils MModel MPid MControl MCtlRun SpecDyn SpecRun SpecPid SpecCtl
  PBase PDyn PModel PDynR PPhys PMix PPid PPidR PCtl PCtlR.
Import ListNotations.
Local Open Scope R_scope.

(** ** 4x4 inverse *)
Lemma m4_cof (a b c d : V4 R) :
  let c0 := m4cof b c d in let c1 := v4neg (m4cof a c d) in
  let c2 := m4cof a b d in let c3 := v4neg (m4cof a b c) in
  let D := v4dot a c0 in
  (v4dot a c1 = 0 /\ v4dot a c2 = 0 /\ v4dot a c3 = 0) /\
  (v4dot b c0 = 0 /\ v4dot b c1 = D /\ v4dot b c2 = 0 /\ v4dot b c3 = 0) /\
  (v4dot c c0 = 0 /\ v4dot c c1 = 0 /\ v4dot c c2 = D /\ v4dot c c3 = 0) /\
  (v4dot d c0 = 0 /\ v4dot d c1 = 0 /\ v4dot d c2 = 0 /\ v4dot d c3 = D).
Proof.
  destruct a as [a0 a1 a2 a3], b as [b0 b1 b2 b3], c as [e0 e1 e2 e3], d as [d0 d1 d2 d3]. cbv zeta.
  unfold v4dot, v4neg, m4cof, mdet. cbn [v4a v4b v4c v4d m00 m01 m02 m10 m11 m12 m20 m21 m22]. unR.
  repeat match goal with |- _ /\ _ => split end; ring.
Qed.

Lemma m4_cof_l (a b c d : V4 R) (f g : V4 R -> R) :
  In f [v4a; v4b; v4c; v4d] -> In g [v4a; v4b; v4c; v4d] ->
  let c0 := m4cof b c d in let c1 := v4neg (m4cof a c d) in
  let c2 := m4cof a b d in let c3 := v4neg (m4cof a b c) in
  f c0 * g a + f c1 * g b + f c2 * g c + f c3 * g d =
  f (mkV4 (g (mkV4 1 0 0 0)) (g (mkV4 0 1 0 0)) (g (mkV4 0 0 1 0)) (g (mkV4 0 0 0 1))) * v4dot a c0.
Proof.
  destruct a as [a0 a1 a2 a3], b as [b0 b1 b2 b3], c as [e0 e1 e2 e3], d as [d0 d1 d2 d3]. cbv zeta.
  intros [<-|[<-|[<-|[<-|[]]]]] [<-|[<-|[<-|[<-|[]]]]];
  unfold v4dot, v4neg, m4cof, mdet; cbn [v4a v4b v4c v4d m00 m01 m02 m10 m11 m12 m20 m21 m22]; unR; ring.
Qed.

Definition m4app (m : M4 R) (v : V4 R) : V4 R :=
  mkV4 (v4dot (r4a m) v) (v4dot (r4b m) v) (v4dot (r4c m) v) (v4dot (r4d m) v).

Lemma m4_right (m : M4 R) v : m4det m <> 0 -> m4app m (m4app (m4inv m) v) = v.
Proof.
  intros Hd. destruct m as [a b c d]. unfold m4det in Hd. cbn [r4a r4b r4c r4d] in Hd.
  pose proof (m4_cof a b c d) as H. cbv zeta in H.
  unfold m4inv, m4app. cbv zeta. cbn [r4a r4b r4c r4d].
  set (c0 := m4cof b c d) in *. set (c1 := v4neg (m4cof a c d)) in *. set (c2 := m4cof a b d) in *. set (c3 := v4neg (m4cof a b c)) in *.
  set (D := v4dot a c0) in *.
  destruct H as ((A1 & A2 & A3) & (B0 & B1 & B2 & B3) & (C0 & C1 & C2 & C3) & (D0 & D1 & D2 & D3)).
  assert (G : forall r, v4dot r
     (mkV4 (v4dot (mkV4 (div (v4a c0) D) (div (v4a c1) D) (div (v4a c2) D) (div (v4a c3) D)) v)
           (v4dot (mkV4 (div (v4b c0) D) (div (v4b c1) D) (div (v4b c2) D) (div (v4b c3) D)) v)
           (v4dot (mkV4 (div (v4c c0) D) (div (v4c c1) D) (div (v4c c2) D) (div (v4c c3) D)) v)
           (v4dot (mkV4 (div (v4d c0) D) (div (v4d c1) D) (div (v4d c2) D) (div (v4d c3) D)) v)) =
     (v4dot r c0 * v4a v + v4dot r c1 * v4b v + v4dot r c2 * v4c v + v4dot r c3 * v4d v) / D).
  { intros r. clearbody c0 c1 c2 c3 D. unfold v4dot. cbn [v4a v4b v4c v4d]. unR. field. exact Hd. }
  rewrite !G. fold D. rewrite A1, A2, A3, B0, B1, B2, B3, C0, C1, C2, C3, D0, D1, D2, D3.
  destruct v as [v0 v1 v2 v3]. cbn [v4a v4b v4c v4d]. f_equal; field; exact Hd.
Qed.

Lemma m4_left (m : M4 R) v : m4det m <> 0 -> m4app (m4inv m) (m4app m v) = v.
Proof.
  intros Hd. destruct m as [a b c d]. unfold m4det in Hd. cbn [r4a r4b r4c r4d] in Hd.
  pose proof (m4_cof_l a b c d) as H. cbv zeta in H.
  unfold m4inv, m4app. cbv zeta. cbn [r4a r4b r4c r4d].
  set (c0 := m4cof b c d) in *. set (c1 := v4neg (m4cof a c d)) in *. set (c2 := m4cof a b d) in *. set (c3 := v4neg (m4cof a b c)) in *.
  set (D := v4dot a c0) in *.
  assert (G : forall f, In f [v4a; v4b; v4c; v4d] ->
     v4dot (mkV4 (div (f c0) D) (div (f c1) D) (div (f c2) D) (div (f c3) D))
           (mkV4 (v4dot a v) (v4dot b v) (v4dot c v) (v4dot d v)) =
     ((f c0 * v4a a + f c1 * v4a b + f c2 * v4a c + f c3 * v4a d) * v4a v +
      (f c0 * v4b a + f c1 * v4b b + f c2 * v4b c + f c3 * v4b d) * v4b v +
      (f c0 * v4c a + f c1 * v4c b + f c2 * v4c c + f c3 * v4c d) * v4c v +
      (f c0 * v4d a + f c1 * v4d b + f c2 * v4d c + f c3 * v4d d) * v4d v) / D).
  { intros f Hf. clear Hf H. clearbody c0 c1 c2 c3 D. unfold v4dot. cbn [v4a v4b v4c v4d]. unR. field. exact Hd. }
  assert (I1 : In (@v4a R) [v4a; v4b; v4c; v4d]) by (cbn; tauto).
  assert (I2 : In (@v4b R) [v4a; v4b; v4c; v4d]) by (cbn; tauto).
  assert (I3 : In (@v4c R) [v4a; v4b; v4c; v4d]) by (cbn; tauto).
  assert (I4 : In (@v4d R) [v4a; v4b; v4c; v4d]) by (cbn; tauto).
  rewrite (G v4a I1), (G v4b I2), (G v4c I3), (G v4d I4).
  rewrite !H by assumption. fold D. destruct v as [v0 v1 v2 v3]. cbn [v4a v4b v4c v4d]. f_equal; field; exact Hd.
Qed.

(** ** Allocation for four rotors *)
Definition col4 (f : V3 R * V3 R) : V4 R := mkV4 (vz (fst f)) (vx (snd f)) (vy (snd f)) (vz (snd f)).

Lemma row6_quad (r : V4 R) th (tq : V3 R) :
  row6 (mkV zero zero (v4a r), mkV (v4b r) (v4c r) (v4d r)) (mkV zero zero th) tq = v4dot r (mkV4 th (vx tq) (vy tq) (vz tq)).
Proof. unfold row6, v4dot. cbn. ring. Qed.

Lemma squares_quad (a b c d : V3 R * V3 R) th tq :
  let m := mixer_rows4 a b c d in
  let u := m4app (m4inv m) (mkV4 th (vx tq) (vy tq) (vz tq)) in
  map (fun r => sqrtks (row6 r (mkV zero zero th) tq)) (quad_mixer_inverse a b c d) =
  [sqrtks (v4a u); sqrtks (v4b u); sqrtks (v4c u); sqrtks (v4d u)].
Proof. cbv zeta. unfold quad_mixer_inverse. cbv zeta. cbn [map]. rewrite !row6_quad. reflexivity. Qed.

Lemma sq_root x : sq_signed (sqrtks x) = x.
Proof. rewrite <- sqks_R. apply sqks_sqrtks. Qed.

Lemma quad_wrench (m1 m2 m3 m4 : Motor R) th tq (w : list R) :
  let a := mixer6_col m1 in let b := mixer6_col m2 in let c := mixer6_col m3 in let d := mixer6_col m4 in
  m4det (mixer_rows4 a b c d) <> 0 ->
  w = map (fun r => sqrtks (row6 r (mkV zero zero th) tq)) (quad_mixer_inverse a b c d) ->
  length w = 4%nat /\ rotor_force [m1; m2; m3; m4] w AZ = th /\
  forall ax, rotor_torque [m1; m2; m3; m4] w [0; 0; 0; 0] ax = pr ax tq.
Proof.
  cbv zeta. intros Hd Hw. rewrite squares_quad in Hw.
  set (m := mixer_rows4 _ _ _ _) in *. set (u := m4app (m4inv m) _) in *.
  pose proof (m4_right m (mkV4 th (vx tq) (vy tq) (vz tq)) Hd) as E. fold u in E.
  assert (F1 : v4dot (r4a m) u = th) by apply (f_equal v4a E).
  assert (F2 : v4dot (r4b m) u = vx tq) by apply (f_equal v4b E).
  assert (F3 : v4dot (r4c m) u = vy tq) by apply (f_equal v4c E).
  assert (F4 : v4dot (r4d m) u = vz tq) by apply (f_equal v4d E). clear E.
  subst w. split; [reflexivity|].
  unfold m, mixer_rows4, v4dot in F1, F2, F3, F4. cbn [r4a r4b r4c r4d v4a v4b v4c v4d] in F1, F2, F3, F4.
  change (vz (fst (mixer6_col ?k))) with (pr AZ (fst (mixer6_col k))) in F1.
  change (vx (snd (mixer6_col ?k))) with (pr AX (snd (mixer6_col k))) in F2.
  change (vy (snd (mixer6_col ?k))) with (pr AY (snd (mixer6_col k))) in F3.
  change (vz (snd (mixer6_col ?k))) with (pr AZ (snd (mixer6_col k))) in F4.
  rewrite !mixer6_force in F1. rewrite !mixer6_torque in F2, F3, F4. unR.
  split.
  - unfold rotor_force. cbn [rotor_sum]. rewrite !sq_root, <- F1. ring.
  - intros ax. unfold rotor_torque. cbn [rotor_sum]. rewrite !sq_root.
    destruct ax; [change (pr AX tq) with (vx tq); rewrite <- F2|change (pr AY tq) with (vy tq); rewrite <- F3|change (pr AZ tq) with (vz tq); rewrite <- F4]; ring.
Qed.

(** The inverse mixer recovers equal squares from a pure thrust. *)
Lemma quad_even (m1 m2 m3 m4 : Motor R) th s :
  let a := mixer6_col m1 in let b := mixer6_col m2 in let c := mixer6_col m3 in let d := mixer6_col m4 in
  m4det (mixer_rows4 a b c d) <> 0 -> 0 <= s ->
  rotor_force [m1; m2; m3; m4] [s; s; s; s] AZ = th ->
  (forall ax, rotor_torque [m1; m2; m3; m4] [s; s; s; s] [0; 0; 0; 0] ax = 0) ->
  map (fun r => sqrtks (row6 r (mkV zero zero th) (mkV 0 0 0))) (quad_mixer_inverse a b c d) = [s; s; s; s].
Proof.
  cbv zeta. intros Hd Hs Hf Ht. rewrite squares_quad. set (m := mixer_rows4 _ _ _ _) in *.
  pose proof (m4_left m (mkV4 (s * s) (s * s) (s * s) (s * s)) Hd) as E.
  assert (M : m4app m (mkV4 (s * s) (s * s) (s * s) (s * s)) = mkV4 th 0 0 0).
  { unfold m4app, m, mixer_rows4, v4dot. cbn [r4a r4b r4c r4d v4a v4b v4c v4d].
    change (vz (fst (mixer6_col ?k))) with (pr AZ (fst (mixer6_col k))).
    change (vx (snd (mixer6_col ?k))) with (pr AX (snd (mixer6_col k))).
    change (vy (snd (mixer6_col ?k))) with (pr AY (snd (mixer6_col k))).
    change (vz (snd (mixer6_col ?k))) with (pr AZ (snd (mixer6_col k))).
    rewrite !mixer6_force, !mixer6_torque. unR. rewrite <- (sq_signed_pos s Hs).
    pose proof (Ht AX) as T1. pose proof (Ht AY) as T2. pose proof (Ht AZ) as T3.
    unfold rotor_force in Hf. unfold rotor_torque in T1, T2, T3. cbn [rotor_sum] in Hf, T1, T2, T3.
    f_equal; [rewrite <- Hf|rewrite <- T1|rewrite <- T2|rewrite <- T3]; ring. }
  cbn [vx vy vz]. rewrite M in E. rewrite E. cbn [v4a v4b v4c v4d].
  assert (Q : sqrtks (s * s) = s).
  { rewrite sqrtks_R. destruct (Rle_dec 0 (s * s)) as [H|H]; [apply sqrt_square; exact Hs|nra]. }
  rewrite Q. reflexivity.
Qed.

Lemma flat_col d kf kt px py mn mx tau J :
  mixer6_col (mkMotor d kf kt mI (mkV px py 0) mn mx tau J) =
  (mkV 0 0 kf, mkV (kf * py) (- kf * px) (IZR d * kt)).
Proof.
  assert (F := fun a => mixer6_force a (mkMotor d kf kt mI (mkV px py 0) mn mx tau J)).
  assert (G := fun a => mixer6_torque a (mkMotor d kf kt mI (mkV px py 0) mn mx tau J)).
  destruct (mixer6_col _) as [f t]. cbn [fst snd] in F, G. f_equal; apply V3_ax; intros a; [rewrite F|rewrite G];
  unfold rotor_axis, cross3; destruct a; cbn; ring.
Qed.
Ltac det_solve := unfold m4det, mixer_rows4, m4cof, v4dot, mdet;
  cbn [r4a r4b r4c r4d v4a v4b v4c v4d fst snd vx vy vz m00 m01 m02 m10 m11 m12 m20 m21 m22]; unR.

(** Columns of the mixer as compute_mixer_matrix_6D returns them. *)
Lemma mixer_cols4 (m1 m2 m3 m4 : Motor R) :
  compute_mixer_6D 4 [m1; m2; m3; m4] = Some [mixer6_col m1; mixer6_col m2; mixer6_col m3; mixer6_col m4].
Proof. reflexivity. Qed.

Lemma det_x kf kt x y mn mx tau J : kf <> 0 -> kt <> 0 -> x <> 0 -> y <> 0 ->
  match quad_x kf kt x y mn mx tau J with
  | [m1; m2; m3; m4] => m4det (mixer_rows4 (mixer6_col m1) (mixer6_col m2) (mixer6_col m3) (mixer6_col m4)) <> 0
  | _ => False end.
Proof.
  intros A B C D. unfold quad_x. cbv zeta.
  match goal with |- ?d <> 0 => replace d with (-16 * (kf * kf * kf) * kt * x * y) end.
  - repeat apply Rmult_integral_contrapositive_currified; try assumption; lra.
  - unR. rewrite !flat_col. det_solve. ring.
Qed.
Lemma det_plus kf kt x y mn mx tau J : kf <> 0 -> kt <> 0 -> x <> 0 -> y <> 0 ->
  match quad_plus kf kt x y mn mx tau J with
  | [m1; m2; m3; m4] => m4det (mixer_rows4 (mixer6_col m1) (mixer6_col m2) (mixer6_col m3) (mixer6_col m4)) <> 0
  | _ => False end.
Proof.
  intros A B C D. unfold quad_plus. cbv zeta.
  match goal with |- ?d <> 0 => assert (E : exists k, k <> 0 /\ d = k * (kf * kf * kf) * kt * x * y) end.
  - exists (-8). split; [lra|]. unR. rewrite !flat_col. det_solve. ring.
  - destruct E as (k & Hk & ->). repeat apply Rmult_integral_contrapositive_currified; assumption.
Qed.

(** ** C34 *)
Lemma motors_commanded (c : Ctl R) op : commands_motors op = true ->
  let c' := ctl_step c op in
  get_desired_motor_angular_velocity c' =
    map (fun r => sqrtks (row6 r (mkV 0 0 (get_desired_thrust c')) (in_torque (ct_indi c')))) (in_minv (ct_indi c)) /\
  forall a, pr a (in_torque (ct_indi c')) =
    euler_torque (in_inertia (ct_indi c)) (pid_output (get_pid WIndi c')) (get_desired_angular_velocity c') a.
Proof.
  intros H. cbv zeta.
  assert (E : exists cw dt, let c' := ctl_step c op in
    ct_indi c' = acro_to_motor (ct_indi c) cw (get_desired_thrust c') (get_desired_angular_velocity c') dt /\
    get_desired_motor_angular_velocity c' = in_motor (ct_indi c')).
  { unfold commands_motors in H. apply orb_prop in H as [H|H]; [apply acc_op_indi, H|].
    destruct op; try discriminate H. exists cur, dt. cbv zeta. split; reflexivity. }
  destruct E as (cw & dt & E1 & E2). rewrite E2. unfold get_pid. rewrite E1. unfold acro_to_motor. cbv zeta.
  cbn [in_motor in_torque in_pid]. split; [reflexivity|].
  intros a. rewrite PDynR.pr_vadd, pr_mmulv, pr_vcross. reflexivity.
Qed.

Lemma flat_force (ms : list (Motor R)) : forall w, (forall m, In m ms -> mt_rot m = mI) ->
  rotor_force ms w AX = 0 /\ rotor_force ms w AY = 0.
Proof.
  unfold rotor_force. induction ms as [|m ms IH]; intros w H; [split; reflexivity|].
  destruct w as [|x w]; [split; reflexivity|]. cbn [rotor_sum].
  destruct (IH w (fun k Hk => H k (or_intror Hk))) as [-> ->].
  unfold rotor_axis. rewrite (H m (or_introl eq_refl)). cbn. unR. split; ring.
Qed.

Lemma allocation_general (m1 m2 m3 m4 : Motor R) inv (c : Ctl R) op :
  (forall m, In m [m1; m2; m3; m4] -> mt_rot m = mI) ->
  m4det (mixer_rows4 (mixer6_col m1) (mixer6_col m2) (mixer6_col m3) (mixer6_col m4)) <> 0 ->
  quad_inverse [m1; m2; m3; m4] = Some inv -> in_minv (ct_indi c) = inv -> commands_motors op = true ->
  let c' := ctl_step c op in let w := get_desired_motor_angular_velocity c' in
  length w = 4%nat /\
  (forall a, rotor_force [m1; m2; m3; m4] w a = match a with AZ => get_desired_thrust c' | _ => 0 end) /\
  forall a, rotor_torque [m1; m2; m3; m4] w [0; 0; 0; 0] a =
    euler_torque (in_inertia (ct_indi c)) (pid_output (get_pid WIndi c')) (get_desired_angular_velocity c') a.
Proof.
  intros Hrot Hd Hi Hc Hop. cbv zeta. destruct (motors_commanded c op Hop) as [Hw Ht].
  unfold quad_inverse in Hi. rewrite mixer_cols4 in Hi. injection Hi as <-. rewrite Hc in Hw.
  destruct (quad_wrench m1 m2 m3 m4 _ _ _ Hd Hw) as (A & B & C).
  destruct (flat_force [m1; m2; m3; m4] (get_desired_motor_angular_velocity (ctl_step c op)) Hrot) as [X Y].
  split; [exact A|]. split; [intros []; assumption|]. intros a. rewrite C. apply Ht.
Qed.

Lemma allocation_x kf kt x y mn mx tau J inv (c : Ctl R) op :
  kf <> 0 -> kt <> 0 -> x <> 0 -> y <> 0 ->
  quad_inverse (quad_x kf kt x y mn mx tau J) = Some inv -> in_minv (ct_indi c) = inv -> commands_motors op = true ->
  let c' := ctl_step c op in let w := get_desired_motor_angular_velocity c' in
  length w = 4%nat /\
  (forall a, rotor_force (quad_x kf kt x y mn mx tau J) w a = match a with AZ => get_desired_thrust c' | _ => 0 end) /\
  forall a, rotor_torque (quad_x kf kt x y mn mx tau J) w [0; 0; 0; 0] a =
    euler_torque (in_inertia (ct_indi c)) (pid_output (get_pid WIndi c')) (get_desired_angular_velocity c') a.
Proof.
  intros A B C D. unfold quad_x. cbv zeta. intros Hi Hc Hop.
  refine (allocation_general _ _ _ _ inv c op _ _ Hi Hc Hop).
  - intros m Hm. cbn [In] in Hm. destruct Hm as [<-|[<-|[<-|[<-|[]]]]]; reflexivity.
  - apply (det_x kf kt x y mn mx tau J A B C D).
Qed.
Lemma allocation_plus kf kt x y mn mx tau J inv (c : Ctl R) op :
  kf <> 0 -> kt <> 0 -> x <> 0 -> y <> 0 ->
  quad_inverse (quad_plus kf kt x y mn mx tau J) = Some inv -> in_minv (ct_indi c) = inv -> commands_motors op = true ->
  let c' := ctl_step c op in let w := get_desired_motor_angular_velocity c' in
  length w = 4%nat /\
  (forall a, rotor_force (quad_plus kf kt x y mn mx tau J) w a = match a with AZ => get_desired_thrust c' | _ => 0 end) /\
  forall a, rotor_torque (quad_plus kf kt x y mn mx tau J) w [0; 0; 0; 0] a =
    euler_torque (in_inertia (ct_indi c)) (pid_output (get_pid WIndi c')) (get_desired_angular_velocity c') a.
Proof.
  intros A B C D. unfold quad_plus. cbv zeta. intros Hi Hc Hop.
  refine (allocation_general _ _ _ _ inv c op _ _ Hi Hc Hop).
  - intros m Hm. cbn [In] in Hm. destruct Hm as [<-|[<-|[<-|[<-|[]]]]]; reflexivity.
  - apply (det_plus kf kt x y mn mx tau J A B C D).
Qed.

(** The same through the interface of the vehicle model. *)
Lemma allocation_api {G : Gen R} (mo : ModelObj R G) p (w : list R) th tq :
  ModelReach 4 mo -> get_params mo = Some p -> length (p_motors p) = 4%nat -> length w = 4%nat ->
  (forall a, rotor_force (p_motors p) w a = match a with AZ => th | _ => 0 end) ->
  (forall a, rotor_torque (p_motors p) w [0; 0; 0; 0] a = tq a) ->
  get_force_by_motors mo w = Some (mkV 0 0 th) /\ get_thrust_by_motors mo w = Some th /\
  get_torque_by_motors mo w [0; 0; 0; 0] = Some (vec_of tq).
Proof.
  intros Hr Hp Hn Hw Hf Ht. split; [|split].
  - rewrite (api_force 4 mo p w Hr Hp Hn Hw). f_equal. unfold vec_of. rewrite !Hf. reflexivity.
  - rewrite (api_thrust 4 mo p w Hr Hp Hn Hw), Hf. reflexivity.
  - rewrite (api_torque 4 mo p w [0;0;0;0] Hr Hp Hn Hw eq_refl). f_equal. unfold vec_of. rewrite !Ht. reflexivity.
Qed.

(** ** C35 *)
Lemma sat1_zero u l : l <= 0 <= u -> sat1 0 u l = 0.
Proof. intros H. unfold sat1. unR. unfold Rltb. destruct (Rlt_dec u 0); [lra|]. destruct (Rlt_dec 0 l); [lra|reflexivity]. Qed.
Lemma saturate_zero up lo f : around_zero up lo -> saturate (mkV 0 0 0) up lo f = mkV 0 0 0.
Proof.
  intros H. destruct f.
  - apply psat_identity. intros a. specialize (H a). destruct a; cbn; exact H.
  - unfold saturate. cbn [negb vx vy vz]. rewrite !sat1_zero by first [exact (H AX)|exact (H AY)|exact (H AZ)]. reflexivity.
Qed.

Lemma mmulv_0 (m : M3 R) : mmulv m (mkV 0 0 0) = mkV 0 0 0.
Proof. apply V3_ax. intros a. rewrite pr_mmulv. unfold mat_vec. destruct a; cbn; ring. Qed.
Lemma acc_rest c dt : (forall a, 0 <= pr a (pc_aw c)) -> pid_acc c (mkV 0 0 0) dt (mkV 0 0 0) = mkV 0 0 0.
Proof.
  intros H. unfold pid_acc. cbv zeta. cbn [vx vy vz]. rewrite !rst1_zero.
  assert (E : vadd (mkV 0 0 0) (vscaler (mkV 0 0 0) dt) = mkV 0 0 0) by (unV; f_equal; ring).
  rewrite E. destruct (negb _); [|reflexivity]. apply saturate_zero. intros a. specialize (H a).
  rewrite PPidR.pr_vscale. unR. lra.
Qed.
Lemma out_rest c : (pc_sflag c = true -> around_zero (pc_up c) (pc_lo c)) -> pid_out c (mkV 0 0 0) (mkV 0 0 0) (mkV 0 0 0) = mkV 0 0 0.
Proof.
  intros H. unfold pid_out. cbv zeta.
  assert (E : vadd (vadd (mkV 0 0 0) (mkV 0 0 0)) (mkV 0 0 0) = mkV 0 0 0) by (unV; f_equal; ring).
  rewrite E. destruct (pc_sflag c); [|reflexivity]. apply saturate_zero, H. reflexivity.
Qed.
Lemma filt_rest c s dt : ps_perr s = mkV 0 0 0 -> ps_filt s = mkV 0 0 0 -> pid_filt c s dt (mkV 0 0 0) = mkV 0 0 0.
Proof. intros A B. unfold pid_filt. cbv zeta. rewrite A, B. unV. unfold Rdiv. f_equal; ring. Qed.

(** No memory: about to start over, or nothing accumulated. *)
Lemma calm_reset p : calm (pid_reset p). Proof. left. reflexivity. Qed.
Lemma calm_init s : ps_first s = true \/ ps_acc s = mkV 0 0 0 /\ ps_filt s = mkV 0 0 0 /\ ps_perr s = mkV 0 0 0 ->
  let t := ps_init s (mkV 0 0 0) in ps_acc t = mkV 0 0 0 /\ ps_filt t = mkV 0 0 0 /\ ps_perr t = mkV 0 0 0.
Proof. cbv zeta. unfold ps_init. intros [->|C]; [repeat split|]. destruct (ps_first s); [repeat split|exact C]. Qed.
Lemma pid_calm p dt : rests p -> calm p -> pid_output (pid_step p (OpCompute dt (mkV 0 0 0))) = mkV 0 0 0 /\
  calm (pid_step p (OpCompute dt (mkV 0 0 0))).
Proof.
  intros [Hs Ha] Hc. destruct p as [c s]. destruct (calm_init s Hc) as (A & B & C).
  unfold calm, pid_output. cbn [pid_step]. unfold pid_compute. cbv zeta.
  cbn [pid_c pid_s ps_out ps_first ps_acc ps_filt ps_perr]. rewrite A, acc_rest by exact Ha. rewrite filt_rest by assumption.
  rewrite !mmulv_0. split; [apply out_rest, Hs|right; repeat split].
Qed.
Lemma pid_calm_d p dt : rests p -> calm p -> pid_output (pid_step p (OpComputeD dt (mkV 0 0 0) (mkV 0 0 0))) = mkV 0 0 0 /\
  calm (pid_step p (OpComputeD dt (mkV 0 0 0) (mkV 0 0 0))).
Proof.
  intros [Hs Ha] Hc. destruct p as [c s]. destruct (calm_init s Hc) as (A & B & C).
  unfold calm, pid_output. cbn [pid_step]. unfold pid_compute_d. cbv zeta.
  cbn [pid_c pid_s ps_out ps_first ps_acc ps_filt ps_perr]. rewrite A, B, acc_rest by exact Ha.
  rewrite !mmulv_0. split; [apply out_rest, Hs|right; repeat split].
Qed.
Lemma rests_step p dt e : rests p -> rests (pid_step p (OpCompute dt e)). Proof. intros H; exact H. Qed.

Lemma vsub_self (v : V3 R) : vsub v v = mkV 0 0 0. Proof. unV. f_equal; ring. Qed.

Lemma new_ctl_reset n (p : CtlParams R) : ctl_new n p = ctl_step (ctl_new n p) CReset.
Proof. reflexivity. Qed.

(** Operations that ask a vehicle to stay where it is. *)
Lemma hold_acc (c : Ctl R) op yaw : (forall w, rests (get_pid w c)) -> (forall w, calm (get_pid w c)) -> holds_still yaw op ->
  get_desired_linear_acceleration (ctl_step c op) = mkV 0 0 0.
Proof.
  intros Hr Hc Hh. destruct op as [q1 q2 q3 q4|Am curw acc yaw0 dt|cpos cvel Am curw dpos dvel dacc yaw0 dt|cvel Am curw dvel yaw0 dt|cpos Am cvel curw dpos yaw0 dt| | | | | | | | | | | | | | | | | ]; try contradiction; cbn [holds_still] in Hh.
  - destruct Hh as (E & _). subst acc. apply acc_records.
  - destruct Hh as (-> & -> & -> & _).
    destruct (traj_records c dpos dvel Am curw dpos dvel (mkV 0 0 0) yaw0 dt) as (_ & _ & A & _ & _ & B).
    rewrite A, B, !vsub_self.
    rewrite (proj1 (pid_calm_d _ dt (Hr WTraj) (Hc WTraj))). unV. f_equal; ring.
  - destruct Hh as (-> & _).
    destruct (vel_records c dvel Am curw dvel yaw0 dt) as (_ & A & _ & _ & _ & B).
    rewrite A, B, vsub_self. apply pid_calm; [apply Hr|apply Hc].
  - destruct Hh as (-> & -> & _).
    destruct (pos_records c dpos Am (mkV 0 0 0) curw dpos yaw0 dt) as (_ & _ & A & B & C & _).
    rewrite A, C, B, vsub_self.
    rewrite (proj1 (pid_calm _ dt (Hr WPos) (Hc WPos))), vsub_self. apply pid_calm; [apply Hr|apply Hc].
Qed.

Lemma holds_uses yaw op : holds_still yaw op -> uses_acc op = true /\ att_of op = rot_z yaw /\ yaw_of op = yaw /\
  exists dt, forall c : Ctl R, ct_indi (ctl_step c op) = acro_to_motor (ct_indi c) (mkV 0 0 0) (get_desired_thrust (ctl_step c op)) (get_desired_angular_velocity (ctl_step c op)) dt.
Proof.
  destruct op as [q1 q2 q3 q4|Am curw acc yaw0 dt|cpos cvel Am curw dpos dvel dacc yaw0 dt|cvel Am curw dvel yaw0 dt|cpos Am cvel curw dpos yaw0 dt| | | | | | | | | | | | | | | | | ]; intros H; try contradiction; cbn [holds_still] in H.
  - destruct H as (-> & -> & -> & ->). repeat split. exists dt. intros c. cbn [ctl_step].
    destruct (ctl_acc_shape c (rot_z yaw) (mkV 0 0 0) (mkV 0 0 0) yaw dt) as (_ & A & B & _ & D & _).
    unfold get_desired_thrust, get_desired_angular_velocity. rewrite D, A, B. reflexivity.
  - destruct H as (-> & -> & -> & -> & -> & ->). repeat split. exists dt. intros c. cbn [ctl_step]. unfold ctl_traj.
    destruct (traj_control _ _ _ _ _ _ _) as [p' a]. set (c1 := mkCtl _ _ _ _ _ _ _ _ _ _ _).
    destruct (ctl_acc_shape c1 (rot_z yaw) (mkV 0 0 0) a yaw dt) as (_ & A & B & _ & D & _).
    unfold get_desired_thrust, get_desired_angular_velocity. rewrite D, A, B. reflexivity.
  - destruct H as (-> & -> & -> & ->). repeat split. exists dt. intros c. cbn [ctl_step]. unfold ctl_vel. cbv zeta.
    set (c1 := mkCtl _ _ _ _ _ _ _ _ _ _ _). set (a := ps_out _).
    destruct (ctl_acc_shape c1 (rot_z yaw) (mkV 0 0 0) a yaw dt) as (_ & A & B & _ & D & _).
    unfold get_desired_thrust, get_desired_angular_velocity. rewrite D, A, B. reflexivity.
  - destruct H as (-> & -> & -> & -> & ->). repeat split. exists dt. intros c. cbn [ctl_step]. unfold ctl_pos, ctl_vel. cbv zeta.
    set (c1 := mkCtl _ _ _ _ _ _ (ps_out (pid_s (pid_on_error _ _ _ _))) (ps_out _) _ _ _). set (a := ps_out (pid_s (pid_on_error _ (mkV 0 0 0) _ _))).
    destruct (ctl_acc_shape c1 (rot_z yaw) (mkV 0 0 0) a yaw dt) as (_ & A & B & _ & D & _).
    unfold get_desired_thrust, get_desired_angular_velocity. rewrite D, A, B. reflexivity.
Qed.

Lemma calm_command (c : Ctl R) op yaw m g0 :
  (forall w, rests (get_pid w c)) -> (forall w, calm (get_pid w c)) -> holds_still yaw op ->
  ac_mass (ct_acro c) = m -> ac_grav (ct_acro c) = mkV 0 0 (- g0) -> 0 < m -> 0 < g0 ->
  let c' := ctl_step c op in
  get_desired_thrust c' = m * g0 /\ get_desired_angular_velocity c' = mkV 0 0 0 /\
  in_torque (ct_indi c') = mkV 0 0 0 /\ calm (get_pid WIndi c').
Proof.
  intros Hr Hc Hh Hm Hg Pm Pg. cbv zeta.
  pose proof (hold_acc c op yaw Hr Hc Hh) as Ha.
  destruct (holds_uses yaw op Hh) as (Hu & Hatt & Hyaw & dt & Hi).
  assert (Hf : force_of c op = mkV 0 0 (m * g0)).
  { unfold force_of. rewrite Ha, Hm, Hg. unfold needed_force. cbn [vx vy vz]. f_equal; ring. }
  assert (P : 0 < m * g0) by (apply Rmult_lt_0_compat; assumption).
  pose proof (thrust_value c op Hu) as V. cbv zeta in V. fold (force_of c op) in V. rewrite Hf, Hatt in V. destruct V as [V _].
  assert (S : along_z (rot_z yaw) (mkV 0 0 (m * g0)) = m * g0).
  { unfold along_z, len3, dot3, rot_z, col, ent. cbn [vx vy vz m02 m12 m22].
    replace (0 * 0 + 0 * 0 + 1 * 1) with 1 by ring. rewrite sqrt_1. field. }
  rewrite S, Rmax_right in V by lra.
  assert (W : get_desired_angular_velocity (ctl_step c op) = mkV 0 0 0).
  { destruct (up_frame yaw (force_of c op)) as [L F]; try (rewrite Hf; cbn; lra).
    apply aligned_rates; [exact Hu|exact L|rewrite Hatt, Hyaw; exact F]. }
  split; [exact V|]. split; [exact W|]. cbn [get_pid].
  rewrite Hi, W. unfold acro_to_motor. cbv zeta. cbn [in_torque in_pid]. unfold get_error. rewrite vsub_self.
  change (pid_compute (in_pid (ct_indi c)) dt (mkV 0 0 0)) with (pid_step (get_pid WIndi c) (OpCompute dt (mkV 0 0 0))).
  change (ps_out (pid_s ?p)) with (pid_output p).
  destruct (pid_calm _ dt (Hr WIndi) (Hc WIndi)) as [E1 E2]. rewrite E1, !mmulv_0. split; [|exact E2]. unV. f_equal; ring.
Qed.

Lemma hover_command (c0 : Ctl R) op yaw m g0 :
  (forall w, rests (get_pid w c0)) -> holds_still yaw op ->
  ac_mass (ct_acro c0) = m -> ac_grav (ct_acro c0) = mkV 0 0 (- g0) -> 0 < m -> 0 < g0 ->
  let c' := ctl_step (ctl_step c0 CReset) op in
  get_desired_thrust c' = m * g0 /\ get_desired_angular_velocity c' = mkV 0 0 0 /\
  in_torque (ct_indi c') = mkV 0 0 0.
Proof.
  intros Hr Hh Hm Hg Pm Pg.
  destruct (calm_command (ctl_step c0 CReset) op yaw m g0) as (A & B & C & _); auto.
  - intros w. specialize (Hr w). destruct w; exact Hr.
  - intros w. destruct w; apply calm_reset.
Qed.

Lemma uses_commands (op : CtlOp R) : uses_acc op = true -> commands_motors op = true.
Proof. intros H. unfold commands_motors. rewrite H. reflexivity. Qed.

Lemma calm_rotors (m1 m2 m3 m4 : Motor R) inv (c : Ctl R) op yaw m g0 s :
  m4det (mixer_rows4 (mixer6_col m1) (mixer6_col m2) (mixer6_col m3) (mixer6_col m4)) <> 0 ->
  quad_inverse [m1; m2; m3; m4] = Some inv -> in_minv (ct_indi c) = inv ->
  (forall w, rests (get_pid w c)) -> (forall w, calm (get_pid w c)) -> holds_still yaw op ->
  ac_mass (ct_acro c) = m -> ac_grav (ct_acro c) = mkV 0 0 (- g0) -> 0 < m -> 0 < g0 -> 0 <= s ->
  rotor_force [m1; m2; m3; m4] [s; s; s; s] AZ = m * g0 ->
  (forall ax, rotor_torque [m1; m2; m3; m4] [s; s; s; s] [0; 0; 0; 0] ax = 0) ->
  get_desired_motor_angular_velocity (ctl_step c op) = [s; s; s; s].
Proof.
  intros Hd Hi Hc Hr Hq Hh Hm Hg Pm Pg Ps Hf Ht.
  destruct (calm_command c op yaw m g0 Hr Hq Hh Hm Hg Pm Pg) as (A & _ & B & _).
  destruct (holds_uses yaw op Hh) as (Hu & _).
  destruct (motors_commanded c op (uses_commands op Hu)) as [W _].
  rewrite W, A, B, Hc.
  unfold quad_inverse in Hi. rewrite mixer_cols4 in Hi. injection Hi as <-.
  apply (quad_even m1 m2 m3 m4 (m * g0) s Hd Ps Hf Ht).
Qed.
Lemma hover_rotors (m1 m2 m3 m4 : Motor R) inv (c0 : Ctl R) op yaw m g0 s :
  m4det (mixer_rows4 (mixer6_col m1) (mixer6_col m2) (mixer6_col m3) (mixer6_col m4)) <> 0 ->
  quad_inverse [m1; m2; m3; m4] = Some inv -> in_minv (ct_indi c0) = inv ->
  (forall w, rests (get_pid w c0)) -> holds_still yaw op ->
  ac_mass (ct_acro c0) = m -> ac_grav (ct_acro c0) = mkV 0 0 (- g0) -> 0 < m -> 0 < g0 -> 0 <= s ->
  rotor_force [m1; m2; m3; m4] [s; s; s; s] AZ = m * g0 ->
  (forall ax, rotor_torque [m1; m2; m3; m4] [s; s; s; s] [0; 0; 0; 0] ax = 0) ->
  get_desired_motor_angular_velocity (ctl_step (ctl_step c0 CReset) op) = [s; s; s; s].
Proof.
  intros Hd Hi Hc Hr. apply (calm_rotors m1 m2 m3 m4 inv (ctl_step c0 CReset)); auto.
  - intros w. specialize (Hr w). destruct w; exact Hr.
  - intros w. destruct w; apply calm_reset.
Qed.

Lemma hover_speed kf f : 0 < kf -> 0 <= f -> 4 * kf * sq_signed (sqrt (f / (4 * kf))) = f.
Proof.
  intros K F. assert (0 <= f / (4 * kf)) by (apply Rmult_le_pos; [exact F|apply Rlt_le, Rinv_0_lt_compat; lra]).
  rewrite sq_signed_pos by apply sqrt_pos. rewrite sqrt_sqrt by assumption. field. lra.
Qed.

Lemma hover_x kf kt x y mn mx tau J inv (c0 : Ctl R) op yaw m g0 :
  0 < kf -> kt <> 0 -> x <> 0 -> y <> 0 ->
  quad_inverse (quad_x kf kt x y mn mx tau J) = Some inv -> in_minv (ct_indi c0) = inv ->
  (forall w, rests (get_pid w c0)) -> holds_still yaw op ->
  ac_mass (ct_acro c0) = m -> ac_grav (ct_acro c0) = mkV 0 0 (- g0) -> 0 < m -> 0 < g0 ->
  get_desired_motor_angular_velocity (ctl_step (ctl_step c0 CReset) op) = repeat (sqrt (m * g0 / (4 * kf))) 4.
Proof.
  intros K Kt X Y Hi Hc Hr Hh Hm Hg Pm Pg.
  assert (Knz : kf <> 0) by lra.
  assert (F : 0 <= m * g0) by (apply Rlt_le, Rmult_lt_0_compat; assumption).
  refine (hover_rotors _ _ _ _ inv c0 op yaw m g0 _ (det_x kf kt x y mn mx tau J Knz Kt X Y) Hi Hc Hr Hh Hm Hg Pm Pg (sqrt_pos _) _ _).
  - pose proof (quad_x_force kf kt x y mn mx tau J (sqrt (m * g0 / (4 * kf))) AZ) as E. cbv beta iota in E.
    rewrite hover_speed in E by assumption. exact E.
  - intros ax. apply (quad_x_torque kf kt x y mn mx tau J _ 0 ax).
Qed.
Lemma hover_plus kf kt x y mn mx tau J inv (c0 : Ctl R) op yaw m g0 :
  0 < kf -> kt <> 0 -> x <> 0 -> y <> 0 ->
  quad_inverse (quad_plus kf kt x y mn mx tau J) = Some inv -> in_minv (ct_indi c0) = inv ->
  (forall w, rests (get_pid w c0)) -> holds_still yaw op ->
  ac_mass (ct_acro c0) = m -> ac_grav (ct_acro c0) = mkV 0 0 (- g0) -> 0 < m -> 0 < g0 ->
  get_desired_motor_angular_velocity (ctl_step (ctl_step c0 CReset) op) = repeat (sqrt (m * g0 / (4 * kf))) 4.
Proof.
  intros K Kt X Y Hi Hc Hr Hh Hm Hg Pm Pg.
  assert (Knz : kf <> 0) by lra.
  assert (F : 0 <= m * g0) by (apply Rlt_le, Rmult_lt_0_compat; assumption).
  refine (hover_rotors _ _ _ _ inv c0 op yaw m g0 _ (det_plus kf kt x y mn mx tau J Knz Kt X Y) Hi Hc Hr Hh Hm Hg Pm Pg (sqrt_pos _) _ _).
  - pose proof (quad_plus_force kf kt x y mn mx tau J (sqrt (m * g0 / (4 * kf))) AZ) as E. cbv beta iota in E.
    rewrite hover_speed in E by assumption. exact E.
  - intros ax. apply (quad_plus_torque kf kt x y mn mx tau J _ 0 ax).
Qed.
