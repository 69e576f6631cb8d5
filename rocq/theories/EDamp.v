(** A vehicle whose rotors brake its rotation, and a request that slows down a rotor that should help. *)

From Coq Require Import ZArith List Bool Lia Reals Lra.
From Verif Require Import Scalar LinAlg MUtils MModel MDynamics MPid MControl MCtlRun MImu MSim SpecDyn SpecRun SpecPid SpecCtl SpecMono SpecHigher SpecDamp
  PBase EBase EDyn PPid PPidR EPid PCtl PCtlR PCtlMix ECtl PMono PHigher PThrottle PDamp PLean ELean.
Import ListNotations.
Local Open Scope R_scope.

(** Gain 2, three times as hard to turn about the vertical. *)
Definition cp_damp : CtlParams R :=
  mkCP (mkAP 1 (mkM 2 0 0 0 2 0 0 0 3) (mkV 0 0 (-10))) (mkIP (mkM 1 0 0 0 1 0 0 0 3) inv_ex pp_lean) pp_lean pp_lean pp_lean.
Definition c_damp : Ctl R := ctl_step (ctl_new 4 cp_damp) CReset.
Lemma damp_reached : CtlReached 4 c_damp. Proof. exists cp_damp, [CReset]. reflexivity. Qed.
Lemma damp_willing : willing_loop (get_pid WIndi c_damp).
Proof.
  assert (E : get_pid WIndi c_damp = pid_reset (pid_new pp_lean)) by reflexivity. rewrite E, new_lean.
  intros a. unfold willing. destruct a; cbn; unR; (split; [lra|]; split; [lra|]; split; [lra|]; split; [lra|]; split; [lra|left; reflexivity]).
Qed.
Lemma damp_inertia : in_inertia (ct_indi c_damp) = mkM 1 0 0 0 1 0 0 0 3. Proof. reflexivity. Qed.
Lemma damp_principal : principal (in_inertia (ct_indi c_damp)).
Proof. exists 1, 1, 3. split; [exact damp_inertia|lra]. Qed.
Lemma damp_asked w des dt : asked c_damp w des dt =
  mkV (2 * (vx des - vx w) + 2 * vy des * vz des) (2 * (vy des - vy w) - 2 * vx des * vz des) (6 * (vz des - vz w)).
Proof.
  unfold asked. change (get_pid WIndi c_damp) with (pid_reset (get_pid WIndi c_lean)). rewrite out_lean_v, damp_inertia.
  destruct w as [wx wy wz], des as [dx dy dz]. unfold vadd, vcross, mmulv, get_error, vsub, vmap2. cbn [vx vy vz m00 m01 m02 m10 m11 m12 m20 m21 m22]. unfold vdot. cbn. unR. f_equal; ring.
Qed.
Lemma damp_inverse : quad_inverse (quad_x 1 1 1 1 0 100 (1/10) 0) = Some inv_ex /\ in_minv (ct_indi c_damp) = inv_ex.
Proof. split; reflexivity. Qed.

Lemma torque_of (m1 m2 m3 m4 : Motor R) inv (c : Ctl R) w th des dt a :
  m4det (mixer_rows4 (mixer6_col m1) (mixer6_col m2) (mixer6_col m3) (mixer6_col m4)) <> 0 -> quad_inverse [m1; m2; m3; m4] = Some inv -> in_minv (ct_indi c) = inv ->
  rotor_torque [m1; m2; m3; m4] (get_desired_motor_angular_velocity (ctl_step c (CAcro w th des dt))) [0; 0; 0; 0] a = pr a (asked c w des dt).
Proof.
  intros E Hi Hc. unfold quad_inverse in Hi. rewrite mixer_cols4 in Hi. injection Hi as <-. rewrite acro_asked, Hc.
  destruct (quad_wrench m1 m2 m3 m4 th (asked c w des dt) _ E eq_refl) as (_ & _ & T). apply T.
Qed.
Lemma command_of (m1 m2 m3 m4 : Motor R) inv (c : Ctl R) w th des dt : quad_inverse [m1; m2; m3; m4] = Some inv -> in_minv (ct_indi c) = inv ->
  let t := asked c w des dt in
  nth_error (get_desired_motor_angular_velocity (ctl_step c (CAcro w th des dt))) 2 =
  Some (sqrtks (v4c (m4app (m4inv (mixer_rows4 (mixer6_col m1) (mixer6_col m2) (mixer6_col m3) (mixer6_col m4))) (mkV4 th (vx t) (vy t) (vz t))))).
Proof.
  intros Hi Hc. unfold quad_inverse in Hi. rewrite mixer_cols4 in Hi. injection Hi as <-. cbv zeta. rewrite acro_asked, Hc, squares_quad. reflexivity.
Qed.
Lemma damp_torque w th des dt a :
  rotor_torque (quad_x 1 1 1 1 0 100 (1/10) 0) (get_desired_motor_angular_velocity (ctl_step c_damp (CAcro w th des dt))) [0; 0; 0; 0] a = pr a (asked c_damp w des dt).
Proof.
  destruct damp_inverse as [Hi Hc]. revert Hi Hc. generalize inv_ex. intros inv Hi Hc.
  destruct (ready_made _ 1 1 1 1 0 100 (1/10) 0 ltac:(lra) ltac:(lra) ltac:(lra) ltac:(lra) (or_introl eq_refl)) as (m1 & m2 & m3 & m4 & Q & S & E).
  rewrite Q in Hi. rewrite Q. exact (torque_of m1 m2 m3 m4 inv c_damp w th des dt a E Hi Hc).
Qed.

Lemma damp_case : CtlReached 4 c_damp /\ quad_inverse (quad_x 1 1 1 1 0 100 (1/10) 0) = Some inv_ex /\ in_minv (ct_indi c_damp) = inv_ex /\
  willing_loop (get_pid WIndi c_damp) /\ principal (in_inertia (ct_indi c_damp)) /\ apart AX (mkV 0 0 0) (mkV 1 0 0) /\
  rotor_torque (quad_x 1 1 1 1 0 100 (1/10) 0) (get_desired_motor_angular_velocity (ctl_step c_damp (CAcro (mkV 0 0 0) 40 (mkV 2 0 1) (1/100)))) [0; 0; 0; 0] AX = 4 /\
  rotor_torque (quad_x 1 1 1 1 0 100 (1/10) 0) (get_desired_motor_angular_velocity (ctl_step c_damp (CAcro (mkV 1 0 0) 40 (mkV 2 0 1) (1/100)))) [0; 0; 0; 0] AX = 2.
Proof.
  split; [exact damp_reached|]. split; [apply damp_inverse|]. split; [apply damp_inverse|]. split; [exact damp_willing|]. split; [exact damp_principal|].
  split; [split; [cbn; lra|intros []; cbn; congruence]|].
  rewrite !damp_torque, !damp_asked. cbn [pr vx vy vz]. lra.
Qed.

(** Asked to roll faster while it turns about the vertical, the vehicle needs a
    pitching torque that outweighs the roll for the third rotor. *)
Lemma root_below x y : x < y -> sqrtks x < sqrtks y.
Proof. intros H. apply sq_lt. rewrite !sq_root. exact H. Qed.
Lemma helper_slows : exists (c : Ctl R) ms inv w th des1 des2 dt i m u v, CtlReached 4 c /\ ms = quad_x 1 1 1 1 0 100 (1/10) 0 /\
  quad_inverse ms = Some inv /\ in_minv (ct_indi c) = inv /\ willing_loop (get_pid WIndi c) /\ principal (in_inertia (ct_indi c)) /\ 0 < dt /\ apart AX des1 des2 /\
  nth_error ms i = Some m /\ 0 < turns AX m /\
  nth_error (get_desired_motor_angular_velocity (ctl_step c (CAcro w th des1 dt))) i = Some u /\
  nth_error (get_desired_motor_angular_velocity (ctl_step c (CAcro w th des2 dt))) i = Some v /\ v < u.
Proof.
  destruct damp_inverse as [Hi Hc].
  pose proof (det_x 1 1 1 1 0 100 (1/10) 0 ltac:(lra) ltac:(lra) ltac:(lra) ltac:(lra)) as E.
  assert (K : exists m1 m2 m3 m4, quad_x 1 1 1 1 0 100 (1/10) 0 = [m1; m2; m3; m4] /\
    (turns AX m1 = -1 /\ turns AX m2 = 1 /\ turns AX m3 = 1 /\ turns AX m4 = -1) /\ (turns AY m1 = -1 /\ turns AY m2 = -1 /\ turns AY m3 = 1 /\ turns AY m4 = 1) /\
    (turns AZ m1 = 1 /\ turns AZ m2 = -1 /\ turns AZ m3 = 1 /\ turns AZ m4 = -1) /\ (lifts m1 = 1 /\ lifts m2 = 1 /\ lifts m3 = 1 /\ lifts m4 = 1)).
  { unfold quad_x. cbv zeta. eexists; eexists; eexists; eexists. split; [reflexivity|]. rewrite !turns_eq. unfold lifts, rotor_axis, cross3. cbn. unR. repeat split; lra. }
  destruct K as (m1 & m2 & m3 & m4 & Q & (X1 & X2 & X3 & X4) & (Y1 & Y2 & Y3 & Y4) & (Z1 & Z2 & Z3 & Z4) & L1 & L2 & L3 & L4).
  rewrite Q in E. pose proof Hi as Hi'. rewrite Q in Hi'.
  pose proof (command_of m1 m2 m3 m4 inv_ex c_damp (mkV 0 0 0) 40 (mkV 0 0 2) (1/100) Hi' Hc) as U. pose proof (command_of m1 m2 m3 m4 inv_ex c_damp (mkV 0 0 0) 40 (mkV 1 0 2) (1/100) Hi' Hc) as V. cbv zeta in U, V.
  set (t1 := asked c_damp (mkV 0 0 0) (mkV 0 0 2) (1/100)) in *. set (t2 := asked c_damp (mkV 0 0 0) (mkV 1 0 2) (1/100)) in *.
  assert (D : vx t2 - vx t1 = 2 /\ vy t2 - vy t1 = -4 /\ vz t2 - vz t1 = 0) by (unfold t1, t2; rewrite !damp_asked; cbn [vx vy vz]; lra). destruct D as (D1 & D2 & D3).
  destruct (app_diff _ (1/2) (3/2) (-1/2) (-3/2) 40 (vx t1) (vy t1) (vz t1) 40 (vx t2) (vy t2) (vz t2) E) as (_ & _ & C & _).
  { rewrite mix_app. cbv zeta. rewrite X1, X2, X3, X4, Y1, Y2, Y3, Y4, Z1, Z2, Z3, Z4, L1, L2, L3, L4, D1, D2, D3. f_equal; lra. }
  exists c_damp, (quad_x 1 1 1 1 0 100 (1/10) 0), inv_ex, (mkV 0 0 0), 40, (mkV 0 0 2), (mkV 1 0 2), (1/100), 2%nat, m3. eexists. eexists.
  split; [exact damp_reached|]. split; [reflexivity|]. split; [exact Hi|]. split; [exact Hc|]. split; [exact damp_willing|]. split; [exact damp_principal|]. split; [lra|].
  split; [split; [cbn; lra|intros []; cbn; congruence]|]. split; [rewrite Q; reflexivity|]. split; [rewrite X3; lra|].
  split; [exact U|]. split; [exact V|]. apply root_below. cbv zeta in C. lra.
Qed.

(** A simulator in acro mode. *)
Definition s_damp : Sim R gen1 gen1 :=
  mkSim exd c_damp (imu_new imp0) (odom_new odp0) true false false 0 (refs0 4) [0;0;0;0] (mkV 0 0 0) ACRO ANGLE.
Lemma damp_sim_case : CtlReached 4 (sm_ctl s_damp) /\ sm_armed s_damp = true /\ sm_mode s_damp = ACRO /\
  rotor_torque (quad_x 1 1 1 1 0 100 (1/10) 0) (sm_act (update_controller 4 (set_ref_acro s_damp 40 (mkV 1 0 1)) (1/100))) [0; 0; 0; 0] AX = 0 /\
  rotor_torque (quad_x 1 1 1 1 0 100 (1/10) 0) (sm_act (update_controller 4 (set_ref_acro s_damp 40 (mkV 2 0 1)) (1/100))) [0; 0; 0; 0] AX = 2.
Proof.
  split; [exact damp_reached|]. split; [reflexivity|]. split; [reflexivity|]. rewrite !sim_acts by reflexivity.
  change (sm_ctl s_damp) with c_damp. rewrite !damp_torque, !damp_asked. cbn. unR. lra.
Qed.
