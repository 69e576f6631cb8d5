(** Asked for more height: a vehicle that obeys and one upside down that does the opposite. *)

From Coq Require Import ZArith List Bool Lia Reals Lra.
From Verif Require Import Scalar LinAlg MUtils MModel MDynamics MPid MControl MCtlRun MImu MSim SpecDyn SpecRun SpecPid SpecCtl SpecMono SpecHigher
  PBase EBase EDyn PPid PPidR EPid PCtl PCtlR ECtl PMono PHigher PLean ELean.
Import ListNotations.
Local Open Scope R_scope.

Definition c_high : Ctl R := ctl_step c_lean CReset.
Lemma high_reached : CtlReached 4 c_high. Proof. exists cp_lean, [CReset]. reflexivity. Qed.
Lemma high_willing w : willing_loop (get_pid w c_high).
Proof.
  assert (E : get_pid w c_high = pid_reset (pid_new pp_lean)) by (destruct w; reflexivity). rewrite E, new_lean.
  intros a. unfold willing. destruct a; cbn; unR; (split; [lra|]; split; [lra|]; split; [lra|]; split; [lra|]; split; [lra|left; reflexivity]).
Qed.
Lemma high_thrust op a : uses_acc op = true -> get_desired_linear_acceleration (ctl_step c_high op) = a ->
  get_desired_thrust (ctl_step c_high op) = Rmax 0 (along_z (att_of op) (mkV (vx a) (vy a) (vz a + 10))).
Proof.
  intros U E. destruct (thrust_value c_high op U) as [-> _]. f_equal. f_equal. rewrite E. change (ct_acro c_high) with (ct_acro c_lean).
  destruct c_lean_set as (_ & -> & ->). unfold needed_force. cbn [vx vy vz]. f_equal; ring.
Qed.
Lemma along_flat s x y z : s * s = 1 -> along_z (mkM 1 0 0 0 s 0 0 0 s) (mkV x y z) = s * z.
Proof.
  intros H. unfold along_z, len3, dot3, col, ent. cbn [vx vy vz m00 m01 m02 m10 m11 m12 m20 m21 m22].
  replace (0 * 0 + 0 * 0 + s * s) with 1 by lra. rewrite sqrt_1. field.
Qed.
Lemma pos_acc dp A : get_desired_linear_acceleration (ctl_step c_high (CPos (mkV 0 0 0) A (mkV 0 0 0) (mkV 0 0 0) dp 0 (1/100))) = mkV (4 * vx dp) (4 * vy dp) (4 * vz dp).
Proof.
  destruct (pos_records c_high (mkV 0 0 0) A (mkV 0 0 0) (mkV 0 0 0) dp 0 (1/100)) as (_ & _ & Q & P & V & _).
  rewrite Q, V, P. change (get_pid WVel c_high) with (pid_reset (get_pid WVel c_lean)).
  change (get_pid WPos c_high) with (pid_reset (get_pid WPos c_lean)). rewrite !vsub_none. rewrite !out_lean_v. cbn [vx vy vz]. f_equal; ring.
Qed.
Lemma vel_acc dv A : get_desired_linear_acceleration (ctl_step c_high (CVel (mkV 0 0 0) A (mkV 0 0 0) dv 0 (1/100))) = mkV (2 * vx dv) (2 * vy dv) (2 * vz dv).
Proof.
  destruct (vel_records c_high (mkV 0 0 0) A (mkV 0 0 0) dv 0 (1/100)) as (_ & Q & _ & _ & _ & V).
  rewrite Q, V. change (get_pid WVel c_high) with (pid_reset (get_pid WVel c_lean)). rewrite !vsub_none. rewrite !out_lean_v. reflexivity.
Qed.

(** Level, asked to climb one metre and two: 14 N and 18 N. *)
Lemma high_case : CtlReached 4 c_high /\ 0 <= ac_mass (ct_acro c_high) /\ upright (mkM 1 0 0 0 1 0 0 0 1) /\ willing_loop (get_pid WPos c_high) /\ willing_loop (get_pid WVel c_high) /\ no_lower (mkV 1 0 1) (mkV 1 0 2) /\
  get_desired_thrust (ctl_step c_high (CPos (mkV 0 0 0) (mkM 1 0 0 0 1 0 0 0 1) (mkV 0 0 0) (mkV 0 0 0) (mkV 1 0 1) 0 (1/100))) = 14 /\
  get_desired_thrust (ctl_step c_high (CPos (mkV 0 0 0) (mkM 1 0 0 0 1 0 0 0 1) (mkV 0 0 0) (mkV 0 0 0) (mkV 1 0 2) 0 (1/100))) = 18.
Proof.
  split; [exact high_reached|]. split; [change (ct_acro c_high) with (ct_acro c_lean); destruct c_lean_set as (_ & -> & _); lra|].
  split; [unfold upright, ent; cbn; lra|]. split; [apply high_willing|]. split; [apply high_willing|]. split; [unfold no_lower; cbn; lra|].
  split; (erewrite high_thrust; [|reflexivity|apply pos_acc]; cbn [att_of vx vy vz]; rewrite along_flat by lra; rewrite Rmax_right; lra).
Qed.

(** Upside down, asked to fall at 15 m/s and at 10 m/s: 20 N and 10 N. *)
Lemma upside_down : exists (c : Ctl R) A v1 v2, CtlReached 4 c /\ 0 <= ac_mass (ct_acro c) /\ rotation A /\ willing_loop (get_pid WVel c) /\ no_lower v1 v2 /\
  get_desired_thrust (ctl_step c (CVel (mkV 0 0 0) A (mkV 0 0 0) v2 0 (1/100))) < get_desired_thrust (ctl_step c (CVel (mkV 0 0 0) A (mkV 0 0 0) v1 0 (1/100))).
Proof.
  exists c_high, (mkM 1 0 0 0 (-1) 0 0 0 (-1)), (mkV 0 0 (-15)), (mkV 0 0 (-10)).
  split; [exact high_reached|]. split; [change (ct_acro c_high) with (ct_acro c_lean); destruct c_lean_set as (_ & -> & _); lra|].
  split; [split; [intros [] []; unfold dot3, col, ent; cbn [vx vy vz m00 m01 m02 m10 m11 m12 m20 m21 m22]; ring|unfold det3; cbn; ring]|].
  split; [apply high_willing|]. split; [unfold no_lower; cbn; lra|].
  erewrite high_thrust; [|reflexivity|apply vel_acc]. erewrite high_thrust; [|reflexivity|apply vel_acc]. cbn [att_of vx vy vz]. rewrite !along_flat by lra. rewrite !Rmax_right by lra. lra.
Qed.

(** A simulator in position mode. *)
Definition s_high : Sim R gen1 gen1 :=
  mkSim exd c_high (imu_new imp0) (odom_new odp0) true false false 0 (refs0 4) [0;0;0;0] (mkV 0 0 0) POSITION ANGLE.
Lemma high_sim_case : CtlReached 4 (sm_ctl s_high) /\ sm_armed s_high = true /\ sm_mode s_high = POSITION /\ 0 <= ac_mass (ct_acro (sm_ctl s_high)) /\
  upright (qmat (s_ori (sim_state s_high))) /\ willing_loop (get_pid WPos (sm_ctl s_high)) /\ willing_loop (get_pid WVel (sm_ctl s_high)).
Proof.
  split; [exact high_reached|]. split; [reflexivity|]. split; [reflexivity|].
  split; [change (ct_acro (sm_ctl s_high)) with (ct_acro c_lean); destruct c_lean_set as (_ & -> & _); lra|].
  split; [|split; apply (high_willing)].
  unfold upright, ent. cbn. unR. lra.
Qed.
