(** A concrete vehicle that is steered. *)

From Coq Require Import ZArith List Bool Reals Lra.
From Verif Require Import Scalar LinAlg MUtils MModel MPid MControl MCtlRun SpecDyn SpecPid SpecCtl SpecSteer PBase PPid PSteer ECtl EPid.
Import ListNotations.
Local Open Scope R_scope.

Lemma c_ex_reacts b : reacts b (get_pid WIndi c_ex).
Proof.
  assert (E : get_pid WIndi c_ex = mkPid (mkPC (vdiagm (r3 1)) (vdiagm (r3 1)) (vdiagm (r3 1)) v0 v1 false false false v0 v0) ps0).
  { apply (new_cfg_off cpx_pid); intros a; destruct a; reflexivity. }
  rewrite E. unfold reacts. cbn [pid_aw pid_c pc_aw]. split; [intros a; destruct a; cbn; lra|]. split; [reflexivity|].
  split; [destruct b; cbn; lra|]. split; [destruct b; cbn; lra|]. intros K. discriminate K.
Qed.
(** The rotors 1 and 2 of the X layout are on the left; a roll to the right speeds them up. *)
Lemma steer_ok dt : 0 < dt ->
  let w := get_desired_motor_angular_velocity (ctl_step (ctl_step c_ex CReset) (CAcro v0 4 (along AX 2) dt)) in
  exists w0 w1 w2 w3, w = [w0; w1; w2; w3] /\ w0 < w1 /\ w3 < w2 /\ ~ w0 < w3 /\ ~ w3 < w0.
Proof.
  intros Hdt. cbv zeta. destruct c_ex_inverse as [I1 I2].
  pose proof (steer_x 4 1 1 1 1 0 100 (1/10) 0 inv_ex c_ex AX 4 2 dt 1 1 1 ltac:(lra) ltac:(lra) ltac:(lra) ltac:(lra) c_ex_reached (c_ex_reacts AX) eq_refl
    ltac:(lra) ltac:(lra) ltac:(lra) I1 I2 Hdt) as S.
  set (w := get_desired_motor_angular_velocity _) in *.
  assert (L : List.length w = 4%nat).
  { unfold w. cbn [ctl_step ctl_acro get_desired_motor_angular_velocity ct_dmotor acro_to_motor in_motor ctl_reset ct_indi indi_reset in_minv]. rewrite map_length. reflexivity. }
  destruct w as [|w0 [|w1 [|w2 [|w3 [|w4 l]]]]]; try discriminate L. exists w0, w1, w2, w3. split; [reflexivity|].
  split; [apply (S 0%nat 1%nat _ _ w0 w1 eq_refl eq_refl eq_refl eq_refl); cbn; lra|].
  split; [apply (S 3%nat 2%nat _ _ w3 w2 eq_refl eq_refl eq_refl eq_refl); cbn; lra|].
  split; intros K.
  - apply (S 0%nat 3%nat _ _ w0 w3 eq_refl eq_refl eq_refl eq_refl) in K. cbn in K. lra.
  - apply (S 3%nat 0%nat _ _ w3 w0 eq_refl eq_refl eq_refl eq_refl) in K. cbn in K. lra.
Qed.
