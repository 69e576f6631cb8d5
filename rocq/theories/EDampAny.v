(** A vehicle with six rotors that brakes its roll. *)

From Coq Require Import ZArith List Bool Lia Reals Lra.
From Verif Require Import Scalar LinAlg MUtils MModel MDynamics MPid MControl MCtlRun SpecDyn SpecRun SpecPid SpecCtl SpecMono SpecHigher SpecDamp SpecDampAny
  PBase EBase PPid PPidR EPid PCtl PCtlR PCtlMix ECtl PMix PDamp PLean ELean.
Import ListNotations.
Local Open Scope R_scope.

Definition six_rows : list (V3 R * V3 R) :=
  [(mkV 0 0 1, mkV 0 (-1) 1); (mkV 0 0 1, mkV 1 (-1) (-1)); (mkV 0 0 1, mkV 1 1 1); (mkV 0 0 1, mkV 0 1 (-1)); (mkV 0 0 1, mkV (-1) 1 1); (mkV 0 0 1, mkV (-1) (-1) (-1))].
Definition cp_six : CtlParams R :=
  mkCP (mkAP 1 (mkM 2 0 0 0 2 0 0 0 3) (mkV 0 0 (-10))) (mkIP (mkM 1 0 0 0 1 0 0 0 3) six_rows pp_lean) pp_lean pp_lean pp_lean.
Definition c_six : Ctl R := ctl_step (ctl_new 6 cp_six) CReset.
Lemma six_asked w dt : asked c_six (mkV w 0 0) (mkV 1 0 0) dt = mkV (2 * (1 - w)) 0 0.
Proof.
  unfold asked. change (get_pid WIndi c_six) with (pid_reset (get_pid WIndi c_lean)). rewrite out_lean_v.
  change (in_inertia (ct_indi c_six)) with (mkM 1 0 0 0 1 0 0 0 3).
  unfold vadd, vcross, mmulv, get_error, vsub, vmap2. cbn. unR. f_equal; ring.
Qed.
Lemma six_case : CtlReached 6 c_six /\ willing_loop (get_pid WIndi c_six) /\ principal (in_inertia (ct_indi c_six)) /\ apart AX (mkV 0 0 0) (mkV 2 0 0) /\
  List.length (in_minv (ct_indi c_six)) = 6%nat /\
  nth_error (get_desired_motor_angular_velocity (ctl_step c_six (CAcro (mkV 0 0 0) 2 (mkV 1 0 0) (1/100)))) 1 = Some 2 /\
  nth_error (get_desired_motor_angular_velocity (ctl_step c_six (CAcro (mkV 2 0 0) 2 (mkV 1 0 0) (1/100)))) 1 = Some 0.
Proof.
  split; [exists cp_six, [CReset]; reflexivity|].
  split.
  { assert (E : get_pid WIndi c_six = pid_reset (pid_new pp_lean)) by reflexivity. rewrite E, new_lean.
    intros a. unfold willing. destruct a; cbn; unR; (split; [lra|]; split; [lra|]; split; [lra|]; split; [lra|]; split; [lra|left; reflexivity]). }
  split; [exists 1, 1, 3; split; [reflexivity|lra]|]. split; [split; [cbn; lra|intros []; cbn; congruence]|]. split; [reflexivity|].
  rewrite !acro_asked, !six_asked. change (in_minv (ct_indi c_six)) with six_rows. unfold six_rows. cbn [map nth_error].
  split; f_equal; unfold row6; cbn [vx vy vz fst snd]; unR; rewrite sqrtks_R.
  - replace (0 * 0 + 0 * 0 + 1 * 2 + 1 * (2 * (1 - 0)) + -1 * 0 + -1 * 0) with (2 * 2) by ring. destruct (Rle_dec 0 (2 * 2)); [apply sqrt_square; lra|lra].
  - replace (0 * 0 + 0 * 0 + 1 * 2 + 1 * (2 * (1 - 2)) + -1 * 0 + -1 * 0) with 0 by ring. destruct (Rle_dec 0 0); [apply sqrt_0|lra].
Qed.
