(** Rotors that brake a rotation in double precision: a quadrotor in the middle of its flight. *)

From Coq Require Import ZArith List Bool Lia Reals Lra.
From Flocq Require Import Core BinarySingleNaN.
From Verif Require Import Scalar Float64 LinAlg MUtils MPid MControl MCtlRun SpecDyn SpecPid SpecRound SpecNumber SpecPidNum SpecCtl SpecCtlNum SpecMono SpecHigher64 SpecDamp64
  PBase PRound PUp PQuat64 PNumber ENumber ECtlNum EHigher64.
Import ListNotations.
Local Open Scope R_scope.

Section Case.
#[local] Instance FO : Ops b64 := F64Ops flat_libm.
(** Every rotor gets strictly slower or strictly faster, according to its share of the roll torque. *)
Definition braked (rows : list (V3 b64 * V3 b64)) (u v : list b64) : bool :=
  forallb (fun x => let '(r, (p, q)) := x in
    if Bltb (b64_ofZ 0) (vx (snd r)) then Bltb q p else if Bltb (vx (snd r)) (b64_ofZ 0) then Bltb p q else false) (combine rows (combine u v)).
Lemma damp64_case : trig_range flat_libm /\ sane_ctl h_ctl /\ Forall sane_ctl_op h_ops /\
  let c := ctl_run (ctl_new 4 h_ctl) h_ops in
  sane_step 32 (lit 1 10) /\ willing_loop64 (get_pid WIndi c) /\ principal64 (in_inertia (ct_indi c)) /\ apart64 AX v0 (mkV (lit 1 5) zero zero) /\
  List.length (in_minv (ct_indi c)) = 4%nat /\
  braked (in_minv (ct_indi c)) (get_desired_motor_angular_velocity (ctl_step c (CAcro v0 (ofZ 4) (mkV one zero zero) (lit 1 10))))
    (get_desired_motor_angular_velocity (ctl_step c (CAcro (mkV (lit 1 5) zero zero) (ofZ 4) (mkV one zero zero) (lit 1 10)))) = true.
Proof.
  split; [exact flat_trig|]. split; [exact h_ctl_ok|]. split; [exact h_ops_ok|]. cbv zeta.
  split; [apply kstepb_ok; vm_compute; reflexivity|].
  split; [apply loopb_ok; vm_compute; reflexivity|].
  split.
  { assert (I : in_inertia (ct_indi (ctl_run (ctl_new 4 h_ctl) h_ops)) = mkM (lit 1 100) zero zero zero (lit 1 100) zero zero zero (lit 2 100)) by reflexivity.
    rewrite I. split; [repeat split|]. cbn [m00 m11 m22]. split; [|split]; apply posb_ok; vm_compute; reflexivity. }
  split; [split; [apply Rlt_le, ltb_lt; vm_compute; reflexivity|intros []; [congruence|reflexivity|reflexivity]]|].
  split; vm_compute; reflexivity.
Qed.
End Case.
