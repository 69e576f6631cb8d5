(** Concrete controllers retuned in flight. *)

From Coq Require Import ZArith List Bool Reals Lra.
From Verif Require Import Scalar LinAlg MUtils MPid MPid1 MControl MCtlRun SpecDyn SpecPid SpecCtl SpecReset SpecTune PBase PPid PReset PTune ECtl EPid EReset.
Import ListNotations.
Local Open Scope R_scope.

(** Built without gains, flown, then given the gains of [cpx_pid]. *)
Definition pp_idle : PidParams R := mkPP v0 v0 v0 v0 v1 false false v0 v0.
Lemma tune_ok : let h := [OpCompute 1 (vsub (r3 1) v0)] in
  same_memory pp_idle cpx_pid /\ forallb flies h = true /\ pp_idle <> cpx_pid /\
  returned (pid_run (pid_new pp_idle) h) (OpUpdate cpx_pid :: h) <> returned (pid_new cpx_pid) h.
Proof.
  cbv zeta. split; [repeat split|]. split; [reflexivity|]. split.
  - intros K. apply (f_equal (fun p => vx (pp_kp p))) in K. cbn in K. lra.
  - rewrite retune by (try reflexivity; repeat split). intros K.
    exact (sums_differ (f_equal (fun l => match l with [v] => v | _ => v0 end) K)).
Qed.

(** By hand, the set points are not recorded; nothing else differs. *)
Definition op_far : CtlOp R := CPos v0 mI v0 v0 (r3 1) 0 1.
Lemma pos_recorded {T} {O : Ops T} (c : Ctl T) cp R cv cw dp yaw dt : get_desired_position (ctl_step c (CPos cp R cv cw dp yaw dt)) = dp.
Proof.
  cbn [ctl_step]. unfold ctl_pos, ctl_vel. cbv zeta. unfold ctl_acc. destruct (acc_to_acro _ _ R yaw) as [a [th w]]. reflexivity.
Qed.
Lemma pos_not_recorded {T} {O : Ops T} (c : Ctl T) cp R cv cw dp yaw dt : get_desired_position (snd (by_hand c (CPos cp R cv cw dp yaw dt))) = ct_dpos c.
Proof.
  cbn [by_hand]. unfold hand_pos, vec_answer, answer. unfold hand_vel, vec_answer, answer. unfold hand_acc, answer. destruct (snd (acc_to_acro _ _ R yaw)) as [th w]. reflexivity.
Qed.
Lemma hand_ok : is_mode op_far = true /\ get_desired_position (ctl_step c_ex op_far) = r3 1 /\ get_desired_position (snd (by_hand c_ex op_far)) = v0.
Proof. split; [reflexivity|]. split; [apply pos_recorded|unfold op_far; rewrite pos_not_recorded; reflexivity]. Qed.
