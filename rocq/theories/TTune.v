(** Property theorems: control modes by hand, and retuning in flight. *)

From Coq Require Import ZArith List Bool Reals.
From Verif Require Import Scalar LinAlg MUtils MPid MPid1 MControl MCtlRun SpecPid SpecCtl SpecReset SpecTune PTune ECtl EPid ETune.
Import ListNotations.
Local Open Scope R_scope.

(** ** C81 *)
Theorem C81_modes_by_hand :
  forall {T} {O : Ops T} (c : Ctl T) op ops, is_mode op = true ->
  fst (by_hand c op) = answer c op /\ answers (snd (by_hand c op)) ops = answers (ctl_step c op) ops.
Proof. exact @modes_by_hand. Qed.
Print Assumptions C81_modes_by_hand.

Example C81_case : is_mode op_far = true /\ get_desired_position (ctl_step c_ex op_far) = r3 1 /\ get_desired_position (snd (by_hand c_ex op_far)) = v0.
Proof. exact hand_ok. Qed.

(** ** C82 *)
Theorem C82_retune :
  forall {T} {O : Ops T} (pp new : PidParams T) h ops, same_memory pp new -> forallb flies h = true ->
  returned (pid_run (pid_new pp) h) (OpUpdate new :: ops) = returned (pid_run (pid_new new) h) ops.
Proof. exact @retune. Qed.
Print Assumptions C82_retune.

Theorem C82_same_story :
  forall {T} {O : Ops T} (pp qq : PidParams T) h k new ops, story pp h = story qq k ->
  returned (pid_run (pid_new pp) h) (OpUpdate new :: ops) = returned (pid_run (pid_new qq) k) (OpUpdate new :: ops).
Proof. exact @same_story. Qed.
Print Assumptions C82_same_story.

Theorem C82_same_story_scalar :
  forall {T} {O : Ops T} (pp qq : P1Params T) h k new ops p q, story1 pp h = story1 qq k ->
  pid1_run (pid1_new pp) h = Some p -> pid1_run (pid1_new qq) k = Some q ->
  returned1 p (Op1Update new :: ops) = returned1 q (Op1Update new :: ops).
Proof. exact @same_story1. Qed.
Print Assumptions C82_same_story_scalar.

Theorem C82_retune_loop :
  forall {T} {O : Ops T} n (q : CtlParams T) w new h ops, same_memory (params_of w q) new -> forallb flies h = true ->
  answers (ctl_run (ctl_new n q) (map (CPid w) h)) (CUpdPid w new :: ops) =
  answers (ctl_run (ctl_new n (with_loop w new q)) (map (CPid w) h)) ops.
Proof. exact @retune_loop. Qed.
Print Assumptions C82_retune_loop.

(** The flight before the change is remembered. *)
Example C82_case : let h := [OpCompute 1 (vsub (r3 1) v0)] in
  same_memory pp_idle cpx_pid /\ forallb flies h = true /\ pp_idle <> cpx_pid /\
  returned (pid_run (pid_new pp_idle) h) (OpUpdate cpx_pid :: h) <> returned (pid_new cpx_pid) h.
Proof. exact tune_ok. Qed.
