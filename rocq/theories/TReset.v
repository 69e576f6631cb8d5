(** Property theorems: resetting the flight controller. *)

From Coq Require Import ZArith List Bool Reals.
From Verif Require Import Scalar LinAlg MUtils MPid MControl MCtlRun SpecPid SpecCtl SpecReset PReset EReset ECtl EPid.
Import ListNotations.
Local Open Scope R_scope.

(** ** C80 *)
Theorem C80_reset_forgets :
  forall {T} {O : Ops T} n (c1 c2 : Ctl T) ops, CtlReached n c1 -> CtlReached n c2 -> alike c1 c2 ->
  answers c1 (CReset :: ops) = answers c2 (CReset :: ops).
Proof. exact @reset_forgets_flight. Qed.
Print Assumptions C80_reset_forgets.

Theorem C80_like_new :
  forall {T} {O : Ops T} n (c : Ctl T) p ops, CtlReached n c -> alike c (ctl_new n p) ->
  answers c (CReset :: ops) = answers (ctl_new n p) ops.
Proof. exact @reset_like_new. Qed.
Print Assumptions C80_like_new.

(** A controller that has flown, set up like a new one, whose next answer differs unless it is reset. *)
Example C80_case : CtlReached 4 flown /\ alike flown (ctl_new 4 cp_ex) /\
  let op := CConvVel v0 (r3 1) 1 in answers flown [op] <> answers (ctl_new 4 cp_ex) [op] /\ answers flown [CReset; op] = answers (ctl_new 4 cp_ex) [op].
Proof. exact flown_ok. Qed.
