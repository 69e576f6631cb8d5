(** Property theorems: while the vehicle stays within a range, everything the simulator shows is a number. *)

From Coq Require Import ZArith Bool List Reals.
From Flocq Require Import Core BinarySingleNaN.
From Verif Require Import Scalar Float64 LinAlg MUtils MModel MDynamics MControl MImu MSim SpecDyn SpecRun SpecRound SpecNumber SpecCtlNum SpecSimNum PSimNum EBase ENumber ECtlNum ESimNum.
Import ListNotations.
Local Open Scope R_scope.

(** ** C105 *)
Theorem C105_history :
  forall L, let O := F64Ops L in
  forall (G H : Gen b64) n p (s s' : Sim b64 G H) ops, reasonable_gen G -> reasonable_gen H -> trig_range L -> atan_range L -> (n <= 100)%nat ->
  sane_sim L n p -> sim_new n p = Some s -> stays_small L n s ops -> sim_run n s ops = Some s' -> all_numbers s'.
Proof. exact (fun L G H n p s s' ops Hg Hh T A Hn => history_all_numbers L Hg Hh T A n Hn p s s' ops). Qed.
Print Assumptions C105_history.

Example C105_case : let O := F64Ops flat_libm in
  trig_range flat_libm /\ atan_range flat_libm /\ reasonable_gen gen1 /\ sane_sim flat_libm 4 sk_p /\
  exists s s' : Sim b64 gen1 gen1, sim_new 4 sk_p = Some s /\ stays_small flat_libm 4 s sk_ops /\ sim_run 4 s sk_ops = Some s' /\
  Beqb (vx (od_pos (sm_odom s'))) (b64_ofZ 0) = false /\ Beqb (vz (s_pos (sim_state s'))) (b64_ofZ 1) = true /\ Beqb (vx (im_gyro (sm_imu s'))) (b64_ofZ 0) = false /\
  forallb (fun w => negb (Beqb w (b64_ofZ 0))) (ct_dmotor (sm_ctl s')) = true.
Proof. exact sk_case. Qed.

(** Without the condition on the yaw gain the claim is false: a tiny gain makes the yaw reference infinite. *)
Theorem C105_tiny_yaw_gain_refuted : let O := F64Ops flat_libm in
  exists p (s s' : Sim b64 gen1 gen1) ops, sane_ctl (sp_ctl p) /\ Bltb (b64_ofZ 0) (m22 (ap_kp (cp_acro (sp_ctl p)))) = true /\ sim_new 4 p = Some s /\ stays_small flat_libm 4 s ops /\ sim_run 4 s ops = Some s' /\ ~ all_numbers s'.
Proof. exact (ex_intro _ ty_p (match ty_case with ex_intro _ s (ex_intro _ s' C) => ex_intro _ s (ex_intro _ s' (ex_intro _ ty_ops C)) end)). Qed.
Print Assumptions C105_tiny_yaw_gain_refuted.
