(** A flight whose integral stands at its bound. *)

From Coq Require Import ZArith List Bool Lia Reals Lra.
From Verif Require Import Scalar LinAlg MUtils MModel MDynamics MPid MControl MCtlRun MImu MSim
  SpecDyn SpecRun SpecPid SpecCtl SpecImu SpecSim SpecVertical SpecClimb SpecTotal
  PBase PDyn PModel PDynR PPhys PNoise PDynMore PVeh PMix PPid PPidR PCtl PCtlR PSim PSimR PHover PSimEnd
  EBase EPid ECtl ESim EVertical PVertical PClimb PClimbSim EClimb PTotal PHold ETotal PWind.
Import ListNotations.
Local Open Scope R_scope.

Section Ex.
Context {G H : Gen R}.
Variables (B r : R).
Hypothesis HB : 1 <= B.
Hypothesis Hr : r = 0 \/ r = 1 /\ B = 1.

(** The vehicle of [sp_wound], told a gravity of 3 where it is 4, with the
    integral of its velocity loop bounded by [B]; after the first call it is
    asked to rise at [r]. *)
Definition sp_bounded : SimParams R :=
  mkSP (ex_params 1 1 (mkV 0 0 (-4)) 0 0 0) 0 st_hover
       (mkCP (mkAP 1 mI (mkV 0 0 (-3))) (mkIP mI inv_ex cpx_pid) cpx_pid cpx_pid (pp_wind (r3 B) false))
       imp_plain (mkODP 1 (s_ori st_hover)).
Lemma bounded_fits : fitting_params 4 sp_bounded.
Proof. split; [apply ex_check; lra|]. split; [reflexivity|]. split; reflexivity. Qed.
Lemma bounded_fair : fair_start 0 sp_bounded.
Proof.
  pose proof PI_RGT_0. unfold fair_start. split.
  { exists 1, 1, 1, 1, 0, 100, (1/10), 0. split; [lra|]. split; [lra|]. split; [lra|]. split; [lra|]. left. reflexivity. }
  split; [apply ex_check; lra|]. split; [reflexivity|]. split; [split; reflexivity|]. split.
  { split; [exact (proj1 c_ex_inverse)|]. split; [split; reflexivity|]. split.
    - intros a. destruct a; split; cbn; lra.
    - intros pp [<-|[<-|[<-|[]]]]; split; split; cbn; lra. }
  split; [reflexivity|]. split; [lra|]. split; [split; reflexivity|]. split; [reflexivity|]. exists 1. reflexivity.
Qed.

Definition full (q : Pid R) : Prop :=
  pid_c q = pid_c (pid_new (pp_wind (r3 B) false)) /\ ps_first (pid_s q) = false /\ ps_acc (pid_s q) = mkV 0 0 1 /\ ps_ci (pid_s q) = mkV 0 0 1.
Lemma r3_pos a : 0 < pr a (r3 B).
Proof using HB. destruct a; cbn; lra. Qed.
Lemma full_on q dt : 0 <= dt -> full q -> vz (ps_out (pid_s (pid_compute q dt (mkV 0 0 r)))) = 1 /\ full (pid_compute q dt (mkV 0 0 r)).
Proof.
  intros Hd (C & F & A & I). rewrite new_aw in C. cbn [pid_c] in C. unfold pid_compute. cbv zeta. cbn [pid_s ps_out pid_c]. unfold ps_init. rewrite F.
  assert (Ac : pid_acc (pid_c q) (ps_acc (pid_s q)) dt (mkV 0 0 r) = mkV 0 0 1).
  { apply pr_ext. intros a. rewrite acc_cuts; rewrite ?C, ?A; cbn [pc_aw].
    - unfold cut. destruct Hr as [->|[-> ->]]; destruct a; cbn; repeat (destruct (Rlt_dec _ _)); lra.
    - apply r3_pos.
    - destruct a; cbn; lra. }
  rewrite Ac. split.
  - unfold pid_out. rewrite C. cbn [pc_sflag pc_kp pc_ki pc_kd]. unfold vadd, vmap2. cbn [vz].
    change (vz (mmulv (vdiagm LinAlg.v0) ?v)) with (pr AZ (mmulv (vdiagm LinAlg.v0) v)). change (vz (mmulv (vdiagm (r3 1)) ?v)) with (pr AZ (mmulv (vdiagm (r3 1)) v)).
    rewrite !ki_part, pr_v0. cbn. unR. ring.
  - unfold full. cbn [pid_c pid_s ps_first ps_acc ps_ci]. rewrite new_aw. cbn [pid_c]. rewrite C. cbn [pc_ki]. split; [reflexivity|]. split; [reflexivity|]. split; [reflexivity|].
    apply pr_ext. intros a. rewrite ki_part. destruct a; cbn; ring.
Qed.
Lemma first_fills : full (pid_compute (pid_new (pp_wind (r3 B) false)) 1 (mkV 0 0 1)).
Proof.
  rewrite new_aw. unfold full, pid_compute. cbv zeta. cbn [pid_s pid_c ps_init ps_first ps0 ps_acc ps_ci].
  assert (Ac : pid_acc (mkPC (vdiagm LinAlg.v0) (vdiagm (r3 1)) (vdiagm LinAlg.v0) (r3 B) v1 false false false LinAlg.v0 LinAlg.v0) LinAlg.v0 1 (mkV 0 0 1) = mkV 0 0 1).
  { apply pr_ext. intros a. rewrite acc_cuts; cbn [pc_aw].
    - rewrite pr_v0. unfold cut. destruct a; cbn; repeat (destruct (Rlt_dec _ _)); lra.
    - apply r3_pos.
    - rewrite pr_v0. pose proof (r3_pos a). lra. }
  rewrite Ac. split; [rewrite new_aw; reflexivity|]. split; [reflexivity|]. split; [reflexivity|].
  apply pr_ext. intros a. cbn [pc_ki]. rewrite ki_part. destruct a; cbn; ring.
Qed.

Definition full_ops : list (SimOp R G H) := [SMode VELOCITY ANGLE; SArm; SRefVel (mkV 0 0 1); SController 1; SRefVel (mkV 0 0 r)].
Lemma full_first (s0 : Sim R G H) : sim_new 4 sp_bounded = Some s0 -> exists u,
  sim_run 4 s0 full_ops = Some (set_ref_vel u (mkV 0 0 r)) /\ full (ct_vel (sm_ctl u)) /\
  ac_mass (ct_acro (sm_ctl u)) = 1 /\ ac_grav (ct_acro (sm_ctl u)) = mkV 0 0 (-3) /\
  sm_armed u = true /\ sm_mode u = VELOCITY /\ sm_floor_en u = false /\ sm_ext u = mkV 0 0 0 /\ sim_state u = sp_state sp_bounded.
Proof.
  intros N.
  destruct (ex_start (G := G) (H := H) 4 _ bounded_fits) as (x & N' & _ & _ & St & Ct & _ & _ & _ & _ & _ & _ & Fe & _ & Ex & _ & Md & Ym).
  rewrite N in N'. injection N' as <-. clear N.
  unfold full_ops. cbn [sim_run sim_step]. unfold set_control_mode. rewrite Md. cbn [mode_eqb andb].
  set (sa := set_ref_vel (arm _) _).
  assert (A : sm_armed sa = true /\ sm_mode sa = VELOCITY /\ sm_floor_en sa = false /\ sm_ext sa = mkV 0 0 0 /\
    sim_state sa = sp_state sp_bounded /\ sm_ctl sa = sm_ctl s0 /\ rf_vel (sm_refs sa) = mkV 0 0 1)
    by (repeat split; assumption).
  clearbody sa. destruct A as (A1 & A2 & A3 & A4 & A5 & A6 & A7).
  destruct (frame_controller (G := G) (H := H) 4 sa 1 (update_controller 4 sa 1) eq_refl) as (C1 & _ & _ & C2 & C3 & _ & C4 & C5 & _).
  destruct (vel_update sa 1 A1 A2) as (U1 & U2 & U3 & _).
  set (u := update_controller 4 sa 1) in *. clearbody u. exists u. split; [reflexivity|].
  rewrite U1, U2, U3, A5, A6, A7, Ct. split.
  { replace (vsub (mkV 0 0 1) (s_vel (sp_state sp_bounded))) with (mkV 0 0 1 : V3 R) by (apply V3_eq; cbn; unR; ring). exact first_fills. }
  split; [reflexivity|]. split; [reflexivity|]. split; [rewrite C2; exact A1|]. split; [rewrite C5; exact A2|].
  split; [rewrite C3; exact A3|]. split; [rewrite C4; exact A4|]. unfold sim_state. rewrite C1. exact A5.
Qed.

Lemma full_flight k : exists s c : Sim R G H, sim_after 4 sp_bounded (full_ops ++ rounds (1/100) k) = Some s /\
  sim_step 4 s (SController (1/100)) = Ok c /\
  sm_armed s = true /\ sm_mode s = VELOCITY /\ rf_vel (sm_refs s) = mkV 0 0 r /\ s_vel (sim_state s) = mkV 0 0 0 /\ integral_part WVel AZ s = 1 /\ off WVel AZ s c = r.
Proof.
  destruct (simulator_defined (G := G) (H := H) 4 sp_bounded (full_ops ++ rounds (1/100) k) bounded_fits) as [s' E].
  { apply Forall_app. split; [repeat (apply Forall_cons; [exact I|]); apply Forall_nil|apply round_fits; lra]. }
  exists s', (update_controller 4 s' (1/100)). split; [exact E|]. split; [reflexivity|].
  unfold sim_after in E. destruct (sim_new 4 sp_bounded) as [s0|] eqn:N; [|discriminate].
  pose proof (start_vsim 0 sp_bounded s0 bounded_fair N) as V0. pose proof PI_RGT_0 as Pi.
  destruct layout_ex as (inv & -> & Q & Sp & Sv).
  rewrite PSim.run_app in E. destruct (full_first s0 N) as (u & E1 & Cv & Cm & Cg & A1 & A2 & A3 & A4 & A5).
  set (u' := set_ref_vel u (mkV 0 0 r)) in E1.
  assert (V1 : vsim (sp_model sp_bounded) inv_ex (mkV 1 2 3) 0 u').
  { apply (vertical_run (sp_model sp_bounded) inv_ex 0 100 (1/10) 1 (mkV 1 2 3) 0 full_ops s0); try assumption; try reflexivity; try lra.
    - split; reflexivity.
    - repeat (apply Forall_cons; [first [exact I|split; reflexivity]|]). apply Forall_nil. }
  rewrite E1 in E.
  assert (Hd : held (G := G) (H := H) (sp_model sp_bounded) inv_ex (mkV 1 2 3) 0 4 1 r 1 full s').
  { apply (hold_rounds (sp_model sp_bounded) inv_ex (mkV 1 2 3) 0 4 1 (1/10) 1 0 100 r 1 (1/100) full) with (k := k) (s := u');
      try assumption; try reflexivity; try lra.
    - split; reflexivity.
    - intros q _ M. apply full_on; [lra|exact M].
    - assert (X5 : ac_mass (ct_acro (sm_ctl u')) * (1 - vz (ac_grav (ct_acro (sm_ctl u')))) = 4).
      { change (sm_ctl u') with (sm_ctl u). rewrite Cm, Cg. cbn [vz]. lra. }
      assert (X6 : sim_state u' = sp_state sp_bounded) by exact A5.
      assert (X7 : rf_vel (sm_refs u') = mkV 0 0 r) by reflexivity.
      constructor; try assumption; rewrite X6; reflexivity. }
  destruct Hd as [_ Ar M _ _ Rv _ (_ & _ & _ & Ci) Sd _].
  split; [exact Ar|]. split; [exact M|]. split; [exact Rv|]. split; [exact Sd|]. split.
  { unfold integral_part, pid_int_part. cbn [get_pid]. rewrite Ci. reflexivity. }
  unfold off, demanded, actual. rewrite Sd. destruct (vel_update s' (1/100) Ar M) as (_ & _ & _ & U). rewrite U, Rv. cbn. ring.
Qed.

End Ex.

Lemma bounded_case {G H : Gen R} : exists sp ops,
  (forall a, 0 < pr a (pp_aw (loop_params WVel (sp_ctl sp)))) /\ (forall a, pr a (pp_ki (loop_params WVel (sp_ctl sp))) <> 0) /\ fitting_params 4 sp /\
  forall k, exists s c : Sim R G H, sim_after 4 sp (ops ++ rounds (1/100) k) = Some s /\ sim_step 4 s (SController (1/100)) = Ok c /\
  sm_armed s = true /\ sm_mode s = VELOCITY /\ rf_vel (sm_refs s) = mkV 0 0 1 /\ s_vel (sim_state s) = mkV 0 0 0 /\
  integral_part WVel AZ s = 1 /\ off WVel AZ s c = 1.
Proof.
  assert (X : 1 <= 1) by lra. exists (sp_bounded 1), (full_ops 1). split; [intros a; exact (r3_pos 1 X a)|]. split; [intros a; apply Rgt_not_eq; destruct a; cbn; lra|].
  split; [apply bounded_fits|]. apply full_flight; [lra|right; split; reflexivity].
Qed.
Lemma inside_case {G H : Gen R} k : exists s c : Sim R G H, sim_after 4 (sp_bounded 2) (full_ops 0 ++ rounds (1/100) k) = Some s /\
  sim_step 4 s (SController (1/100)) = Ok c /\ sm_armed s = true /\ sm_mode s = VELOCITY /\ integral_part WVel AZ s = 1 /\ off WVel AZ s c = 0.
Proof.
  destruct (full_flight (G := G) (H := H) 2 0 ltac:(lra) (or_introl eq_refl) k) as (s & c & A & B & C & D & _ & _ & E & F).
  exists s, c. repeat split; assumption.
Qed.
