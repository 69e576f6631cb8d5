(** Concrete flights with a standing error and without one. *)

From Coq Require Import ZArith List Bool Lia Reals Lra.
From Verif Require Import Scalar LinAlg MUtils MModel MDynamics MPid MControl MCtlRun MImu MSim
  SpecDyn SpecRun SpecPid SpecCtl SpecImu SpecSim SpecVertical SpecClimb SpecTotal
  PBase PDyn PModel PDynR PPhys PNoise PDynMore PVeh PMix PPid PPidR PCtl PCtlR PSim PSimR PHover PSimEnd
  EBase EPid ECtl ESim EVertical PVertical PClimb PClimbSim EClimb PTotal PHold.
Import ListNotations.
Local Open Scope R_scope.

Section Ex.
Context {G H : Gen R}.

Lemma start_vsim yaw sp (s0 : Sim R G H) : fair_start yaw sp -> sim_new 4 sp = Some s0 ->
  vsim (sp_model sp) (ip_minv (cp_indi (sp_ctl sp))) (s_pos (sp_state sp)) yaw s0.
Proof.
  intros (_ & Ck & Hn & Hgr & Fc & Or & Hy & Ve & Wz & Ew) N.
  destruct (new_fields 4 _ _ N) as (F1 & F2 & F3 & F4 & F5 & F6 & F7 & F8 & d & Dn & Ed).
  destruct (new_params _ _ _ _ _ Dn Ck) as (Mr & Gp' & Ds).
  assert (C : sm_ctl s0 = ctl_new 4 (sp_ctl sp)).
  { unfold sim_new in N. destruct (dyn_new _ _ _ _); [|discriminate]. cbn in N. injection N as <-. reflexivity. }
  assert (St : sim_state s0 = sp_state sp) by (unfold sim_state; rewrite Ed; exact Ds).
  assert (Z : upright LinAlg.v0) by (split; reflexivity).
  split; rewrite ?F3, ?F4, ?F6, ?F8, ?C, ?St; try exact Z; try (exists 0; reflexivity); try reflexivity.
  - split; [rewrite Ed; exact Mr|]. split; [rewrite Ed; exact Gp'|]. split; [reflexivity|].
    rewrite Ed, Ds. apply even_len, Ew.
  - split; [split; reflexivity|]. split; [exact Or|]. split; [exact Ve|]. split; [exact Wz|exact Ew].
  - apply (new_vctl 4 (p_motors (sp_model sp))); [exact Fc|apply Fc].
  - left. reflexivity.
Qed.

Lemma round_fits dt k : dt <= 1 -> Forall (fits (G := G) (H := H) 4) (rounds dt k).
Proof.
  intros Hd. induction k as [|k IH]; [apply Forall_nil|]. rewrite rounds_snoc. apply Forall_app. split; [exact IH|].
  apply Forall_cons; [exact I|]. apply Forall_cons; [cbn; lra|apply Forall_nil].
Qed.

(** *** A gain alone: told a gravity of 3 where it is 4, the vehicle stands still
    although it is asked to rise at 1. *)
Definition sp_stuck : SimParams R :=
  mkSP (ex_params 1 1 (mkV 0 0 (-4)) 0 0 0) 0 (st_rise 0)
       (mkCP (mkAP 1 mI (mkV 0 0 (-3))) (mkIP mI inv_ex cpx_pid) cpx_pid cpx_pid (mkPP (r3 1) LinAlg.v0 LinAlg.v0 LinAlg.v0 v1 false false LinAlg.v0 LinAlg.v0))
       imp_plain (mkODP 1 (level 0)).
Lemma stuck_fits : fitting_params 4 sp_stuck.
Proof. split; [apply ex_check; lra|]. split; [reflexivity|]. split; reflexivity. Qed.
Lemma stuck_fair : fair_start 0 sp_stuck.
Proof.
  pose proof PI_RGT_0. unfold fair_start. split.
  { exists 1, 1, 1, 1, 0, 100, (1/10), 0. split; [lra|]. split; [lra|]. split; [lra|]. split; [lra|left; reflexivity]. }
  split; [apply ex_check; lra|]. split; [reflexivity|]. split; [split; reflexivity|]. split.
  { split; [exact (proj1 c_ex_inverse)|]. split; [split; reflexivity|]. split.
    - intros a. destruct a; split; cbn; lra.
    - intros pp [<-|[<-|[<-|[]]]]; split; split; cbn; lra. }
  split; [reflexivity|]. split; [lra|]. split; [split; reflexivity|]. split; [reflexivity|]. exists 1. reflexivity.
Qed.

Definition stuck_ops : list (SimOp R G H) := [SMode VELOCITY ANGLE; SArm; SRefVel (mkV 0 0 1)].
Definition wound_ops : list (SimOp R G H) := [SMode VELOCITY ANGLE; SArm; SRefVel (mkV 0 0 1); SController 1; SRefVel (mkV 0 0 0)].

Lemma layout_ex : exists inv, inv = inv_ex /\ even_quad (ex_motors 1) 0 100 (1/10) 1 /\ spreads inv /\ spreads_to 1 inv.
Proof.
  exists inv_ex. split; [reflexivity|]. assert (L : quad_layout 1 1 1 1 0 100 (1/10) 0 (ex_motors 1)) by (left; reflexivity).
  assert (N : (1 : R) <> 0) by lra.
  destruct (layout_even 1 1 1 1 0 100 (1/10) 0 _ N N N N L) as [Q Sp]. split; [exact Q|].
  split; [exact (Sp _ (proj1 c_ex_inverse))|]. exact (layout_value 1 1 1 1 0 100 (1/10) 0 _ N N N N L _ (proj1 c_ex_inverse)).
Qed.


Lemma stuck_flight k : exists s : Sim R G H, sim_after 4 sp_stuck (stuck_ops ++ rounds (1/100) k) = Some s /\
  sm_armed s = true /\ sm_mode s = VELOCITY /\ rf_vel (sm_refs s) = mkV 0 0 1 /\ s_vel (sim_state s) = mkV 0 0 0.
Proof.
  destruct (simulator_defined (G := G) (H := H) 4 sp_stuck (stuck_ops ++ rounds (1/100) k) stuck_fits) as [s' E].
  { apply Forall_app. split; [repeat (apply Forall_cons; [exact I|]); apply Forall_nil|apply round_fits; lra]. }
  exists s'. split; [exact E|]. unfold sim_after in E. destruct (sim_new 4 sp_stuck) as [s0|] eqn:N; [|discriminate].
  pose proof (start_vsim 0 sp_stuck s0 stuck_fair N) as V0. pose proof PI_RGT_0 as Pi.
  destruct layout_ex as (inv & -> & Q & Sp & Sv).
  rewrite PSim.run_app in E. destruct (sim_run 4 s0 stuck_ops) as [s1|] eqn:E1; [|discriminate].
  assert (V1 : vsim (sp_model sp_stuck) inv_ex (mkV 1 2 3) 0 s1).
  { apply (vertical_run (sp_model sp_stuck) inv_ex 0 100 (1/10) 1 (mkV 1 2 3) 0 stuck_ops s0); try assumption; try reflexivity; try lra.
    - split; reflexivity.
    - apply Forall_cons; [exact I|]. apply Forall_cons; [exact I|]. apply Forall_cons; [split; reflexivity|apply Forall_nil]. }
  destruct (ex_start (G := G) (H := H) 4 _ stuck_fits) as (x & N' & _ & _ & St & Ct & _ & _ & _ & _ & _ & _ & Fe & _ & Ex & _ & Md & _).
  rewrite N in N'. injection N' as <-.
  unfold stuck_ops, set_control_mode in E1. cbn [sim_run sim_step] in E1. unfold set_control_mode in E1. rewrite Md in E1. cbn [mode_eqb andb] in E1.
  set (s1' := set_ref_vel _ _) in E1. injection E1 as <-.
  assert (Hd : held (G := G) (H := H) (sp_model sp_stuck) inv_ex (mkV 1 2 3) 0 4 1 1 1 (fun q => mere_gain 1 1 (pid_c q)) s').
  { apply (hold_rounds (sp_model sp_stuck) inv_ex (mkV 1 2 3) 0 4 1 (1/10) 1 0 100 1 1 (1/100) (fun q => mere_gain 1 1 (pid_c q))) with (k := k) (s := s1');
      try assumption; try reflexivity; try lra.
    - split; reflexivity.
    - intros q Vq M. split; [|exact M]. rewrite (gain_out 1 1); [cbn [vz]; ring|exact Vq|split; reflexivity|exact M|cbn [vz]; lra].
    - split; try assumption; try reflexivity.
      + change (ac_mass (ct_acro (sm_ctl s0)) * (1 - vz (ac_grav (ct_acro (sm_ctl s0)))) = 4). rewrite Ct. cbn. lra.
      + change (mere_gain 1 1 (pid_c (ct_vel (sm_ctl s0)))). rewrite Ct.
        exact (new_gain (cp_vel (sp_ctl sp_stuck)) 1 eq_refl eq_refl (or_introl (conj eq_refl eq_refl))).
      + change (s_vel (sim_state s0) = mkV 0 0 0). rewrite St. reflexivity.
      + change (s_mvel (sim_state s0) = [1;1;1;1]). rewrite St. reflexivity. }
  destruct Hd. repeat split; assumption.
Qed.

(** *** Integral action: the same false knowledge does no harm once the integral
    carries the missing weight. *)
Definition sp_wound : SimParams R := sp_ex 1 4 3 st_hover imp_plain.
Definition carries (q : Pid R) : Prop :=
  pid_c q = pid_c (pid_new (pp_wind LinAlg.v0 false)) /\ ps_first (pid_s q) = false /\ ps_acc (pid_s q) = mkV 0 0 1 /\ ps_ci (pid_s q) = mkV 0 0 1.
Lemma carries_on q dt : carries q -> vz (ps_out (pid_s (pid_compute q dt (mkV 0 0 0)))) = 1 /\ carries (pid_compute q dt (mkV 0 0 0)).
Proof.
  intros (C & F & A & I). rewrite new_aw in C. cbn [pid_c] in C. unfold pid_compute. cbv zeta. cbn [pid_s ps_out pid_c]. unfold ps_init. rewrite F.
  assert (Ac : pid_acc (pid_c q) (ps_acc (pid_s q)) dt (mkV 0 0 0) = mkV 0 0 1).
  { apply pr_ext. intros a. rewrite acc_adds; [rewrite A; destruct a; cbn; ring| |].
    - intros b. rewrite C. cbn [pc_aw]. apply pr_v0.
    - rewrite C. reflexivity. }
  rewrite Ac. split.
  - unfold pid_out. rewrite C. cbn [pc_sflag pc_kp pc_ki pc_kd]. unfold vadd, vmap2. cbn [vz].
    change (vz (mmulv (vdiagm LinAlg.v0) ?v)) with (pr AZ (mmulv (vdiagm LinAlg.v0) v)). change (vz (mmulv (vdiagm (r3 1)) ?v)) with (pr AZ (mmulv (vdiagm (r3 1)) v)).
    rewrite !ki_part, pr_v0. cbn. unR. ring.
  - unfold carries. cbn [pid_c pid_s ps_first ps_acc ps_ci]. rewrite new_aw. cbn [pid_c]. rewrite C. cbn [pc_ki]. split; [reflexivity|]. split; [reflexivity|]. split; [reflexivity|].
    apply pr_ext. intros a. rewrite ki_part. destruct a; cbn; ring.
Qed.
Lemma first_winds : carries (pid_compute (pid_new (pp_wind LinAlg.v0 false)) 1 (mkV 0 0 1)).
Proof.
  rewrite new_aw. unfold carries, pid_compute. cbv zeta. cbn [pid_s pid_c ps_init ps_first ps0 ps_acc ps_ci].
  assert (Ac : pid_acc (mkPC (vdiagm LinAlg.v0) (vdiagm (r3 1)) (vdiagm LinAlg.v0) LinAlg.v0 v1 false false false LinAlg.v0 LinAlg.v0) LinAlg.v0 1 (mkV 0 0 1) = mkV 0 0 1).
  { apply pr_ext. intros a. rewrite acc_adds; [rewrite pr_v0; destruct a; cbn; ring| |].
    - intros b. cbn [pc_aw]. apply pr_v0.
    - reflexivity. }
  rewrite Ac. split; [rewrite new_aw; reflexivity|]. split; [reflexivity|]. split; [reflexivity|].
  apply pr_ext. intros a. cbn [pc_ki]. rewrite ki_part. destruct a; cbn; ring.
Qed.

Lemma vel_update (s : Sim R G H) dt : sm_armed s = true -> sm_mode s = VELOCITY -> let c := sm_ctl (update_controller 4 s dt) in
  ct_vel c = pid_compute (ct_vel (sm_ctl s)) dt (vsub (rf_vel (sm_refs s)) (s_vel (sim_state s))) /\
  ac_mass (ct_acro c) = ac_mass (ct_acro (sm_ctl s)) /\ ac_grav (ct_acro c) = ac_grav (ct_acro (sm_ctl s)) /\
  get_desired_linear_velocity c = rf_vel (sm_refs s).
Proof.
  intros Ar M. cbv zeta. unfold update_controller. rewrite Ar. cbn [negb].
  set (s2 := match sm_yawmode s with ANGLE => s | RATE => update_yaw_reference s end).
  assert (X : sm_mode s2 = VELOCITY /\ rf_vel (sm_refs s2) = rf_vel (sm_refs s) /\ sm_ctl s2 = sm_ctl s /\ sim_state s2 = sim_state s)
    by (unfold s2; destruct (sm_yawmode s); repeat split; assumption).
  clearbody s2. destruct X as (X1 & X2 & X3 & X4). rewrite X1. cbn [with_control sm_ctl]. rewrite X2, X3, X4.
  set (A := qmat _). set (cw := s_angvel _). set (y := rf_yaw _). set (c := sm_ctl s). set (v := s_vel _). set (dv := rf_vel _).
  pose proof (vel_records c v A cw dv y dt) as Rc. cbv zeta in Rc. cbn [ctl_step get_pid] in Rc. destruct Rc as (R1 & _ & _ & _ & _ & R2).
  split; [exact R2|]. split; [|split; [|exact R1]]; unfold ctl_vel; cbv zeta; set (c1 := mkCtl _ _ _ _ _ _ _ _ _ _ _);
    match goal with |- context [ctl_acc c1 A cw ?ac y dt] => destruct (ctl_acc_shape c1 A cw ac y dt) as (_ & _ & _ & D4 & _) end;
    [refine (eq_trans (f_equal ac_mass D4) _)|refine (eq_trans (f_equal ac_grav D4) _)]; reflexivity.
Qed.

Lemma wound_first (s0 : Sim R G H) : sim_new 4 sp_wound = Some s0 -> exists u,
  sim_run 4 s0 wound_ops = Some (set_ref_vel u (mkV 0 0 0)) /\ carries (ct_vel (sm_ctl u)) /\
  ac_mass (ct_acro (sm_ctl u)) = 1 /\ ac_grav (ct_acro (sm_ctl u)) = mkV 0 0 (-3) /\
  sm_armed u = true /\ sm_mode u = VELOCITY /\ sm_floor_en u = false /\ sm_ext u = mkV 0 0 0 /\ sim_state u = sp_state sp_wound.
Proof.
  assert (Fit : fitting_params 4 sp_wound) by (apply sp_fits; [lra|reflexivity]). intros N.
  destruct (ex_start (G := G) (H := H) 4 _ Fit) as (x & N' & _ & _ & St & Ct & _ & _ & _ & _ & _ & _ & Fe & _ & Ex & _ & Md & Ym).
  rewrite N in N'. injection N' as <-. clear N.
  unfold wound_ops. cbn [sim_run sim_step]. unfold set_control_mode. rewrite Md. cbn [mode_eqb andb].
  set (sa := set_ref_vel (arm _) _).
  assert (A : sm_armed sa = true /\ sm_mode sa = VELOCITY /\ sm_floor_en sa = false /\ sm_ext sa = mkV 0 0 0 /\
    sim_state sa = sp_state sp_wound /\ sm_ctl sa = sm_ctl s0 /\ rf_vel (sm_refs sa) = mkV 0 0 1)
    by (repeat split; assumption).
  clearbody sa. destruct A as (A1 & A2 & A3 & A4 & A5 & A6 & A7).
  destruct (frame_controller (G := G) (H := H) 4 sa 1 (update_controller 4 sa 1) eq_refl) as (C1 & _ & _ & C2 & C3 & _ & C4 & C5 & _).
  destruct (vel_update sa 1 A1 A2) as (U1 & U2 & U3 & _).
  set (u := update_controller 4 sa 1) in *. clearbody u. exists u. split; [reflexivity|].
  rewrite U1, U2, U3, A5, A6, A7, Ct. split.
  { replace (vsub (mkV 0 0 1) (s_vel (sp_state sp_wound))) with (mkV 0 0 1 : V3 R) by (apply V3_eq; cbn; unR; ring). exact first_winds. }
  split; [reflexivity|]. split; [reflexivity|]. split; [rewrite C2; exact A1|]. split; [rewrite C5; exact A2|].
  split; [rewrite C3; exact A3|]. split; [rewrite C4; exact A4|]. unfold sim_state. rewrite C1. exact A5.
Qed.

Lemma wound_flight k : exists s c : Sim R G H, sim_after 4 sp_wound (wound_ops ++ rounds (1/100) k) = Some s /\
  sim_step 4 s (SController (1/100)) = Ok c /\
  sm_armed s = true /\ sm_mode s = VELOCITY /\ s_vel (sim_state s) = mkV 0 0 0 /\ integral_part WVel AZ s = 1 /\ off WVel AZ s c = 0.
Proof.
  assert (Fit : fitting_params 4 sp_wound) by (apply sp_fits; [lra|reflexivity]).
  assert (Fair : fair_start 0 sp_wound) by (apply fair_ex; lra).
  destruct (simulator_defined (G := G) (H := H) 4 sp_wound (wound_ops ++ rounds (1/100) k) Fit) as [s' E].
  { apply Forall_app. split; [repeat (apply Forall_cons; [exact I|]); apply Forall_nil|apply round_fits; lra]. }
  exists s', (update_controller 4 s' (1/100)). split; [exact E|]. split; [reflexivity|].
  unfold sim_after in E. destruct (sim_new 4 sp_wound) as [s0|] eqn:N; [|discriminate].
  pose proof (start_vsim 0 sp_wound s0 Fair N) as V0. pose proof PI_RGT_0 as Pi.
  destruct layout_ex as (inv & -> & Q & Sp & Sv).
  rewrite PSim.run_app in E. destruct (wound_first s0 N) as (u & E1 & Cv & Cm & Cg & A1 & A2 & A3 & A4 & A5).
  set (s1' := set_ref_vel u (mkV 0 0 0)) in E1.
  assert (V1 : vsim (sp_model sp_wound) inv_ex (mkV 1 2 3) 0 s1').
  { apply (vertical_run (sp_model sp_wound) inv_ex 0 100 (1/10) 1 (mkV 1 2 3) 0 wound_ops s0); try assumption; try reflexivity; try lra.
    - split; reflexivity.
    - repeat (apply Forall_cons; [first [exact I|split; reflexivity]|]). apply Forall_nil. }
  rewrite E1 in E.
  assert (Hd : held (G := G) (H := H) (sp_model sp_wound) inv_ex (mkV 1 2 3) 0 4 1 0 1 carries s').
  { apply (hold_rounds (sp_model sp_wound) inv_ex (mkV 1 2 3) 0 4 1 (1/10) 1 0 100 0 1 (1/100) carries) with (k := k) (s := s1');
      try assumption; try reflexivity; try lra.
    - split; reflexivity.
    - intros q _ M. apply carries_on, M.
    - assert (X5 : ac_mass (ct_acro (sm_ctl s1')) * (1 - vz (ac_grav (ct_acro (sm_ctl s1')))) = 4).
      { change (sm_ctl s1') with (sm_ctl u). rewrite Cm, Cg. cbn [vz]. lra. }
      assert (X6 : sim_state s1' = sp_state sp_wound) by exact A5.
      assert (X7 : rf_vel (sm_refs s1') = mkV 0 0 0) by reflexivity.
      constructor; try assumption; rewrite X6; reflexivity. }
  destruct Hd as [_ Ar M _ _ Rv _ (_ & _ & _ & Ci) Sd _].
  split; [exact Ar|]. split; [exact M|]. split; [exact Sd|]. split.
  { unfold integral_part, pid_int_part. cbn [get_pid]. rewrite Ci. reflexivity. }
  unfold off, demanded, actual. rewrite Sd. destruct (vel_update s' (1/100) Ar M) as (_ & _ & _ & U). rewrite U, Rv. cbn. ring.
Qed.

Lemma wound_keeps : Forall (keeps_ctl (G := G) (H := H)) wound_ops.
Proof. repeat (apply Forall_cons; [exact I|]). apply Forall_nil. Qed.
Lemma wound_free :  free_integral (loop_params WVel (sp_ctl sp_wound)) /\ pr AZ (pp_ki (loop_params WVel (sp_ctl sp_wound))) = 1.
Proof. split; [split; [intros a; apply pr_v0|reflexivity]|reflexivity]. Qed.
(** The total error of the first calls: one second at one metre per second. *)
Lemma wound_total : exists s0 s : Sim R G H, sim_new 4 sp_wound = Some s0 /\ sim_run 4 s0 wound_ops = Some s /\ total_off WVel AZ 4 s0 wound_ops = 1.
Proof.
  destruct (wound_flight 0) as (s & c & E & _ & _ & _ & _ & I & _). cbn [rounds repeat concat] in E. unfold rounds in E. cbn [repeat concat] in E. rewrite app_nil_r in E.
  unfold sim_after in E. destruct (sim_new 4 sp_wound) as [s0|] eqn:N; [|discriminate]. exists s0, s. split; [reflexivity|]. split; [exact E|].
  destruct wound_free as [F K].
  pose proof (integral_total 4 WVel AZ sp_wound wound_ops s0 s F wound_keeps N E) as T. rewrite I, K in T. lra.
Qed.

Lemma stuck_case : exists sp ops,
  free_integral (loop_params WVel (sp_ctl sp)) /\ fitting_params 4 sp /\
  forall k, exists s : Sim R G H, sim_after 4 sp (ops ++ rounds (1/100) k) = Some s /\
  sm_armed s = true /\ sm_mode s = VELOCITY /\ rf_vel (sm_refs s) = mkV 0 0 1 /\ s_vel (sim_state s) = mkV 0 0 0.
Proof.
  exists sp_stuck, stuck_ops. split; [split; [intros a; apply pr_v0|reflexivity]|]. split; [exact stuck_fits|]. exact stuck_flight.
Qed.
End Ex.
