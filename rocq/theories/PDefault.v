(** Proofs: default loops and controllers do nothing; a default vehicle is not a
    number after one step. *)

From Coq Require Import ZArith List Bool Lia Reals Lra.
From Flocq Require Import BinarySingleNaN.
From Verif Require Import Scalar Float64 LinAlg MUtils MModel MDynamics MPid MPid1 MControl MCtlRun MImu MSim
  SpecDyn SpecRun SpecTune SpecSim SpecDefault PBase PFloat PDyn PDynR PModel PPhys PVeh PDynMore PSim PSimEnd.
Import ListNotations.
Local Open Scope R_scope.

(** ** Loops *)
Definition idle_cfg (c : PidCfg R) : Prop :=
  pc_kp c = mzero /\ pc_ki c = mzero /\ pc_kd c = mzero /\ pc_sflag c = false.
Lemma zero_gain (v : V3 R) : mmulv mzero v = v0.
Proof. destruct v as [a b c]. unfold mzero, mdiag. unV. f_equal; ring. Qed.
Lemma idle_new : idle_cfg (pid_c (pid_new pp0)) /\ pid_output (pid_new pp0) = v0.
Proof.
  unfold pid_new, pid_reset, pid_update, pc_update. cbn [pid_c pp_lo pp_up pp0].
  assert (E : veqb (v0 (T := R)) v0 = true). { unfold veqb, v0. cbn [vx vy vz]. unR. rewrite (proj2 (Reqb_true 0 0) eq_refl). reflexivity. }
  rewrite E. cbn [negb orb]. split; [|reflexivity]. split; [reflexivity|]. split; [reflexivity|]. split; reflexivity.
Qed.
Lemma idle_out c a b d : idle_cfg c -> pid_out c (mmulv (pc_kp c) a) (mmulv (pc_ki c) b) (mmulv (pc_kd c) d) = v0.
Proof.
  intros (-> & -> & -> & Es). rewrite !zero_gain. unfold pid_out. rewrite Es. unV. f_equal; ring.
Qed.
Lemma idle_step p op : flies op = true -> idle_cfg (pid_c p) /\ pid_output p = v0 ->
  idle_cfg (pid_c (pid_step p op)) /\ pid_output (pid_step p op) = v0.
Proof.
  intros F [C E]. destruct op as [pp| |u l f| |kp ki kd|k|k|k|aw|al|b|b|dt e|dt e de]; try discriminate F.
  - split; [exact C|exact E].
  - split; [exact C|]. exact (idle_out _ _ _ _ C).
  - split; [exact C|]. exact (idle_out _ _ _ _ C).
Qed.
Lemma idle_loop ops : Forall (fun o => flies o = true) ops -> pid_output (pid_run (pid_new pp0) ops) = mkV 0 0 0.
Proof.
  enough (K : forall p, idle_cfg (pid_c p) /\ pid_output p = v0 -> Forall (fun o => flies o = true) ops -> pid_output (pid_run p ops) = v0)
    by (intros F; exact (K _ idle_new F)).
  induction ops as [|op r IH]; intros p P F; [apply P|]. inversion F; subst. apply IH; [apply idle_step|]; assumption.
Qed.

(** ** The scalar loop *)
Definition idle1 (p : Pid1 R) : Prop :=
  c1_kp (pid1_c p) = 0 /\ c1_ki (pid1_c p) = 0 /\ c1_kd (pid1_c p) = 0 /\ c1_sflag (pid1_c p) = false /\ c1_aw (pid1_c p) = 0 /\ pid1_output p = 0.
Lemma idle1_new : idle1 (pid1_new pp10).
Proof.
  unfold pid1_new, pid1_reset, pid1_update, c1_update. cbn [pid1_c pp1_lo pp1_up pp10]. unR. rewrite (proj2 (Reqb_true 0 0) eq_refl). cbn [negb orb].
  do 5 (split; [reflexivity|]). reflexivity.
Qed.
Lemma idle1_step p op : flies1 op = true -> idle1 p -> exists p', pid1_step p op = Some p' /\ idle1 p'.
Proof.
  intros F (A & B & C & D & E & U). destruct op as [pp| |u l| |kp ki kd|k|k|k|aw|al|b|dt e|dt e de]; try discriminate F; cbn [pid1_step].
  - eexists. split; [reflexivity|]. do 5 (split; [assumption|]). exact U.
  - unfold pid1_compute, pid1_acc. rewrite A, B, C, E. unR. rewrite (proj2 (Reqb_true 0 0) eq_refl). cbn [negb bindo]. unfold pid1_out. rewrite D. cbn [bindo].
    eexists. split; [reflexivity|]. do 5 (split; [assumption|]). unfold pid1_output. cbn [pid1_s s1_out]. unR. ring.
  - unfold pid1_compute_d, pid1_acc. rewrite A, B, C, E. unR. rewrite (proj2 (Reqb_true 0 0) eq_refl). cbn [negb bindo]. unfold pid1_out. rewrite D. cbn [bindo].
    eexists. split; [reflexivity|]. do 5 (split; [assumption|]). unfold pid1_output. cbn [pid1_s s1_out]. unR. ring.
Qed.
Lemma idle_scalar ops : Forall (fun o => flies1 o = true) ops -> exists p, pid1_run (pid1_new pp10) ops = Some p /\ pid1_output p = 0.
Proof.
  enough (K : forall p, idle1 p -> Forall (fun o => flies1 o = true) ops -> exists p', pid1_run p ops = Some p' /\ pid1_output p' = 0)
    by (intros F; exact (K _ idle1_new F)).
  induction ops as [|op r IH]; intros p P F; [exists p; split; [reflexivity|apply P]|].
  inversion F; subst. destruct (idle1_step p op) as (p' & E & P'); [assumption|assumption|]. cbn [pid1_run]. rewrite E. cbn [bindo]. apply IH; assumption.
Qed.

(** ** The flight controller *)
Section Ctl.
Variable n : nat.
Definition still (c : Ctl R) : Prop := in_minv (ct_indi c) = repeat (v0, v0) n /\ ct_dmotor c = repeat 0 n.
Lemma no_rows th tq : map (fun r : V3 R * V3 R => sqrtks (row6 r th tq)) (repeat (v0, v0) n) = repeat 0 n.
Proof.
  assert (Z : sqrtks (row6 (v0, v0) th tq) = 0 :> R).
  { unfold row6. cbn [fst snd vx vy vz v0]. unfold v0. cbn [vx vy vz]. unR. replace (_ + _) with 0 by ring. unfold sqrtks. unR.
    rewrite Rabs_R0, sqrt_0. ring. }
  induction n as [|k IH]; [reflexivity|]. cbn [repeat map]. rewrite Z, IH. reflexivity.
Qed.
Lemma still_acro c cur th des dt : in_minv (ct_indi c) = repeat (v0, v0) n -> still (ctl_acro c cur th des dt).
Proof. intros M. split; [exact M|]. unfold ctl_acro. cbn [ct_dmotor acro_to_motor in_motor]. rewrite M. apply no_rows. Qed.
Lemma still_acc c A cw acc yaw dt : in_minv (ct_indi c) = repeat (v0, v0) n -> still (ctl_acc c A cw acc yaw dt).
Proof. intros M. unfold ctl_acc. destruct (acc_to_acro _ _ _ _) as [a' [t w]]. apply still_acro, M. Qed.
Lemma still_step c op : steers op = true -> still c -> still (ctl_step c op).
Proof.
  intros F [M D]. destruct op as [cur t des dt|A cw acc yaw dt|cp cv A cw dp dv da yaw dt|cv A cw dv yaw dt|cp A cv cw dp yaw dt|cur t des dt|acc A yaw|cp cv dp dv da dt|cv dv dt|cp dp dt| |p|p|p|w p|w o|m|g|k|A yaw t|m|m];
    try discriminate F; cbn [ctl_step].
  - apply still_acro, M.
  - apply still_acc, M.
  - unfold ctl_traj. destruct (traj_control _ _ _ _ _ _ _) as [p' a']. apply still_acc, M.
  - apply still_acc, M.
  - unfold ctl_pos, ctl_vel. apply still_acc, M.
  - split; [exact M|exact D].
  - split; [exact M|exact D].
  - split; [exact M|exact D].
  - split; [exact M|exact D].
  - split; [exact M|exact D].
  - split; [exact M|exact D].
  - destruct w; split; try exact M; exact D.
  - split; [exact M|exact D].
Qed.
Lemma still_run ops : Forall (fun o => steers o = true) ops ->
  get_desired_motor_angular_velocity (ctl_run (ctl_new n (cp0 n)) ops) = repeat 0 n.
Proof.
  enough (K : forall c, still c -> Forall (fun o => steers o = true) ops -> ct_dmotor (ctl_run c ops) = repeat 0 n)
    by (intros F; refine (K _ _ F); split; reflexivity).
  induction ops as [|op r IH]; intros c P F; [apply P|]. inversion F; subst. apply IH; [apply still_step|]; assumption.
Qed.
End Ctl.

(** ** The default vehicle in binary64 *)
Section Veh.
Variable L : Libm.
Let O := F64Ops L.
Existing Instance O.
Context {G H : Gen b64}.
Notation nan := (B754_nan : b64).

Lemma nan_add_l (x : b64) : add nan x = nan. Proof. destruct x; reflexivity. Qed.
Lemma nan_add_r (x : b64) : add x nan = nan. Proof. destruct x; reflexivity. Qed.
Lemma nan_sub_l (x : b64) : sub nan x = nan. Proof. destruct x; reflexivity. Qed.
Lemma nan_mul_l (x : b64) : mul nan x = nan. Proof. destruct x; reflexivity. Qed.
Lemma nan_mul_r (x : b64) : mul x nan = nan. Proof. destruct x; reflexivity. Qed.
Lemma zero_by_zero (x : b64) : x = B754_zero false -> div (sub x zero) zero = nan. Proof. intros ->. reflexivity. Qed.
Ltac nans := repeat (rewrite ?nan_add_l, ?nan_add_r, ?nan_sub_l, ?nan_mul_l, ?nan_mul_r).

Lemma vs_nan (v : V3 b64) : vscaler v nan = mkV nan nan nan.
Proof. unfold vscaler, vmap. cbn [vx vy vz]. rewrite !nan_mul_r. reflexivity. Qed.
Lemma va_nan (v : V3 b64) : vadd v (mkV nan nan nan) = mkV nan nan nan.
Proof. unfold vadd, vmap2. cbn [vx vy vz]. rewrite !nan_add_r. reflexivity. Qed.

Lemma default_speeds (d d' : Dyn b64 G) dt ext noise c : mo_cfg (d_model d) = Some c -> p_motors (cf_params c) = repeat motor0 4 ->
  List.length (cf_imat c) = 4%nat -> s_mvel (d_state d) = repeat zero 4 ->
  euler_core d (repeat zero 4) dt ext noise = Some d' ->
  s_mvel (d_state d') = repeat nan 4 /\ s_angvel (d_state d') = mkV nan nan nan.
Proof.
  intros Ec Em Ei Ew E. apply euler_core_inv in E as [_ Hi].
  destruct (Hi c Ec) as (mo & des & macc & mvel & Hn & Hm & Hd & Ha & Hv & ->). cbn [d_state s_mvel s_angvel].
  rewrite Em in Hd, Ha, Hv. rewrite Ew in Ha, Hv.
  assert (K : des = repeat (B754_zero false) 4). { injection Hd as <-. reflexivity. }
  subst des. assert (K : macc = repeat nan 4). { injection Ha as <-. reflexivity. } subst macc.
  split.
  - assert (W : ladd (repeat zero 4) (map (fun a => mul a dt) (repeat nan 4)) = repeat nan 4).
    { cbn [repeat map]. rewrite !nan_mul_l. reflexivity. }
    rewrite W in Hv. injection Hv as <-. reflexivity.
  - assert (Q : forall x, vadd x (colsmul (cf_imat c) (repeat nan 4)) = mkV nan nan nan).
    { intros x. destruct (cf_imat c) as [|i1 [|i2 [|i3 [|i4 [|]]]]]; try discriminate Ei.
      unfold colsmul. cbn [combine repeat map fst snd]. rewrite !vs_nan. unfold vsum. cbn [fold_left]. rewrite !va_nan. reflexivity. }
    unfold torque_by_motors. rewrite Q. unfold total_torque, ang_acc, vadd, vsub, vscaler, mmulv, vmap2, vmap. cbn [vx vy vz]. nans. reflexivity.
Qed.

Lemma default_nan dt : ltb zero dt = true -> leb dt dtmax = true ->
  exists s : Sim b64 G H, sim_after 4 (sp0 4) [SDynamics dt] = Some s /\
  Forall not_a_number (s_mvel (sim_state s)) /\ forall a, not_a_number (pr a (s_angvel (sim_state s))).
Proof.
  intros D1 D2.
  assert (P1 : leb dt zero = false) by (destruct dt as [[]|[]| |[] m e q]; try discriminate D1; reflexivity).
  assert (P2 : ltb dtmax dt = false).
  { change (ltb dtmax dt) with (Bltb dtmax dt). change (leb dt dtmax) with (Bleb dt dtmax) in D2. unfold Bltb, Bleb, SpecFloat.SFltb, SpecFloat.SFleb in *.
    change (SpecFloat.SFcompare (B2SF ?x) (B2SF ?y)) with (Bcompare x y) in *. rewrite (Bcompare_swap _ _ _ _).  destruct (Bcompare dt dtmax) as [[]|]; try discriminate D2; reflexivity. }
  assert (C : check_params (params0 4) = true) by (vm_compute; reflexivity).
  destruct (dyn_new (G := G) 4 (params0 4) 0 (state0 4)) as [d0|] eqn:N.
  2:{ exfalso. unfold dyn_new, model_new, update_params in N. rewrite C in N. discriminate N. }
  destruct (new_params 4 _ _ _ d0 N C) as (Mr & Mp & Ms).
  assert (Rd : ready d0 (repeat zero 4)).
  { apply (vehicle_ready 4 d0 (repeat zero 4) (params0 4)); [|reflexivity]. split; [exact Mr|]. split; [exact Mp|]. split; [reflexivity|]. rewrite Ms. reflexivity. }
  destruct (euler_core_total d0 (repeat zero 4) dt v0 true Rd) as [d1 E1].
  apply get_params_cfg in Mp as (c & Ec & Ep).
  unfold sim_after, sim_new. cbn [sp0 sp_model sp_seed sp_state]. rewrite N. cbn [option_map sim_run sim_step].
  unfold update_dynamics, below_floor. cbn [sm_floor_en andb sm_dyn sm_act sm_ext sm_floor_col negb].
  unfold process. rewrite P1, P2, E1. cbn [of_opt with_dyn with_ext with_col sm_floor_en andb].
  eexists. split; [reflexivity|]. unfold sim_state, with_col, with_ext, with_dyn. cbn [sm_dyn].
  destruct (default_speeds d0 d1 dt v0 true c Ec) as [W A]; try assumption.
  - rewrite Ep. reflexivity.
  - unfold dyn_new, model_new, update_params in N. rewrite C in N. cbn [negb bindo compute_mixer_6D compute_mixer_inertia cols] in N.
    injection N as <-. cbn [d_model mo_cfg] in Ec. injection Ec as <-. reflexivity.
  - rewrite Ms. reflexivity.
  - rewrite W, A. split; [apply Forall_forall; intros x X; apply repeat_spec in X as ->; reflexivity|]. intros a. destruct a; reflexivity.
Qed.
End Veh.
