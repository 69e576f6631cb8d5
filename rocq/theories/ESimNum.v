(** A concrete flight of the whole simulator in binary64. *)

From Coq Require Import ZArith Bool List Reals Lra Lia.
From Flocq Require Import Core BinarySingleNaN.
From Verif Require Import Scalar Float64 LinAlg MUtils MModel MDynamics MPid MControl MCtlRun MImu MSim SpecDyn SpecRun SpecRound SpecNumber SpecPidNum SpecImuNum SpecCtlNum SpecSimNum
  PBase PFloat PRound PQuat64 PDyn PUnit64 PUp PNumber PExact PPidNum PImuNum PNorm64 PCtlNum PSimNum EBase ERound ENumber EExact EPidNum EImuNum ECtlNum.
Import ListNotations.
Local Open Scope R_scope.

Section Check.
Variable L : Libm.
#[local] Instance FO : Ops b64 := F64Ops L.
Context {G H : Gen b64}.
Definition sim_opb (op : SimOp b64 G H) : bool :=
  match op with
  | SDynamics dt => atleastb dt && negb (ltb dtmax dt)
  | SController dt => kstepb dt
  | SImu dt => stepb dt
  | SOdom dt => is_finite dt && Bltb (b64_ofZ 0) dt && Bleb dt (b64_ofZ 1)
  | SArm | SDisarm | SDisableFloor | SMode _ _ => true
  | SEnableFloor h => kb h
  | SRefVel v => k3b v
  | SRefPos p => k3b p
  | SRefYawRate y => kb y
  | _ => false
  end.
Definition smallb (s : Sim b64 G H) : bool :=
  stateb (sim_state s) && k3b (s_pos (sim_state s)) && k3b (s_vel (sim_state s)) && k3b (s_angvel (sim_state s)) && k3b (s_force (sim_state s)) &&
  upto3b (im_gyro (sm_imu s)) && upto3b (im_accel (sm_imu s)).
Fixpoint staysb (n : nat) (s : Sim b64 G H) (ops : list (SimOp b64 G H)) : bool :=
  smallb s && match ops with [] => true | op :: r => sim_opb op && match sim_step n s op with Ok s' => staysb n s' r | _ => false end end.
Lemma sim_opb_ok n op : sim_opb op = true -> sane_sim_op L n op.
Proof.
  destruct op as [dt|dt|dt|dt| | |h| |m y|w|th w|p v a|v|p|y|y|p sd st|p|p|p|d|c|i|o]; cbn [sim_opb sane_sim_op]; intros E; try exact I; try discriminate E.
  - apply andb_true_iff in E as [A _]. apply atleastb_ok in A. exact A.
  - apply kstepb_ok, E.
  - left. apply stepb_ok, E.
  - apply unit_stepb, E.
  - apply kb_ok, E.
  - apply k3b_ok, E.
  - apply k3b_ok, E.
  - apply kb_ok, E.
Qed.
Lemma smallb_ok (s : Sim b64 G H) : unit_within (1/2) (s_ori (sim_state s)) -> smallb s = true -> small_motion s.
Proof.
  unfold smallb. rewrite !andb_true_iff. intros U [[[[[[A B] C] D] E] F] K]. split.
  - intros _. split; [exact (stateb_ok _ A U)|]. split; [apply k3b_ok, B|]. split; [apply k3b_ok, C|]. split; [apply k3b_ok, D|]. apply (up3_weak 32); [lia|apply k3b_ok, E].
  - intros _ _. split; apply upto3b_ok; assumption.
Qed.
Lemma unit_step n (s s' : Sim b64 G H) op : unit_within (1/2) (s_ori (sim_state s)) -> reasonable_state (sim_state s) -> sim_opb op = true -> sim_step n s op = Ok s' -> unit_within (1/2) (s_ori (sim_state s')).
Proof.
  intros U (_ & _ & _ & SW & _) Eo Es. destruct op as [dt|dt|dt|dt| | |h| |m y|w|th w|p v a|v|p|y|y|p sd st|p|p|p|d|c|i|o]; cbn [sim_opb sim_step] in *; try discriminate Eo; try (injection Es as <-; exact U).
  - apply andb_true_iff in Eo as [A NL]. apply atleastb_ok in A as [Fd Pd]. apply negb_true_iff in NL. unfold update_dynamics in Es.
    destruct (if below_floor s then _ else _) as [s1|] eqn:E1; [|discriminate Es]. cbv beta iota in Es.
    assert (K : sm_dyn s1 = sm_dyn s). { destruct (below_floor s); [|injection E1 as <-; reflexivity]. destruct (mo_cfg _) as [c|]; [|discriminate E1]. injection E1 as <-. reflexivity. }
    rewrite K in Es. destruct (process (sm_dyn s) _ dt _ _) as [d|d|] eqn:Ep; [|discriminate Es|discriminate Es].
    assert (Ud : unit_within (1/2) (s_ori (d_state d))).
    { apply within_weak. pose proof (pow_pos (-64)). refine (process_unit L (sm_dyn s) d (mkCall (sm_act s1) dt (sm_ext s1) (negb (sm_floor_col s1))) U Fd _ _ Ep); [cbn [k_dt]; lra|].
      split; [apply rates_up, SW|]. intros X. cbn [k_dt] in X. exfalso. exact (eq_true_false_abs _ X NL). }
    match type of Es with context [if ?b then _ else _] => destruct b end; injection Es as <-; exact Ud.
  - injection Es as <-. unfold update_controller. destruct (negb (sm_armed s)); [exact U|]. cbv zeta. destruct (sm_yawmode s); destruct (sm_mode _); exact U.
  - injection Es as <-. unfold set_control_mode. destruct (_ && _); exact U.
Qed.
Lemma staysb_ok n ops : forall s : Sim b64 G H, unit_within (1/2) (s_ori (sim_state s)) -> staysb n s ops = true -> stays_small L n s ops.
Proof.
  induction ops as [|op r IH]; intros s U E; cbn [staysb stays_small] in *; apply andb_true_iff in E as [A B].
  - split; [apply smallb_ok; assumption|exact I].
  - apply andb_true_iff in B as [B C]. split; [apply smallb_ok; assumption|]. split; [apply sim_opb_ok, B|].
    assert (RS : reasonable_state (sim_state s)). { unfold smallb in A. rewrite !andb_true_iff in A. exact (stateb_ok _ (proj1 (proj1 (proj1 (proj1 (proj1 (proj1 A)))))) U). }
    split.
    + destruct op; try exact I. split; [intros _; exact RS|]. cbn [k_dt sim_opb] in *. apply andb_true_iff in B as [_ B]. apply negb_true_iff in B. intros X. exfalso. exact (eq_true_false_abs _ X B).
    + destruct (sim_step n s op) as [s'|s'|] eqn:Es; [|discriminate C|exact I]. apply IH; [|exact C]. exact (unit_step n s s' op U RS B Es).
Qed.
End Check.

Section Case.
#[local] Instance KO : Ops b64 := F64Ops flat_libm.
Definition sk_state : State b64 := mkState (mkV zero zero (lit 1 2)) q1 v0 v0 v0 v0 v0 v0 (repeat zero 4) (repeat zero 4).
Definition sk_p : SimParams b64 := mkSP (n_params flat_libm) 3 sk_state k_ctl (imn_p flat_libm) (odn_p flat_libm).
Definition sk_tick : list (SimOp b64 gen1 gen1) := [SController (lit 1 100); SDynamics (lit 1 100); SImu (lit 1 100); SOdom (lit 1 100)].
(** Arm over a floor, hold a position while turning, then a velocity; drop below the floor, disarm. *)
Definition sk_ops : list (SimOp b64 gen1 gen1) :=
  [SEnableFloor zero; SArm; SMode POSITION RATE; SRefPos (mkV one (lit 1 2) (ofZ 2)); SRefYawRate (lit 1 2)] ++ sk_tick ++ sk_tick ++
  [SMode VELOCITY RATE; SRefVel (mkV one zero (lit (-1) 3))] ++ sk_tick ++ [SDisarm; SEnableFloor one] ++ sk_tick.
Definition sk_sim : option (Sim b64 gen1 gen1) := sim_new 4 sk_p.
Lemma flat_atan : atan_range flat_libm.
Proof. intros y x _ _. apply (up_weak 0); [lia|]. apply oneb_ok. vm_compute. reflexivity. Qed.
Lemma sk_five : bpow radix2 (-32) <= Rabs (val (@ofZ _ KO 5)).
Proof.
  assert (E : atleast (-64) (@ofZ _ KO 5)) by (apply atleastb_ok; vm_compute; reflexivity).
  assert (E1 : B2SF (@ofZ _ KO 5) = SpecFloat.S754_finite false 5629499534213120 (-50)) by (vm_compute; reflexivity).
  clear E. generalize dependent (@ofZ _ KO 5). intros x E1. unfold val. rewrite <- SF2R_B2SF, E1. cbn [SF2R cond_Zopp]. unfold F2R. cbn [Fnum Fexp].
  rewrite Rabs_pos_eq; [|apply Rmult_le_pos; [lra|apply bpow_ge_0]]. apply Rle_trans with (1 * 2^(-50) * 2^18); [rewrite Rmult_1_l, <- bpow_plus; apply bpow_le; lia|].
  rewrite (Rmult_comm (1 * _)), <- Rmult_assoc. apply Rmult_le_compat_r; [apply bpow_ge_0|]. change (2^18) with 262144. lra.
Qed.
Lemma sk_ok : sane_sim flat_libm 4 sk_p.
Proof.
  split; [split; [exact (n_params_ok flat_libm)|split; [apply (up_weak 0); [lia|apply oneb_ok; vm_compute; reflexivity]|apply k3b_ok; vm_compute; reflexivity]]|].
  split; [exact (n_check flat_libm)|]. split; [|split; [|split; [exact (proj1 (proj2 (imn_case flat_libm)))|split; [exact (proj1 (odn_case flat_libm))|exact (tilted_unit flat_libm)]]]].
  - split; [|reflexivity]. unfold numbers. cbn [sk_p sp_state sk_state s_pos s_ori s_vel s_angvel s_linacc s_angacc s_force s_torque s_mvel s_macc].
    assert (F0 : finv v0) by (split; [|split]; reflexivity).
    split; [split; [reflexivity|split; [reflexivity|vm_compute; reflexivity]]|]. split; [split; [|split; [|split]]; reflexivity|]. split; [exact F0|]. split; [exact F0|].
    split; [exact F0|]. split; [exact F0|]. split; [exact F0|]. split; [exact F0|].
    split; cbn [repeat]; repeat (constructor; [reflexivity|]); constructor.
  - split; [exact k_ctl_ok|]. split; [reflexivity|]. right. exact sk_five.
Qed.
Lemma sk_case : trig_range flat_libm /\ atan_range flat_libm /\ reasonable_gen gen1 /\ sane_sim flat_libm 4 sk_p /\
  exists s s' : Sim b64 gen1 gen1, sim_new 4 sk_p = Some s /\ stays_small flat_libm 4 s sk_ops /\ sim_run 4 s sk_ops = Some s' /\
  Beqb (vx (od_pos (sm_odom s'))) (b64_ofZ 0) = false /\ Beqb (vz (s_pos (sim_state s'))) (b64_ofZ 1) = true /\ Beqb (vx (im_gyro (sm_imu s'))) (b64_ofZ 0) = false /\
  forallb (fun w => negb (Beqb w (b64_ofZ 0))) (ct_dmotor (sm_ctl s')) = true.
Proof.
  split; [exact flat_trig|]. split; [exact flat_atan|]. split; [exact (n_gen_ok flat_libm)|]. split; [exact sk_ok|].
  assert (X : match sk_sim with Some x => staysb flat_libm 4 x sk_ops && match sim_run 4 x sk_ops with Some y =>
      negb (Beqb (vx (od_pos (sm_odom y))) (b64_ofZ 0)) && Beqb (vz (s_pos (sim_state y))) (b64_ofZ 1) && negb (Beqb (vx (im_gyro (sm_imu y))) (b64_ofZ 0)) && forallb (fun w => negb (Beqb w (b64_ofZ 0))) (ct_dmotor (sm_ctl y))
    | None => false end | None => false end = true) by (vm_compute; reflexivity).
  unfold sk_sim in X. destruct (sim_new 4 sk_p) as [s|] eqn:E; [|discriminate X]. apply andb_true_iff in X as [X1 X2]. destruct (sim_run 4 s sk_ops) as [s'|] eqn:R; [|discriminate X2].
  rewrite !andb_true_iff in X2. destruct X2 as [[[A B] C] D]. exists s, s'. split; [reflexivity|]. split; [|split; [exact R|split; [apply negb_true_iff, A|split; [exact B|split; [apply negb_true_iff, C|exact D]]]]].
  apply staysb_ok; [|exact X1]. unfold sim_new in E. destruct (dyn_new 4 _ _ _) as [d|] eqn:Ed; [|discriminate E]. injection E as <-. destruct (dyn_new_vehicle _ _ _ _ _ (n_check flat_libm) Ed) as (_ & _ & Es).
  change (unit_within (1/2) (s_ori (d_state d))). rewrite Es. split; [split; [|split; [|split]]; reflexivity|]. unfold sqlen. cbn [sk_p sp_state sk_state s_ori].
  change (val (qw q1)) with (val (b64_ofZ 1)). change (val (qx q1)) with 0. change (val (qy q1)) with 0. change (val (qz q1)) with 0. rewrite val_one. apply Rabs_le. lra.
Qed.

(** A positive but tiny yaw gain: the yaw rate divided by it is infinite. *)
Definition tiny : b64 := div (div one (ofZ (10^200))) (ofZ (10^110)).
Definition ty_ctl : CtlParams b64 :=
  mkCP (mkAP one (mkM (ofZ 5) zero zero zero (ofZ 5) zero zero zero tiny) (mkV zero zero (lit (-981) 100))) (cp_indi k_ctl) (cp_pos k_ctl) (cp_traj k_ctl) (cp_vel k_ctl).
Definition ty_p : SimParams b64 := mkSP (n_params flat_libm) 3 sk_state ty_ctl (imn_p flat_libm) (odn_p flat_libm).
Definition ty_ops : list (SimOp b64 gen1 gen1) := [SArm; SMode VELOCITY RATE; SRefYawRate (ofZ 1000); SController (lit 1 100)].
Lemma ty_case : exists (s s' : Sim b64 gen1 gen1), sane_ctl (sp_ctl ty_p) /\ Bltb (b64_ofZ 0) (m22 (ap_kp (cp_acro (sp_ctl ty_p)))) = true /\ sim_new 4 ty_p = Some s /\ stays_small flat_libm 4 s ty_ops /\ sim_run 4 s ty_ops = Some s' /\ ~ all_numbers s'.
Proof.
  assert (X : match sim_new 4 ty_p with Some x => staysb flat_libm 4 (x : Sim b64 gen1 gen1) ty_ops && match sim_run 4 x ty_ops with Some y => negb (is_finite (rf_yaw (sm_refs y))) | None => false end | None => false end = true) by (vm_compute; reflexivity).
  destruct (sim_new 4 ty_p) as [s|] eqn:E; [|discriminate X]. apply andb_true_iff in X as [X1 X2]. destruct (sim_run 4 s ty_ops) as [s'|] eqn:R; [|discriminate X2].
  exists s, s'. split.
  { destruct k_ctl_ok as ((A & B & C) & D). split; [|exact D]. split; [exact A|]. split; [apply k9b_ok; vm_compute; reflexivity|exact C]. }
  split; [vm_compute; reflexivity|]. split; [reflexivity|]. split; [|split; [exact R|]].
  - apply staysb_ok; [|exact X1]. unfold sim_new in E. destruct (dyn_new 4 _ _ _) as [d|] eqn:Ed; [|discriminate E]. injection E as <-. destruct (dyn_new_vehicle _ _ _ _ _ (n_check flat_libm) Ed) as (_ & _ & Es).
    change (unit_within (1/2) (s_ori (d_state d))). rewrite Es. split; [split; [|split; [|split]]; reflexivity|]. unfold sqlen. cbn [ty_p sp_state sk_state s_ori].
    change (val (qw q1)) with (val (b64_ofZ 1)). change (val (qx q1)) with 0. change (val (qy q1)) with 0. change (val (qz q1)) with 0. rewrite val_one. apply Rabs_le. lra.
  - intros (_ & _ & (_ & _ & _ & _ & _ & _ & Y & _) & _). unfold fin in Y. rewrite Y in X2. discriminate X2.
Qed.
End Case.
