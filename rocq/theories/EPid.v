(** Concrete PID controllers over the reals: witnesses and counterexamples. *)

From Coq Require Import ZArith List Bool Lia Reals Lra.
From Verif Require Import Scalar LinAlg MPid MPid1 SpecDyn SpecPid PBase PPid PPid1 PPidR.
Import ListNotations.
Local Open Scope R_scope.

Definition r3 (x : R) : V3 R := mkV x x x.

Lemma pr_r3 a x : pr a (r3 x) = x. Proof. destruct a; reflexivity. Qed.

(** Configuration of a new controller. *)
Lemma new_cfg_on pp : (forall a, wide (pr a (pp_up pp)) (pr a (pp_lo pp))) ->
  pid_new pp = mkPid (mkPC (vdiagm (pp_kp pp)) (vdiagm (pp_ki pp)) (vdiagm (pp_kd pp)) (pp_aw pp) (pp_alpha pp)
                           (pp_rflag pp) true (pp_pflag pp) (pp_up pp) (pp_lo pp)) ps0.
Proof.
  intros H. unfold pid_new, pid_reset, pid_update, pc_update. cbn [pid_c pid_s].
  assert (E : negb (veqb (pp_lo pp) v0) || negb (veqb (pp_up pp) v0) = true).
  { pose proof (H AX) as U. unfold wide in U. pose proof eps_pos as P0. apply orb_true_iff. rewrite !negb_true_iff.
    destruct (Req_dec (pr AX (pp_lo pp)) 0) as [Z|Z]; [right|left]; apply veqb_v0_false; exists AX; lra. }
  rewrite E, set_sat_on by (intros a; apply sat_bad_R, H). reflexivity.
Qed.

Lemma new_cfg_off pp : (forall a, pr a (pp_up pp) = 0) -> (forall a, pr a (pp_lo pp) = 0) ->
  pid_new pp = mkPid (mkPC (vdiagm (pp_kp pp)) (vdiagm (pp_ki pp)) (vdiagm (pp_kd pp)) (pp_aw pp) (pp_alpha pp)
                           (pp_rflag pp) false (pp_pflag pp) v0 v0) ps0.
Proof.
  intros H1 H2. unfold pid_new, pid_reset, pid_update, pc_update. cbn [pid_c pid_s].
  rewrite (proj2 (veqb_v0_true _) H1), (proj2 (veqb_v0_true _) H2). reflexivity.
Qed.

Ltac rdec :=
  repeat match goal with
  | |- context [Rltb ?a ?b] =>
      first [ replace (Rltb a b) with true by (symmetry; apply Rltb_true; lra)
            | replace (Rltb a b) with false by (symmetry; apply Rltb_false; lra) ]
  | |- context [Reqb ?a ?b] =>
      first [ replace (Reqb a b) with true by (symmetry; apply Reqb_true; lra)
            | replace (Reqb a b) with false by (symmetry; apply Reqb_false; lra) ]
  end.

Lemma wide_R u l : 1 / 1000 <= u - l -> wide u l.
Proof. unfold wide; unR. lra. Qed.

(** Unit proportional gain, limits 1..2 on each axis, proportional: the error
    (4, 1, 1) gives (4, 1, 1). *)
Definition pp_band : PidParams R := mkPP (r3 1) v0 v0 v0 v1 false true (r3 2) (r3 1).
Lemma band_on : pid_sat_on (pid_new pp_band) = true /\ pid_prop_on (pid_new pp_band) = true /\
  pid_limits (pid_new pp_band) = (r3 2, r3 1).
Proof.
  rewrite new_cfg_on by (intros a; unfold pp_band; cbn [pp_up pp_lo]; rewrite !pr_r3; apply wide_R; lra).
  repeat split.
Qed.

(** The first output of a controller with proportional gain only. *)
Lemma first_prop_only pp dt e :
  pp_ki pp = v0 -> pp_kd pp = v0 -> pid_c (pid_new pp) = pid_c (pid_new pp) ->
  pc_kp (pid_c (pid_new pp)) = vdiagm (pp_kp pp) -> pc_ki (pid_c (pid_new pp)) = vdiagm (pp_ki pp) ->
  pc_kd (pid_c (pid_new pp)) = vdiagm (pp_kd pp) ->
  pid_output (pid_step (pid_new pp) (OpCompute dt e)) =
  (let x := vcmul (pp_kp pp) e in
   if pid_sat_on (pid_new pp) then saturate x (fst (pid_limits (pid_new pp))) (snd (pid_limits (pid_new pp))) (pid_prop_on (pid_new pp))
   else x).
Proof.
  intros Ki Kd _ E1 E2 E3. cbn [pid_step pid_compute pid_output pid_s ps_out]. rewrite E1, E2, E3, Ki, Kd.
  set (acc := pid_acc _ _ _ _). set (f := pid_filt _ _ _ _).
  assert (X : vadd (vadd (mmulv (vdiagm (pp_kp pp)) e) (mmulv (vdiagm v0) acc)) (mmulv (vdiagm v0) f) = vcmul (pp_kp pp) e).
  { apply V3_ax. intros a. rewrite !pr_vadd, !diag_mul, pr_vcmul, pr_v0. ring. }
  unfold pid_out. rewrite X. reflexivity.
Qed.

Lemma band_output dt : pid_output (pid_step (pid_new pp_band) (OpCompute dt (mkV 4 1 1))) = mkV 4 1 1.
Proof.
  assert (N : pid_new pp_band = mkPid (mkPC (vdiagm (r3 1)) (vdiagm v0) (vdiagm v0) v0 v1 false true true (r3 2) (r3 1)) ps0).
  { apply (new_cfg_on pp_band). intros a; unfold pp_band; cbn [pp_up pp_lo]; rewrite !pr_r3; apply wide_R; lra. }
  rewrite first_prop_only; try reflexivity; try (rewrite N; reflexivity).
  destruct band_on as (-> & -> & ->). cbn [fst snd pp_band pp_kp].
  unfold saturate, psat1, vcmul, vscale, vmap, vmap2, r3. cbn [negb vx vy vz]. unR. rdec.
  apply V3_eq; cbn [vx vy vz]; lra.
Qed.

Lemma prop_band_refuted :
  exists (pp : PidParams R) dt e, let p := pid_new pp in
    pid_sat_on p = true /\ pid_prop_on p = true /\
    ~ within (pid_output (pid_step p (OpCompute dt e))) (fst (pid_limits p)) (snd (pid_limits p)).
Proof.
  exists pp_band, 1, (mkV 4 1 1). cbv zeta. destruct band_on as (A & B & C). split; [exact A|]. split; [exact B|].
  rewrite band_output, C. intros H. specialize (H AX). cbn in H. lra.
Qed.

(** Limits -2..-1: the error (1, 1, 1) gives (-1, -1, -1). *)
Definition pp_neg : PidParams R := mkPP (r3 1) v0 v0 v0 v1 false true (r3 (-1)) (r3 (-2)).
Lemma prop_flip_refuted :
  exists (pp : PidParams R) dt e, let p := pid_new pp in
    pid_sat_on p = true /\ pid_prop_on p = true /\
    let p' := pid_step p (OpCompute dt e) in
    ~ exists k, 0 <= k <= 1 /\ forall a, pr a (pid_output p') =
        k * (pr a (pid_prop_part p') + pr a (pid_int_part p') + pr a (pid_der_part p')).
Proof.
  assert (N : pid_new pp_neg = mkPid (mkPC (vdiagm (r3 1)) (vdiagm v0) (vdiagm v0) v0 v1 false true true (r3 (-1)) (r3 (-2))) ps0).
  { apply (new_cfg_on pp_neg). intros a; unfold pp_neg; cbn [pp_up pp_lo]; rewrite !pr_r3; apply wide_R; lra. }
  exists pp_neg, 1, (mkV 1 1 1). cbv zeta. split; [rewrite N; reflexivity|]. split; [rewrite N; reflexivity|].
  intros (k & K & H). specialize (H AX). rewrite first_prop_only in H; try reflexivity; try (rewrite N; reflexivity).
  rewrite N in H. cbn [pid_sat_on pid_prop_on pid_limits pid_c pc_sflag pc_pflag pc_up pc_lo fst snd] in H.
  cbn [pid_step pid_compute pid_prop_part pid_int_part pid_der_part pid_s ps_cp ps_ci ps_cd pid_c pc_kp pc_ki pc_kd] in H.
  rewrite !diag_mul in H. rewrite !pr_v0 in H.
  assert (S : pr AX (saturate (vcmul (pp_kp pp_neg) (mkV 1 1 1)) (r3 (-1)) (r3 (-2)) true) = -1).
  { unfold saturate, psat1, vcmul, vscale, vmap, vmap2, pp_neg. cbn [pp_kp]. unfold r3. cbn [negb vx vy vz pr]. unR. rdec. cbn [pr vx]. lra. }
  rewrite S in H. cbn [r3 pr vx] in H. nra.
Qed.

(** A negative anti-windup constant makes the integral answer an error with
    the opposite sign. *)
Definition pp_wind (aw : V3 R) (f : bool) : PidParams R := mkPP v0 (r3 1) v0 aw v1 f false v0 v0.
Lemma new_aw aw f : pid_new (pp_wind aw f) = mkPid (mkPC (vdiagm v0) (vdiagm (r3 1)) (vdiagm v0) aw v1 f false false v0 v0) ps0.
Proof. apply (new_cfg_off (pp_wind aw f)); intros a; apply pr_v0. Qed.

Lemma negative_windup_refuted :
  exists (pp : PidParams R) dt e, 0 < dt /\ (forall a, pr a (pp_aw pp) <> 0) /\ (forall a, 0 < pr a (pp_ki pp)) /\
    (forall a, 0 < pr a e) /\ forall a, pr a (pid_int_part (pid_step (pid_new pp) (OpCompute dt e))) < 0.
Proof.
  exists (pp_wind (r3 (-1)) false), 1, (r3 5). split; [lra|]. cbn [pp_wind pp_aw pp_ki].
  split; [intros a; rewrite pr_r3; lra|]. split; [intros a; rewrite pr_r3; lra|]. split; [intros a; rewrite pr_r3; lra|].
  intros a. rewrite new_aw. cbn [pid_step pid_compute pid_int_part pid_s ps_ci pid_c pc_ki]. rewrite diag_mul, pr_r3.
  assert (W : veqb (r3 (-1)) v0 = false) by (apply veqb_v0_false; exists AX; cbn; lra).
  unfold pid_acc. cbn [pc_aw pc_rflag]. rewrite W. cbn [negb rst1]. rewrite saturate_false_pr.
  rewrite pr_vscale, pr_r3, pr_vadd, pr_vscaler, pr_r3.
  replace (pr a (mkV (vx (ps_acc (ps_init ps0 (r3 5)))) (vy (ps_acc (ps_init ps0 (r3 5)))) (vz (ps_acc (ps_init ps0 (r3 5)))))) with 0
    by (destruct a; reflexivity).
  unfold sat1; unR. rdec. lra.
Qed.

(** ** The integral-reset flag does nothing while anti-windup is on *)
Definition two_calls : list (PidOp R) := [OpCompute 1 (r3 2); OpCompute 1 (r3 (-1/2))].

Lemma aw_step f acc e a :
  pr a (pid_acc (mkPC (vdiagm v0) (vdiagm (r3 1)) (vdiagm v0) (r3 1) v1 f false false v0 v0) acc 1 e) =
  limited (rst1 f (pr a acc) 1 (pr a e) + pr a e) (-1) 1.
Proof.
  assert (W : veqb (r3 1) v0 = false) by (apply veqb_v0_false; exists AX; cbn; lra).
  unfold pid_acc. cbn [pc_aw pc_rflag]. rewrite W. cbn [negb]. rewrite saturate_false_pr, pr_vscale, !pr_r3.
  rewrite sat1_limited by (unR; lra). unR. replace (-1 * 1) with (-1) by ring.
  rewrite pr_vadd, pr_vscaler, Rmult_1_r. destruct a; reflexivity.
Qed.

Lemma limited_in x lo hi : lo <= x <= hi -> limited x lo hi = x.
Proof. intros H. unfold limited. rewrite Rmin_left by lra. apply Rmax_right. lra. Qed.
Lemma limited_hi x lo hi : lo <= hi -> hi <= x -> limited x lo hi = hi.
Proof. intros H1 H. unfold limited. rewrite Rmin_right by lra. apply Rmax_right. lra. Qed.

Lemma aw_values a :
  let p1 := pid_step (pid_new (pp_wind (r3 1) true)) (OpCompute 1 (r3 2)) in
  pr a (pid_int_part p1) = 1 /\ pr a (pid_int_part (pid_step p1 (OpCompute 1 (r3 (-1/2))))) = 1/2.
Proof.
  intros p1.
  assert (A1 : forall b, pr b (ps_acc (pid_s p1)) = 1).
  { intros b. subst p1. rewrite new_aw. cbn [pid_step pid_compute pid_s ps_acc pid_c]. rewrite aw_step.
    replace (pr b (ps_acc (ps_init ps0 (r3 2)))) with 0 by (destruct b; reflexivity).
    rewrite rst1_zero, pr_r3. apply limited_hi; lra. }
  assert (C1 : pid_c p1 = mkPC (vdiagm v0) (vdiagm (r3 1)) (vdiagm v0) (r3 1) v1 true false false v0 v0)
    by (subst p1; rewrite new_aw; reflexivity).
  assert (I1 : pid_int_part p1 = mmulv (pc_ki (pid_c p1)) (ps_acc (pid_s p1))) by reflexivity.
  split.
  - rewrite I1, C1. cbn [pc_ki]. rewrite diag_mul, A1, pr_r3. lra.
  - cbn [pid_step pid_compute pid_int_part pid_s ps_ci]. rewrite C1. cbn [pc_ki]. rewrite diag_mul, aw_step, !pr_r3.
    replace (ps_acc (ps_init (pid_s p1) (r3 (-1/2)))) with (ps_acc (pid_s p1)) by reflexivity.
    rewrite A1, rst1_inside by (rewrite Rabs_R1; lra). rewrite limited_in by lra. lra.
Qed.

Lemma reset_flag_refuted :
  exists (pp : PidParams R) e1 e2 dt,
    pp_rflag pp = true /\ 0 < dt /\ (forall a, 0 < pr a (pp_aw pp)) /\ (forall a, pr a (pp_ki pp) = 1) /\
    let p1 := pid_step (pid_new pp) (OpCompute dt e1) in
    let p2 := pid_step p1 (OpCompute dt e2) in
    (* the integral sits at its limit and the error changes sign *)
    (forall a, pr a (pid_int_part p1) = pr a (pp_aw pp)) /\ (forall a, pr a e2 < 0 < pr a e1) /\
    (* yet the sum does not restart *)
    forall a, pr a (pid_int_part p2) <> pr a e2 * dt.
Proof.
  exists (pp_wind (r3 1) true), (r3 2), (r3 (-1/2)), 1. cbn [pp_wind pp_aw pp_ki pp_rflag].
  split; [reflexivity|]. split; [lra|]. split; [intros a; rewrite pr_r3; lra|]. split; [intros a; apply pr_r3|].
  split; [intros a; rewrite pr_r3; apply aw_values|]. split; [intros a; rewrite !pr_r3; lra|].
  intros a. destruct (aw_values a) as [_ H]. intros E. rewrite pr_r3 in E. rewrite H in E. lra.
Qed.

(** ** Round trip *)
Definition pp_rt : PidParams R := mkPP (r3 1) v0 v0 v0 v1 false false (r3 1) (r3 (-1)).
Definition p_rt : Pid R := pid_step (pid_new pp_rt) OpDisableSat.
Lemma p_rt_eq : p_rt = mkPid (mkPC (vdiagm (r3 1)) (vdiagm v0) (vdiagm v0) v0 v1 false false false (r3 1) (r3 (-1))) ps0.
Proof.
  unfold p_rt. rewrite (new_cfg_on pp_rt); [reflexivity|].
  intros a; unfold pp_rt; cbn [pp_up pp_lo]; rewrite !pr_r3; apply wide_R; lra.
Qed.
Lemma p_rt_back : pid_update p_rt (pid_get_params p_rt) =
  mkPid (mkPC (vdiagm (r3 1)) (vdiagm v0) (vdiagm v0) v0 v1 false true false (r3 1) (r3 (-1))) ps0.
Proof.
  rewrite p_rt_eq. unfold pid_update, pid_get_params, pc_update. cbn [pid_c pid_s pp_lo pp_up pp_kp pp_ki pp_kd pp_aw pp_alpha pp_rflag pp_pflag pc_kp pc_ki pc_kd pc_aw pc_alpha pc_rflag pc_pflag pc_up pc_lo].
  assert (W : veqb (r3 (-1)) v0 = false) by (apply veqb_v0_false; exists AX; cbn; lra). rewrite W. cbn [negb orb].
  rewrite set_sat_on by (intros a; rewrite !pr_r3; apply sat_bad_R, wide_R; lra). reflexivity.
Qed.

Lemma prop_only_step (c : PidCfg R) s dt e :
  pc_kp c = vdiagm (r3 1) -> pc_ki c = vdiagm v0 -> pc_kd c = vdiagm v0 ->
  pid_output (pid_step (mkPid c s) (OpCompute dt e)) =
  if pc_sflag c then saturate e (pc_up c) (pc_lo c) (pc_pflag c) else e.
Proof.
  intros A B C. cbn [pid_step pid_compute pid_output pid_s ps_out pid_c]. rewrite A, B, C.
  set (acc := pid_acc _ _ _ _). set (f := pid_filt _ _ _ _).
  assert (X : vadd (vadd (mmulv (vdiagm (r3 1)) e) (mmulv (vdiagm v0) acc)) (mmulv (vdiagm v0) f) = e).
  { apply V3_ax. intros a. rewrite !pr_vadd, !diag_mul, pr_v0, pr_r3. ring. }
  unfold pid_out. rewrite X. reflexivity.
Qed.

Lemma round_trip_refuted :
  exists p : Pid R, Reached p /\
    let q := pid_update p (pid_get_params p) in
    exists dt e, pid_output (pid_step q (OpCompute dt e)) <> pid_output (pid_step p (OpCompute dt e)).
Proof.
  exists p_rt. split; [exists pp_rt, [OpDisableSat]; reflexivity|]. cbv zeta. exists 1, (r3 5).
  rewrite p_rt_back, p_rt_eq. rewrite !prop_only_step by reflexivity. cbn [pc_sflag pc_up pc_lo pc_pflag].
  intros H. apply (f_equal (pr AX)) in H. rewrite saturate_false_pr in H. unfold sat1 in H. cbn [r3 pr vx] in H.
  unR. revert H. rdec. lra.
Qed.

Lemma pp1_rt_refuted :
  exists p : Pid1 R, Reached1 p /\ pid1_update p (pid1_get_params p) <> p.
Proof.
  set (pp := mkPP1 1 0 0 0 1 false 1 (-1)).
  exists (mkPid1 (mkPC1 1 0 0 0 1 false false 1 (-1)) s10). 
  assert (Hr : Reached1 (mkPid1 (mkPC1 1 0 0 0 1 false false 1 (-1)) s10)).
  { exists pp, [Op1DisableSat]. cbn [pid1_run pid1_step bindo]. f_equal.
    unfold on_cfg1, pid1_new, pid1_reset, pid1_update, c1_update. cbn [pid1_c pid1_s pp pp1_up pp1_lo pp1_kp pp1_ki pp1_kd pp1_aw pp1_alpha pp1_rflag].
    unR. rdec. cbn [negb orb]. rewrite set_sat1_accepted by (apply sat_bad_R, wide_R; lra). reflexivity. }
  split; [exact Hr|]. intros H. apply round_trip_pid1 in H; [|exact Hr].
  destruct H as [H|H]; [discriminate H|]. apply H. apply wide_R. cbn. lra.
Qed.

(** ** Rejected limits *)
Lemma rejected_limits_refuted :
  exists (p : Pid R) up lo f, Reached p /\ pid_sat_on p = true /\
    let q := pid_step p (OpSetSat up lo f) in
    pid_sat_on q = false /\ pid_limits q <> pid_limits p.
Proof.
  assert (N : pid_new pp_rt = mkPid (mkPC (vdiagm (r3 1)) (vdiagm v0) (vdiagm v0) v0 v1 false true false (r3 1) (r3 (-1))) ps0).
  { apply (new_cfg_on pp_rt). intros a; unfold pp_rt; cbn [pp_up pp_lo]; rewrite !pr_r3; apply wide_R; lra. }
  exists (pid_new pp_rt), (mkV 3 (-1) 3), (mkV (-3) 1 (-3)), false.
  split; [exists pp_rt, []; reflexivity|]. split; [rewrite N; reflexivity|]. cbv zeta.
  assert (X : sat_bad (vx (mkV 3 (-1) 3)) (vx (mkV (-3) 1 (-3))) = false) by (apply sat_bad_R, wide_R; cbn; lra).
  assert (Y : sat_bad (pr AY (mkV 3 (-1) 3)) (pr AY (mkV (-3) 1 (-3))) = true).
  { apply sat_bad_Rt. unfold wide. cbn [pr vy]. unR. lra. }
  split.
  - apply (set_sat_off (pid_c (pid_new pp_rt))). exists AY. exact Y.
  - intros H. destruct (set_sat_leaks (pid_c (pid_new pp_rt)) _ _ false X) as [E _].
    unfold pid_limits in H. cbn [pid_step on_cfg pid_c] in H. rewrite E, N in H. injection H as H1 H2. cbn in *. lra.
Qed.

(** ** Anti-windup on two of three axes *)
Lemma mixed_windup_refuted :
  exists (pp : PidParams R) ops,
    pp_pflag pp = false /\ (forall a, 0 <= pr a (pp_aw pp)) /\ pid_sat_on (pid_new pp) = false /\
    returned1 (pid1_new (axis_params AX pp)) (axis_ops AX ops) <>
    map (fun v => Some (pr AX v)) (returned (pid_new pp) ops).
Proof.
  exists (pp_wind (mkV 0 1 1) false), [OpCompute 1 (r3 1)]. split; [reflexivity|].
  split; [intros []; cbn; lra|]. split; [rewrite new_aw; reflexivity|].
  cbn [axis_ops flat_map axis_op app returned1 pid1_step is_compute1 returned is_compute map].
  set (q := pid1_new _). assert (Q : q = mkPid1 (mkPC1 0 1 0 0 1 false false 0 0) s10).
  { subst q. unfold pid1_new, pid1_reset, pid1_update, c1_update.
    cbn [axis_params pp_wind pid1_c pid1_s pp1_up pp1_lo pp1_kp pp1_ki pp1_kd pp1_aw pp1_alpha pp1_rflag pp_aw pp_kp pp_ki pp_kd pp_alpha pp_rflag pp_up pp_lo v0 v1 r3 pr vx].
    unR. rdec. cbn [negb orb]. reflexivity. }
  rewrite Q. unfold pid1_compute, pid1_acc, pid1_out. cbn [pid1_c pid1_s c1_aw c1_rflag c1_sflag c1_kp c1_ki c1_kd s1_init s10 s1_first s1_acc rst1].
  unR. rdec. cbn [negb bindo pid1_output pid1_s s1_out].
  intros H. injection H as H.
  assert (V : pr AX (pid_output (pid_step (pid_new (pp_wind (mkV 0 1 1) false)) (OpCompute 1 (r3 1)))) = 0).
  { rewrite new_aw. cbn [pid_step pid_compute pid_output pid_s ps_out pid_c]. unfold pid_out. cbn [pc_sflag pc_kp pc_ki pc_kd].
    rewrite !pr_vadd, !diag_mul, !pr_v0, pr_r3. unfold pid_acc. cbn [pc_aw pc_rflag].
    assert (W : veqb (mkV 0 1 1) v0 = false) by (apply veqb_v0_false; exists AY; cbn; lra). rewrite W. cbn [negb rst1].
    rewrite saturate_false_pr, pr_vscale. cbn [pr vx]. rewrite sat1_limited by (unR; lra). unfold limited; unR.
    replace (-1 * 0) with 0 by ring. unfold Rmin, Rmax. destruct (Rle_dec _ 0); destruct (Rle_dec 0 _); lra. }
  cbn [pid_step] in V. cbn [pid_output] in *. cbn [pr] in V. rewrite V in H.
  unfold pid1_filt in H. cbn [c1_alpha s1_perr s1_filt] in H. unR. lra.
Qed.

(** ** Positive cases *)
(** A saturated, per-axis controller: gains 2, 1, 1/2, alpha 1/2, limits ±3. *)
Definition pp_ex : PidParams R := mkPP (r3 2) (r3 1) (r3 (1/2)) (r3 1) (r3 (1/2)) false false (r3 3) (r3 (-3)).
Lemma pp_ex_new : pid_new pp_ex = mkPid (mkPC (vdiagm (r3 2)) (vdiagm (r3 1)) (vdiagm (r3 (1/2))) (r3 1) (r3 (1/2)) false true false (r3 3) (r3 (-3))) ps0.
Proof. apply (new_cfg_on pp_ex). intros a; unfold pp_ex; cbn [pp_up pp_lo]; rewrite !pr_r3; apply wide_R; lra. Qed.
Lemma pp_ex_separable : separable pp_ex.
Proof.
  split; [reflexivity|]. split; [right; intros a; cbn [pp_ex pp_aw]; rewrite pr_r3; lra|].
  left. intros a. cbn [pp_ex pp_up pp_lo]. rewrite !pr_r3. apply wide_R. lra.
Qed.
(** The same with proportional saturation. *)
Definition pp_exp : PidParams R := mkPP (r3 2) v0 v0 v0 v1 false true (mkV 1 2 3) (mkV (-1) (-2) (-3)).
Lemma pp_exp_new : pid_new pp_exp = mkPid (mkPC (vdiagm (r3 2)) (vdiagm v0) (vdiagm v0) v0 v1 false true true (mkV 1 2 3) (mkV (-1) (-2) (-3))) ps0.
Proof. apply (new_cfg_on pp_exp). intros a; unfold pp_exp; cbn [pp_up pp_lo]; destruct a; cbn [pr vx vy vz]; apply wide_R; lra. Qed.
Lemma pp_exp_case :
  Reached (pid_new pp_exp) /\ pid_sat_on (pid_new pp_exp) = true /\ pid_prop_on (pid_new pp_exp) = true /\
  around_zero (fst (pid_limits (pid_new pp_exp))) (snd (pid_limits (pid_new pp_exp))) /\
  pid_output (pid_step (pid_new pp_exp) (OpCompute 1 (mkV 2 1 1))) = mkV 1 (1/2) (1/2).
Proof.
  split; [exists pp_exp, []; reflexivity|]. split; [rewrite pp_exp_new; reflexivity|].
  split; [rewrite pp_exp_new; reflexivity|].
  split; [rewrite pp_exp_new; intros []; cbn; lra|].
  rewrite first_prop_only; try reflexivity; try (rewrite pp_exp_new; reflexivity).
  rewrite pp_exp_new. cbn [pid_sat_on pid_prop_on pid_limits pid_c pc_sflag pc_pflag pc_up pc_lo fst snd pp_exp pp_kp].
  unfold saturate, psat1, vcmul, vscale, vmap, vmap2, r3. cbn [negb vx vy vz]. unR. rdec.
  apply V3_eq; cbn [vx vy vz]; lra.
Qed.

(** Textbook case: three calls of an unsaturated controller. *)
Definition pp_tb : PidParams R := mkPP (r3 2) (r3 1) (r3 (1/2)) v0 (r3 (1/2)) false false v0 v0.
Lemma pp_tb_new : pid_new pp_tb = mkPid (mkPC (vdiagm (r3 2)) (vdiagm (r3 1)) (vdiagm (r3 (1/2))) v0 (r3 (1/2)) false false false v0 v0) ps0.
Proof. apply (new_cfg_off pp_tb); intros a; apply pr_v0. Qed.
Lemma pp_tb_plain : Reached (pid_new pp_tb) /\ plain (pid_new pp_tb).
Proof.
  split; [exists pp_tb, []; reflexivity|]. unfold plain. rewrite pp_tb_new. split; [reflexivity|]. split; [|reflexivity].
  intros a. apply pr_v0.
Qed.
Lemma tb_value a :
  pr a (pid_output (pid_run (pid_reset (pid_new pp_tb)) (calls_of [(1/2, r3 1); (1/4, r3 3); (1/2, r3 2)]))) = 27/4.
Proof.
  destruct pp_tb_plain as [A B].
  change [(1/2, r3 1); (1/4, r3 3); (1/2, r3 2)] with ([(1/2, r3 1); (1/4, r3 3)] ++ [(1/2, r3 2)]).
  rewrite (pid_textbook _ _ _ _ _ A B). rewrite pp_tb_new.
  unfold pid_kp, pid_ki, pid_kd, pid_alpha. cbn [pid_c pc_kp pc_ki pc_kd pc_alpha].
  unfold axis_calls. cbn [app map rev fst snd textbook int_sum filtered]. rewrite !pr_r3.
  replace (pr a (mdiagv (vdiagm (r3 2)))) with 2 by (destruct a; reflexivity).
  replace (pr a (mdiagv (vdiagm (r3 1)))) with 1 by (destruct a; reflexivity).
  replace (pr a (mdiagv (vdiagm (r3 (1/2))))) with (1/2) by (destruct a; reflexivity).
  lra.
Qed.

Lemma sat_set_R p up lo f :
  let q := pid_step p (OpSetSat up lo f) in
  ((forall a, wide (pr a up) (pr a lo)) -> pid_sat_on q = true /\ pid_prop_on q = f /\ pid_limits q = (up, lo)) /\
  ((exists a, ~ wide (pr a up) (pr a lo)) -> pid_sat_on q = false).
Proof.
  intros q. subst q. unfold pid_sat_on, pid_prop_on, pid_limits. cbn [pid_step on_cfg pid_c]. split.
  - intros H. rewrite set_sat_on by (intros a; apply sat_bad_R, H). repeat split.
  - intros [a Ha]. apply set_sat_off. exists a. apply sat_bad_Rt. exact Ha.
Qed.

Lemma sat_first_R p up lo f :
  let q := pid_step p (OpSetSat up lo f) in
  (~ wide (vx up) (vx lo) -> pid_limits q = pid_limits p) /\ (wide (vx up) (vx lo) -> pid_limits q = (up, lo)).
Proof.
  intros q. subst q. unfold pid_limits. cbn [pid_step on_cfg pid_c]. split; intros H.
  - destruct (set_sat_first_axis (pid_c p) up lo f) as [-> ->]; [apply sat_bad_Rt; exact H|]. reflexivity.
  - destruct (set_sat_leaks (pid_c p) up lo f) as [-> ->]; [apply sat_bad_R; exact H|]. reflexivity.
Qed.

Lemma rejected1_keeps {T} {O : Ops T} (p q : Pid1 T) u l :
  pid1_step p (Op1SetSat u l) = Some q -> pid1_sat_on q = false -> pid1_limits q = pid1_limits p.
Proof.
  cbn [pid1_step]. intros H S. injection H as <-. unfold pid1_sat_on, pid1_limits, on_cfg1 in *. cbn [pid1_c] in *.
  destruct (sat_bad u l) eqn:E; [rewrite set_sat1_rejected by exact E; reflexivity|].
  rewrite set_sat1_accepted in S by exact E. discriminate S.
Qed.

Lemma ex_first a :
  let p := pid_new pp_ex in
  pr a (pid_output (pid_step (pid_reset p) (OpCompute (1/2) (r3 1)))) = 5/2 /\
  pr a (pid_output (pid_step (pid_reset p) (OpCompute (1/2) (r3 7)))) = 3.
Proof.
  intros p.
  assert (F : forall x, pr a (pid_output (pid_step (pid_reset p) (OpCompute (1/2) (r3 x)))) =
    limited (2 * x + 1 * limited (x * (1/2)) (-1) 1) (-3) 3).
  { intros x. unfold p.
    destruct (first_call (pid_new pp_ex) (1/2) (r3 x) a) as [_ E].
    - exists pp_ex, []. reflexivity.
    - rewrite pp_ex_new. intros b. unfold pid_aw. cbn [pid_c pc_aw]. rewrite pr_r3. lra.
    - rewrite pp_ex_new. reflexivity.
    - rewrite E. rewrite pp_ex_new. unfold pid_sat_on, pid_kp, pid_ki, pid_aw, pid_limits, first_value.
      cbn [pid_c pc_sflag pc_kp pc_ki pc_aw pc_up pc_lo fst snd].
      assert (W : veqb (r3 1) v0 = false) by (apply veqb_v0_false; exists AX; cbn; lra). rewrite W. cbn [negb].
      rewrite !pr_r3.
      replace (pr a (mdiagv (vdiagm (r3 2)))) with 2 by (destruct a; reflexivity).
      replace (pr a (mdiagv (vdiagm (r3 1)))) with 1 by (destruct a; reflexivity).
      reflexivity. }
  split; rewrite F.
  - rewrite (limited_in (1 * (1/2))) by lra. rewrite limited_in by lra. lra.
  - rewrite (limited_hi (7 * (1/2))) by lra. rewrite limited_hi by lra. reflexivity.
Qed.

(** A history that changes settings, for the examples. *)
Definition ex_ops : list (PidOp R) :=
  [OpCompute (1/2) (r3 7); OpAw (r3 2); OpSetSat (r3 4) (r3 (-4)) false; OpComputeD (1/2) (r3 1) (r3 0); OpReset; OpCompute 1 (r3 1)].
Lemma ex_ops_separable : Forall separable_op ex_ops.
Proof.
  unfold ex_ops. repeat apply Forall_cons; try exact I; [| |apply Forall_nil].
  - right. intros a. rewrite pr_r3. lra.
  - split; [reflexivity|]. left. intros a. rewrite !pr_r3. apply wide_R. lra.
Qed.
Lemma ex_reached : Reached (pid_new pp_ex) /\ pid_sat_on (pid_new pp_ex) = true /\ pid_prop_on (pid_new pp_ex) = false /\
  pid_limits (pid_new pp_ex) = (r3 3, r3 (-3)) /\ pid_aw (pid_new pp_ex) = r3 1.
Proof. split; [exists pp_ex, []; reflexivity|]. rewrite pp_ex_new. repeat split. Qed.

Definition pp1_ex : P1Params R := axis_params AX pp_ex.
Lemma ex1_reached : Reached1 (pid1_new pp1_ex) /\ pid1_sat_on (pid1_new pp1_ex) = true /\
  pid1_limits (pid1_new pp1_ex) = (3, -3) /\ pid1_aw (pid1_new pp1_ex) = 1 /\ pid1_ki (pid1_new pp1_ex) = 1.
Proof.
  split; [exists pp1_ex, []; reflexivity|].
  assert (E : pid1_new pp1_ex = mkPid1 (mkPC1 2 1 (1/2) 1 (1/2) false true 3 (-3)) s10).
  { unfold pid1_new, pid1_reset, pid1_update, c1_update, pp1_ex.
    cbn [axis_params pp_ex pid1_c pid1_s pp1_up pp1_lo pp1_kp pp1_ki pp1_kd pp1_aw pp1_alpha pp1_rflag pp_aw pp_kp pp_ki pp_kd pp_alpha pp_rflag pp_up pp_lo r3 pr vx].
    unR. rdec. cbn [negb orb]. rewrite set_sat1_accepted by (apply sat_bad_R, wide_R; lra). reflexivity. }
  rewrite E. repeat split.
Qed.
(** A negative anti-windup constant makes the scalar controller's call undefined. *)
Lemma negative_windup1 : exists pp : P1Params R, pp1_aw pp < 0 /\ pid1_step (pid1_new pp) (Op1Compute 1 1) = None.
Proof.
  exists (mkPP1 1 1 0 (-1) 1 false 0 0). split; [cbn; lra|].
  apply (proj2 (step1_undefined _ _ ltac:(exists (mkPP1 1 1 0 (-1) 1 false 0 0), []; reflexivity))).
  split; [reflexivity|].
  assert (E : pid1_aw (pid1_new (mkPP1 1 1 0 (-1) 1 false 0 0)) = -1).
  { unfold pid1_aw, pid1_new, pid1_reset, pid1_update, c1_update. cbn [pid1_c pp1_up pp1_lo]. unR. rdec. reflexivity. }
  rewrite E. unR. split; [apply Reqb_false; lra|apply Rltb_true; lra].
Qed.
Lemma step1_undefined_R (p : Pid1 R) op : Reached1 p ->
  (pid1_step p op = None <-> is_compute1 op = true /\ pid1_aw p < 0).
Proof.
  intros H. rewrite (step1_undefined p op H). unR. rewrite Reqb_false, Rltb_true.
  split; intros (A & B); (split; [exact A|]); lra.
Qed.
Lemma flag_restart_case : exists p : Pid R, exists e,
  Reached p /\ pid_reset_flag p = true /\ (forall b, pr b (pid_aw p) = 0) /\
  pr AX (pid_int_part p) = 2 /\ pr AX e = -1 /\ pr AX (pid_int_part (pid_step p (OpCompute 1 e))) = -1.
Proof.
  set (p := pid_step (pid_new (pp_wind v0 true)) (OpCompute 1 (r3 2))).
  assert (C : pid_c p = mkPC (vdiagm v0) (vdiagm (r3 1)) (vdiagm v0) v0 v1 true false false v0 v0)
    by (subst p; rewrite new_aw; reflexivity).
  assert (Hr : Reached p) by (exists (pp_wind v0 true), [OpCompute 1 (r3 2)]; reflexivity).
  assert (W : forall b, pr b (pid_aw p) = 0) by (unfold pid_aw; rewrite C; apply pr_v0).
  assert (V0 : veqb (v0 : V3 R) v0 = true) by (apply veqb_v0_true; apply pr_v0).
  assert (A : pr AX (ps_acc (pid_s p)) = 2).
  { subst p. rewrite new_aw. cbn [pid_step pid_compute pid_s ps_acc pid_c].
    unfold pid_acc. cbn [pc_aw pc_rflag]. rewrite V0. cbn [negb]. rewrite pr_vadd, pr_vscaler.
    cbn [ps_init ps0 ps_first ps_acc v0 vx vy vz pr]. change (@zero R _) with 0. rewrite rst1_zero. cbn [r3 vx]. lra. }
  exists p, (r3 (-1)). split; [exact Hr|]. split; [unfold pid_reset_flag; rewrite C; reflexivity|]. split; [exact W|].
  split.
  { replace (pid_int_part p) with (mmulv (pc_ki (pid_c p)) (ps_acc (pid_s p))) by reflexivity.
    rewrite C. cbn [pc_ki]. rewrite diag_mul, A, pr_r3. lra. }
  split; [reflexivity|].
  rewrite flag_restarts; [| exact Hr|unfold pid_reset_flag; rewrite C; reflexivity|exact W|reflexivity|rewrite A, pr_r3; lra].
  unfold pid_ki. rewrite C. cbn. lra.
Qed.
