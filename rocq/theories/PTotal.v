(** The integral contribution is the gain times the total error. *)

From Coq Require Import ZArith List Bool Lia Reals Lra.
From Verif Require Import Scalar LinAlg MUtils MModel MDynamics MPid MControl MCtlRun MImu MSim
  SpecDyn SpecRun SpecPid SpecCtl SpecImu SpecSim SpecClimb SpecTotal
  PBase PDyn PModel PDynR PPid PPidR PCtl PCtlR PSim PSimR PClimbSim.
Import ListNotations.
Local Open Scope R_scope.

(** ** One loop *)
Record sums (a : Ax) (pp : PidParams R) (tot : R) (p : Pid R) : Prop := {
  su_ki : pc_ki (pid_c p) = vdiagm (pp_ki pp);
  su_aw : forall b, pr b (pc_aw (pid_c p)) = 0;
  su_rf : pc_rflag (pid_c p) = false;
  su_acc : if ps_first (pid_s p) then tot = 0 else pr a (ps_acc (pid_s p)) = tot;
  su_ci : pr a (pid_int_part p) = pr a (pp_ki pp) * tot }.

Lemma ki_part (k v : V3 R) a : pr a (mmulv (vdiagm k) v) = pr a k * pr a v.
Proof. destruct a; unfold mmulv, vdiagm; cbn; unR; ring. Qed.

Lemma new_sums a pp : free_integral pp -> sums a pp 0 (pid_new pp).
Proof.
  intros [A B]. unfold pid_new, pid_reset, pid_update, pc_update.
  split; cbn [pid_c pid_s ps_first ps_reset ps0 pid_int_part ps_ci].
  - destruct (_ || _); [unfold pc_set_sat; cbv zeta; destruct (sat_bad _ _); [|destruct (sat_bad (vy _) _); [|destruct (sat_bad (vz _) _)]]|]; reflexivity.
  - destruct (_ || _); [unfold pc_set_sat; cbv zeta; destruct (sat_bad _ _); [|destruct (sat_bad (vy _) _); [|destruct (sat_bad (vz _) _)]]|]; exact A.
  - destruct (_ || _); [unfold pc_set_sat; cbv zeta; destruct (sat_bad _ _); [|destruct (sat_bad (vy _) _); [|destruct (sat_bad (vz _) _)]]|]; exact B.
  - reflexivity.
  - rewrite pr_v0. ring.
Qed.

Lemma acc_adds (c : PidCfg R) acc dt e a : (forall b, pr b (pc_aw c) = 0) -> pc_rflag c = false -> pr a (pid_acc c acc dt e) = pr a acc + dt * pr a e.
Proof.
  intros A B. unfold pid_acc. cbv zeta. rewrite B. cbn [rst1].
  replace (veqb (pc_aw c) v0) with true by (symmetry; apply veqb_v0_true; exact A). cbn [negb].
  destruct a; cbn; unR; ring.
Qed.

Lemma compute_sums a pp tot p dt e : sums a pp tot p -> sums a pp (tot + dt * pr a e) (pid_step p (OpCompute dt e)).
Proof.
  intros [A B C D E]. cbn [pid_step]. unfold pid_compute. cbv zeta.
  assert (X : pr a (pid_acc (pid_c p) (ps_acc (ps_init (pid_s p) e)) dt e) = tot + dt * pr a e).
  { rewrite acc_adds by assumption. unfold ps_init. destruct (ps_first (pid_s p)); [cbn [ps_acc]; rewrite pr_v0; lra|lra]. }
  split; cbn [pid_c pid_s ps_first pid_int_part ps_ci ps_acc]; try assumption. rewrite A, ki_part, X. reflexivity.
Qed.
Lemma compute_d_sums a pp tot p dt e de : sums a pp tot p -> sums a pp (tot + dt * pr a e) (pid_step p (OpComputeD dt e de)).
Proof.
  intros [A B C D E]. cbn [pid_step]. unfold pid_compute_d. cbv zeta.
  assert (X : pr a (pid_acc (pid_c p) (ps_acc (ps_init (pid_s p) e)) dt e) = tot + dt * pr a e).
  { rewrite acc_adds by assumption. unfold ps_init. destruct (ps_first (pid_s p)); [cbn [ps_acc]; rewrite pr_v0; lra|lra]. }
  split; cbn [pid_c pid_s ps_first pid_int_part ps_ci ps_acc]; try assumption. rewrite A, ki_part, X. reflexivity.
Qed.

(** ** One call *)
Section Sim.
Context {G H : Gen R}.
Variables (n : nat) (w : Which) (a : Ax) (pp : PidParams R).

Definition gained (s s1 : Sim R G H) (op : SimOp R G H) : R :=
  match op with SController dt => if sm_armed s && works w (sm_mode s) then dt * off w a s s1 else 0 | _ => 0 end.

Lemma rate_yaw_same (s : Sim R G H) : let s1 := update_yaw_reference s in
  sm_ctl s1 = sm_ctl s /\ sim_state s1 = sim_state s /\ sm_mode s1 = sm_mode s /\ sm_armed s1 = sm_armed s.
Proof. repeat split. Qed.

Lemma pr_sub (x y : V3 R) : pr a (vsub x y) = pr a x - pr a y.
Proof. destruct a; reflexivity. Qed.

(** What one control call does to each loop. *)
Definition moved (c c' : Ctl R) (m : Mode) (st : State R) (dt : R) (a : Ax) : Prop :=
  forall w, if works w m
    then forall tot pp, sums a pp tot (get_pid w c) -> sums a pp (tot + dt * (pr a (demanded w c') - pr a (actual w st))) (get_pid w c')
    else get_pid w c' = get_pid w c.

Lemma acc_indi (c : Ctl R) A cw acc yaw dt : let c' := ctl_acc c A cw acc yaw dt in
  get_pid WIndi c' = pid_step (get_pid WIndi c) (OpCompute dt (vsub (get_desired_angular_velocity c') cw)) /\
  get_pid WPos c' = get_pid WPos c /\ get_pid WVel c' = get_pid WVel c /\ get_pid WTraj c' = get_pid WTraj c /\
  get_desired_position c' = get_desired_position c /\ get_desired_linear_velocity c' = get_desired_linear_velocity c.
Proof.
  cbv zeta. destruct (ctl_acc_shape c A cw acc yaw dt) as (A1 & A2 & A3 & A4 & A5 & A6).
  destruct (acc_frame c A cw acc yaw dt) as (B1 & B2 & B3 & B4 & B5).
  split.
  { unfold get_desired_angular_velocity. cbn [get_pid]. rewrite A5, A3. reflexivity. }
  repeat split; assumption.
Qed.

Lemma acro_moved (c : Ctl R) st th des dt : moved c (ctl_acro c (s_angvel st) th des dt) ACRO st dt a.
Proof.
  intros v. destruct v; cbn [works]; try reflexivity. intros tot q S.
  apply (compute_sums a q tot _ dt (vsub des (s_angvel st))) in S. rewrite pr_sub in S. exact S.
Qed.
Lemma traj_moved (c : Ctl R) st A dp dv da yaw dt : moved c (ctl_traj c (s_pos st) (s_vel st) A (s_angvel st) dp dv da yaw dt) TRAJECTORY st dt a.
Proof.
  unfold ctl_traj, traj_control. cbv zeta. set (p' := pid_compute_d _ _ _ _). set (acc := vadd _ da). set (c1 := mkCtl _ _ _ _ _ _ _ _ _ _ _).
  destruct (acc_indi c1 A (s_angvel st) acc yaw dt) as (B1 & B2 & B3 & B4 & B5 & B6).
  intros v. destruct v; cbn [works].
  - intros tot q S. rewrite B1. apply (compute_sums a q tot _ dt (vsub (get_desired_angular_velocity (ctl_acc c1 A (s_angvel st) acc yaw dt)) (s_angvel st))) in S.
    rewrite pr_sub in S. exact S.
  - rewrite B2. reflexivity.
  - intros tot q S. rewrite B4. unfold demanded, actual. rewrite B5.
    apply (compute_d_sums a q tot _ dt (vsub dp (s_pos st)) (vsub dv (s_vel st))) in S. rewrite pr_sub in S. exact S.
  - rewrite B3. reflexivity.
Qed.
Lemma vel_moved (c : Ctl R) st A dv yaw dt : moved c (ctl_vel c (s_vel st) A (s_angvel st) dv yaw dt) VELOCITY st dt a /\
  get_desired_linear_velocity (ctl_vel c (s_vel st) A (s_angvel st) dv yaw dt) = dv /\
  get_desired_position (ctl_vel c (s_vel st) A (s_angvel st) dv yaw dt) = get_desired_position c.
Proof.
  unfold ctl_vel. cbv zeta. set (p' := pid_on_error _ _ _ _). set (acc := ps_out _). set (c1 := mkCtl _ _ _ _ _ _ _ _ _ _ _).
  destruct (acc_indi c1 A (s_angvel st) acc yaw dt) as (B1 & B2 & B3 & B4 & B5 & B6).
  split; [|split; [exact B6|exact B5]].
  intros v. destruct v; cbn [works].
  - intros tot q S. rewrite B1. apply (compute_sums a q tot _ dt (vsub (get_desired_angular_velocity (ctl_acc c1 A (s_angvel st) acc yaw dt)) (s_angvel st))) in S.
    rewrite pr_sub in S. exact S.
  - rewrite B2. reflexivity.
  - rewrite B4. reflexivity.
  - intros tot q S. rewrite B3. unfold demanded, actual. rewrite B6.
    apply (compute_sums a q tot _ dt (vsub dv (s_vel st))) in S. rewrite pr_sub in S. exact S.
Qed.
Lemma pos_moved (c : Ctl R) st A dp yaw dt : let c' := ctl_pos c (s_pos st) A (s_vel st) (s_angvel st) dp yaw dt in
  moved c c' POSITION st dt a /\ moved c c' HOVER st dt a.
Proof.
  cbv zeta. unfold ctl_pos. cbv zeta. set (p' := pid_on_error _ _ _ _). set (dv := ps_out _). set (c1 := mkCtl _ _ _ _ _ _ _ _ _ _ _).
  destruct (vel_moved c1 st A dv yaw dt) as (M & B1 & B2). set (c2 := ctl_vel _ _ _ _ _ _ _) in *.
  assert (X : forall v, if works v POSITION then forall tot q, sums a q tot (get_pid v c) -> sums a q (tot + dt * (pr a (demanded v c2) - pr a (actual v st))) (get_pid v c2)
    else get_pid v c2 = get_pid v c).
  { intros v. specialize (M v). destruct v; cbn [works] in *.
    - exact M.
    - intros tot q S. rewrite M. unfold demanded, actual. rewrite B2.
      apply (compute_sums a q tot _ dt (vsub dp (s_pos st))) in S. rewrite pr_sub in S. exact S.
    - exact M.
    - exact M. }
  split; exact X.
Qed.

(** The loop's books after one call. *)
Lemma step_sums (s s1 : Sim R G H) op tot : keeps_ctl op -> next (sim_step n s op) s1 ->
  sums a pp tot (get_pid w (sm_ctl s)) -> sums a pp (tot + gained s s1 op) (get_pid w (sm_ctl s1)).
Proof.
  intros K N S.
  assert (Same : sm_ctl s1 = sm_ctl s -> gained s s1 op = 0 -> sums a pp (tot + gained s s1 op) (get_pid w (sm_ctl s1))).
  { intros -> ->. rewrite Rplus_0_r. exact S. }
  destruct op; cbn [keeps_ctl] in K; try contradiction;
    try (apply Same; [destruct N as [N|N]; cbn [sim_step] in N; try discriminate N; injection N as <-; reflexivity|reflexivity]).
  - apply Same; [exact (proj1 (frame_dynamics n s dt s1 N))|reflexivity].
  - clear Same. destruct N as [N|N]; cbn [sim_step] in N; [|discriminate N]. injection N as <-.
    unfold gained, update_controller. destruct (sm_armed s) eqn:Ar; cbn [negb andb].
    2:{ rewrite Rplus_0_r. exact S. }
    set (s2 := match sm_yawmode s with ANGLE => s | RATE => update_yaw_reference s end).
    assert (E : sm_ctl s2 = sm_ctl s /\ sim_state s2 = sim_state s /\ sm_mode s2 = sm_mode s).
    { unfold s2. destruct (sm_yawmode s); repeat split. }
    destruct E as (E1 & E2 & E3). rewrite <- E1 in S. unfold off. rewrite <- E2, <- E3. clearbody s2. clear E1 E2 E3.
    set (st := sim_state s2) in *. set (rf := sm_refs s2).
    assert (Use : forall c m, moved (sm_ctl s2) c m st dt a ->
      sums a pp (tot + (if works w m then dt * (pr a (demanded w c) - pr a (actual w st)) else 0)) (get_pid w c)).
    { intros c m X. specialize (X w). destruct (works w m); [apply X, S|rewrite X, Rplus_0_r; exact S]. }
    destruct (sm_mode s2); cbn [with_control with_act sm_ctl]; apply Use.
    + apply pos_moved.
    + intros v. destruct v; reflexivity.
    + apply acro_moved.
    + apply traj_moved.
    + apply vel_moved.
    + apply pos_moved.
  - apply Same; [|reflexivity]. destruct N as [N|N]; cbn [sim_step] in N; [|discriminate N]. injection N as <-. unfold set_control_mode. destruct (_ && _); reflexivity.
  - apply Same; [|reflexivity]. cbn [sim_step] in N. unfold set_dynamics_params, of_opt in N. destruct (dyn_new _ _ _ _); destruct N as [N|N]; try discriminate N. injection N as <-. reflexivity.
Qed.

(** ** Histories *)
Lemma total_cons (s s1 : Sim R G H) op ops : next (sim_step n s op) s1 -> total_off w a n s (op :: ops) = gained s s1 op + total_off w a n s1 ops.
Proof. intros [N|N]; cbn [total_off]; rewrite N; reflexivity. Qed.
Lemma run_sums ops : forall (s s' : Sim R G H) tot, Forall keeps_ctl ops -> sim_run n s ops = Some s' ->
  sums a pp tot (get_pid w (sm_ctl s)) -> sums a pp (tot + total_off w a n s ops) (get_pid w (sm_ctl s')).
Proof.
  induction ops as [|op r IH]; intros s s' tot K E S.
  - injection E as <-. cbn [total_off]. rewrite Rplus_0_r. exact S.
  - apply Forall_cons_iff in K as [K1 K2].
    assert (X : exists s1, next (sim_step n s op) s1 /\ sim_run n s1 r = Some s').
    { cbn [sim_run] in E. destruct (sim_step n s op) as [s1|s1|]; [exists s1; split; [left; reflexivity|exact E]|exists s1; split; [right; reflexivity|exact E]|discriminate E]. }
    destruct X as (s1 & N & E1). rewrite (total_cons s s1 op r N), <- Rplus_assoc. apply (IH s1 s'); [exact K2|exact E1|]. apply step_sums; assumption.
Qed.

Lemma start_sums sp (s : Sim R G H) : sim_new n sp = Some s -> pp = loop_params w (sp_ctl sp) -> free_integral pp -> sums a pp 0 (get_pid w (sm_ctl s)).
Proof.
  intros N -> F. assert (C : sm_ctl s = ctl_new n (sp_ctl sp)).
  { unfold sim_new in N. destruct (dyn_new _ _ _ _); [|discriminate]. cbn in N. injection N as <-. reflexivity. }
  rewrite C. destruct w; apply new_sums; exact F.
Qed.
End Sim.

Lemma integral_since {G H : Gen R} n w a sp ops ops' (s s' : Sim R G H) :
  free_integral (loop_params w (sp_ctl sp)) -> Forall keeps_ctl ops -> Forall keeps_ctl ops' ->
  sim_after n sp ops = Some s -> sim_run n s ops' = Some s' ->
  integral_part w a s' - integral_part w a s = pr a (pp_ki (loop_params w (sp_ctl sp))) * total_off w a n s ops'.
Proof.
  intros F K K' E E'. unfold sim_after in E. destruct (sim_new n sp) as [s0|] eqn:N; [|discriminate].
  pose proof (start_sums n w a _ sp s0 N eq_refl F) as S0.
  pose proof (run_sums n w a _ ops s0 s 0 K E S0) as S1.
  pose proof (run_sums n w a _ ops' s s' _ K' E' S1) as S2.
  unfold integral_part. rewrite (su_ci _ _ _ _ S1), (su_ci _ _ _ _ S2). ring.
Qed.
Lemma integral_total {G H : Gen R} n w a sp ops (s0 s : Sim R G H) :
  free_integral (loop_params w (sp_ctl sp)) -> Forall keeps_ctl ops -> sim_new n sp = Some s0 -> sim_run n s0 ops = Some s ->
  integral_part w a s = pr a (pp_ki (loop_params w (sp_ctl sp))) * total_off w a n s0 ops.
Proof.
  intros F K N E. pose proof (start_sums n w a _ sp s0 N eq_refl F) as S0.
  pose proof (run_sums n w a _ ops s0 s 0 K E S0) as S1. unfold integral_part. rewrite (su_ci _ _ _ _ S1). ring.
Qed.

Lemma mean_off {G H : Gen R} n w a sp ops ops' (s s' : Sim R G H) B :
  free_integral (loop_params w (sp_ctl sp)) -> Forall keeps_ctl ops -> Forall keeps_ctl ops' ->
  sim_after n sp ops = Some s -> sim_run n s ops' = Some s' ->
  pr a (pp_ki (loop_params w (sp_ctl sp))) <> 0 -> Rabs (integral_part w a s) <= B -> Rabs (integral_part w a s') <= B ->
  Rabs (total_off w a n s ops') <= 2 * B / Rabs (pr a (pp_ki (loop_params w (sp_ctl sp)))).
Proof.
  intros F K K' E E' Hk B1 B2. pose proof (integral_since n w a sp ops ops' s s' F K K' E E') as I.
  set (ki := pr a _) in *. pose proof (Rabs_pos_lt _ Hk) as P.
  apply Rmult_le_reg_r with (Rabs ki); [exact P|]. unfold Rdiv. rewrite Rmult_assoc, Rinv_l by lra.
  rewrite <- Rabs_mult, (Rmult_comm (total_off w a n s ops')), <- I.
  apply Rle_trans with (Rabs (integral_part w a s') + Rabs (integral_part w a s)); [|lra].
  unfold Rminus. eapply Rle_trans; [apply Rabs_triang|]. rewrite Rabs_Ropp. lra.
Qed.

(** ** Where a flight settles *)
Lemma INR_archimed x : exists j, x < INR j.
Proof.
  destruct (archimed x) as [A _]. exists (Z.to_nat (up x)). rewrite INR_IZR_INZ.
  destruct (Z_le_gt_dec 0 (up x)) as [P|P]; [rewrite Z2Nat.id by exact P; lra|].
  replace (Z.to_nat (up x)) with 0%nat by lia. cbn. apply Z.gt_lt, IZR_lt in P. lra.
Qed.
Lemma bounded_mean (e : nat -> R) (S : nat -> R) L B dt : 0 < dt -> (forall k, S (Datatypes.S k) = S k + dt * e k) -> (forall k, Rabs (S k) <= B) -> Un_cv e L -> L = 0.
Proof.
  intros Hd HS HB Cv.
  assert (Pos : forall (e : nat -> R) (S : nat -> R) L, (forall k, S (Datatypes.S k) = S k + dt * e k) -> (forall k, Rabs (S k) <= B) -> Un_cv e L -> L <= 0).
  { clear e S L HS HB Cv. intros e S L HS HB Cv. destruct (Rle_lt_dec L 0) as [Q|Q]; [exact Q|exfalso].
    destruct (Cv (L / 2)) as [N HN]; [lra|].
    assert (Grow : forall j, S N + INR j * (dt * (L / 2)) <= S (N + j)%nat).
    { induction j as [|j IH]; [rewrite Nat.add_0_r; cbn [INR]; lra|]. rewrite Nat.add_succ_r, HS, S_INR.
      assert (L / 2 < e (N + j)%nat).
      { specialize (HN (N + j)%nat). unfold R_dist in HN. assert (D : Rabs (e (N + j)%nat - L) < L / 2) by (apply HN; lia). apply Rabs_def2 in D. lra. }
      assert (dt * (L / 2) <= dt * e (N + j)%nat) by (apply Rmult_le_compat_l; lra). lra. }
    assert (P : 0 < dt * (L / 2)) by (apply Rmult_lt_0_compat; lra).
    destruct (INR_archimed ((2 * B + 1) / (dt * (L / 2)))) as [j Hj].
    assert (2 * B + 1 < INR j * (dt * (L / 2))).
    { apply Rmult_lt_reg_r with (/ (dt * (L / 2))); [apply Rinv_0_lt_compat, P|]. rewrite Rmult_assoc, Rinv_r by lra. unfold Rdiv in Hj. lra. }
    specialize (Grow j). pose proof (HB N) as B1. pose proof (HB (N + j)%nat) as B2.
    pose proof (Rle_abs (S (N + j)%nat)). pose proof (Rle_abs (- S N)). rewrite Rabs_Ropp in *. lra. }
  apply Rle_antisym; [exact (Pos e S L HS HB Cv)|].
  assert (- L <= 0); [|lra]. apply (Pos (fun k => - e k) (fun k => - S k)).
  - intros k. rewrite HS. ring.
  - intros k. rewrite Rabs_Ropp. apply HB.
  - apply CV_opp in Cv. exact Cv.
Qed.

Lemma settles {G H : Gen R} n w a sp ops dt (s c : nat -> Sim R G H) B L :
  free_integral (loop_params w (sp_ctl sp)) -> pr a (pp_ki (loop_params w (sp_ctl sp))) <> 0 -> Forall keeps_ctl ops -> 0 < dt ->
  (forall k, sim_after n sp (ops ++ rounds dt k) = Some (s k)) -> (forall k, sim_step n (s k) (SController dt) = Ok (c k)) ->
  sm_armed (s 0%nat) = true -> works w (sm_mode (s 0%nat)) = true ->
  (forall k, Rabs (integral_part w a (s k)) <= B) -> Un_cv (fun k => off w a (s k) (c k)) L -> L = 0.
Proof.
  intros F Hk K Hd Hs Hc Ar Wk HB Cv. set (ki := pr a _) in *.
  assert (St : forall k, sim_run n (s k) [SController dt; SDynamics dt] = Some (s (S k))).
  { intros k. pose proof (Hs (S k)) as E. rewrite rounds_snoc, app_assoc in E. pose proof (Hs k) as E0. unfold sim_after in *.
    destruct (sim_new n sp) as [x|]; [|discriminate]. rewrite PSim.run_app, E0 in E. exact E. }
  assert (Fr : forall k, sm_armed (s k) = true /\ sm_mode (s k) = sm_mode (s 0%nat)).
  { induction k as [|k [I1 I2]]; [split; [exact Ar|reflexivity]|]. pose proof (St k) as E. cbn [sim_run] in E. rewrite (Hc k) in E.
    destruct (frame_controller n (s k) dt (c k) (Hc k)) as (_ & _ & _ & A1 & _ & _ & _ & A2 & _).
    assert (N : next (sim_step n (c k) (SDynamics dt)) (s (S k))).
    { destruct (sim_step n (c k) (SDynamics dt)); [left|right|discriminate]; injection E as ->; reflexivity. }
    destruct (frame_dynamics n _ _ _ N) as (_ & B1 & _ & _ & _ & _ & B2 & _). split; congruence. }
  assert (Kr : forall k, Forall (keeps_ctl (G := G) (H := H)) (rounds dt k)).
  { induction k as [|k IH]; [apply Forall_nil|]. rewrite rounds_snoc. apply Forall_app. split; [exact IH|]. repeat (apply Forall_cons; [exact I|]). apply Forall_nil. }
  apply (bounded_mean (fun k => off w a (s k) (c k)) (fun k => integral_part w a (s k) / ki) L (B / Rabs ki) dt Hd); [| |exact Cv].
  - intros k. assert (I : integral_part w a (s (S k)) - integral_part w a (s k) = ki * (dt * off w a (s k) (c k))).
    { unfold ki. rewrite (integral_since n w a sp (ops ++ rounds dt k) [SController dt; SDynamics dt] (s k) (s (S k))).
      - f_equal. destruct (Fr k) as [F1 F2]. pose proof (St k) as E. cbn [sim_run] in E. cbn [total_off]. rewrite (Hc k) in *. rewrite F1, F2, Wk. cbn [andb].
        destruct (sim_step n (c k) (SDynamics dt)); try discriminate E; ring.
      - exact F.
      - apply Forall_app. split; [exact K|apply Kr].
      - repeat (apply Forall_cons; [exact Logic.I|]). apply Forall_nil.
      - apply Hs.
      - apply St. }
    apply Rmult_eq_reg_l with ki; [|exact Hk]. unfold Rdiv.
    replace (ki * (integral_part w a (s (S k)) * / ki)) with (integral_part w a (s (S k))) by (field; exact Hk).
    replace (ki * (integral_part w a (s k) * / ki + dt * off w a (s k) (c k))) with (integral_part w a (s k) + ki * (dt * off w a (s k) (c k))) by (field; exact Hk). lra.
  - intros k. unfold Rdiv. rewrite Rabs_mult, Rabs_inv. apply Rmult_le_compat_r; [|apply HB]. left. apply Rinv_0_lt_compat, Rabs_pos_lt, Hk.
Qed.
