(** Integral action that is bounded by anti-windup. *)

From Coq Require Import ZArith List Bool Lia Reals Lra.
From Verif Require Import Scalar LinAlg MUtils MModel MDynamics MPid MControl MCtlRun MImu MSim
  SpecDyn SpecRun SpecPid SpecCtl SpecImu SpecSim SpecClimb SpecTotal
  PBase PDyn PModel PDynR PPid PPidR PCtl PCtlR PSim PSimR PClimbSim PTotal.
Import ListNotations.
Local Open Scope R_scope.

Definition cut (B x : R) : R := if Rlt_dec B x then B else if Rlt_dec x (- B) then - B else x.
Lemma cut_range B x : 0 < B -> - B <= cut B x <= B.
Proof. intros P. unfold cut. destruct (Rlt_dec B x); [lra|]. destruct (Rlt_dec x (- B)); lra. Qed.

(** ** One loop *)
Record books (a : Ax) (pp : PidParams R) (acc : R) (p : Pid R) : Prop := {
  bo_ki : pc_ki (pid_c p) = vdiagm (pp_ki pp);
  bo_aw : pc_aw (pid_c p) = pp_aw pp;
  bo_in : - pr a (pp_aw pp) <= acc <= pr a (pp_aw pp);
  bo_acc : if ps_first (pid_s p) then acc = 0 else pr a (ps_acc (pid_s p)) = acc;
  bo_ci : pr a (pid_int_part p) = pr a (pp_ki pp) * acc }.

Lemma new_books a pp : 0 < pr a (pp_aw pp) -> books a pp 0 (pid_new pp).
Proof.
  intros A. unfold pid_new, pid_reset, pid_update, pc_update.
  split; cbn [pid_c pid_s ps_first ps_reset ps0 pid_int_part ps_ci].
  - destruct (_ || _); [unfold pc_set_sat; cbv zeta; destruct (sat_bad _ _); [|destruct (sat_bad (vy _) _); [|destruct (sat_bad (vz _) _)]]|]; reflexivity.
  - destruct (_ || _); [unfold pc_set_sat; cbv zeta; destruct (sat_bad _ _); [|destruct (sat_bad (vy _) _); [|destruct (sat_bad (vz _) _)]]|]; reflexivity.
  - lra.
  - reflexivity.
  - rewrite pr_v0. ring.
Qed.

Lemma acc_cuts (c : PidCfg R) acc dt e a : 0 < pr a (pc_aw c) -> - pr a (pc_aw c) <= pr a acc <= pr a (pc_aw c) ->
  pr a (pid_acc c acc dt e) = cut (pr a (pc_aw c)) (pr a acc + dt * pr a e).
Proof.
  intros P I. unfold pid_acc. cbv zeta.
  replace (veqb (pc_aw c) v0) with false.
  2:{ symmetry. apply Bool.not_true_is_false. intros E. apply (proj1 (veqb_v0_true _)) with (a := a) in E. lra. }
  cbn [negb]. rewrite saturate_false_pr.
  assert (Rs : forall f, rst1 f (pr a acc) (pr a (pc_aw c)) (pr a e) = pr a acc).
  { intros f. unfold rst1. destruct f; [|reflexivity]. destruct (ltb (pr a (pc_aw c)) (absT (pr a acc))) eqn:E; [|reflexivity].
    exfalso. revert E. unR. intros E. assert (X : pr a (pc_aw c) < Rabs (pr a acc)) by (revert E; rcase; intros; [assumption|discriminate]).
    revert X. apply Rle_not_lt. apply Rabs_le. exact I. }
  unfold sat1, cut.
  replace (pr a (vadd _ _)) with (pr a acc + dt * pr a e).
  2:{ rewrite <- (Rs (pc_rflag c)) at 1. destruct a; cbn; unR; ring. }
  replace (pr a (vscale mone (pc_aw c))) with (- pr a (pc_aw c)) by (destruct a; cbn; unR; ring).
  unR. unfold Rltb. repeat (destruct (Rlt_dec _ _); try reflexivity).
Qed.

(** The calls of a loop. *)
Definition called (dt e : R) (a : Ax) (p p' : Pid R) : Prop :=
  exists ev, pr a ev = e /\ (p' = pid_step p (OpCompute dt ev) \/ exists de, p' = pid_step p (OpComputeD dt ev de)).

Lemma called_books a pp acc p p' dt e : 0 < pr a (pp_aw pp) -> called dt e a p p' -> books a pp acc p ->
  books a pp (cut (pr a (pp_aw pp)) (acc + dt * e)) p'.
Proof.
  intros P (ev & <- & K) [A B C D E].
  assert (X : pr a (pid_acc (pid_c p) (ps_acc (ps_init (pid_s p) ev)) dt ev) = cut (pr a (pp_aw pp)) (acc + dt * pr a ev)).
  { assert (Y : pr a (ps_acc (ps_init (pid_s p) ev)) = acc).
    { unfold ps_init. destruct (ps_first (pid_s p)); [cbn [ps_acc]; rewrite pr_v0; lra|exact D]. }
    rewrite acc_cuts; rewrite ?B, ?Y; [reflexivity|exact P|exact C]. }
  pose proof (cut_range _ (acc + dt * pr a ev) P) as Rg.
  destruct K as [->|[de ->]]; cbn [pid_step]; unfold pid_compute, pid_compute_d; cbv zeta;
    (split; cbn [pid_c pid_s ps_first pid_int_part ps_ci ps_acc]; try assumption; rewrite A, ki_part, X; reflexivity).
Qed.

(** ** One call *)
Section Sim.
Context {G H : Gen R}.
Variables (n : nat) (w : Which) (a : Ax) (pp : PidParams R).
Hypothesis P : 0 < pr a (pp_aw pp).

Definition turned (c c' : Ctl R) (m : Mode) (st : State R) (dt : R) : Prop :=
  forall w, if works w m then called dt (pr a (demanded w c') - pr a (actual w st)) a (get_pid w c) (get_pid w c')
    else get_pid w c' = get_pid w c.

Lemma called_c dt p e x y : e = vsub x y -> called dt (pr a x - pr a y) a p (pid_step p (OpCompute dt e)).
Proof. intros ->. exists (vsub x y). split; [destruct a; reflexivity|left; reflexivity]. Qed.
Lemma called_d dt p x y de : called dt (pr a x - pr a y) a p (pid_step p (OpComputeD dt (vsub x y) de)).
Proof. exists (vsub x y). split; [destruct a; reflexivity|right; exists de; reflexivity]. Qed.

Lemma acro_turned (c : Ctl R) st th des dt : turned c (ctl_acro c (s_angvel st) th des dt) ACRO st dt.
Proof.
  intros v. destruct v; cbn [works]; try reflexivity. exact (called_c dt (get_pid WIndi c) _ des (s_angvel st) eq_refl).
Qed.
Lemma traj_turned (c : Ctl R) st A dp dv da yaw dt : turned c (ctl_traj c (s_pos st) (s_vel st) A (s_angvel st) dp dv da yaw dt) TRAJECTORY st dt.
Proof.
  unfold ctl_traj, traj_control. cbv zeta. set (p' := pid_compute_d _ _ _ _). set (acc := vadd _ da). set (c1 := mkCtl _ _ _ _ _ _ _ _ _ _ _).
  destruct (acc_indi c1 A (s_angvel st) acc yaw dt) as (B1 & B2 & B3 & B4 & B5 & B6).
  intros v. destruct v; cbn [works].
  - rewrite B1. unfold demanded, actual. exact (called_c dt (get_pid WIndi c1) _ _ (s_angvel st) eq_refl).
  - rewrite B2. reflexivity.
  - rewrite B4. unfold demanded, actual. rewrite B5. exact (called_d dt (get_pid WTraj c) dp (s_pos st) (vsub dv (s_vel st))).
  - rewrite B3. reflexivity.
Qed.
Lemma vel_turned (c : Ctl R) st A dv yaw dt : turned c (ctl_vel c (s_vel st) A (s_angvel st) dv yaw dt) VELOCITY st dt /\
  get_desired_linear_velocity (ctl_vel c (s_vel st) A (s_angvel st) dv yaw dt) = dv /\
  get_desired_position (ctl_vel c (s_vel st) A (s_angvel st) dv yaw dt) = get_desired_position c.
Proof.
  unfold ctl_vel. cbv zeta. set (p' := pid_on_error _ _ _ _). set (acc := ps_out _). set (c1 := mkCtl _ _ _ _ _ _ _ _ _ _ _).
  destruct (acc_indi c1 A (s_angvel st) acc yaw dt) as (B1 & B2 & B3 & B4 & B5 & B6).
  split; [|split; [exact B6|exact B5]].
  intros v. destruct v; cbn [works].
  - rewrite B1. unfold demanded, actual. exact (called_c dt (get_pid WIndi c1) _ _ (s_angvel st) eq_refl).
  - rewrite B2. reflexivity.
  - rewrite B4. reflexivity.
  - rewrite B3. unfold demanded, actual. rewrite B6. exact (called_c dt (get_pid WVel c) _ dv (s_vel st) eq_refl).
Qed.
Lemma pos_turned (c : Ctl R) st A dp yaw dt : let c' := ctl_pos c (s_pos st) A (s_vel st) (s_angvel st) dp yaw dt in
  turned c c' POSITION st dt /\ turned c c' HOVER st dt.
Proof.
  cbv zeta. unfold ctl_pos. cbv zeta. set (p' := pid_on_error _ _ _ _). set (dv := ps_out _). set (c1 := mkCtl _ _ _ _ _ _ _ _ _ _ _).
  destruct (vel_turned c1 st A dv yaw dt) as (M & B1 & B2). set (c2 := ctl_vel _ _ _ _ _ _ _) in *.
  assert (X : turned c c2 POSITION st dt).
  { intros v. specialize (M v). destruct v; cbn [works] in *.
    - exact M.
    - rewrite M. unfold demanded, actual. rewrite B2. exact (called_c dt (get_pid WPos c) _ dp (s_pos st) eq_refl).
    - exact M.
    - exact M. }
  split; exact X.
Qed.

Lemma control_turned (s : Sim R G H) dt : sm_armed s = true -> turned (sm_ctl s) (sm_ctl (update_controller n s dt)) (sm_mode s) (sim_state s) dt.
Proof.
  intros Ar. unfold update_controller. rewrite Ar. cbn [negb].
  set (s2 := match sm_yawmode s with ANGLE => s | RATE => update_yaw_reference s end).
  assert (E : sm_ctl s2 = sm_ctl s /\ sim_state s2 = sim_state s /\ sm_mode s2 = sm_mode s).
  { unfold s2. destruct (sm_yawmode s); repeat split. }
  destruct E as (E1 & E2 & E3). rewrite <- E1, <- E2, <- E3. clearbody s2. clear E1 E2 E3.
  destruct (sm_mode s2); cbn [with_control with_act sm_ctl].
  + apply pos_turned.
  + intros v. destruct v; reflexivity.
  + apply acro_turned.
  + apply traj_turned.
  + apply vel_turned.
  + apply pos_turned.
Qed.

(** The books after one call. *)
Definition next_acc (s s1 : Sim R G H) (op : SimOp R G H) (acc : R) : R :=
  match op with SController dt => if sm_armed s && works w (sm_mode s) then cut (pr a (pp_aw pp)) (acc + dt * off w a s s1) else acc | _ => acc end.
Lemma step_books (s s1 : Sim R G H) op acc : keeps_ctl op -> next (sim_step n s op) s1 ->
  books a pp acc (get_pid w (sm_ctl s)) -> books a pp (next_acc s s1 op acc) (get_pid w (sm_ctl s1)).
Proof.
  intros K N S.
  assert (Same : sm_ctl s1 = sm_ctl s -> next_acc s s1 op acc = acc -> books a pp (next_acc s s1 op acc) (get_pid w (sm_ctl s1))).
  { intros -> ->. exact S. }
  destruct op; cbn [keeps_ctl] in K; try contradiction;
    try (apply Same; [destruct N as [N|N]; cbn [sim_step] in N; try discriminate N; injection N as <-; reflexivity|reflexivity]).
  - apply Same; [exact (proj1 (frame_dynamics n s dt s1 N))|reflexivity].
  - clear Same. destruct N as [N|N]; cbn [sim_step] in N; [|discriminate N]. injection N as <-.
    unfold next_acc. destruct (sm_armed s) eqn:Ar; cbn [andb].
    2:{ unfold update_controller. rewrite Ar. exact S. }
    pose proof (control_turned s dt Ar w) as T. unfold off. destruct (works w (sm_mode s)).
    + exact (called_books a pp acc _ _ dt _ P T S).
    + rewrite T. exact S.
  - apply Same; [|reflexivity]. destruct N as [N|N]; cbn [sim_step] in N; [|discriminate N]. injection N as <-. unfold set_control_mode. destruct (_ && _); reflexivity.
  - apply Same; [|reflexivity]. cbn [sim_step] in N. unfold set_dynamics_params, of_opt in N. destruct (dyn_new _ _ _ _); destruct N as [N|N]; try discriminate N. injection N as <-. reflexivity.
Qed.
Lemma run_books ops : forall (s s' : Sim R G H) acc, Forall keeps_ctl ops -> sim_run n s ops = Some s' ->
  books a pp acc (get_pid w (sm_ctl s)) -> exists acc', books a pp acc' (get_pid w (sm_ctl s')).
Proof.
  induction ops as [|op r IH]; intros s s' acc K E S.
  - injection E as <-. exists acc. exact S.
  - apply Forall_cons_iff in K as [K1 K2].
    assert (X : exists s1, next (sim_step n s op) s1 /\ sim_run n s1 r = Some s').
    { cbn [sim_run] in E. destruct (sim_step n s op) as [s1|s1|]; [exists s1; split; [left; reflexivity|exact E]|exists s1; split; [right; reflexivity|exact E]|discriminate E]. }
    destruct X as (s1 & N & E1). exact (IH s1 s' _ K2 E1 (step_books s s1 op acc K1 N S)).
Qed.
Lemma start_books sp (s : Sim R G H) : sim_new n sp = Some s -> pp = loop_params w (sp_ctl sp) -> books a pp 0 (get_pid w (sm_ctl s)).
Proof.
  intros N E. assert (C : sm_ctl s = ctl_new n (sp_ctl sp)).
  { unfold sim_new in N. destruct (dyn_new _ _ _ _); [|discriminate]. cbn in N. injection N as <-. reflexivity. }
  rewrite C. revert P. rewrite E. intros Q. destruct w; apply new_books; exact Q.
Qed.
End Sim.

Lemma after_books {G H : Gen R} n w a sp ops (s : Sim R G H) : 0 < pr a (pp_aw (loop_params w (sp_ctl sp))) -> Forall keeps_ctl ops ->
  sim_after n sp ops = Some s -> exists acc, books a (loop_params w (sp_ctl sp)) acc (get_pid w (sm_ctl s)).
Proof.
  intros P K E. unfold sim_after in E. destruct (sim_new n sp) as [s0|] eqn:N; [|discriminate].
  exact (run_books n w a _ P ops s0 s 0 K E (start_books n w a _ P sp s0 N eq_refl)).
Qed.

(** ** The bound *)
Lemma integral_bounded {G H : Gen R} n w a sp ops (s : Sim R G H) : 0 < pr a (pp_aw (loop_params w (sp_ctl sp))) -> Forall keeps_ctl ops ->
  sim_after n sp ops = Some s ->
  Rabs (integral_part w a s) <= Rabs (pr a (pp_ki (loop_params w (sp_ctl sp)))) * pr a (pp_aw (loop_params w (sp_ctl sp))).
Proof.
  intros P K E. destruct (after_books n w a sp ops s P K E) as [acc [_ _ I _ C]]. unfold integral_part. rewrite C, Rabs_mult.
  apply Rmult_le_compat_l; [apply Rabs_pos|]. apply Rabs_le. exact I.
Qed.

(** ** Where a flight settles *)
Lemma cut_limit (e S : nat -> R) L B dt : 0 < dt -> 0 < B -> (forall k, - B <= S k <= B) -> (forall k, S (Datatypes.S k) = cut B (S k + dt * e k)) ->
  Un_cv e L -> 0 < L -> exists N, forall k, (N <= k)%nat -> S k = B.
Proof.
  intros Hd HB HI HS Cv HL. destruct (Cv (L / 2)) as [N HN]; [lra|].
  assert (Up : forall k, (N <= k)%nat -> L / 2 < e k).
  { intros k Hk. specialize (HN k Hk). unfold R_dist in HN. apply Rabs_def2 in HN. lra. }
  assert (P : 0 < dt * (L / 2)) by (apply Rmult_lt_0_compat; lra).
  assert (St : forall k, (N <= k)%nat -> S (Datatypes.S k) = B \/ S k + dt * (L / 2) <= S (Datatypes.S k) /\ S (Datatypes.S k) < B).
  { intros k Hk. rewrite HS. pose proof (HI k). assert (dt * (L / 2) <= dt * e k) by (apply Rmult_le_compat_l; [lra|left; apply Up, Hk]).
    unfold cut. destruct (Rlt_dec B (S k + dt * e k)); [left; reflexivity|]. destruct (Rlt_dec (S k + dt * e k) (- B)); [lra|].
    destruct (Rle_lt_dec B (S k + dt * e k)); [left; lra|right; lra]. }
  assert (Stay : forall k, (N <= k)%nat -> S k = B -> S (Datatypes.S k) = B).
  { intros k Hk E. destruct (St k Hk) as [Q|[Q1 Q2]]; [exact Q|]. rewrite E in Q1. lra. }
  destruct (INR_archimed (2 * B / (dt * (L / 2)))) as [j Hj].
  assert (J : 2 * B < INR j * (dt * (L / 2))).
  { apply Rmult_lt_reg_r with (/ (dt * (L / 2))); [apply Rinv_0_lt_compat, P|]. rewrite (Rmult_assoc (INR j)), Rinv_r by lra. unfold Rdiv in Hj. lra. }
  assert (Grow : forall i, S (N + i)%nat = B \/ S N + INR i * (dt * (L / 2)) <= S (N + i)%nat).
  { induction i as [|i [IH|IH]].
    - right. rewrite Nat.add_0_r. cbn [INR]. lra.
    - left. rewrite Nat.add_succ_r. apply Stay; [lia|exact IH].
    - rewrite Nat.add_succ_r, S_INR. destruct (St (N + i)%nat ltac:(lia)) as [Q|[Q1 Q2]]; [left; exact Q|right; lra]. }
  exists (N + j)%nat. assert (E0 : S (N + j)%nat = B).
  { destruct (Grow j) as [Q|Q]; [exact Q|]. pose proof (HI N). pose proof (HI (N + j)%nat). lra. }
  intros k Hk. replace k with (N + j + (k - (N + j)))%nat by lia. generalize (k - (N + j))%nat. clear k Hk.
  induction n as [|m IH]; [rewrite Nat.add_0_r; exact E0|]. rewrite Nat.add_succ_r. apply Stay; [lia|exact IH].
Qed.
Lemma cut_opp B x : 0 < B -> cut B (- x) = - cut B x.
Proof.
  intros P. unfold cut. destruct (Rlt_dec B (- x)); destruct (Rlt_dec B x); try lra;
    destruct (Rlt_dec x (- B)); try lra; destruct (Rlt_dec (- x) (- B)); lra.
Qed.

Lemma settles_bounded {G H : Gen R} n w a sp ops dt (s c : nat -> Sim R G H) L :
  let B := pr a (pp_aw (loop_params w (sp_ctl sp))) in let ki := pr a (pp_ki (loop_params w (sp_ctl sp))) in
  0 < B -> Forall keeps_ctl ops -> 0 < dt ->
  (forall k, sim_after n sp (ops ++ rounds dt k) = Some (s k)) -> (forall k, sim_step n (s k) (SController dt) = Ok (c k)) ->
  sm_armed (s 0%nat) = true -> works w (sm_mode (s 0%nat)) = true ->
  Un_cv (fun k => off w a (s k) (c k)) L ->
  (0 < L -> exists N, forall k, (N <= k)%nat -> integral_part w a (s k) = ki * B) /\
  (L < 0 -> exists N, forall k, (N <= k)%nat -> integral_part w a (s k) = - (ki * B)).
Proof.
  intros B ki HB K Hd Hs Hc Ar Wk Cv.
  assert (St : forall k, sim_run n (s k) [SController dt; SDynamics dt] = Some (s (S k))).
  { intros k. pose proof (Hs (S k)) as E. rewrite rounds_snoc, app_assoc in E. pose proof (Hs k) as E0. unfold sim_after in *.
    destruct (sim_new n sp) as [x|]; [|discriminate]. rewrite PSim.run_app, E0 in E. exact E. }
  assert (Nd : forall k, next (sim_step n (c k) (SDynamics dt)) (s (S k))).
  { intros k. pose proof (St k) as E. cbn [sim_run] in E. rewrite (Hc k) in E.
    destruct (sim_step n (c k) (SDynamics dt)); [left|right|discriminate]; injection E as ->; reflexivity. }
  assert (Fr : forall k, sm_armed (s k) = true /\ sm_mode (s k) = sm_mode (s 0%nat)).
  { induction k as [|k [I1 I2]]; [split; [exact Ar|reflexivity]|].
    destruct (frame_controller n (s k) dt (c k) (Hc k)) as (_ & _ & _ & A1 & _ & _ & _ & A2 & _).
    destruct (frame_dynamics n _ _ _ (Nd k)) as (_ & B1 & _ & _ & _ & _ & B2 & _). split; congruence. }
  assert (Kr : forall k, Forall (keeps_ctl (G := G) (H := H)) (rounds dt k)).
  { induction k as [|k IH]; [apply Forall_nil|]. rewrite rounds_snoc. apply Forall_app. split; [exact IH|]. repeat (apply Forall_cons; [exact I|]). apply Forall_nil. }
  (* the accumulated error, read off the controller *)
  assert (Bk : forall k acc, books a (loop_params w (sp_ctl sp)) acc (get_pid w (sm_ctl (s k))) ->
    books a (loop_params w (sp_ctl sp)) (cut B (acc + dt * off w a (s k) (c k))) (get_pid w (sm_ctl (s (S k))))).
  { intros k acc Q. destruct (Fr k) as [F1 F2].
    pose proof (step_books n w a _ HB (s k) (c k) (SController dt) acc I (or_introl (Hc k)) Q) as Q1. cbn [next_acc] in Q1. rewrite F1, F2, Wk in Q1. cbn [andb] in Q1.
    exact (step_books n w a _ HB (c k) (s (S k)) (SDynamics dt) _ I (Nd k) Q1). }
  destruct (after_books n w a sp (ops ++ rounds dt 0) (s 0%nat) HB) as [acc0 Q0]; [apply Forall_app; split; [exact K|apply Kr]|apply Hs|].
  set (A := fix A (k : nat) : R := match k with O => acc0 | S j => cut B (A j + dt * off w a (s j) (c j)) end).
  assert (All : forall k, books a (loop_params w (sp_ctl sp)) (A k) (get_pid w (sm_ctl (s k)))).
  { induction k as [|k IH]; [exact Q0|]. exact (Bk k (A k) IH). }
  assert (In : forall k, - B <= A k <= B) by (intros k; exact (bo_in _ _ _ _ (All k))).
  assert (Ip : forall k, integral_part w a (s k) = ki * A k) by (intros k; exact (bo_ci _ _ _ _ (All k))).
  split; intros HL.
  - destruct (cut_limit (fun k => off w a (s k) (c k)) A L B dt Hd HB In (fun k => eq_refl) Cv HL) as [N HN].
    exists N. intros k Hk. rewrite Ip, HN by exact Hk. reflexivity.
  - destruct (cut_limit (fun k => - off w a (s k) (c k)) (fun k => - A k) (- L) B dt Hd HB) as [N HN].
    + intros k. pose proof (In k). lra.
    + intros k. cbn [A]. rewrite <- cut_opp by exact HB. f_equal. ring.
    + apply CV_opp in Cv. exact Cv.
    + lra.
    + exists N. intros k Hk. rewrite Ip. specialize (HN k Hk). replace (A k) with (- B) by lra. ring.
Qed.

Lemma settles_inside {G H : Gen R} n w a sp ops dt (s c : nat -> Sim R G H) L :
  let B := pr a (pp_aw (loop_params w (sp_ctl sp))) in let ki := pr a (pp_ki (loop_params w (sp_ctl sp))) in
  0 < B -> Forall keeps_ctl ops -> 0 < dt ->
  (forall k, sim_after n sp (ops ++ rounds dt k) = Some (s k)) -> (forall k, sim_step n (s k) (SController dt) = Ok (c k)) ->
  sm_armed (s 0%nat) = true -> works w (sm_mode (s 0%nat)) = true ->
  (forall N, exists k, (N <= k)%nat /\ Rabs (integral_part w a (s k)) < Rabs ki * B) ->
  Un_cv (fun k => off w a (s k) (c k)) L -> L = 0.
Proof.
  intros B ki HB K Hd Hs Hc Ar Wk Q Cv. destruct (settles_bounded n w a sp ops dt s c L HB K Hd Hs Hc Ar Wk Cv) as [U D].
  fold B ki in U, D.
  assert (M : Rabs (ki * B) = Rabs ki * B) by (rewrite Rabs_mult, (Rabs_pos_eq B); lra).
  destruct (Rtotal_order L 0) as [L1|[L1|L1]]; [exfalso|exact L1|exfalso].
  - destruct (D L1) as [N HN]. destruct (Q N) as (k & Hk & X). rewrite HN, Rabs_Ropp, M in X by exact Hk. lra.
  - destruct (U L1) as [N HN]. destruct (Q N) as (k & Hk & X). rewrite HN, M in X by exact Hk. lra.
Qed.
