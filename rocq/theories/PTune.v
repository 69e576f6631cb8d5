(** Proofs: the memory of a PID, retuning in flight, control modes by hand. *)

From Coq Require Import ZArith List Bool.
From Verif Require Import Scalar LinAlg MUtils MPid MPid1 MControl MCtlRun SpecPid SpecCtl SpecReset SpecTune PPid PTwin PReset.
Import ListNotations.

Section Tune.
Context {T : Type} {O : Ops T}.

Record Mem (V : Type) := mkMem { me_aw : V; me_al : V; me_rf : bool; me_first : bool; me_acc : V; me_filt : V; me_perr : V }.
Arguments mkMem {V}. Arguments me_aw {V}. Arguments me_al {V}. Arguments me_rf {V}. Arguments me_first {V}. Arguments me_acc {V}.
Arguments me_filt {V}. Arguments me_perr {V}.
Definition mem (p : Pid T) : Mem (V3 T) :=
  mkMem (pc_aw (pid_c p)) (pc_alpha (pid_c p)) (pc_rflag (pid_c p)) (ps_first (pid_s p)) (ps_acc (pid_s p)) (ps_filt (pid_s p)) (ps_perr (pid_s p)).

Lemma set_sat_mem c up lo f : pc_aw (pc_set_sat c up lo f) = pc_aw c /\ pc_alpha (pc_set_sat c up lo f) = pc_alpha c /\ pc_rflag (pc_set_sat c up lo f) = pc_rflag c.
Proof.
  unfold pc_set_sat. destruct (sat_bad (vx up) (vx lo)); [|destruct (sat_bad (vy up) (vy lo)); [|destruct (sat_bad (vz up) (vz lo))]]; cbn; repeat split.
Qed.
Lemma update_mem c pp : pc_aw (pc_update c pp) = pp_aw pp /\ pc_alpha (pc_update c pp) = pp_alpha pp /\ pc_rflag (pc_update c pp) = pp_rflag pp.
Proof.
  unfold pc_update. destruct (negb _ || negb _); [|repeat split].
  match goal with |- context[pc_set_sat ?x ?u ?l ?f] => destruct (set_sat_mem x u l f) as (A & B & C) end. rewrite A, B, C. repeat split.
Qed.
(** The memory after one operation depends on its event and on the memory before. *)
Lemma mem_none op p : event op = [] -> mem (pid_step p op) = mem p.
Proof.
  destruct op as [pp| |up lo f| |kp ki kd|k|k|k|aw|al|b|b|dt e|dt e de]; cbn [event]; try discriminate; intros _; try reflexivity.
  unfold mem. cbn [pid_step on_cfg pid_c pid_s]. destruct (set_sat_mem (pid_c p) up lo f) as (A & B & C). rewrite A, B, C. reflexivity.
Qed.
Lemma mem_step op1 op2 p q : event op1 = event op2 -> event op1 <> [] -> mem p = mem q -> mem (pid_step p op1) = mem (pid_step q op2).
Proof.
  intros E N M. unfold mem in M. injection M as A1 A2 A3 A4 A5 A6 A7.
  assert (I : forall e, ps_acc (ps_init (pid_s p) e) = ps_acc (ps_init (pid_s q) e) /\ ps_filt (ps_init (pid_s p) e) = ps_filt (ps_init (pid_s q) e) /\
    ps_perr (ps_init (pid_s p) e) = ps_perr (ps_init (pid_s q) e)).
  { intros e. apply init_twin. split; [exact A4|right]. split; [exact A5|split; [exact A6|exact A7]]. }
  destruct op1 as [pp| |up lo f| |kp ki kd|k|k|k|aw|al|b|b|dt e|dt e de];
  destruct op2 as [pp'| |up' lo' f'| |kp' ki' kd'|k'|k'|k'|aw'|al'|b'|b'|dt' e'|dt' e' de']; cbn [event] in E, N; try discriminate E; try congruence;
    unfold mem; cbn [pid_step on_cfg pid_c pid_s pid_update pid_reset ps_reset ps_first ps_acc ps_filt ps_perr pc_set_aw pc_set_alpha pc_set_rflag pc_aw pc_alpha pc_rflag pid_compute pid_compute_d].
  - injection E as E1 E2 E3. destruct (update_mem (pid_c p) pp) as (-> & -> & ->). destruct (update_mem (pid_c q) pp') as (-> & -> & ->).
    rewrite A4, A5, A6, A7, E1, E2, E3. reflexivity.
  - rewrite A1, A2, A3, A5, A6, A7. reflexivity.
  - injection E as <-. rewrite A2, A3, A4, A5, A6, A7. reflexivity.
  - injection E as <-. rewrite A1, A3, A4, A5, A6, A7. reflexivity.
  - injection E as <-. rewrite A1, A2, A4, A5, A6, A7. reflexivity.
  - injection E as <- <-. destruct (I e) as (E1 & E2 & E3). unfold pid_acc, pid_filt. rewrite E1, E2, E3, A1, A2, A3. reflexivity.
  - injection E as <- <-. destruct (I e) as (E1 & E2 & E3). unfold pid_acc. rewrite E1, E2, A1, A2, A3. reflexivity.
Qed.
Lemma run_app (p : Pid T) a b : pid_run p (a ++ b) = pid_run (pid_run p a) b.
Proof. unfold pid_run. apply fold_left_app. Qed.

Lemma event_one (op : PidOp T) : event op = [] \/ exists x, event op = [x].
Proof. destruct op as [pp| |up lo f| |kp ki kd|k|k|k|aw|al|b|b|dt e|dt e de]; cbn [event]; first [left; reflexivity|right; eexists; reflexivity]. Qed.
Lemma mem_skip ops : forall p, flat_map event ops = [] -> mem (pid_run p ops) = mem p.
Proof.
  induction ops as [|op r IH]; intros p E; [reflexivity|]. cbn [flat_map] in E. apply app_eq_nil in E as [E1 E2].
  cbn [pid_run fold_left]. change (mem (pid_run (pid_step p op) r) = mem p). rewrite IH by exact E2. apply mem_none, E1.
Qed.
(** The next operation that leaves a trace. *)
Lemma next_event ops : forall p x r, flat_map event ops = x :: r ->
  exists op ops' p', event op = [x] /\ flat_map event ops' = r /\ mem p' = mem p /\ pid_run p ops = pid_run (pid_step p' op) ops'.
Proof.
  induction ops as [|op ops IH]; intros p x r E; [discriminate E|]. cbn [flat_map] in E.
  destruct (event_one op) as [N|[y N]]; rewrite N in E; cbn [app] in E.
  - destruct (IH (pid_step p op) x r E) as (o & ops' & p' & B1 & B2 & B3 & B4). exists o, ops', p'.
    split; [exact B1|]. split; [exact B2|]. split; [rewrite B3; apply mem_none, N|exact B4].
  - injection E as -> E. exists op, ops, p. repeat split; assumption.
Qed.
Lemma mem_run evs : forall ops1 ops2 p q, flat_map event ops1 = evs -> flat_map event ops2 = evs -> mem p = mem q ->
  mem (pid_run p ops1) = mem (pid_run q ops2).
Proof.
  induction evs as [|x r IH]; intros ops1 ops2 p q E1 E2 M.
  - rewrite (mem_skip ops1 p E1), (mem_skip ops2 q E2). exact M.
  - destruct (next_event ops1 p x r E1) as (o1 & t1 & p1 & B1 & B2 & B3 & ->). destruct (next_event ops2 q x r E2) as (o2 & t2 & q1 & D1 & D2 & D3 & ->).
    apply IH; [exact B2|exact D2|]. apply mem_step; [congruence|rewrite B1; discriminate|congruence].
Qed.
Lemma new_run pp : pid_new pp = pid_reset (pid_run (mkPid pc0 ps0) [OpUpdate pp]).
Proof. reflexivity. Qed.
Lemma new_mem pp : mem (pid_new pp) = mem (pid_run (mkPid pc0 ps0) [OpUpdate pp]).
Proof. reflexivity. Qed.
Lemma story_mem pp qq h k : story pp h = story qq k -> mem (pid_run (pid_new pp) h) = mem (pid_run (pid_new qq) k).
Proof.
  intros E. unfold story in E.
  assert (X : forall aa l, mem (pid_run (pid_new aa) l) = mem (pid_run (mkPid pc0 ps0) (OpUpdate aa :: l))).
  { intros aa l. change (OpUpdate aa :: l) with ([OpUpdate aa] ++ l). rewrite run_app. apply (mem_run (flat_map event l)); try reflexivity. }
  rewrite !X. apply (mem_run (flat_map event (OpUpdate pp :: h))); [reflexivity|symmetry; exact E|reflexivity].
Qed.
Lemma mem_next p q : mem p = mem q -> same_next (pid_s p) (pid_s q).
Proof. unfold mem. intros M. injection M as A1 A2 A3 A4 A5 A6 A7. split; [exact A4|right]. split; [exact A5|split; [exact A6|exact A7]]. Qed.
Lemma update_twins p q pp : mem p = mem q -> wtwin (pid_update p pp) (pid_update q pp).
Proof. intros M. split; [apply update_alike|]. cbn [pid_update pid_s]. apply mem_next, M. Qed.

Theorem same_story pp qq h k new ops : story pp h = story qq k ->
  returned (pid_run (pid_new pp) h) (OpUpdate new :: ops) = returned (pid_run (pid_new qq) k) (OpUpdate new :: ops).
Proof. intros E. cbn [returned is_compute]. apply wtwin_returned, update_twins, story_mem, E. Qed.

Lemma flies_step (op : PidOp T) p : flies op = true -> pid_c (pid_step p op) = pid_c p.
Proof. destruct op as [pp| |up lo f| |kp ki kd|k|k|k|aw|al|b|b|dt e|dt e de]; cbn [flies]; try discriminate; reflexivity. Qed.
Lemma flies_run ops : forall p, forallb flies ops = true -> pid_c (pid_run p ops) = pid_c p.
Proof.
  induction ops as [|op r IH]; intros p H; [reflexivity|]. cbn [forallb] in H. apply andb_true_iff in H as [A B].
  change (pid_run p (op :: r)) with (pid_run (pid_step p op) r). rewrite IH by exact B. apply flies_step, A.
Qed.
Lemma retune_wtwin pp new h : same_memory pp new -> forallb flies h = true ->
  wtwin (pid_update (pid_run (pid_new pp) h) new) (pid_run (pid_new new) h).
Proof.
  intros (A & B & C) F. split.
  - change (pid_c (pid_update ?p new)) with (pc_update (pid_c p) new). rewrite (flies_run h (pid_new new) F). apply update_alike.
  - cbn [pid_update pid_s]. apply mem_next. apply story_mem. unfold story. cbn [flat_map event]. rewrite A, B, C. reflexivity.
Qed.
Theorem retune pp new h ops : same_memory pp new -> forallb flies h = true ->
  returned (pid_run (pid_new pp) h) (OpUpdate new :: ops) = returned (pid_run (pid_new new) h) ops.
Proof. intros S F. cbn [returned is_compute]. apply wtwin_returned, retune_wtwin; assumption. Qed.

(** ** In the flight controller *)
Lemma loop_run w h : forall c : Ctl T, get_pid w (ctl_run c (map (CPid w) h)) = pid_run (get_pid w c) h /\
  (forall v, v <> w -> get_pid v (ctl_run c (map (CPid w) h)) = get_pid v c) /\
  ct_acro (ctl_run c (map (CPid w) h)) = ct_acro c /\ in_inertia (ct_indi (ctl_run c (map (CPid w) h))) = in_inertia (ct_indi c) /\
  in_minv (ct_indi (ctl_run c (map (CPid w) h))) = in_minv (ct_indi c).
Proof.
  induction h as [|op r IH]; intros c; [repeat split|]. cbn [map].
  change (ctl_run c (CPid w op :: map (CPid w) r)) with (ctl_run (ctl_step c (CPid w op)) (map (CPid w) r)).
  destruct (IH (ctl_step c (CPid w op))) as (A & B & C & D & E). rewrite A, C, D, E.
  split; [destruct w; reflexivity|]. split; [intros v Hv; rewrite (B v Hv); destruct w, v; try reflexivity; congruence|].
  split; [destruct w; reflexivity|]. split; destruct w; reflexivity.
Qed.
Theorem retune_loop n q w new h ops : same_memory (params_of w q) new -> forallb flies h = true ->
  answers (ctl_run (ctl_new n q) (map (CPid w) h)) (CUpdPid w new :: ops) =
  answers (ctl_run (ctl_new n (with_loop w new q)) (map (CPid w) h)) ops.
Proof.
  intros S F. cbn [answers answer]. apply ctwin_answers. pose proof (retune_wtwin _ new h S F) as W.
  destruct (loop_run w h (ctl_new n q)) as (A & B & C & D & E). destruct (loop_run w h (ctl_new n (with_loop w new q))) as (A' & B' & C' & D' & E').
  set (c := ctl_run (ctl_new n q) (map (CPid w) h)) in *. set (c' := ctl_run (ctl_new n (with_loop w new q)) (map (CPid w) h)) in *.
  assert (X : ct_acro (ctl_step c (CUpdPid w new)) = ct_acro c /\ in_inertia (ct_indi (ctl_step c (CUpdPid w new))) = in_inertia (ct_indi c) /\
    in_minv (ct_indi (ctl_step c (CUpdPid w new))) = in_minv (ct_indi c)) by (destruct w; repeat split).
  destruct X as (X1 & X2 & X3).
  split; try (rewrite X1, C, C'; destruct w; reflexivity); try (rewrite X2, D, D'; destruct w; reflexivity); try (rewrite X3, E, E'; destruct w; reflexivity).
  intros v.
  assert (K : v = w \/ v <> w) by (destruct v, w; first [left; reflexivity|right; discriminate]). destruct K as [->|Hv].
  - assert (Y : get_pid w (ctl_step c (CUpdPid w new)) = pid_update (get_pid w c) new) by (destruct w; reflexivity). rewrite Y, A, A'.
    assert (Z : get_pid w (ctl_new n q) = pid_new (params_of w q) /\ get_pid w (ctl_new n (with_loop w new q)) = pid_new new) by (destruct w; split; reflexivity).
    destruct Z as [-> ->]. exact W.
  - assert (Y : get_pid v (ctl_step c (CUpdPid w new)) = get_pid v c) by (destruct w, v; try reflexivity; congruence).
    rewrite Y, (B v Hv), (B' v Hv). apply twin_wtwin.
    assert (Z : get_pid v (ctl_new n q) = get_pid v (ctl_new n (with_loop w new q))) by (destruct w, v; try reflexivity; congruence).
    rewrite Z. split; [reflexivity|split; [reflexivity|]]. right. repeat split.
Qed.

(** ** Control modes by hand *)
Lemma wtwin_refl (p : Pid T) : wtwin p p.
Proof. apply twin_wtwin. split; [reflexivity|split; [reflexivity|right; repeat split]]. Qed.
Lemma same_core (c1 c2 : Ctl T) : ct_acro c1 = ct_acro c2 -> in_inertia (ct_indi c1) = in_inertia (ct_indi c2) -> in_minv (ct_indi c1) = in_minv (ct_indi c2) ->
  (forall w, get_pid w c1 = get_pid w c2) -> ctwin c1 c2.
Proof. intros A B C D. split; try (rewrite A; reflexivity); try assumption. intros w. rewrite D. apply wtwin_refl. Qed.

Theorem modes_by_hand (c : Ctl T) op ops : is_mode op = true ->
  fst (by_hand c op) = answer c op /\ answers (snd (by_hand c op)) ops = answers (ctl_step c op) ops.
Proof.
  intros M. destruct op as [cur th des dt|R cw acc yaw dt|cp cv R cw dp dv da yaw dt|cv R cw dv yaw dt|cp R cv cw dp yaw dt|cur th des dt|acc R yaw|cp cv dp dv da dt|cv dv dt|cp dp dt| |p|p|p|w0 p|w0 o|m|g|k|R yaw th|m|m];
    try discriminate M; clear M; cbn [by_hand].
  - split; [reflexivity|]. apply ctwin_answers, same_core; try reflexivity; (intros w; destruct w; reflexivity).
  - unfold hand_acc, answer. cbn [ctl_step]. unfold ctl_acc. destruct (acc_to_acro (ct_acro c) acc R yaw) as [a' [th w]] eqn:E. cbn [snd fst].
    split; [reflexivity|]. apply ctwin_answers, same_core; try reflexivity; (intros v; destruct v; reflexivity).
  - unfold hand_traj, vec_answer, answer. cbn [ctl_step]. unfold hand_acc, answer. cbn [ctl_step]. unfold ctl_traj, traj_control. cbv zeta. unfold ctl_acc.
    cbn [on_pid ct_acro snd fst]. destruct (acc_to_acro (ct_acro c) _ R yaw) as [a' [th w]] eqn:E. cbn [snd fst].
    split; [reflexivity|]. apply ctwin_answers, same_core; try reflexivity; (intros v; destruct v; reflexivity).
  - unfold hand_vel, vec_answer, answer. cbn [ctl_step]. unfold hand_acc, answer. cbn [ctl_step]. unfold ctl_vel. cbv zeta. unfold ctl_acc.
    cbn [on_pid ct_acro ct_vel snd fst]. unfold pid_output. destruct (acc_to_acro (ct_acro c) _ R yaw) as [a' [th w]] eqn:E. cbn [snd fst].
    split; [reflexivity|]. apply ctwin_answers, same_core; try reflexivity; (intros v; destruct v; reflexivity).
  - unfold hand_pos, vec_answer, answer. cbn [ctl_step]. unfold hand_vel, vec_answer, answer. cbn [ctl_step]. unfold hand_acc, answer. cbn [ctl_step]. unfold ctl_pos, ctl_vel. cbv zeta. unfold ctl_acc.
    cbn [on_pid ct_acro ct_vel ct_pos snd fst]. unfold pid_output. destruct (acc_to_acro (ct_acro c) _ R yaw) as [a' [th w]] eqn:E. cbn [snd fst].
    split; [reflexivity|]. apply ctwin_answers, same_core; try reflexivity; (intros v; destruct v; reflexivity).
Qed.

(** ** The scalar controller *)
Definition mem1 (p : Pid1 T) : Mem T :=
  mkMem (c1_aw (pid1_c p)) (c1_alpha (pid1_c p)) (c1_rflag (pid1_c p)) (s1_first (pid1_s p)) (s1_acc (pid1_s p)) (s1_filt (pid1_s p)) (s1_perr (pid1_s p)).
Definition cfg1_alike (c d : P1Cfg T) : Prop :=
  c1_kp c = c1_kp d /\ c1_ki c = c1_ki d /\ c1_kd c = c1_kd d /\ c1_aw c = c1_aw d /\ c1_alpha c = c1_alpha d /\ c1_rflag c = c1_rflag d /\
  c1_sflag c = c1_sflag d /\ (c1_sflag c = true -> c1_up c = c1_up d /\ c1_lo c = c1_lo d).
Definition next1 (s t : P1St T) : Prop := s1_first s = s1_first t /\ s1_acc s = s1_acc t /\ s1_filt s = s1_filt t /\ s1_perr s = s1_perr t.
Definition wtwin1 (p q : Pid1 T) : Prop := cfg1_alike (pid1_c p) (pid1_c q) /\ next1 (pid1_s p) (pid1_s q).
Lemma init1 s t e : next1 s t -> s1_acc (s1_init s e) = s1_acc (s1_init t e) /\ s1_filt (s1_init s e) = s1_filt (s1_init t e) /\ s1_perr (s1_init s e) = s1_perr (s1_init t e).
Proof. intros (A & B & C & D). unfold s1_init. rewrite <- A. destruct (s1_first s); [repeat split|]. split; [exact B|split; [exact C|exact D]]. Qed.
Lemma set_sat1_alike c d u l : c1_kp c = c1_kp d /\ c1_ki c = c1_ki d /\ c1_kd c = c1_kd d /\ c1_aw c = c1_aw d /\ c1_alpha c = c1_alpha d /\ c1_rflag c = c1_rflag d ->
  cfg1_alike (c1_set_sat c u l) (c1_set_sat d u l).
Proof.
  intros (A & B & C & D & E & F). unfold c1_set_sat. destruct (ltb _ eps); [|destruct (ltb u l)]; unfold cfg1_alike; cbn; repeat (split; try assumption); try discriminate; auto.
Qed.
Lemma update1_alike c d pp : cfg1_alike (c1_update c pp) (c1_update d pp).
Proof.
  unfold c1_update. destruct (negb _ || negb _).
  - apply set_sat1_alike. cbn. repeat split.
  - unfold cfg1_alike; cbn; repeat (split; try reflexivity); discriminate.
Qed.
Lemma step_wtwin1 p q op : wtwin1 p q ->
  match pid1_step p op, pid1_step q op with
  | Some p', Some q' => wtwin1 p' q' /\ (is_compute1 op = true -> pid1_output p' = pid1_output q')
  | None, None => True
  | _, _ => False
  end.
Proof.
  intros [C S]. pose proof C as (A1 & A2 & A3 & A4 & A5 & A6 & A7 & A8).
  assert (O1 : forall x y z, pid1_out (pid1_c p) x y z = pid1_out (pid1_c q) x y z).
  { intros x y z. unfold pid1_out. rewrite <- A7. destruct (c1_sflag (pid1_c p)); [|reflexivity]. destruct (A8 eq_refl) as [-> ->]. reflexivity. }
  destruct op as [pp| |u l| |kp ki kd|k|k|k|aw|al|b|dt e|dt e de]; cbn [pid1_step is_compute1];
    try (split; [split; [unfold cfg1_alike; cbn; repeat (split; try assumption); auto; fail|exact S]|discriminate]).
  - split; [|discriminate]. split; [apply update1_alike|exact S].
  - split; [|discriminate]. split; [exact C|]. destruct S as (B1 & B2 & B3 & B4). split; [reflexivity|split; [exact B2|split; [exact B3|exact B4]]].
  - split; [|discriminate]. split; [apply set_sat1_alike; repeat (split; try assumption)|exact S].
  - split; [|discriminate]. split; [|exact S]. unfold cfg1_alike; cbn. repeat (split; try assumption); try reflexivity; discriminate.
  - destruct (init1 _ _ e S) as (E1 & E2 & E3). unfold pid1_compute, pid1_acc, pid1_filt. rewrite E1, E2, E3, A1, A2, A3, A4, A5, A6.
    destruct (if negb _ then _ else _) as [acc|]; cbn [bindo]; [|exact I]. rewrite O1. destruct (pid1_out _ _ _ _) as [o|]; cbn [bindo]; [|exact I].
    split; [|reflexivity]. split; [exact C|repeat split].
  - destruct (init1 _ _ e S) as (E1 & E2 & E3). unfold pid1_compute_d, pid1_acc. rewrite E1, E2, A1, A2, A3, A4, A6.
    destruct (if negb _ then _ else _) as [acc|]; cbn [bindo]; [|exact I]. rewrite O1. destruct (pid1_out _ _ _ _) as [o|]; cbn [bindo]; [|exact I].
    split; [|reflexivity]. split; [exact C|repeat split].
Qed.
Lemma wtwin1_returned ops : forall p q, wtwin1 p q -> returned1 p ops = returned1 q ops.
Proof.
  induction ops as [|op r IH]; intros p q H; [reflexivity|]. pose proof (step_wtwin1 p q op H) as K. cbn [returned1].
  destruct (pid1_step p op) as [p'|], (pid1_step q op) as [q'|]; try contradiction; [|reflexivity]. destruct K as [G E].
  rewrite (IH _ _ G). destruct (is_compute1 op); [rewrite E; reflexivity|reflexivity].
Qed.
Lemma set_sat1_mem c u l : c1_aw (c1_set_sat c u l) = c1_aw c /\ c1_alpha (c1_set_sat c u l) = c1_alpha c /\ c1_rflag (c1_set_sat c u l) = c1_rflag c.
Proof. unfold c1_set_sat. destruct (ltb _ eps); [|destruct (ltb u l)]; repeat split. Qed.
Lemma update1_mem c pp : c1_aw (c1_update c pp) = pp1_aw pp /\ c1_alpha (c1_update c pp) = pp1_alpha pp /\ c1_rflag (c1_update c pp) = pp1_rflag pp.
Proof.
  unfold c1_update. destruct (negb _ || negb _); [|repeat split].
  match goal with |- context[c1_set_sat ?x ?u ?l] => destruct (set_sat1_mem x u l) as (A & B & C) end. rewrite A, B, C. repeat split.
Qed.
Lemma mem1_none op p p' : event1 op = [] -> pid1_step p op = Some p' -> mem1 p' = mem1 p.
Proof.
  destruct op as [pp| |u l| |kp ki kd|k|k|k|aw|al|b|dt e|dt e de]; cbn [event1]; try discriminate; intros _ E; injection E as <-; try reflexivity.
  unfold mem1. cbn [on_cfg1 pid1_c pid1_s]. destruct (set_sat1_mem (pid1_c p) u l) as (A & B & C). rewrite A, B, C. reflexivity.
Qed.
Lemma mem1_step op1 op2 p q p' q' : event1 op1 = event1 op2 -> event1 op1 <> [] -> mem1 p = mem1 q ->
  pid1_step p op1 = Some p' -> pid1_step q op2 = Some q' -> mem1 p' = mem1 q'.
Proof.
  intros E N M. unfold mem1 in M. injection M as A1 A2 A3 A4 A5 A6 A7.
  assert (I : forall e, s1_acc (s1_init (pid1_s p) e) = s1_acc (s1_init (pid1_s q) e) /\ s1_filt (s1_init (pid1_s p) e) = s1_filt (s1_init (pid1_s q) e) /\
    s1_perr (s1_init (pid1_s p) e) = s1_perr (s1_init (pid1_s q) e)).
  { intros e. apply init1. split; [exact A4|]. split; [exact A5|split; [exact A6|exact A7]]. }
  destruct op1 as [pp| |u l| |kp ki kd|k|k|k|aw|al|b|dt e|dt e de];
  destruct op2 as [pp'| |u' l'| |kp' ki' kd'|k'|k'|k'|aw'|al'|b'|dt' e'|dt' e' de']; cbn [event1] in E, N; try discriminate E; try congruence; cbn [pid1_step].
  - intros X Y. injection X as <-. injection Y as <-. injection E as E1 E2 E3. unfold mem1. cbn [pid1_update pid1_c pid1_s].
    destruct (update1_mem (pid1_c p) pp) as (-> & -> & ->). destruct (update1_mem (pid1_c q) pp') as (-> & -> & ->).
    rewrite A4, A5, A6, A7, E1, E2, E3. reflexivity.
  - intros X Y. injection X as <-. injection Y as <-. unfold mem1. cbn. rewrite A1, A2, A3, A5, A6, A7. reflexivity.
  - intros X Y. injection X as <-. injection Y as <-. injection E as <-. unfold mem1. cbn. rewrite A2, A3, A4, A5, A6, A7. reflexivity.
  - intros X Y. injection X as <-. injection Y as <-. injection E as <-. unfold mem1. cbn. rewrite A1, A3, A4, A5, A6, A7. reflexivity.
  - intros X Y. injection X as <-. injection Y as <-. injection E as <-. unfold mem1. cbn. rewrite A1, A2, A4, A5, A6, A7. reflexivity.
  - injection E as <- <-. destruct (I e) as (E1 & E2 & E3). unfold pid1_compute, pid1_acc, pid1_filt. rewrite E1, E2, E3, A1, A2, A3.
    destruct (if negb _ then _ else _) as [acc|]; cbn [bindo]; [|discriminate].
    destruct (pid1_out (pid1_c p) _ _ _) as [o|]; cbn [bindo]; [|discriminate]. destruct (pid1_out (pid1_c q) _ _ _) as [o'|]; cbn [bindo]; [|discriminate].
    intros X Y. injection X as <-. injection Y as <-. unfold mem1. cbn. rewrite A1, A2, A3. reflexivity.
  - injection E as <- <-. destruct (I e) as (E1 & E2 & E3). unfold pid1_compute_d, pid1_acc. rewrite E1, E2, A1, A3.
    destruct (if negb _ then _ else _) as [acc|]; cbn [bindo]; [|discriminate].
    destruct (pid1_out (pid1_c p) _ _ _) as [o|]; cbn [bindo]; [|discriminate]. destruct (pid1_out (pid1_c q) _ _ _) as [o'|]; cbn [bindo]; [|discriminate].
    intros X Y. injection X as <-. injection Y as <-. unfold mem1. cbn. rewrite A1, A2, A3. reflexivity.
Qed.
Lemma event1_one (op : Pid1Op T) : event1 op = [] \/ exists x, event1 op = [x].
Proof. destruct op as [pp| |u l| |kp ki kd|k|k|k|aw|al|b|dt e|dt e de]; cbn [event1]; first [left; reflexivity|right; eexists; reflexivity]. Qed.
Lemma mem1_skip ops : forall p p', flat_map event1 ops = [] -> pid1_run p ops = Some p' -> mem1 p' = mem1 p.
Proof.
  induction ops as [|op r IH]; intros p p' E R; [injection R as ->; reflexivity|]. cbn [flat_map] in E. apply app_eq_nil in E as [E1 E2].
  cbn [pid1_run] in R. destruct (pid1_step p op) as [p1|] eqn:S; cbn [bindo] in R; [|discriminate].
  rewrite (IH _ _ E2 R). exact (mem1_none op p p1 E1 S).
Qed.
Lemma next_event1 ops : forall p pf x r, flat_map event1 ops = x :: r -> pid1_run p ops = Some pf ->
  exists op ops' p' p1, event1 op = [x] /\ flat_map event1 ops' = r /\ mem1 p' = mem1 p /\ pid1_step p' op = Some p1 /\ pid1_run p1 ops' = Some pf.
Proof.
  induction ops as [|op ops IH]; intros p pf x r E R; [discriminate E|]. cbn [flat_map] in E.
  cbn [pid1_run] in R. destruct (pid1_step p op) as [p1|] eqn:S; cbn [bindo] in R; [|discriminate].
  destruct (event1_one op) as [N|[y N]]; rewrite N in E; cbn [app] in E.
  - destruct (IH p1 pf x r E R) as (o & ops' & p' & p2 & B1 & B2 & B3 & B4 & B5). exists o, ops', p', p2.
    split; [exact B1|]. split; [exact B2|]. split; [rewrite B3; exact (mem1_none op p p1 N S)|]. split; assumption.
  - injection E as -> E. exists op, ops, p, p1. repeat split; assumption.
Qed.
Lemma mem1_run evs : forall ops1 ops2 p q p' q', flat_map event1 ops1 = evs -> flat_map event1 ops2 = evs -> mem1 p = mem1 q ->
  pid1_run p ops1 = Some p' -> pid1_run q ops2 = Some q' -> mem1 p' = mem1 q'.
Proof.
  induction evs as [|x r IH]; intros ops1 ops2 p q p' q' E1 E2 M R1 R2.
  - rewrite (mem1_skip ops1 p p' E1 R1), (mem1_skip ops2 q q' E2 R2). exact M.
  - destruct (next_event1 ops1 p p' x r E1 R1) as (o1 & t1 & p1 & p2 & B1 & B2 & B3 & B4 & B5).
    destruct (next_event1 ops2 q q' x r E2 R2) as (o2 & t2 & q1 & q2 & D1 & D2 & D3 & D4 & D5).
    apply (IH t1 t2 p2 q2 p' q' B2 D2); [|assumption|assumption].
    apply (mem1_step o1 o2 p1 q1); [congruence|rewrite B1; discriminate|congruence|assumption|assumption].
Qed.
Theorem same_story1 pp qq h k new ops p q : story1 pp h = story1 qq k ->
  pid1_run (pid1_new pp) h = Some p -> pid1_run (pid1_new qq) k = Some q ->
  returned1 p (Op1Update new :: ops) = returned1 q (Op1Update new :: ops).
Proof.
  intros E R1 R2. cbn [returned1 pid1_step is_compute1]. apply wtwin1_returned.
  assert (M : mem1 p = mem1 q).
  { assert (X : pid1_run (mkPid1 c10 s10) (Op1Update pp :: h) = Some p) by exact R1.
    assert (Y : pid1_run (mkPid1 c10 s10) (Op1Update qq :: k) = Some q) by exact R2.
    exact (mem1_run _ _ _ _ _ _ _ eq_refl (eq_sym E) eq_refl X Y). }
  unfold mem1 in M. injection M as A1 A2 A3 A4 A5 A6 A7. split; [apply update1_alike|]. split; [exact A4|split; [exact A5|split; [exact A6|exact A7]]].
Qed.

End Tune.
