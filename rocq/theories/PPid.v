(** Proofs about the vector PID: any arithmetic. *)

From Coq Require Import ZArith List Bool Lia.
From Verif Require Import Scalar LinAlg MPid MPid1 SpecDyn SpecPid.
Import ListNotations.

Section Gen.
Context {T : Type} {O : Ops T}.

(** ** Accepted limits *)
Definition lim_ok (c : PidCfg T) : Prop :=
  pc_sflag c = true -> forall a, sat_bad (pr a (pc_up c)) (pr a (pc_lo c)) = false.
Definition diag_ok (m : M3 T) : Prop := m = vdiagm (mdiagv m).
Definition cfg_inv (c : PidCfg T) : Prop :=
  lim_ok c /\ diag_ok (pc_kp c) /\ diag_ok (pc_ki c) /\ diag_ok (pc_kd c).

Lemma diag_vdiagm (v : V3 T) : diag_ok (vdiagm v).
Proof. reflexivity. Qed.
Lemma diag_mI : diag_ok (mI (T:=T)).
Proof. reflexivity. Qed.

Lemma set_sat_lim c up lo f : lim_ok (pc_set_sat c up lo f).
Proof.
  unfold pc_set_sat, lim_ok.
  destruct (sat_bad (vx up) (vx lo)) eqn:Ex; [cbn; discriminate|].
  destruct (sat_bad (vy up) (vy lo)) eqn:Ey; [cbn; discriminate|].
  destruct (sat_bad (vz up) (vz lo)) eqn:Ez; [cbn; discriminate|].
  intros _ a. destruct a; assumption.
Qed.

Lemma set_sat_gains c up lo f :
  pc_kp (pc_set_sat c up lo f) = pc_kp c /\ pc_ki (pc_set_sat c up lo f) = pc_ki c /\
  pc_kd (pc_set_sat c up lo f) = pc_kd c /\ pc_aw (pc_set_sat c up lo f) = pc_aw c /\
  pc_alpha (pc_set_sat c up lo f) = pc_alpha c /\ pc_rflag (pc_set_sat c up lo f) = pc_rflag c.
Proof.
  unfold pc_set_sat.
  destruct (sat_bad (vx up) (vx lo)); [repeat split; reflexivity|].
  destruct (sat_bad (vy up) (vy lo)); [repeat split; reflexivity|].
  destruct (sat_bad (vz up) (vz lo)); repeat split; reflexivity.
Qed.

Lemma set_sat_inv c up lo f : cfg_inv c -> cfg_inv (pc_set_sat c up lo f).
Proof.
  intros (_ & A & B & C). destruct (set_sat_gains c up lo f) as (E1 & E2 & E3 & _).
  split; [apply set_sat_lim|]. rewrite E1, E2, E3. auto.
Qed.

Lemma disable_inv c : cfg_inv c -> cfg_inv (pc_disable_sat c).
Proof. intros (_ & A & B & C). split; [intros H; discriminate H|]. cbn. auto. Qed.

Lemma update_cfg_inv c pp : cfg_inv c -> cfg_inv (pc_update c pp).
Proof.
  intros (H & _). unfold pc_update.
  match goal with |- cfg_inv (if _ then pc_set_sat ?c0 _ _ _ else _) => set (c' := c0) end.
  assert (K : cfg_inv c') by (split; [exact H|]; repeat split).
  destruct (_ || _); [apply set_sat_inv|apply disable_inv]; exact K.
Qed.

Lemma step_cfg_inv p op : cfg_inv (pid_c p) -> cfg_inv (pid_c (pid_step p op)).
Proof.
  destruct op; cbn [pid_step on_cfg pid_c pid_reset pid_compute pid_compute_d]; intros K; try exact K;
    try (destruct K as (H & A & B & C); split; [exact H|]; repeat split; (exact A || exact B || exact C || reflexivity)).
  - apply update_cfg_inv; exact K.
  - apply set_sat_inv; exact K.
  - apply disable_inv; exact K.
Qed.

Lemma run_cfg_inv ops : forall p, cfg_inv (pid_c p) -> cfg_inv (pid_c (pid_run p ops)).
Proof.
  induction ops as [|op ops IH]; intros p K; [exact K|]. cbn [pid_run fold_left].
  apply IH. apply step_cfg_inv. exact K.
Qed.

Lemma new_cfg_inv pp : cfg_inv (pid_c (pid_new pp)).
Proof.
  unfold pid_new, pid_reset, pid_update. cbn [pid_c]. apply update_cfg_inv.
  split; [intros H; discriminate H|]. repeat split.
Qed.

Lemma reached_inv p : Reached p -> cfg_inv (pid_c p).
Proof. intros (pp & ops & ->). apply run_cfg_inv, new_cfg_inv. Qed.

(** ** Per-axis saturation *)
Lemma sat1_inside (HI : Irrefl O) x u l : ltb u l = false -> inside (sat1 x u l) u l.
Proof.
  intros H. unfold sat1, inside. destruct (ltb u x) eqn:E1; [split; [apply HI|exact H]|].
  destruct (ltb x l) eqn:E2; [split; [exact H|apply HI]|split; assumption].
Qed.

Lemma sat_bad_ltb u l : sat_bad u l = false -> ltb u l = false.
Proof. unfold sat_bad. intros H. apply orb_false_iff in H. apply H. Qed.

Lemma saturate_false_pr x up lo (a : Ax) :
  pr a (saturate x up lo false) = sat1 (pr a x) (pr a up) (pr a lo).
Proof. destruct a; reflexivity. Qed.

Lemma pid_out_inside (HI : Irrefl O) c cp ci cd :
  lim_ok c -> pc_sflag c = true -> pc_pflag c = false ->
  forall a, inside (pr a (pid_out c cp ci cd)) (pr a (pc_up c)) (pr a (pc_lo c)).
Proof.
  intros H Hs Hp a. unfold pid_out. rewrite Hs, Hp, saturate_false_pr.
  apply sat1_inside; [exact HI|]. apply sat_bad_ltb, H, Hs.
Qed.

Lemma saturated_always (HI : Irrefl O) p op :
  Reached p -> is_compute op = true -> pid_sat_on p = true -> pid_prop_on p = false ->
  forall a, inside (pr a (pid_output (pid_step p op))) (pr a (fst (pid_limits p))) (pr a (snd (pid_limits p))).
Proof.
  intros Hr Ho Hs Hp a. apply reached_inv in Hr as (L & _).
  destruct op; try discriminate Ho; apply pid_out_inside; assumption.
Qed.

(** ** Anti-windup *)
Lemma acc_inside (HI : Irrefl O) c acc dt e :
  veqb (pc_aw c) v0 = false -> forall a, ltb (pr a (pc_aw c)) (mul mone (pr a (pc_aw c))) = false ->
  inside (pr a (pid_acc c acc dt e)) (pr a (pc_aw c)) (mul mone (pr a (pc_aw c))).
Proof.
  intros H a Ha. unfold pid_acc. rewrite H. cbn [negb]. rewrite saturate_false_pr.
  replace (pr a (vscale mone (pc_aw c))) with (mul mone (pr a (pc_aw c))) by (destruct a; reflexivity).
  apply sat1_inside; assumption.
Qed.

(** ** Reset *)
Definition same_next (s1 s2 : PidSt T) : Prop :=
  ps_first s1 = ps_first s2 /\
  (ps_first s1 = true \/ (ps_acc s1 = ps_acc s2 /\ ps_filt s1 = ps_filt s2 /\ ps_perr s1 = ps_perr s2)).
Definition twin (p q : Pid T) : Prop := pid_c p = pid_c q /\ same_next (pid_s p) (pid_s q).

Lemma init_twin s1 s2 e : same_next s1 s2 ->
  ps_acc (ps_init s1 e) = ps_acc (ps_init s2 e) /\ ps_filt (ps_init s1 e) = ps_filt (ps_init s2 e) /\
  ps_perr (ps_init s1 e) = ps_perr (ps_init s2 e).
Proof.
  intros [F H]. unfold ps_init. rewrite <- F. destruct (ps_first s1); [repeat split|].
  destruct H as [H|H]; [discriminate|exact H].
Qed.

Lemma step_twin p q op : twin p q -> twin (pid_step p op) (pid_step q op) /\
  (is_compute op = true -> pid_output (pid_step p op) = pid_output (pid_step q op)).
Proof.
  intros [C S].
  destruct op; cbn [pid_step is_compute];
    try (split; [split; [unfold on_cfg, pid_update, pid_reset; cbn; rewrite ?C; reflexivity|exact S]|discriminate]).
  - (* reset *) split; [|discriminate]. split; [exact C|]. split; [reflexivity|left; reflexivity].
  - destruct (init_twin _ _ e S) as (A & B & D). unfold pid_compute, pid_filt, pid_output. rewrite C, A, B, D.
    split; [|reflexivity]. split; [reflexivity|]. split; [reflexivity|right; repeat split].
  - destruct (init_twin _ _ e S) as (A & B & D). unfold pid_compute_d, pid_output. rewrite C, A, B.
    split; [|reflexivity]. split; [reflexivity|]. split; [reflexivity|right; repeat split].
Qed.

Lemma twin_returned ops : forall p q, twin p q -> returned p ops = returned q ops.
Proof.
  induction ops as [|op ops IH]; intros p q H; [reflexivity|]. cbn [returned].
  destruct (step_twin p q op H) as [H' E]. rewrite (IH _ _ H').
  destruct (is_compute op); [rewrite E by reflexivity|]; reflexivity.
Qed.

Lemma reset_forgets p q ops : pid_c p = pid_c q -> returned (pid_reset p) ops = returned (pid_reset q) ops.
Proof.
  intros C. apply twin_returned. split; [exact C|]. split; [reflexivity|left; reflexivity].
Qed.

Lemma same_settings p q : Reached p -> Reached q ->
  pid_get_params p = pid_get_params q -> pid_sat_on p = pid_sat_on q -> pid_c p = pid_c q.
Proof.
  intros Hp Hq E S. apply reached_inv in Hp as (_ & A1 & A2 & A3). apply reached_inv in Hq as (_ & B1 & B2 & B3).
  unfold pid_get_params, pid_sat_on, diag_ok in *. destruct p as [c s], q as [d t]. cbn [pid_c] in *.
  destruct c as [a1 a2 a3 a4 a5 a6 a7 a8 a9 a10], d as [b1 b2 b3 b4 b5 b6 b7 b8 b9 b10].
  cbn [pc_kp pc_ki pc_kd pc_aw pc_alpha pc_rflag pc_sflag pc_pflag pc_up pc_lo] in *.
  assert (E1 : mdiagv a1 = mdiagv b1) by congruence. assert (E2 : mdiagv a2 = mdiagv b2) by congruence.
  assert (E3 : mdiagv a3 = mdiagv b3) by congruence.
  rewrite A1, A2, A3, B1, B2, B3, E1, E2, E3. congruence.
Qed.

Lemma reset_same p q ops : Reached p -> Reached q ->
  pid_get_params p = pid_get_params q -> pid_sat_on p = pid_sat_on q ->
  returned (pid_reset p) ops = returned (pid_reset q) ops.
Proof. intros A B C D. apply reset_forgets. apply same_settings; assumption. Qed.

Lemma reset_new p pp ops : Reached p ->
  pid_get_params p = pid_get_params (pid_new pp) -> pid_sat_on p = pid_sat_on (pid_new pp) ->
  returned (pid_reset p) ops = returned (pid_new pp) ops.
Proof.
  intros A C D. change (pid_new pp) with (pid_reset (pid_new pp)). apply reset_same; try assumption.
  exists pp, []. reflexivity.
Qed.

Lemma new_is_reset pp : pid_new pp = pid_reset (pid_new (T:=T) pp).
Proof. reflexivity. Qed.

Lemma reset_like_new p pp ops : pid_c p = pid_c (pid_new pp) -> returned (pid_reset p) ops = returned (pid_new pp) ops.
Proof. intros C. rewrite (new_is_reset pp). apply reset_forgets. exact C. Qed.

(** ** Rejected saturation *)
Lemma set_sat_off c up lo f : (exists a, sat_bad (pr a up) (pr a lo) = true) ->
  pc_sflag (pc_set_sat c up lo f) = false.
Proof.
  intros [a Ha]. unfold pc_set_sat.
  destruct (sat_bad (vx up) (vx lo)) eqn:Ex; [reflexivity|].
  destruct (sat_bad (vy up) (vy lo)) eqn:Ey; [reflexivity|].
  destruct (sat_bad (vz up) (vz lo)) eqn:Ez; [reflexivity|].
  destruct a; cbn [pr] in Ha; congruence.
Qed.

Lemma set_sat_on c up lo f : (forall a, sat_bad (pr a up) (pr a lo) = false) ->
  pc_set_sat c up lo f =
  mkPC (pc_kp c) (pc_ki c) (pc_kd c) (pc_aw c) (pc_alpha c) (pc_rflag c) true f up lo.
Proof.
  intros H. unfold pc_set_sat. pose proof (H AX) as A; pose proof (H AY) as B; pose proof (H AZ) as C.
  cbn [pr] in A, B, C. rewrite A, B, C. reflexivity.
Qed.

(** The first axis is validated before anything is written. *)
Lemma set_sat_first_axis c up lo f : sat_bad (vx up) (vx lo) = true ->
  pc_up (pc_set_sat c up lo f) = pc_up c /\ pc_lo (pc_set_sat c up lo f) = pc_lo c.
Proof. intros H. unfold pc_set_sat. rewrite H. split; reflexivity. Qed.

(** Later axes are not: the rejected limits stay. *)
Lemma set_sat_leaks c up lo f : sat_bad (vx up) (vx lo) = false ->
  pc_up (pc_set_sat c up lo f) = up /\ pc_lo (pc_set_sat c up lo f) = lo.
Proof.
  intros H. unfold pc_set_sat. rewrite H.
  destruct (sat_bad (vy up) (vy lo)); [split; reflexivity|].
  destruct (sat_bad (vz up) (vz lo)); split; reflexivity.
Qed.

(** ** Memory and settings are separate *)
Lemma settings_keep_memory p op : is_compute op = false -> op <> OpReset -> pid_s (pid_step p op) = pid_s p.
Proof. destruct op; try discriminate; try reflexivity. intros _ H. contradiction H; reflexivity. Qed.
Lemma compute_keeps_settings p op : is_compute op = true -> pid_c (pid_step p op) = pid_c p.
Proof. destruct op; try discriminate; reflexivity. Qed.

End Gen.
