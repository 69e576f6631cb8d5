(** Proofs about settings and references. *)

From Coq Require Import ZArith List Bool Lia Reals Lra.
From Verif Require Import Scalar LinAlg MUtils MModel MDynamics MPid MPid1 MControl MCtlRun MImu MSim
  SpecDyn SpecRun SpecPid SpecCtl SpecSim SpecSet SpecConfig PBase PPid PPid1 PCtl PSim PSimEnd PConfig.
Import ListNotations.

Lemma last_app {Op A} (f : Op -> option A) ops : forall a op,
  last_set f a (ops ++ [op]) = match f op with Some x => x | None => last_set f a ops end.
Proof.
  induction ops as [|x r IH]; intros a op; [reflexivity|]. cbn [app last_set]. apply IH.
Qed.
(** A quantity that every call either leaves or sets to the requested value. *)
Lemma last_value {S Op A} (stp : S -> Op -> S) (get : S -> A) (f : Op -> option A) :
  (forall s op, get (stp s op) = match f op with Some a => a | None => get s end) ->
  forall ops s, get (fold_left stp ops s) = last_set f (get s) ops.
Proof.
  intros E. induction ops as [|op r IH]; intros s; [reflexivity|]. cbn [fold_left last_set]. rewrite IH, E. reflexivity.
Qed.

Section Set0.
Context {T : Type} {O : Ops T}.

Lemma mdiagv_vdiagm (v : V3 T) : mdiagv (vdiagm v) = v.
Proof. destruct v; reflexivity. Qed.
Lemma usable_bad (u l : T) : usable u l = negb (sat_bad u l).
Proof. unfold usable, sat_bad. rewrite negb_orb. reflexivity. Qed.

Lemma set_sat_cases (c : PidCfg T) up lo f :
  pc_set_sat c up lo f = (if usable3 up lo
    then mkPC (pc_kp c) (pc_ki c) (pc_kd c) (pc_aw c) (pc_alpha c) (pc_rflag c) true f up lo
    else if usable (vx up) (vx lo) then mkPC (pc_kp c) (pc_ki c) (pc_kd c) (pc_aw c) (pc_alpha c) (pc_rflag c) false (pc_pflag c) up lo
    else mkPC (pc_kp c) (pc_ki c) (pc_kd c) (pc_aw c) (pc_alpha c) (pc_rflag c) false (pc_pflag c) (pc_up c) (pc_lo c)).
Proof.
  unfold usable3. rewrite !usable_bad. unfold pc_set_sat.
  destruct (sat_bad (vx up) (vx lo)); [reflexivity|].
  destruct (sat_bad (vy up) (vy lo)); [reflexivity|]. destruct (sat_bad (vz up) (vz lo)); reflexivity.
Qed.
Lemma given_if (p : PidParams T) : negb (veqb (pp_lo p) v0) || negb (veqb (pp_up p) v0) = given p.
Proof. unfold given. rewrite negb_andb. reflexivity. Qed.

Ltac satcase := rewrite ?set_sat_cases; repeat match goal with |- context [if ?b then _ else _] => destruct b; cbn [andb] end;
  try reflexivity; try apply mdiagv_vdiagm.
Ltac setters := intros p []; cbn [pid_step sets_kp sets_ki sets_kd sets_aw sets_alpha sets_reset sets_sat sets_prop pid_update on_cfg];
  unfold pid_kp, pid_ki, pid_kd, pid_aw, pid_alpha, pid_reset_flag, pid_sat_on, pid_prop_on; unfold pid_update, on_cfg; cbn [pid_c]; try reflexivity; try apply mdiagv_vdiagm;
  unfold pc_update; rewrite ?given_if; cbv zeta; satcase.

Lemma step_kp : forall (p : Pid T) op, pid_kp (pid_step p op) = match sets_kp op with Some a => a | None => pid_kp p end.
Proof. setters. Qed.
Lemma step_ki : forall (p : Pid T) op, pid_ki (pid_step p op) = match sets_ki op with Some a => a | None => pid_ki p end.
Proof. setters. Qed.
Lemma step_kd : forall (p : Pid T) op, pid_kd (pid_step p op) = match sets_kd op with Some a => a | None => pid_kd p end.
Proof. setters. Qed.
Lemma step_aw : forall (p : Pid T) op, pid_aw (pid_step p op) = match sets_aw op with Some a => a | None => pid_aw p end.
Proof. setters. Qed.
Lemma step_alpha : forall (p : Pid T) op, pid_alpha (pid_step p op) = match sets_alpha op with Some a => a | None => pid_alpha p end.
Proof. setters. Qed.
Lemma step_reset : forall (p : Pid T) op, pid_reset_flag (pid_step p op) = match sets_reset op with Some a => a | None => pid_reset_flag p end.
Proof. setters. Qed.
Lemma step_sat : forall (p : Pid T) op, pid_sat_on (pid_step p op) = match sets_sat op with Some a => a | None => pid_sat_on p end.
Proof. setters. Qed.
Lemma step_prop : forall (p : Pid T) op, pid_prop_on (pid_step p op) = match sets_prop op with Some a => a | None => pid_prop_on p end.
Proof. setters. Qed.

Lemma step_limits_on (p : Pid T) op L : (pid_sat_on p = true -> pid_limits p = L) -> pid_sat_on (pid_step p op) = true ->
  pid_limits (pid_step p op) = match sets_limits op with Some a => a | None => L end.
Proof.
  intros Hp. destruct op; cbn [pid_step sets_limits]; unfold pid_update, on_cfg, pid_sat_on, pid_limits in *; cbn [pid_c] in *; try exact Hp.
  - unfold pc_update. rewrite given_if. destruct (given pp); [|discriminate]. cbn [andb]. rewrite set_sat_cases.
    destruct (usable3 _ _); [reflexivity|]. destruct (usable _ _); discriminate.
  - rewrite set_sat_cases. destruct (usable3 _ _); [reflexivity|]. destruct (usable _ _); discriminate.
  - discriminate.
Qed.

Lemma new_as_update (pp : PidParams T) : pid_c (pid_new pp) = pid_c (pid_step (mkPid pc0 ps0) (OpUpdate pp)).
Proof. reflexivity. Qed.

Lemma pid_last (pp : PidParams T) ops : let p := pid_run (pid_new pp) ops in
  pid_kp p = last_set sets_kp (pp_kp pp) ops /\ pid_ki p = last_set sets_ki (pp_ki pp) ops /\
  pid_kd p = last_set sets_kd (pp_kd pp) ops /\ pid_aw p = last_set sets_aw (pp_aw pp) ops /\
  pid_alpha p = last_set sets_alpha (pp_alpha pp) ops /\ pid_reset_flag p = last_set sets_reset (pp_rflag pp) ops /\
  pid_prop_on p = last_set sets_prop (pp_pflag pp) ops /\
  pid_sat_on p = last_set sets_sat (given pp && usable3 (pp_up pp) (pp_lo pp)) ops /\
  (pid_sat_on p = true -> forall L, pid_limits p = last_set sets_limits (if given pp && usable3 (pp_up pp) (pp_lo pp) then (pp_up pp, pp_lo pp) else L) ops).
Proof.
  cbv zeta. unfold pid_run.
  assert (E : forall A (get : Pid T -> A) f, (forall p op, get (pid_step p op) = match f op with Some a => a | None => get p end) ->
    (forall c s s', get (mkPid c s) = get (mkPid c s')) -> forall a, f (OpUpdate pp) = Some a -> get (fold_left pid_step ops (pid_new pp)) = last_set f a ops).
  { intros A get f St Cf a Fa. rewrite (last_value pid_step get f St). f_equal.
    transitivity (get (pid_step (mkPid pc0 ps0) (OpUpdate pp))); [apply Cf|]. rewrite St, Fa. reflexivity. }
  split; [apply (E _ pid_kp sets_kp step_kp); reflexivity|]. split; [apply (E _ pid_ki sets_ki step_ki); reflexivity|].
  split; [apply (E _ pid_kd sets_kd step_kd); reflexivity|]. split; [apply (E _ pid_aw sets_aw step_aw); reflexivity|].
  split; [apply (E _ pid_alpha sets_alpha step_alpha); reflexivity|]. split; [apply (E _ pid_reset_flag sets_reset step_reset); reflexivity|].
  split; [apply (E _ pid_prop_on sets_prop step_prop); reflexivity|]. split; [apply (E _ pid_sat_on sets_sat step_sat); reflexivity|].
  intros On L. revert On.
  set (L0 := if given pp && usable3 (pp_up pp) (pp_lo pp) then (pp_up pp, pp_lo pp) else L).
  assert (B : pid_sat_on (pid_new pp) = true -> pid_limits (pid_new pp) = L0).
  { intros K. change (pid_sat_on (pid_step (mkPid pc0 ps0) (OpUpdate pp)) = true) in K.
    change (pid_limits (pid_new pp)) with (pid_limits (pid_step (mkPid pc0 ps0) (OpUpdate pp))).
    rewrite (step_limits_on (mkPid pc0 ps0) (OpUpdate pp) L (fun X => False_ind _ (diff_false_true X)) K). unfold L0. cbn [sets_limits]. destruct (given pp && _); reflexivity. }
  clearbody L0. revert B. generalize (pid_new pp) L0. clear. induction ops as [|op r IH]; intros p L B; cbn [fold_left last_set]; [exact B|].
  apply IH. intros K. apply (step_limits_on p op L B K).
Qed.

(** ** Scalar *)
Ltac un1 := unfold bindo; repeat match goal with |- context [match ?x with Some _ => _ | None => _ end = Some _ -> _] => destruct x eqn:?; [|discriminate] end.
Lemma step1_cfg (p q : Pid1 T) op : pid1_step p op = Some q ->
  c1_kp (pid1_c q) = match sets1_kp op with Some a => a | None => c1_kp (pid1_c p) end /\
  c1_ki (pid1_c q) = match sets1_ki op with Some a => a | None => c1_ki (pid1_c p) end /\
  c1_kd (pid1_c q) = match sets1_kd op with Some a => a | None => c1_kd (pid1_c p) end /\
  c1_aw (pid1_c q) = match sets1_aw op with Some a => a | None => c1_aw (pid1_c p) end /\
  c1_alpha (pid1_c q) = match sets1_alpha op with Some a => a | None => c1_alpha (pid1_c p) end /\
  c1_rflag (pid1_c q) = match sets1_reset op with Some a => a | None => c1_rflag (pid1_c p) end /\
  c1_sflag (pid1_c q) = match sets1_sat op with Some a => a | None => c1_sflag (pid1_c p) end /\
  (c1_up (pid1_c q), c1_lo (pid1_c q)) = match sets1_limits op with Some a => a | None => (c1_up (pid1_c p), c1_lo (pid1_c p)) end.
Proof.
  destruct op; cbn [pid1_step sets1_kp sets1_ki sets1_kd sets1_aw sets1_alpha sets1_reset sets1_sat sets1_limits].
  1:{ intros K. injection K as <-. cbn [pid1_update pid1_c]. unfold c1_update, c1_set_sat, given1, usable. rewrite negb_andb.
      destruct (negb (eqb (pp1_up pp) zero) || negb (eqb (pp1_lo pp) zero)); cbn [andb]; [|repeat (split; [reflexivity|]); reflexivity].
      destruct (ltb (absT _) eps); cbn [negb andb]; [repeat (split; [reflexivity|]); reflexivity|].
      destruct (ltb (pp1_up pp) (pp1_lo pp)); cbn [negb]; repeat (split; [reflexivity|]); reflexivity. }
  2:{ intros K. injection K as <-. cbn [on_cfg1 pid1_c]. unfold c1_set_sat, usable.
      destruct (ltb (absT _) eps); cbn [negb andb]; [repeat (split; [reflexivity|]); reflexivity|].
      destruct (ltb u l); cbn [negb]; repeat (split; [reflexivity|]); reflexivity. }
  all: try (intros K; injection K as <-; repeat (split; [reflexivity|]); reflexivity).
  - unfold pid1_compute, bindo. destruct (pid1_acc _ _ _ _); [|discriminate]. destruct (pid1_out _ _ _ _); [|discriminate].
    intros K. injection K as <-. repeat (split; [reflexivity|]); reflexivity.
  - unfold pid1_compute_d, bindo. destruct (pid1_acc _ _ _ _); [|discriminate]. destruct (pid1_out _ _ _ _); [|discriminate].
    intros K. injection K as <-. repeat (split; [reflexivity|]); reflexivity.
Qed.

Lemma last1 A (get : P1Cfg T -> A) (f : Pid1Op T -> option A) :
  (forall p q op, pid1_step p op = Some q -> get (pid1_c q) = match f op with Some a => a | None => get (pid1_c p) end) ->
  forall pp a ops q, f (Op1Update pp) = Some a \/ (f (Op1Update pp) = None /\ get c10 = a) -> pid1_run (pid1_new pp) ops = Some q -> get (pid1_c q) = last_set f a ops.
Proof.
  intros St pp a ops q Fa.
  assert (B : get (pid1_c (pid1_new pp)) = a).
  { pose proof (St (mkPid1 c10 s10) (pid1_update (mkPid1 c10 s10) pp) (Op1Update pp) eq_refl) as X.
    destruct Fa as [F|[F <-]]; rewrite F in X; exact X. }
  revert B. generalize (pid1_new pp) a. clear pp a Fa. induction ops as [|op r IH]; intros p a B; cbn [pid1_run last_set].
  - intros K. injection K as <-. exact B.
  - unfold bindo. destruct (pid1_step p op) as [p'|] eqn:E; [|discriminate]. apply IH. rewrite (St _ _ _ E), B. reflexivity.
Qed.
Lemma pid1_last (pp : P1Params T) ops q : pid1_run (pid1_new pp) ops = Some q -> let g := pid1_get_params q in
  pp1_kp g = last_set sets1_kp (pp1_kp pp) ops /\ pp1_ki g = last_set sets1_ki (pp1_ki pp) ops /\
  pp1_kd g = last_set sets1_kd (pp1_kd pp) ops /\ pp1_aw g = last_set sets1_aw (pp1_aw pp) ops /\
  pp1_alpha g = last_set sets1_alpha (pp1_alpha pp) ops /\ pp1_rflag g = last_set sets1_reset (pp1_rflag pp) ops /\
  pid1_sat_on q = last_set sets1_sat (given1 pp && usable (pp1_up pp) (pp1_lo pp)) ops /\
  pid1_limits q = last_set sets1_limits (if given1 pp && usable (pp1_up pp) (pp1_lo pp) then (pp1_up pp, pp1_lo pp) else (zero, zero)) ops.
Proof.
  intros K. cbv zeta.
  split; [exact (last1 _ c1_kp sets1_kp (fun p q op E => proj1 (step1_cfg p q op E)) pp _ ops q (or_introl eq_refl) K)|].
  split; [exact (last1 _ c1_ki sets1_ki (fun p q op E => proj1 (proj2 (step1_cfg p q op E))) pp _ ops q (or_introl eq_refl) K)|].
  split; [exact (last1 _ c1_kd sets1_kd (fun p q op E => proj1 (proj2 (proj2 (step1_cfg p q op E)))) pp _ ops q (or_introl eq_refl) K)|].
  split; [exact (last1 _ c1_aw sets1_aw (fun p q op E => proj1 (proj2 (proj2 (proj2 (step1_cfg p q op E))))) pp _ ops q (or_introl eq_refl) K)|].
  split; [exact (last1 _ c1_alpha sets1_alpha (fun p q op E => proj1 (proj2 (proj2 (proj2 (proj2 (step1_cfg p q op E)))))) pp _ ops q (or_introl eq_refl) K)|].
  split; [exact (last1 _ c1_rflag sets1_reset (fun p q op E => proj1 (proj2 (proj2 (proj2 (proj2 (proj2 (step1_cfg p q op E))))))) pp _ ops q (or_introl eq_refl) K)|].
  split; [exact (last1 _ c1_sflag sets1_sat (fun p q op E => proj1 (proj2 (proj2 (proj2 (proj2 (proj2 (proj2 (step1_cfg p q op E)))))))) pp _ ops q (or_introl eq_refl) K)|].
  refine (last1 _ (fun c => (c1_up c, c1_lo c)) sets1_limits (fun p q op E => proj2 (proj2 (proj2 (proj2 (proj2 (proj2 (proj2 (step1_cfg p q op E)))))))) pp _ ops q _ K).
  cbn [sets1_limits]. destruct (given1 pp && _); [left; reflexivity|right; split; reflexivity].
Qed.

(** ** Controller *)
Ltac ctl_frame := match goal with
  | |- context [ctl_acro ?c ?w ?t ?d ?e] => pose proof (acro_settings c w t d e)
  | |- context [ctl_acc ?c ?A ?w ?a ?y ?e] => pose proof (acc_settings c A w a y e)
  | |- context [ctl_traj ?c ?p ?v ?A ?w ?a ?b ?d ?y ?e] => pose proof (traj_settings c p v A w a b d y e)
  | |- context [ctl_vel ?c ?v ?A ?w ?d ?y ?e] => pose proof (vel_settings c v A w d y e)
  | |- context [ctl_pos ?c ?p ?A ?v ?w ?d ?y ?e] => pose proof (pos_settings c p A v w d y e)
  end; match goal with Fr : same_setup _ _ |- _ => destruct Fr as (Fr1 & Fr2 & Fr3 & Fr4 & Fr5 & Fr6) end.

Lemma step_mass (c : Ctl T) op : ac_mass (ct_acro (ctl_step c op)) = match sets_mass op with Some a => a | None => ac_mass (ct_acro c) end.
Proof. destruct op; cbn [ctl_step sets_mass]; try (ctl_frame; assumption); try reflexivity; destruct w; reflexivity. Qed.
Lemma step_grav (c : Ctl T) op : ac_grav (ct_acro (ctl_step c op)) = match sets_grav op with Some a => a | None => ac_grav (ct_acro c) end.
Proof. destruct op; cbn [ctl_step sets_grav]; try (ctl_frame; assumption); try reflexivity; destruct w; reflexivity. Qed.
Lemma step_kprot (c : Ctl T) op : ac_kp (ct_acro (ctl_step c op)) = match sets_kprot op with Some a => a | None => ac_kp (ct_acro c) end.
Proof. destruct op; cbn [ctl_step sets_kprot]; try (ctl_frame; assumption); try reflexivity; destruct w; reflexivity. Qed.
Lemma step_inertia (c : Ctl T) op : in_inertia (ct_indi (ctl_step c op)) = match sets_inertia op with Some a => a | None => in_inertia (ct_indi c) end.
Proof. destruct op; cbn [ctl_step sets_inertia]; try (ctl_frame; assumption); try reflexivity; destruct w; reflexivity. Qed.
Lemma step_mixer (c : Ctl T) op : in_minv (ct_indi (ctl_step c op)) = match sets_mixer op with Some a => a | None => in_minv (ct_indi c) end.
Proof. destruct op; cbn [ctl_step sets_mixer]; try (ctl_frame; assumption); try reflexivity; destruct w; reflexivity. Qed.

Lemma cfg_only (p q : Pid T) o : pid_c p = pid_c q -> pid_c (pid_step p o) = pid_c (pid_step q o).
Proof. intros E. destruct o; cbn [pid_step pid_update pid_reset on_cfg pid_c pid_compute pid_compute_d]; rewrite ?E; reflexivity. Qed.
Lemma cfg_only_run ops : forall p q : Pid T, pid_c p = pid_c q -> pid_c (pid_run p ops) = pid_c (pid_run q ops).
Proof. unfold pid_run. induction ops as [|o r IH]; intros p q E; cbn [fold_left]; [exact E|]. apply IH, cfg_only, E. Qed.

Lemma step_loop w (c : Ctl T) op : pid_c (get_pid w (ctl_step c op)) = pid_c (pid_run (get_pid w c) (reaches w op)).
Proof.
  destruct op; cbn [ctl_step reaches].
  all: try (ctl_frame; exact (Fr6 w)).
  all: destruct w; try destruct w0; reflexivity.
Qed.
Lemma ctl_last n (p : CtlParams T) ops : let c := ctl_run (ctl_new n p) ops in
  ac_mass (ct_acro c) = last_set sets_mass (ap_mass (cp_acro p)) ops /\
  ac_grav (ct_acro c) = last_set sets_grav (ap_grav (cp_acro p)) ops /\
  ac_kp (ct_acro c) = last_set sets_kprot (ap_kp (cp_acro p)) ops /\
  in_inertia (ct_indi c) = last_set sets_inertia (ip_inertia (cp_indi p)) ops /\
  in_minv (ct_indi c) = last_set sets_mixer (ip_minv (cp_indi p)) ops /\
  forall w, let q := pid_run (pid_new (loop_params w p)) (flat_map (reaches w) ops) in
    pid_get_params (get_pid w c) = pid_get_params q /\ pid_sat_on (get_pid w c) = pid_sat_on q.
Proof.
  cbv zeta. unfold ctl_run.
  split; [exact (last_value ctl_step (fun c => ac_mass (ct_acro c)) sets_mass step_mass ops (ctl_new n p))|].
  split; [exact (last_value ctl_step (fun c => ac_grav (ct_acro c)) sets_grav step_grav ops (ctl_new n p))|].
  split; [exact (last_value ctl_step (fun c => ac_kp (ct_acro c)) sets_kprot step_kprot ops (ctl_new n p))|].
  split; [exact (last_value ctl_step (fun c => in_inertia (ct_indi c)) sets_inertia step_inertia ops (ctl_new n p))|].
  split; [exact (last_value ctl_step (fun c => in_minv (ct_indi c)) sets_mixer step_mixer ops (ctl_new n p))|].
  intros w.
  assert (E : pid_c (get_pid w (fold_left ctl_step ops (ctl_new n p))) = pid_c (pid_run (pid_new (loop_params w p)) (flat_map (reaches w) ops))).
  { assert (B : pid_c (get_pid w (ctl_new n p)) = pid_c (pid_new (loop_params w p))) by (destruct w; reflexivity).
    revert B. generalize (ctl_new n p) (pid_new (loop_params w p)). clear. induction ops as [|op r IH]; intros c q B; cbn [fold_left flat_map]; [exact B|].
    unfold pid_run. rewrite fold_left_app. apply IH. rewrite step_loop. apply cfg_only_run, B. }
  unfold pid_get_params, pid_sat_on. rewrite E. split; reflexivity.
Qed.

(** ** Simulator *)
Context {G H : Gen T}.
Implicit Types s : Sim T G H.

Lemma request_met n s op s' v : next (sim_step n s op) s' -> In v (requests op) -> ref_is s' v.
Proof.
  intros N I. destruct op; cbn [requests] in I; try contradiction; cbn [sim_step] in N; destruct N as [N|N]; try discriminate; injection N as <-;
  repeat (destruct I as [<-|I]; [reflexivity|]); contradiction.
Qed.
Lemma ref_kept1 n s op s' v : ~ replaces op v -> next (sim_step n s op) s' -> ref_is s v -> ref_is s' v.
Proof.
  intros Nr N I.
  assert (Y : sm_refs s' = sm_refs s -> ref_is s' v) by (intros E; destruct v; cbn [ref_is] in *; rewrite E; exact I).
  destruct op; cbn [sim_step] in N.
  1:{ apply Y. assert (X : rest s' = rest s) by (eapply ud_rest; exact N). unfold rest in X. injection X; auto. }
  all: destruct N as [N|N]; try discriminate.
  all: try (injection N as <-; apply Y; destruct s; reflexivity).
  1:{ destruct (frame_controller n s dt s') as (_ & _ & _ & _ & _ & _ & _ & _ & _ & (R1 & R2 & R3 & R4 & R5 & R6 & R7) & _); [exact N|].
      destruct v; cbn [ref_is] in *; try congruence. exfalso. apply Nr. exact Logic.I. }
  all: try (injection N as <-; destruct v; cbn [ref_is replaces] in *; try exact I; exfalso; apply Nr; exact Logic.I).
  - injection N as <-. unfold set_control_mode. destruct (_ && _); [exact I|]. destruct v; cbn [ref_is replaces] in *; try exact I; exfalso; apply Nr; exact Logic.I.
  - apply Y. unfold set_dynamics_params in N. destruct (dyn_new _ _ _ _); [|discriminate]. injection N as <-. reflexivity.
  - apply Y. unfold set_dynamics_params in N. destruct (dyn_new _ _ _ _); discriminate.
Qed.
Lemma ref_kept n s op ops s1 s2 v : next (sim_step n s op) s1 -> In v (requests op) ->
  Forall (fun o => ~ replaces o v) ops -> sim_run n s1 ops = Some s2 -> ref_is s2 v.
Proof.
  intros N I F. apply (run_inv n (fun x => ref_is x v) (fun o => ~ replaces o v)); [|exact (request_met _ _ _ _ _ N I)|exact F].
  intros a o b Ha Q M. exact (ref_kept1 n a o b v Q M Ha).
Qed.
(** The yaw reference also survives controller updates in angle mode. *)
Lemma yaw_kept n s ops s' y : sm_yawmode s = ANGLE -> ref_is s (VYaw y) ->
  Forall (fun o => ~ replaces_yaw o) ops -> sim_run n s ops = Some s' -> ref_is s' (VYaw y).
Proof.
  intros A Y F K.
  refine (proj2 (run_inv n (fun x => sm_yawmode x = ANGLE /\ ref_is x (VYaw y)) (fun o => ~ replaces_yaw o) ops _ s s' (conj A Y) F K)).
  clear s s' ops A Y F K. intros s op s' (A & Y) Q N.
  assert (M : sm_yawmode s' = ANGLE).
  { pose proof (run_mode n [op] s s') as X. cbn [sim_run] in X.
    assert (K : match sim_step n s op with Ok x => Some x | Throw x => Some x | UB => None end = Some s') by (destruct N as [-> | ->]; reflexivity).
    specialize (X K). destruct op; cbn in X; try (injection X; congruence). exfalso. apply Q. exact Logic.I. }
  split; [exact M|].
  assert (D : replaces op (VYaw y) \/ ~ replaces op (VYaw y)) by (destruct op; cbn; auto).
  destruct D as [D|D]; [|exact (ref_kept1 n s op s' _ D N Y)].
  destruct op; try contradiction.
  destruct N as [N|N]; [|discriminate]. destruct (frame_controller n s dt s' N) as (_ & _ & _ & _ & _ & _ & _ & _ & _ & _ & Z). cbn [ref_is] in *. rewrite (Z A). exact Y.
Qed.

(** Arming. *)
Lemma arm_refs n s s' : next (sim_step n s SArm) s' ->
  sm_armed s' = true /\ ref_is s' (VThrust (lit 981 100)) /\ ref_is s' (VRates v0) /\
  ref_is s' (VPos (mkV (vx (rf_pos (sm_refs s))) (vy (rf_pos (sm_refs s))) (sm_floor_h s))) /\
  sm_dyn s' = sm_dyn s /\ sm_ctl s' = sm_ctl s /\ sm_imu s' = sm_imu s /\ sm_odom s' = sm_odom s /\
  sm_act s' = sm_act s /\ sm_mode s' = sm_mode s /\ sm_yawmode s' = sm_yawmode s /\
  sm_floor_en s' = sm_floor_en s /\ sm_floor_h s' = sm_floor_h s.
Proof. intros [N|N]; [|discriminate]. cbn in N. injection N as <-. repeat (split; [reflexivity|]). reflexivity. Qed.

(** Replacing one part right after construction is constructing with it. *)
Lemma set_parts n sp s (ops : list (SimOp T G H)) : sim_new n sp = Some s ->
  (forall p seed st, sim_after n sp (SSetDyn p seed st :: ops) = sim_after n (with_vehicle sp p seed st) ops) /\
  (forall c, sim_after n sp (SSetCtl c :: ops) = sim_after n (with_controller sp c) ops) /\
  (forall i, sim_after n sp (SSetImu i :: ops) = sim_after n (with_sensor sp i) ops) /\
  (forall o, sim_after n sp (SSetOdom o :: ops) = sim_after n (with_odometry sp o) ops).
Proof.
  unfold sim_after, sim_new. cbn [with_vehicle with_controller with_sensor with_odometry sp_model sp_seed sp_state sp_ctl sp_imu sp_odom].
  destruct (dyn_new n (sp_model sp) (sp_seed sp) (sp_state sp)) as [d|]; [|discriminate]. cbn [option_map sim_run sim_step]. intros _.
  split; [|split; [|split]]; intros.
  - unfold set_dynamics_params. destruct (dyn_new n p seed st); reflexivity.
  - reflexivity.
  - reflexivity.
  - reflexivity.
Qed.
Lemma one_step n s op s' : sim_run n s [op] = Some s' -> next (sim_step n s op) s'.
Proof. cbn [sim_run]. unfold next. destruct (sim_step n s op); intros K; try discriminate; injection K as <-; auto. Qed.
Lemma ref_after n s op ops s' v : sim_run n s (op :: ops) = Some s' -> In v (requests op) ->
  Forall (fun o => ~ replaces o v) ops -> ref_is s' v.
Proof.
  intros K I F. cbn [sim_run] in K. destruct (sim_step n s op) as [x|x|] eqn:E; [| |discriminate];
  (eapply ref_kept; [|exact I|exact F|exact K]); [left|right]; exact E.
Qed.
Lemma arm_run n s s' : sim_run n s [SArm] = Some s' ->
  sm_armed s' = true /\ ref_is s' (VThrust (lit 981 100)) /\ ref_is s' (VRates v0) /\
  ref_is s' (VPos (mkV (vx (rf_pos (sm_refs s))) (vy (rf_pos (sm_refs s))) (sm_floor_h s))) /\
  sm_dyn s' = sm_dyn s /\ sm_ctl s' = sm_ctl s /\ sm_imu s' = sm_imu s /\ sm_odom s' = sm_odom s /\
  sm_act s' = sm_act s /\ sm_mode s' = sm_mode s /\ sm_yawmode s' = sm_yawmode s /\
  sm_floor_en s' = sm_floor_en s /\ sm_floor_h s' = sm_floor_h s.
Proof. intros K. apply (arm_refs n), one_step, K. Qed.
(** At any other moment each setter touches its part only. *)
Lemma touches_only n s op s' : next (sim_step n s op) s' ->
  part_setter op -> only_part op s s'.
Proof.
  intros N C. destruct op; try (exfalso; destruct C as [C|[C|[C|C]]]; exact C); clear C; cbn [sim_step] in N; destruct N as [N|N]; try discriminate.
  - unfold set_dynamics_params in N. destruct (dyn_new _ _ _ _) as [d|]; [|discriminate]. injection N as <-.
    unfold only_part. repeat (split; [intros; first [reflexivity|exfalso; match goal with X : ~ _ |- _ => apply X; exact Logic.I end]|]). reflexivity.
  - unfold set_dynamics_params in N. destruct (dyn_new _ _ _ _); discriminate.
  - injection N as <-. unfold only_part. repeat (split; [intros; first [reflexivity|exfalso; match goal with X : ~ _ |- _ => apply X; exact Logic.I end]|]). reflexivity.
  - injection N as <-. unfold only_part. repeat (split; [intros; first [reflexivity|exfalso; match goal with X : ~ _ |- _ => apply X; exact Logic.I end]|]). reflexivity.
  - injection N as <-. unfold only_part. repeat (split; [intros; first [reflexivity|exfalso; match goal with X : ~ _ |- _ => apply X; exact Logic.I end]|]). reflexivity.
Qed.
Lemma touches_run n s op s' : sim_run n s [op] = Some s' -> part_setter op -> only_part op s s'.
Proof. intros K. apply (touches_only n), one_step, K. Qed.
End Set0.
