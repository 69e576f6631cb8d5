(** The simulator: lemmas that hold in any arithmetic. *)

From Coq Require Import ZArith List Bool Lia.
From Verif Require Import Scalar LinAlg MUtils MModel MDynamics MPid MControl MImu MSim SpecDyn SpecRun SpecImu SpecSim PBase PDyn PDynMore.
Import ListNotations.

Section Sim.
Context {T : Type} {O : Ops T} {G H : Gen T}.
Variable n : nat.
Implicit Types s : Sim T G H.

Ltac destruct_if K := match type of K with (if ?b then _ else _) = _ => destruct b; discriminate end.

(** *** Shape of update_dynamics. *)
Lemma ud_ok s dt s' : update_dynamics s dt = Ok s' ->
  exists ext d, free_motion s dt ext d /\
    ext = (if below_floor s then
             match mo_cfg (d_model (sm_dyn s)) with
             | Some c => vscaler (vneg (p_grav (cf_params c))) (p_mass (cf_params c)) | None => ext end
           else sm_ext s) /\
    (below_floor s = true -> mo_cfg (d_model (sm_dyn s)) <> None) /\
    let s2 := with_col (with_ext (with_dyn s d) v0) false in
    s' = if below_floor s2 then
           with_odom (with_imu (with_dyn (with_col s2 true) (dyn_set_state d (floor_state (d_state d) (sm_floor_h s))))
                        (imu_reset (sm_imu s)))
                     (odom_reset (odom_set_init (sm_odom s) (s_ori (d_state d))))
         else s2.
Proof.
  unfold update_dynamics, free_motion. destruct (below_floor s) eqn:B.
  - destruct (mo_cfg (d_model (sm_dyn s))) as [c|] eqn:C; [|discriminate]. cbn [option_map].
    destruct (process _ _ _ _ _) as [d|d|] eqn:E; try discriminate.
    intros K. exists (vscaler (vneg (p_grav (cf_params c))) (p_mass (cf_params c))), d.
    split; [exact E|]. split; [reflexivity|]. split; [discriminate|]. revert K.
    cbv zeta. unfold below_floor, sim_state. destruct s; cbn. destruct (_ && _); intros K; injection K as <-; reflexivity.
  - destruct (process _ _ _ _ _) as [d|d|] eqn:E; try discriminate.
    intros K. exists (sm_ext s), d. split; [exact E|]. split; [reflexivity|]. split; [discriminate|]. revert K.
    cbv zeta. unfold below_floor, sim_state. destruct s; cbn. destruct (_ && _); intros K; injection K as <-; reflexivity.
Qed.

Lemma ud_throw (S : Sane O) s dt s' : update_dynamics s dt = Throw s' ->
  leb dt zero = true /\
  (below_floor s = false /\ s' = s \/
   below_floor s = true /\ exists c, mo_cfg (d_model (sm_dyn s)) = Some c /\
     s' = with_ext s (vscaler (vneg (p_grav (cf_params c))) (p_mass (cf_params c)))).
Proof.
  unfold update_dynamics. destruct (below_floor s) eqn:B.
  - destruct (mo_cfg (d_model (sm_dyn s))) as [c|] eqn:C; [|discriminate]. cbn [option_map].
    destruct (process _ _ _ _ _) as [d|d|] eqn:E; intros K; cbv zeta in K; try discriminate.
    { exfalso. destruct_if K. } injection K as <-. destruct (process_throw_only S _ _ _ _ _ _ E) as [D ->]. split; [exact D|].
    right. split; [reflexivity|]. exists c. split; [reflexivity|]. destruct s; reflexivity.
  - destruct (process _ _ _ _ _) as [d|d|] eqn:E; intros K; cbv zeta in K; try discriminate.
    { exfalso. destruct_if K. } injection K as <-. destruct (process_throw_only S _ _ _ _ _ _ E) as [D ->]. split; [exact D|].
    left. split; [reflexivity|]. destruct s; reflexivity.
Qed.

(** *** What update_dynamics never touches, whatever the outcome. *)
Definition rest (s : Sim T G H) := (sm_ctl s, sm_armed s, sm_floor_en s, sm_floor_h s, sm_refs s, sm_act s, sm_mode s, sm_yawmode s).
Lemma ud_rest s dt s' : update_dynamics s dt = Ok s' \/ update_dynamics s dt = Throw s' -> rest s' = rest s.
Proof.
  intros [K|K].
  - destruct (ud_ok _ _ _ K) as (ext & d & _ & _ & _ & ->). cbv zeta.
    destruct s; unfold rest; cbn. destruct (below_floor _); reflexivity.
  - unfold update_dynamics in K. destruct (below_floor s).
    + destruct (mo_cfg _); [|discriminate]. cbn [option_map] in K.
      destruct (process _ _ _ _ _) as [d|d|]; try discriminate.
      { exfalso. cbv zeta in K. destruct_if K. }
      injection K as <-. destruct s; reflexivity.
    + destruct (process _ _ _ _ _) as [d|d|]; try discriminate.
      { exfalso. cbv zeta in K. destruct_if K. }
      injection K as <-. destruct s; reflexivity.
Qed.

(** *** History induction. *)
Definition next (x : outcome (Sim T G H)) s' : Prop := x = Ok s' \/ x = Throw s'.
Lemma run_snoc s ops op s' : sim_run n s (ops ++ [op]) = Some s' ->
  exists s1, sim_run n s ops = Some s1 /\ next (sim_step n s1 op) s'.
Proof.
  revert s. induction ops as [|a r IH]; intros s; cbn [sim_run app].
  - destruct (sim_step n s op) as [x|x|] eqn:E; cbn; intros K; try discriminate; injection K as <-;
    (exists s; split; [reflexivity|]); [left|right]; exact E.
  - destruct (sim_step n s a) as [x|x|]; try discriminate; apply IH.
Qed.
Lemma run_app s a b : sim_run n s (a ++ b) = match sim_run n s a with Some s1 => sim_run n s1 b | None => None end.
Proof.
  revert s. induction a as [|x r IH]; intros s; cbn [sim_run app]; [reflexivity|].
  destruct (sim_step n s x) as [y|y|]; [apply IH|apply IH|reflexivity].
Qed.
Lemma run_inv (P : Sim T G H -> Prop) (Q : SimOp T G H -> Prop) ops :
  (forall s op s', P s -> Q op -> next (sim_step n s op) s' -> P s') ->
  forall s s', P s -> Forall Q ops -> sim_run n s ops = Some s' -> P s'.
Proof.
  intros St. induction ops as [|a r IH]; intros s s' HP F; cbn [sim_run].
  - intros K. injection K as <-. exact HP.
  - inversion F as [|? ? Qa Fr]; subst. destruct (sim_step n s a) as [x|x|] eqn:E; try discriminate; intros K;
    (apply (IH x s'); [|exact Fr|exact K]); (apply (St s a x HP Qa)); [left|right]; exact E.
Qed.

(** *** Floor (C44). *)
Lemma floor_height s dt s' : update_dynamics s dt = Ok s' -> sm_floor_en s = true -> Irrefl O ->
  ltb (vz (s_pos (sim_state s'))) (sm_floor_h s) = false /\ sm_floor_h s' = sm_floor_h s.
Proof.
  intros K E HI. destruct (ud_ok _ _ _ K) as (ext & d & _ & _ & _ & ->). cbv zeta.
  destruct (below_floor _) eqn:B.
  - split; [|destruct s; reflexivity]. unfold sim_state. destruct s; cbn. apply HI.
  - split; [|destruct s; reflexivity]. unfold below_floor in B. destruct s; cbn in *. subst. exact B.
Qed.

Lemma step_floor s op s' cur : next (sim_step n s op) s' ->
  cur = (if sm_floor_en s then Some (sm_floor_h s) else None) ->
  floor_of cur [op] = (if sm_floor_en s' then Some (sm_floor_h s') else None).
Proof.
  intros N E. destruct op; cbn [floor_of]; cbn [sim_step] in N.
  1:{ assert (X : rest s' = rest s) by (eapply ud_rest; exact N). unfold rest in X. injection X as _ _ A B _ _ _ _. rewrite A, B. exact E. }
  all: destruct N as [N|N]; try discriminate.
  all: try (injection N as <-; destruct s; cbn in *; exact E).
  - injection N as <-. unfold update_controller. destruct (negb _); [destruct s; exact E|].
    destruct s as [? ? ? ? ? ? ? ? ? ? ? [] []]; exact E.
  - injection N as <-. reflexivity.
  - injection N as <-. reflexivity.
  - injection N as <-. unfold set_control_mode. destruct (_ && _); destruct s; exact E.
  - unfold set_dynamics_params in N. destruct (dyn_new _ _ _ _); [|discriminate]. injection N as <-. destruct s; exact E.
  - unfold set_dynamics_params in N. destruct (dyn_new _ _ _ _); discriminate.
Qed.

Lemma floor_of_app cur a b : floor_of (G:=G) (H:=H) cur (a ++ b) = floor_of (floor_of cur a) b.
Proof. revert cur. induction a as [|[] r IH]; intros cur; cbn [floor_of app]; auto. Qed.

Lemma floor_of_cons cur op r : floor_of (G:=G) (H:=H) cur (op :: r) = floor_of (floor_of cur [op]) r.
Proof. destruct op; reflexivity. Qed.

Lemma run_floor ops : forall s s' cur, sim_run n s ops = Some s' ->
  cur = (if sm_floor_en s then Some (sm_floor_h s) else None) ->
  floor_of cur ops = (if sm_floor_en s' then Some (sm_floor_h s') else None).
Proof.
  induction ops as [|op r IH]; intros s s' cur; cbn [sim_run].
  - intros K. injection K as <-. cbn. auto.
  - rewrite floor_of_cons. intros K E. destruct (sim_step n s op) as [x|x|] eqn:X; try discriminate;
    (eapply IH; [exact K|]); (eapply step_floor; [|exact E]); [left|right]; exact X.
Qed.

Lemma new_fields p s : sim_new n p = Some s -> sm_floor_en s = false /\ sm_armed s = false /\
  sm_act s = repeat zero n /\ sm_mode s = MOTOR_W /\ sm_yawmode s = ANGLE /\ sm_ext s = v0 /\ sm_floor_col s = false /\
  sm_refs s = refs0 n /\ exists d, dyn_new n (sp_model p) (sp_seed p) (sp_state p) = Some d /\ sm_dyn s = d.
Proof.
  unfold sim_new. destruct (dyn_new _ _ _ _) as [d|]; [|discriminate]. cbn. intros K. injection K as <-. cbn.
  do 8 (split; [reflexivity|]). exists d. split; reflexivity.
Qed.

(** C44, any arithmetic with irreflexive <: the floor read off the history. *)
Lemma above_floor (HI : Irrefl O) p ops dt s s' h :
  sim_after n p ops = Some s -> floor_of None ops = Some h -> sim_step n s (SDynamics dt) = Ok s' ->
  ltb (vz (s_pos (sim_state s'))) h = false.
Proof.
  unfold sim_after. destruct (sim_new n p) as [s0|] eqn:N; [|discriminate]. intros R F K.
  destruct (new_fields _ _ N) as (E0 & _).
  pose proof (run_floor ops s0 s None R) as X. rewrite E0 in X. specialize (X eq_refl). rewrite F in X.
  destruct (sm_floor_en s) eqn:E; [|discriminate]. injection X as ->.
  exact (proj1 (floor_height s dt s' K E HI)).
Qed.

(** *** Contact (C45). *)
Lemma contact_cases s dt s' : update_dynamics s dt = Ok s' ->
  exists ext d, free_motion s dt ext d /\
  (sm_floor_en s = true /\ ltb (vz (s_pos (d_state d))) (sm_floor_h s) = true /\
     stopped_at (sm_floor_h s) (d_state d) (sim_state s') /\ d_model (sm_dyn s') = d_model d /\
     sm_imu s' = imu_step (sm_imu s) IReset /\
     sm_odom s' = odom_step (odom_step (sm_odom s) (OInit (s_ori (d_state d)))) OReset /\ sm_ext s' = v0
   \/ (sm_floor_en s = false \/ ltb (vz (s_pos (d_state d))) (sm_floor_h s) = false) /\
     sm_dyn s' = d /\ sm_imu s' = sm_imu s /\ sm_odom s' = sm_odom s /\ sm_ext s' = v0).
Proof.
  intros K. destruct (ud_ok _ _ _ K) as (ext & d & F & _ & _ & E). exists ext, d. split; [exact F|]. cbv zeta in E.
  destruct (below_floor _) eqn:B; subst s'; unfold below_floor, sim_state in B; destruct s as [dy ct im od ar en col h rf ac ex md ym]; cbn in B.
  - apply andb_true_iff in B. destruct B as [B1 B2]. left. cbn. split; [exact B1|]. split; [exact B2|].
    split; [|repeat split; reflexivity]. unfold stopped_at, sim_state. cbn. repeat split; reflexivity.
  - right. cbn. split; [|repeat split; reflexivity].
    apply andb_false_iff in B. exact B.
Qed.

(** The force during the step: the floor's reaction below the floor, otherwise
    the stored one, which is zero. *)
Lemma force_during s dt s' p : update_dynamics s dt = Ok s' -> get_params (d_model (sm_dyn s)) = Some p ->
  exists d, free_motion s dt
    (if sm_floor_en s && ltb (vz (s_pos (sim_state s))) (sm_floor_h s)
     then vscaler (vneg (p_grav p)) (p_mass p) else sm_ext s) d /\ d_model (sm_dyn s') = d_model d.
Proof.
  intros K P. destruct (ud_ok _ _ _ K) as (ext & d & F & E & C & E'). exists d.
  unfold get_params in P. change (sm_floor_en s && ltb (vz (s_pos (sim_state s))) (sm_floor_h s)) with (below_floor s).
  split.
  - destruct (below_floor s).
    + destruct (mo_cfg _) as [c|]; [|exfalso; apply C; reflexivity]. cbn in P. injection P as <-. rewrite <- E. exact F.
    + rewrite <- E. exact F.
  - cbv zeta in E'. destruct (below_floor _) in E'; subst s'; destruct s; reflexivity.
Qed.

(** The stored force is zero except after a failed update below the floor. *)
Lemma step_ext s op s' : next (sim_step n s op) s' -> sm_ext s = v0 ->
  (forall dt, op = SDynamics dt -> leb dt zero = true -> below_floor s = false) -> Sane O -> sm_ext s' = v0.
Proof.
  intros N E C Sn. destruct op; cbn [sim_step] in N.
  1:{ destruct N as [N|N].
      - destruct (contact_cases _ _ _ N) as (? & ? & _ & [X|X]); tauto.
      - destruct (ud_throw Sn _ _ _ N) as [D [[_ ->]|[B _]]]; [exact E|]. rewrite (C _ eq_refl D) in B. discriminate. }
  all: destruct N as [N|N]; try discriminate.
  all: try (injection N as <-; destruct s; cbn in *; exact E).
  - injection N as <-. unfold update_controller. destruct (negb _); [destruct s; exact E|].
    destruct s as [? ? ? ? ? ? ? ? ? ? ? [] []]; exact E.
  - injection N as <-. reflexivity.
  - injection N as <-. reflexivity.
  - injection N as <-. unfold set_control_mode. destruct (_ && _); destruct s; exact E.
  - unfold set_dynamics_params in N. destruct (dyn_new _ _ _ _); [|discriminate]. injection N as <-. destruct s; exact E.
  - unfold set_dynamics_params in N. destruct (dyn_new _ _ _ _); discriminate.
Qed.

(** *** Disarmed (C46). *)
Lemma armed_of_cons cur op r : armed_of (G:=G) (H:=H) cur (op :: r) = armed_of (armed_of cur [op]) r.
Proof. destruct op; reflexivity. Qed.
Lemma step_armed s op s' : next (sim_step n s op) s' -> sm_armed s' = armed_of (sm_armed s) [op].
Proof.
  intros N. destruct op; cbn [armed_of]; cbn [sim_step] in N.
  1:{ assert (X : rest s' = rest s) by (eapply ud_rest; exact N). unfold rest in X. injection X as _ A _ _ _ _ _ _. exact A. }
  all: destruct N as [N|N]; try discriminate.
  all: try (injection N as <-; reflexivity).
  - injection N as <-. unfold update_controller. destruct (negb _) eqn:A; [reflexivity|].
    destruct s as [? ? ? ? ? ? ? ? ? ? ? [] []]; reflexivity.
  - injection N as <-. unfold set_control_mode. destruct (_ && _); destruct s; reflexivity.
  - unfold set_dynamics_params in N. destruct (dyn_new _ _ _ _); [|discriminate]. injection N as <-. reflexivity.
  - unfold set_dynamics_params in N. destruct (dyn_new _ _ _ _); discriminate.
Qed.
Lemma run_armed ops : forall s s', sim_run n s ops = Some s' -> sm_armed s' = armed_of (sm_armed s) ops.
Proof.
  induction ops as [|op r IH]; intros s s'; cbn [sim_run].
  - intros K. injection K as <-. reflexivity.
  - rewrite armed_of_cons. intros K. destruct (sim_step n s op) as [x|x|] eqn:X; try discriminate;
    rewrite (IH _ _ K), (step_armed s op x); try reflexivity; [left|right]; exact X.
Qed.
(** The command is zero whenever the vehicle is disarmed. *)
Definition safe s : Prop := sm_armed s = false -> sm_act s = repeat zero n.
Lemma step_safe s op s' : safe s -> next (sim_step n s op) s' -> safe s'.
Proof.
  intros I N D. pose proof (step_armed _ _ _ N) as A. rewrite D in A. destruct op; cbn [armed_of] in A; cbn [sim_step] in N.
  1:{ assert (X : rest s' = rest s) by (eapply ud_rest; exact N). unfold rest in X. injection X as _ _ _ _ _ B _ _. rewrite B. apply I. auto. }
  all: destruct N as [N|N]; try discriminate.
  all: try (injection N as <-; apply I; auto; fail).
  - injection N as <-. unfold update_controller. rewrite <- A. reflexivity.
  - injection N as <-. reflexivity.
  - injection N as <-. unfold set_control_mode. destruct (_ && _); apply I; auto.
  - unfold set_dynamics_params in N. destruct (dyn_new _ _ _ _); [|discriminate]. injection N as <-. apply I; auto.
  - unfold set_dynamics_params in N. destruct (dyn_new _ _ _ _); discriminate.
Qed.
Lemma run_safe ops s s' : safe s -> sim_run n s ops = Some s' -> safe s'.
Proof.
  intros I. apply (run_inv safe (fun _ => True)); [|exact I|apply Forall_forall; auto].
  intros a op b Ha _ N. eapply step_safe; eassumption.
Qed.
Lemma new_safe p s : sim_new n p = Some s -> safe s.
Proof. intros N _. apply (new_fields _ _ N). Qed.

(** C46 from construction or from any point after disarm. *)
Lemma disarmed_after_construction p ops s :
  sim_after n p ops = Some s -> armed_of false ops = false ->
  sm_armed s = false /\ sm_act s = repeat zero n /\
  forall dt, exists s', sim_step n s (SController dt) = Ok s' /\ sm_act s' = repeat zero n /\ sm_ctl s' = sm_ctl s.
Proof.
  unfold sim_after. destruct (sim_new n p) as [s0|] eqn:N; [|discriminate]. intros R A.
  pose proof (run_armed _ _ _ R) as A'. destruct (new_fields _ _ N) as (_ & A0 & _). rewrite A0, A in A'.
  split; [exact A'|]. split; [exact (run_safe _ _ _ (new_safe _ _ N) R A')|].
  intros dt. eexists. split; [reflexivity|]. unfold update_controller. rewrite A'. split; reflexivity.
Qed.
Lemma disarmed_anyhow s ops s' :
  sim_run n s (SDisarm :: ops) = Some s' -> Forall not_arm ops ->
  sm_armed s' = false /\ sm_act s' = repeat zero n /\
  forall dt, exists s'', sim_step n s' (SController dt) = Ok s'' /\ sm_act s'' = repeat zero n /\ sm_ctl s'' = sm_ctl s'.
Proof.
  cbn [sim_run sim_step]. intros R F.
  assert (A : sm_armed s' = false).
  { rewrite (run_armed _ _ _ R). change (sm_armed (disarm n s)) with false. clear R. induction F as [|op r Q F IH]; [reflexivity|].
    destruct op; cbn [armed_of]; try exact IH. contradiction. }
  split; [exact A|]. split.
  - apply (run_safe ops (disarm n s) s'); [intros _; reflexivity|exact R|exact A].
  - intros dt. eexists. split; [reflexivity|]. unfold update_controller. rewrite A. split; reflexivity.
Qed.

(** *** Mode switching (C47). *)
Lemma mode_eqb_eq a b : mode_eqb a b = true <-> a = b.
Proof. destruct a, b; cbn; split; congruence. Qed.
Lemma yaw_eqb_eq a b : yaw_eqb a b = true <-> a = b.
Proof. destruct a, b; cbn; split; congruence. Qed.
Lemma same_mode s : sim_step n s (SMode (sm_mode s) (sm_yawmode s)) = Ok s.
Proof. cbn [sim_step]. unfold set_control_mode. rewrite (proj2 (mode_eqb_eq _ _) eq_refl), (proj2 (yaw_eqb_eq _ _) eq_refl). reflexivity. Qed.
Lemma new_mode s m y : (m, y) <> (sm_mode s, sm_yawmode s) ->
  exists s', sim_step n s (SMode m y) = Ok s' /\ sm_mode s' = m /\ sm_yawmode s' = y /\
  sm_refs s' = mkRefs (rf_motors (sm_refs s)) zero v0 (s_pos (sim_state s)) v0 v0
                 (vz (quat_to_euler (s_ori (sim_state s)))) (rf_yawrate (sm_refs s)) /\
  sm_dyn s' = sm_dyn s /\ sm_ctl s' = sm_ctl s /\ sm_imu s' = sm_imu s /\ sm_odom s' = sm_odom s /\
  sm_armed s' = sm_armed s /\ sm_act s' = sm_act s /\ sm_ext s' = sm_ext s /\
  sm_floor_en s' = sm_floor_en s /\ sm_floor_h s' = sm_floor_h s.
Proof.
  intros Hd. eexists. split; [reflexivity|]. unfold set_control_mode.
  destruct (mode_eqb (sm_mode s) m && yaw_eqb (sm_yawmode s) y) eqn:E.
  - apply andb_true_iff in E. destruct E as [A B]. apply mode_eqb_eq in A. apply yaw_eqb_eq in B. subst. contradiction.
  - cbn. repeat split; reflexivity.
Qed.
Lemma step_mode s op s' : next (sim_step n s op) s' ->
  (sm_mode s', sm_yawmode s') = mode_of (sm_mode s, sm_yawmode s) [op].
Proof.
  intros N. destruct op; cbn [mode_of]; cbn [sim_step] in N.
  1:{ assert (X : rest s' = rest s) by (eapply ud_rest; exact N). unfold rest in X. injection X as _ _ _ _ _ _ A B. rewrite A, B. reflexivity. }
  all: destruct N as [N|N]; try discriminate.
  all: try (injection N as <-; reflexivity).
  - injection N as <-. unfold update_controller. destruct (negb _) eqn:A; [reflexivity|].
    destruct s as [? ? ? ? ? ? ? ? ? ? ? [] []]; reflexivity.
  - injection N as <-. unfold set_control_mode. destruct (_ && _) eqn:E; [|reflexivity].
    apply andb_true_iff in E. destruct E as [A B]. apply mode_eqb_eq in A. apply yaw_eqb_eq in B. subst. reflexivity.
  - unfold set_dynamics_params in N. destruct (dyn_new _ _ _ _); [|discriminate]. injection N as <-. reflexivity.
  - unfold set_dynamics_params in N. destruct (dyn_new _ _ _ _); discriminate.
Qed.
Lemma mode_of_cons cur op r : mode_of (G:=G) (H:=H) cur (op :: r) = mode_of (mode_of cur [op]) r.
Proof. destruct op; reflexivity. Qed.
Lemma run_mode ops : forall s s', sim_run n s ops = Some s' -> (sm_mode s', sm_yawmode s') = mode_of (sm_mode s, sm_yawmode s) ops.
Proof.
  induction ops as [|op r IH]; intros s s'; cbn [sim_run].
  - intros K. injection K as <-. reflexivity.
  - rewrite mode_of_cons. intros K. destruct (sim_step n s op) as [x|x|] eqn:X; try discriminate;
    rewrite (IH _ _ K), (step_mode s op x); try reflexivity; [left|right]; exact X.
Qed.

(** *** HOVER and POSITION (C48). *)
Lemma twins_cases (a b : Sim T G H) : hold_twins a b ->
  a = b \/ (sm_mode a = HOVER /\ b = mkSim (sm_dyn a) (sm_ctl a) (sm_imu a) (sm_odom a) (sm_armed a) (sm_floor_en a)
     (sm_floor_col a) (sm_floor_h a) (sm_refs a) (sm_act a) (sm_ext a) POSITION (sm_yawmode a)).
Proof.
  destruct a, b. unfold hold_twins, same_but_mode. cbn. intros (D & M).
  destruct D as (-> & -> & -> & -> & -> & -> & -> & -> & -> & -> & -> & ->).
  destruct M as [[-> ->]| ->]; [right; split; reflexivity|left; reflexivity].
Qed.
Lemma twins_refl (a : Sim T G H) : hold_twins a a.
Proof. split; [unfold same_but_mode; repeat split; reflexivity|right; reflexivity]. Qed.
Lemma outcome_refl (x : outcome (Sim T G H)) : same_outcome hold_twins x x.
Proof. destruct x; cbn; auto using twins_refl. Qed.
Ltac tw := split; [unfold same_but_mode; cbn; repeat split; reflexivity|left; split; reflexivity].
Lemma step_twins (a b : Sim T G H) op : hold_twins a b -> no_hold op -> same_outcome hold_twins (sim_step n a op) (sim_step n b op).
Proof.
  intros W Q. destruct (twins_cases _ _ W) as [->|[M ->]]; [apply outcome_refl|]. clear W.
  destruct a as [dy ct im od ar en col h rf ac ex md ym]. cbn in M. subst md. cbn.
  destruct op; cbn [sim_step].
  1:{ unfold update_dynamics. unfold below_floor, sim_state. cbn.
      destruct (en && ltb (vz (s_pos (d_state dy))) h).
      - destruct (mo_cfg (d_model dy)) as [c|]; [|exact I]. cbn.
        destruct (process _ _ _ _ _) as [d|d|]; [|cbn; tw|exact I]. cbn. destruct (en && _); cbn; tw.
      - cbn. destruct (process _ _ _ _ _) as [d|d|]; [|cbn; tw|exact I]. cbn. destruct (en && _); cbn; tw. }
  all: try (cbn; tw; fail).
  - unfold update_controller. cbn. destruct ar; cbn; [|tw]. destruct ym; cbn; tw.
  - destruct m; try contradiction; unfold set_control_mode; cbn; apply twins_refl.
  - unfold set_dynamics_params. destruct (dyn_new _ _ _ _); cbn; [tw|exact I].
Qed.
Lemma run_twins ops : forall a b : Sim T G H, hold_twins a b -> Forall no_hold ops ->
  both hold_twins (sim_run n a ops) (sim_run n b ops).
Proof.
  induction ops as [|op r IH]; intros a b W F; cbn [sim_run]; [exact W|]. inversion F as [|? ? Q F']; subst.
  pose proof (step_twins a b op W Q) as St. unfold same_outcome in St.
  destruct (sim_step n a op), (sim_step n b op); try contradiction; try (apply IH; assumption). exact I.
Qed.
(** Entering the two modes from another one. *)
Lemma enter_twins s y a b : sm_mode s <> HOVER -> sm_mode s <> POSITION ->
  sim_step n s (SMode HOVER y) = Ok a -> sim_step n s (SMode POSITION y) = Ok b -> hold_twins a b.
Proof.
  intros A B. cbn [sim_step]. unfold set_control_mode.
  assert (E1 : mode_eqb (sm_mode s) HOVER = false) by (destruct (sm_mode s); try reflexivity; contradiction).
  assert (E2 : mode_eqb (sm_mode s) POSITION = false) by (destruct (sm_mode s); try reflexivity; contradiction).
  rewrite E1, E2. cbn. intros X Y. injection X as <-. injection Y as <-. tw.
Qed.

(** *** Frames (C49). *)
Lemma frame_controller s dt s' : sim_step n s (SController dt) = Ok s' ->
  sm_dyn s' = sm_dyn s /\ sm_imu s' = sm_imu s /\ sm_odom s' = sm_odom s /\ sm_armed s' = sm_armed s /\
  sm_floor_en s' = sm_floor_en s /\ sm_floor_h s' = sm_floor_h s /\ sm_ext s' = sm_ext s /\
  sm_mode s' = sm_mode s /\ sm_yawmode s' = sm_yawmode s /\
  refs_but_yaw (sm_refs s) (sm_refs s') /\
  (sm_yawmode s = ANGLE -> sm_refs s' = sm_refs s).
Proof.
  cbn [sim_step]. intros K. injection K as <-. unfold update_controller. destruct (negb _).
  - destruct s; cbn. repeat split; auto.
  - destruct s as [? ? ? ? ? ? ? ? ? ? ? [] []]; cbn; repeat split; auto; discriminate.
Qed.
Lemma frame_imu s dt s' : sim_step n s (SImu dt) = Ok s' ->
  sm_dyn s' = sm_dyn s /\ sm_ctl s' = sm_ctl s /\ sm_odom s' = sm_odom s /\ sm_armed s' = sm_armed s /\
  sm_floor_en s' = sm_floor_en s /\ sm_floor_h s' = sm_floor_h s /\ sm_ext s' = sm_ext s /\ sm_act s' = sm_act s /\
  sm_mode s' = sm_mode s /\ sm_yawmode s' = sm_yawmode s /\ sm_refs s' = sm_refs s.
Proof. cbn [sim_step]. intros K. injection K as <-. destruct s; cbn. repeat split; auto. Qed.
Lemma frame_odom s dt s' : sim_step n s (SOdom dt) = Ok s' ->
  sm_dyn s' = sm_dyn s /\ sm_ctl s' = sm_ctl s /\ sm_imu s' = sm_imu s /\ sm_armed s' = sm_armed s /\
  sm_floor_en s' = sm_floor_en s /\ sm_floor_h s' = sm_floor_h s /\ sm_ext s' = sm_ext s /\ sm_act s' = sm_act s /\
  sm_mode s' = sm_mode s /\ sm_yawmode s' = sm_yawmode s /\ sm_refs s' = sm_refs s.
Proof. cbn [sim_step]. intros K. injection K as <-. destruct s; cbn. repeat split; auto. Qed.
Lemma frame_dynamics s dt s' : next (sim_step n s (SDynamics dt)) s' ->
  sm_ctl s' = sm_ctl s /\ sm_armed s' = sm_armed s /\ sm_floor_en s' = sm_floor_en s /\ sm_floor_h s' = sm_floor_h s /\
  sm_refs s' = sm_refs s /\ sm_act s' = sm_act s /\ sm_mode s' = sm_mode s /\ sm_yawmode s' = sm_yawmode s.
Proof. intros N. pose proof (ud_rest s dt s' N) as X. unfold rest in X. injection X; auto 20. Qed.

(** *** A failed update (C50). *)
Lemma failed_above (Sn : Sane O) s dt : leb dt zero = true ->
  sm_floor_en s = false \/ ltb (vz (s_pos (sim_state s))) (sm_floor_h s) = false ->
  sim_step n s (SDynamics dt) = Throw s.
Proof.
  intros D B. assert (E : below_floor s = false) by (apply andb_false_iff; exact B).
  cbn [sim_step]. unfold update_dynamics. rewrite E, (process_reject _ _ _ _ _ D). destruct s; reflexivity.
Qed.
Lemma failed_below s dt p : leb dt zero = true -> get_params (d_model (sm_dyn s)) = Some p ->
  sm_floor_en s = true -> ltb (vz (s_pos (sim_state s))) (sm_floor_h s) = true ->
  exists s', sim_step n s (SDynamics dt) = Throw s' /\ sm_ext s' = vscaler (vneg (p_grav p)) (p_mass p) /\
    sm_dyn s' = sm_dyn s /\ sm_imu s' = sm_imu s /\ sm_odom s' = sm_odom s.
Proof.
  intros D P F B. assert (E : below_floor s = true) by (apply andb_true_iff; split; assumption).
  cbn [sim_step]. unfold update_dynamics, get_params in *. rewrite E. destruct (mo_cfg _) as [c|]; [|discriminate].
  cbn in P. injection P as <-. cbn [option_map]. rewrite (process_reject _ _ _ _ _ D). eexists. split; [reflexivity|].
  destruct s; cbn. repeat split; reflexivity.
Qed.

(** *** Rotor limits of the simulated vehicle, any history. *)
Definition limits p s : Prop := get_params (d_model (sm_dyn s)) = Some p /\ speeds_ok (p_motors p) (s_mvel (sim_state s)).
Lemma step_limits (Sn : Sane O) p s op s' : limits p s -> hands_off op -> next (sim_step n s op) s' -> limits p s'.
Proof.
  intros [P L] Q N. destruct op; try contradiction; cbn [sim_step] in N.
  1:{ destruct N as [N|N].
      - destruct (contact_cases _ _ _ N) as (ext & d & F & C). unfold free_motion in F.
        pose proof (process_speeds_api Sn _ _ _ _ _ _ _ P F) as X.
        pose proof (process_params Sn _ _ _ _ _ _ F) as Y. rewrite P in Y.
        destruct C as [(_ & _ & St & M & _)|(_ & D & _)].
        + split; [rewrite M; congruence|]. destruct St as (_ & _ & _ & _ & _ & _ & _ & _ & V & _). rewrite V. exact X.
        + unfold limits, sim_state. rewrite D. split; [congruence|exact X].
      - destruct (ud_throw Sn _ _ _ N) as [_ [[_ ->]|[_ (c & _ & ->)]]]; [split; assumption|]. destruct s; split; assumption. }
  all: destruct N as [N|N]; try discriminate.
  all: try (injection N as <-; destruct s; split; assumption).
  - injection N as <-. unfold update_controller. destruct (negb _); [destruct s; split; assumption|].
    destruct s as [? ? ? ? ? ? ? ? ? ? ? [] []]; split; assumption.
  - injection N as <-. unfold set_control_mode. destruct (_ && _); destruct s; split; assumption.
Qed.
Lemma run_limits (Sn : Sane O) p ops s s' : get_params (d_model (sm_dyn s)) = Some p ->
  speeds_ok (p_motors p) (s_mvel (sim_state s)) -> Forall hands_off ops -> sim_run n s ops = Some s' ->
  get_params (d_model (sm_dyn s')) = Some p /\ speeds_ok (p_motors p) (s_mvel (sim_state s')).
Proof.
  intros P L F R. apply (run_inv (limits p) hands_off) with (s := s) (ops := ops); auto; [|split; assumption].
  intros a op b Ha Q N. eapply step_limits; eassumption.
Qed.

End Sim.
