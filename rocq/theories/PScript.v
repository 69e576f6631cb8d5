(** Lemmas on the scripted flights of the example programs. *)

From Coq Require Import ZArith List Bool String Lia Reals Lra.
From Verif Require Import Scalar LinAlg MUtils MModel MDynamics MPid MControl MCtlRun MImu MSim MText MExample MScript
  SpecDyn SpecRun SpecSim SpecText SpecExample SpecScript PBase PDyn PModel PPhys PVeh PDynMore PSim PSimEnd PWell PText PExample.
Import ListNotations.

Section Gen.
Context {T : Type} {O : Ops T} {G H : Gen T}.
Notation sim := (Sim T G H).
Local Open Scope sc_scope.
Variable fmt : T -> string.

Lemma updates_run (s : sim) dt s' : updates s dt = Ok s' -> sim_run 4 s (round dt) = Some s'.
Proof.
  unfold updates, round. cbn [sim_run sim_step]. intro E. destruct (update_dynamics (update_controller 4 s dt) dt) as [s1|s1|]; try discriminate.
  injection E as <-. reflexivity.
Qed.

Section Loop.
Context {S : Type}.
Variable before : T -> sim -> S -> sim * S.
Variable after : T -> sim -> sim.
Variables tmax dt : T.

(** The calls. *)
Lemma shoot_calls bc ac k : (forall t s x, sim_run 4 s (bc t) = Some (fst (before t s x))) ->
  (forall t s, sim_run 4 s (ac t) = Some (after t s)) -> forall f x f', (shoot fmt before after tmax dt k f x = Flying f' \/ shoot fmt before after tmax dt k f x = Landed f') ->
  exists n, (shoot fmt before after tmax dt k f x = Flying f' /\ n = k \/ shoot fmt before after tmax dt k f x = Landed f' /\ (n <= k)%nat /\ (sh_t f' <? tmax) = false) /\
    sh_t f' = Nat.iter n (fun t => t + dt) (sh_t f) /\
    (forall i, (i < n)%nat -> (Nat.iter i (fun t => t + dt) (sh_t f) <? tmax) = true) /\
    sim_run 4 (sh_sim f) (iterations bc ac dt (sh_t f) n) = Some (sh_sim f').
Proof.
  intros B A. induction k as [|k IH]; intros f x f' E.
  - cbn in E. destruct E as [E|E]; [|discriminate]. injection E as <-. exists 0%nat.
    split; [left; split; reflexivity|]. split; [reflexivity|]. split; [intros i Hi; lia|reflexivity].
  - cbn [shoot] in *. destruct (sh_t f <? tmax) eqn:Et.
    2:{ destruct E as [E|E]; [discriminate|]. injection E as <-. exists 0%nat.
        split; [right; split; [reflexivity|split; [lia|exact Et]]|]. split; [reflexivity|]. split; [intros i Hi; lia|reflexivity]. }
    unfold shot_body in *. specialize (B (sh_t f) (sh_sim f) x) as Bx. destruct (before (sh_t f) (sh_sim f) x) as [s0 x'] eqn:Eb. cbn [fst] in Bx.
    destruct (updates s0 dt) as [s|s|] eqn:Eu; try (destruct E; discriminate).
    destruct (save fmt (sh_log f) (sh_t f) (after (sh_t f) s)) as [log|]; [|destruct E; discriminate].
    destruct (IH _ _ _ E) as (n & C & Tm & Be & Rn). exists (Datatypes.S n). cbn [sh_t sh_sim] in *.
    split. { destruct C as [[C1 C2]|[C1 [C2 C3]]]; [left; split; [exact C1|lia]|right; split; [exact C1|split; [lia|exact C3]]]. }
    split. { rewrite Tm. apply (iter_next dt n (sh_t f)). }
    split. { intros i Hi. destruct i as [|i]; [exact Et|]. specialize (Be i ltac:(lia)). rewrite (iter_next dt i (sh_t f)) in Be. exact Be. }
    cbn [iterations]. rewrite run_app, Bx, run_app, (updates_run _ _ _ Eu), run_app, A. exact Rn.
Qed.

(** No exception and no undefined behaviour, and the rows of the log. *)
Variable W : sim -> Prop.
Hypothesis W_updates : forall s, W s -> exists s', updates s dt = Ok s' /\ W s'.
Hypothesis W_cfg : forall s, W s -> exists c, mo_cfg (d_model (sm_dyn s)) = Some c.
Hypothesis W_before : forall t s x, W s -> W (fst (before t s x)).
Hypothesis W_after : forall t s, W s -> W (after t s).

Lemma shoot_good k : forall f x log, W (sh_sim f) -> log_file fmt log = Some (sh_log f) ->
  exists n f', (shoot fmt before after tmax dt k f x = Flying f' /\ n = k \/ shoot fmt before after tmax dt k f x = Landed f' /\ (n <= k)%nat /\ (sh_t f' <? tmax) = false) /\
    W (sh_sim f') /\ sh_t f' = Nat.iter n (fun t => t + dt) (sh_t f) /\
    (forall i, (i < n)%nat -> (Nat.iter i (fun t => t + dt) (sh_t f) <? tmax) = true) /\
    exists more, log_file fmt (log ++ more) = Some (sh_log f') /\ Forall (fun e => W (snd e)) more /\
      map fst more = map (fun i => Nat.iter i (fun t => t + dt) (sh_t f)) (seq 0 n).
Proof.
  induction k as [|k IH]; intros f x log Wf Lf.
  - exists 0%nat, f. split; [left; split; reflexivity|]. split; [exact Wf|]. split; [reflexivity|]. split; [intros i Hi; lia|].
    exists []. rewrite app_nil_r. split; [exact Lf|]. split; [constructor|reflexivity].
  - cbn [shoot]. destruct (sh_t f <? tmax) eqn:Et.
    2:{ exists 0%nat, f. split; [right; split; [reflexivity|split; [lia|exact Et]]|]. split; [exact Wf|]. split; [reflexivity|]. split; [intros i Hi; lia|].
        exists []. rewrite app_nil_r. split; [exact Lf|]. split; [constructor|reflexivity]. }
    unfold shot_body. specialize (W_before (sh_t f) (sh_sim f) x Wf) as Wb. destruct (before (sh_t f) (sh_sim f) x) as [s0 x']. cbn [fst] in Wb.
    destruct (W_updates _ Wb) as (s & Eu & Ws). rewrite Eu. specialize (W_after (sh_t f) s Ws) as Wa.
    set (s1 := after (sh_t f) s) in *. destruct (W_cfg _ Wa) as [c Hc].
    assert (Sv : exists log', save fmt (sh_log f) (sh_t f) s1 = Some log') by (unfold save; rewrite Hc; eexists; reflexivity).
    destruct Sv as [lg Sv]. rewrite Sv.
    assert (L1 : log_file fmt (log ++ [(sh_t f, s1)]) = Some lg).
    { unfold log_file in *. rewrite save_all_app, Lf. cbn [bindo save_all]. rewrite Sv. reflexivity. }
    destruct (IH (mkShot s1 (sh_t f + dt) lg) x' _ Wa L1) as (n & f' & C & Wf' & Tm & Be & more & Lm & Fm & Em).
    exists (Datatypes.S n), f'. cbn [sh_t sh_sim] in *.
    split. { destruct C as [[C1 C2]|[C1 [C2 C3]]]; [left; split; [exact C1|lia]|right; split; [exact C1|split; [lia|exact C3]]]. }
    split; [exact Wf'|].
    split. { rewrite Tm. apply (iter_next dt n (sh_t f)). }
    split. { intros i Hi. destruct i as [|i]; [exact Et|]. specialize (Be i ltac:(lia)). rewrite (iter_next dt i (sh_t f)) in Be. exact Be. }
    exists ((sh_t f, s1) :: more). rewrite <- app_assoc in Lm. split; [exact Lm|]. split; [constructor; [exact Wa|exact Fm]|].
    cbn [map seq fst]. f_equal. rewrite Em, <- seq_shift, map_map. apply map_ext. intro i. apply (iter_next dt i (sh_t f)).
Qed.
End Loop.

(** ** The five flights *)
Variable W : sim -> Prop.
Variable dt : T.
Hypothesis W_updates : forall s, W s -> exists s', updates s dt = Ok s' /\ W s'.
Hypothesis W_cfg : forall s, W s -> exists c, mo_cfg (d_model (sm_dyn s)) = Some c.
Hypothesis W_same : forall s s' : sim, sm_dyn s' = sm_dyn s -> sm_act s' = sm_act s -> rf_motors (sm_refs s') = rf_motors (sm_refs s) ->
  sm_ctl s' = sm_ctl s -> W s -> W s'.
Hypothesis W_motors : forall s w, List.length w = 4%nat -> W s -> W (set_ref_motors s w).

Lemma W_mode m y s : W s -> W (set_control_mode s m y).
Proof. unfold set_control_mode. destruct (_ && _); [trivial|]. apply W_same; reflexivity. Qed.
Lemma W_point s p y : W s -> W (set_point s p y).
Proof. apply W_same; reflexivity. Qed.
Lemma W_acro s th w : W s -> W (set_ref_acro s th w).
Proof. apply W_same; reflexivity. Qed.

Definition first_log (v : Scripted T) (s1 : sim) : list (T * sim) := match v with ArmOnly => [] | _ => [(zero, s1)] end.

Lemma scripted_good v tmax k s : W s -> exists n f s1, after_iterations (scripted fmt v tmax dt k s) tmax dt k n f /\
  W (sh_sim f) /\ W s1 /\
  exists more, log_file fmt (first_log v s1 ++ more) = Some (sh_log f) /\ Forall (fun e => W (snd e)) more /\
    map fst more = map (time_at dt) (seq 0 n).
Proof.
  intros Ws. unfold after_iterations.
  assert (K : forall S (before : T -> sim -> S -> sim * S) after s1, W s1 ->
    (forall t s x, W s -> W (fst (before t s x))) -> (forall t s, W s -> W (after t s)) -> forall x v', (forall y, first_log v' y = [(zero, y)]) ->
    exists n f s1', ((from_row (first_row fmt s1) (fun f => shoot fmt before after tmax dt k f x) = Flying f /\ n = k \/
        from_row (first_row fmt s1) (fun f => shoot fmt before after tmax dt k f x) = Landed f /\ (n <= k)%nat /\ (time_at dt n <? tmax) = false) /\
      sh_t f = time_at dt n /\ forall i, (i < n)%nat -> (time_at dt i <? tmax) = true) /\
      W (sh_sim f) /\ W s1' /\ exists more, log_file fmt (first_log v' s1' ++ more) = Some (sh_log f) /\ Forall (fun e => W (snd e)) more /\
      map fst more = map (time_at dt) (seq 0 n)).
  { intros S before after s1 W1 Wb Wa x v' Ev. unfold first_row. destruct (W_cfg _ W1) as [c Hc].
    assert (Sv : exists log', save fmt log_header zero s1 = Some log') by (unfold save; rewrite Hc; eexists; reflexivity).
    destruct Sv as [lg Sv]. rewrite Sv. cbn [option_map from_row].
    destruct (shoot_good before after tmax dt W W_updates W_cfg Wb Wa k (mkShot s1 zero lg) x [(zero, s1)] W1) as (n & f & C & Wf & Tm & Be & more & Lm & Fm & Em).
    { unfold log_file. cbn [save_all]. rewrite Sv. reflexivity. }
    cbn [sh_t sh_sim] in *. exists n, f, s1. split.
    { split; [|split; [exact Tm|exact Be]]. destruct C as [C|[C1 [C2 C3]]]; [left; exact C|right]. split; [exact C1|]. split; [exact C2|]. rewrite Tm in C3. exact C3. }
    split; [exact Wf|]. split; [exact W1|]. exists more. rewrite Ev. split; [exact Lm|]. split; [exact Fm|exact Em]. }
  destruct v as [| | |make wps speed|make wps speed]; cbn [scripted].
  - unfold arm_flight.
    destruct (shoot_good idle stay tmax dt W W_updates W_cfg (fun t s x Ws => Ws) (fun t s Ws => Ws) k (mkShot s zero log_header) tt [] Ws eq_refl)
      as (n & f & C & Wf & Tm & Be & more & Lm & Fm & Em).
    cbn [sh_t sh_sim] in *. exists n, f, s. split.
    { split; [|split; [exact Tm|exact Be]]. destruct C as [C|[C1 [C2 C3]]]; [left; exact C|right]. split; [exact C1|]. split; [exact C2|]. rewrite Tm in C3. exact C3. }
    split; [exact Wf|]. split; [exact Ws|]. exists more. split; [exact Lm|]. split; [exact Fm|exact Em].
  - unfold motor_flight. apply K; [|intros t s0 x X; exact X|intros t s0 X; exact X|reflexivity].
    apply W_motors; [reflexivity|]. apply W_mode, Ws.
  - unfold indi_flight. apply K; [|intros t s0 x X; exact X| |reflexivity].
    + apply W_acro, W_mode, Ws.
    + intros t s0 X. destruct (ofZ 2 <? t); [apply W_acro, X|exact X].
  - unfold trajectory_flight. cbv zeta. apply K; [|intros t s0 x X|intros t s0 X; exact X|reflexivity].
    + apply W_point, W_mode, Ws.
    + unfold follow. destruct (_ <? _); [|exact X]. destruct (tg_eval _ _ _ _). apply W_point, X.
  - unfold takeoff_flight. cbv zeta. apply K; [|intros t s0 x X|intros t s0 X; exact X|reflexivity].
    + apply W_point, W_mode, Ws.
    + unfold follow_two. destruct x as [[a b] p0]. destruct (_ <? _); [destruct (tg_eval _ _ _ _); apply W_point, X|].
      destruct (_ && _); [destruct (tg_eval _ _ _ _); apply W_point, X|exact X].
Qed.
End Gen.

(** ** The calls each flight makes *)
Section Calls.
Context {T : Type} {O : Ops T} {G H : Gen T}.
Notation sim := (Sim T G H).
Local Open Scope sc_scope.
Variable fmt : T -> string.

Lemma row_calls {S} (before : T -> sim -> S -> sim * S) after tmax dt k bc ac (s s1 : sim) pro x f' :
  (forall t s x, sim_run 4 s (bc t) = Some (fst (before t s x))) -> (forall t s, sim_run 4 s (ac t) = Some (after t s)) ->
  sim_run 4 s pro = Some s1 ->
  let w := from_row (first_row fmt s1) (fun f => shoot fmt before after tmax dt k f x) in
  w = Flying f' \/ w = Landed f' ->
  exists n, after_iterations w tmax dt k n f' /\ sim_run 4 s (pro ++ iterations bc ac dt zero n) = Some (sh_sim f').
Proof.
  intros B A P w E. unfold w in *. clear w. unfold first_row in *. destruct (save fmt log_header zero s1) as [lg|]; cbn [option_map from_row] in *; [|destruct E; discriminate].
  destruct (shoot_calls fmt before after tmax dt bc ac k B A _ _ _ E) as (n & C & Tm & Be & Rn). cbn [sh_t sh_sim] in *.
  exists n. split.
  - split; [|split; [exact Tm|exact Be]]. destruct C as [C|[C1 [C2 C3]]]; [left; exact C|right]. split; [exact C1|]. split; [exact C2|].
    unfold time_at. rewrite <- Tm. exact C3.
  - rewrite run_app, P. exact Rn.
Qed.

Lemma arm_made tmax dt k (s : sim) f : let w := scripted fmt ArmOnly tmax dt k s in w = Flying f \/ w = Landed f ->
  exists n, after_iterations w tmax dt k n f /\ sim_run 4 s (arm_calls dt n) = Some (sh_sim f).
Proof.
  intros w E. unfold w in *. clear w. cbn [scripted] in *. unfold arm_flight in *.
  destruct (shoot_calls fmt idle stay tmax dt (fun _ => []) (fun _ => []) k (fun t s x => eq_refl) (fun t s => eq_refl) _ _ _ E) as (n & C & Tm & Be & Rn).
  cbn [sh_t sh_sim] in *. exists n. split; [|exact Rn].
  split; [|split; [exact Tm|exact Be]]. destruct C as [C|[C1 [C2 C3]]]; [left; exact C|right]. split; [exact C1|]. split; [exact C2|].
  unfold time_at. rewrite <- Tm. exact C3.
Qed.
Lemma motor_made tmax dt k (s : sim) f : let w := scripted fmt FullSpeed tmax dt k s in w = Flying f \/ w = Landed f ->
  exists n, after_iterations w tmax dt k n f /\ sim_run 4 s (motor_calls dt n) = Some (sh_sim f).
Proof. intros w. apply (row_calls idle stay tmax dt k (fun _ => []) (fun _ => [])); reflexivity. Qed.
Lemma indi_made tmax dt k (s : sim) f : let w := scripted fmt PitchUp tmax dt k s in w = Flying f \/ w = Landed f ->
  exists n, after_iterations w tmax dt k n f /\ sim_run 4 s (indi_calls dt n) = Some (sh_sim f).
Proof.
  intros w. unfold w. cbn [scripted]. unfold indi_flight, indi_calls. cbv zeta.
  apply (row_calls idle _ tmax dt k (fun _ => [])); [reflexivity| |reflexivity].
  intros t s0. destruct (ofZ 2 <? t); reflexivity.
Qed.
Lemma mode_state (s : sim) m y : sim_state (set_control_mode s m y) = sim_state s.
Proof. unfold set_control_mode. destruct (_ && _); reflexivity. Qed.
Lemma trajectory_made duration curve wps speed tmax dt k (s : sim) f :
  let w := scripted fmt (AlongTrajectory (timed_maker duration curve) wps speed) tmax dt k s in w = Flying f \/ w = Landed f ->
  let p0 := s_pos (sim_state s) in
  exists n, after_iterations w tmax dt k n f /\
  sim_run 4 s (trajectory_calls (duration p0 wps speed) (curve p0 wps speed) (here s) (yaw_now s) dt n) = Some (sh_sim f).
Proof.
  intros w E p0. unfold w in *. clear w. cbn [scripted] in *. unfold trajectory_flight, here, yaw_now in *. cbv zeta in *.
  rewrite !mode_state in *. unfold trajectory_calls. fold p0 in E. fold p0.
  refine (row_calls _ _ tmax dt k (fun t => if t <? duration p0 wps speed then aim (curve p0 wps speed t) (vz (quat_to_euler (s_ori (sim_state s)))) else []) (fun _ => [])
    s _ ([SMode TRAJECTORY ANGLE] ++ aim (mkPt p0 (s_vel (sim_state s)) (s_linacc (sim_state s))) (vz (quat_to_euler (s_ori (sim_state s))))) _ f _ _ eq_refl E).
  - intros t s0 x. unfold follow. cbn [tg_max timed_maker timed]. destruct (t <? duration p0 wps speed); reflexivity.
  - reflexivity.
Qed.
Lemma takeoff_made duration curve wps speed tmax dt k (s : sim) f :
  let w := scripted fmt (TakeoffFirst (timed_maker duration curve) wps speed) tmax dt k s in w = Flying f \/ w = Landed f ->
  let p0 := s_pos (sim_state s) in let top := mkV (vx p0 + zero) (vy p0 + zero) (vz p0 + ofZ 3) in
  exists n, after_iterations w tmax dt k n f /\
  sim_run 4 s (takeoff_calls (duration p0 [top] one) (duration top wps speed) (curve p0 [top] one) (curve top wps speed)
    (here s) (yaw_now s) dt n) = Some (sh_sim f).
Proof.
  intros w E p0 top. unfold w in *. clear w. cbn [scripted] in *. unfold takeoff_flight, here, yaw_now in *. cbv zeta in *.
  rewrite !mode_state in *. unfold takeoff_calls. fold p0 in E. change (vadd p0 (mkV zero zero (ofZ 3))) with top in *. fold p0.
  set (yaw := vz (quat_to_euler (s_ori (sim_state s)))) in *.
  refine (row_calls _ _ tmax dt k (fun t => if t <? duration p0 [top] one then aim (curve p0 [top] one t) yaw
      else if (duration p0 [top] one <=? t) && (t <? duration p0 [top] one + duration top wps speed) then aim (curve top wps speed (t - duration p0 [top] one)) zero else []) (fun _ => [])
    s _ ([SMode TRAJECTORY ANGLE] ++ aim (mkPt p0 (s_vel (sim_state s)) (s_linacc (sim_state s))) yaw) _ f _ _ eq_refl E).
  - intros t s0 [[a b] q]. unfold follow_two. cbn [tg_max timed_maker timed].
    destruct (t <? duration p0 [top] one); [reflexivity|]. destruct (_ && _); reflexivity.
  - reflexivity.
Qed.
End Calls.
