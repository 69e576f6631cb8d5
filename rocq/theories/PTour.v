(** Proofs: the calls a tour of references makes. *)

From Coq Require Import ZArith List Bool String.
From Verif Require Import Scalar LinAlg MUtils MModel MDynamics MSim MText MExample SpecRun SpecExample SpecTour PBase PSim.
Import ListNotations.

Section PTour.
Context {T : Type} {O : Ops T} {G H : Gen T}.
Variable fmt : T -> string.
Notation sim := (Sim T G H).

Definition use_of (v : Tour T) : sim -> V3 T -> sim :=
  match v with Velocities => set_ref_vel | Positions => set_ref_pos | PositionsTurning w => fun s r => set_ref_yawrate (set_ref_pos s r) w end.

Lemma run_asks v (s : sim) r : sim_run 4 s (asks v r) = Some (use_of v s r).
Proof. destruct v; reflexivity. Qed.
Lemma run_round (s s' : sim) dt : updates s dt = Ok s' -> sim_run 4 s (round dt) = Some s'.
Proof.
  unfold updates, round. cbn [sim_run sim_step]. destruct (update_dynamics _ _) as [x|x|]; intros E; try discriminate E. injection E as <-. reflexivity.
Qed.

Lemma fly_calls v refs tmax dt (s : sim) k : forall f f', 
  (exists ops, Flown v refs tmax dt (fl_ix f) (fl_t f) (fl_rt f) ops /\ sim_run 4 s ops = Some (fl_sim f)) ->
  fly fmt (use_of v) refs tmax dt k f = Flying f' \/ fly fmt (use_of v) refs tmax dt k f = Landed f' ->
  (exists ops, Flown v refs tmax dt (fl_ix f') (fl_t f') (fl_rt f') ops /\ sim_run 4 s ops = Some (fl_sim f')).
Proof.
  induction k as [|k IH]; intros f f' (ops & Fl & E) Q; cbn [fly] in Q.
  { destruct Q as [Q|Q]; [injection Q as <-|discriminate Q]. exists ops. split; assumption. }
  destruct (ltb (fl_t f) tmax) eqn:Lt.
  2: { destruct Q as [Q|Q]; [discriminate Q|injection Q as <-]. exists ops. split; assumption. }
  destruct (body fmt (use_of v) refs tmax dt f) as [g|g|] eqn:B; [|destruct Q; discriminate|destruct Q; discriminate].
  apply (IH g f'); [|exact Q]. clear Q IH. unfold body in B.
  destruct (updates (fl_sim f) dt) as [s1|s1|] eqn:U; try discriminate B. apply run_round in U.
  destruct (ltb _ (fl_rt f)) eqn:W.
  - destruct (nth_error refs (S (fl_ix f))) as [r|] eqn:N; cbn [option_map] in B; [|discriminate B].
    destruct (save _ _ _ _) as [log|]; [|discriminate B]. injection B as <-. cbn [fl_ix fl_t fl_rt fl_sim].
    exists (ops ++ round dt ++ asks v r). split; [eapply flown_next; eassumption|]. rewrite run_app, E, run_app, U. apply run_asks.
  - destruct (save _ _ _ _) as [log|]; [|discriminate B]. injection B as <-. cbn [fl_ix fl_t fl_rt fl_sim].
    exists (ops ++ round dt). split; [apply flown_on; assumption|]. rewrite run_app, E. exact U.
Qed.

Lemma tour_calls v refs tmax dt k (s : sim) f : tour fmt v refs tmax dt k s = Flying f \/ tour fmt v refs tmax dt k s = Landed f ->
  exists ops, Flown v refs tmax dt (fl_ix f) (fl_t f) (fl_rt f) ops /\ sim_run 4 s ops = Some (fl_sim f).
Proof.
  assert (T0 : tour fmt v refs tmax dt k s = flight fmt (fst (tour_mode v)) (snd (tour_mode v)) (use_of v) (match v with PositionsTurning _ => fun s => s | _ => fun s => set_ref_yaw_angle s zero end) refs tmax dt k s).
  { destruct v; reflexivity. }
  rewrite T0. clear T0. unfold flight, takeoff. destruct refs as [|r rest]; [intros [Q|Q]; discriminate Q|].
  match goal with |- context [option_map _ (save fmt log_header zero ?x)] => set (s1 := x) end.
  destruct (save fmt log_header zero s1) as [log|]; cbn [option_map]; [|intros [Q|Q]; discriminate Q].
  apply fly_calls. cbn [fl_ix fl_t fl_rt fl_sim]. eexists. split; [apply flown_start; reflexivity|].
  cbn [sim_run sim_step]. rewrite run_app, run_asks. destruct v; reflexivity.
Qed.

Lemma flown_index v refs tmax dt i t w ops : Flown (G := G) (H := H) v refs tmax dt i t w ops -> exists r, nth_error refs i = Some r.
Proof. intros F. destruct F as [r N|i t w ops F _ _|i t w ops r _ _ _ N]; [exists r; exact N| |exists r; exact N]. revert F. induction 1; eauto. Qed.

Lemma round_refs (s s' : sim) dt : sim_run 4 s (round dt) = Some s' ->
  sm_mode s' = sm_mode s /\ sm_yawmode s' = sm_yawmode s /\
  rf_pos (sm_refs s') = rf_pos (sm_refs s) /\ rf_vel (sm_refs s') = rf_vel (sm_refs s) /\ rf_yawrate (sm_refs s') = rf_yawrate (sm_refs s) /\
  (sm_yawmode s = ANGLE -> rf_yaw (sm_refs s') = rf_yaw (sm_refs s)).
Proof.
  unfold round. cbn [sim_run sim_step]. intros E.
  assert (C : let u := update_controller 4 s dt in sm_mode u = sm_mode s /\ sm_yawmode u = sm_yawmode s /\
    rf_pos (sm_refs u) = rf_pos (sm_refs s) /\ rf_vel (sm_refs u) = rf_vel (sm_refs s) /\ rf_yawrate (sm_refs u) = rf_yawrate (sm_refs s) /\
    (sm_yawmode s = ANGLE -> rf_yaw (sm_refs u) = rf_yaw (sm_refs s))).
  { cbv zeta. unfold update_controller. destruct (negb _); [split; [reflexivity|split; [reflexivity|split; [reflexivity|split; [reflexivity|split; [reflexivity|intros; reflexivity]]]]]|]. destruct (sm_yawmode s) eqn:EY; cbv zeta.
    - destruct (sm_mode s) eqn:EM; (split; [first [exact EM|reflexivity]|split; [first [exact EY|reflexivity]|split; [reflexivity|split; [reflexivity|split; [reflexivity|intros; reflexivity]]]]]).
    - change (sm_mode (update_yaw_reference s)) with (sm_mode s). destruct (sm_mode s) eqn:EM; (split; [first [exact EM|reflexivity]|split; [first [exact EY|reflexivity]|split; [reflexivity|split; [reflexivity|split; [reflexivity|intros Q; discriminate Q]]]]]). }
  cbv zeta in C. destruct (update_dynamics (update_controller 4 s dt) dt) as [x|x|] eqn:D; [| |discriminate E]; injection E as <-.
  - destruct (frame_dynamics 4 _ _ x (or_introl D)) as (_ & _ & _ & _ & Rf & _ & Md & Yw). cbn [update_odom update_imu with_odom with_imu sm_refs sm_mode sm_yawmode]. rewrite Rf, Md, Yw. exact C.
  - destruct (frame_dynamics 4 _ _ x (or_intror D)) as (_ & _ & _ & _ & Rf & _ & Md & Yw). cbn [update_odom update_imu with_odom with_imu sm_refs sm_mode sm_yawmode]. rewrite Rf, Md, Yw. exact C.
Qed.

Lemma flown_force v refs tmax dt (s : sim) i t w ops : Flown v refs tmax dt i t w ops ->
  forall s', sim_run 4 s ops = Some s' -> exists r, nth_error refs i = Some r /\ in_force v r s'.
Proof.
  induction 1 as [r N|i t w ops F IH Lt Lw|i t w ops r F IH Lt Lw N]; intros s' E.
  - exists r. split; [exact N|]. cbn [sim_run sim_step] in E. rewrite run_app, run_asks in E.
    assert (M : sm_mode (set_control_mode s (fst (tour_mode v)) (snd (tour_mode v))) = fst (tour_mode v) /\ sm_yawmode (set_control_mode s (fst (tour_mode v)) (snd (tour_mode v))) = snd (tour_mode v)).
    { unfold set_control_mode. destruct (mode_eqb _ _) eqn:E1, (yaw_eqb _ _) eqn:E2; cbn [andb]; [|split; reflexivity|split; reflexivity|split; reflexivity].
      split; [destruct (sm_mode s), (fst (tour_mode v)); (reflexivity || discriminate E1)|destruct (sm_yawmode s), (snd (tour_mode v)); (reflexivity || discriminate E2)]. }
    destruct M as [M1 M2]. destruct v; cbn [faces sim_run sim_step] in E; injection E as <-; (split; [exact M1|]; split; [exact M2|split; reflexivity]).
  - rewrite run_app in E. destruct (sim_run 4 s ops) as [s1|]; [|discriminate E]. destruct (IH s1 eq_refl) as (r & N & I). exists r. split; [exact N|].
    apply round_refs in E as (E1 & E2 & E3 & E4 & E5 & E6). destruct I as (I1 & I2 & I3).
    split; [congruence|]. split; [congruence|]. destruct v; cbn [tour_mode snd] in I2; destruct I3 as [I3 I4]; split; try congruence; rewrite E6 by exact I2; exact I4.
  - rewrite run_app in E. destruct (sim_run 4 s ops) as [s1|]; [|discriminate E]. destruct (IH s1 eq_refl) as (r0 & _ & I). exists r. split; [exact N|].
    rewrite run_app in E. destruct (sim_run 4 s1 (round dt)) as [s2|] eqn:E2; [|discriminate E]. rewrite run_asks in E. injection E as <-.
    apply round_refs in E2 as (K1 & K2 & K3 & K4 & K5 & K6). destruct I as (I1 & I2 & I3).
    rewrite <- K1 in I1. rewrite <- K2 in I2. split; [destruct v; exact I1|]. split; [destruct v; exact I2|]. rewrite K2 in I2. destruct v; cbn [tour_mode fst snd] in I2;
      destruct I3 as [I3 I4]; (split; [reflexivity|]); cbn; try reflexivity; rewrite K6 by exact I2; exact I4.
Qed.

Lemma tour_force v refs tmax dt k (s : sim) f : tour fmt v refs tmax dt k s = Flying f \/ tour fmt v refs tmax dt k s = Landed f ->
  exists r, nth_error refs (fl_ix f) = Some r /\ in_force v r (fl_sim f).
Proof. intros Q. destruct (tour_calls _ _ _ _ _ _ _ Q) as (ops & F & E). eapply flown_force; eassumption. Qed.
End PTour.
