(** Lemmas on the flights of the example program. *)

From Coq Require Import ZArith List Bool String Lia Reals Lra.
From Verif Require Import Scalar LinAlg MUtils MModel MDynamics MPid MControl MCtlRun MImu MSim MText MExample
  SpecDyn SpecRun SpecSim SpecText SpecExample PBase PDyn PModel PPhys PVeh PDynMore PSim PSimEnd PWell PText.
Import ListNotations.

Section Gen.
Context {T : Type} {O : Ops T} {G H : Gen T}.
Notation sim := (Sim T G H).
Local Open Scope sc_scope.

(** The part of the loop that keeps time. *)
Fixpoint clock (n : nat) (tmax dt : T) (k : nat) (t rt : T) (ix : nat) : Watch (T * T * nat) :=
  match k with
  | 0 => Flying (t, rt, ix)
  | S k' =>
    if t <? tmax then
      if (tmax / ofZ (Z.of_nat n)) <? rt then
        if Nat.ltb (S ix) n then clock n tmax dt k' (t + dt) (zero + dt) (S ix) else Undefined
      else clock n tmax dt k' (t + dt) (rt + dt) ix
    else Landed (t, rt, ix)
  end.

Variable fmt : T -> string.
Variable use : sim -> V3 T -> sim.
Variable W : sim -> Prop.
Variable dt : T.
Hypothesis W_updates : forall s, W s -> exists s', updates s dt = Ok s' /\ W s'.
Hypothesis W_use : forall s r, W s -> W (use s r).
Hypothesis W_cfg : forall s, W s -> exists c, mo_cfg (d_model (sm_dyn s)) = Some c.

Lemma iter_next n (x : T) : Nat.iter n (fun y => y + dt) (x + dt) = Nat.iter n (fun y => y + dt) x + dt.
Proof. induction n as [|n IH]; [reflexivity|]. change (Nat.iter n (fun y => y + dt) (x + dt) + dt = Nat.iter n (fun y => y + dt) x + dt + dt). rewrite IH. reflexivity. Qed.

(** What a flight and its clock have in common. *)
Definition in_step (log : list (T * sim)) (t0 : T) (k : nat) (w : Watch (Flight T G H)) (c : Watch (T * T * nat)) : Prop :=
  match w, c with
  | Flying f, Flying (t, rt, ix) | Landed f, Landed (t, rt, ix) =>
      fl_t f = t /\ fl_rt f = rt /\ fl_ix f = ix /\ W (fl_sim f) /\
      exists more, log_file fmt (log ++ more) = Some (fl_log f) /\ Forall (fun e => W (snd e)) more /\
        (List.length more <= k)%nat /\ t = Nat.iter (List.length more) (fun x => x + dt) t0
  | Undefined, Undefined => True
  | _, _ => False
  end.

Lemma save_defined s os t : W s -> exists os', save fmt os t s = Some os'.
Proof. intro Ws. destruct (W_cfg s Ws) as [c C]. unfold save. rewrite C. eexists; reflexivity. Qed.
Lemma save_all_app (a b : list (T * sim)) : forall os, save_all fmt os (a ++ b) = bindo (save_all fmt os a) (fun o => save_all fmt o b).
Proof.
  induction a as [|[t s] r IH]; intro os; cbn [List.app save_all]; [reflexivity|].
  destruct (save fmt os t s) as [o|]; cbn [bindo]; [apply IH|reflexivity].
Qed.

Lemma fly_in_step refs tmax k : forall f log, W (fl_sim f) -> log_file fmt log = Some (fl_log f) ->
  in_step log (fl_t f) k (fly fmt use refs tmax dt k f) (clock (List.length refs) tmax dt k (fl_t f) (fl_rt f) (fl_ix f)).
Proof.
  induction k as [|k IH]; intros f log Wf Lf.
  - cbn. repeat (split; [reflexivity || exact Wf|]). exists []. rewrite app_nil_r.
    split; [exact Lf|]. split; [constructor|]. split; [apply le_n|reflexivity].
  - cbn [fly clock]. destruct (fl_t f <? tmax) eqn:Et.
    2:{ cbn. repeat (split; [reflexivity || exact Wf|]). exists []. rewrite app_nil_r.
        split; [exact Lf|]. split; [constructor|]. split; [cbn; lia|reflexivity]. }
    unfold body. destruct (W_updates _ Wf) as [s [Us Ws]]. rewrite Us.
    assert (K : forall s1 rt ix, W s1 ->
      in_step log (fl_t f) (S k)
        (match (match save fmt (fl_log f) (fl_t f) s1 with None => UB | Some lg => Ok (mkFl s1 (fl_t f + dt) (rt + dt) ix lg) end) with
         | Ok f' => fly fmt use refs tmax dt k f' | Throw _ => Threw | UB => Undefined end)
        (clock (List.length refs) tmax dt k (fl_t f + dt) (rt + dt) ix)).
    { intros s1 rt ix W1. destruct (save_defined s1 (fl_log f) (fl_t f) W1) as [lg Sv]. rewrite Sv.
      assert (L1 : log_file fmt (log ++ [(fl_t f, s1)]) = Some lg).
      { unfold log_file in *. rewrite save_all_app, Lf. cbn [bindo save_all]. rewrite Sv. reflexivity. }
      specialize (IH (mkFl s1 (fl_t f + dt) (rt + dt) ix lg) _ W1 L1). cbn [fl_t fl_rt fl_ix] in IH.
      revert IH. generalize (fly fmt use refs tmax dt k (mkFl s1 (fl_t f + dt) (rt + dt) ix lg)).
      generalize (clock (List.length refs) tmax dt k (fl_t f + dt) (rt + dt) ix).
      unfold in_step. intros c w IH.
      destruct w as [f1|f1| |]; destruct c as [[[t2 rt2] ix2]|[[t2 rt2] ix2]| |]; try exact IH;
        destruct IH as (A & B & C & D & more & E & F & L & M);
        (split; [exact A|]; split; [exact B|]; split; [exact C|]; split; [exact D|]);
        exists ((fl_t f, s1) :: more); rewrite <- app_assoc in E; (split; [exact E|]);
        (split; [constructor; [exact W1|exact F]|]); cbn [List.length]; (split; [lia|]);
        rewrite M; apply iter_next. }
    destruct (tmax / ofZ (Z.of_nat (List.length refs)) <? fl_rt f) eqn:Eb.
    + destruct (nth_error refs (S (fl_ix f))) as [r|] eqn:En; cbn [option_map].
      * assert (Nat.ltb (S (fl_ix f)) (List.length refs) = true) as ->.
        { apply Nat.ltb_lt. apply nth_error_Some. congruence. }
        apply (K (use s r) zero (S (fl_ix f))), W_use, Ws.
      * assert (Nat.ltb (S (fl_ix f)) (List.length refs) = false) as ->.
        { apply Nat.ltb_ge. apply nth_error_None. exact En. }
        exact I.
    + apply (K s (fl_rt f) (fl_ix f) Ws).
Qed.

Lemma flight_in_step m y heading refs tmax k s : refs <> [] -> W s ->
  (forall s, W s -> W (set_control_mode s m y)) -> (forall s, W s -> W (heading s)) ->
  exists s1, W s1 /\
  in_step [(zero, s1)] zero k (flight fmt m y use heading refs tmax dt k s) (clock (List.length refs) tmax dt k zero zero 0).
Proof.
  intros Nr Ws Wm Wh. unfold flight, takeoff. destruct refs as [|r rest]; [congruence|].
  assert (W1 : W (heading (use (set_control_mode s m y) r))) by auto.
  exists (heading (use (set_control_mode s m y) r)). split; [exact W1|].
  destruct (save_defined _ log_header zero W1) as [lg Sv]. rewrite Sv. cbn [option_map].
  apply (fly_in_step (r :: rest) tmax k (mkFl _ zero zero 0 lg) _ W1).
  unfold log_file. cbn [save_all]. rewrite Sv. reflexivity.
Qed.
End Gen.

(** ** Any arithmetic: the flight goes wrong when its clock does *)
Section Any.
Context {T : Type} {O : Ops T} {G H : Gen T}.
Hypothesis Sn : Sane O.
Implicit Types s : Sim T G H.

Lemma gwell_updates dt : ltb dtmax dt = false -> leb dt zero = false ->
  forall s, gwell 4 s -> exists s', updates s dt = Ok s' /\ gwell 4 s'.
Proof.
  intros D0 D1 s Ws. unfold updates.
  destruct (gwell_dynamics Sn 4 _ dt (gwell_controller 4 s dt Ws) D0) as (s1 & [E|E] & W1).
  - rewrite E. eexists. split; [reflexivity|]. destruct W1 as [A B C]. split; assumption.
  - exfalso. apply (ud_throw Sn) in E. destruct E as [E _]. congruence.
Qed.
Lemma gwell_cfg s : gwell 4 s -> exists c, mo_cfg (d_model (sm_dyn s)) = Some c.
Proof. intros [(p & V & _) _ _]. destruct V as (_ & P & _). apply get_params_cfg in P as (c & C & _). exists c; exact C. Qed.
Lemma gwell_same s s' : sm_dyn s' = sm_dyn s -> sm_act s' = sm_act s -> rf_motors (sm_refs s') = rf_motors (sm_refs s) ->
  sm_ctl s' = sm_ctl s -> gwell 4 s -> gwell 4 s'.
Proof.
  intros E1 E2 E3 E4 [A B C]. split.
  - rewrite E1, E2. exact A.
  - rewrite E3. exact B.
  - rewrite E4. exact C.
Qed.
Lemma gwell_mode m y s : gwell 4 s -> gwell 4 (set_control_mode s m y).
Proof. unfold set_control_mode. destruct (_ && _); [trivial|]. apply gwell_same; reflexivity. Qed.

Lemma gtour_in_step fmt v refs tmax dt k s : refs <> [] -> ltb dtmax dt = false -> leb dt zero = false -> gwell 4 s ->
  exists s1, gwell 4 s1 /\
  in_step fmt (gwell 4) dt [(zero, s1)] zero k (tour fmt v refs tmax dt k s) (clock (List.length refs) tmax dt k zero zero 0).
Proof.
  intros Nr D0 D1 F. destruct v as [| |rate]; cbn [tour].
  - apply (flight_in_step fmt _ (gwell 4) dt (gwell_updates dt D0 D1)); try assumption.
    + intros s0 r; apply gwell_same; reflexivity.
    + exact gwell_cfg.
    + apply gwell_mode.
    + intros s0; apply gwell_same; reflexivity.
  - apply (flight_in_step fmt _ (gwell 4) dt (gwell_updates dt D0 D1)); try assumption.
    + intros s0 r; apply gwell_same; reflexivity.
    + exact gwell_cfg.
    + apply gwell_mode.
    + intros s0; apply gwell_same; reflexivity.
  - apply (flight_in_step fmt _ (gwell 4) dt (gwell_updates dt D0 D1)); try assumption.
    + intros s0 r; apply gwell_same; reflexivity.
    + exact gwell_cfg.
    + apply gwell_mode.
    + intros s0; trivial.
Qed.
Lemma gtour_overruns fmt v refs tmax dt k s : refs <> [] -> ltb dtmax dt = false -> leb dt zero = false -> gwell 4 s ->
  clock (List.length refs) tmax dt k zero zero 0 = Undefined -> tour fmt v refs tmax dt k s = Undefined.
Proof.
  intros Nr D0 D1 W C. destruct (gtour_in_step fmt v refs tmax dt k s Nr D0 D1 W) as (s1 & _ & X).
  rewrite C in X. unfold in_step in X. destruct (tour fmt v refs tmax dt k s) as [f|f| |]; try contradiction. reflexivity.
Qed.

Lemma tour_empty fmt v tmax dt k s : tour fmt v [] tmax dt k s = Undefined.
Proof. destruct v; reflexivity. Qed.
Lemma tour_empty_unsound fmt v tmax dt k s : ~ sound (tour fmt v [] tmax dt k s).
Proof. rewrite tour_empty. exact (fun x => x). Qed.
End Any.

(** ** Exact arithmetic *)
Local Open Scope R_scope.

Lemma clock_safe n tmax dt : (0 < n)%nat -> 0 < dt -> forall k t rt ix,
  0 <= t -> INR ix * (tmax / INR n) + rt <= t -> (ix < n)%nat -> clock n tmax dt k t rt ix <> Undefined /\ clock n tmax dt k t rt ix <> Threw.
Proof.
  intros Hn Hd. induction k as [|k IH]; intros t rt ix T0 I J; cbn [clock]; [split; discriminate|].
  assert (N : 0 < INR n) by (apply lt_0_INR; exact Hn).
  replace (ofZ (Z.of_nat n) : R) with (INR n) by (unR; apply INR_IZR_INZ).
  unR. destruct (Rltb t tmax) eqn:E1; [apply Rltb_true in E1|split; discriminate].
  destruct (Rltb (tmax / INR n) rt) eqn:E2; [apply Rltb_true in E2|apply Rltb_false in E2].
  - destruct (Nat.ltb_spec (S ix) n) as [L|L].
    + apply IH; [lra| |exact L]. rewrite S_INR. lra.
    + exfalso. assert (E : S ix = n) by lia.
      assert (X : INR n * (tmax / INR n) = tmax) by (field; lra).
      rewrite <- E, S_INR in X. rewrite <- E, S_INR in *. lra.
  - apply IH; [lra|lra|exact J].
Qed.

Lemma clock_runs n tmax dt k : forall t rt ix,
  match clock n tmax dt k t rt ix with
  | Flying (t', _, _) => t' = t + INR k * dt /\ (k = 0%nat \/ t + (INR k - 1) * dt < tmax)
  | Landed (t', _, _) => tmax <= t'
  | _ => True end.
Proof.
  induction k as [|k IH]; intros t rt ix; cbn [clock].
  - cbn. split; [lra|left; reflexivity].
  - unR. destruct (Rltb t tmax) eqn:E1; [apply Rltb_true in E1|apply Rltb_false in E1; lra].
    assert (X : forall rt' ix', match clock n tmax dt k (t + dt) rt' ix' with
      | Flying (t', _, _) => t' = t + INR (S k) * dt /\ (S k = 0%nat \/ t + (INR (S k) - 1) * dt < tmax)
      | Landed (t', _, _) => tmax <= t' | _ => True end).
    { intros rt' ix'. specialize (IH (t + dt) rt' ix').
      destruct (clock n tmax dt k (t + dt) rt' ix') as [[[t2 rt2] ix2]|[[t2 rt2] ix2]| |]; try exact IH.
      destruct IH as [A B]. split; [rewrite S_INR; lra|]. right. rewrite S_INR.
      destruct B as [->|B]; [cbn; lra|lra]. }
    destruct (Rltb _ rt).
    + destruct (Nat.ltb (S ix) n); [apply X|exact I].
    + apply X.
Qed.
Lemma clock_lands n tmax dt : (0 < n)%nat -> 0 < dt -> exists k t rt ix, clock n tmax dt k 0 0 0 = Landed (t, rt, ix) /\ tmax <= t.
Proof.
  intros Hn Hd. destruct (archimed ((Rabs tmax + dt) / dt)) as [A _].
  pose (k := Z.to_nat (up ((Rabs tmax + dt) / dt))).
  assert (P : 0 < (Rabs tmax + dt) / dt).
  { apply Rdiv_lt_0_compat; [pose proof (Rabs_pos tmax); lra|exact Hd]. }
  assert (K : INR k > (Rabs tmax + dt) / dt).
  { unfold k. rewrite INR_IZR_INZ, Z2Nat.id; [exact A|]. apply le_IZR. lra. }
  exists k. pose proof (clock_runs n tmax dt k 0 0 0%nat) as X.
  pose proof (clock_safe n tmax dt Hn Hd k 0 0 0%nat (Rle_refl 0)) as [Sf1 Sf2]; [cbn; lra|exact Hn|].
  destruct (clock n tmax dt k 0 0 0) as [[[t rt] ix]|[[t rt] ix]| |]; [|exists t, rt, ix; split; [reflexivity|exact X]|congruence|congruence].
  exfalso. destruct X as [_ [E|E]]; [rewrite E in K; cbn in K; lra|].
  assert (Y : (Rabs tmax + dt) / dt * dt = Rabs tmax + dt) by (field; lra).
  assert (Q : (Rabs tmax + dt) / dt * dt < INR k * dt) by (apply Rmult_lt_compat_r; [exact Hd|exact K]).
  pose proof (Rle_abs tmax). lra.
Qed.

Lemma f2_length {A B} (P : A -> B -> Prop) a b : Forall2 P a b -> List.length a = List.length b.
Proof. induction 1; cbn; congruence. Qed.

Section Real.
Context {G H : Gen R}.
Implicit Types s : Sim R G H.

Definition flyable s : Prop := well 4 s /\ List.length (s_macc (sim_state s)) = 4%nat.

Lemma macc_dynamics s dt s' : flyable s -> update_dynamics s dt = Ok s' -> List.length (s_macc (sim_state s')) = 4%nat.
Proof.
  intros [[(p & V & L) _ _] M] K. destruct (contact_cases _ _ _ K) as (ext & d & F & C). unfold free_motion in F.
  assert (Md : List.length (s_macc (d_state d)) = 4%nat).
  { pose proof (process_inv (fun x => vehicle 4 x (sm_act s) p /\ List.length (s_macc (d_state x)) = 4%nat)
      (sm_dyn s) (sm_act s) dt ext (negb (sm_floor_col s)) (conj V M)) as I.
    rewrite F in I. apply I. intros x y h [Vx _] E. split; [eapply vehicle_core; eassumption|].
    destruct Vx as (_ & _ & A & B).
    destruct (euler_core_rotors _ _ _ _ _ _ E) as [_ X]; [congruence|]. congruence. }
  destruct C as [(_ & _ & St & _)|(_ & Ed & _)].
  - destruct St as (_ & _ & _ & _ & _ & _ & _ & _ & _ & Ma & _). rewrite Ma. exact Md.
  - unfold sim_state. rewrite Ed. exact Md.
Qed.
Lemma controller_state s dt : sim_state (update_controller 4 s dt) = sim_state s.
Proof.
  unfold update_controller. destruct (negb _); [reflexivity|].
  destruct (sm_yawmode s); destruct (sm_mode _); reflexivity.
Qed.
Lemma flyable_updates dt : 0 < dt <= 2147483647 / 100 -> forall s, flyable s -> exists s', updates s dt = Ok s' /\ flyable s'.
Proof.
  intros [D0 D1] s [Ws M]. unfold updates.
  assert (Wc : well 4 (update_controller 4 s dt)) by (apply well_controller, Ws).
  assert (Mc : List.length (s_macc (sim_state (update_controller 4 s dt))) = 4%nat) by (rewrite controller_state; exact M).
  destruct (well_dynamics 4 _ dt Wc D1) as (s1 & [E|E] & W1).
  - pose proof (macc_dynamics _ dt s1 (conj Wc Mc) E) as M1. rewrite E.
    eexists. split; [reflexivity|]. split; [|exact M1].
    destruct W1 as [A B C]. split; assumption.
  - exfalso. apply (ud_throw R_sane) in E. destruct E as [E _]. unR. apply Rleb_true in E. lra.
Qed.
Lemma flyable_cfg s : flyable s -> exists c, mo_cfg (d_model (sm_dyn s)) = Some c.
Proof.
  intros [[(p & V & _) _ _] _]. destruct V as (_ & P & _). apply get_params_cfg in P as (c & C & _). exists c; exact C.
Qed.
Lemma flyable_same s s' : sm_dyn s' = sm_dyn s -> sm_act s' = sm_act s -> rf_motors (sm_refs s') = rf_motors (sm_refs s) ->
  sm_ctl s' = sm_ctl s -> flyable s -> flyable s'.
Proof.
  intros E1 E2 E3 E4 [[A B C] M]. split; [split|].
  - rewrite E1, E2. exact A.
  - rewrite E3. exact B.
  - rewrite E4. exact C.
  - unfold sim_state in *. rewrite E1. exact M.
Qed.
Lemma flyable_mode m y s : flyable s -> flyable (set_control_mode s m y).
Proof. unfold set_control_mode. destruct (_ && _); [trivial|]. apply flyable_same; reflexivity. Qed.
Lemma flyable_loggable fmt t s : plain_printer (T := R) fmt -> flyable s -> loggable (t, s).
Proof.
  intros P [[(p & V & L) B C] M]. destruct V as (_ & Pp & A & W).
  split; [split; [exact W|split; [exact M|exact A]]|].
  exists (p_mass p), (p_grav p). split; [exists p; repeat split; exact Pp|].
  assert (N : forall x : R, number x) by (intro x; unfold number; unR; apply Reqb_true; reflexivity).
  split; [apply N|]. apply Forall_forall. intros c _. apply N.
Qed.

Lemma tour_in_step fmt v refs tmax dt k s : refs <> [] -> 0 < dt <= 2147483647 / 100 -> flyable s ->
  exists s1, flyable s1 /\
  in_step fmt flyable dt [(zero, s1)] zero k (tour fmt v refs tmax dt k s) (clock (List.length refs) tmax dt k zero zero 0).
Proof.
  intros Nr D F. destruct v as [| |rate]; cbn [tour].
  - apply (flight_in_step fmt _ flyable dt (flyable_updates dt D)); try assumption.
    + intros s0 r; apply flyable_same; reflexivity.
    + exact flyable_cfg.
    + apply flyable_mode.
    + intros s0; apply flyable_same; reflexivity.
  - apply (flight_in_step fmt _ flyable dt (flyable_updates dt D)); try assumption.
    + intros s0 r; apply flyable_same; reflexivity.
    + exact flyable_cfg.
    + apply flyable_mode.
    + intros s0; apply flyable_same; reflexivity.
  - apply (flight_in_step fmt _ flyable dt (flyable_updates dt D)); try assumption.
    + intros s0 r; apply flyable_same; reflexivity.
    + exact flyable_cfg.
    + apply flyable_mode.
    + intros s0; trivial.
Qed.

Lemma run_flyable sp ops s : fitting_params 4 sp -> Forall (fits (G := G) (H := H) 4) ops ->
  sim_after 4 sp ops = Some s -> List.length (s_macc (sim_state s)) = 4%nat -> flyable s.
Proof.
  intros (C & Lm & Ls & Lc) F E M. split; [|exact M].
  destruct (new_defined (G := G) 4 (sp_model sp) (sp_seed sp) (sp_state sp) C) as [d Ed]; [lia|].
  unfold sim_after, sim_new in E. rewrite Ed in E. cbn [option_map] in E.
  destruct (new_params _ _ _ _ _ Ed C) as (A & B & St).
  match type of E with sim_run 4 ?x ops = _ => assert (Ww : well 4 x) end.
  { split; [|apply repeat_length|exact Lc]. exists (sp_model sp). split; [|exact Lm].
    split; [exact A|]. split; [exact B|]. split; [apply repeat_length|]. cbn. rewrite St. exact Ls. }
  destruct (well_run 4 ops _ Ww F) as (s' & K & Wl). rewrite K in E. injection E as <-. exact Wl.
Qed.

Lemma tour_sound fmt v sp ops s refs tmax dt k : fitting_params 4 sp -> Forall (fits (G := G) (H := H) 4) ops ->
  sim_after 4 sp ops = Some s -> four_rotors s -> refs <> [] -> 0 < dt <= 2147483647 / 100 ->
  sound (tour fmt v refs tmax dt k s).
Proof.
  intros P F E M Nr D. pose proof (run_flyable sp ops s P F E (proj1 (proj2 M))) as Fl.
  destruct (tour_in_step fmt v refs tmax dt k s Nr D Fl) as (s1 & _ & X).
  assert (Hn : (0 < List.length refs)%nat) by (destruct refs; [congruence|cbn; lia]).
  destruct (clock_safe (List.length refs) tmax dt Hn (proj1 D) k 0 0 0%nat (Rle_refl 0)) as [S1 S2]; [cbn; lra|exact Hn|].
  unfold in_step in X. change (zero : R) with 0 in X.
  destruct (tour fmt v refs tmax dt k s) as [f|f| |]; [exact I|exact I| |];
    destruct (clock (List.length refs) tmax dt k 0 0 0) as [[[t rt] ix]|[[t rt] ix]| |]; try contradiction; congruence.
Qed.
Lemma tour_lands fmt v sp ops s refs tmax dt : plain_printer (T := R) fmt -> fitting_params 4 sp -> Forall (fits (G := G) (H := H) 4) ops ->
  sim_after 4 sp ops = Some s -> four_rotors s -> refs <> [] -> 0 < dt <= 2147483647 / 100 ->
  exists k f, tour fmt v refs tmax dt k s = Landed f /\ tmax <= fl_t f /\ exists n, fl_t f = INR n * dt /\ complete_log (S n) (fl_log f).
Proof.
  intros Pl P F E M Nr D. pose proof (run_flyable sp ops s P F E (proj1 (proj2 M))) as Fl.
  assert (Hn : (0 < List.length refs)%nat) by (destruct refs; [congruence|cbn; lia]).
  destruct (clock_lands (List.length refs) tmax dt Hn (proj1 D)) as (k & t & rt & ix & C & Le).
  destruct (tour_in_step fmt v refs tmax dt k s Nr D Fl) as (s1 & F1 & X).
  exists k. unfold in_step in X. change (zero : R) with 0 in X. rewrite C in X.
  destruct (tour fmt v refs tmax dt k s) as [f|f| |]; try contradiction.
  exists f. destruct X as (Et & _ & _ & _ & more & Lg & Fm & _ & Ti). split; [reflexivity|]. split; [rewrite Et; exact Le|].
  exists (List.length more). split.
  { rewrite Et, Ti. generalize (List.length more) as m. clear. induction m as [|m IH]; [cbn; unR; lra|].
    change (Nat.iter m (fun y => y + dt) zero + dt = INR (S m) * dt). rewrite S_INR. unR. unfold zero, add in *. cbn in *. lra. }
  assert (Lo : Forall loggable ([(0, s1)] ++ more)).
  { constructor; [eapply flyable_loggable; eassumption|].
    eapply Forall_impl; [|exact Fm]. intros [t2 s2] W2. eapply flyable_loggable; eassumption. }
  destruct (log_file_lines fmt Pl _ Lo) as (hd & tx & file & A & B & C2 & _ & D2).
  rewrite Lg in A. injection A as <-. exists hd, tx. split; [exact B|]. split; [|exact D2].
  apply f2_length in C2. exact C2.
Qed.
End Real.
