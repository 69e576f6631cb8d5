(** Soundness, landing, logs and references of the scripted flights. *)

From Coq Require Import ZArith List Bool String Lia Reals Lra.
From Verif Require Import Scalar LinAlg MUtils MModel MDynamics MPid MControl MCtlRun MImu MSim MText MExample MConfig MScript
  SpecDyn SpecRun SpecPid SpecCtl SpecImu SpecSim SpecText SpecExample SpecConfig SpecScript PBase PDyn PModel PPhys PVeh PDynMore PSim PSimEnd PWell PText PExample PConfig PScript.
Import ListNotations.

Section Any.
Context {T : Type} {O : Ops T} {G H : Gen T}.
Notation sim := (Sim T G H).
Hypothesis Sn : Sane O.
Local Open Scope sc_scope.
Variable fmt : T -> string.

Lemma gwell_motors (s : sim) w : List.length w = 4%nat -> gwell 4 s -> gwell 4 (set_ref_motors s w).
Proof. intros L [A B C]. split; [exact A|exact L|exact C]. Qed.

Lemma gscripted_good v tmax dt k (s : sim) : gwell 4 s -> ltb dtmax dt = false -> leb dt zero = false ->
  exists n f (s1 : sim), after_iterations (scripted fmt v tmax dt k s) tmax dt k n f /\ gwell 4 (sh_sim f) /\ gwell 4 s1 /\
  exists more, log_file fmt (first_log v s1 ++ more) = Some (sh_log f) /\ Forall (fun e : T * sim => gwell 4 (snd e)) more /\
    map fst more = map (time_at dt) (seq 0 n).
Proof.
  intros W D0 D1. apply scripted_good; [exact (gwell_updates Sn dt D0 D1)|exact gwell_cfg|exact gwell_same|exact gwell_motors|exact W].
Qed.
Lemma scripted_sound v sp ops (s : sim) tmax dt k : fitting_params 4 sp -> Forall (fits_short 4) ops -> sim_after 4 sp ops = Some s ->
  ltb dtmax dt = false -> leb dt zero = false -> sound (scripted fmt v tmax dt k s).
Proof.
  intros P F E D0 D1. destruct (gscripted_good v tmax dt k s (gafter_well Sn 4 sp ops s P F E) D0 D1) as (n & f & s1 & ([[-> _]|[-> _]] & _) & _); exact I.
Qed.
(** The flight ends when its clock reaches the end, and only then. *)
Lemma scripted_ends v sp ops (s : sim) tmax dt : fitting_params 4 sp -> Forall (fits_short 4) ops -> sim_after 4 sp ops = Some s ->
  ltb dtmax dt = false -> leb dt zero = false ->
  (exists k f, scripted fmt v tmax dt k s = Landed f) <-> exists n, ltb (time_at dt n) tmax = false.
Proof.
  intros P F E D0 D1. pose proof (gafter_well Sn 4 sp ops s P F E) as W. split.
  - intros (k & f & L). destruct (gscripted_good v tmax dt k s W D0 D1) as (n & f' & s1 & ([[C _]|[_ [_ C]]] & _) & _); [congruence|].
    exists n. exact C.
  - intros [n Hn]. destruct (gscripted_good v tmax dt (Datatypes.S n) s W D0 D1) as (m & f & s1 & ([[C Em]|[C _]] & _ & Be) & _).
    + exfalso. subst m. rewrite (Be n (Nat.lt_succ_diag_r n)) in Hn. discriminate.
    + exists (Datatypes.S n), f. exact C.
Qed.
(** Every iteration writes a row stamped with the time it started. *)
Lemma scripted_rows v sp ops (s : sim) tmax dt k : fitting_params 4 sp -> Forall (fits_short 4) ops -> sim_after 4 sp ops = Some s ->
  ltb dtmax dt = false -> leb dt zero = false ->
  exists n f (log : list (T * sim)), after_iterations (scripted fmt v tmax dt k s) tmax dt k n f /\ log_file fmt log = Some (sh_log f) /\
    map fst log = repeat zero (rows_before v) ++ map (time_at dt) (seq 0 n).
Proof.
  intros P F E D0 D1. destruct (gscripted_good v tmax dt k s (gafter_well Sn 4 sp ops s P F E) D0 D1) as (n & f & s1 & A & _ & _ & more & Lg & _ & M).
  exists n, f, (first_log v s1 ++ more). split; [exact A|]. split; [exact Lg|].
  rewrite map_app, M. f_equal. destruct v; reflexivity.
Qed.

(** ** What stays in force *)
Lemma iterations_snoc (b a : T -> list (SimOp T G H)) dt n : forall t,
  iterations b a dt t (Datatypes.S n) = iterations b a dt t n ++ b (Nat.iter n (fun x => x + dt) t) ++ round dt ++ a (Nat.iter n (fun x => x + dt) t).
Proof.
  induction n as [|n IH]; intros t.
  - cbn [iterations Nat.iter nat_rect app]. rewrite app_nil_r. reflexivity.
  - change (iterations b a dt t (Datatypes.S (Datatypes.S n))) with (b t ++ round dt ++ a t ++ iterations b a dt (t + dt) (Datatypes.S n)).
    rewrite IH, (iter_next dt n t). cbn [iterations]. rewrite <- !app_assoc. reflexivity.
Qed.
Definition hold (s s' : sim) : Prop := sm_refs s' = sm_refs s /\ sm_mode s' = sm_mode s /\ sm_yawmode s' = sm_yawmode s /\ sm_armed s' = sm_armed s.
Lemma dynamics_hold (s s' : sim) dt : update_dynamics s dt = Ok s' \/ update_dynamics s dt = Throw s' -> hold s s'.
Proof.
  unfold update_dynamics. destruct (below_floor s).
  - destruct (mo_cfg _) as [c|]; cbn [option_map]; [|intros [E|E]; discriminate].
    destruct (process _ _ _ _ _) as [d|d|]; [|intros [E|E]; [discriminate|injection E as <-]; repeat split|intros [E|E]; discriminate].
    cbv zeta. destruct (below_floor _); intros [E|E]; try discriminate; injection E as <-; repeat split.
  - destruct (process _ _ _ _ _) as [d|d|]; [|intros [E|E]; [discriminate|injection E as <-]; repeat split|intros [E|E]; discriminate].
    cbv zeta. destruct (below_floor _); intros [E|E]; try discriminate; injection E as <-; repeat split.
Qed.
Lemma controller_hold (s : sim) dt : sm_yawmode s = ANGLE -> hold s (update_controller 4 s dt).
Proof.
  intros Y. unfold update_controller. destruct (negb _); [repeat split|]. rewrite Y. cbv zeta. destruct (sm_mode s); repeat split.
Qed.
Lemma hold_trans (a b c : sim) : hold a b -> hold b c -> hold a c.
Proof. intros (A1 & A2 & A3 & A4) (B1 & B2 & B3 & B4). split; [congruence|]. split; [congruence|]. split; congruence. Qed.
Lemma round_hold (s s' : sim) dt : sm_yawmode s = ANGLE -> sim_run 4 s (round dt) = Some s' -> hold s s'.
Proof.
  intros Y. unfold round. cbn [sim_run sim_step]. intros E.
  eapply hold_trans; [apply controller_hold; exact Y|].
  destruct (update_dynamics (update_controller 4 s dt) dt) as [s1|s1|] eqn:Ed; [| |discriminate]; injection E as <-.
  - eapply hold_trans; [apply (dynamics_hold _ _ dt); left; exact Ed|]. repeat split.
  - eapply hold_trans; [apply (dynamics_hold _ _ dt); right; exact Ed|]. repeat split.
Qed.

(** An invariant of the iterations, indexed by their number. *)
Lemma iterations_inv (J : nat -> sim -> Prop) (b a : T -> list (SimOp T G H)) dt n : forall (s s' : sim),
  (forall m x x', J m x -> sim_run 4 x (b (time_at dt m) ++ round dt ++ a (time_at dt m)) = Some x' -> J (Datatypes.S m) x') ->
  J 0%nat s -> sim_run 4 s (iterations b a dt zero n) = Some s' -> J n s'.
Proof.
  intros s s' St. revert s'. induction n as [|n IH]; intros s' J0 E.
  - cbn in E. injection E as <-. exact J0.
  - rewrite iterations_snoc, run_app in E. destruct (sim_run 4 s (iterations b a dt zero n)) as [x|] eqn:Ex; [|discriminate].
    eapply St; [apply IH; [exact J0|reflexivity]|exact E].
Qed.
Lemma mode_set (s : sim) m y : sm_mode (set_control_mode s m y) = m /\ sm_yawmode (set_control_mode s m y) = y /\
  sm_armed (set_control_mode s m y) = sm_armed s.
Proof.
  unfold set_control_mode. destruct (mode_eqb (sm_mode s) m) eqn:E1; cbn [andb]; [|repeat split].
  destruct (yaw_eqb (sm_yawmode s) y) eqn:E2; [|repeat split].
  destruct (sm_mode s), m; try discriminate; destruct (sm_yawmode s), y; try discriminate; repeat split.
Qed.

Lemma motor_force tmax dt k (s : sim) f : sm_armed s = true -> let w := scripted fmt FullSpeed tmax dt k s in w = Flying f \/ w = Landed f ->
  sm_act (update_controller 4 (sh_sim f) dt) = repeat (one * ofZ 2200) 4.
Proof.
  intros A w E. destruct (motor_made fmt tmax dt k s f E) as (n & _ & Rn). unfold motor_calls in Rn. rewrite run_app in Rn. cbn [sim_run sim_step] in Rn.
  destruct (mode_set s MOTOR_W ANGLE) as (M1 & M2 & M3).
  set (s1 := set_ref_motors _ _) in Rn.
  assert (Z : hold s1 (sh_sim f)).
  { refine (iterations_inv (fun _ => hold s1) _ _ dt n s1 (sh_sim f) _ _ Rn); [|repeat split].
    intros m x x' Hx Ex. cbn [app] in Ex. rewrite app_nil_r in Ex. eapply hold_trans; [exact Hx|]. eapply round_hold; [|exact Ex].
    destruct Hx as (_ & _ & Y & _). rewrite Y. exact M2. }
  destruct Z as (Z1 & Z2 & Z3 & Z4). unfold update_controller. rewrite Z4. change (sm_armed s1) with (sm_armed (set_control_mode s MOTOR_W ANGLE)).
  rewrite M3, A. cbn [negb]. rewrite Z3. change (sm_yawmode s1) with (sm_yawmode (set_control_mode s MOTOR_W ANGLE)). rewrite M2. cbv zeta.
  rewrite Z2. change (sm_mode s1) with (sm_mode (set_control_mode s MOTOR_W ANGLE)). rewrite M1. cbn [with_act sm_act]. rewrite Z1. reflexivity.
Qed.

Lemma pitch_state tmax dt k (s : sim) f : let w := scripted fmt PitchUp tmax dt k s in w = Flying f \/ w = Landed f ->
  exists n, after_iterations w tmax dt k n f /\ sm_mode (sh_sim f) = ACRO /\ sm_yawmode (sh_sim f) = ANGLE /\ sm_armed (sh_sim f) = sm_armed s /\
    rf_thrust (sm_refs (sh_sim f)) = ofZ 15 /\ pitching dt n (rf_ang (sm_refs (sh_sim f))).
Proof.
  intros w E. destruct (indi_made fmt tmax dt k s f E) as (n & Ai & Rn). unfold indi_calls in Rn. rewrite run_app in Rn. cbn [sim_run sim_step] in Rn.
  exists n. split; [exact Ai|].
  destruct (mode_set s ACRO ANGLE) as (M1 & M2 & M3). set (s1 := set_ref_acro _ _ _) in Rn.
  refine (iterations_inv (fun n x => sm_mode x = ACRO /\ sm_yawmode x = ANGLE /\ sm_armed x = sm_armed s /\ rf_thrust (sm_refs x) = ofZ 15 /\
    pitching dt n (rf_ang (sm_refs x))) _ _ dt n s1 (sh_sim f) _ _ Rn).
  - intros m x x' (X1 & X2 & X3 & X4 & X5) Ex. cbn [app] in Ex. rewrite run_app in Ex.
    destruct (sim_run 4 x (round dt)) as [y|] eqn:Ey; [|discriminate].
    destruct (round_hold x y dt X2 Ey) as (Y1 & Y2 & Y3 & Y4).
    destruct (ofZ 2 <? time_at dt m) eqn:Et; cbn [sim_run sim_step] in Ex; injection Ex as <-.
    + cbn [set_ref_acro with_refs sm_mode sm_yawmode sm_armed sm_refs rf_thrust rf_ang].
      split; [congruence|]. split; [congruence|]. split; [congruence|]. split; [reflexivity|]. split; [|reflexivity].
      intros Q. rewrite (Q m (Nat.lt_succ_diag_r m)) in Et. discriminate.
    + rewrite Y1, Y2, Y3, Y4. split; [exact X1|]. split; [exact X2|]. split; [exact X3|]. split; [exact X4|]. destruct X5 as [P1 P2]. split.
      * intros Q. apply P1. intros i Hi. apply Q. lia.
      * intros (i & Hi & Q). apply P2. exists i. split; [|exact Q].
        destruct (Nat.eq_dec i m) as [->|]; [congruence|lia].
  - cbn. split; [exact M1|]. split; [exact M2|]. split; [exact M3|]. split; [reflexivity|]. split; [reflexivity|]. intros (i & Hi & _). lia.
Qed.
Lemma pitch_asks tmax dt k (s : sim) f : sm_armed s = true -> let w := scripted fmt PitchUp tmax dt k s in w = Flying f \/ w = Landed f ->
  exists n, after_iterations w tmax dt k n f /\ let c := sm_ctl (update_controller 4 (sh_sim f) dt) in
    get_desired_thrust c = ofZ 15 /\ pitching dt n (get_desired_angular_velocity c).
Proof.
  intros A w E. destruct (pitch_state tmax dt k s f E) as (n & Ai & M & Y & Ar & Th & P). exists n. split; [exact Ai|].
  unfold update_controller. rewrite Ar, A, Y, M. cbn. split; [exact Th|exact P].
Qed.

Lemma aiming_step max curve p0 dt n p : aiming max curve p0 dt n p ->
  aiming max curve p0 dt (Datatypes.S n) (if time_at dt n <? max then curve (time_at dt n) else p).
Proof.
  intros [A B]. destruct (time_at dt n <? max) eqn:E; split.
  - intros Q. rewrite (Q n (Nat.lt_succ_diag_r n)) in E. discriminate.
  - intros i Hi Ei Q. destruct (Nat.eq_dec i n) as [->|]; [reflexivity|]. exfalso. rewrite (Q n) in E by lia. discriminate.
  - intros Q. apply A. intros i Hi. apply Q. lia.
  - intros i Hi Ei Q. destruct (Nat.eq_dec i n) as [->|]; [congruence|]. apply B; [lia|exact Ei|]. intros j Hj. apply Q. lia.
Qed.
Lemma trajectory_aims duration curve wps speed tmax dt k (s : sim) f :
  let w := scripted fmt (AlongTrajectory (timed_maker duration curve) wps speed) tmax dt k s in w = Flying f \/ w = Landed f ->
  let p0 := s_pos (sim_state s) in let r := sm_refs (sh_sim f) in
  exists n, after_iterations w tmax dt k n f /\ sm_mode (sh_sim f) = TRAJECTORY /\ sm_armed (sh_sim f) = sm_armed s /\
    rf_yaw r = vz (quat_to_euler (s_ori (sim_state s))) /\
    aiming (duration p0 wps speed) (curve p0 wps speed) (mkPt p0 (s_vel (sim_state s)) (s_linacc (sim_state s))) dt n (mkPt (rf_pos r) (rf_vel r) (rf_acc r)).
Proof.
  intros w E p0 r. destruct (trajectory_made fmt duration curve wps speed tmax dt k s f E) as (n & Ai & Rn). cbv zeta in Rn. fold p0 in Rn.
  unfold trajectory_calls in Rn. exists n. split; [exact Ai|]. unfold r. clear r E Ai w.
  rewrite app_assoc, run_app in Rn. cbn [sim_run sim_step aim app] in Rn.
  destruct (mode_set s TRAJECTORY ANGLE) as (M1 & M2 & M3). set (s1 := set_ref_yaw_angle _ _) in Rn.
  fold (here s). change (vz (quat_to_euler (s_ori (sim_state s)))) with (yaw_now s). set (mx := duration p0 wps speed) in *. set (cv := curve p0 wps speed) in *.
  change (mkPt p0 (s_vel (sim_state s)) (s_linacc (sim_state s))) with (here s).
  assert (Z : (sm_mode (sh_sim f) = TRAJECTORY /\ sm_yawmode (sh_sim f) = ANGLE /\ sm_armed (sh_sim f) = sm_armed s /\ rf_yaw (sm_refs (sh_sim f)) = yaw_now s /\
    aiming mx cv (here s) dt n (mkPt (rf_pos (sm_refs (sh_sim f))) (rf_vel (sm_refs (sh_sim f))) (rf_acc (sm_refs (sh_sim f)))))).
  { refine (iterations_inv (fun n x => sm_mode x = TRAJECTORY /\ sm_yawmode x = ANGLE /\ sm_armed x = sm_armed s /\ rf_yaw (sm_refs x) = yaw_now s /\
      aiming mx cv (here s) dt n (mkPt (rf_pos (sm_refs x)) (rf_vel (sm_refs x)) (rf_acc (sm_refs x)))) _ _ dt n s1 (sh_sim f) _ _ Rn).
    - intros m x x' (X1 & X2 & X3 & X4 & X5) Ex. rewrite app_nil_r, run_app in Ex. apply aiming_step in X5.
      destruct (time_at dt m <? mx) eqn:Et; cbn [aim sim_run sim_step] in Ex.
      + set (y := set_ref_yaw_angle _ _) in Ex. destruct (round_hold y x' dt X2 Ex) as (Y1 & Y2 & Y3 & Y4).
        rewrite Y1, Y2, Y3, Y4. split; [exact X1|]. split; [exact X2|]. split; [exact X3|]. split; [reflexivity|].
        cbn. destruct (cv (time_at dt m)); exact X5.
      + destruct (round_hold x x' dt X2 Ex) as (Y1 & Y2 & Y3 & Y4). rewrite Y1, Y2, Y3, Y4.
        split; [exact X1|]. split; [exact X2|]. split; [exact X3|]. split; [exact X4|exact X5].
    - cbn. split; [exact M1|]. split; [exact M2|]. split; [exact M3|]. split; [reflexivity|]. split; [reflexivity|]. intros i Hi. lia. }
  destruct Z as (Z1 & _ & Z3 & Z4 & Z5). split; [exact Z1|]. split; [exact Z3|]. split; [exact Z4|exact Z5].
Qed.
End Any.

(** ** Exact arithmetic *)
Local Open Scope R_scope.
Lemma time_at_val (dt : R) n : time_at dt n = INR n * dt.
Proof.
  induction n as [|n IH]; [cbn; unR; lra|]. change (time_at dt n + dt = INR (S n) * dt). rewrite S_INR, IH. ring.
Qed.
Section Real.
Context {G H : Gen R}.
Notation sim := (Sim R G H).

Lemma flyable_motors (s : sim) w : List.length w = 4%nat -> flyable s -> flyable (set_ref_motors s w).
Proof. intros L [[A B C] M]. split; [split; [exact A|exact L|exact C]|exact M]. Qed.
Lemma flyable_scripted fmt v tmax dt k (s : sim) : flyable s -> 0 < dt <= 2147483647 / 100 ->
  exists n f (s1 : sim), after_iterations (scripted fmt v tmax dt k s) tmax dt k n f /\ flyable (sh_sim f) /\ flyable s1 /\
  exists more, log_file fmt (first_log v s1 ++ more) = Some (sh_log f) /\ Forall (fun e : R * sim => flyable (snd e)) more /\
    map fst more = map (time_at dt) (seq 0 n).
Proof.
  intros W D. apply scripted_good; [exact (flyable_updates dt D)|exact flyable_cfg|exact flyable_same|exact flyable_motors|exact W].
Qed.
Lemma scripted_lands fmt v sp ops (s : sim) tmax dt : plain_printer (T := R) fmt -> fitting_params 4 sp -> Forall (fits (G := G) (H := H) 4) ops ->
  sim_after 4 sp ops = Some s -> four_rotors s -> 0 < dt <= 2147483647 / 100 ->
  (forall k, sound (scripted fmt v tmax dt k s)) /\
  exists k f n, scripted fmt v tmax dt k s = Landed f /\ tmax <= sh_t f /\ sh_t f = INR n * dt /\ (n = 0%nat \/ INR (n - 1) * dt < tmax) /\
    complete_log (rows_before v + n) (sh_log f).
Proof.
  intros Pl P F E M D. pose proof (run_flyable sp ops s P F E (proj1 (proj2 M))) as Fl. split.
  - intros k. destruct (flyable_scripted fmt v tmax dt k s Fl D) as (n & f & s1 & ([[-> _]|[-> _]] & _) & _); exact I.
  - assert (N : exists m, tmax <= INR m * dt).
    { destruct (archimed (Rabs tmax / dt)) as [A _]. exists (Z.to_nat (up (Rabs tmax / dt))).
      assert (Q : 0 <= Rabs tmax / dt).
      { apply Rmult_le_pos; [apply Rabs_pos|]. apply Rlt_le, Rinv_0_lt_compat. lra. }
      rewrite INR_IZR_INZ, Z2Nat.id by (apply le_IZR; lra).
      apply Rle_trans with (Rabs tmax); [apply Rle_abs|].
      apply Rle_trans with (Rabs tmax / dt * dt); [right; field; lra|apply Rmult_le_compat_r; lra]. }
    destruct N as [m Hm].
    destruct (flyable_scripted fmt v tmax dt (S m) s Fl D) as (n & f & s1 & (C & Tm & Be) & _ & F1 & more & Lg & Fm & Ms).
    exists (S m), f, n. destruct C as [[C Em]|[C [Le En]]].
    + exfalso. subst n. specialize (Be m (Nat.lt_succ_diag_r m)). rewrite time_at_val in Be. unR. apply Rltb_true in Be. lra.
    + rewrite time_at_val in *. unR. apply Rltb_false in En. split; [exact C|]. split; [rewrite Tm; exact En|]. split; [exact Tm|].
      split.
      { destruct n as [|n]; [left; reflexivity|right]. specialize (Be n (Nat.lt_succ_diag_r n)). rewrite time_at_val in Be. apply Rltb_true in Be.
        cbn [Nat.sub]. rewrite Nat.sub_0_r. exact Be. }
      assert (Lo : Forall loggable (first_log v s1 ++ more)).
      { apply Forall_app. split.
        - destruct v; cbn; try constructor; try constructor; eapply flyable_loggable; eassumption.
        - eapply Forall_impl; [|exact Fm]. intros [t2 s2] W2. eapply flyable_loggable; eassumption. }
      destruct (log_file_lines fmt Pl _ Lo) as (hd & tx & file & A & B & C2 & _ & D2).
      rewrite Lg in A. injection A as <-. exists hd, tx. split; [exact B|]. split; [|exact D2].
      apply f2_length in C2. rewrite C2, app_length. replace (List.length more) with n.
      { destruct v; reflexivity. }
      rewrite <- (map_length fst more), Ms, map_length, seq_length. reflexivity.
Qed.

Lemma indi_flight_calls dt n : Forall (flight_call (G := G) (H := H)) (indi_calls dt n).
Proof.
  unfold indi_calls. constructor; [exact I|]. constructor; [exact I|].
  match goal with |- Forall _ (iterations _ ?a _ _ _) => assert (Ha : forall t, Forall (flight_call (G := G) (H := H)) (a t)); [|set (b := a) in *; clearbody b] end.
  { intros t. destruct (ltb (ofZ 2) t); [constructor; [exact I|constructor]|constructor]. }
  generalize (zero : R). induction n as [|n IH]; intros t; [constructor|].
  cbn [iterations app]. constructor; [exact I|]. constructor; [exact I|]. constructor; [exact I|]. constructor; [exact I|].
  apply Forall_app. split; [apply Ha|apply IH].
Qed.
(** On the vehicle the programs build, every control update of the pitching
    flight commands rotor speeds that produce exactly 15 N. *)
Lemma pitch_delivers fmt p c (s : sim) tmax dt k f : sensible c -> effective_rotors c -> get_simulator p c = Some s -> 0 < dt ->
  let w := scripted fmt PitchUp tmax dt k s in w = Flying f \/ w = Landed f ->
  let s1 := update_controller 4 (sh_sim f) dt in
  get_force_by_motors (d_model (sm_dyn s1)) (sm_act s1) = Some (mkV 0 0 15) /\
  exists n, after_iterations w tmax dt k n f /\
    get_desired_angular_velocity (sm_ctl s1) = mkV 0 (if Rle_dec (INR (n - 1) * dt) 2 then 1/10 else 0) 0.
Proof.
  intros Sc Ef K Dp w E s1. destruct (started _ _ _ K) as (A & _).
  destruct (indi_made fmt tmax dt k s f E) as (n & An & Rn).
  destruct (pitch_state fmt tmax dt k s f E) as (n0 & _ & M & Y & Ar & Th & _).
  destruct (delivered p c (indi_calls dt n) s (sh_sim f) dt Sc Ef K (indi_flight_calls dt n) Rn) as (_ & X & _).
  { rewrite Ar. exact A. } { rewrite M. discriminate. }
  destruct (pitch_asks fmt tmax dt k s f A E) as (m & Am & Q1 & Q2). fold s1 in Q1, Q2. split.
  - fold s1 in X. rewrite X, Q1. reflexivity.
  - exists m. split; [exact Am|]. destruct Q2 as [Q2 Q3].
    destruct (Rle_dec (INR (m - 1) * dt) 2) as [Hm|Hm].
    + rewrite Q2.
      * unR. unfold lit. unR. reflexivity.
      * intros i Hi. rewrite time_at_val. unR. apply Rltb_false. eapply Rle_trans; [|exact Hm].
        apply Rmult_le_compat_r; [lra|]. apply le_INR. lia.
    + apply Q3. destruct m as [|m]; [exfalso; apply Hm; cbn; lra|]. exists m. split; [lia|]. rewrite time_at_val. unR. apply Rltb_true.
      cbn [Nat.sub] in Hm. rewrite Nat.sub_0_r in Hm. lra.
Qed.
End Real.
