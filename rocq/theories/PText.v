(** Lemmas on the text output. *)

From Coq Require Import ZArith List Bool String Ascii DecimalString Lia.
From Verif Require Import Scalar LinAlg MUtils MModel MDynamics MPid MControl MCtlRun MImu MSim MText SpecText.
Import ListNotations.
Local Open Scope string_scope.

(** Strings. *)
Lemma app_nil (s : string) : s ++ "" = s.
Proof. induction s; cbn; congruence. Qed.
Lemma app_as (a b c : string) : (a ++ b) ++ c = a ++ (b ++ c).
Proof. induction a; cbn; congruence. Qed.
Fixpoint glue (l : list string) : string := match l with [] => "" | x :: r => x ++ glue r end.
Lemma put_glue l : forall os, put os l = os ++ glue l.
Proof.
  induction l as [|x r IH]; intro os; cbn [put fold_left glue].
  - symmetry; apply app_nil.
  - unfold put in *. rewrite IH, app_as. reflexivity.
Qed.
Lemma glue_app a b : glue (a ++ b)%list = glue a ++ glue b.
Proof. induction a; cbn; [reflexivity|]. rewrite IHa, app_as; reflexivity. Qed.

(** Every item followed by a comma. *)
Definition commas (l : list string) : string := glue (map (fun f => f ++ ",") l).
Lemma commas_app a b : commas (a ++ b)%list = commas a ++ commas b.
Proof. unfold commas; rewrite map_app; apply glue_app. Qed.
Lemma commas_cons x r : commas (x :: r) = x ++ String "," (commas r).
Proof. unfold commas; cbn. rewrite app_as. reflexivity. Qed.

Lemma pieces_sep c a s : free_of c a -> pieces c (a ++ String c s) = a :: pieces c s.
Proof.
  induction a as [|x a IH]; cbn; intro F.
  - rewrite Ascii.eqb_refl; reflexivity.
  - destruct F as [Fx Fa]. destruct (Ascii.eqb_spec x c) as [E|_]; [contradiction|].
    rewrite (IH Fa). reflexivity.
Qed.
Lemma pieces_free c a : free_of c a -> pieces c a = [a].
Proof.
  induction a as [|x a IH]; cbn; intro F; [reflexivity|].
  destruct F as [Fx Fa]. destruct (Ascii.eqb_spec x c) as [E|_]; [contradiction|].
  rewrite (IH Fa). reflexivity.
Qed.
Lemma fields_commas l s : Forall (free_of comma) l -> fields (commas l ++ s) = (l ++ fields s)%list.
Proof.
  induction 1 as [|x r Fx Fr IH]; [reflexivity|].
  rewrite commas_cons, app_as.
  change (pieces comma (x ++ String comma (commas r ++ s)) = (x :: (r ++ fields s))%list).
  rewrite (pieces_sep comma x (commas r ++ s) Fx). f_equal. exact IH.
Qed.
Lemma free_app c a b : free_of c a -> free_of c b -> free_of c (a ++ b).
Proof. induction a; cbn; [auto|]. intros [A B] C. split; [exact A|exact (IHa B C)]. Qed.
Lemma free_commas c l : c <> ","%char -> Forall (free_of c) l -> free_of c (commas l).
Proof.
  intro N. induction 1 as [|x r Fx Fr IH]; [exact I|].
  rewrite commas_cons. apply free_app; [exact Fx|]. cbn. split; [congruence|exact IH].
Qed.

Section Generic.
Context {T : Type} {O : Ops T}.
Variable fmt : T -> string.
Hypothesis plain : plain_printer fmt.

Lemma plain_all c l : c = comma \/ c = line_end -> Forall (free_of c) (map fmt l).
Proof.
  intro C. induction l as [|x r IH]; constructor; [|exact IH].
  destruct (plain x) as [A B]; destruct C as [->| ->]; assumption.
Qed.

Lemma kin_text os st : put (out_kinematics fmt os st) [","] = os ++ commas (map fmt
  (xyz (s_pos st) ++ angles (s_ori st) ++ xyz (s_vel st) ++ xyz (s_angvel st) ++ xyz (s_linacc st) ++ xyz (s_angacc st))).
Proof.
  unfold out_kinematics. rewrite !put_glue, app_as. f_equal.
  cbn [List.app map commas glue xyz angles]. unfold commas; cbn [map glue]. rewrite !app_as. reflexivity.
Qed.
Lemma dyn_text os st : put (out_dynamics fmt os st) [","] = os ++ commas (map fmt (xyz (s_force st) ++ xyz (s_torque st))).
Proof.
  unfold out_dynamics. rewrite !put_glue, app_as. f_equal.
  unfold commas; cbn [List.app map glue xyz]. rewrite !app_as. reflexivity.
Qed.
Lemma mvel_text l : forall os, fold_left (fun o w => put o [fmt w; ","]) l os = os ++ commas (map fmt l).
Proof.
  induction l as [|x r IH]; intro os; cbn [fold_left map].
  - symmetry; apply app_nil.
  - rewrite IH, put_glue, commas_cons, app_as. f_equal. cbn [glue]. rewrite app_as. reflexivity.
Qed.
Lemma macc_text l : forall i os, l <> [] -> put (out_sep (fun _ x => [fmt x]) "," i l os) [","] = os ++ commas (map fmt l).
Proof.
  induction l as [|x r IH]; intros i os N; [congruence|].
  destruct r as [|y r].
  - cbn [out_sep map]. rewrite !put_glue, commas_cons, app_as. cbn [glue]. rewrite app_nil. reflexivity.
  - change (out_sep (fun _ x => [fmt x]) "," i (x :: y :: r) os)
      with (out_sep (fun _ x => [fmt x]) "," (S i) (y :: r) (put (put os [fmt x]) [","])).
    rewrite IH by congruence. cbn [map]. rewrite (commas_cons (fmt x)), !put_glue, !app_as.
    cbn [glue]. rewrite app_nil. reflexivity.
Qed.
Lemma state_text os st : s_macc st <> [] -> put (out_state fmt os st) [","] = os ++ commas (map fmt (state_values st)).
Proof.
  intro N. unfold out_state, out_actuators. rewrite macc_text by exact N.
  rewrite mvel_text, dyn_text, kin_text, !app_as, <- !commas_app, <- !map_app.
  unfold state_values. rewrite <- !app_assoc. reflexivity.
Qed.
Lemma put_comma_inj a b : put a [","] = put b [","] -> a = b.
Proof.
  rewrite !put_glue; cbn [glue]. revert b. induction a as [|x a IH]; intros [|y b] E; cbn in *.
  - reflexivity.
  - destruct b; discriminate.
  - destruct a; discriminate.
  - injection E as -> E. f_equal. exact (IH b E).
Qed.
Lemma fields_close s l : Forall (free_of comma) l -> l <> [] -> put s [","] = commas l -> fields s = l.
Proof.
  intros F N E. destruct (exists_last N) as [a [x ->]].
  assert (X : s = commas a ++ x).
  { apply put_comma_inj. rewrite E, commas_app, put_glue, app_as, commas_cons. reflexivity. }
  apply Forall_app in F as [Fa Fx]. rewrite X, (fields_commas _ _ Fa). f_equal.
  apply pieces_free. exact (Forall_inv Fx).
Qed.
Lemma state_values_nonempty st : state_values st <> [].
Proof. unfold state_values; cbn. congruence. Qed.

Lemma state_fields st : s_macc st <> [] -> fields (out_state fmt "" st) = map fmt (state_values st).
Proof.
  intro N. apply fields_close.
  - apply plain_all; left; reflexivity.
  - unfold state_values; cbn; congruence.
  - exact (state_text "" st N).
Qed.
Lemma odom_text os o : put (out_odom fmt os o) [","] = os ++ commas (map fmt (odom_values o)).
Proof.
  unfold out_odom. rewrite !put_glue, app_as. f_equal.
  unfold commas, odom_values; cbn [List.app map glue xyz angles]. rewrite !app_as. reflexivity.
Qed.
Lemma odom_fields o : fields (out_odom fmt "" o) = map fmt (odom_values o).
Proof.
  apply fields_close.
  - apply plain_all; left; reflexivity.
  - unfold odom_values; cbn; congruence.
  - exact (odom_text "" o).
Qed.
Lemma out_state_app os st : s_macc st <> [] -> out_state fmt os st = os ++ out_state fmt "" st.
Proof.
  intro N. apply put_comma_inj. rewrite (state_text os st N).
  rewrite (put_glue [","] (os ++ out_state fmt "" st)), app_as, <- put_glue, (state_text "" st N). reflexivity.
Qed.
Lemma out_odom_app os o : out_odom fmt os o = os ++ out_odom fmt "" o.
Proof. unfold out_odom. rewrite !put_glue. reflexivity. Qed.

(** The row. *)
Lemma add_double_text os x : add_double fmt os x = os ++ commas (map fmt (numbers_of [x])).
Proof.
  unfold add_double, isnan; cbn [numbers_of]. destruct (eqb x x); cbn [negb map].
  - rewrite put_glue, commas_cons. reflexivity.
  - symmetry; apply app_nil.
Qed.
Lemma add_row_text l : forall os, add_vector_row fmt os l = os ++ commas (map fmt (numbers_of l)).
Proof.
  induction l as [|x r IH]; intro os; cbn [add_vector_row numbers_of].
  - symmetry; apply app_nil.
  - unfold isnan. destruct (eqb x x); cbn [negb map].
    + rewrite IH, put_glue, commas_cons, app_as. f_equal. cbn [glue]. rewrite app_as; reflexivity.
    + symmetry; apply app_nil.
Qed.

Definition row_values {G H : Gen T} (time : T) (s : Sim T G H) (c : Cfg T) : list T :=
  (numbers_of [time] ++ state_values (sim_state s) ++ numbers_of (xyz (rf_pos (sm_refs s))) ++
  numbers_of [rf_yaw (sm_refs s)] ++ numbers_of (xyz (rf_vel (sm_refs s))) ++
  numbers_of (xyz (get_desired_angular_velocity (sm_ctl s))) ++ numbers_of (xyz (rf_acc (sm_refs s))) ++
  numbers_of (xyz (ps_out (pid_s (in_pid (ct_indi (sm_ctl s)))))) ++
  numbers_of (xyz (vadd (qrot (s_ori (sim_state s)) (in_thrust (ct_indi (sm_ctl s))))
                        (vscaler (p_grav (cf_params c)) (p_mass (cf_params c))))) ++
  numbers_of (xyz (in_torque (ct_indi (sm_ctl s)))) ++ numbers_of (sm_act s) ++ odom_values (sm_odom s))%list.

Lemma save_text {G H : Gen T} os time (s : Sim T G H) c :
  mo_cfg (d_model (sm_dyn s)) = Some c -> s_macc (sim_state s) <> [] ->
  exists row, save fmt os time s = Some (os ++ row ++ newline) /\
    fields row = map fmt (row_values time s c) /\ free_of line_end row.
Proof.
  intros C N.
  exists (commas (map fmt (numbers_of [time] ++ state_values (sim_state s) ++ numbers_of (xyz (rf_pos (sm_refs s))) ++
    numbers_of [rf_yaw (sm_refs s)] ++ numbers_of (xyz (rf_vel (sm_refs s))) ++
    numbers_of (xyz (get_desired_angular_velocity (sm_ctl s))) ++ numbers_of (xyz (rf_acc (sm_refs s))) ++
    numbers_of (xyz (ps_out (pid_s (in_pid (ct_indi (sm_ctl s)))))) ++
    numbers_of (xyz (vadd (qrot (s_ori (sim_state s)) (in_thrust (ct_indi (sm_ctl s))))
                        (vscaler (p_grav (cf_params c)) (p_mass (cf_params c))))) ++
    numbers_of (xyz (in_torque (ct_indi (sm_ctl s)))) ++ numbers_of (sm_act s))) ++ out_odom fmt "" (sm_odom s)).
  split; [|split].
  - unfold save; rewrite C; cbn [option_map]. f_equal.
    rewrite !add_row_text, !add_double_text. unfold add_string.
    rewrite (put_glue [newline]). cbn [glue]. rewrite app_nil.
    rewrite (put_glue [out_odom fmt "" (sm_odom s)]). cbn [glue]. rewrite app_nil.
    rewrite (put_glue [","]), (put_glue [out_state fmt "" (sim_state s)]). cbn [glue]. rewrite app_nil, !app_as.
    rewrite ?app_as.
    rewrite !map_app, !commas_app, !app_as. f_equal. f_equal.
    rewrite <- (app_as (out_state fmt "" (sim_state s))).
    replace (out_state fmt "" (sim_state s) ++ ",") with (commas (map fmt (state_values (sim_state s)))).
    + reflexivity.
    + pose proof (state_text "" _ N) as X. rewrite put_glue in X. symmetry; exact X.
  - rewrite fields_commas by (apply plain_all; left; reflexivity).
    rewrite odom_fields, <- map_app. f_equal. unfold row_values. rewrite <- !app_assoc. reflexivity.
  - assert (LF : line_end <> ","%char) by (intro E; discriminate E).
    apply free_app.
    + apply free_commas; [exact LF|]. apply plain_all; right; reflexivity.
    + assert (X : free_of line_end (put (out_odom fmt "" (sm_odom s)) [","])).
      { rewrite odom_text. apply free_commas; [exact LF|]. apply plain_all; right; reflexivity. }
      rewrite put_glue in X. revert X. generalize (out_odom fmt "" (sm_odom s)).
      induction s0 as [|a r IH]; cbn; [trivial|]. intros [A B]; split; [exact A|exact (IH B)].
Qed.
End Generic.

(** ** The log file *)
Section Log.
Context {T : Type} {O : Ops T} {G H : Gen T}.
Variable fmt : T -> string.
Hypothesis plain : plain_printer fmt.

Lemma numbers_all l : Forall number l -> numbers_of l = l.
Proof. induction 1 as [|x r N F IH]; cbn; [reflexivity|]. unfold number in N. rewrite N, IH. reflexivity. Qed.
Lemma numbers_short l : List.length (numbers_of l) <= List.length l.
Proof. induction l as [|x r IH]; cbn; [lia|]. destruct (eqb x x); cbn; lia. Qed.
Lemma numbers_full l : List.length (numbers_of l) = List.length l -> Forall number l.
Proof.
  induction l as [|x r IH]; cbn; [constructor|]. unfold number.
  destruct (eqb x x) eqn:E; cbn; [|discriminate]. intro L; constructor; [exact E|]. apply IH; lia.
Qed.
Lemma snd_combine4 a b c d (l : list T) : List.length l = 4 -> map snd (combine [a; b; c; d : string] l) = l.
Proof.
  destruct l as [|x1 [|x2 [|x3 [|x4 [|]]]]]; intro E; try discriminate E. reflexivity.
Qed.
Lemma fst_combine4 a b c d (l : list T) : List.length l = 4 -> map fst (combine [a; b; c; d : string] l) = [a; b; c; d].
Proof.
  destruct l as [|x1 [|x2 [|x3 [|x4 [|]]]]]; intro E; try discriminate E. reflexivity.
Qed.
Lemma snd_named a b c (v : V3 T) : map snd (named3 a b c v) = xyz v.
Proof. reflexivity. Qed.
Lemma state_columns_values (s : Sim T G H) : four_rotors s -> map snd (state_columns s) = state_values (sim_state s).
Proof.
  intros [A [B _]]. unfold state_columns, state_values, angles. rewrite !map_app, !snd_named.
  rewrite (snd_combine4 _ _ _ _ _ A), (snd_combine4 _ _ _ _ _ B). reflexivity.
Qed.
Lemma ref_columns_values (s : Sim T G H) m g : four_rotors s -> map snd (ref_columns s m g) =
  (xyz (rf_pos (sm_refs s)) ++ [rf_yaw (sm_refs s)] ++ xyz (rf_vel (sm_refs s)) ++
   xyz (get_desired_angular_velocity (sm_ctl s)) ++ xyz (rf_acc (sm_refs s)) ++
   xyz (ps_out (pid_s (in_pid (ct_indi (sm_ctl s))))) ++
   xyz (vadd (qrot (s_ori (sim_state s)) (in_thrust (ct_indi (sm_ctl s)))) (vscaler g m)) ++
   xyz (in_torque (ct_indi (sm_ctl s))) ++ sm_act s)%list.
Proof.
  intros [_ [_ C]]. unfold ref_columns. rewrite !map_app, !snd_named, (snd_combine4 _ _ _ _ _ C). reflexivity.
Qed.
Lemma odom_columns_values (s : Sim T G H) : map snd (odom_columns s) = odom_values (sm_odom s).
Proof. unfold odom_columns, odom_values, angles. rewrite !map_app, !snd_named. reflexivity. Qed.
Lemma log_length time (s : Sim T G H) m g : four_rotors s -> List.length (log_columns time s m g) = 74.
Proof.
  intro F. rewrite <- (map_length snd). unfold log_columns. cbn [map List.length]. rewrite !map_app.
  rewrite (state_columns_values s F), (ref_columns_values s m g F), odom_columns_values.
  destruct F as [A [B C]]. unfold state_values, odom_values, angles. rewrite !app_length, A, B, C. reflexivity.
Qed.

(** The names in the header are those of the columns. *)
Definition header_line : string := substring 0 (String.length log_header - 1) log_header.
Lemma header_split : log_header = header_line ++ newline.
Proof. vm_compute. reflexivity. Qed.
Lemma header_names time (s : Sim T G H) m g : four_rotors s -> fields header_line = map fst (log_columns time s m g).
Proof.
  intros [A [B C]].
  unfold log_columns, state_columns, ref_columns, odom_columns. cbn [map]. rewrite !map_app.
  rewrite !(fst_combine4 _ _ _ _ _ A), !(fst_combine4 _ _ _ _ _ B), !(fst_combine4 _ _ _ _ _ C).
  cbn [named3 map fst List.app]. vm_compute. reflexivity.
Qed.
Lemma header_one_line : free_of line_end header_line.
Proof. vm_compute. repeat split; intro E; discriminate E. Qed.

Lemma row_values_columns time (s : Sim T G H) c :
  four_rotors s -> no_nan time s (p_mass (cf_params c)) (p_grav (cf_params c)) ->
  row_values time s c = map snd (log_columns time s (p_mass (cf_params c)) (p_grav (cf_params c))).
Proof.
  intros F [NT NR]. rewrite <- Forall_map in NR.
  rewrite (ref_columns_values s _ _ F) in NR.
  apply Forall_app in NR as [N1 NR]. apply Forall_app in NR as [N2 NR]. apply Forall_app in NR as [N3 NR].
  apply Forall_app in NR as [N4 NR]. apply Forall_app in NR as [N5 NR]. apply Forall_app in NR as [N6 NR].
  apply Forall_app in NR as [N7 NR]. apply Forall_app in NR as [N8 N9].
  unfold row_values. rewrite (numbers_all [time]) by (constructor; [exact NT|constructor]).
  rewrite !numbers_all by assumption.
  unfold log_columns. cbn [map snd]. rewrite !map_app, (state_columns_values s F), (ref_columns_values s _ _ F), odom_columns_values.
  rewrite <- !app_assoc. reflexivity.
Qed.
Lemma row_values_short time (s : Sim T G H) c : four_rotors s ->
  (List.length (row_values time s c) = 74 <-> no_nan time s (p_mass (cf_params c)) (p_grav (cf_params c))) /\
  List.length (row_values time s c) <= 74.
Proof.
  intro F. split; [split|].
  - intro L. unfold no_nan. rewrite <- (Forall_map snd number), (ref_columns_values s _ _ F).
    revert L. unfold row_values. rewrite !app_length.
    destruct F as [A [B C]].
    assert (SV : List.length (state_values (sim_state s)) = 32)
      by (unfold state_values, angles; rewrite !app_length, A, B; reflexivity).
    rewrite SV. change (List.length (odom_values (sm_odom s))) with 15.
    pose proof (numbers_short [time]) as Q0. pose proof (numbers_short (xyz (rf_pos (sm_refs s)))) as Q1.
    pose proof (numbers_short [rf_yaw (sm_refs s)]) as Q2. pose proof (numbers_short (xyz (rf_vel (sm_refs s)))) as Q3.
    pose proof (numbers_short (xyz (get_desired_angular_velocity (sm_ctl s)))) as Q4.
    pose proof (numbers_short (xyz (rf_acc (sm_refs s)))) as Q5.
    pose proof (numbers_short (xyz (ps_out (pid_s (in_pid (ct_indi (sm_ctl s))))))) as Q6.
    pose proof (numbers_short (xyz (vadd (qrot (s_ori (sim_state s)) (in_thrust (ct_indi (sm_ctl s))))
                        (vscaler (p_grav (cf_params c)) (p_mass (cf_params c)))))) as Q7.
    pose proof (numbers_short (xyz (in_torque (ct_indi (sm_ctl s))))) as Q8.
    pose proof (numbers_short (sm_act s)) as Q9.
    cbn [List.length xyz] in Q0, Q1, Q2, Q3, Q4, Q5, Q6, Q7, Q8. rewrite C in Q9. intro L.
    split.
    + assert (X : Forall number [time]) by (apply numbers_full; cbn [List.length] in *; lia). exact (Forall_inv X).
    + repeat (apply Forall_app; split); apply numbers_full; cbn [List.length xyz]; rewrite ?C; unfold xyz in *; lia.
  - intro N. rewrite (row_values_columns time s c F N), map_length. apply log_length; exact F.
  - unfold row_values. rewrite !app_length.
    destruct F as [A [B C]].
    assert (SV : List.length (state_values (sim_state s)) = 32)
      by (unfold state_values, angles; rewrite !app_length, A, B; reflexivity).
    rewrite SV. change (List.length (odom_values (sm_odom s))) with 15.
    pose proof (numbers_short [time]) as Q0. pose proof (numbers_short (xyz (rf_pos (sm_refs s)))) as Q1.
    pose proof (numbers_short [rf_yaw (sm_refs s)]) as Q2. pose proof (numbers_short (xyz (rf_vel (sm_refs s)))) as Q3.
    pose proof (numbers_short (xyz (get_desired_angular_velocity (sm_ctl s)))) as Q4.
    pose proof (numbers_short (xyz (rf_acc (sm_refs s)))) as Q5.
    pose proof (numbers_short (xyz (ps_out (pid_s (in_pid (ct_indi (sm_ctl s))))))) as Q6.
    pose proof (numbers_short (xyz (vadd (qrot (s_ori (sim_state s)) (in_thrust (ct_indi (sm_ctl s))))
                        (vscaler (p_grav (cf_params c)) (p_mass (cf_params c)))))) as Q7.
    pose proof (numbers_short (xyz (in_torque (ct_indi (sm_ctl s))))) as Q8.
    pose proof (numbers_short (sm_act s)) as Q9.
    cbn [List.length xyz] in Q0, Q1, Q2, Q3, Q4, Q5, Q6, Q7, Q8. rewrite C in Q9. unfold xyz in *. lia.
Qed.

Lemma params_cfg (s : Sim T G H) p : get_params (d_model (sm_dyn s)) = Some p ->
  exists c, mo_cfg (d_model (sm_dyn s)) = Some c /\ cf_params c = p.
Proof.
  unfold get_params. destruct (mo_cfg (d_model (sm_dyn s))) as [c|]; cbn; [|discriminate].
  intro E; injection E as <-. exists c; split; reflexivity.
Qed.
Lemma macc_some (s : Sim T G H) : four_rotors s -> s_macc (sim_state s) <> [].
Proof. intros [_ [B _]] E. rewrite E in B. discriminate B. Qed.

(** One saved row: complete exactly when nothing is NaN. *)
Lemma save_row os time (s : Sim T G H) mass grav : four_rotors s -> vehicle_of s mass grav ->
  exists row, save fmt os time s = Some (os ++ row ++ newline) /\ free_of line_end row /\
    List.length (fields row) <= 74 /\
    (List.length (fields row) = 74 <-> no_nan time s mass grav) /\
    (no_nan time s mass grav -> fields row = map fmt (map snd (log_columns time s mass grav))).
Proof.
  intros F [p [P [<- <-]]]. destruct (params_cfg s p P) as [c [C <-]].
  destruct (save_text fmt plain os time s c C (macc_some s F)) as [row [S [FR LE]]].
  destruct (row_values_short time s c F) as [I LEN].
  exists row. rewrite FR, map_length. split; [exact S|]. split; [exact LE|]. split; [exact LEN|].
  split; [exact I|]. intro N. rewrite (row_values_columns time s c F N). reflexivity.
Qed.

Lemma lines_cons row rest : free_of line_end row -> lines (row ++ newline ++ rest) = row :: lines rest.
Proof. intro F. exact (pieces_sep line_end row rest F). Qed.

Lemma save_all_lines (rows : list (T * Sim T G H)) : forall os, Forall loggable rows ->
  exists texts, save_all fmt os rows = Some (os ++ glue (map (fun r => r ++ newline) texts)) /\
    Forall (free_of line_end) texts /\ Forall2 (row_of fmt) texts rows.
Proof.
  induction rows as [|[t s] r IH]; intros os L.
  - exists []. cbn. rewrite app_nil. split; [reflexivity|]. split; constructor.
  - pose proof (Forall_inv L) as [F [m [g [Vh N]]]]. cbn [fst snd] in *.
    destruct (save_row os t s m g F Vh) as [row [S [LE [_ [_ FR]]]]].
    destruct (IH (os ++ row ++ newline) (Forall_inv_tail L)) as [texts [A [B C]]].
    exists (row :: texts). cbn [save_all]. rewrite S. cbn [bindo]. rewrite A. cbn [map glue]. rewrite !app_as.
    split; [reflexivity|]. split; [constructor; assumption|].
    constructor; [|exact C]. exists m, g. split; [exact Vh|exact (FR N)].
Qed.
Lemma lines_glue texts : Forall (free_of line_end) texts ->
  lines (glue (map (fun r => r ++ newline) texts)) = (texts ++ [""])%list.
Proof.
  induction 1 as [|x r F FR IH]; [reflexivity|]. cbn [map glue]. rewrite app_as.
  rewrite (lines_cons _ _ F), IH. reflexivity.
Qed.
Lemma log_file_lines (rows : list (T * Sim T G H)) : Forall loggable rows ->
  exists header texts file, log_file fmt rows = Some file /\
    lines file = (header :: texts ++ [""])%list /\ Forall2 (row_of fmt) texts rows /\
    (forall t (s : Sim T G H) m g, four_rotors s -> fields header = map fst (log_columns t s m g)) /\
    Forall (fun row => List.length (fields row) = 74) (header :: texts).
Proof.
  intro L. destruct (save_all_lines rows log_header L) as [texts [A [B C]]].
  exists header_line, texts, (log_header ++ glue (map (fun r => r ++ newline) texts)).
  split; [exact A|]. split.
  { rewrite header_split, app_as, (lines_cons _ _ header_one_line), (lines_glue texts B). reflexivity. }
  split; [exact C|]. split; [intros; apply header_names; assumption|].
  constructor; [vm_compute; reflexivity|].
  clear A B. revert L. induction C as [|row [t s] texts r X C IH]; intro L; constructor.
  - destruct X as [m [g [_ X]]]. rewrite X, !map_length.
    apply log_length. exact (proj1 (Forall_inv L)).
  - exact (IH (Forall_inv_tail L)).
Qed.
End Log.

(** ** Print helpers *)
Fixpoint ncommas (s : string) : nat :=
  match s with EmptyString => 0 | String a r => (if Ascii.eqb a comma then 1 else 0) + ncommas r end.
Lemma fields_count s : List.length (fields s) = S (ncommas s).
Proof.
  unfold fields. induction s as [|a r IH]; cbn; [reflexivity|].
  destruct (Ascii.eqb a comma); cbn; [congruence|].
  destruct (pieces comma r) eqn:E; cbn in *; lia.
Qed.
Lemma ncommas_app a b : ncommas (a ++ b) = ncommas a + ncommas b.
Proof. induction a; cbn; [reflexivity|]. rewrite IHa. lia. Qed.
Lemma ncommas_free a : free_of comma a -> ncommas a = 0.
Proof.
  induction a as [|x a IH]; cbn; [reflexivity|]. intros [A B].
  destruct (Ascii.eqb_spec x comma); [contradiction|]. exact (IH B).
Qed.
Lemma ncommas_uint u : ncommas (NilEmpty.string_of_uint u) = 0.
Proof. induction u; cbn; assumption || reflexivity. Qed.
Lemma ncommas_nat i : ncommas (show_nat i) = 0.
Proof.
  unfold show_nat, NilZero.string_of_uint.
  destruct (Nat.to_uint i) eqn:E; [reflexivity|rewrite ncommas_uint; reflexivity ..].
Qed.

Section Print.
Context {T : Type} {O : Ops T}.
Variable fmt : T -> string.
Hypothesis plain : plain_printer fmt.
Lemma ncommas_fmt x : ncommas (fmt x) = 0.
Proof. apply ncommas_free, plain. Qed.
Lemma ncommas_sep item l : (forall i x, ncommas (glue (item i x)) = 0) -> forall i os, l <> [] ->
  ncommas (out_sep (T := T) item ", " i l os) = ncommas os + (List.length l - 1).
Proof.
  intro It. induction l as [|x r IH]; intros i os N; [congruence|]. destruct r as [|y r].
  - cbn [out_sep List.length]. rewrite put_glue, ncommas_app, It. lia.
  - change (out_sep item ", " i (x :: y :: r) os) with (out_sep item ", " (S i) (y :: r) (put (put os (item i x)) [", "])).
    rewrite IH by congruence. rewrite !put_glue, !ncommas_app, It. cbn [glue List.length]. cbn. lia.
Qed.
Lemma ncommas_kin os st : ncommas (print_kinematics fmt os st) = ncommas os + 17.
Proof.
  unfold print_kinematics. rewrite put_glue, ncommas_app. f_equal. cbn [glue].
  rewrite !ncommas_app, !ncommas_fmt. reflexivity.
Qed.
Lemma ncommas_dyn os st : ncommas (print_dynamics fmt os st) = ncommas os + 5.
Proof.
  unfold print_dynamics. rewrite put_glue, ncommas_app. f_equal. cbn [glue].
  rewrite !ncommas_app, !ncommas_fmt. reflexivity.
Qed.
Lemma ncommas_act os st : s_mvel st <> [] -> s_macc st <> [] ->
  ncommas (print_actuators fmt os st) = ncommas os + (List.length (s_mvel st) - 1) + (List.length (s_macc st) - 1).
Proof.
  intros A B. unfold print_actuators. rewrite ncommas_sep; [|intros; cbn [glue]; rewrite !ncommas_app, ncommas_fmt, ncommas_nat; reflexivity|exact B].
  rewrite ncommas_sep; [reflexivity|intros; cbn [glue]; rewrite !ncommas_app, ncommas_fmt, ncommas_nat; reflexivity|exact A].
Qed.
Lemma print_state_fields st n : List.length (s_mvel st) = S n -> List.length (s_macc st) = S n ->
  List.length (fields (print_state fmt "" st)) = 18 + 6 + 2 * S n - 3.
Proof.
  intros A B. unfold print_state. rewrite fields_count, ncommas_act, ncommas_dyn, ncommas_kin.
  - rewrite A, B. cbn [ncommas]. lia.
  - destruct (s_mvel st); [discriminate A|congruence].
  - destruct (s_macc st); [discriminate B|congruence].
Qed.

(** "label: value" entries separated by ", ". *)
Definition lab (e : string * T) : string := String " " (entry fmt e).
Lemma fields_comma_space x s : free_of comma x -> fields (x ++ ", " ++ s) = (x :: fields (String " " s))%list.
Proof. intro F. exact (pieces_sep comma x (String " " s) F). Qed.
Lemma free_entry n x : free_of comma n -> free_of comma (entry fmt (n, x)).
Proof.
  intro F. unfold entry; cbn [fst snd]. apply free_app; [exact F|]. apply free_app; [|apply plain].
  cbn. repeat split; intro E; discriminate E.
Qed.
Fixpoint join (l : list string) : string :=
  match l with [] => "" | [x] => x | x :: r => x ++ ", " ++ join r end.
Lemma fields_join x l : free_of comma x -> Forall (free_of comma) l -> fields (join (x :: l)) = (x :: map (String " ") l)%list.
Proof.
  intros F FL. revert x F. induction FL as [|y r Fy Fr IH]; intros x F.
  - apply pieces_free; exact F.
  - change (join (x :: y :: r)) with (x ++ ", " ++ join (y :: r)). rewrite (fields_comma_space _ _ F). f_equal.
    cbn [map]. specialize (IH y Fy).
    unfold fields in *. cbn [pieces]. destruct (Ascii.eqb_spec " "%char comma) as [E|_]; [discriminate E|].
    rewrite IH. reflexivity.
Qed.
Lemma print_odom_fields o : fields (print_odom fmt "" o) =
  labelled fmt (pose_labels (od_pos o) (od_ori o) (od_vel o) (od_angvel o) (od_linacc o)).
Proof.
  transitivity (fields (join (map (entry fmt) (pose_labels (od_pos o) (od_ori o) (od_vel o) (od_angvel o) (od_linacc o))))).
  - f_equal. unfold print_odom, pose_labels, entry. rewrite put_glue. cbn [glue named3 List.app map join fst snd append].
    rewrite ?app_as, ?app_nil. reflexivity.
  - unfold pose_labels; cbn [named3 List.app map labelled]. rewrite fields_join.
    + reflexivity.
    + apply free_entry. cbn. repeat split; intro E; discriminate E.
    + repeat (apply Forall_cons; [apply free_entry; cbn; repeat split; intro E; discriminate E|]). apply Forall_nil.
Qed.
Lemma odom_texts o : fields (out_odom fmt "" o) = map fmt (odom_values o) /\
  fields (print_odom fmt "" o) = labelled fmt (pose_labels (od_pos o) (od_ori o) (od_vel o) (od_angvel o) (od_linacc o)).
Proof. split; [apply odom_fields; exact plain|apply print_odom_fields]. Qed.
End Print.
