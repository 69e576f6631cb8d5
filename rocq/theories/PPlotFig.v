(** The figures drawn from a flight log. *)

From Coq Require Import ZArith NArith List Bool String Ascii Lia Reals Lra.
From Verif Require Import Scalar LinAlg MUtils MModel MDynamics MPid MControl MCtlRun MImu MSim MText MPlot SpecText SpecPlot PBase PText PPlot.
Import ListNotations.
Local Open Scope string_scope.

Definition memb (l : list string) (name : string) : bool := existsb (String.eqb name) l.
Lemma memb_in l name : memb l name = true -> In name l.
Proof. unfold memb. intro E. apply existsb_exists in E as (x & I & Q). apply String.eqb_eq in Q. congruence. Qed.
Lemma memb_out l name : memb l name = false -> ~ In name l.
Proof. intros E I. unfold memb in E. rewrite (proj2 (existsb_exists _ _)) in E; [discriminate E|]. exists name. split; [exact I|apply String.eqb_refl]. Qed.

Lemma f2_length {A B} (P : A -> B -> Prop) l l' : Forall2 P l l' -> List.length l = List.length l'.
Proof. induction 1 as [|x y l l' _ _ IH]; cbn; congruence. Qed.

Section Gen.
Context {T : Type} {O : Ops T} {G H : Gen T}.
Variable fmt : T -> string.
Variable parse : string -> option T.
Variable seen : T -> T.
Hypothesis number : number_printer fmt.
Hypothesis back : reads_back fmt parse seen.
Variable rows : list (T * Sim T G H).

Lemma loggable_writable : Forall loggable rows -> Forall writable rows.
Proof using. clear. apply Forall_impl. intros e [F (m & g & V & _)]. split; [exact F|]. exists m, g. exact V. Qed.

(** A complete row, entry by entry. *)
Lemma full_row (e : T * Sim T G H) l : loggable e -> row_is e l ->
  exists m g, vehicle_of (snd e) m g /\ l = map snd (log_columns (fst e) (snd e) m g) /\ fields header_line = map fst (log_columns (fst e) (snd e) m g).
Proof using.
  clear. intros [F (m & g & (p & P & <- & <-) & N)] (c & C & ->). destruct (params_cfg _ _ P) as (c' & C' & Ep).
  assert (c' = c) by congruence. subst c'. exists (p_mass p), (p_grav p). subst p. split; [exists (cf_params c); auto|].
  split; [apply row_values_columns; assumption|apply header_names; exact F].
Qed.
Lemma in_names name e v : loggable e -> @logged T O G H name e v -> In name (fields header_line).
Proof using.
  clear. intros [F _] (m & g & _ & I). rewrite (header_names (fst e) (snd e) m g F). apply in_map_iff. exists (name, v). split; [reflexivity|exact I].
Qed.
Lemma column_is k name (rs : list (T * Sim T G H)) vals : Forall loggable rs -> Forall2 row_is rs vals ->
  nth_error (fields header_line) k = Some name -> column seen name rs (colk seen k vals).
Proof using.
  clear. intros L E Hk. induction E as [|e l rs vals X Y IH]; [constructor|].
  destruct (full_row e l (Forall_inv L) X) as (m & g & Vh & -> & En). cbn [colk flat_map]. fold (colk seen k vals).
  rewrite En in Hk.
  destruct (nth_error (log_columns (fst e) (snd e) m g) k) as [[n v]|] eqn:Q.
  - pose proof (map_nth_error fst _ _ Q) as Q1. pose proof (map_nth_error snd _ _ Q) as Q2. cbn [fst snd] in *.
    assert (n = name) by congruence. subst n. unfold at_k. rewrite Q2. cbn [List.app]. constructor; [|rewrite <- En in Hk; exact (IH (Forall_inv_tail L))].
    exists v. split; [|reflexivity]. exists m, g. split; [exact Vh|]. exact (nth_error_In _ _ Q).
  - apply nth_error_None in Q. assert (k < List.length (map fst (log_columns (fst e) (snd e) m g)))%nat by (apply nth_error_Some; congruence).
    rewrite map_length in *. lia.
Qed.

(** A dictionary that holds the log. *)
Definition holds (d : Data (T := T)) : Prop :=
  (forall name, In name (fields header_line) -> column seen name rows (col d name)) /\
  (forall name, ~ In name (fields header_line) -> col d name = []).

Lemma read_good : rows <> [] -> Forall loggable rows ->
  exists file d, log_file fmt rows = Some file /\ read_csv parse file = Ret (mkRead None (Some d)) /\ holds d.
Proof using number back.
  intros Nr L. destruct (log_read (G := G) (H := H) fmt parse seen number back rows (loggable_writable L)) as (file & vals & d & A & E & W & Ek & C & Rd).
  exists file, d. split; [exact A|].
  assert (Full : Forall (fun l => List.length l = 74%nat) vals).
  { clear - L E. induction E as [|e l rs vals X Y IH]; constructor; [|exact (IH (Forall_inv_tail L))].
    destruct (full_row e l (Forall_inv L) X) as (m & g & _ & -> & _). rewrite map_length. apply log_length. apply (Forall_inv L). }
  assert (Lo : longest vals = 74%nat).
  { destruct E as [|e l rs vals X Y]; [contradiction|]. apply Nat.le_antisymm.
    - apply longest_le. eapply Forall_impl; [|exact Full]. cbn. intros; lia.
    - pose proof (Forall_inv (longest_ge (l :: vals))) as Q. pose proof (Forall_inv Full) as Q'. cbn beta in Q, Q'. lia. }
  rewrite Lo in Rd. cbn [Nat.eqb] in Rd.
  replace (forallb _ vals) with true in Rd.
  - split; [exact Rd|]. split.
    + intros name I. apply In_nth_error in I as [k Hk]. rewrite (C k name Hk). exact (column_is k name rows vals L E Hk).
    + intros name N. unfold col. rewrite get_none; [reflexivity|]. rewrite Ek. intro I. apply N.
      rewrite <- (firstn_skipn (longest vals) (fields header_line)). apply in_or_app. left. exact I.
  - symmetry. apply forallb_forall. intros l I. apply Nat.eqb_eq. exact (proj1 (Forall_forall _ _) Full l I).
Qed.

Lemma read_columns : rows <> [] -> Forall loggable rows ->
  exists file d, log_file fmt rows = Some file /\ read_csv parse file = Ret (mkRead None (Some d)) /\
    (forall name e v, In e rows -> logged name e v -> column seen name rows (col d name)) /\
    (forall name, (forall e v, In e rows -> ~ logged name e v) -> col d name = []).
Proof using number back.
  intros Nr L. destruct (read_good Nr L) as (file & d & A & Rd & [H1 H2]). exists file, d. split; [exact A|]. split; [exact Rd|]. split.
  - intros name e v I Lg. apply H1. exact (in_names name e v (proj1 (Forall_forall _ _) L e I) Lg).
  - intros name N. apply H2. intro I. destruct rows as [|e r] eqn:Er; [contradiction|].
    pose proof (H1 name I) as C. inversion C as [|? y ? l (v & Lg & _) F2]; subst. apply (N e v); [left; reflexivity|exact Lg].
Qed.

(** ** Nothing logged; rows with and without NaN *)
Lemma read_none : rows = [] -> exists file, log_file fmt rows = Some file /\
  read_csv parse file = Ret (mkRead (Some 0%nat) (Some [])) /\ plot_main parse file = Ret [Nothing; Nothing; Nothing; Nothing].
Proof using number back.
  intros ->. destruct (log_read (G := G) (H := H) fmt parse seen number back [] (Forall_nil _)) as (file & vals & d & A & E & W & Ek & C & Rd).
  inversion E; subst vals. cbn in Ek. assert (d = []) by (destruct d; [reflexivity|discriminate Ek]). subst d. cbn [longest fold_right forallb Nat.eqb] in Rd.
  exists file. split; [exact A|]. split; [exact Rd|].
  unfold plot_main, figure0, figure1, figure2, figure3, with_data. rewrite Rd. reflexivity.
Qed.

Lemma read_mixed : Forall writable rows -> Exists loggable rows -> Exists (fun e => ~ loggable e) rows ->
  exists file w, log_file fmt rows = Some file /\ read_csv parse file = Ret (mkRead w None) /\ plot_main parse file = Raise.
Proof using number back.
  intros W X Y. destruct (log_read (G := G) (H := H) fmt parse seen number back rows W) as (file & vals & d & A & E & Wv & Ek & C & Rd).
  assert (F : forallb (fun l => Nat.eqb (List.length l) (longest vals)) vals = false).
  { destruct (forallb _ vals) eqn:Q; [exfalso|reflexivity]. rewrite forallb_forall in Q.
    assert (X' : exists l, In l vals /\ List.length l = 74%nat).
    { clear - X E. induction E as [|e l rs vals Z E IH]; [inversion X|]. inversion X as [? ? Lg|? ? X1]; subst.
      - exists l. split; [left; reflexivity|]. destruct (full_row e l Lg Z) as (m & g & _ & -> & _). rewrite map_length. apply log_length, Lg.
      - destruct (IH X1) as (l' & I & N). exists l'. split; [right; exact I|exact N]. }
    assert (Y' : exists l, In l vals /\ List.length l <> 74%nat).
    { clear - Y E W. induction E as [|e l rs vals Z E IH]; [inversion Y|]. inversion Y as [? ? Lg|? ? Y1]; subst.
      - exists l. split; [left; reflexivity|]. intro N. apply Lg. destruct (Forall_inv W) as [F (m & g & p & P & <- & <-)]. split; [exact F|].
        exists (p_mass p), (p_grav p). split; [exists p; auto|]. destruct Z as (c & C & ->). destruct (params_cfg _ _ P) as (c' & C' & Ep).
        assert (c' = c) by congruence. subst c' p. apply row_values_short; assumption.
      - destruct (IH (Forall_inv_tail W) Y1) as (l' & I & N). exists l'. split; [right; exact I|exact N]. }
    destruct X' as (l1 & I1 & N1). destruct Y' as (l2 & I2 & N2).
    pose proof (Q l1 I1) as Q1. pose proof (Q l2 I2) as Q2. apply Nat.eqb_eq in Q1. apply Nat.eqb_eq in Q2. congruence. }
  rewrite F in Rd. exists file. eexists. split; [exact A|]. split; [exact Rd|].
  unfold plot_main, figure0, with_data. rewrite Rd. reflexivity.
Qed.

(** ** Drawing *)
Section Draw.
Variable d : Data (T := T).
Hypothesis some : rows <> [].
Hypothesis ok : holds d.

Definition inb (name : string) : bool := memb (fields header_line) name.
Lemma inb_in name : inb name = true -> In name (fields header_line).
Proof using. exact (memb_in _ name). Qed.
Lemma inb_out name : inb name = false -> ~ In name (fields header_line).
Proof using. exact (memb_out _ name). Qed.
Lemma col_in name : inb name = true -> column seen name rows (col d name) /\ List.length (col d name) = List.length rows.
Proof using ok. intro I. pose proof (proj1 ok name (inb_in name I)) as C. split; [exact C|]. symmetry. exact (f2_length _ _ _ C). Qed.
Lemma col_out name : inb name = false -> col d name = [].
Proof using ok. intro I. exact (proj2 ok name (inb_out name I)). Qed.
Lemma time_in : inb "time" = true.
Proof using. clear. vm_compute. reflexivity. Qed.
Lemma rows_len : List.length rows <> 0%nat.
Proof using some. destruct rows; [contradiction|discriminate]. Qed.

Lemma plot2_in name : inb name = true -> plot2 name (col d "time") (col d name) = Ret (mkCurve name (col d "time") (col d name)).
Proof using ok. intro I. unfold plot2. rewrite (proj2 (col_in name I)), (proj2 (col_in _ time_in)), Nat.eqb_refl. reflexivity. Qed.
Lemma plot_if_is name : plot_if name (col d "time") (col d name) = Ret (if inb name then [mkCurve name (col d "time") (col d name)] else []).
Proof using ok some.
  unfold plot_if. destruct (inb name) eqn:I.
  - rewrite (plot2_in name I). pose proof (proj2 (col_in name I)) as N. pose proof rows_len. destruct (col d name); [cbn in N; congruence|reflexivity].
  - rewrite (col_out name I). reflexivity.
Qed.
Lemma errors_is a : forall b, List.length a = List.length b -> abs_errors a b = Ret (map (fun p => absT (sub (fst p) (snd p))) (combine a b)).
Proof using. clear. induction a as [|x a IH]; intros [|y b] E; try discriminate E; [reflexivity|]. injection E as E. cbn. rewrite (IH b E). reflexivity. Qed.
Definition err_of (v : string) : option T :=
  if inb (v ++ "_ref") then Some (mean (map (fun p => absT (sub (fst p) (snd p))) (combine (col d v) (col d (v ++ "_ref"))))) else None.
Definition panel_of (title v : string) : Panel (T := T) :=
  mkPanel (title ++ " - " ++ v)
    (mkCurve v (col d "time") (col d v) ::
     (if inb (v ++ "_ref")%string then [mkCurve (v ++ "_ref")%string (col d "time") (col d (v ++ "_ref")%string)] else []) ++
     (if inb (v ++ "_io")%string then [mkCurve (v ++ "_io")%string (col d "time") (col d (v ++ "_io")%string)] else []))%list (err_of v).

Lemma plot_values_is title values : forall axes, (List.length values <= axes)%nat -> Forall (fun v => inb v = true) values ->
  plot_values d values title axes = Ret (map (panel_of title) values).
Proof using ok some.
  induction values as [|v r IH]; intros axes Le F; [reflexivity|]. destruct axes as [|axes]; [cbn in Le; lia|].
  cbn [plot_values]. rewrite (plot2_in v (Forall_inv F)). cbn [pbind]. rewrite !plot_if_is. cbn [pbind].
  assert (E : match col d (v ++ "_ref") with
              | [] => Ret None
              | _ => pbind (compute_mean_error (col d v) (col d (v ++ "_ref"))) (fun e => Ret (Some e))
              end = Ret (err_of v)).
  { unfold err_of. destruct (inb (v ++ "_ref")) eqn:I.
    - unfold compute_mean_error. rewrite errors_is by (rewrite (proj2 (col_in _ I)), (proj2 (col_in _ (Forall_inv F))); reflexivity). cbn [pbind].
      pose proof (proj2 (col_in _ I)) as N. pose proof rows_len. destruct (col d (v ++ "_ref")); [cbn in N; congruence|reflexivity].
    - rewrite (col_out _ I). reflexivity. }
  rewrite E. cbn [pbind]. rewrite IH; [|cbn in Le; lia|exact (Forall_inv_tail F)]. reflexivity.
Qed.
Lemma plot_rows_is axes (l : list (list string * string)) :
  Forall (fun e => (List.length (fst e) <= axes)%nat /\ Forall (fun v => inb v = true) (fst e)) l ->
  plot_rows d axes l = Ret (map (fun e => map (panel_of (snd e)) (fst e)) l).
Proof using ok some.
  induction 1 as [|[vs title] r [X1 X2] F IH]; [reflexivity|]. cbn [plot_rows]. rewrite (plot_values_is title vs axes X1 X2). cbn [pbind].
  rewrite IH. reflexivity.
Qed.
Lemma panel_good (q : Quantity) : (let '(_, v, hr, hi) := q in inb v = true /\ inb (v ++ "_ref") = hr /\ inb (v ++ "_io") = hi) ->
  good_panel seen rows q (panel_of (fst (fst (fst q))) (snd (fst (fst q)))).
Proof using ok some.
  destruct q as [[[title v] hr] hi]. cbn [fst snd]. intros (I & Er & Ei). unfold good_panel, panel_of. cbn [pn_title pn_curves pn_error].
  pose proof (proj1 (col_in _ time_in)) as Ct.
  split; [reflexivity|]. rewrite Er, Ei. split; [destruct hr, hi; reflexivity|]. split.
  - constructor; [cbn [cv_x cv_y cv_label]; split; [exact Ct|apply col_in, I]|]. apply Forall_app. split.
    + destruct hr; constructor; [|constructor]. cbn [cv_x cv_y cv_label]. split; [exact Ct|apply col_in; exact Er].
    + destruct hi; constructor; [|constructor]. cbn [cv_x cv_y cv_label]. split; [exact Ct|apply col_in; exact Ei].
  - intros ->. unfold err_of. rewrite Er. reflexivity.
Qed.
(** A table of quantities agrees with the rows drawn. *)
Definition tableb (table : list (list Quantity)) : bool :=
  forallb (forallb (fun q => let '(_, v, hr, hi) := q in inb v && Bool.eqb (inb (v ++ "_ref")) hr && Bool.eqb (inb (v ++ "_io")) hi)) table.
Definition panels_of (table : list (list Quantity)) : list (list (Panel (T := T))) :=
  map (map (fun q => panel_of (fst (fst (fst q))) (snd (fst (fst q))))) table.
Lemma table_good table : tableb table = true -> Forall2 (Forall2 (good_panel seen rows)) table (panels_of table).
Proof using ok some.
  induction table as [|r t IH]; intro E; [constructor|]. apply andb_prop in E as [E1 E2]. constructor; [|exact (IH E2)].
  clear E2 IH. induction r as [|q r IH]; [constructor|]. apply andb_prop in E1 as [E1 E3]. constructor; [|exact (IH E3)].
  apply panel_good. destruct q as [[[title v] hr] hi]. apply andb_prop in E1 as [E1 E4]. apply andb_prop in E1 as [E1 E5].
  apply Bool.eqb_prop in E4. apply Bool.eqb_prop in E5. auto.
Qed.

Lemma plot3_in a b c label : inb a = true -> inb b = true -> inb c = true ->
  plot3 label (col d a) (col d b) (col d c) = Ret (mkPath label (col d a) (col d b) (col d c)).
Proof using ok.
  intros A B C. unfold plot3. rewrite (proj2 (col_in _ A)), (proj2 (col_in _ B)), (proj2 (col_in _ C)), Nat.eqb_refl. reflexivity.
Qed.
Definition limit (x y z : list T) : T :=
  let l := (x ++ y ++ z)%list in
  match l with
  | [] => zero
  | a :: r => max2 (absT (mul mone (absT (fold_left min2 r a)))) (absT (fold_left max2 r a))
  end.
Lemma plot3d_is : let m := limit (col d "x") (col d "y") (col d "z") in plot_values_3d d "x" "y" "z" =
  Ret (mkView [mkPath "ground truth" (col d "x") (col d "y") (col d "z");
               mkPath "inertial odometry" (col d "x_io") (col d "y_io") (col d "z_io");
               mkPath "reference" (col d "x_ref") (col d "y_ref") (col d "z_ref")] (mul mone m, m) (mul mone m, m) (mul zero m, m)).
Proof using ok some.
  cbv zeta. unfold plot_values_3d. cbv zeta. change ("x" ++ "_io") with "x_io". change ("y" ++ "_io") with "y_io". change ("z" ++ "_io") with "z_io".
  change ("x" ++ "_ref") with "x_ref". change ("y" ++ "_ref") with "y_ref". change ("z" ++ "_ref") with "z_ref".
  rewrite plot3_in by (vm_compute; reflexivity). cbn [pbind]. unfold plot3_if.
  rewrite (plot3_in "x_io" "y_io" "z_io"), (plot3_in "x_ref" "y_ref" "z_ref") by (vm_compute; reflexivity).
  assert (Q : forall name, inb name = true -> exists a r, col d name = a :: r).
  { intros name I. pose proof (proj2 (col_in name I)) as N. pose proof rows_len. destruct (col d name) as [|a r]; [cbn in N; congruence|]. exists a, r. reflexivity. }
  destruct (Q "x_io" eq_refl) as (a1 & r1 & E1). destruct (Q "x_ref" eq_refl) as (a2 & r2 & E2). destruct (Q "x" eq_refl) as (a3 & r3 & E3).
  unfold limit. rewrite E1, E2, E3. cbn [pbind foldn List.app]. reflexivity.
Qed.
End Draw.

Lemma main_is d file : rows <> [] -> holds d -> read_csv parse file = Ret (mkRead None (Some d)) ->
  exists v, plot_values_3d d "x" "y" "z" = Ret v /\
  plot_main parse file = Ret [Space v; Rows (panels_of d position_figure); Rows (panels_of d rotation_figure); Rows (panels_of d motor_figure)].
Proof using.
  intros Nr Hd Rd. pose proof (plot3d_is d Nr Hd) as E. cbv zeta in E. eexists. split; [exact E|].
  unfold plot_main, figure0, figure1, figure2, figure3, with_data. rewrite Rd. cbn [rd_data pbind].
  destruct (col d "time") as [|t0 tr] eqn:Et.
  { pose proof (proj2 (col_in d Hd _ time_in)) as N. rewrite Et in N. destruct rows; [contradiction|discriminate N]. }
  rewrite E. cbn [pbind].
  rewrite !(plot_rows_is d Nr Hd) by (repeat (apply Forall_cons; [split; [cbn; lia|repeat (apply Forall_cons; [vm_compute; reflexivity|]); apply Forall_nil]|]); apply Forall_nil).
  reflexivity.
Qed.

Lemma figures_good : rows <> [] -> Forall loggable rows ->
  exists file f0 f1 f2 f3, log_file fmt rows = Some file /\ plot_main parse file = Ret [f0; f1; f2; f3] /\
    good_space seen rows f0 /\ good_figure seen rows position_figure f1 /\
    good_figure seen rows rotation_figure f2 /\ good_figure seen rows motor_figure f3.
Proof using number back.
  intros Nr L. destruct (read_good Nr L) as (file & d & A & Rd & Hd). destruct (main_is d file Nr Hd Rd) as (v & Ev & M).
  exists file, (Space v), (Rows (panels_of d position_figure)), (Rows (panels_of d rotation_figure)), (Rows (panels_of d motor_figure)).
  split; [exact A|]. split; [exact M|]. split.
  - rewrite (plot3d_is d Nr Hd) in Ev. cbv zeta in Ev. injection Ev as <-. unfold good_space. eexists. eexists. eexists. eexists.
    split; [reflexivity|]. split; [reflexivity|].
    split; [|split]; (split; [reflexivity|]; cbn [pa_x pa_y pa_z]; split; [|split]; apply (col_in d Hd); vm_compute; reflexivity).
  - split; [|split]; (eexists; split; [reflexivity|]; apply (table_good d Nr Hd); vm_compute; reflexivity).
Qed.
End Gen.
