(** Printed errors and the limits of the picture, in exact arithmetic. *)

From Coq Require Import ZArith NArith List Bool String Ascii Lia Reals Lra.
From Verif Require Import Scalar LinAlg MUtils MModel MDynamics MPid MControl MCtlRun MImu MSim MText MPlot SpecText SpecPlot PBase PText PPlot PPlotFig.
Import ListNotations.
Local Open Scope string_scope.

Lemma fold_sum l : forall a : R, fold_left add l a = (a + fold_right Rplus 0 l)%R.
Proof. induction l as [|x r IH]; intro a; cbn [fold_left fold_right]; [lra|]. rewrite IH. change (add a x) with (a + x)%R. lra. Qed.
Lemma sum_nonneg (l : list R) : Forall (fun x => 0 <= x)%R l -> (0 <= fold_right Rplus 0 l)%R.
Proof. induction 1 as [|x r X F IH]; cbn [fold_right]; lra. Qed.
Lemma distance_zero a : forall b : list R, List.length a = List.length b -> (distance_sum a b = 0%R <-> a = b).
Proof.
  unfold distance_sum. induction a as [|x a IH]; intros [|y b] E; try discriminate E; [split; reflexivity|]. injection E as E.
  cbn [combine map fold_right fst snd]. specialize (IH b E).
  assert (N : (0 <= fold_right Rplus 0 (map (fun p => Rabs (fst p - snd p)) (combine a b)))%R).
  { apply sum_nonneg. apply Forall_forall. intros z I. apply in_map_iff in I as (p & <- & _). apply Rabs_pos. }
  pose proof (Rabs_pos (x - y)) as Q. split.
  - intro Z. assert (Z1 : Rabs (x - y) = 0%R) by lra. assert (Z2 : fold_right Rplus 0%R (map (fun p => Rabs (fst p - snd p)%R) (combine a b)) = 0%R) by lra.
    apply IH in Z2. f_equal; [|exact Z2]. destruct (Req_dec (x - y) 0) as [D|D]; [lra|]. apply Rabs_no_R0 in D. contradiction.
  - intros Z. injection Z as -> ->. rewrite Rminus_diag_eq, Rabs_R0 by reflexivity. rewrite (proj2 IH eq_refl). lra.
Qed.
Lemma mean_is (a b : list R) : List.length a = List.length b -> a <> [] ->
  (INR (List.length a) * mean (map (fun p => absT (sub (fst p) (snd p))) (combine a b)) = distance_sum a b)%R.
Proof.
  intros E N. unfold mean. rewrite fold_sum, map_length, combine_length, <- E, Nat.min_id. change (ofZ ?z) with (IZR z). rewrite <- INR_IZR_INZ.
  change (div ?x ?y) with (x / y)%R. change zero with 0%R. unfold distance_sum. change (absT (sub ?x ?y)) with (Rabs (x - y)).
  assert (INR (List.length a) <> 0)%R by (apply not_0_INR; destruct a; [contradiction|discriminate]). field. assumption.
Qed.

(** Least and greatest element. *)
Lemma min2_le (x y : R) : (min2 x y <= x /\ min2 x y <= y)%R.
Proof. unfold min2. change (ltb y x) with (Rltb y x). destruct (Rltb y x) eqn:E; [apply Rltb_true in E|apply Rltb_false in E]; lra. Qed.
Lemma max2_ge (x y : R) : (x <= max2 x y /\ y <= max2 x y)%R.
Proof. unfold max2. change (ltb x y) with (Rltb x y). destruct (Rltb x y) eqn:E; [apply Rltb_true in E|apply Rltb_false in E]; lra. Qed.
Lemma max2_lub (x y m : R) : (x <= m -> y <= m -> max2 x y <= m)%R.
Proof. unfold max2. destruct (ltb x y); lra. Qed.
Lemma fold_min r : forall a x : R, In x (a :: r) -> (fold_left min2 r a <= x)%R.
Proof.
  induction r as [|y r IH]; intros a x I; cbn [fold_left].
  - destruct I as [->|[]]; lra.
  - pose proof (min2_le a y) as [M1 M2]. destruct I as [->|[->|I]].
    + pose proof (IH (min2 x y) (min2 x y) (or_introl eq_refl)). lra.
    + pose proof (IH (min2 a x) (min2 a x) (or_introl eq_refl)). lra.
    + apply IH. right. exact I.
Qed.
Lemma fold_max r : forall a x : R, In x (a :: r) -> (x <= fold_left max2 r a)%R.
Proof.
  induction r as [|y r IH]; intros a x I; cbn [fold_left].
  - destruct I as [->|[]]; lra.
  - pose proof (max2_ge a y) as [M1 M2]. destruct I as [->|[->|I]].
    + pose proof (IH (max2 x y) (max2 x y) (or_introl eq_refl)). lra.
    + pose proof (IH (max2 a x) (max2 a x) (or_introl eq_refl)). lra.
    + apply IH. right. exact I.
Qed.
Lemma limit_bounds (x y z : list R) w : In w x \/ In w y \/ In w z -> (- limit x y z <= w <= limit x y z)%R.
Proof.
  intro I. assert (J : In w (x ++ y ++ z)%list) by (rewrite !in_app_iff; exact I). unfold limit. destruct (x ++ y ++ z)%list as [|a r]; [contradiction|].
  pose proof (fold_min r a w J) as A. pose proof (fold_max r a w J) as B.
  change (mul mone (absT ?u)) with (-1 * Rabs u)%R. change (absT ?u) with (Rabs u).
  set (mn := fold_left min2 r a) in *. set (mx := fold_left max2 r a) in *. clearbody mn mx.
  pose proof (max2_ge (Rabs (-1 * Rabs mn)) (Rabs mx)) as [M1 M2]. set (m := max2 _ _) in *. clearbody m.
  rewrite Rabs_mult, Rabs_Rabsolu, (Rabs_left (-1)) in M1 by lra.
  pose proof (Rle_abs mx). pose proof (Rabs_pos mn). pose proof (Rle_abs (- mn)) as Q. rewrite Rabs_Ropp in Q. lra.
Qed.
(** The limit is the size of one of the coordinates. *)
Lemma fold_min_in r : forall a : R, In (fold_left min2 r a) (a :: r).
Proof.
  induction r as [|y r IH]; intro a; [left; reflexivity|]. cbn [fold_left]. destruct (IH (min2 a y)) as [E|I]; [|right; right; exact I].
  rewrite <- E. unfold min2. destruct (ltb y a); [right; left; reflexivity|left; reflexivity].
Qed.
Lemma fold_max_in r : forall a : R, In (fold_left max2 r a) (a :: r).
Proof.
  induction r as [|y r IH]; intro a; [left; reflexivity|]. cbn [fold_left]. destruct (IH (max2 a y)) as [E|I]; [|right; right; exact I].
  rewrite <- E. unfold max2. destruct (ltb a y); [right; left; reflexivity|left; reflexivity].
Qed.
Lemma limit_le (x y z : list R) m : (0 <= m)%R -> (forall w, In w (x ++ y ++ z)%list -> (Rabs w <= m)%R) -> (limit x y z <= m)%R.
Proof.
  intros Hm F. unfold limit. destruct (x ++ y ++ z)%list as [|a r]; [exact Hm|].
  change (mul mone (absT ?u)) with (-1 * Rabs u)%R. change (absT ?u) with (Rabs u). apply max2_lub.
  - rewrite Rabs_mult, Rabs_Rabsolu, (Rabs_left (-1)) by lra. pose proof (F _ (fold_min_in r a)). lra.
  - exact (F _ (fold_max_in r a)).
Qed.

Section Draw.
Context {G H : Gen R}.
Variable fmt : R -> string.
Variable parse : string -> option R.
Variable seen : R -> R.
Hypothesis number : number_printer fmt.
Hypothesis back : reads_back fmt parse seen.
Variable rows : list (R * Sim R G H).
Hypothesis some : rows <> [].
Hypothesis good : Forall loggable rows.

Lemma panel_error d (q : Quantity) : holds seen rows d ->
  (let '(_, v, hr, hi) := q in inb v = true /\ inb (v ++ "_ref") = hr /\ inb (v ++ "_io") = hi) ->
  mean_error seen rows q (panel_of d (fst (fst (fst q))) (snd (fst (fst q)))).
Proof using some.
  intro Hd. destruct q as [[[title v] hr] hi]. cbn [fst snd]. intros (I & Er & _). unfold mean_error, panel_of. cbn [pn_error]. unfold err_of. rewrite Er.
  destruct hr; [|reflexivity].
  destruct (col_in seen rows d Hd _ I) as [C1 L1]. destruct (col_in seen rows d Hd _ Er) as [C2 L2].
  assert (N : col d v <> []) by (intro Z; rewrite Z in L1; apply (rows_len rows some); symmetry; exact L1).
  assert (LL : List.length (col d v) = List.length (col d (v ++ "_ref"))) by congruence.
  exists (col d v), (col d (v ++ "_ref")). eexists. split; [exact C1|]. split; [exact C2|]. split; [reflexivity|].
  pose proof (mean_is _ _ LL N) as M. rewrite L1 in M. split; [exact M|].
  rewrite <- (distance_zero _ _ LL), <- M. pose proof (rows_len rows some) as Rl. apply not_0_INR in Rl. split.
  - intros ->. lra.
  - intro Z. apply Rmult_integral in Z as [Z|Z]; [contradiction|exact Z].
Qed.
Lemma table_error d table : holds seen rows d -> tableb table = true -> Forall2 (Forall2 (mean_error seen rows)) table (panels_of d table).
Proof using some.
  intro Hd. induction table as [|r t IH]; intro E; [constructor|]. apply andb_prop in E as [E1 E2]. constructor; [|exact (IH E2)].
  clear E2 IH. induction r as [|q r IH]; [constructor|]. apply andb_prop in E1 as [E1 E3]. constructor; [|exact (IH E3)].
  apply panel_error; [exact Hd|]. destruct q as [[[title v] hr] hi]. apply andb_prop in E1 as [E1 E4]. apply andb_prop in E1 as [E1 E5].
  apply Bool.eqb_prop in E4. apply Bool.eqb_prop in E5. auto.
Qed.
Lemma errors_good : exists file f0 l1 l2 l3, log_file fmt rows = Some file /\ plot_main parse file = Ret [f0; Rows l1; Rows l2; Rows l3] /\
  Forall2 (Forall2 (mean_error seen rows)) position_figure l1 /\ Forall2 (Forall2 (mean_error seen rows)) rotation_figure l2 /\
  Forall2 (Forall2 (mean_error seen rows)) motor_figure l3.
Proof using number back some good.
  destruct (read_good fmt parse seen number back rows some good) as (file & d & A & Rd & Hd). destruct (main_is parse seen rows d file some Hd Rd) as (v & Ev & M).
  exists file, (Space v), (panels_of d position_figure), (panels_of d rotation_figure), (panels_of d motor_figure).
  split; [exact A|]. split; [exact M|]. split; [|split]; (apply (table_error d); [exact Hd|vm_compute; reflexivity]).
Qed.

(** A column has one value per row. *)
Lemma logged_unique (e : R * Sim R G H) name a b : loggable e -> logged name e a -> logged name e b -> a = b.
Proof using.
  clear. intros [F _] (m & g & (p & P & <- & <-) & I) (m' & g' & (p' & P' & <- & <-) & J). assert (p' = p) by congruence. subst p'.
  destruct names_facts as (Nd & _). rewrite (header_names (fst e) (snd e) (p_mass p) (p_grav p) F) in Nd.
  assert (Some a = Some b); [|congruence].
  rewrite <- (get_in _ name a Nd I). apply (get_in _ name b Nd J).
Qed.
Lemma in_column d name e x : holds seen rows d -> In e rows -> logged name e x -> In (seen x) (col d name).
Proof using good.
  intros Hd I Lg. pose proof (proj1 (Forall_forall _ _) good e I) as Le.
  pose proof (proj1 Hd name (in_names name e x Le Lg)) as C. clear Hd some. unfold column in C.
  induction C as [|e' y rs l (v & Lv & ->) C IH]; [contradiction|]. destruct I as [->|I].
  - left. rewrite (logged_unique e name v x Le Lv Lg). reflexivity.
  - right. apply IH; [exact (Forall_inv_tail good)|exact I].
Qed.

Lemma view_good : exists file v figs, log_file fmt rows = Some file /\ plot_main parse file = Ret (Space v :: figs) /\
  forall e x y z, In e rows -> logged "x" e x -> logged "y" e y -> logged "z" e z ->
  inside (vw_x v) (seen x) /\ inside (vw_y v) (seen y) /\ (inside (vw_z v) (seen z) <-> (0 <= seen z)%R).
Proof using number back some good.
  destruct (read_good fmt parse seen number back rows some good) as (file & d & A & Rd & Hd). destruct (main_is parse seen rows d file some Hd Rd) as (v & Ev & M).
  exists file, v. eexists. split; [exact A|]. split; [exact M|]. intros e x y z I Lx Ly Lz.
  rewrite (plot3d_is seen rows d some Hd) in Ev. cbv zeta in Ev. injection Ev as <-. unfold inside. cbn [vw_x vw_y vw_z fst snd].
  pose proof (limit_bounds (col d "x") (col d "y") (col d "z") (seen x) (or_introl (in_column d "x" e x Hd I Lx))) as Bx.
  pose proof (limit_bounds (col d "x") (col d "y") (col d "z") (seen y) (or_intror (or_introl (in_column d "y" e y Hd I Ly)))) as By.
  pose proof (limit_bounds (col d "x") (col d "y") (col d "z") (seen z) (or_intror (or_intror (in_column d "z" e z Hd I Lz)))) as Bz.
  set (m := limit _ _ _) in *. clearbody m. change (mul mone m) with (-1 * m)%R. change (mul zero m) with (0 * m)%R.
  split; [lra|]. split; [lra|]. split; lra.
Qed.
(** How far the picture reaches. *)
Lemma view_reach m : (0 <= m)%R ->
  (forall e name x, In e rows -> In name ["x"; "y"; "z"] -> logged name e x -> (Rabs (seen x) <= m)%R) ->
  forall file v figs, log_file fmt rows = Some file -> plot_main parse file = Ret (Space v :: figs) ->
  (snd (vw_x v) <= m /\ snd (vw_y v) <= m /\ snd (vw_z v) <= m)%R.
Proof using number back some good.
  intros Hm B file v figs A M.
  destruct (read_good fmt parse seen number back rows some good) as (file' & d & A' & Rd & Hd). assert (file' = file) by congruence. subst file'.
  destruct (main_is parse seen rows d file some Hd Rd) as (v' & Ev & M'). rewrite M in M'. injection M' as -> _.
  rewrite (plot3d_is seen rows d some Hd) in Ev. cbv zeta in Ev. injection Ev as <-. cbn [vw_x vw_y vw_z fst snd].
  assert (Q : (limit (col d "x") (col d "y") (col d "z") <= m)%R); [|tauto]. apply limit_le; [exact Hm|].
  assert (X : forall name, In name ["x"; "y"; "z"] -> inb name = true -> forall w, In w (col d name) -> (Rabs w <= m)%R).
  { intros name Nn Ib w Iw. destruct (col_in seen rows d Hd _ Ib) as [C _]. clear - C Iw B Nn.
    revert B. unfold column in C. induction C as [|e y rs l (x & Lx & ->) C IH]; intro B; [contradiction|]. destruct Iw as [<-|Iw].
    - apply (B e name x); [left; reflexivity|exact Nn|exact Lx].
    - apply IH; [exact Iw|]. intros e' n' x' I'. apply B. right. exact I'. }
  intros w Iw. rewrite !in_app_iff in Iw. destruct Iw as [I|[I|I]].
  - apply (X "x"); [left; reflexivity|vm_compute; reflexivity|exact I].
  - apply (X "y"); [right; left; reflexivity|vm_compute; reflexivity|exact I].
  - apply (X "z"); [right; right; left; reflexivity|vm_compute; reflexivity|exact I].
Qed.
End Draw.
