(** Logs that are read back, and logs that are not. *)

From Coq Require Import ZArith NArith List Bool String Ascii Lia Reals Lra.
From Flocq Require Import BinarySingleNaN.
From Verif Require Import Scalar Float64 LinAlg MUtils MModel MDynamics MPid MControl MCtlRun MImu MSim MText MPlot
  SpecDyn SpecRun SpecPid SpecCtl SpecImu SpecSim SpecText SpecExample SpecPlot
  PBase PFloat PModel PDynR PSim PSimEnd PWell PText PExample PPlot PPlotFig PPlotR EBase ECtl EImu ESim EText.
Import ListNotations.
Local Open Scope string_scope.

(** A printer of signs and its reader. *)
Definition sgn (x : R) : R := if Rltb x 0 then (-1)%R else 1%R.
Definition read_sign (s : string) : option R := if String.eqb s "-1" then Some (-1)%R else if String.eqb s "1" then Some 1%R else None.
Lemma sign_number : number_printer (T := R) sign.
Proof.
  intro x. unfold sign, number_text. destruct (Rltb x 0).
  - split; [discriminate|]. split; [cbn; lia|]. cbn [list_ascii_of_string].
    constructor; [split; [vm_compute; split; discriminate|split; discriminate]|]. constructor; [split; [vm_compute; split; discriminate|split; discriminate]|constructor].
  - split; [discriminate|]. split; [cbn; lia|]. cbn [list_ascii_of_string].
    constructor; [split; [vm_compute; split; discriminate|split; discriminate]|constructor].
Qed.
Lemma sign_back : reads_back sign read_sign sgn.
Proof. intro x. unfold sign, sgn, read_sign. destruct (Rltb x 0); reflexivity. Qed.

Section Exact.
Local Open Scope R_scope.
Context {G H : Gen R}.

(** A simulator started in [st], with references set. *)
Definition ref_ops (p : V3 R) (yaw : R) : list (SimOp R G H) := [SRefPos p; SRefYaw yaw].
Lemma ready st p yaw : List.length (s_mvel st) = 4%nat -> List.length (s_macc st) = 4%nat ->
  exists s : Sim R G H, fitting_params 4 (sp_ex 1 4 4 st imp_plain) /\ sim_after 4 (sp_ex 1 4 4 st imp_plain) (ref_ops p yaw) = Some s /\
  (forall t, loggable (t, s)) /\ sim_state s = st /\ rf_pos (sm_refs s) = p /\ rf_yaw (sm_refs s) = yaw.
Proof.
  intros L1 L2. assert (F : fitting_params 4 (sp_ex 1 4 4 st imp_plain)) by (apply sp_fits; [lra|exact L1]).
  destruct (ex_start (G := G) (H := H) 4 _ F) as (s & _ & A & _ & St & _).
  exists (set_ref_yaw_angle (set_ref_pos s p) yaw).
  assert (E : sim_after 4 (sp_ex 1 4 4 st imp_plain) (ref_ops p yaw) = Some (set_ref_yaw_angle (set_ref_pos s p) yaw))
    by exact (after_cons 4 _ s (SRefPos p) [SRefYaw yaw] (set_ref_pos s p) A (or_introl eq_refl)).
  split; [exact F|]. split; [exact E|]. split.
  - intro t. apply (flyable_loggable sign); [exact sign_plain|]. eapply run_flyable; [exact F| |exact E|].
    + constructor; [exact I|constructor; [exact I|constructor]].
    + change (sim_state (set_ref_yaw_angle (set_ref_pos s p) yaw)) with (sim_state s). rewrite St. exact L2.
  - split; [exact St|]. split; reflexivity.
Qed.
Lemma logs (t : R) (s : Sim R G H) : loggable (t, s) -> exists m g, vehicle_of s m g.
Proof. intros [_ (m & g & V & _)]. exists m, g. exact V. Qed.
Lemma logs_state (t : R) (s : Sim R G H) name x : loggable (t, s) -> In (name, x) (state_columns s) -> logged name (t, s) x.
Proof. intros L I. destruct (logs t s L) as (m & g & V). exists m, g. split; [exact V|]. cbn [fst snd]. unfold log_columns. right. apply in_or_app. left. exact I. Qed.
Lemma logs_ref (t : R) (s : Sim R G H) name x : loggable (t, s) -> (forall m g, In (name, x) (ref_columns s m g)) -> logged name (t, s) x.
Proof. intros L I. destruct (logs t s L) as (m & g & V). exists m, g. split; [exact V|]. cbn [fst snd]. unfold log_columns. right. apply in_or_app. right. apply in_or_app. left. apply I. Qed.

Lemma log_case : exists s : Sim R G H, number_printer (T := R) sign /\ reads_back sign read_sign sgn /\ Forall loggable [(0, s); (1, s)] /\
  exists file d, log_file sign [(0, s); (1, s)] = Some file /\ read_csv read_sign file = Ret (mkRead None (Some d)) /\
  MPlot.col d "x" = [1; 1] /\ MPlot.col d "y" = [-1; -1] /\ MPlot.col d "x_ref" = [-1; -1] /\ MPlot.col d "mdw4_ref" = [].
Proof.
  destruct (ready st_text (mkV (-5) 6 7) 0 eq_refl eq_refl) as (s & _ & _ & Lg & St & Rp & _). exists s.
  split; [exact sign_number|]. split; [exact sign_back|].
  assert (L : Forall loggable [(0, s); (1, s)]) by (constructor; [apply Lg|constructor; [apply Lg|constructor]]). split; [exact L|].
  destruct (read_good sign read_sign sgn sign_number sign_back [(0, s); (1, s)] ltac:(discriminate) L) as (file & d & A & Rd & Hd).
  exists file, d. split; [exact A|]. split; [exact Rd|].
  assert (C : forall name x, inb name = true -> (forall t, logged name (t, s) x) -> MPlot.col d name = [sgn x; sgn x]).
  { intros name x I Lx. destruct (col_in sgn _ d Hd name I) as [C _]. inversion C as [|? y1 ? l1 (v1 & V1 & ->) C1]; subst. inversion C1 as [|? y2 ? l2 (v2 & V2 & ->) C2]; subst.
    inversion C2; subst. rewrite (logged_unique _ _ _ _ (Lg 0) V1 (Lx 0)), (logged_unique _ _ _ _ (Lg 1) V2 (Lx 1)). reflexivity. }
  assert (S1 : sgn 1 = 1) by (unfold sgn; destruct (Rltb 1 0) eqn:Q; [apply Rltb_true in Q; lra|reflexivity]).
  assert (S2 : sgn (-2) = -1) by (unfold sgn; destruct (Rltb (-2) 0) eqn:Q; [reflexivity|apply Rltb_false in Q; lra]).
  assert (S3 : sgn (-5) = -1) by (unfold sgn; destruct (Rltb (-5) 0) eqn:Q; [reflexivity|apply Rltb_false in Q; lra]).
  split; [|split; [|split]].
  - rewrite (C "x" 1); [rewrite S1; reflexivity|vm_compute; reflexivity|]. intro t. apply logs_state; [apply Lg|]. unfold state_columns. rewrite St. left. reflexivity.
  - rewrite (C "y" (-2)); [rewrite S2; reflexivity|vm_compute; reflexivity|]. intro t. apply logs_state; [apply Lg|]. unfold state_columns. rewrite St. right. left. reflexivity.
  - rewrite (C "x_ref" (-5)); [rewrite S3; reflexivity|vm_compute; reflexivity|]. intro t. apply logs_ref; [apply Lg|]. intros m g. unfold ref_columns. rewrite Rp. left. reflexivity.
  - apply (col_out sgn _ d Hd). vm_compute. reflexivity.
Qed.

Lemma figure_case : exists s : Sim R G H, number_printer (T := R) sign /\ reads_back sign read_sign sgn /\ Forall loggable [(0, s); (1, s)] /\
  exists file f0 f1 f2 f3, log_file sign [(0, s); (1, s)] = Some file /\
    plot_main read_sign file = Ret [f0; f1; f2; f3] /\ good_space sgn [(0, s); (1, s)] f0 /\
    exists v a r, f0 = Space v /\ vw_paths v = a :: r /\ pa_x a = [1; 1] /\ pa_y a = [-1; -1].
Proof.
  destruct (ready st_text (mkV (-5) 6 7) 0 eq_refl eq_refl) as (s & _ & _ & Lg & St & Rp & _). exists s.
  split; [exact sign_number|]. split; [exact sign_back|].
  assert (L : Forall loggable [(0, s); (1, s)]) by (constructor; [apply Lg|constructor; [apply Lg|constructor]]). split; [exact L|].
  destruct (figures_good sign read_sign sgn sign_number sign_back [(0, s); (1, s)] ltac:(discriminate) L) as (file & f0 & f1 & f2 & f3 & A & M & Sp & _).
  exists file, f0, f1, f2, f3. split; [exact A|]. split; [exact M|]. split; [exact Sp|].
  destruct Sp as (v & a & b & c & Ev & Ep & (_ & Cx & Cy & _) & _). exists v, a, [b; c]. split; [exact Ev|]. split; [exact Ep|].
  assert (C : forall name x l, (forall t, logged name (t, s) x) -> column sgn name [(0, s); (1, s)] l -> l = [sgn x; sgn x]).
  { intros name x l Lx C. inversion C as [|? y1 ? l1 (v1 & V1 & ->) C1]; subst. inversion C1 as [|? y2 ? l2 (v2 & V2 & ->) C2]; subst.
    inversion C2; subst. rewrite (logged_unique _ _ _ _ (Lg 0) V1 (Lx 0)), (logged_unique _ _ _ _ (Lg 1) V2 (Lx 1)). reflexivity. }
  assert (S1 : sgn 1 = 1) by (unfold sgn; destruct (Rltb 1 0) eqn:Q; [apply Rltb_true in Q; lra|reflexivity]).
  assert (S2 : sgn (-2) = -1) by (unfold sgn; destruct (Rltb (-2) 0) eqn:Q; [reflexivity|apply Rltb_false in Q; lra]).
  split.
  - rewrite (C "x" 1 _ ltac:(intro t; apply logs_state; [apply Lg|]; unfold state_columns; rewrite St; left; reflexivity) Cx), S1. reflexivity.
  - rewrite (C "y" (-2) _ ltac:(intro t; apply logs_state; [apply Lg|]; unfold state_columns; rewrite St; right; left; reflexivity) Cy), S2. reflexivity.
Qed.

(** A vehicle below the zero of the height axis is not in the picture. *)
Definition st_low : State R := mkState (mkV 1 2 (-2)) q1 LinAlg.v0 LinAlg.v0 LinAlg.v0 LinAlg.v0 LinAlg.v0 LinAlg.v0 [1;1;1;1] [0;0;0;0].
Lemma view_low : exists s : Sim R G H, loggable (0, s) /\ logged "x" (0, s) 1 /\ logged "y" (0, s) 2 /\ logged "z" (0, s) (-2) /\
  forall fmt parse seen, number_printer fmt -> reads_back fmt parse seen -> seen (-2) < 0 ->
  exists file v figs, log_file fmt [(0, s)] = Some file /\ plot_main parse file = Ret (Space v :: figs) /\ ~ shown v (seen 1) (seen 2) (seen (-2)).
Proof.
  destruct (ready st_low LinAlg.v0 0 eq_refl eq_refl) as (s & _ & _ & Lg & St & _). exists s. split; [apply Lg|].
  assert (X : logged "x" (0, s) 1) by (apply logs_state; [apply Lg|]; unfold state_columns; rewrite St; left; reflexivity).
  assert (Y : logged "y" (0, s) 2) by (apply logs_state; [apply Lg|]; unfold state_columns; rewrite St; right; left; reflexivity).
  assert (Z : logged "z" (0, s) (-2)) by (apply logs_state; [apply Lg|]; unfold state_columns; rewrite St; right; right; left; reflexivity).
  split; [exact X|]. split; [exact Y|]. split; [exact Z|]. intros fmt parse seen N B Hs.
  destruct (view_good fmt parse seen N B [(0, s)] ltac:(discriminate) (Forall_cons _ (Lg 0) (Forall_nil _))) as (file & v & figs & A & M & V).
  exists file, v, figs. split; [exact A|]. split; [exact M|]. intros (_ & _ & Iz). apply (V (0, s) 1 2 (-2) (or_introl eq_refl) X Y Z) in Iz. lra.
Qed.
(** The picture is cut to the vehicle: a far reference is outside. *)
Lemma view_ref : exists s : Sim R G H, loggable (0, s) /\ logged "x_ref" (0, s) 100 /\
  forall fmt parse seen, number_printer fmt -> reads_back fmt parse seen -> Rabs (seen 1) <= 3 -> Rabs (seen (-2)) <= 3 -> Rabs (seen 3) <= 3 -> 3 < seen 100 ->
  exists file v figs, log_file fmt [(0, s)] = Some file /\ plot_main parse file = Ret (Space v :: figs) /\ ~ inside (vw_x v) (seen 100).
Proof.
  destruct (ready st_text (mkV 100 0 0) 0 eq_refl eq_refl) as (s & _ & _ & Lg & St & Rp & _). exists s. split; [apply Lg|].
  split; [apply logs_ref; [apply Lg|]; intros m g; unfold ref_columns; rewrite Rp; left; reflexivity|].
  assert (X : logged "x" (0, s) 1) by (apply logs_state; [apply Lg|]; unfold state_columns; rewrite St; left; reflexivity).
  assert (Y : logged "y" (0, s) (-2)) by (apply logs_state; [apply Lg|]; unfold state_columns; rewrite St; right; left; reflexivity).
  assert (Z : logged "z" (0, s) 3) by (apply logs_state; [apply Lg|]; unfold state_columns; rewrite St; right; right; left; reflexivity).
  intros fmt parse seen N B H1 H2 H3 H4.
  assert (L : Forall loggable [(0, s)]) by exact (Forall_cons _ (Lg 0) (Forall_nil _)).
  destruct (view_good fmt parse seen N B [(0, s)] ltac:(discriminate) L) as (file & v & figs & A & M & _).
  exists file, v, figs. split; [exact A|]. split; [exact M|]. intros [_ Iz].
  destruct (view_reach fmt parse seen N B [(0, s)] ltac:(discriminate) L 3 ltac:(lra)) with (file := file) (v := v) (figs := figs) as (V & _); [|exact A|exact M|lra].
  intros e name x [<-|[]] [<-|[<-|[<-|[]]]] Lx.
  - rewrite (logged_unique _ _ _ _ (Lg 0) Lx X). exact H1.
  - rewrite (logged_unique _ _ _ _ (Lg 0) Lx Y). exact H2.
  - rewrite (logged_unique _ _ _ _ (Lg 0) Lx Z). exact H3.
Qed.
Lemma view_case : exists s : Sim R G H, Forall loggable [(0, s)] /\ logged "x" (0, s) 1 /\ logged "y" (0, s) (-2) /\ logged "z" (0, s) 3.
Proof.
  destruct (ready st_text LinAlg.v0 0 eq_refl eq_refl) as (s & _ & _ & Lg & St & _). exists s. split; [exact (Forall_cons _ (Lg 0) (Forall_nil _))|].
  split; [|split]; (apply logs_state; [apply Lg|]; unfold state_columns; rewrite St).
  - left. reflexivity.
  - right. left. reflexivity.
  - right. right. left. reflexivity.
Qed.

(** Facing exactly where it should, a full turn apart in numbers. *)
Lemma yaw_turn : exists s : Sim R G H, loggable (0, s) /\ logged "yaw" (0, s) 0 /\ logged "yaw_ref" (0, s) (2 * PI) /\
  forall fmt parse seen, number_printer fmt -> reads_back fmt parse seen -> seen 0 <> seen (2 * PI) ->
  exists file f0 l1 l2 l3 p e, log_file fmt [(0, s)] = Some file /\ plot_main parse file = Ret [f0; Rows l1; Rows l2; Rows l3] /\
    nth_error (nth 1 l1 []) 2 = Some p /\ pn_title p = "Orientation - yaw" /\ pn_error p = Some e /\ e <> 0.
Proof.
  set (st := mkState (mkV 1 2 3) (level 0) LinAlg.v0 LinAlg.v0 LinAlg.v0 LinAlg.v0 LinAlg.v0 LinAlg.v0 [1;1;1;1] [0;0;0;0]).
  destruct (ready st LinAlg.v0 (2 * PI) eq_refl eq_refl) as (s & _ & _ & Lg & St & _ & Ry). exists s. split; [apply Lg|].
  assert (X : logged "yaw" (0, s) 0).
  { apply logs_state; [apply Lg|]. unfold state_columns. rewrite St. cbn [st s_ori]. pose proof PI_RGT_0. rewrite level_euler by lra.
    do 5 right. left. reflexivity. }
  assert (Y : logged "yaw_ref" (0, s) (2 * PI)) by (apply logs_ref; [apply Lg|]; intros m g; unfold ref_columns; rewrite Ry; do 3 right; left; reflexivity).
  split; [exact X|]. split; [exact Y|]. intros fmt parse seen N B Hs.
  assert (L : Forall loggable [(0, s)]) by exact (Forall_cons _ (Lg 0) (Forall_nil _)).
  destruct (figures_good fmt parse seen N B [(0, s)] ltac:(discriminate) L) as (file & f0 & g1 & g2 & g3 & A & M & _ & (k1 & -> & Q1) & (k2 & -> & _) & (k3 & -> & _)).
  destruct (errors_good fmt parse seen N B [(0, s)] ltac:(discriminate) L) as (file' & f0' & l1 & l2 & l3 & A' & M' & E1 & _ & _).
  assert (file' = file) by congruence. subst file'. rewrite M in M'. injection M' as <- <- <- <-.
  inversion E1 as [|? r1 ? k1' _ E1']; subst. inversion E1' as [|? r2 ? k1'' E2 _]; subst. inversion E2 as [|? p1 ? r2' _ E3]; subst.
  inversion E3 as [|? p2 ? r2'' _ E4]; subst. inversion E4 as [|? p ? r2''' E5 _]; subst.
  inversion Q1 as [|? ? ? ? _ Q1']; subst. inversion Q1' as [|? ? ? ? Q2 _]; subst. inversion Q2 as [|? ? ? ? _ Q3]; subst. inversion Q3 as [|? ? ? ? _ Q4]; subst. inversion Q4 as [|? ? ? ? Q5 _]; subst.
  destruct E5 as (gt & rf & e & C1 & C2 & Ee & _ & Ez). destruct Q5 as (Tt & _).
  exists file, f0. do 3 eexists. exists p, e. split; [exact A|]. split; [exact M|]. split; [reflexivity|]. split; [exact Tt|]. split; [exact Ee|].
  intro Z. apply Ez in Z. subst rf. inversion C1 as [|? y1 ? l (v1 & V1 & ->) C1']; subst. inversion C2 as [|? y2 ? l' (v2 & V2 & E)]; subst.
  rewrite (logged_unique _ _ _ _ (Lg 0) V1 X), (logged_unique _ _ _ _ (Lg 0) V2 Y) in E. contradiction.
Qed.
End Exact.

Section B64.
Variable L : Libm.
#[local] Instance FO : Ops b64 := F64Ops L.
Context {G H : Gen b64}.

Definition nan3 : V3 b64 := mkV zero B754_nan zero.
Lemma fits64 : fitting_params 4 (gsp : SimParams b64).
Proof. exact (gsp_fits L). Qed.

(** A reference that is not a number, logged in every row: the yaw reference is
    read as the second coordinate of the position reference. *)
Lemma nan_shift : exists (sp : SimParams b64) (s : Sim b64 G H), fitting_params 4 sp /\ sim_after 4 sp [SRefYaw one; SRefPos nan3] = Some s /\
  writable (zero, s) /\ logged "y_ref" (zero, s) B754_nan /\ logged "yaw_ref" (zero, s) one /\
  forall fmt parse seen, number_printer fmt -> reads_back fmt parse seen ->
  exists file w d, log_file fmt [(zero, s)] = Some file /\ read_csv parse file = Ret (mkRead w (Some d)) /\ MPlot.col d "y_ref" = [seen one].
Proof.
  destruct (gnew_defined (G := G) 4 (sp_model gsp) (sp_seed gsp) (sp_state gsp) (proj1 fits64)) as [d0 Ed].
  { rewrite (proj1 (proj2 fits64)). lia. }
  destruct (new_params _ _ _ _ _ Ed (proj1 fits64)) as (A & B & E).
  assert (X : exists s : Sim b64 G H, sim_after 4 gsp [SRefYaw one; SRefPos nan3] = Some s /\ sm_dyn s = d0 /\ sm_act s = repeat zero 4 /\ rf_pos (sm_refs s) = nan3 /\ rf_yaw (sm_refs s) = one).
  { unfold sim_after, sim_new. rewrite Ed. cbn [option_map sim_run sim_step]. eexists. split; [reflexivity|]. split; [reflexivity|]. split; [reflexivity|]. split; reflexivity. }
  destruct X as (s & Sa & Sd & Sc & Sr & Sy).
  assert (F : four_rotors s) by (unfold four_rotors, sim_state; rewrite Sd, E, Sc; split; [reflexivity|]; split; reflexivity).
  assert (Vh : vehicle_of s (p_mass (sp_model gsp)) (p_grav (sp_model gsp))) by (exists (sp_model gsp); rewrite Sd; split; [exact B|]; split; reflexivity).
  assert (W : writable (zero, s)) by (split; [exact F|]; eexists; eexists; exact Vh).
  exists gsp, s. split; [exact fits64|]. split; [exact Sa|]. split; [exact W|].
  split. { eexists. eexists. split; [exact Vh|]. cbn [fst snd]. unfold log_columns. right. apply in_or_app. right. apply in_or_app. left. unfold ref_columns. rewrite Sr. right. left. reflexivity. }
  split. { eexists. eexists. split; [exact Vh|]. cbn [fst snd]. unfold log_columns. right. apply in_or_app. right. apply in_or_app. left. unfold ref_columns. rewrite Sy. do 3 right. left. reflexivity. }
  intros fmt parse seen N Bk.
  destruct (log_read fmt parse seen N Bk [(zero, s)] (Forall_cons _ W (Forall_nil _))) as (file & vals & d & A1 & E1 & _ & _ & C & Rd).
  inversion E1 as [|? l ? vals' (c & Cc & El) E2]; subst vals. inversion E2; subst vals'.
  exists file. eexists. exists d. split; [exact A1|]. split.
  - rewrite Rd. cbn [longest fold_right forallb]. rewrite Nat.max_0_r, Nat.eqb_refl. reflexivity.
  - rewrite (C 34%nat "y_ref" ltac:(vm_compute; reflexivity)). cbn [colk flat_map]. rewrite app_nil_r. unfold at_k.
    assert (Q : nth_error l 34 = Some one); [|rewrite Q; reflexivity].
    rewrite El. unfold row_values. cbn [fst snd]. unfold sim_state. rewrite Sd, E, Sr, Sy.
    replace (numbers_of [zero]) with [zero : b64] by (cbn [numbers_of]; replace (eqb zero zero) with true by (vm_compute; reflexivity); reflexivity).
    replace (numbers_of (xyz nan3)) with [zero : b64].
    2:{ vm_compute. reflexivity. }
    rewrite (numbers_all [one : b64]) by (constructor; [unfold number; vm_compute; reflexivity|constructor]).
    reflexivity.
Qed.

(** A log with a full row and a row with NaN. *)
Lemma mixed_case : exists s1 s2 : Sim b64 G H, sim_after 4 gsp [SRefYaw one] = Some s1 /\ sim_after 4 gsp [SRefPos nan3] = Some s2 /\
  Forall writable [(zero, s1); (one, s2)] /\ loggable (zero, s1) /\ ~ loggable (one, s2).
Proof.
  destruct (gnew_defined (G := G) 4 (sp_model gsp) (sp_seed gsp) (sp_state gsp) (proj1 fits64)) as [d0 Ed].
  { rewrite (proj1 (proj2 fits64)). lia. }
  destruct (new_params _ _ _ _ _ Ed (proj1 fits64)) as (A & B & E).
  assert (X : forall op, op = SRefYaw one \/ op = SRefPos nan3 -> exists s : Sim b64 G H, sim_after 4 gsp [op] = Some s /\ sm_dyn s = d0 /\ sm_act s = repeat zero 4 /\
     sm_ctl s = ctl_new 4 (sp_ctl gsp) /\ sm_refs s = (if match op with SRefYaw _ => true | _ => false end then mkRefs (repeat zero 4) zero LinAlg.v0 LinAlg.v0 LinAlg.v0 LinAlg.v0 one zero else mkRefs (repeat zero 4) zero LinAlg.v0 nan3 LinAlg.v0 LinAlg.v0 zero zero)).
  { intros op [-> | ->]; unfold sim_after, sim_new; rewrite Ed; cbn [option_map sim_run sim_step]; eexists; (split; [reflexivity|]); (split; [reflexivity|]); (split; [reflexivity|]); split; reflexivity. }
  assert (W : forall t (s : Sim b64 G H), sm_dyn s = d0 -> sm_act s = repeat zero 4 -> writable (t, s)).
  { intros t s Sd Sc. split; [unfold four_rotors, sim_state; cbn [snd]; rewrite Sd, E, Sc; split; [reflexivity|]; split; reflexivity|].
    eexists. eexists. exists (sp_model gsp). cbn [snd]. rewrite Sd. split; [exact B|]. split; reflexivity. }
  destruct (X _ (or_introl eq_refl)) as (s1 & S1 & D1 & A1 & C1 & R1). destruct (X _ (or_intror eq_refl)) as (s2 & S2 & D2 & A2 & _ & R2).
  cbv iota in R1, R2. exists s1, s2. split; [exact S1|]. split; [exact S2|].
  split; [constructor; [exact (W _ _ D1 A1)|constructor; [exact (W _ _ D2 A2)|constructor]]|]. split.
  - split; [exact (proj1 (W zero s1 D1 A1))|]. exists (p_mass (sp_model gsp)), (p_grav (sp_model gsp)). cbn [fst snd].
    split; [exists (sp_model gsp); rewrite D1; split; [exact B|]; split; reflexivity|]. split; [unfold number; vm_compute; reflexivity|].
    apply Forall_forall. intros c I. unfold ref_columns in I. unfold sim_state in I. rewrite D1, E, A1, C1, R1 in I. unfold number.
    repeat (destruct I as [<-|I]; [vm_compute; reflexivity|]). destruct I.
  - intros (_ & m & g & _ & _ & F). assert (N : number (B754_nan : b64)).
    { apply (proj1 (Forall_forall _ _) F ("y_ref", B754_nan)). unfold ref_columns. cbn [snd]. rewrite R2. right. left. reflexivity. }
    unfold number in N. vm_compute in N. discriminate N.
Qed.
End B64.
