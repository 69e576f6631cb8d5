(** Properties C107 to C109: the plotting script and the logs it reads. *)

From Coq Require Import ZArith NArith List Bool String Ascii Reals.
From Flocq Require Import BinarySingleNaN.
From Verif Require Import Scalar Float64 LinAlg MUtils MModel MDynamics MPid MControl MCtlRun MImu MSim MText MPlot
  SpecDyn SpecRun SpecPid SpecCtl SpecImu SpecSim SpecText SpecExample SpecPlot PPlotFig PPlotR EText EPlot.
Import ListNotations.
Local Open Scope string_scope.

(** C107: under every heading the script finds, row by row, what was logged under
    it, without a warning, and nothing under names that are not logged. *)
Theorem C107_columns :
  forall {T} {O : Ops T} {G H : Gen T} (fmt : T -> string) parse seen, number_printer fmt -> reads_back fmt parse seen ->
  forall rows : list (T * Sim T G H), rows <> [] -> Forall loggable rows ->
  exists file d, log_file fmt rows = Some file /\ read_csv parse file = Ret (mkRead None (Some d)) /\
    (forall name e v, In e rows -> logged name e v -> column seen name rows (MPlot.col d name)) /\
    (forall name, (forall e v, In e rows -> ~ logged name e v) -> MPlot.col d name = []).
Proof. exact @read_columns. Qed.
Print Assumptions C107_columns.

(** A log without rows gives empty figures. *)
Theorem C107_empty :
  forall {T} {O : Ops T} {G H : Gen T} (fmt : T -> string) parse seen, number_printer fmt -> reads_back fmt parse seen ->
  forall rows : list (T * Sim T G H), rows = [] -> exists file, log_file fmt rows = Some file /\
  read_csv parse file = Ret (mkRead (Some 0%nat) (Some [])) /\ plot_main parse file = Ret [Nothing; Nothing; Nothing; Nothing].
Proof. exact @read_none. Qed.
Print Assumptions C107_empty.

(** Some rows with NaN and some without: nothing is read and the script ends with
    an exception. *)
Theorem C107_mixed :
  forall {T} {O : Ops T} {G H : Gen T} (fmt : T -> string) parse seen, number_printer fmt -> reads_back fmt parse seen ->
  forall rows : list (T * Sim T G H), Forall writable rows -> Exists loggable rows -> Exists (fun e => ~ loggable e) rows ->
  exists file w, log_file fmt rows = Some file /\ read_csv parse file = Ret (mkRead w None) /\ plot_main parse file = Raise.
Proof. exact @read_mixed. Qed.
Print Assumptions C107_mixed.

Example C107_mixed_case : forall L, let O := F64Ops L in forall (G H : Gen b64), exists s1 s2 : Sim b64 G H,
  sim_after 4 gsp [SRefYaw one] = Some s1 /\ sim_after 4 gsp [SRefPos (mkV zero B754_nan zero)] = Some s2 /\
  Forall writable [(zero, s1); (one, s2)] /\ loggable (zero, s1) /\ ~ loggable (one, s2).
Proof. exact @mixed_case. Qed.

(** NaN in every row: the yaw reference 1 is read as the reference of y. *)
Theorem C107_nan_refuted :
  forall L, let O := F64Ops L in forall (G H : Gen b64), exists (sp : SimParams b64) (s : Sim b64 G H), fitting_params 4 sp /\
  sim_after 4 sp [SRefYaw one; SRefPos (mkV zero B754_nan zero)] = Some s /\
  writable (zero, s) /\ logged "y_ref" (zero, s) B754_nan /\ logged "yaw_ref" (zero, s) one /\
  forall fmt parse seen, number_printer fmt -> reads_back fmt parse seen ->
  exists file w d, log_file fmt [(zero, s)] = Some file /\ read_csv parse file = Ret (mkRead w (Some d)) /\
  MPlot.col d "y_ref" = [seen one].
Proof. exact @nan_shift. Qed.
Print Assumptions C107_nan_refuted.

Example C107_case : forall {G H : Gen R}, exists s : Sim R G H,
  number_printer (T := R) sign /\ reads_back sign read_sign sgn /\ Forall loggable [(0%R, s); (1%R, s)] /\
  exists file d, log_file sign [(0%R, s); (1%R, s)] = Some file /\ read_csv read_sign file = Ret (mkRead None (Some d)) /\
  MPlot.col d "x" = [1%R; 1%R] /\ MPlot.col d "y" = [(-1)%R; (-1)%R] /\ MPlot.col d "x_ref" = [(-1)%R; (-1)%R] /\
  MPlot.col d "mdw4_ref" = [].
Proof. exact @log_case. Qed.

(** C108: every panel shows, over time, the quantity it names with the reference
    and the estimate the log has for it. *)
Theorem C108_figures :
  forall {T} {O : Ops T} {G H : Gen T} (fmt : T -> string) parse seen, number_printer fmt -> reads_back fmt parse seen ->
  forall rows : list (T * Sim T G H), rows <> [] -> Forall loggable rows ->
  exists file f0 f1 f2 f3, log_file fmt rows = Some file /\ plot_main parse file = Ret [f0; f1; f2; f3] /\
    good_space seen rows f0 /\ good_figure seen rows position_figure f1 /\
    good_figure seen rows rotation_figure f2 /\ good_figure seen rows motor_figure f3.
Proof. exact @figures_good. Qed.
Print Assumptions C108_figures.

(** The error printed for a quantity is its mean distance from the reference;
    quantities without a reference get none. *)
Theorem C108_error :
  forall {G H : Gen R} (fmt : R -> string) parse seen, number_printer fmt -> reads_back fmt parse seen ->
  forall rows : list (R * Sim R G H), rows <> [] -> Forall loggable rows ->
  exists file f0 l1 l2 l3, log_file fmt rows = Some file /\ plot_main parse file = Ret [f0; Rows l1; Rows l2; Rows l3] /\
  Forall2 (Forall2 (mean_error seen rows)) position_figure l1 /\ Forall2 (Forall2 (mean_error seen rows)) rotation_figure l2 /\
  Forall2 (Forall2 (mean_error seen rows)) motor_figure l3.
Proof. exact @errors_good. Qed.
Print Assumptions C108_error.

(** For the heading this is not the angle between the two: a vehicle that faces
    exactly where it should is given an error when the reference is a turn off. *)
Theorem C108_yaw_turn_refuted :
  forall {G H : Gen R}, exists s : Sim R G H, loggable (0%R, s) /\ logged "yaw" (0%R, s) 0%R /\ logged "yaw_ref" (0%R, s) (2 * PI)%R /\
  forall fmt parse seen, number_printer fmt -> reads_back fmt parse seen -> seen 0%R <> seen (2 * PI)%R ->
  exists file f0 l1 l2 l3 p e, log_file fmt [(0%R, s)] = Some file /\ plot_main parse file = Ret [f0; Rows l1; Rows l2; Rows l3] /\
    nth_error (nth 1 l1 []) 2 = Some p /\ pn_title p = "Orientation - yaw" /\ pn_error p = Some e /\ e <> 0%R.
Proof. exact @yaw_turn. Qed.
Print Assumptions C108_yaw_turn_refuted.

Example C108_case : forall {G H : Gen R}, exists s : Sim R G H,
  number_printer (T := R) sign /\ reads_back sign read_sign sgn /\ Forall loggable [(0%R, s); (1%R, s)] /\
  exists file f0 f1 f2 f3, log_file sign [(0%R, s); (1%R, s)] = Some file /\
    plot_main read_sign file = Ret [f0; f1; f2; f3] /\ good_space sgn [(0%R, s); (1%R, s)] f0 /\
    exists v a r, f0 = Space v /\ vw_paths v = a :: r /\ pa_x a = [1%R; 1%R] /\ pa_y a = [(-1)%R; (-1)%R].
Proof. exact @figure_case. Qed.

(** C109: in the picture in space every position is within the range of x and of
    y; it is within the range of z exactly if its height is not negative. *)
Theorem C109_view :
  forall {G H : Gen R} (fmt : R -> string) parse seen, number_printer fmt -> reads_back fmt parse seen ->
  forall rows : list (R * Sim R G H), rows <> [] -> Forall loggable rows ->
  exists file v figs, log_file fmt rows = Some file /\ plot_main parse file = Ret (Space v :: figs) /\
  forall e x y z, In e rows -> logged "x" e x -> logged "y" e y -> logged "z" e z ->
  inside (vw_x v) (seen x) /\ inside (vw_y v) (seen y) /\ (inside (vw_z v) (seen z) <-> (0 <= seen z)%R).
Proof. exact @view_good. Qed.
Print Assumptions C109_view.

(** A vehicle below zero is not shown. *)
Theorem C109_below_refuted :
  forall {G H : Gen R}, exists s : Sim R G H, loggable (0%R, s) /\ logged "x" (0%R, s) 1%R /\ logged "y" (0%R, s) 2%R /\ logged "z" (0%R, s) (-2)%R /\
  forall fmt parse seen, number_printer fmt -> reads_back fmt parse seen -> (seen (-2) < 0)%R ->
  exists file v figs, log_file fmt [(0%R, s)] = Some file /\ plot_main parse file = Ret (Space v :: figs) /\
  ~ shown v (seen 1%R) (seen 2%R) (seen (-2)%R).
Proof. exact @view_low. Qed.
Print Assumptions C109_below_refuted.

(** The reference is drawn but the range does not follow it. *)
Theorem C109_reference_refuted :
  forall {G H : Gen R}, exists s : Sim R G H, loggable (0%R, s) /\ logged "x_ref" (0%R, s) 100%R /\
  forall fmt parse seen, number_printer fmt -> reads_back fmt parse seen ->
  (Rabs (seen 1) <= 3)%R -> (Rabs (seen (-2)) <= 3)%R -> (Rabs (seen 3) <= 3)%R -> (3 < seen 100)%R ->
  exists file v figs, log_file fmt [(0%R, s)] = Some file /\ plot_main parse file = Ret (Space v :: figs) /\ ~ inside (vw_x v) (seen 100%R).
Proof. exact @view_ref. Qed.
Print Assumptions C109_reference_refuted.

Example C109_case : forall {G H : Gen R}, exists s : Sim R G H,
  Forall loggable [(0%R, s)] /\ logged "x" (0%R, s) 1%R /\ logged "y" (0%R, s) (-2)%R /\ logged "z" (0%R, s) 3%R.
Proof. exact @view_case. Qed.
