(** Properties of the text output and of the example flights. *)

From Coq Require Import ZArith List Bool String Reals.
From Verif Require Import Scalar Float64 LinAlg MUtils MModel MDynamics MPid MControl MCtlRun MImu MSim MText MExample
  SpecDyn SpecRun SpecPid SpecCtl SpecImu SpecSim SpecText SpecExample
  PBase PFloat PText PExample EBase EImu ESim EText.
Import ListNotations.
Local Open Scope string_scope.

(** ** C52 *)
Theorem C52_state_text :
  forall {T} {O : Ops T} (fmt : T -> string), plain_printer fmt -> forall st,
  s_macc st <> [] -> fields (out_state fmt "" st) = map fmt (state_values st).
Proof. exact @state_fields. Qed.
Print Assumptions C52_state_text.

Theorem C52_odometry_text :
  forall {T} {O : Ops T} (fmt : T -> string), plain_printer fmt -> forall o,
  fields (out_odom fmt "" o) = map fmt (odom_values o) /\
  fields (print_odom fmt "" o) = labelled fmt (pose_labels (od_pos o) (od_ori o) (od_vel o) (od_angvel o) (od_linacc o)).
Proof. exact @odom_texts. Qed.
Print Assumptions C52_odometry_text.

(** print_state joins the last kinematic entry to the first force entry, the
    last torque entry to the first rotor speed, and the last rotor speed to the
    first rotor acceleration. *)
Theorem C52_print_state_refuted :
  exists (fmt : R -> string) st, plain_printer fmt /\
  List.length (s_mvel st) = 4 /\ List.length (s_macc st) = 4 /\
  List.length (fields (print_state fmt "" st)) <> 18 + 6 + 2 * 4.
Proof. exact print_state_short. Qed.
Print Assumptions C52_print_state_refuted.

Theorem C52_print_state_law :
  forall {T} {O : Ops T} (fmt : T -> string), plain_printer fmt -> forall st n,
  List.length (s_mvel st) = S n -> List.length (s_macc st) = S n ->
  List.length (fields (print_state fmt "" st)) = 18 + 6 + 2 * S n - 3.
Proof. exact @print_state_fields. Qed.
Print Assumptions C52_print_state_law.

Example C52_case : plain_printer (T := R) sign /\ s_macc st_text <> [] /\
  nth 1 (fields (out_state sign "" st_text)) "" = "-1" /\ nth 6 (fields (out_state sign "" st_text)) "" = "-1" /\
  List.length (fields (out_state sign "" st_text)) = 32.
Proof. exact state_text_ex. Qed.

(** ** C62 *)
Theorem C62_log_file :
  forall {T} {O : Ops T} {G H : Gen T} (fmt : T -> string), plain_printer fmt ->
  forall rows : list (T * Sim T G H), Forall loggable rows ->
  exists header texts file, log_file fmt rows = Some file /\
    lines file = (header :: texts ++ [""])%list /\ Forall2 (row_of fmt) texts rows /\
    (forall t (s : Sim T G H) m g, four_rotors s -> fields header = map fst (log_columns t s m g)) /\
    Forall (fun row => List.length (fields row) = 74) (header :: texts).
Proof. exact @log_file_lines. Qed.
Print Assumptions C62_log_file.

Theorem C62_row_complete :
  forall {T} {O : Ops T} {G H : Gen T} (fmt : T -> string), plain_printer fmt ->
  forall os time (s : Sim T G H) mass grav, four_rotors s -> vehicle_of s mass grav ->
  exists row, save fmt os time s = Some (os ++ row ++ newline) /\ free_of line_end row /\
    List.length (fields row) <= 74 /\
    (List.length (fields row) = 74 <-> no_nan time s mass grav) /\
    (no_nan time s mass grav -> fields row = map fmt (map snd (log_columns time s mass grav))).
Proof. exact @save_row. Qed.
Print Assumptions C62_row_complete.

(** A reference that is NaN loses columns. *)
Theorem C62_nan_refuted :
  forall L, let O := F64Ops L in forall (G H : Gen b64),
  exists sp (s : Sim b64 G H) mass grav, fitting_params 4 sp /\
  sim_after 4 sp [SRefPos (nan3 L)] = Some s /\ four_rotors s /\ vehicle_of s mass grav /\
  forall fmt, plain_printer fmt -> exists row, save fmt "" zero s = Some (row ++ newline) /\ List.length (fields row) <> 74.
Proof. exact @nan_row. Qed.
Print Assumptions C62_nan_refuted.

Example C62_case : forall {G H : Gen R}, exists s : Sim R G H, loggable ((1/2)%R, s).
Proof. exact @log_ex. Qed.

(** ** C63 *)
Local Open Scope R_scope.

Theorem C63_sound :
  forall {G H : Gen R} fmt (v : Tour R) sp (ops : list (SimOp R G H)) s refs tmax dt k,
  fitting_params 4 sp -> Forall (fits 4) ops -> sim_after 4 sp ops = Some s -> four_rotors s ->
  refs <> [] -> 0 < dt <= 2147483647 / 100 -> sound (tour fmt v refs tmax dt k s).
Proof. exact @tour_sound. Qed.
Print Assumptions C63_sound.

Theorem C63_lands :
  forall {G H : Gen R} fmt (v : Tour R) sp (ops : list (SimOp R G H)) s refs tmax dt,
  plain_printer fmt -> fitting_params 4 sp -> Forall (fits 4) ops -> sim_after 4 sp ops = Some s -> four_rotors s ->
  refs <> [] -> 0 < dt <= 2147483647 / 100 ->
  exists k f, tour fmt v refs tmax dt k s = Landed f /\ tmax <= fl_t f /\
    exists n, fl_t f = INR n * dt /\ complete_log (S n) (fl_log f).
Proof. exact @tour_lands. Qed.
Print Assumptions C63_lands.

(** In binary64 the sum of the steps since the last switch exceeds the share of
    a reference while the sum since the start is still below the total. *)
Theorem C63_binary64_refuted :
  forall L, let O := F64Ops L in forall (G H : Gen b64) fmt (v : Tour b64),
  exists sp (ops : list (SimOp b64 G H)) s refs tmax dt k,
  fitting_params 4 sp /\ Forall (fits_short 4) ops /\ sim_after 4 sp ops = Some s /\ refs <> [] /\
  ltb zero dt = true /\ leb dt dtmax = true /\ ~ sound (tour fmt v refs tmax dt k s).
Proof. exact @tour_refuted. Qed.
Print Assumptions C63_binary64_refuted.

(** It does not depend on the simulator. *)
Theorem C63_binary64_overrun :
  forall L, let O := F64Ops L in forall (G H : Gen b64) fmt (v : Tour b64) sp (ops : list (SimOp b64 G H)) s a b,
  fitting_params 4 sp -> Forall (fits_short 4) ops -> sim_after 4 sp ops = Some s ->
  tour fmt v [a; b] (lit 11 10) (lit 5 1000) 225 s = Undefined.
Proof. exact @tours_overrun. Qed.
Print Assumptions C63_binary64_overrun.

(** The condition on the list is needed. *)
Theorem C63_empty_list :
  forall {T} {O : Ops T} {G H : Gen T} fmt (v : Tour T) tmax dt k (s : Sim T G H),
  ~ sound (tour fmt v [] tmax dt k s).
Proof. exact @tour_empty_unsound. Qed.
Print Assumptions C63_empty_list.

Example C63_case : forall {G H : Gen R}, exists s : Sim R G H, fitting_params 4 (sp_ex 1 4 4 st_text imp_plain) /\
  Forall (fits (G := G) (H := H) 4) [SEnableFloor (-5); SArm] /\
  sim_after 4 (sp_ex 1 4 4 st_text imp_plain) [SEnableFloor (-5); SArm] = Some s /\ four_rotors s /\
  s_pos (sim_state s) = mkV 1 (-2) 3.
Proof. exact @tour_ex. Qed.
