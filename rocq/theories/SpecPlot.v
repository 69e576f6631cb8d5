(** Specification of reading a flight log back and drawing it. *)

From Coq Require Import ZArith NArith List Bool String Ascii Reals.
From Verif Require Import Scalar LinAlg MUtils MModel MDynamics MPid MControl MCtlRun MImu MSim MPlot SpecText.
Import ListNotations.
Local Open Scope string_scope.

(** The text of a number: not empty, at most 131072 characters, all printable
    ASCII but neither comma nor quotation mark. *)
Definition ordinary (a : ascii) : Prop :=
  (32 <= N_of_ascii a <= 126)%N /\ a <> ","%char /\ N_of_ascii a <> 34%N.
Definition number_text (s : string) : Prop :=
  s <> "" /\ (Z.of_nat (String.length s) <= 131072)%Z /\ Forall ordinary (list_ascii_of_string s).
Definition number_printer {T} (fmt : T -> string) : Prop := forall x, number_text (fmt x).
(** What is printed for [x] is read as [seen x]. *)
Definition reads_back {T} (fmt : T -> string) (parse : string -> option T) (seen : T -> T) : Prop :=
  forall x, parse (fmt x) = Some (seen x).

Section Log.
Context {T : Type} {O : Ops T} {G H : Gen T}.
(** In the row for [e] the column [name] stands for the quantity of value [v]. *)
Definition logged (name : string) (e : T * Sim T G H) (v : T) : Prop :=
  exists mass grav, vehicle_of (snd e) mass grav /\ In (name, v) (log_columns (fst e) (snd e) mass grav).
(** A list of numbers that holds, row by row, what was printed in column [name]. *)
Definition column (seen : T -> T) (name : string) (rows : list (T * Sim T G H)) (l : list T) : Prop :=
  Forall2 (fun e y => exists v, logged name e v /\ y = seen v) rows l.
(** Rows of four-rotor vehicles with accepted parameters, NaN or not. *)
Definition writable (e : T * Sim T G H) : Prop :=
  four_rotors (snd e) /\ exists mass grav, vehicle_of (snd e) mass grav.
End Log.

(** ** The figures *)
(** Panel by panel: group, quantity, whether a reference is logged for it,
    whether the odometry estimates it. *)
Definition Quantity : Type := string * string * bool * bool.
Definition position_figure : list (list Quantity) :=
  [ [("Position", "x", true, true); ("Position", "y", true, true); ("Position", "z", true, true)];
    [("Orientation", "roll", false, true); ("Orientation", "pitch", false, true); ("Orientation", "yaw", true, true)];
    [("Velocity", "vx", true, true); ("Velocity", "vy", true, true); ("Velocity", "vz", true, true)];
    [("Acceleration", "ax", true, true); ("Acceleration", "ay", true, true); ("Acceleration", "az", true, true)] ].
Definition rotation_figure : list (list Quantity) :=
  [ [("Angular velocity", "wx", true, true); ("Angular velocity", "wy", true, true); ("Angular velocity", "wz", true, true)];
    [("Angular acceleration", "dwx", true, false); ("Angular acceleration", "dwy", true, false); ("Angular acceleration", "dwz", true, false)];
    [("Force", "fx", true, false); ("Force", "fy", true, false); ("Force", "fz", true, false)];
    [("Torque", "tx", true, false); ("Torque", "ty", true, false); ("Torque", "tz", true, false)] ].
Definition motor_figure : list (list Quantity) :=
  [ [("Motor angular velocity", "mw1", true, false); ("Motor angular velocity", "mw2", true, false);
     ("Motor angular velocity", "mw3", true, false); ("Motor angular velocity", "mw4", true, false)];
    [("Motor angular acceleration", "mdw1", false, false); ("Motor angular acceleration", "mdw2", false, false);
     ("Motor angular acceleration", "mdw3", false, false); ("Motor angular acceleration", "mdw4", false, false)] ].

Section Figures.
Context {T : Type} {O : Ops T} {G H : Gen T}.
(** The panel of a quantity: one curve for the quantity, one for its reference
    and one for its estimate where the log has them, each over the time stamps
    and each made of the values logged under its label. *)
Definition good_panel (seen : T -> T) (rows : list (T * Sim T G H)) (q : Quantity) (p : Panel (T := T)) : Prop :=
  let '(group, name, has_ref, has_io) := q in
  pn_title p = group ++ " - " ++ name /\
  map cv_label (pn_curves p) =
    (name :: (if has_ref then [(name ++ "_ref")%string] else []) ++ (if has_io then [(name ++ "_io")%string] else []))%list /\
  Forall (fun c => column seen "time" rows (cv_x c) /\ column seen (cv_label c) rows (cv_y c)) (pn_curves p) /\
  (has_ref = false -> pn_error p = None).
Definition good_figure (seen : T -> T) (rows : list (T * Sim T G H)) (table : list (list Quantity)) (f : Figure (T := T)) : Prop :=
  exists l, f = Rows l /\ Forall2 (Forall2 (good_panel seen rows)) table l.
(** The picture in space: truth, estimate and reference of the position. *)
Definition good_path (seen : T -> T) (rows : list (T * Sim T G H)) (label x y z : string) (p : Path (T := T)) : Prop :=
  pa_label p = label /\ column seen x rows (pa_x p) /\ column seen y rows (pa_y p) /\ column seen z rows (pa_z p).
Definition good_space (seen : T -> T) (rows : list (T * Sim T G H)) (f : Figure (T := T)) : Prop :=
  exists v a b c, f = Space v /\ vw_paths v = [a; b; c] /\
    good_path seen rows "ground truth" "x" "y" "z" a /\
    good_path seen rows "inertial odometry" "x_io" "y_io" "z_io" b /\
    good_path seen rows "reference" "x_ref" "y_ref" "z_ref" c.
End Figures.

(** The mean distance of two lists of numbers. *)
Definition distance_sum (a b : list R) : R := fold_right Rplus 0%R (map (fun p => Rabs (fst p - snd p)%R) (combine a b)).
(** The picture shows the point. *)
Definition inside (l : R * R) (x : R) : Prop := (fst l <= x <= snd l)%R.
Definition shown (v : View (T := R)) (x y z : R) : Prop := inside (vw_x v) x /\ inside (vw_y v) y /\ inside (vw_z v) z.
(** The error printed for a quantity with a reference is the mean distance of
    the two columns; it is zero exactly when they agree in every row. *)
Definition mean_error {G H : Gen R} (seen : R -> R) (rows : list (R * Sim R G H)) (q : Quantity) (p : Panel (T := R)) : Prop :=
  let '(_, name, has_ref, _) := q in
  if has_ref : bool then
    exists gt rf e, column seen name rows gt /\ column seen (name ++ "_ref") rows rf /\ pn_error p = Some e /\
      (INR (List.length rows) * e = distance_sum gt rf)%R /\ (e = 0%R <-> gt = rf)
  else pn_error p = None.
