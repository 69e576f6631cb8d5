(** Model of examples/plot_results.py, run without --auto_update: reading the log
    and drawing the four figures.

    Python floats have the arithmetic [O]; [parse] is float(text), None where it
    raises ValueError.  Of Python's csv module the treatment of printable ASCII
    other than the quotation mark is modelled (default dialect "excel"); a text
    with other characters gives [Beyond].  Colours, line styles, legends and the
    windows themselves are not modelled. *)

From Coq Require Import ZArith NArith List Bool String Ascii.
From Verif Require Import Scalar.
Import ListNotations.
Local Open Scope string_scope.

(** A Python call: it returns, it raises an exception, or it meets a text the
    model does not cover. *)
Inductive Py (A : Type) : Type := Ret (a : A) | Raise | Beyond.
Arguments Ret {A} a.
Arguments Raise {A}.
Arguments Beyond {A}.
Definition pbind {A B} (x : Py A) (f : A -> Py B) : Py B :=
  match x with Ret a => f a | Raise => Raise | Beyond => Beyond end.

(** ** csv.DictReader (plot_results.py:133-134) *)

(** Line feeds and printable ASCII other than the quotation mark. *)
Definition covered (a : ascii) : bool :=
  let n := N_of_ascii a in
  (N.eqb n 10 || (N.leb 32 n && N.leb n 126 && negb (N.eqb n 34)))%bool.
Fixpoint all_covered (s : string) : bool :=
  match s with EmptyString => true | String a r => covered a && all_covered r end.

(** Reading up to each separator [c]; [cur] is what was read since the last one. *)
Fixpoint split_on (c : ascii) (cur : string) (s : string) : list string :=
  match s with
  | EmptyString => [cur]
  | String a r => if Ascii.eqb a c then cur :: split_on c "" r else split_on c (cur ++ String a "") r
  end.
(** The lines of an open file: the text after the last line feed is a line
    only if there is any. *)
Fixpoint drop_last_empty (l : list string) : list string :=
  match l with
  | [] => []
  | [x] => if String.eqb x "" then [] else [x]
  | x :: r => x :: drop_last_empty r
  end.
Definition file_lines (s : string) : list string := drop_last_empty (split_on (ascii_of_nat 10) "" s).
(** csv.reader: an empty line is the empty row; a field of more than 131072
    characters raises csv.Error. *)
Definition csv_row (line : string) : Py (list string) :=
  if String.eqb line "" then Ret []
  else let r := split_on "," "" line in
       if forallb (fun f => Z.leb (Z.of_nat (String.length f)) 131072) r then Ret r else Raise.

(** A dict in the order of insertion; assigning to a present key keeps its place. *)
Fixpoint dict_set {A} (d : list (string * A)) (k : string) (v : A) : list (string * A) :=
  match d with
  | [] => [(k, v)]
  | (k', v') :: r => if String.eqb k' k then (k, v) :: r else (k', v') :: dict_set r k v
  end.
Fixpoint dict_get {A} (d : list (string * A)) (k : string) : option A :=
  match d with
  | [] => None
  | (k', v) :: r => if String.eqb k' k then Some v else dict_get r k
  end.
Definition dict_put {A} (l : list (string * A)) (d : list (string * A)) : list (string * A) :=
  fold_left (fun d e => dict_set d (fst e) (snd e)) l d.
(** csv.DictReader.__next__: dict(zip(names, row)), and None for the names the
    row is too short for.  The fields a row has too many become a list under the
    key None; the loop of line 139 passes over it (line 141), it is left out. *)
Definition row_dict (names row : list string) : list (string * option string) :=
  dict_put (map (fun k => (k, None)) (skipn (List.length row) names))
    (dict_put (combine names (map Some row)) []).

Section Plot.
Context {T : Type} {O : Ops T}.
Variable parse : string -> option T.

(** ** read_csv (plot_results.py:127-156) *)
Definition Data : Type := list (string * list T).
(** [data[key]] of a defaultdict(list): the empty list for a key not there.  The
    key this adds is seen by no later code: each figure reads the file anew and
    only line 151 goes through the keys (see [same_lengths]). *)
Definition col (d : Data) (k : string) : list T := match dict_get d k with Some l => l | None => [] end.
Definition has (d : Data) (k : string) : bool := match dict_get d k with Some _ => true | None => false end.

(** Lines 139-144: the cells of a row, up to the first empty one. *)
Fixpoint read_cells (d : Data) (cells : list (string * option string)) : Py Data :=
  match cells with
  | [] => Ret d
  | (_, None) :: r => read_cells d r
  | (k, Some v) :: r =>
    if String.eqb v "" then Ret d
    else match parse v with
         | Some x => read_cells (dict_set d k (col d k ++ [x])%list) r
         | None => Raise
         end
  end.
(** Lines 137-144; csv.DictReader passes over empty rows. *)
Fixpoint read_rows (names : list string) (d : Data) (rows : list string) : Py Data :=
  match rows with
  | [] => Ret d
  | l :: r => pbind (csv_row l) (fun row =>
      match row with
      | [] => read_rows names d r
      | _ => pbind (read_cells d (row_dict names row)) (fun d' => read_rows names d' r)
      end)
  end.
(** Lines 151-154.  If there is no key 'time', asking for it adds it to the
    dictionary that is being gone through, which raises RuntimeError in the next
    round. *)
Fixpoint same_lengths (d : Data) (l : Data) : Py bool :=
  match l with
  | [] => Ret true
  | (_, xs) :: r =>
    if Nat.eqb (List.length xs) (List.length (col d "time"))
    then (if has d "time" then same_lengths d r else Raise)
    else Ret false
  end.
(** The warning of lines 147-148, with the number it prints, and the dictionary
    returned (None: nothing is returned, line 154). *)
Record Read := mkRead { rd_warn : option nat; rd_data : option Data }.
Definition read_csv (text : string) : Py Read :=
  if all_covered text then
    pbind (match file_lines text with
           | [] => Ret []
           | h :: rows => pbind (csv_row h) (fun names => read_rows names [] rows)
           end)
    (fun d =>
      let n := List.length d in
      pbind (same_lengths d d) (fun ok =>
        Ret (mkRead (if Nat.eqb n 74 then None else Some n) (if ok then Some d else None))))
  else Beyond.

(** ** Drawing *)
(** A curve: its label and its points. *)
Record Curve := mkCurve { cv_label : string; cv_x : list T; cv_y : list T }.
(** A panel: its title and its curves; with it the mean error printed for it, if any. *)
Record Panel := mkPanel { pn_title : string; pn_curves : list Curve; pn_error : option T }.

(** axs[i].plot(x, y): ValueError unless x and y have the same length. *)
Definition plot2 (label : string) (xs ys : list T) : Py Curve :=
  if Nat.eqb (List.length xs) (List.length ys) then Ret (mkCurve label xs ys) else Raise.

(** plot_results.py:58-63 compute_mean_error.  value_ref[i] raises IndexError
    beyond its end.  np.mean adds in an order of its own; in exact arithmetic the
    order does not matter. *)
Fixpoint abs_errors (gt ref : list T) : Py (list T) :=
  match gt, ref with
  | [], _ => Ret []
  | x :: g, y :: r => pbind (abs_errors g r) (fun l => Ret (absT (sub x y) :: l))
  | _ :: _, [] => Raise
  end.
Definition mean (l : list T) : T := div (fold_left add l zero) (ofZ (Z.of_nat (List.length l))).
Definition compute_mean_error (gt ref : list T) : Py T := pbind (abs_errors gt ref) (fun l => Ret (mean l)).

(** A curve that is drawn if the list is not empty (lines 75, 81). *)
Definition plot_if (label : string) (xs ys : list T) : Py (list Curve) :=
  match ys with [] => Ret [] | _ => pbind (plot2 label xs ys) (fun c => Ret [c]) end.

(** plot_results.py:66-94 plot_values with PRINT_ERROR set; [axes] is the number
    of panels in the row, an index beyond raises IndexError. *)
Fixpoint plot_values (d : Data) (values : list string) (title : string) (axes : nat) : Py (list Panel) :=
  match values, axes with
  | [], _ => Ret []
  | _ :: _, Datatypes.O => Raise
  | v :: r, Datatypes.S axes' =>
    pbind (plot2 v (col d "time") (col d v)) (fun c =>
    let vr := v ++ "_ref" in let vi := v ++ "_io" in
    pbind (plot_if vr (col d "time") (col d vr)) (fun cr =>
    pbind (plot_if vi (col d "time") (col d vi)) (fun ci =>
    pbind (match col d vr with
           | [] => Ret None
           | _ => pbind (compute_mean_error (col d v) (col d vr)) (fun e => Ret (Some e))
           end) (fun e =>
    pbind (plot_values d r title axes') (fun ps =>
    Ret (mkPanel (title ++ " - " ++ v) (c :: cr ++ ci) e :: ps))))))
  end.

(** np.min and np.max of a list that is not empty; ValueError otherwise. *)
Definition foldn (f : T -> T -> T) (l : list T) : Py T :=
  match l with
  | [] => Raise
  | x :: r => Ret (fold_left f r x)
  end.
Definition min2 (x y : T) : T := if ltb y x then y else x.
Definition max2 (x y : T) : T := if ltb x y then y else x.

(** A curve in space, and the picture of figure 0 with the limits of its axes. *)
Record Path := mkPath { pa_label : string; pa_x : list T; pa_y : list T; pa_z : list T }.
Record View := mkView { vw_paths : list Path; vw_x : T * T; vw_y : T * T; vw_z : T * T }.
(** axs.plot(x, y, z): an error unless the lengths agree.  (Lists of one point
    would be repeated by numpy; all lists come from read_csv, so their length is
    that of 'time' or 0, and line 119 raises for lists of unequal length.) *)
Definition plot3 (label : string) (xs ys zs : list T) : Py Path :=
  if Nat.eqb (List.length xs) (List.length ys) && Nat.eqb (List.length xs) (List.length zs)
  then Ret (mkPath label xs ys zs) else Raise.
Definition plot3_if (label : string) (xs ys zs : list T) : Py (list Path) :=
  match xs with [] => Ret [] | _ => pbind (plot3 label xs ys zs) (fun c => Ret [c]) end.

(** plot_results.py:97-124 plot_values_3d. *)
Definition plot_values_3d (d : Data) (vx vy vz : string) : Py View :=
  let x := col d vx in let y := col d vy in let z := col d vz in
  pbind (plot3 "ground truth" x y z) (fun p =>
  pbind (plot3_if "inertial odometry" (col d (vx ++ "_io")) (col d (vy ++ "_io")) (col d (vz ++ "_io"))) (fun pi =>
  pbind (plot3_if "reference" (col d (vx ++ "_ref")) (col d (vy ++ "_ref")) (col d (vz ++ "_ref"))) (fun pr =>
  pbind (foldn min2 (x ++ y ++ z)%list) (fun mn =>
  pbind (foldn max2 (x ++ y ++ z)%list) (fun mx =>
  let min_xyz := mul mone (absT mn) in
  let mm := max2 (absT min_xyz) (absT mx) in
  Ret (mkView (p :: pi ++ pr)%list (mul mone mm, mm) (mul mone mm, mm) (mul zero mm, mm))))))).

(** What a figure shows; [Nothing]: "No data to plot". *)
Inductive Figure := Nothing | Space (v : View) | Rows (l : list (list Panel)).

(** [data['time']] of what read_csv returned: None is not subscriptable, which
    raises TypeError (lines 162, 199, 216). *)
Definition with_data (text : string) (f : Data -> Py Figure) : Py Figure :=
  pbind (read_csv text) (fun r =>
    match rd_data r with
    | None => Raise
    | Some d => match col d "time" with [] => Ret Nothing | _ => f d end
    end).

(** plot_results.py:159-168 update_plot_figure0. *)
Definition figure0 (text : string) : Py Figure :=
  with_data text (fun d => pbind (plot_values_3d d "x" "y" "z") (fun v => Ret (Space v))).

(** Rows of panels one after the other. *)
Fixpoint plot_rows (d : Data) (axes : nat) (l : list (list string * string)) : Py (list (list Panel)) :=
  match l with
  | [] => Ret []
  | (values, title) :: r => pbind (plot_values d values title axes) (fun ps =>
      pbind (plot_rows d axes r) (fun rs => Ret (ps :: rs)))
  end.

(** plot_results.py:171-193 update_plot_figure1; this one looks whether there
    are data (lines 174-176). *)
Definition figure1 (text : string) : Py Figure :=
  pbind (read_csv text) (fun r =>
    match rd_data r with
    | None => Ret Nothing
    | Some d => match col d "time" with
      | [] => Ret Nothing
      | _ => pbind (plot_rows d 3 [(["x"; "y"; "z"], "Position"); (["roll"; "pitch"; "yaw"], "Orientation");
                                   (["vx"; "vy"; "vz"], "Velocity"); (["ax"; "ay"; "az"], "Acceleration")])
                   (fun l => Ret (Rows l))
      end
    end).
(** plot_results.py:196-210 update_plot_figure2. *)
Definition figure2 (text : string) : Py Figure :=
  with_data text (fun d =>
    pbind (plot_rows d 3 [(["wx"; "wy"; "wz"], "Angular velocity"); (["dwx"; "dwy"; "dwz"], "Angular acceleration");
                          (["fx"; "fy"; "fz"], "Force"); (["tx"; "ty"; "tz"], "Torque")])
          (fun l => Ret (Rows l))).
(** plot_results.py:213-228 update_plot_figure3. *)
Definition figure3 (text : string) : Py Figure :=
  with_data text (fun d =>
    pbind (plot_rows d 4 [(["mw1"; "mw2"; "mw3"; "mw4"], "Motor angular velocity");
                          (["mdw1"; "mdw2"; "mdw3"; "mdw4"], "Motor angular acceleration")])
          (fun l => Ret (Rows l))).

(** plot_results.py:268-271: main without --auto_update. *)
Definition plot_main (text : string) : Py (list Figure) :=
  pbind (figure0 text) (fun f0 => pbind (figure1 text) (fun f1 =>
  pbind (figure2 text) (fun f2 => pbind (figure3 text) (fun f3 => Ret [f0; f1; f2; f3])))).
End Plot.
