(** Reading a flight log back. *)

From Coq Require Import ZArith NArith List Bool String Ascii Lia.
From Verif Require Import Scalar LinAlg MUtils MModel MDynamics MPid MControl MCtlRun MImu MSim MText MPlot SpecText SpecPlot PText.
Import ListNotations.
Local Open Scope string_scope.

(** ** Splitting *)
Lemma split_pieces c s : forall cur, split_on c cur s = match pieces c s with x :: l => (cur ++ x) :: l | [] => [] end.
Proof.
  induction s as [|a r IH]; intro cur; cbn [split_on pieces].
  - rewrite app_nil. reflexivity.
  - destruct (Ascii.eqb a c).
    + rewrite app_nil, IH. destruct (pieces c r) as [|x l] eqn:E; [|reflexivity].
      exfalso. destruct r as [|b r]; cbn in E; [discriminate E|]. destruct (Ascii.eqb b c); [discriminate E|].
      destruct (pieces c r); discriminate E.
    + rewrite IH. destruct (pieces c r) as [|x l] eqn:E.
      * exfalso. destruct r as [|b r]; cbn in E; [discriminate E|]. destruct (Ascii.eqb b c); [discriminate E|].
        destruct (pieces c r); discriminate E.
      * rewrite app_as. reflexivity.
Qed.
Lemma pieces_some c s : pieces c s <> [].
Proof.
  destruct s as [|a r]; cbn; [discriminate|]. destruct (Ascii.eqb a c); [discriminate|]. destruct (pieces c r); discriminate.
Qed.
Lemma split_is c s : split_on c "" s = pieces c s.
Proof. rewrite split_pieces. pose proof (pieces_some c s). destruct (pieces c s); [contradiction|reflexivity]. Qed.

Lemma covered_app a b : all_covered (a ++ b) = all_covered a && all_covered b.
Proof. induction a as [|x a IH]; cbn; [reflexivity|]. rewrite IH, andb_assoc. reflexivity. Qed.
Lemma covered_pieces c s : covered c = true -> all_covered s = forallb all_covered (pieces c s).
Proof.
  intro C. induction s as [|a r IH]; [reflexivity|]. cbn [all_covered pieces]. destruct (Ascii.eqb_spec a c) as [->|N].
  - cbn [forallb all_covered]. rewrite C, IH. reflexivity.
  - rewrite IH. pose proof (pieces_some c r). destruct (pieces c r) as [|x l]; [contradiction|].
    cbn [forallb all_covered]. rewrite andb_assoc. reflexivity.
Qed.
Lemma ordinary_covered s : Forall ordinary (list_ascii_of_string s) -> all_covered s = true.
Proof.
  induction s as [|a r IH]; cbn; [reflexivity|]. intro F. apply andb_true_intro. split; [|exact (IH (Forall_inv_tail F))].
  destruct (Forall_inv F) as ([A B] & _ & Q). unfold covered. apply orb_true_intro. right.
  apply N.leb_le in A. apply N.leb_le in B. rewrite A, B. cbn [andb]. apply negb_true_iff, N.eqb_neq, Q.
Qed.
Lemma ordinary_free s c : c = comma \/ c = line_end -> Forall ordinary (list_ascii_of_string s) -> free_of c s.
Proof.
  intro C. induction s as [|a r IH]; cbn; [trivial|]. intro F. split; [|exact (IH (Forall_inv_tail F))].
  destruct (Forall_inv F) as ([A B] & Q & _). destruct C as [->| ->]; [exact Q|].
  intros ->. apply A. vm_compute. reflexivity.
Qed.
Lemma printer_plain {T} (fmt : T -> string) : number_printer fmt -> plain_printer fmt.
Proof. intros P x. destruct (P x) as (_ & _ & F). split; apply ordinary_free; auto. Qed.

Lemma drop_last_app l : drop_last_empty (l ++ [""])%list = l.
Proof. induction l as [|x r IH]; [reflexivity|]. destruct r as [|y r]; [reflexivity|]. cbn in *. rewrite IH. reflexivity. Qed.

(** ** Dictionaries *)
Lemma nodup_left {A} (a b : list A) : NoDup (a ++ b)%list -> NoDup a.
Proof.
  induction a as [|x a IH]; cbn; [constructor|]. intro N. inversion N as [|? ? N1 N2]; subst. constructor; [|exact (IH N2)].
  intro I. apply N1, in_or_app. left. exact I.
Qed.
Section Dict.
Context {A : Type}.
Implicit Types d l : list (string * A).
Definition keys d : list string := map fst d.
Lemma get_set d k v k' : dict_get (dict_set d k v) k' = if String.eqb k k' then Some v else dict_get d k'.
Proof.
  induction d as [|[q w] r IH]; cbn; [reflexivity|]. destruct (String.eqb_spec q k) as [->|N]; cbn.
  - destruct (String.eqb k k'); reflexivity.
  - destruct (String.eqb_spec q k') as [->|N']; [|exact IH]. destruct (String.eqb_spec k k'); [congruence|reflexivity].
Qed.
Lemma keys_set_in d k v : In k (keys d) -> keys (dict_set d k v) = keys d.
Proof.
  induction d as [|[q w] r IH]; cbn; [contradiction|]. intros [->|I].
  - rewrite String.eqb_refl. reflexivity.
  - destruct (String.eqb_spec q k) as [->|N]; cbn; [reflexivity|]. f_equal. exact (IH I).
Qed.
Lemma set_new d k v : ~ In k (keys d) -> dict_set d k v = (d ++ [(k, v)])%list.
Proof.
  induction d as [|[q w] r IH]; cbn; [reflexivity|]. intro N. destruct (String.eqb_spec q k) as [->|_]; [elim N; left; reflexivity|].
  rewrite IH; [reflexivity|]. intro I. apply N. right. exact I.
Qed.
Lemma get_none d k : ~ In k (keys d) -> dict_get d k = None.
Proof.
  induction d as [|[q w] r IH]; cbn; [reflexivity|]. intro N. destruct (String.eqb_spec q k) as [->|_]; [elim N; left; reflexivity|].
  apply IH. intro I. apply N. right. exact I.
Qed.
Lemma get_in d k v : NoDup (keys d) -> In (k, v) d -> dict_get d k = Some v.
Proof.
  induction d as [|[q w] r IH]; cbn; [contradiction|]. intros N [E|I].
  - injection E as -> ->. rewrite String.eqb_refl. reflexivity.
  - inversion N as [|? ? N1 N2]; subst. destruct (String.eqb_spec q k) as [->|_]; [|exact (IH N2 I)].
    elim N1. apply in_map_iff. exists (k, v). split; [reflexivity|exact I].
Qed.
Lemma put_new l : forall d, NoDup (keys d ++ keys l) -> dict_put l d = (d ++ l)%list.
Proof.
  induction l as [|[k v] r IH]; intros d N; cbn [dict_put fold_left].
  - symmetry; apply app_nil_r.
  - cbn [keys map fst] in N. pose proof (NoDup_remove_2 _ _ _ N) as X. cbn [fst snd]. rewrite set_new.
    + unfold dict_put in IH. rewrite IH; [rewrite <- app_assoc; reflexivity|]. unfold keys in *. rewrite map_app. cbn [map fst].
      rewrite <- app_assoc. exact N.
    + intro I. apply X. apply in_or_app. left. exact I.
Qed.
End Dict.

Lemma keys_combine {A} (names : list string) : forall l : list A, (List.length l <= List.length names)%nat ->
  keys (combine names l) = firstn (List.length l) names.
Proof.
  unfold keys. induction names as [|n r IH]; intros [|x l] E; cbn in *; try reflexivity. rewrite IH by lia. reflexivity.
Qed.
Lemma row_dict_is names row : NoDup names -> (List.length row <= List.length names)%nat ->
  row_dict names row = (combine names (map Some row) ++ map (fun k => (k, None)) (skipn (List.length row) names))%list.
Proof.
  intros N E. unfold row_dict.
  assert (Ek : keys (combine names (map Some row)) = firstn (List.length row) names).
  { rewrite keys_combine by (rewrite map_length; exact E). rewrite map_length. reflexivity. }
  assert (En : keys (map (fun k : string => (k, @None string)) (skipn (List.length row) names)) = skipn (List.length row) names).
  { unfold keys. rewrite map_map. apply map_id. }
  rewrite (put_new (combine names (map Some row)) []).
  - cbn [List.app]. apply put_new. rewrite Ek, En, firstn_skipn. exact N.
  - cbn [keys map List.app]. rewrite Ek. rewrite <- (firstn_skipn (List.length row)) in N. exact (nodup_left _ _ N).
Qed.

Section Read.
Context {T : Type} {O : Ops T}.
Variable fmt : T -> string.
Variable parse : string -> option T.
Variable seen : T -> T.
Hypothesis number : number_printer fmt.
Hypothesis back : reads_back fmt parse seen.

Lemma plain : plain_printer fmt.
Proof. exact (printer_plain fmt number). Qed.
Lemma fmt_some x : String.eqb (fmt x) "" = false.
Proof. apply String.eqb_neq, number. Qed.

Lemma col_set (d : Data (T := T)) k v k' : col (dict_set d k v) k' = if String.eqb k k' then v else col d k'.
Proof. unfold col. rewrite get_set. destruct (String.eqb k k'); reflexivity. Qed.
Lemma nones_read (d : Data (T := T)) l : read_cells parse d (map (fun k => (k, None)) l) = Ret d.
Proof. induction l as [|k r IH]; cbn; [reflexivity|exact IH]. Qed.

(** The entry a row has for the column of index [k]. *)
Definition at_k (k : nat) (vs : list T) : list T := match nth_error vs k with Some x => [seen x] | None => [] end.

Section Names.
Variable names : list string.
Hypothesis nodup : NoDup names.

Lemma cells_read vs : forall pre post (d : Data (T := T)) m rest, names = (pre ++ post)%list -> (List.length vs <= List.length post)%nat ->
  keys d = firstn (Nat.max m (List.length pre)) names ->
  (forall d', read_cells parse d' rest = Ret d') ->
  exists d', read_cells parse d (combine post (map Some (map fmt vs)) ++ rest)%list = Ret d' /\
    keys d' = firstn (Nat.max m (List.length pre + List.length vs)) names /\
    forall k name, nth_error names k = Some name ->
      col d' name = (col d name ++ (if Nat.ltb k (List.length pre) then [] else at_k (k - List.length pre) vs))%list.
Proof using number back nodup.
  induction vs as [|x vs IH]; intros pre post d m rest En Le Ek Er.
  - exists d. split; [destruct post; exact (Er d)|]. split; [cbn [List.length]; rewrite Nat.add_0_r; exact Ek|].
    intros k name _. unfold at_k. replace (nth_error (@nil T) (k - List.length pre)) with (@None T) by (destruct (k - List.length pre)%nat; reflexivity).
    destruct (Nat.ltb k (List.length pre)); symmetry; apply app_nil_r.
  - destruct post as [|p post]; [cbn in Le; lia|].
    assert (Np : nth_error names (List.length pre) = Some p) by (rewrite En, nth_error_app2, Nat.sub_diag by lia; reflexivity).
    assert (Un : forall k, nth_error names k = Some p -> k = List.length pre).
    { intros k Hk. apply (proj1 (NoDup_nth_error names) nodup); [apply nth_error_Some; congruence|congruence]. }
    assert (Kd : keys (dict_set d p (col d p ++ [seen x])%list) = firstn (Nat.max m (List.length (pre ++ [p]))) names).
    { rewrite app_length. cbn [List.length]. destruct (Nat.le_gt_cases m (List.length pre)) as [Lm|Lm].
      - rewrite set_new.
        + unfold keys in *. rewrite map_app, Ek. cbn [map fst]. rewrite (Nat.max_r m (List.length pre + 1)), Nat.max_r by lia.
          rewrite En, !firstn_app, Nat.sub_diag. replace (List.length pre + 1 - List.length pre)%nat with 1%nat by lia.
          rewrite firstn_all, (firstn_all2 (n := List.length pre + 1) pre) by lia. cbn [firstn]. rewrite app_nil_r. reflexivity.
        + rewrite Ek, Nat.max_r by lia. rewrite En, firstn_app, Nat.sub_diag, firstn_all. cbn [firstn]. rewrite app_nil_r.
          intro I. rewrite En in nodup. apply (NoDup_remove_2 _ _ _ nodup). apply in_or_app. left. exact I.
      - rewrite keys_set_in; [rewrite Ek; f_equal; lia|]. rewrite Ek. apply (nth_error_In _ (List.length pre)).
        rewrite <- Np. assert (Q : (List.length pre < Nat.max m (List.length pre))%nat) by lia. revert Q. generalize (Nat.max m (List.length pre)). intro q. clear.
        revert q. generalize (List.length pre). induction names as [|a r IH]; intros i q Q; [rewrite firstn_nil; reflexivity|].
        destruct q as [|q]; [lia|]. destruct i as [|i]; [reflexivity|]. cbn. apply IH. lia. }
    destruct (IH (pre ++ [p])%list post (dict_set d p (col d p ++ [seen x])%list) m rest) as (d' & Ed & Kk & C).
    + rewrite <- app_assoc. exact En.
    + cbn in Le. lia.
    + exact Kd.
    + exact Er.
    + exists d'. split; [|split].
      * cbn [map combine List.app read_cells]. rewrite fmt_some, (back x). exact Ed.
      * rewrite Kk, app_length. cbn [List.length]. f_equal. lia.
      * intros k name Hk. rewrite (C k name Hk), col_set, app_length. cbn [List.length].
        destruct (String.eqb_spec p name) as [<-|Nn].
        -- rewrite (Un k Hk). rewrite (proj2 (Nat.ltb_lt _ _)) by lia. rewrite (proj2 (Nat.ltb_ge _ _)) by lia.
           rewrite Nat.sub_diag. unfold at_k. cbn [nth_error]. rewrite app_nil_r. reflexivity.
        -- f_equal. destruct (Nat.ltb_spec k (List.length pre)) as [L1|L1].
           ++ rewrite (proj2 (Nat.ltb_lt _ _)) by lia. reflexivity.
           ++ assert (k <> List.length pre) by congruence. rewrite (proj2 (Nat.ltb_ge _ _)) by lia.
              unfold at_k. replace (k - List.length pre)%nat with (S (k - (List.length pre + 1))) by lia. reflexivity.
Qed.

Definition longest (vals : list (list T)) : nat := fold_right (fun r m => Nat.max (List.length r) m) 0%nat vals.
Definition colk (k : nat) (vals : list (list T)) : list T := flat_map (at_k k) vals.

Lemma csv_row_is line l : fields line = map fmt l -> l <> [] -> csv_row line = Ret (map fmt l).
Proof using number.
  intros E N. unfold csv_row. destruct (String.eqb_spec line "") as [->|_].
  { destruct l as [|x [|y l]]; [contradiction| |discriminate E]. injection E as E. exfalso. apply (proj1 (number x)). symmetry. exact E. }
  rewrite split_is. change (pieces "," line) with (fields line). rewrite E.
  replace (forallb _ (map fmt l)) with true; [reflexivity|]. symmetry. apply forallb_forall. intros f I.
  apply in_map_iff in I as (x & <- & _). apply Z.leb_le, number.
Qed.

Lemma rows_read texts vals : Forall2 (fun t l => fields t = map fmt l) texts vals ->
  Forall (fun l => l <> [] /\ (List.length l <= List.length names)%nat) vals ->
  forall (d : Data (T := T)) m, keys d = firstn m names ->
  exists d', read_rows parse names d texts = Ret d' /\ keys d' = firstn (Nat.max m (longest vals)) names /\
    forall k name, nth_error names k = Some name -> col d' name = (col d name ++ colk k vals)%list.
Proof using number back nodup.
  induction 1 as [|t l texts vals E F IH]; intros W d m Ek.
  - exists d. split; [reflexivity|]. split; [cbn; rewrite Nat.max_0_r; exact Ek|]. intros. symmetry. apply app_nil_r.
  - destruct (Forall_inv W) as [Nl Ll].
    cbn [read_rows]. rewrite (csv_row_is t l E Nl). cbn [pbind].
    destruct (cells_read l [] names d m (map (fun k => (k, None)) (skipn (List.length (map fmt l)) names)) eq_refl Ll) as (d1 & E1 & K1 & C1).
    { cbn [List.length]. rewrite Nat.max_0_r. exact Ek. }
    { intros d'. apply nones_read. }
    rewrite <- row_dict_is in E1 by (try exact nodup; rewrite map_length; exact Ll).
    destruct (IH (Forall_inv_tail W) d1 (Nat.max m (List.length l)) K1) as (d2 & E2 & K2 & C2).
    exists d2. split; [|split].
    + destruct l as [|x l]; [contradiction|]. cbn [map] in *. rewrite E1. exact E2.
    + rewrite K2. cbn [longest fold_right]. f_equal. fold (longest vals). lia.
    + intros k name Hk. rewrite (C2 k name Hk), (C1 k name Hk). cbn [List.length Nat.ltb Nat.leb]. rewrite Nat.sub_0_r, <- app_assoc. reflexivity.
Qed.
End Names.

Lemma colk_length k vals : (List.length (colk k vals) <= List.length vals)%nat /\
  (List.length (colk k vals) = List.length vals <-> Forall (fun l => (k < List.length l)%nat) vals).
Proof using.
  clear. induction vals as [|l r [IH1 IH2]]; [split; [apply le_n|split; constructor]|]. cbn [colk flat_map]. rewrite app_length. fold (colk k r).
  unfold at_k. destruct (nth_error l k) as [x|] eqn:E; cbn [List.length].
  - assert (L : (k < List.length l)%nat) by (apply nth_error_Some; congruence). split; [lia|]. split.
    + intro Q. constructor; [exact L|]. apply IH2. lia.
    + intro F. apply Forall_inv_tail in F. apply IH2 in F. lia.
  - apply nth_error_None in E. split; [lia|]. split; [lia|]. intro F. pose proof (Forall_inv F). cbn in *. lia.
Qed.
Lemma longest_ge vals : Forall (fun l => (List.length l <= longest vals)%nat) vals.
Proof using.
  clear. induction vals as [|l r IH]; constructor; cbn [longest fold_right]; fold (longest r); [lia|].
  eapply Forall_impl; [|exact IH]. cbn. intros. lia.
Qed.
Lemma longest_le n vals : Forall (fun l => (List.length l <= n)%nat) vals -> (longest vals <= n)%nat.
Proof using. clear. induction 1 as [|l r L F IH]; cbn [longest fold_right]; [lia|]. fold (longest r). lia. Qed.

Lemma same_lengths_is (d l : Data (T := T)) : has d "time" = true ->
  same_lengths d l = Ret (forallb (fun e => Nat.eqb (List.length (snd e)) (List.length (col d "time"))) l).
Proof using.
  clear. intros Ht. induction l as [|[k xs] r IH]; cbn [same_lengths forallb snd]; [reflexivity|]. rewrite Ht.
  destruct (Nat.eqb _ _); [exact IH|reflexivity].
Qed.

(** The check of the lengths: all rows have the same number of fields. *)
Lemma lengths_checked names vals (d : Data (T := T)) : NoDup names -> nth_error names 0 = Some "time" ->
  Forall (fun l => l <> [] /\ (List.length l <= List.length names)%nat) vals ->
  keys d = firstn (longest vals) names ->
  (forall k name, nth_error names k = Some name -> col d name = colk k vals) ->
  same_lengths d d = Ret (forallb (fun l => Nat.eqb (List.length l) (longest vals)) vals).
Proof using.
  clear. intros Nd Ht W Ek C. destruct vals as [|v0 vr] eqn:Ev.
  { cbn [longest fold_right firstn] in Ek. destruct d; [reflexivity|discriminate Ek]. }
  rewrite <- Ev in *. assert (W0 : v0 <> []) by (apply (Forall_inv (eq_ind _ (fun z => Forall _ z) W _ Ev))).
  assert (Lm : (0 < longest vals)%nat).
  { assert (Q0 : In v0 vals) by (rewrite Ev; left; reflexivity).
    apply (proj1 (Forall_forall _ _) (longest_ge vals)) in Q0. destruct v0; [contradiction|]. cbn in Q0. lia. }
  assert (Ln : (longest vals <= List.length names)%nat) by (apply longest_le; eapply Forall_impl; [|exact W]; cbn; tauto).
  assert (Tl : List.length (col d "time") = List.length vals).
  { rewrite (C _ _ Ht). apply colk_length. eapply Forall_impl; [|exact W]. cbn. intros l [Nl _]. destruct l; [contradiction|cbn; lia]. }
  assert (Hd : has d "time" = true).
  { unfold has. unfold col in Tl. destruct (dict_get d "time"); [reflexivity|]. rewrite Ev in Tl. discriminate Tl. }
  assert (Nk : NoDup (keys d)) by (rewrite Ek; rewrite <- (firstn_skipn (longest vals)) in Nd; exact (nodup_left _ _ Nd)).
  rewrite (same_lengths_is d d Hd). f_equal. apply eq_true_iff_eq. rewrite !forallb_forall. split.
  - intros F l I. apply Nat.eqb_eq. apply Nat.le_antisymm; [exact (proj1 (Forall_forall _ _) (longest_ge vals) l I)|].
    destruct (nth_error names (longest vals - 1)) as [name|] eqn:En; [|apply nth_error_None in En; lia].
    assert (Ik : In name (keys d)).
    { rewrite Ek. apply (nth_error_In _ (longest vals - 1)). rewrite <- En. clear - Lm. revert Lm. generalize (longest vals) as q.
      assert (X : forall (l : list string) q i, (i < q)%nat -> nth_error (firstn q l) i = nth_error l i).
      { induction l as [|a r IH]; intros q i Q; [rewrite firstn_nil; reflexivity|]. destruct q as [|q]; [lia|]. destruct i as [|i]; [reflexivity|]. apply IH. lia. }
      intros q Q. apply X. lia. }
    apply in_map_iff in Ik as ([k xs] & Ekk & Ixs). cbn [fst] in Ekk. subst k.
    pose proof (F _ Ixs) as Fx. apply Nat.eqb_eq in Fx. cbn [snd] in Fx.
    assert (Cx : col d name = xs) by (unfold col; rewrite (get_in d name xs Nk Ixs); reflexivity).
    rewrite Tl, <- Cx, (C _ _ En) in Fx. apply colk_length in Fx. pose proof (proj1 (Forall_forall _ _) Fx l I) as Q. cbn in Q. lia.
  - intros F [name xs] I. apply Nat.eqb_eq. cbn [snd]. rewrite Tl.
    assert (Ik : In name (firstn (longest vals) names)) by (rewrite <- Ek; apply in_map_iff; exists (name, xs); split; [reflexivity|exact I]).
    apply In_nth_error in Ik as [k Hk].
    assert (Lk : (k < longest vals)%nat).
    { assert (k < List.length (firstn (longest vals) names))%nat by (apply nth_error_Some; congruence). rewrite firstn_length in *. lia. }
    assert (Hk' : nth_error names k = Some name).
    { rewrite <- Hk, <- (firstn_skipn (longest vals) names) at 1. apply nth_error_app1, nth_error_Some. congruence. }
    replace xs with (col d name) by (unfold col; rewrite (get_in d name xs Nk I); reflexivity).
    rewrite (C _ _ Hk'). apply colk_length. apply Forall_forall. intros l Il. pose proof (F l Il) as Q. apply Nat.eqb_eq in Q. lia.
Qed.

(** ** The log file *)
Context {G H : Gen T}.
Definition row_is (e : T * Sim T G H) (l : list T) : Prop :=
  exists c, mo_cfg (d_model (sm_dyn (snd e))) = Some c /\ l = row_values (fst e) (snd e) c.

Lemma save_all_rows (rows : list (T * Sim T G H)) : forall os, Forall writable rows ->
  exists texts vals, save_all fmt os rows = Some (os ++ glue (map (fun r => r ++ newline) texts)) /\
    Forall (free_of line_end) texts /\ Forall2 (fun t l => fields t = map fmt l) texts vals /\ Forall2 row_is rows vals.
Proof using number.
  induction rows as [|[t s] r IH]; intros os W.
  - exists [], []. cbn. rewrite app_nil. split; [reflexivity|]. split; [constructor|]. split; constructor.
  - destruct (Forall_inv W) as [F [m [g [p [P _]]]]]. cbn [fst snd] in *.
    destruct (params_cfg s p P) as [c [C _]].
    destruct (save_text fmt plain os t s c C (macc_some s F)) as [row [S1 [FR LE]]].
    destruct (IH (os ++ row ++ newline) (Forall_inv_tail W)) as (texts & vals & A & B & D & E).
    exists (row :: texts), (row_values t s c :: vals). cbn [save_all]. rewrite S1. cbn [bindo]. rewrite A. cbn [map glue]. rewrite !app_as.
    split; [reflexivity|]. split; [constructor; assumption|]. split; [constructor; assumption|].
    constructor; [exists c; split; [exact C|reflexivity]|exact E].
Qed.
Lemma row_is_size e l : writable e -> row_is e l -> l <> [] /\ (List.length l <= 74)%nat.
Proof using.
  clear. intros [F _] (c & C & ->). split; [|apply row_values_short; exact F].
  unfold row_values. cbn [state_values xyz List.app]. destruct (numbers_of [fst e]); discriminate.
Qed.
Lemma names_facts : NoDup (fields header_line) /\ nth_error (fields header_line) 0 = Some "time" /\ List.length (fields header_line) = 74%nat.
Proof using.
  clear. split; [|split; vm_compute; reflexivity].
  assert (X : forall l, (fix go (l : list string) := match l with [] => true | x :: r => negb (existsb (String.eqb x) r) && go r end) l = true -> NoDup l).
  { induction l as [|x r IH]; intro E; [constructor|]. apply andb_prop in E as [E1 E2]. constructor; [|exact (IH E2)].
    intro I. apply negb_true_iff in E1. rewrite (proj2 (existsb_exists _ _)) in E1; [discriminate E1|]. exists x. split; [exact I|apply String.eqb_refl]. }
  apply X. vm_compute. reflexivity.
Qed.
Lemma header_row : csv_row header_line = Ret (fields header_line).
Proof using. clear. vm_compute. reflexivity. Qed.
Lemma header_covered : all_covered header_line = true.
Proof using. clear. vm_compute. reflexivity. Qed.

Lemma log_read (rows : list (T * Sim T G H)) : Forall writable rows ->
  exists file vals d, log_file fmt rows = Some file /\ Forall2 row_is rows vals /\
    Forall (fun l => l <> [] /\ (List.length l <= 74)%nat) vals /\
    keys d = firstn (longest vals) (fields header_line) /\
    (forall k name, nth_error (fields header_line) k = Some name -> col d name = colk k vals) /\
    read_csv parse file = Ret (mkRead (if Nat.eqb (longest vals) 74 then None else Some (longest vals))
                                      (if forallb (fun l => Nat.eqb (List.length l) (longest vals)) vals then Some d else None)).
Proof using number back.
  intro W. destruct (save_all_rows rows log_header W) as (texts & vals & A & B & D & E).
  destruct names_facts as (Nd & Nt & Nl).
  assert (Wv : Forall (fun l => l <> [] /\ (List.length l <= 74)%nat) vals).
  { clear - W E. induction E as [|e l rows vals X Y IH]; constructor; [exact (row_is_size e l (Forall_inv W) X)|exact (IH (Forall_inv_tail W))]. }
  assert (Wn : Forall (fun l => l <> [] /\ (List.length l <= List.length (fields header_line))%nat) vals) by (rewrite Nl; exact Wv).
  destruct (rows_read (fields header_line) Nd texts vals D Wn [] 0 eq_refl) as (d & Ed & Ek & C).
  exists (log_header ++ glue (map (fun r => r ++ newline) texts)), vals, d.
  assert (Lf : lines (log_header ++ glue (map (fun r => r ++ newline) texts)) = ((header_line :: texts) ++ [""])%list)
    by (rewrite header_split, app_as, (lines_cons _ _ header_one_line), (lines_glue texts B); reflexivity).
  cbn [Nat.max] in Ek.
  split; [exact A|]. split; [exact E|]. split; [exact Wv|]. split; [exact Ek|]. split; [exact C|].
  unfold read_csv. rewrite (covered_pieces line_end) by reflexivity. change (pieces line_end ?s) with (lines s). rewrite Lf.
  replace (forallb all_covered _) with true.
  - unfold file_lines. rewrite split_is. change (pieces (ascii_of_nat 10) ?s) with (lines s). rewrite Lf, drop_last_app, header_row. cbn [pbind].
    rewrite Ed. cbn [pbind]. rewrite (lengths_checked (fields header_line) vals d Nd Nt Wn Ek C). cbn [pbind].
    replace (List.length d) with (longest vals); [reflexivity|].
    transitivity (List.length (keys d)); [|apply map_length]. rewrite Ek, firstn_length, Nl.
    assert (longest vals <= 74)%nat by (apply longest_le; eapply Forall_impl; [|exact Wv]; cbn; tauto). lia.
  - symmetry. rewrite forallb_app. apply andb_true_intro. split; [|reflexivity].
    cbn [forallb]. rewrite header_covered. cbn [andb]. apply forallb_forall. intros t I.
    rewrite (covered_pieces comma) by reflexivity. change (pieces comma t) with (fields t).
    assert (X : exists l, fields t = map fmt l).
    { clear - D I. induction D as [|t' l' texts vals X Y IH]; [contradiction|]. destruct I as [->|I]; [exists l'; exact X|exact (IH I)]. }
    destruct X as [l ->]. apply forallb_forall. intros f J. apply in_map_iff in J as (x & <- & _). apply ordinary_covered, number.
Qed.
End Read.
