(** The shipped configuration file, and files that are not like it (C112). *)

From Coq Require Import ZArith List Bool String Lia Reals Lra.
From Verif Require Import Scalar LinAlg MUtils MModel MDynamics MPid MControl MImu MSim MText MExample MScript MConfig MYaml SpecText SpecExample SpecConfig SpecYaml SpecShipped PYaml PYamlMain PBase PConfig.
Import ListNotations.
Local Open Scope string_scope.

(** The table as a reader. *)
Fixpoint find_in {T} (s : string) (l : list (string * T)) : option T :=
  match l with [] => None | (k, x) :: r => if String.eqb k s then Some x else find_in s r end.
Lemma find_in_in {T} s (l : list (string * T)) x : find_in s l = Some x -> In (s, x) l.
Proof.
  induction l as [|(k, z) l IH]; cbn [find_in]; [discriminate|].
  destruct (String.eqb_spec k s) as [->|_]; [intros [= ->]; left; reflexivity|intros E; right; apply IH, E].
Qed.
Definition look {T} {O : Ops T} (s : string) : option T := find_in s table.

(** The shipped file with the content of one entry of sim_config exchanged. *)
Definition with_entry (name : string) (v : Yaml) : Yaml := put ["sim_config"; name] v shipped.

Section Any.
Context {T : Type} {O : Ops T} {G H : Gen T}.
Variable num : string -> option T.
Hypothesis Hn : reads_table num.
Lemma look_num s x : look s = Some x -> num s = Some x.
Proof. intros E. apply Hn, find_in_in, E. Qed.

Lemma says_by_look p y d : read_doc look p y = Got (trim p d) -> file_says num p y d.
Proof. intros E. apply (says_more look num look_num). apply trim_says. apply read_only. exact E. Qed.
Lemma number_by_look y ks x s : walk (Some y) ks = Got (Some (YText s)) -> look s = Some x -> number num y (map K ks) x.
Proof. intros W E. exists s. split; [apply walk_place, W|apply look_num, E]. Qed.
Lemma listed_by_look y name ys l : walk (Some y) ["sim_config"; name] = Got (Some (YSeq ys)) -> vectors look ys = Got l -> listed num y name l.
Proof.
  intros W E. left. exists ys. split; [apply (walk_place ["sim_config"; name]), W|]. apply vectors_only in E. clear W.
  induction E as [|e v es vs A _ IH]; [apply Forall2_nil|apply Forall2_cons; [apply (vector_more look num look_num), A|exact IH]].
Qed.
Lemma shipped_says p : file_says num p shipped shipped_doc.
Proof. apply says_by_look. destruct p; vm_compute; reflexivity. Qed.
Lemma changed_says p name v : In name ["sim_time"; "dt"; "position_references"] -> file_says num p (with_entry name v) shipped_doc.
Proof.
  intros I. apply says_by_look. cbn [In] in I. destruct I as [<-|[<-|[<-|[]]]]; destruct p; vm_compute; reflexivity.
Qed.
Lemma shipped_time : setting num shipped "sim_time" (ofZ 10) (ofZ 60).
Proof. left. apply (number_by_look shipped ["sim_config"; "sim_time"] _ "60.0"); vm_compute; reflexivity. Qed.
Lemma shipped_dt : setting num shipped "dt" (lit 1 1000) (lit 1 1000).
Proof. left. apply (number_by_look shipped ["sim_config"; "dt"] _ "0.001"); vm_compute; reflexivity. Qed.
Lemma shipped_yaw : setting num shipped "yaw_rate_reference" zero (lit 1 10).
Proof. left. apply (number_by_look shipped ["sim_config"; "yaw_rate_reference"] _ "0.1"); vm_compute; reflexivity. Qed.
Lemma shipped_speed : setting num shipped "trajectory_generator_max_speed" one (ofZ 10).
Proof. left. apply (number_by_look shipped ["sim_config"; "trajectory_generator_max_speed"] _ "10.0"); vm_compute; reflexivity. Qed.
Lemma shipped_refs : listed num shipped "position_references" shipped_positions.
Proof. eapply listed_by_look; [vm_compute; reflexivity|vm_compute; reflexivity]. Qed.
Lemma shipped_vels : listed num shipped "velocity_references" shipped_velocities.
Proof. eapply listed_by_look; [vm_compute; reflexivity|vm_compute; reflexivity]. Qed.
Lemma shipped_wps : listed num shipped "trajectory_generator_waypoints" shipped_waypoints.
Proof. eapply listed_by_look; [vm_compute; reflexivity|vm_compute; reflexivity]. Qed.

Lemma shipped_flies fmt k :
  main_fly (G := G) (H := H) num fmt (Holds shipped) k =
    flown FlyExample (FromFile shipped_doc) (position_flight fmt shipped_positions (ofZ 60) (lit 1 1000) k) /\
  main_fly_velocity (G := G) (H := H) num fmt (Holds shipped) k =
    flown FlyExample (FromFile shipped_doc) (velocity_flight fmt shipped_velocities (ofZ 60) (lit 1 1000) k) /\
  main_fly_yaw (G := G) (H := H) num fmt (Holds shipped) k =
    flown FlyExample (FromFile shipped_doc) (yaw_rate_flight fmt (lit 1 10) shipped_positions (ofZ 60) (lit 1 1000) k) /\
  forall make, main_traj (G := G) (H := H) num fmt make (Holds shipped) k =
    flown TrajExample (FromFile shipped_doc) (takeoff_flight fmt make shipped_waypoints (ofZ 10) (ofZ 60) (lit 1 1000) k).
Proof.
  refine (conj _ (conj _ (conj _ _))).
  - exact (fly_file num fmt _ _ _ _ _ _ (shipped_says _) shipped_time shipped_dt shipped_refs).
  - exact (fly_velocity_file num fmt _ _ _ _ _ _ (shipped_says _) shipped_time shipped_dt shipped_vels).
  - exact (fly_yaw_file num fmt _ _ _ _ _ _ _ (shipped_says _) shipped_time shipped_dt shipped_refs shipped_yaw).
  - intros make. exact (traj_file num fmt make _ _ _ _ _ _ _ (shipped_says _) shipped_time shipped_dt shipped_wps shipped_speed).
Qed.

(** A list without triples: the program indexes an empty vector. *)
Lemma emptied_time v : setting num (with_entry "position_references" v) "sim_time" (ofZ 10) (ofZ 60).
Proof. left. apply (number_by_look (with_entry "position_references" v) ["sim_config"; "sim_time"] _ "60.0"); vm_compute; reflexivity. Qed.
Lemma emptied_dt v : setting num (with_entry "position_references" v) "dt" (lit 1 1000) (lit 1 1000).
Proof. left. apply (number_by_look (with_entry "position_references" v) ["sim_config"; "dt"] _ "0.001"); vm_compute; reflexivity. Qed.
Lemma emptied v : place (with_entry "position_references" v) [K "sim_config"; K "position_references"] v.
Proof. apply (walk_place ["sim_config"; "position_references"]). vm_compute. reflexivity. Qed.
Lemma empty_list_undefined fmt : exists y d,
  file_says num FlyExample y d /\ place y [K "sim_config"; K "position_references"] (YSeq []) /\
  forall k, main_fly (G := G) (H := H) num fmt (Holds y) k = Undefined.
Proof.
  exists (with_entry "position_references" (YSeq [])), shipped_doc.
  assert (F : file_says num FlyExample (with_entry "position_references" (YSeq [])) shipped_doc).
  { apply changed_says. right. right. left. reflexivity. }
  refine (conj F (conj (emptied _) _)). intros k.
  refine (proj1 (empty_refs num fmt _ _ _ _ _ k F (emptied_time _) (emptied_dt _) (emptied _) _)). right. left. reflexivity.
Qed.
End Any.


Section Real.
Context {G H : Gen R}.
Variable num : string -> option R.
Hypothesis Hn : reads_table num.
Local Open Scope R_scope.
Lemma shipped_sensible : sensible (FromFile shipped_doc).
Proof.
  unfold sensible, sensible_doc, shipped_doc, thrice.
  cbv beta iota delta [yd_mass yd_inertia yd_drag yd_aero yd_kf yd_kt yd_min yd_max yd_tau yd_J yd_x yd_y vx vy vz lit].
  unR. repeat (split; [lra|]); lra.
Qed.
Lemma shipped_built p : exists s : Sim R G H, get_simulator p (FromFile shipped_doc) = Some s.
Proof. destruct (program_runs (G := G) (H := H) p (FromFile shipped_doc) [] shipped_sensible (Forall_nil _)) as (s & _ & K & _). exists s. exact K. Qed.
(** Sixty seconds of flight, no exception, no undefined behaviour. *)
Lemma shipped_lands fmt : plain_printer fmt ->
  (forall k, sound (main_fly (G := G) (H := H) num fmt (Holds shipped) k)) /\
  exists k f, main_fly (G := G) (H := H) num fmt (Holds shipped) k = Landed f /\ 60 <= fl_t f.
Proof.
  intros Pr. destruct (shipped_built FlyExample) as (s & K).
  assert (E : forall k, main_fly (G := G) (H := H) num fmt (Holds shipped) k = position_flight fmt shipped_positions (ofZ 60) (lit 1 1000) k s).
  { intros k. rewrite (proj1 (shipped_flies num Hn fmt k)). unfold flown. rewrite K. reflexivity. }
  destruct (program_tour fmt FlyExample _ s Positions shipped_positions (ofZ 60) (lit 1 1000) Pr shipped_sensible K) as (S & k & f & L & M).
  { discriminate. }
  { unfold lit. unR. lra. }
  split; [intros k'; rewrite E; exact (S k')|]. exists k, f. rewrite E. split; [exact L|exact M].
Qed.
(** An entry without a value. *)
Lemma valueless fmt name : In name ["sim_time"; "dt"] -> exists y d,
  file_says num FlyExample y d /\ place y [K "sim_config"; K name] YNull /\
  forall k, main_fly (G := G) (H := H) num fmt (Holds y) k = Threw.
Proof.
  intros I. exists (with_entry name YNull), shipped_doc.
  assert (F : file_says num FlyExample (with_entry name YNull) shipped_doc).
  { apply (changed_says num Hn); destruct I as [<-|[<-|[]]]; cbn; auto. }
  assert (P : place (with_entry name YNull) [K "sim_config"; K name] YNull).
  { apply (walk_place ["sim_config"; name]). destruct I as [<-|[<-|[]]]; vm_compute; reflexivity. }
  refine (conj F (conj P _)). intros k.
  destruct (shipped_built FlyExample) as (s & K).
  apply (bad_time num fmt _ _ YNull k name F).
  - rewrite K. discriminate.
  - destruct I as [<-|[<-|[]]]; [left; reflexivity|right]. split; [reflexivity|].
    exists (ofZ 60). left. apply (number_by_look num Hn (with_entry "dt" YNull) ["sim_config"; "sim_time"] _ "60.0"); vm_compute; reflexivity.
  - exact P.
  - intros x (t & Q & _). apply (walk_place ["sim_config"; name]) in P, Q. rewrite P in Q. discriminate.
Qed.
End Real.

(** The table names every text once. *)
Lemma look_reads {T} {O : Ops T} : reads_table (look (T := T)).
Proof.
  intros s x I. unfold table in I. cbn [In] in I.
  repeat (destruct I as [E|I]; [injection E as <- <-; vm_compute; reflexivity|]). destruct I.
Qed.
Lemma shipped_case {T} {O : Ops T} p : reads_table (look (T := T)) /\ file_says look p shipped (shipped_doc (T := T)).
Proof. split; [exact look_reads|]. exact (shipped_says look look_reads p). Qed.
