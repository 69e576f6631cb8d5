(** Proofs for C112: the programs on a configuration file. *)

From Coq Require Import ZArith List Bool String Lia.
From Verif Require Import Scalar LinAlg MUtils MModel MDynamics MPid MControl MImu MSim MText MExample MScript MConfig MYaml SpecYaml PYaml.
Import ListNotations.
Local Open Scope string_scope.

Section Main.
Context {T : Type} {O : Ops T} {G H : Gen T}.
Variable num : string -> option T.
Variable fmt : T -> string.

Lemma param_walk p : forall y v default, walk (Some y) p = Got (Some v) -> param_at num (Some y) p default = as_num num (Some v).
Proof.
  induction p as [|k p IH]; intros y v default W; cbn [walk param_at] in *; [injection W as ->; reflexivity|].
  apply bind_got in W. destruct W as ([u|] & E & W); [|rewrite walk_none in W; discriminate].
  rewrite E. cbn [ybind]. apply IH, W.
Qed.
Lemma no_entry_walk y name : no_entry y name -> walk (Some y) ["sim_config"; name] = Got None.
Proof.
  intros (l & -> & [N|(m & F & N)]); cbn [walk key ybind].
  - apply assoc_none in N. rewrite N. reflexivity.
  - apply assoc_first in F. rewrite F. cbn [key ybind]. apply assoc_none in N. rewrite N. reflexivity.
Qed.
Lemma no_entry_param y name default : no_entry y name -> param_at num (Some y) ["sim_config"; name] default = Got default.
Proof.
  intros (l & -> & [N|(m & F & N)]); cbn [param_at key ybind].
  - apply assoc_none in N. rewrite N. reflexivity.
  - apply assoc_first in F. rewrite F. cbn [key ybind]. apply assoc_none in N. rewrite N. reflexivity.
Qed.
Lemma setting_read y name default x : setting num y name default x -> read_yaml_param num (Holds y) ["sim_config"; name] default = Got x.
Proof.
  unfold read_yaml_param. intros [(s & P & E)|(-> & N)]; [|apply no_entry_param, N].
  apply (walk_place ["sim_config"; name]) in P. rewrite (param_walk _ _ _ _ P). cbn [as_num]. rewrite E. reflexivity.
Qed.
Lemma setting_bad y name default v : place y [K "sim_config"; K name] v -> (forall x, ~ number num y [K "sim_config"; K name] x) ->
  read_yaml_param num (Holds y) ["sim_config"; name] default = Thrown.
Proof.
  unfold read_yaml_param. intros P N. pose proof P as W. apply (walk_place ["sim_config"; name]) in W. rewrite (param_walk _ _ _ _ W).
  destruct v as [|s| |]; try reflexivity. cbn [as_num]. destruct (num s) as [x|] eqn:E; [|reflexivity].
  destruct (N x). exists s. split; assumption.
Qed.
Lemma vectors_read ys l : Forall2 (fun e v => vector num e [] v) ys l -> vectors num ys = Got l.
Proof.
  induction 1 as [|e v ys l E _ IH]; cbn [vectors]; [reflexivity|]. apply vec_node_says in E. rewrite E, IH. reflexivity.
Qed.
Lemma vectors_bad ys e : In e ys -> (forall v, ~ vector num e [] v) -> vectors num ys = Thrown.
Proof.
  induction ys as [|a ys IH]; intros I N; [destruct I|]. cbn [vectors]. destruct I as [->|I].
  - destruct (vec_node num (Some e)) as [v|] eqn:E; [|reflexivity]. apply vec_node_says in E. now destruct (N v).
  - destruct (vec_node num (Some a)) as [v|]; [|reflexivity]. cbn [ybind]. rewrite (IH I N). reflexivity.
Qed.
Lemma listed_read y name l : listed num y name l -> get_references num (Holds y) name = Got l.
Proof.
  unfold get_references. intros [(ys & P & F)|(-> & N)].
  - apply (walk_place ["sim_config"; name]) in P. rewrite P. cbn [ybind]. apply vectors_read, F.
  - rewrite no_entry_walk by exact N. reflexivity.
Qed.
Lemma listed_bad y name ys e : place y [K "sim_config"; K name] (YSeq ys) -> In e ys -> (forall v, ~ vector num e [] v) ->
  get_references num (Holds y) name = Thrown.
Proof.
  unfold get_references. intros P I N. apply (walk_place ["sim_config"; name]) in P. rewrite P. cbn [ybind]. exact (vectors_bad _ _ I N).
Qed.
Lemma listed_empty y name v : place y [K "sim_config"; K name] v -> no_triples v -> get_references num (Holds y) name = Got [].
Proof.
  unfold get_references. intros P N. apply (walk_place ["sim_config"; name]) in P. rewrite P. cbn [ybind].
  destruct N as [->|[->|[->|(s & ->)]]]; reflexivity.
Qed.

Lemma file_sim {B} p y d (go : Sim T G H -> Watch B) : file_says num p y d -> with_sim num p (Holds y) go = flown p (FromFile d) go.
Proof.
  intros F. unfold with_sim, program_source, flown. rewrite (read_back _ _ _ _ F). cbn [ybind or_throw]. rewrite trim_same. reflexivity.
Qed.
Lemma silent_sim {B} p y (go : Sim T G H -> Watch B) : (forall d, ~ file_says num p y d) -> with_sim num p (Holds y) go = Threw.
Proof.
  intros F. unfold with_sim, program_source. destruct (read_doc num p y) as [d|] eqn:E; [|reflexivity].
  now destruct (F d (read_only _ _ _ _ E)).
Qed.
Lemma times_read y tmax dt : setting num y "sim_time" (ofZ 10) tmax -> setting num y "dt" (lit 1 1000) dt -> get_sim_time num (Holds y) = Got (tmax, dt).
Proof. intros A B. unfold get_sim_time. rewrite (setting_read _ _ _ _ A), (setting_read _ _ _ _ B). reflexivity. Qed.

Lemma flown_ext {B} p c (f g : Sim T G H -> Watch B) : (forall s, f s = g s) -> flown p c f = flown p c g.
Proof. intros E. unfold flown. destruct (get_simulator p c); [apply E|reflexivity]. Qed.

Lemma fly_file y d tmax dt refs k : file_says num FlyExample y d ->
  setting num y "sim_time" (ofZ 10) tmax -> setting num y "dt" (lit 1 1000) dt -> listed num y "position_references" refs ->
  main_fly (G := G) (H := H) num fmt (Holds y) k = flown FlyExample (FromFile d) (position_flight fmt refs tmax dt k).
Proof.
  intros F A B L. unfold main_fly. rewrite (file_sim _ _ _ _ F). apply flown_ext. intros s.
  rewrite (times_read _ _ _ A B), (listed_read _ _ _ L). reflexivity.
Qed.
Lemma fly_velocity_file y d tmax dt refs k : file_says num FlyExample y d ->
  setting num y "sim_time" (ofZ 10) tmax -> setting num y "dt" (lit 1 1000) dt -> listed num y "velocity_references" refs ->
  main_fly_velocity (G := G) (H := H) num fmt (Holds y) k = flown FlyExample (FromFile d) (velocity_flight fmt refs tmax dt k).
Proof.
  intros F A B L. unfold main_fly_velocity. rewrite (file_sim _ _ _ _ F). apply flown_ext. intros s.
  rewrite (times_read _ _ _ A B), (listed_read _ _ _ L). reflexivity.
Qed.
Lemma fly_yaw_file y d tmax dt refs rate k : file_says num FlyExample y d ->
  setting num y "sim_time" (ofZ 10) tmax -> setting num y "dt" (lit 1 1000) dt -> listed num y "position_references" refs ->
  setting num y "yaw_rate_reference" zero rate ->
  main_fly_yaw (G := G) (H := H) num fmt (Holds y) k = flown FlyExample (FromFile d) (yaw_rate_flight fmt rate refs tmax dt k).
Proof.
  intros F A B L Q. unfold main_fly_yaw. rewrite (file_sim _ _ _ _ F). apply flown_ext. intros s.
  rewrite (times_read _ _ _ A B), (listed_read _ _ _ L). cbn [or_throw]. destruct refs as [|r refs]; [reflexivity|].
  unfold get_yaw_rate_reference. rewrite (setting_read _ _ _ _ Q). reflexivity.
Qed.
Lemma traj_file make y d tmax dt wps speed k : file_says num TrajExample y d ->
  setting num y "sim_time" (ofZ 10) tmax -> setting num y "dt" (lit 1 1000) dt -> listed num y "trajectory_generator_waypoints" wps ->
  setting num y "trajectory_generator_max_speed" one speed ->
  main_traj (G := G) (H := H) num fmt make (Holds y) k = flown TrajExample (FromFile d) (takeoff_flight fmt make wps speed tmax dt k).
Proof.
  intros F A B L Q. unfold main_traj. rewrite (file_sim _ _ _ _ F). apply flown_ext. intros s.
  rewrite (times_read _ _ _ A B), (listed_read _ _ _ L). cbn [or_throw].
  unfold get_max_speed. rewrite (setting_read _ _ _ _ Q). reflexivity.
Qed.

Lemma silent_fly y k : (forall d, ~ file_says num FlyExample y d) ->
  main_fly (G := G) (H := H) num fmt (Holds y) k = Threw /\ main_fly_velocity (G := G) (H := H) num fmt (Holds y) k = Threw /\
  main_fly_yaw (G := G) (H := H) num fmt (Holds y) k = Threw.
Proof. intros F. repeat split; apply silent_sim, F. Qed.
Lemma silent_traj make y k : (forall d, ~ file_says num TrajExample y d) -> main_traj (G := G) (H := H) num fmt make (Holds y) k = Threw.
Proof. intros F. apply silent_sim, F. Qed.

Lemma absent_fly k :
  main_fly (G := G) (H := H) num fmt Absent k =
    flown FlyExample FromCode (position_flight fmt [mkV zero zero one] (ofZ 10) (lit 1 1000) k) /\
  main_fly_velocity (G := G) (H := H) num fmt Absent k =
    flown FlyExample FromCode (velocity_flight fmt [mkV zero zero one] (ofZ 10) (lit 1 1000) k) /\
  main_fly_yaw (G := G) (H := H) num fmt Absent k =
    flown FlyExample FromCode (yaw_rate_flight fmt zero [mkV zero zero one] (ofZ 10) (lit 1 1000) k) /\
  forall make, main_traj (G := G) (H := H) num fmt make Absent k =
    flown TrajExample FromCode (takeoff_flight fmt make [mkV zero zero one] one (ofZ 10) (lit 1 1000) k).
Proof. repeat split; reflexivity. Qed.
Lemma garbled_fly k :
  main_fly (G := G) (H := H) num fmt Garbled k = Threw /\ main_fly_velocity (G := G) (H := H) num fmt Garbled k = Threw /\
  main_fly_yaw (G := G) (H := H) num fmt Garbled k = Threw /\ forall make, main_traj (G := G) (H := H) num fmt make Garbled k = Threw.
Proof. repeat split; reflexivity. Qed.

(** An entry that is there and cannot be used is not replaced by its default. *)
Lemma bad_time y d v k name : file_says num FlyExample y d -> get_simulator (G := G) (H := H) FlyExample (FromFile d) <> None ->
  name = "sim_time" \/ (name = "dt" /\ exists tmax, setting num y "sim_time" (ofZ 10) tmax) ->
  place y [K "sim_config"; K name] v -> (forall x, ~ number num y [K "sim_config"; K name] x) ->
  main_fly (G := G) (H := H) num fmt (Holds y) k = Threw.
Proof.
  intros F Df Nm P N. unfold main_fly. rewrite (file_sim _ _ _ _ F). unfold flown.
  destruct (get_simulator FlyExample (FromFile d)) as [s|]; [|now destruct Df]. unfold get_sim_time.
  destruct Nm as [->|(-> & tmax & S)].
  - rewrite (setting_bad _ _ (ofZ 10) _ P N). reflexivity.
  - rewrite (setting_read _ _ _ _ S). cbn [ybind]. rewrite (setting_bad _ _ (lit 1 1000) _ P N). reflexivity.
Qed.
Lemma bad_triple y d tmax dt ys e k : file_says num FlyExample y d -> get_simulator (G := G) (H := H) FlyExample (FromFile d) <> None ->
  setting num y "sim_time" (ofZ 10) tmax -> setting num y "dt" (lit 1 1000) dt ->
  place y [K "sim_config"; K "position_references"] (YSeq ys) -> In e ys -> (forall v, ~ vector num e [] v) ->
  main_fly (G := G) (H := H) num fmt (Holds y) k = Threw.
Proof.
  intros F Df A B P I N. unfold main_fly. rewrite (file_sim _ _ _ _ F). unfold flown.
  destruct (get_simulator FlyExample (FromFile d)) as [s|]; [|now destruct Df].
  rewrite (times_read _ _ _ A B), (listed_bad _ _ _ _ P I N). reflexivity.
Qed.
Lemma empty_refs y d tmax dt v k : file_says num FlyExample y d ->
  setting num y "sim_time" (ofZ 10) tmax -> setting num y "dt" (lit 1 1000) dt ->
  place y [K "sim_config"; K "position_references"] v -> no_triples v ->
  main_fly (G := G) (H := H) num fmt (Holds y) k = Undefined /\ main_fly_yaw (G := G) (H := H) num fmt (Holds y) k = Undefined.
Proof.
  intros F A B P N. unfold main_fly, main_fly_yaw. rewrite !(file_sim _ _ _ _ F). unfold flown.
  destruct (get_simulator FlyExample (FromFile d)) as [s|]; [|split; reflexivity].
  rewrite (times_read _ _ _ A B), (listed_empty _ _ _ P N). split; reflexivity.
Qed.
End Main.
