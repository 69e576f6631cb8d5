(** Property theorems: an example program flies what its configuration file says. *)

From Coq Require Import ZArith List Bool String Reals.
From Verif Require Import Scalar LinAlg MUtils MSim MText MExample MScript MConfig MYaml SpecText SpecExample SpecConfig SpecYaml SpecShipped PYaml PYamlMain EYaml.
Import ListNotations.
Local Open Scope string_scope.

Theorem C112 :
  forall {T} {O : Ops T} {G H : Gen T} (num : string -> option T) fmt y d tmax dt refs k, file_says num FlyExample y d ->
  setting num y "sim_time" (ofZ 10) tmax -> setting num y "dt" (lit 1 1000) dt -> listed num y "position_references" refs ->
  main_fly (G := G) (H := H) num fmt (Holds y) k = flown FlyExample (FromFile d) (position_flight fmt refs tmax dt k).
Proof. exact @fly_file. Qed.
Print Assumptions C112.

Theorem C112_velocity :
  forall {T} {O : Ops T} {G H : Gen T} (num : string -> option T) fmt y d tmax dt refs k, file_says num FlyExample y d ->
  setting num y "sim_time" (ofZ 10) tmax -> setting num y "dt" (lit 1 1000) dt -> listed num y "velocity_references" refs ->
  main_fly_velocity (G := G) (H := H) num fmt (Holds y) k = flown FlyExample (FromFile d) (velocity_flight fmt refs tmax dt k).
Proof. exact @fly_velocity_file. Qed.
Print Assumptions C112_velocity.

Theorem C112_turning :
  forall {T} {O : Ops T} {G H : Gen T} (num : string -> option T) fmt y d tmax dt refs rate k, file_says num FlyExample y d ->
  setting num y "sim_time" (ofZ 10) tmax -> setting num y "dt" (lit 1 1000) dt -> listed num y "position_references" refs ->
  setting num y "yaw_rate_reference" zero rate ->
  main_fly_yaw (G := G) (H := H) num fmt (Holds y) k = flown FlyExample (FromFile d) (yaw_rate_flight fmt rate refs tmax dt k).
Proof. exact @fly_yaw_file. Qed.
Print Assumptions C112_turning.

Theorem C112_trajectory :
  forall {T} {O : Ops T} {G H : Gen T} (num : string -> option T) fmt make y d tmax dt wps speed k, file_says num TrajExample y d ->
  setting num y "sim_time" (ofZ 10) tmax -> setting num y "dt" (lit 1 1000) dt ->
  listed num y "trajectory_generator_waypoints" wps -> setting num y "trajectory_generator_max_speed" one speed ->
  main_traj (G := G) (H := H) num fmt make (Holds y) k =
  flown TrajExample (FromFile d) (takeoff_flight fmt make wps speed tmax dt k).
Proof. exact @traj_file. Qed.
Print Assumptions C112_trajectory.

(** A file that lacks a required number is refused. *)
Theorem C112_incomplete :
  forall {T} {O : Ops T} {G H : Gen T} (num : string -> option T) fmt y k, (forall d, ~ file_says num FlyExample y d) ->
  main_fly (G := G) (H := H) num fmt (Holds y) k = Threw /\ main_fly_velocity (G := G) (H := H) num fmt (Holds y) k = Threw /\
  main_fly_yaw (G := G) (H := H) num fmt (Holds y) k = Threw.
Proof. exact @silent_fly. Qed.
Print Assumptions C112_incomplete.

Theorem C112_incomplete_trajectory :
  forall {T} {O : Ops T} {G H : Gen T} (num : string -> option T) fmt make y k, (forall d, ~ file_says num TrajExample y d) ->
  main_traj (G := G) (H := H) num fmt make (Holds y) k = Threw.
Proof. exact @silent_traj. Qed.
Print Assumptions C112_incomplete_trajectory.

(** No file: the built-in vehicle, ten seconds in steps of a millisecond, one
    reference a metre above the origin. *)
Theorem C112_absent :
  forall {T} {O : Ops T} {G H : Gen T} (num : string -> option T) fmt k,
  main_fly (G := G) (H := H) num fmt Absent k =
    flown FlyExample FromCode (position_flight fmt [mkV zero zero one] (ofZ 10) (lit 1 1000) k) /\
  main_fly_velocity (G := G) (H := H) num fmt Absent k =
    flown FlyExample FromCode (velocity_flight fmt [mkV zero zero one] (ofZ 10) (lit 1 1000) k) /\
  main_fly_yaw (G := G) (H := H) num fmt Absent k =
    flown FlyExample FromCode (yaw_rate_flight fmt zero [mkV zero zero one] (ofZ 10) (lit 1 1000) k) /\
  forall make, main_traj (G := G) (H := H) num fmt make Absent k =
    flown TrajExample FromCode (takeoff_flight fmt make [mkV zero zero one] one (ofZ 10) (lit 1 1000) k).
Proof. exact @absent_fly. Qed.
Print Assumptions C112_absent.

Theorem C112_garbled :
  forall {T} {O : Ops T} {G H : Gen T} (num : string -> option T) fmt k,
  main_fly (G := G) (H := H) num fmt Garbled k = Threw /\ main_fly_velocity (G := G) (H := H) num fmt Garbled k = Threw /\
  main_fly_yaw (G := G) (H := H) num fmt Garbled k = Threw /\ forall make, main_traj (G := G) (H := H) num fmt make Garbled k = Threw.
Proof. exact @garbled_fly. Qed.
Print Assumptions C112_garbled.

(** A reference that is no triple of numbers is refused. *)
Theorem C112_bad_triple :
  forall {T} {O : Ops T} {G H : Gen T} (num : string -> option T) fmt y d tmax dt ys e k, file_says num FlyExample y d ->
  get_simulator (G := G) (H := H) FlyExample (FromFile d) <> None ->
  setting num y "sim_time" (ofZ 10) tmax -> setting num y "dt" (lit 1 1000) dt ->
  place y [K "sim_config"; K "position_references"] (YSeq ys) -> In e ys -> (forall v, ~ vector num e [] v) ->
  main_fly (G := G) (H := H) num fmt (Holds y) k = Threw.
Proof. exact @bad_triple. Qed.
Print Assumptions C112_bad_triple.

(** A list of references without a triple in it is not refused. *)
Theorem C112_empty :
  forall {T} {O : Ops T} {G H : Gen T} (num : string -> option T) fmt y d tmax dt v k, file_says num FlyExample y d ->
  setting num y "sim_time" (ofZ 10) tmax -> setting num y "dt" (lit 1 1000) dt ->
  place y [K "sim_config"; K "position_references"] v -> no_triples v ->
  main_fly (G := G) (H := H) num fmt (Holds y) k = Undefined /\ main_fly_yaw (G := G) (H := H) num fmt (Holds y) k = Undefined.
Proof. exact @empty_refs. Qed.
Print Assumptions C112_empty.

Theorem C112_empty_refuted :
  forall {T} {O : Ops T} {G H : Gen T} (num : string -> option T), reads_table num -> forall fmt, exists y d,
  file_says num FlyExample y d /\ place y [K "sim_config"; K "position_references"] (YSeq []) /\
  forall k, main_fly (G := G) (H := H) num fmt (Holds y) k = Undefined.
Proof. exact @empty_list_undefined. Qed.
Print Assumptions C112_empty_refuted.

(** An entry with a default that is written down without a value does not get the default. *)
Theorem C112_valueless_refuted :
  forall {G H : Gen R} (num : string -> option R), reads_table num -> forall fmt name, In name ["sim_time"; "dt"] -> exists y d,
  file_says num FlyExample y d /\ place y [K "sim_config"; K name] YNull /\
  forall k, main_fly (G := G) (H := H) num fmt (Holds y) k = Threw.
Proof. exact @valueless. Qed.
Print Assumptions C112_valueless_refuted.

(** The file that is shipped. *)
Theorem C112_shipped :
  forall {T} {O : Ops T} {G H : Gen T} (num : string -> option T), reads_table num -> forall fmt k,
  main_fly (G := G) (H := H) num fmt (Holds shipped) k =
    flown FlyExample (FromFile shipped_doc) (position_flight fmt shipped_positions (ofZ 60) (lit 1 1000) k) /\
  main_fly_velocity (G := G) (H := H) num fmt (Holds shipped) k =
    flown FlyExample (FromFile shipped_doc) (velocity_flight fmt shipped_velocities (ofZ 60) (lit 1 1000) k) /\
  main_fly_yaw (G := G) (H := H) num fmt (Holds shipped) k =
    flown FlyExample (FromFile shipped_doc) (yaw_rate_flight fmt (lit 1 10) shipped_positions (ofZ 60) (lit 1 1000) k) /\
  forall make, main_traj (G := G) (H := H) num fmt make (Holds shipped) k =
    flown TrajExample (FromFile shipped_doc) (takeoff_flight fmt make shipped_waypoints (ofZ 10) (ofZ 60) (lit 1 1000) k).
Proof. exact @shipped_flies. Qed.
Print Assumptions C112_shipped.

Theorem C112_shipped_lands :
  forall {G H : Gen R} (num : string -> option R), reads_table num -> forall fmt, plain_printer fmt ->
  (forall k, sound (main_fly (G := G) (H := H) num fmt (Holds shipped) k)) /\
  exists k f, main_fly (G := G) (H := H) num fmt (Holds shipped) k = Landed f /\ (60 <= fl_t f)%R.
Proof. exact @shipped_lands. Qed.
Print Assumptions C112_shipped_lands.

(** The shipped file says something, to a reader that exists. *)
Example C112_case : forall {T} {O : Ops T} p, reads_table (look (T := T)) /\ file_says look p shipped (shipped_doc (T := T)).
Proof. exact @shipped_case. Qed.
