(** Property theorems: the ready-made rotor layouts. *)

From Coq Require Import ZArith List Bool Reals.
From Verif Require Import Scalar LinAlg MUtils MModel MDynamics SpecDyn SpecRun SpecMix SpecLayout EBase PLayout.
Import ListNotations.
Local Open Scope R_scope.

(** ** C75 *)
Theorem C75_x_documented :
  forall {G : Gen R} (mo : ModelObj R G) p kf kt dx dy mn mx tau J w acc,
  ModelReach 4 mo -> get_params mo = Some p -> p_motors p = quad_x kf kt dx dy mn mx tau J ->
  length w = 4%nat -> length acc = 4%nat -> Forall (fun x => 0 <= x) w ->
  answers mo w acc (doc_x kf kt dx dy J w acc).
Proof. exact @layout_x. Qed.
Print Assumptions C75_x_documented.

Theorem C75_plus_documented :
  forall {G : Gen R} (mo : ModelObj R G) p kf kt dx dy mn mx tau J w acc,
  ModelReach 4 mo -> get_params mo = Some p -> p_motors p = quad_plus kf kt dx dy mn mx tau J ->
  length w = 4%nat -> length acc = 4%nat -> Forall (fun x => 0 <= x) w ->
  answers mo w acc (doc_plus kf kt dx dy J w acc).
Proof. exact @layout_plus. Qed.
Print Assumptions C75_plus_documented.

Theorem C75_hexagon : forall kf kt r mn mx tau J, polygon 6 r (hexa kf kt r mn mx tau J).
Proof. exact hexa_polygon. Qed.
Print Assumptions C75_hexagon.

Theorem C75_plus_square : forall kf kt r mn mx tau J, polygon 4 r (quad_plus kf kt r r mn mx tau J).
Proof. exact plus_polygon. Qed.
Print Assumptions C75_plus_square.

Theorem C75_hexa_documented_refuted : exists (mo : ModelObj R gen1) p w acc,
  ModelReach 6 mo /\ get_params mo = Some p /\ p_motors p = hexa 1 1 1 0 100 (1/10) 0 /\
  w = [1;1;1;1;1;1] /\ acc = [0;0;0;0;0;0] /\
  answers mo w acc (mkWrench 6 0 0 0) /\ wr_x (doc_hexa 1 1 1 0 w acc) = 1/2.
Proof. exact hexa_doc_refuted. Qed.
Print Assumptions C75_hexa_documented_refuted.

Example C75_case : exists (mo : ModelObj R gen1) p, ModelReach 4 mo /\ get_params mo = Some p /\
  p_motors p = quad_x 1 1 1 1 0 100 (1/10) 0 /\ answers mo [1;2;3;4] [0;0;0;0] (doc_x 1 1 1 1 0 [1;2;3;4] [0;0;0;0]) /\
  wr_x (doc_x 1 1 1 1 0 [1;2;3;4] [0;0;0;0]) = -4.
Proof. exact layout_case. Qed.

(** ** C76 *)
Theorem C76_x_every_wrench :
  forall {G : Gen R} (mo : ModelObj R G) p kf kt dx dy mn mx tau J,
  ModelReach 4 mo -> get_params mo = Some p -> p_motors p = quad_x kf kt dx dy mn mx tau J ->
  kf <> 0 -> kt <> 0 -> dx <> 0 -> dy <> 0 ->
  forall x, exists! w, length w = 4%nat /\ answers mo w [0;0;0;0] x.
Proof. exact @x_every_wrench. Qed.
Print Assumptions C76_x_every_wrench.

Theorem C76_plus_every_wrench :
  forall {G : Gen R} (mo : ModelObj R G) p kf kt dx dy mn mx tau J,
  ModelReach 4 mo -> get_params mo = Some p -> p_motors p = quad_plus kf kt dx dy mn mx tau J ->
  kf <> 0 -> kt <> 0 -> dx <> 0 -> dy <> 0 ->
  forall x, exists! w, length w = 4%nat /\ answers mo w [0;0;0;0] x.
Proof. exact @plus_every_wrench. Qed.
Print Assumptions C76_plus_every_wrench.

Theorem C76_hexa_every_wrench :
  forall {G : Gen R} (mo : ModelObj R G) p kf kt r mn mx tau J,
  ModelReach 6 mo -> get_params mo = Some p -> p_motors p = hexa kf kt r mn mx tau J ->
  kf <> 0 -> kt <> 0 -> r <> 0 ->
  forall x, exists w, length w = 6%nat /\ answers mo w [0;0;0;0;0;0] x.
Proof. exact @hexa_every_wrench. Qed.
Print Assumptions C76_hexa_every_wrench.

Example C76_case : exists (mo : ModelObj R gen1) p, ModelReach 4 mo /\ get_params mo = Some p /\
  p_motors p = quad_x 1 1 1 1 0 100 (1/10) 0 /\ answers mo [1;2;3;4] [0;0;0;0] (doc_x 1 1 1 1 0 [1;2;3;4] [0;0;0;0]) /\
  wr_x (doc_x 1 1 1 1 0 [1;2;3;4] [0;0;0;0]) = -4.
Proof. exact layout_case. Qed.

(** ** C13: the private helper that rebuilds the matrix would return the right one *)
Theorem C13_rebuilt_mixer :
  forall {T} {O : Ops T} {G : Gen T} n (mo : ModelObj T G) p, ModelReach n mo -> get_params mo = Some p ->
  get_mixer_6 mo = compute_mixer_6D n (p_motors p) /\
  get_mixer_4 mo = option_map (map (fun ft => mkV4 (vz (fst ft)) (vx (snd ft)) (vy (snd ft)) (vz (snd ft)))) (compute_mixer_6D n (p_motors p)).
Proof. exact @rebuilt_mixer. Qed.
Print Assumptions C13_rebuilt_mixer.
