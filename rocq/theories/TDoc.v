(** C111: the vehicle obeys the documented equations of motion. *)

From Coq Require Import ZArith List Bool Reals.
From Verif Require Import Scalar LinAlg MUtils MModel MDynamics SpecDyn SpecRun EBase SpecDoc PDoc EDoc.
Import ListNotations.
Local Open Scope R_scope.

(** One step without disturbances is the documented one exactly if the gravity
    term and the resistance of the air happen to agree with the documentation. *)
Theorem C111_documented_partial : forall {G : Gen R} n (d d' : Dyn R G) act dt p, vehicle n d act p -> det3 (p_inertia p) <> 0 ->
  unitq (s_ori (d_state d)) -> forward_rotors (d_state d) -> 0 < dt <= 1/100 -> process d act dt (mkV 0 0 0) false = Ok d' -> p_mass p <> 0 ->
  let s := d_state d in
  (documented_step p act s dt (d_state d') <->
   (forall a, (p_mass p - 1) * pr a (p_grav p) = drag_spec (p_drag p) (s_vel s) a - doc_drag (p_drag p) (s_ori s) (s_vel s) a) /\
   (forall a, aero_spec (p_aero p) (s_angvel s) a = doc_aero (p_aero p) (s_angvel s) a)).
Proof. exact @documented_iff. Qed.
Print Assumptions C111_documented_partial.

(** Such as: mass one, axes along the world's, not turning. *)
Theorem C111_agrees_partial : forall {G : Gen R} n (d d' : Dyn R G) act dt p, vehicle n d act p -> det3 (p_inertia p) <> 0 ->
  unitq (s_ori (d_state d)) -> forward_rotors (d_state d) -> 0 < dt <= 1/100 -> process d act dt (mkV 0 0 0) false = Ok d' -> p_mass p <> 0 ->
  let s := d_state d in
  (p_mass p = 1 \/ p_grav p = mkV 0 0 0) -> (p_drag p = 0 \/ s_vel s = mkV 0 0 0 \/ along_axes (s_ori s)) ->
  (p_aero p = mzero \/ s_angvel s = mkV 0 0 0) -> documented_step p act s dt (d_state d').
Proof. exact @documented_when. Qed.
Print Assumptions C111_agrees_partial.
Example C111_case : forall dt, 0 < dt <= 1/100 ->
  let p := ex_params 1 1 ex_grav 1 0 0 in let d := doc_dyn 1 ex_grav 1 (mkQ 1 0 0 0) (mkV 1 2 3) (mkV 0 0 0) [1;2;3;4] in
  vehicle 4 d [5;6;7;8] p /\ exists d', process d [5;6;7;8] dt (mkV 0 0 0) false = Ok d' /\ documented_step p [5;6;7;8] (d_state d) dt (d_state d').
Proof. exact steps_as_documented. Qed.

(** The force on every vehicle, compared with the documented one. *)
Theorem C111_force : forall {G : Gen R} n (d d' : Dyn R G) act dt p, vehicle n d act p ->
  forward_rotors (d_state d) -> 0 < dt <= 1/100 -> process d act dt (mkV 0 0 0) false = Ok d' -> let s := d_state d in
  forall a, pr a (s_force (d_state d')) = doc_force p s a + (1 - p_mass p) * pr a (p_grav p)
    + (drag_spec (p_drag p) (s_vel s) a - doc_drag (p_drag p) (s_ori s) (s_vel s) a).
Proof. exact @force_difference. Qed.
Print Assumptions C111_force.

(** Gravity: a vehicle of mass two falling in empty air. *)
Theorem C111_gravity_refuted : forall dt, 0 < dt <= 1/100 -> exists (d d' : Dyn R gen1) act p,
  vehicle 4 d act p /\ p_drag p = 0 /\ s_angvel (d_state d) = mkV 0 0 0 /\
  process d act dt (mkV 0 0 0) false = Ok d' /\ ~ documented_step p act (d_state d) dt (d_state d').
Proof. exact gravity_undocumented. Qed.
Print Assumptions C111_gravity_refuted.
(** Drag: mass one, heading neither along an axis nor between two. *)
Theorem C111_drag_refuted : forall dt, 0 < dt <= 1/100 -> exists (d d' : Dyn R gen1) act p,
  vehicle 4 d act p /\ p_mass p = 1 /\ s_angvel (d_state d) = mkV 0 0 0 /\
  process d act dt (mkV 0 0 0) false = Ok d' /\ ~ documented_step p act (d_state d) dt (d_state d').
Proof. exact drag_undocumented. Qed.
Print Assumptions C111_drag_refuted.
(** Aerodynamic torque: turning about one axis. *)
Theorem C111_aero_refuted : forall dt, 0 < dt <= 1/100 -> exists (d d' : Dyn R gen1) act p,
  vehicle 4 d act p /\ p_mass p = 1 /\ p_drag p = 0 /\
  process d act dt (mkV 0 0 0) false = Ok d' /\ ~ documented_step p act (d_state d) dt (d_state d').
Proof. exact aero_undocumented. Qed.
Print Assumptions C111_aero_refuted.

(** The components the documentation gives for aligned rotors follow from its
    own general formula about x and z; about y they have the wrong sign. *)
Theorem C111_components : forall ms ws acc, (forall m, In m ms -> mt_rot m = mI) ->
  doc_rotor_torque ms ws acc AX = doc_component ms ws acc AX /\ doc_rotor_torque ms ws acc AZ = doc_component ms ws acc AZ /\
  doc_rotor_torque ms ws acc AY = - doc_component ms ws acc AY.
Proof. exact components. Qed.
Print Assumptions C111_components.
Theorem C111_pitch_refuted : exists (mo : ModelObj R gen1) p, ModelReach 4 mo /\ get_params mo = Some p /\ (forall m, In m (p_motors p) -> mt_rot m = mI) /\
  exists t, get_torque_by_motors mo [1;1;2;2] [0;0;0;0] = Some t /\ vy t <> doc_component (p_motors p) [1;1;2;2] [0;0;0;0] AY.
Proof. exact pitch_undocumented. Qed.
Print Assumptions C111_pitch_refuted.

(** The summary table multiplies rate and attitude in the other order. *)
Theorem C111_attitude_refuted : forall dt, 0 < dt <= 1/100 -> exists (d d' : Dyn R gen1) act p, vehicle 4 d act p /\ unitq (s_ori (d_state d)) /\
  process d act dt (mkV 0 0 0) false = Ok d' /\
  ~ turned_by (s_ori (d_state d)) (half_q (v_times_q (s_angvel (d_state d)) (s_ori (d_state d)))) dt (s_ori (d_state d')).
Proof. exact attitude_undocumented. Qed.
Print Assumptions C111_attitude_refuted.
