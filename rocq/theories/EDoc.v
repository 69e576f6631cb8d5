(** C111: vehicles that move as documented, and vehicles that do not. *)

From Coq Require Import ZArith List Bool Lia Reals Lra Psatz.
From Verif Require Import Scalar LinAlg MUtils MModel MDynamics SpecDyn SpecRun SpecMix
  PBase PDyn PModel PDynR PPhys PVeh PMix PWitDyn EBase SpecDoc PDoc.
Import ListNotations.
Local Open Scope R_scope.

(** A quarter-like turn with rational entries; the vehicle moves, turns and has rotors at speed. *)
Definition q_turned : Quat R := mkQ (4/5) 0 0 (3/5).
Definition doc_state (q : Quat R) (v w : V3 R) (ws : list R) : State R := mkState v0 q v w v0 v0 v0 v0 ws [0;0;0;0].
Definition doc_dyn (m : R) (g : V3 R) (c : R) (q : Quat R) (v w : V3 R) (ws : list R) : Dyn R gen1 :=
  mkDyn (ex_model 1 m g c 0 0) (doc_state q v w ws).

Lemma doc_vehicle m g c q v w x y z u act : 0 <= m -> 0 <= c -> length act = 4%nat ->
  vehicle 4 (doc_dyn m g c q v w [x;y;z;u]) act (ex_params 1 m g c 0 0).
Proof.
  intros Hm Hc Ha. split; [|split; [reflexivity|split; [exact Ha|reflexivity]]].
  eapply mr_new. apply ex_model_new; lra.
Qed.
Lemma doc_ready m g c q v w x y z u act : 0 <= m -> 0 <= c -> length act = 4%nat -> ready (doc_dyn m g c q v w [x;y;z;u]) act.
Proof.
  intros Hm Hc Ha. exists (ex_cfg 1 m g c 0 0). split; [reflexivity|].
  split; [apply ex_check; lra|]. split; [exact Ha|reflexivity].
Qed.
Lemma doc_moves m g c q v w x y z u act dt : 0 <= m -> 0 <= c -> length act = 4%nat -> 0 < dt <= 1/100 ->
  exists d', process (doc_dyn m g c q v w [x;y;z;u]) act dt (mkV 0 0 0) false = Ok d'.
Proof.
  intros Hm Hc Ha Hdt. destruct (process_total (doc_dyn m g c q v w [x;y;z;u]) act dt (mkV 0 0 0) false (doc_ready m g c q v w x y z u act Hm Hc Ha) ltac:(lra)) as (d' & Hd' & _).
  exists d'. exact Hd'.
Qed.
Lemma turned_unit : unitq q_turned.
Proof. unfold unitq, q_turned. cbn [qw qx qy qz]. lra. Qed.
Lemma det_one m g c : det3 (p_inertia (ex_params 1 m g c 0 0)) <> 0.
Proof. unfold det3, ex_params, mI, mdiag. cbn [p_inertia m00 m01 m02 m10 m11 m12 m20 m21 m22]. change zero with 0. change one with 1. lra. Qed.
Lemma one_along : along_axes (mkQ 1 0 0 0).
Proof. intros [] []; unfold rot_entry; cbn [qw qx qy qz]; lra. Qed.

Lemma steps_as_documented dt : 0 < dt <= 1/100 ->
  let p := ex_params 1 1 ex_grav 1 0 0 in let d := doc_dyn 1 ex_grav 1 (mkQ 1 0 0 0) (mkV 1 2 3) (mkV 0 0 0) [1;2;3;4] in
  vehicle 4 d [5;6;7;8] p /\ exists d', process d [5;6;7;8] dt (mkV 0 0 0) false = Ok d' /\ documented_step p [5;6;7;8] (d_state d) dt (d_state d').
Proof.
  intros Hdt p d.
  assert (V : vehicle 4 d [5;6;7;8] p) by (apply doc_vehicle; (lra || reflexivity)).
  split; [exact V|].
  destruct (doc_moves 1 ex_grav 1 (mkQ 1 0 0 0) (mkV 1 2 3) (mkV 0 0 0) 1 2 3 4 [5;6;7;8] dt ltac:(lra) ltac:(lra) eq_refl Hdt) as (d' & Hd'). exists d'. split; [exact Hd'|].
  refine (documented_when 4 d d' [5;6;7;8] dt p V (det_one 1 ex_grav 1) _ _ Hdt Hd' _ _ _ _).
  - unfold unitq. cbn [d doc_dyn d_state doc_state s_ori qw qx qy qz]. lra.
  - unfold forward_rotors. cbn [d doc_dyn d_state doc_state s_mvel]. repeat (apply Forall_cons; [lra|]). apply Forall_nil.
  - cbn. lra.
  - left. reflexivity.
  - right. right. exact one_along.
  - right. reflexivity.
Qed.

Section Wrong.
Variables (m : R) (g : V3 R) (c : R) (q : Quat R) (v w : V3 R).
Hypothesis (Hm : 0 < m) (Hc : 0 <= c) (Hq : unitq q).
Let p := ex_params 1 m g c 0 0.
Let d := doc_dyn m g c q v w [0;0;0;0].
Lemma wrong_iff dt : 0 < dt <= 1/100 -> exists d', vehicle 4 d [0;0;0;0] p /\ process d [0;0;0;0] dt (mkV 0 0 0) false = Ok d' /\
  (documented_step p [0;0;0;0] (d_state d) dt (d_state d') ->
   (forall a, (m - 1) * pr a g = drag_spec c v a - doc_drag c q v a) /\ (forall a, aero_spec mI w a = doc_aero mI w a)).
Proof using Hm Hc Hq.
  intros Hdt.
  assert (V : vehicle 4 d [0;0;0;0] p) by (apply doc_vehicle; (lra || reflexivity)).
  destruct (doc_moves m g c q v w 0 0 0 0 [0;0;0;0] dt ltac:(lra) Hc eq_refl Hdt) as (d' & Hd'). exists d'. split; [exact V|]. split; [exact Hd'|].
  refine (proj1 (documented_iff 4 d d' [0;0;0;0] dt p V (det_one m g c) Hq _ Hdt Hd' _)).
  - unfold forward_rotors. cbn [d doc_dyn d_state doc_state s_mvel]. repeat (apply Forall_cons; [lra|]). apply Forall_nil.
  - apply Rgt_not_eq. exact Hm.
Qed.
End Wrong.

(** Falling with mass two; flying obliquely through air; spinning in air. *)
Lemma gravity_undocumented dt : 0 < dt <= 1/100 -> exists (d d' : Dyn R gen1) act p, vehicle 4 d act p /\ p_drag p = 0 /\ s_angvel (d_state d) = mkV 0 0 0 /\
  process d act dt (mkV 0 0 0) false = Ok d' /\ ~ documented_step p act (d_state d) dt (d_state d').
Proof.
  intros Hdt. destruct (wrong_iff 2 ex_grav 0 (mkQ 1 0 0 0) (mkV 0 0 0) (mkV 0 0 0) ltac:(lra) ltac:(lra) ltac:(unfold unitq; cbn [qw qx qy qz]; lra) dt Hdt) as (d' & V & E & X).
  eexists _, d', _, _. split; [exact V|]. split; [reflexivity|]. split; [reflexivity|]. split; [exact E|].
  intros D. apply X in D. destruct D as (D & _). specialize (D AZ). rewrite drag_none in D. unfold drag_spec, ex_grav in D. cbn [pr vx vy vz] in D. lra.
Qed.
Lemma drag_undocumented dt : 0 < dt <= 1/100 -> exists (d d' : Dyn R gen1) act p, vehicle 4 d act p /\ p_mass p = 1 /\ s_angvel (d_state d) = mkV 0 0 0 /\
  process d act dt (mkV 0 0 0) false = Ok d' /\ ~ documented_step p act (d_state d) dt (d_state d').
Proof.
  intros Hdt. destruct (wrong_iff 1 ex_grav 1 q_turned (mkV 1 0 0) (mkV 0 0 0) ltac:(lra) ltac:(lra) turned_unit dt Hdt) as (d' & V & E & X).
  eexists _, d', _, _. split; [exact V|]. split; [reflexivity|]. split; [reflexivity|]. split; [exact E|].
  intros D. apply X in D. destruct D as (D & _). specialize (D AY).
  unfold doc_drag, drag_spec, to_world, vec_of in D. cbn [vx vy vz pr] in D. unfold to_body, rot_entry, q_turned in D. cbn [qw qx qy qz vx vy vz] in D.
  unfold sq_signed in D.
  rewrite (Rabs_pos_eq ((1 - 2 * (0 ^ 2 + (3/5) ^ 2)) * 1 + _ + _)) in D by lra.
  rewrite (Rabs_left (2 * (0 * 0 - 4/5 * (3/5)) * 1 + _ + _)) in D by lra. rewrite Rabs_R0 in D. lra.
Qed.
Lemma aero_undocumented dt : 0 < dt <= 1/100 -> exists (d d' : Dyn R gen1) act p, vehicle 4 d act p /\ p_mass p = 1 /\ p_drag p = 0 /\
  process d act dt (mkV 0 0 0) false = Ok d' /\ ~ documented_step p act (d_state d) dt (d_state d').
Proof.
  intros Hdt. destruct (wrong_iff 1 ex_grav 0 (mkQ 1 0 0 0) (mkV 0 0 0) (mkV 1 0 0) ltac:(lra) ltac:(lra) ltac:(unfold unitq; cbn [qw qx qy qz]; lra) dt Hdt) as (d' & V & E & X).
  eexists _, d', _, _. split; [exact V|]. split; [reflexivity|]. split; [reflexivity|]. split; [exact E|].
  intros D. apply X in D. destruct D as (_ & D). specialize (D AX).
  unfold aero_spec, doc_aero, len3, dot3, mat_vec, vec_of, mI, mdiag in D. cbn [ent cross3 vx vy vz m00 m01 m02 m10 m11 m12 m20 m21 m22] in D.
  change (@zero R ROps) with 0 in D. change (@one R ROps) with 1 in D.
  replace (1 * 1 + 0 * 0 + 0 * 0) with 1 in D by ring. rewrite sqrt_1 in D. lra.
Qed.

(** The pitch component of the documentation has the wrong sign. *)
Lemma pitch_undocumented : exists (mo : ModelObj R gen1) p, ModelReach 4 mo /\ get_params mo = Some p /\ (forall m, In m (p_motors p) -> mt_rot m = mI) /\
  exists t, get_torque_by_motors mo [1;1;2;2] [0;0;0;0] = Some t /\ vy t <> doc_component (p_motors p) [1;1;2;2] [0;0;0;0] AY.
Proof.
  exists (ex_model 1 1 ex_grav 0 0 0), (ex_params 1 1 ex_grav 0 0 0).
  assert (M : ModelReach 4 (ex_model 1 1 ex_grav 0 0 0)) by (eapply mr_new; apply ex_model_new; lra).
  split; [exact M|]. split; [reflexivity|].
  assert (Hv : forall m, In m (p_motors (ex_params 1 1 ex_grav 0 0 0)) -> mt_rot m = mI) by (intros m [<-|[<-|[<-|[<-|[]]]]]; reflexivity).
  split; [exact Hv|].
  eexists. split; [exact (api_torque 4 _ _ [1;1;2;2] [0;0;0;0] M eq_refl eq_refl eq_refl eq_refl)|].
  unfold vec_of. cbn [vy].
  change (rotor_torque (p_motors (ex_params 1 1 ex_grav 0 0 0)) [1;1;2;2] [0;0;0;0] AY <> doc_component (p_motors (ex_params 1 1 ex_grav 0 0 0)) [1;1;2;2] [0;0;0;0] AY).
  rewrite <- (torque_forward (p_motors (ex_params 1 1 ex_grav 0 0 0)) [1;1;2;2] [0;0;0;0] AY) by (repeat (apply Forall_cons; [lra|]); apply Forall_nil).
  rewrite (proj2 (proj2 (components (p_motors (ex_params 1 1 ex_grav 0 0 0)) [1;1;2;2] [0;0;0;0] Hv))).
  unfold doc_component, ex_params, ex_motors, quad_x. cbn [p_motors rotor_sum mt_pos mt_kf vx]. unR. lra.
Qed.

(** The summary of docs/Kinematics.md multiplies in the other order. *)
Lemma attitude_undocumented dt : 0 < dt <= 1/100 -> exists (d d' : Dyn R gen1) act p, vehicle 4 d act p /\ unitq (s_ori (d_state d)) /\
  process d act dt (mkV 0 0 0) false = Ok d' /\
  ~ turned_by (s_ori (d_state d)) (half_q (v_times_q (s_angvel (d_state d)) (s_ori (d_state d)))) dt (s_ori (d_state d')).
Proof.
  intros Hdt. set (d := doc_dyn 1 ex_grav 0 q_turned (mkV 0 0 0) (mkV 1 0 0) [0;0;0;0]).
  destruct (doc_moves 1 ex_grav 0 q_turned (mkV 0 0 0) (mkV 1 0 0) 0 0 0 0 [0;0;0;0] dt ltac:(lra) ltac:(lra) eq_refl Hdt) as (d' & Hd').
  assert (V : vehicle 4 d [0;0;0;0] (ex_params 1 1 ex_grav 0 0 0)) by (apply doc_vehicle; (lra || reflexivity)).
  exists d, d', [0;0;0;0], (ex_params 1 1 ex_grav 0 0 0). split; [exact V|]. split; [exact turned_unit|]. split; [exact Hd'|].
  assert (Hf : forward_rotors (d_state d)) by (unfold forward_rotors; cbn [d doc_dyn d_state doc_state s_mvel]; repeat (apply Forall_cons; [lra|]); apply Forall_nil).
  destruct (rest_documented 4 d d' [0;0;0;0] dt (ex_params 1 1 ex_grav 0 0 0) V (det_one 1 ex_grav 0) turned_unit Hdt Hd') as (_ & _ & _ & _ & _ & (_ & k & Hk & _ & _ & E1 & _)).
  intros (_ & k' & Hk' & _ & _ & E2 & _).
  cbn [d doc_dyn d_state doc_state s_ori s_angvel q_turned half_q q_times_v v_times_q qw qx qy qz vx vy vz] in E1, E2.
  set (y := qy (s_ori (d_state d'))) in *. clearbody y. nra.
Qed.
