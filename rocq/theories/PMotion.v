(** Proofs about whole motions over the reals. *)

From Coq Require Import ZArith List Bool Lia Reals Lra Psatz.
From Verif Require Import Scalar LinAlg MUtils MModel MDynamics SpecDyn SpecRun SpecMotion
  PBase PDyn PModel PDynR PPhys PNoise PVeh PDynMore.
Import ListNotations.
Local Open Scope R_scope.

(** ** Turned scenes *)
Lemma Q_eq (a b : Quat R) : qw a = qw b -> qx a = qx b -> qy a = qy b -> qz a = qz b -> a = b.
Proof. destruct a, b; cbn; intros -> -> -> ->; reflexivity. Qed.

Lemma turn_vadd r u v : turn r (vadd u v) = vadd (turn r u) (turn r v).
Proof. apply pr_ext; intros a. rewrite pr_vadd. unfold turn. rewrite !pr_vec_of. unfold to_world. unV. ring. Qed.
Lemma turn_vscaler r u k : turn r (vscaler u k) = vscaler (turn r u) k.
Proof. apply pr_ext; intros a. rewrite pr_vscaler. unfold turn. rewrite !pr_vec_of. unfold to_world. unV. ring. Qed.
Lemma turn_vdiv r u k : turn r (vdiv u k) = vdiv (turn r u) k.
Proof. apply pr_ext; intros a. rewrite pr_vdiv. unfold turn. rewrite !pr_vec_of. unfold to_world. unV. unfold Rdiv. ring. Qed.
Lemma turn_v0 r : turn r v0 = v0.
Proof. apply pr_ext; intros a. rewrite pr_v0. unfold turn. rewrite !pr_vec_of. unfold to_world. unV. ring. Qed.

Definition hom (q : Quat R) (a b : Ax) : R :=
  let w := qw q in let x := qx q in let y := qy q in let z := qz q in
  match a, b with
  | AX, AX => w ^ 2 + x ^ 2 - y ^ 2 - z ^ 2 | AX, AY => 2 * (x * y - w * z) | AX, AZ => 2 * (x * z + w * y)
  | AY, AX => 2 * (x * y + w * z) | AY, AY => w ^ 2 - x ^ 2 + y ^ 2 - z ^ 2 | AY, AZ => 2 * (y * z - w * x)
  | AZ, AX => 2 * (x * z - w * y) | AZ, AY => 2 * (y * z + w * x) | AZ, AZ => w ^ 2 - x ^ 2 - y ^ 2 + z ^ 2
  end.
Lemma rot_hom q a b : unitq q -> rot_entry q a b = hom q a b.
Proof. unfold unitq, rot_entry, hom. intros H. destruct a, b; lra. Qed.
Lemma hom_turnq r q a c : hom (turnq r q) a c = hom r a AX * hom q AX c + hom r a AY * hom q AY c + hom r a AZ * hom q AZ c.
Proof. destruct r as [rw rx ry rz], q as [ew ex ey ez], a, c; unfold hom, turnq; cbn [qw qx qy qz]; ring. Qed.
Lemma sq_turnq r q : qsqn (turnq r q) = qsqn r * qsqn q.
Proof. destruct r as [rw rx ry rz], q as [ew ex ey ez]; unfold qsqn, turnq; cbn [qw qx qy qz]; unR; ring. Qed.
Lemma unitq_sq q : unitq q <-> qsqn q = 1.
Proof. unfold unitq, qsqn; unR. split; intros; lra. Qed.
Lemma unitq_turnq r q : unitq r -> unitq q -> unitq (turnq r q).
Proof. rewrite !unitq_sq, sq_turnq. intros -> ->. lra. Qed.

Lemma turn_qrot r q v : unitq r -> unitq q -> turn r (qrot q v) = qrot (turnq r q) v.
Proof.
  intros Hr Hq. apply pr_ext; intros a. rewrite qrot_R. unfold turn. rewrite pr_vec_of.
  unfold to_world at 1. change (vx (qrot q v)) with (pr AX (qrot q v)).
  change (vy (qrot q v)) with (pr AY (qrot q v)). change (vz (qrot q v)) with (pr AZ (qrot q v)).
  rewrite !qrot_R. unfold to_world.
  rewrite !(rot_hom r) by exact Hr. rewrite !(rot_hom q) by exact Hq.
  rewrite !(rot_hom (turnq r q)) by (apply unitq_turnq; assumption). rewrite !hom_turnq. ring.
Qed.

Lemma turnq_integrate r q w dt : unitq r ->
  qnormalized (qadd (turnq r q) (qmap (fun x => mul x dt) (quat_derivative (turnq r q) w)))
  = turnq r (qnormalized (qadd q (qmap (fun x => mul x dt) (quat_derivative q w)))).
Proof.
  intros Hr.
  assert (E : qadd (turnq r q) (qmap (fun x => mul x dt) (quat_derivative (turnq r q) w))
    = turnq r (qadd q (qmap (fun x => mul x dt) (quat_derivative q w)))).
  { unfold quat_derivative. apply Q_eq; destruct r as [rw rx ry rz], q as [ew ex ey ez], w as [wx wy wz]; unfold turnq; unV; unfold half, lit; unR; field. }
  rewrite E. generalize (qadd q (qmap (fun x => mul x dt) (quat_derivative q w))). intros u.
  unfold qnormalized. rewrite sq_turnq. apply unitq_sq in Hr. rewrite Hr. unR. rewrite Rmult_1_l.
  destruct (Rltb 0 (qsqn u)); [|reflexivity].
  apply Q_eq; unfold turnq, qmap; cbn [qw qx qy qz]; unfold Rdiv; ring.
Qed.

Lemma turnq_length_preserved r v : unitq r -> dot3 (turn r v) (turn r v) = dot3 v v.
Proof.
  intros Hr. unfold turn, vec_of, to_world, dot3. cbn [vx vy vz]. rewrite !(rot_hom r) by exact Hr.
  apply unitq_sq in Hr. replace (vx v * vx v + vy v * vy v + vz v * vz v)
    with (qsqn r * qsqn r * (vx v * vx v + vy v * vy v + vz v * vz v)) by (rewrite Hr; ring).
  unfold hom, qsqn. unR. ring.
Qed.

Definition spun {G : Gen R} (p : Params R) (r : Quat R) (d1 d2 : Dyn R G) : Prop :=
  get_params (d_model d1) = Some p /\ d_model d1 = d_model d2 /\ unitq (s_ori (d_state d1)) /\ d_state d2 = turned r (d_state d1).

Lemma euler_core_spun {G : Gen R} p r (d1 d2 : Dyn R G) act h ext :
  unitq r -> turn r (p_grav p) = p_grav p -> (forall v, drag_force (p_drag p) (turn r v) = turn r (drag_force (p_drag p) v)) ->
  spun p r d1 d2 -> optrel (spun p r) (euler_core d1 act h ext false) (euler_core d2 act h (turn r ext) false).
Proof.
  intros Hr Hg Hd (Hp & Hm & Hu & Hs). apply get_params_cfg in Hp as [c [Hc Hcp]].
  unfold euler_core. rewrite <- Hm, Hs. cbn [bindo].
  change (mo_cfg (disable_noise (d_model d1))) with (mo_cfg (d_model d1)). rewrite Hc. cbn [bindo]. rewrite Hcp.
  cbn [turned s_pos s_ori s_vel s_angvel s_mvel].
  destruct (clamp_motors act _) as [des|]; cbn [bindo]; [|exact I].
  destruct (motors_derivative des _ _) as [macc|]; cbn [bindo]; [|exact I].
  destruct (clamp_motors (ladd _ _) _) as [mv|]; cbn [bindo]; [|exact I].
  split; [|split; [reflexivity|split]].
  - cbn [d_model]. unfold get_params. change (mo_cfg (disable_noise (d_model d1))) with (mo_cfg (d_model d1)).
    rewrite Hc. cbn. f_equal. exact Hcp.
  - cbn [d_state s_ori]. apply quat_step_unit, unitq_nonzero, Hu.
  - cbn [d_state]. unfold turned. cbn [s_pos s_ori s_vel s_angvel s_linacc s_angacc s_force s_torque s_mvel s_macc].
    cbn [mo_sforce disable_noise].
    assert (F : total_force (qrot (turnq r (s_ori (d_state d1))) (force_by_motors (cf_fmat c) (s_mvel (d_state d1))))
                 (p_grav p) (drag_force (p_drag p) (turn r (s_vel (d_state d1)))) v0 (turn r ext)
      = turn r (total_force (qrot (s_ori (d_state d1)) (force_by_motors (cf_fmat c) (s_mvel (d_state d1))))
                 (p_grav p) (drag_force (p_drag p) (s_vel (d_state d1))) v0 ext)).
    { unfold total_force. rewrite !turn_vadd, turn_v0, turn_qrot by assumption. rewrite Hg, Hd. reflexivity. }
    change (mo_sforce (disable_noise (d_model d1))) with (v0 : V3 R).
    rewrite F, !turn_vadd, !turn_vscaler, turn_vdiv, turnq_integrate by exact Hr. reflexivity.
Qed.

Lemma process_rel3 {G1 G2 : Gen R} (Rel : Dyn R G1 -> Dyn R G2 -> Prop) act dt e1 e2 n :
  (forall x y h, Rel x y -> optrel Rel (euler_core x act h e1 n) (euler_core y act h e2 n)) ->
  forall d1 d2, Rel d1 d2 -> orel Rel (process d1 act dt e1 n) (process d2 act dt e2 n).
Proof.
  intros Hs d1 d2 H. unfold process. destruct (leb dt zero); [exact H|].
  destruct (ltb dtmax dt).
  - apply for_int_rel; [exact H|]. intros x y Hxy. unfold euler_sub.
    destruct (leb dtmax zero); [exact Hxy|]. destruct (ltb dtmax dtmax); [exact I|].
    apply orel_of_opt, Hs, Hxy.
  - apply orel_of_opt, Hs, H.
Qed.

Lemma run_spun {G : Gen R} p r (l : list (Call R)) :
  unitq r -> turn r (p_grav p) = p_grav p -> (forall v, drag_force (p_drag p) (turn r v) = turn r (drag_force (p_drag p) v)) ->
  (forall c, In c l -> k_noise c = false) ->
  forall d1 d2 : Dyn R G, spun p r d1 d2 -> both (spun p r) (dyn_run d1 l) (dyn_run d2 (map (turned_call r) l)).
Proof.
  intros Hr Hg Hd. induction l as [|c l IH]; intros Hn d1 d2 H; cbn [dyn_run map]; [exact H|].
  cbn [turned_call k_act k_dt k_ext k_noise]. rewrite (Hn c (or_introl eq_refl)).
  pose proof (process_rel3 (spun p r) (k_act c) (k_dt c) (k_ext c) (turn r (k_ext c)) false
    (fun x y h Hxy => euler_core_spun p r x y (k_act c) h (k_ext c) Hr Hg Hd Hxy) d1 d2 H) as P.
  assert (IH' := IH (fun c' Hc' => Hn c' (or_intror Hc'))).
  destruct (process d1 _ _ _ _), (process d2 _ _ _ _); cbn in P; try contradiction; try exact I; apply IH'; exact P.
Qed.

Lemma turned_run {G : Gen R} (d : Dyn R G) p r (l : list (Call R)) :
  get_params (d_model d) = Some p -> unitq (s_ori (d_state d)) ->
  unitq r -> turn r (p_grav p) = p_grav p -> (forall v, drag_force (p_drag p) (turn r v) = turn r (drag_force (p_drag p) v)) ->
  (forall c, In c l -> k_noise c = false) ->
  both (fun a b => d_state b = turned r (d_state a))
    (dyn_run d l) (dyn_run (dyn_set_state d (turned r (d_state d))) (map (turned_call r) l)).
Proof.
  intros Hp Hu Hr Hg Hd Hn.
  pose proof (run_spun p r l Hr Hg Hd Hn d (dyn_set_state d (turned r (d_state d))) (conj Hp (conj eq_refl (conj Hu eq_refl)))) as X.
  destruct (dyn_run d l), (dyn_run (dyn_set_state d _) _); cbn in *; try contradiction; [apply X|exact I].
Qed.

Lemma drag_zero v : drag_force 0 v = v0.
Proof. apply pr_ext; intros a. rewrite drag_R, pr_v0. unfold drag_spec. ring. Qed.

Lemma isotropic {G : Gen R} (d : Dyn R G) p r (l : list (Call R)) :
  get_params (d_model d) = Some p -> unitq (s_ori (d_state d)) -> p_drag p = 0 ->
  unitq r -> turn r (p_grav p) = p_grav p -> (forall c, In c l -> k_noise c = false) ->
  both (fun a b => d_state b = turned r (d_state a))
    (dyn_run d l) (dyn_run (dyn_set_state d (turned r (d_state d))) (map (turned_call r) l)).
Proof.
  intros Hp Hu Hd Hr Hg Hn. apply (turned_run d p r l Hp Hu Hr Hg); [|exact Hn].
  intros v. rewrite Hd, !drag_zero, turn_v0. reflexivity.
Qed.

Lemma inv_sqrt2 : / sqrt 2 * / sqrt 2 = / 2.
Proof. rewrite <- Rinv_mult, sqrt_sqrt by lra. reflexivity. Qed.
Lemma turn_quarter v : turn quarter v = mkV (- vy v) (vx v) (vz v).
Proof.
  pose proof inv_sqrt2 as S. unfold turn, vec_of, to_world, quarter, rot_entry. cbn [qw qx qy qz].
  set (k := / sqrt 2) in *.
  assert (SX : k * k * vx v = / 2 * vx v) by (rewrite S; reflexivity).
  assert (SY : k * k * vy v = / 2 * vy v) by (rewrite S; reflexivity).
  assert (SZ : k * k * vz v = / 2 * vz v) by (rewrite S; reflexivity).
  apply V3_eq; cbn [vx vy vz]; lra.
Qed.
Lemma quarter_unit : unitq quarter.
Proof. pose proof inv_sqrt2 as S. unfold unitq, quarter. cbn [qw qx qy qz]. nra. Qed.
Lemma sq_signed_opp x : sq_signed (- x) = - sq_signed x.
Proof. unfold sq_signed. rewrite Rabs_Ropp. ring. Qed.

Lemma quarter_turn {G : Gen R} (d : Dyn R G) p (l : list (Call R)) :
  get_params (d_model d) = Some p -> unitq (s_ori (d_state d)) ->
  vx (p_grav p) = 0 -> vy (p_grav p) = 0 -> (forall c, In c l -> k_noise c = false) ->
  both (fun a b => d_state b = turned quarter (d_state a))
    (dyn_run d l) (dyn_run (dyn_set_state d (turned quarter (d_state d))) (map (turned_call quarter) l)).
Proof.
  intros Hp Hu Hx Hy Hn. apply (turned_run d p quarter l Hp Hu quarter_unit); [| |exact Hn].
  - rewrite turn_quarter, Hx, Hy. apply V3_eq; cbn [vx vy vz]; lra.
  - intros v. apply pr_ext; intros a. rewrite drag_R, !turn_quarter.
    assert (D : forall b, pr b (drag_force (p_drag p) v) = drag_spec (p_drag p) v b) by (intros b; apply drag_R).
    pose proof (D AX) as DX. pose proof (D AY) as DY. pose proof (D AZ) as DZ. unfold drag_spec in *. cbn [pr] in *.
    destruct a; cbn [pr vx vy vz]; rewrite ?DX, ?DY, ?DZ, ?sq_signed_opp; ring.
Qed.
