(** Proofs about the ready-made rotor layouts. *)

From Coq Require Import ZArith List Bool Lia Reals Lra Psatz.
From Verif Require Import Scalar LinAlg MUtils MModel MDynamics SpecDyn SpecRun SpecMix SpecLayout
  PBase PDyn PModel PDynR PPhys EBase PVeh PMix.
Import ListNotations.
Local Open Scope R_scope.

Lemma list4 {A} (w : list A) : length w = 4%nat -> exists a b c d, w = [a;b;c;d].
Proof. intros H. do 4 (destruct w as [|? w]; [discriminate|]). destruct w; [|discriminate]. eauto. Qed.
Lemma list6 {A} (w : list A) : length w = 6%nat -> exists a b c d e f, w = [a;b;c;d;e;f].
Proof. intros H. do 6 (destruct w as [|? w]; [discriminate|]). destruct w; [|discriminate]. eauto 8. Qed.

Lemma sq_forward x : 0 <= x -> sq_signed x = x * x.
Proof. intros H. unfold sq_signed. rewrite Rabs_right by lra. reflexivity. Qed.

Lemma answers_sum {G : Gen R} n (mo : ModelObj R G) p w acc x :
  ModelReach n mo -> get_params mo = Some p -> length (p_motors p) = n -> length w = n -> length acc = n ->
  (answers mo w acc x <->
   rotor_force (p_motors p) w AX = 0 /\ rotor_force (p_motors p) w AY = 0 /\ rotor_force (p_motors p) w AZ = wr_thrust x /\
   rotor_torque (p_motors p) w acc AX = wr_x x /\ rotor_torque (p_motors p) w acc AY = wr_y x /\
   rotor_torque (p_motors p) w acc AZ = wr_z x).
Proof.
  intros Hr Hp Hl Hw Ha. unfold answers.
  rewrite (api_force n mo p w Hr Hp Hl Hw), (api_torque n mo p w acc Hr Hp Hl Hw Ha). unfold vec_of. split.
  - intros [A B]. injection A as A1 A2 A3. injection B as B1 B2 B3. split; [exact A1|split; [exact A2|split; [exact A3|split; [exact B1|split; [exact B2|exact B3]]]]].
  - intros (A1 & A2 & A3 & B1 & B2 & B3). rewrite A1, A2, A3, B1, B2, B3. split; reflexivity.
Qed.

Ltac rows := unfold row; cbn [map combine fold_right fst snd].
Ltac six := split; [|split; [|split; [|split; [|split]]]].

Lemma forward_list w : Forall (fun x => 0 <= x) w -> map sq_signed w = map (fun x => x * x) w.
Proof. induction 1 as [|x w Hx _ IH]; [reflexivity|]. cbn. rewrite (sq_forward x Hx), IH. reflexivity. Qed.

Lemma layout_x {G : Gen R} (mo : ModelObj R G) p kf kt dx dy mn mx tau J w acc :
  ModelReach 4 mo -> get_params mo = Some p -> p_motors p = quad_x kf kt dx dy mn mx tau J ->
  length w = 4%nat -> length acc = 4%nat -> Forall (fun x => 0 <= x) w ->
  answers mo w acc (doc_x kf kt dx dy J w acc).
Proof.
  intros Hr Hp Hm Hw Ha Hf.
  apply (answers_sum 4 mo p w acc _ Hr Hp); [rewrite Hm; reflexivity|exact Hw|exact Ha|]. rewrite Hm.
  unfold doc_x, documented. rewrite <- (forward_list w Hf). cbn [wr_thrust wr_x wr_y wr_z].
  destruct (list4 w Hw) as (a & b & c & d & ->). destruct (list4 acc Ha) as (e & f & g & h & ->).
  unfold quad_x. rows. six; cfg_sum; ring.
Qed.
Lemma layout_plus {G : Gen R} (mo : ModelObj R G) p kf kt dx dy mn mx tau J w acc :
  ModelReach 4 mo -> get_params mo = Some p -> p_motors p = quad_plus kf kt dx dy mn mx tau J ->
  length w = 4%nat -> length acc = 4%nat -> Forall (fun x => 0 <= x) w ->
  answers mo w acc (doc_plus kf kt dx dy J w acc).
Proof.
  intros Hr Hp Hm Hw Ha Hf.
  apply (answers_sum 4 mo p w acc _ Hr Hp); [rewrite Hm; reflexivity|exact Hw|exact Ha|]. rewrite Hm.
  unfold doc_plus, documented. rewrite <- (forward_list w Hf). cbn [wr_thrust wr_x wr_y wr_z].
  destruct (list4 w Hw) as (a & b & c & d & ->). destruct (list4 acc Ha) as (e & f & g & h & ->).
  unfold quad_plus. rows. six; cfg_sum; ring.
Qed.

Lemma hexa_polygon kf kt r mn mx tau J : polygon 6 r (hexa kf kt r mn mx tau J).
Proof.
  split; [reflexivity|]. intros i m H.
  assert (C2 : cos (2 * (PI/3)) = - cos (PI/3)).
  { replace (2 * (PI/3)) with (PI - PI/3) by field. rewrite Rtrigo_facts.cos_pi_minus. reflexivity. }
  assert (S2 : sin (2 * (PI/3)) = sin (PI/3)).
  { replace (2 * (PI/3)) with (PI - PI/3) by field. rewrite Rtrigo_facts.sin_pi_minus. reflexivity. }
  destruct i as [|[|[|[|[|[|i]]]]]]; cbn [nth_error hexa] in H.
  all: try (destruct i; discriminate).
  all: injection H as <-; split; [|split; reflexivity]; cbn [mt_pos]; cbn [INR]; unR; apply V3_eq; cbn [vx vy vz]; try reflexivity.
  - replace (2 * PI * 0 / _) with 0 by field. rewrite cos_0. ring.
  - replace (2 * PI * 0 / _) with 0 by field. rewrite sin_0. ring.
  - f_equal. f_equal. field.
  - f_equal. f_equal. field.
  - replace (2 * PI * _ / _) with (2 * (PI/3)) by field. rewrite C2. ring.
  - replace (2 * PI * _ / _) with (2 * (PI/3)) by field. rewrite S2. ring.
  - replace (2 * PI * _ / _) with PI by field. rewrite cos_PI. ring.
  - replace (2 * PI * _ / _) with PI by field. rewrite sin_PI. ring.
  - replace (2 * PI * _ / _) with (PI/3 + PI) by field. rewrite neg_cos. ring.
  - replace (2 * PI * _ / _) with (PI/3 + PI) by field. rewrite neg_sin. ring.
  - replace (2 * PI * _ / _) with (2 * (PI/3) + PI) by field. rewrite neg_cos, C2. ring.
  - replace (2 * PI * _ / _) with (2 * (PI/3) + PI) by field. rewrite neg_sin, S2. ring.
Qed.
Lemma plus_polygon kf kt r mn mx tau J : polygon 4 r (quad_plus kf kt r r mn mx tau J).
Proof.
  split; [reflexivity|]. intros i m H.
  destruct i as [|[|[|[|i]]]]; cbn [nth_error quad_plus] in H.
  all: try (destruct i; discriminate).
  all: injection H as <-; split; [|split; reflexivity]; cbn [mt_pos]; cbn [INR]; unR; apply V3_eq; cbn [vx vy vz]; try reflexivity.
  - replace (2 * PI * 0 / _) with 0 by field. rewrite cos_0. ring.
  - replace (2 * PI * 0 / _) with 0 by field. rewrite sin_0. ring.
  - replace (2 * PI * _ / _) with (PI/2) by field. rewrite cos_PI2. ring.
  - replace (2 * PI * _ / _) with (PI/2) by field. rewrite sin_PI2. ring.
  - replace (2 * PI * _ / _) with PI by field. rewrite cos_PI. ring.
  - replace (2 * PI * _ / _) with PI by field. rewrite sin_PI. ring.
  - replace (2 * PI * _ / _) with (PI/2 + PI) by field. rewrite neg_cos, cos_PI2. ring.
  - replace (2 * PI * _ / _) with (PI/2 + PI) by field. rewrite neg_sin, sin_PI2. ring.
Qed.

(** ** The documented hexarotor is another vehicle *)
Definition hx_params : Params R := mkParams (hexa 1 1 1 0 100 (1/10) 0) 1 mI 0 mzero (mkV 0 0 0) 0 0.
Lemma hx_model : exists mo : ModelObj R gen1, ModelReach 6 mo /\ get_params mo = Some hx_params.
Proof.
  destruct (model_new (G:=gen1) 6 hx_params 0) as [mo|] eqn:E.
  - exists mo. split; [eapply mr_new; exact E|].
    revert E. unfold model_new, update_params.
    assert (K : check_params hx_params = true).
    { unfold check_params, hx_params, hexa. cbn [p_mass p_inertia p_drag p_aero p_motors forallb].
      rewrite !mdet_R. unfold det3, mI, mzero, mdiag, check_motor.
      cbn [m00 m01 m02 m10 m11 m12 m20 m21 m22 mt_min mt_max mt_tau mt_J mt_kf mt_kt].
      unR. rcase; try lra; try reflexivity. }
    rewrite K. cbn [negb]. unfold compute_mixer_6D, compute_mixer_inertia, cols, hx_params, hexa.
    cbn [p_motors length Nat.ltb Nat.leb Nat.sub bindo]. intros E. injection E as <-. reflexivity.
  - exfalso. revert E. unfold model_new, update_params. destruct (negb _); [discriminate|].
    unfold compute_mixer_6D, compute_mixer_inertia, cols, hx_params, hexa.
    cbn [p_motors length Nat.ltb Nat.leb Nat.sub bindo]. discriminate.
Qed.

Lemma hexa_doc_refuted : exists (mo : ModelObj R gen1) p w acc,
  ModelReach 6 mo /\ get_params mo = Some p /\ p_motors p = hexa 1 1 1 0 100 (1/10) 0 /\
  w = [1;1;1;1;1;1] /\ acc = [0;0;0;0;0;0] /\
  answers mo w acc (mkWrench 6 0 0 0) /\ wr_x (doc_hexa 1 1 1 0 w acc) = 1/2.
Proof.
  destruct hx_model as (mo & Hr & Hp). exists mo, hx_params, [1;1;1;1;1;1], [0;0;0;0;0;0].
  split; [exact Hr|split; [exact Hp|split; [reflexivity|split; [reflexivity|split; [reflexivity|split]]]]].
  - apply (answers_sum 6 mo hx_params _ _ _ Hr Hp); [reflexivity|reflexivity|reflexivity|]. cbn [wr_thrust wr_x wr_y wr_z hx_params p_motors].
    pose proof (hexa_force 1 1 1 0 100 (1/10) 0 1) as F. pose proof (hexa_torque 1 1 1 0 100 (1/10) 0 1 0) as Q.
    six; [exact (F AX)|exact (F AY)|rewrite (F AZ); unfold sq_signed; rewrite Rabs_right; lra|exact (Q AX)|exact (Q AY)|exact (Q AZ)].
  - unfold doc_hexa, documented. cbv zeta. rows. cbn [wr_x]. rewrite cos_PI3. lra.
Qed.

(** ** What the layouts can do *)
Lemma sq_root x : sq_signed (sqrtks x) = x.
Proof. rewrite <- sqks_R. apply sqks_sqrtks. Qed.
Lemma sq_inj x y : sq_signed x = sq_signed y -> x = y.
Proof. rewrite <- !sqks_R. intros E. rewrite <- (sqrtks_sqks x), <- (sqrtks_sqks y), E. reflexivity. Qed.

Lemma x_every_wrench {G : Gen R} (mo : ModelObj R G) p kf kt dx dy mn mx tau J :
  ModelReach 4 mo -> get_params mo = Some p -> p_motors p = quad_x kf kt dx dy mn mx tau J ->
  kf <> 0 -> kt <> 0 -> dx <> 0 -> dy <> 0 ->
  forall x, exists! w, length w = 4%nat /\ answers mo w [0;0;0;0] x.
Proof.
  intros Hr Hp Hm K1 K2 K3 K4 [F tx ty tz].
  pose (A := F / kf). pose (B := tx / (kf * dy)). pose (C := ty / (kf * dx)). pose (D := tz / kt).
  exists [sqrtks ((A - B - C + D)/4); sqrtks ((A + B - C - D)/4); sqrtks ((A + B + C + D)/4); sqrtks ((A - B + C - D)/4)].
  split.
  - split; [reflexivity|]. apply (answers_sum 4 mo p _ _ _ Hr Hp); [rewrite Hm; reflexivity|reflexivity|reflexivity|].
    rewrite Hm. cbn [wr_thrust wr_x wr_y wr_z]. unfold quad_x.
    six; cfg_sum; rewrite ?sq_root; unfold A, B, C, D; try ring; field; auto.
  - intros w [Hw Ha]. destruct (list4 w Hw) as (a & b & c & d & ->).
    apply (answers_sum 4 mo p _ _ _ Hr Hp) in Ha; [|rewrite Hm; reflexivity|reflexivity|reflexivity].
    rewrite Hm in Ha. cbn [wr_thrust wr_x wr_y wr_z] in Ha. destruct Ha as (_ & _ & E1 & E2 & E3 & E4).
    revert E1 E2 E3 E4. unfold quad_x. cfg_sum. intros E1 E2 E3 E4.
    set (sa := sq_signed a) in *. set (sb := sq_signed b) in *. set (sc := sq_signed c) in *. set (sd := sq_signed d) in *.
    assert (A' : A = sa + sb + sc + sd) by (unfold A; rewrite <- E1; field; exact K1).
    assert (B' : B = - sa + sb + sc - sd) by (unfold B; rewrite <- E2; field; auto).
    assert (C' : C = - sa - sb + sc + sd) by (unfold C; rewrite <- E3; field; auto).
    assert (D' : D = sa - sb + sc - sd) by (unfold D; rewrite <- E4; field; auto).
    f_equal; [|f_equal; [|f_equal; [|f_equal]]]; apply sq_inj; rewrite sq_root; rewrite ?A', ?B', ?C', ?D'; unfold sa, sb, sc, sd; lra.
Qed.

Lemma plus_every_wrench {G : Gen R} (mo : ModelObj R G) p kf kt dx dy mn mx tau J :
  ModelReach 4 mo -> get_params mo = Some p -> p_motors p = quad_plus kf kt dx dy mn mx tau J ->
  kf <> 0 -> kt <> 0 -> dx <> 0 -> dy <> 0 ->
  forall x, exists! w, length w = 4%nat /\ answers mo w [0;0;0;0] x.
Proof.
  intros Hr Hp Hm K1 K2 K3 K4 [F tx ty tz].
  pose (A := F / kf). pose (B := tx / (kf * dy)). pose (C := ty / (kf * dx)). pose (D := tz / kt).
  exists [sqrtks ((A + D - 2 * C)/4); sqrtks ((A - D + 2 * B)/4); sqrtks ((A + D + 2 * C)/4); sqrtks ((A - D - 2 * B)/4)].
  split.
  - split; [reflexivity|]. apply (answers_sum 4 mo p _ _ _ Hr Hp); [rewrite Hm; reflexivity|reflexivity|reflexivity|].
    rewrite Hm. cbn [wr_thrust wr_x wr_y wr_z]. unfold quad_plus.
    six; cfg_sum; rewrite ?sq_root; unfold A, B, C, D; try ring; field; auto.
  - intros w [Hw Ha]. destruct (list4 w Hw) as (a & b & c & d & ->).
    apply (answers_sum 4 mo p _ _ _ Hr Hp) in Ha; [|rewrite Hm; reflexivity|reflexivity|reflexivity].
    rewrite Hm in Ha. cbn [wr_thrust wr_x wr_y wr_z] in Ha. destruct Ha as (_ & _ & E1 & E2 & E3 & E4).
    revert E1 E2 E3 E4. unfold quad_plus. cfg_sum. intros E1 E2 E3 E4.
    set (sa := sq_signed a) in *. set (sb := sq_signed b) in *. set (sc := sq_signed c) in *. set (sd := sq_signed d) in *.
    assert (A' : A = sa + sb + sc + sd) by (unfold A; rewrite <- E1; field; exact K1).
    assert (B' : B = sb - sd) by (unfold B; rewrite <- E2; field; auto).
    assert (C' : C = - sa + sc) by (unfold C; rewrite <- E3; field; auto).
    assert (D' : D = sa - sb + sc - sd) by (unfold D; rewrite <- E4; field; auto).
    f_equal; [|f_equal; [|f_equal; [|f_equal]]]; apply sq_inj; rewrite sq_root; rewrite ?A', ?B', ?C', ?D'; unfold sa, sb, sc, sd; lra.
Qed.

(** Hexarotor: every wrench, in many ways. *)
Lemma hexa_every_wrench {G : Gen R} (mo : ModelObj R G) p kf kt r mn mx tau J :
  ModelReach 6 mo -> get_params mo = Some p -> p_motors p = hexa kf kt r mn mx tau J ->
  kf <> 0 -> kt <> 0 -> r <> 0 ->
  forall x, exists w, length w = 6%nat /\ answers mo w [0;0;0;0;0;0] x.
Proof.
  intros Hr Hp Hm K1 K2 K3 [F tx ty tz].
  assert (S3 : sin (PI/3) * sin (PI/3) = 3/4).
  { rewrite sin_PI3. replace (sqrt 3 / 2 * (sqrt 3 / 2)) with (sqrt 3 * sqrt 3 / 4) by field. rewrite sqrt_sqrt; lra. }
  pose proof cos_PI3 as C3. set (s := sin (PI/3)) in *.
  assert (Ns : s <> 0) by (intros E; rewrite E in S3; lra).
  pose (A := F / kf). pose (B := tx / (kf * r)). pose (C := ty / (kf * r)). pose (D := tz / kt).
  (* least-squares weights *)
  exists [sqrtks (A/6 - C/3 + D/6); sqrtks (A/6 + B/(4*s) - C/6 - D/6); sqrtks (A/6 + B/(4*s) + C/6 + D/6);
          sqrtks (A/6 + C/3 - D/6); sqrtks (A/6 - B/(4*s) + C/6 + D/6); sqrtks (A/6 - B/(4*s) - C/6 - D/6)].
  split; [reflexivity|]. apply (answers_sum 6 mo p _ _ _ Hr Hp); [rewrite Hm; reflexivity|reflexivity|reflexivity|].
  rewrite Hm. cbn [wr_thrust wr_x wr_y wr_z]. unfold hexa.
  six; cfg_sum; rewrite ?sq_root; change (IZR 3) with 3; fold s; rewrite ?C3; unfold A, B, C, D; try ring; field; auto.
Qed.

Lemma layout_case : exists (mo : ModelObj R gen1) p, ModelReach 4 mo /\ get_params mo = Some p /\
  p_motors p = quad_x 1 1 1 1 0 100 (1/10) 0 /\ answers mo [1;2;3;4] [0;0;0;0] (doc_x 1 1 1 1 0 [1;2;3;4] [0;0;0;0]) /\
  wr_x (doc_x 1 1 1 1 0 [1;2;3;4] [0;0;0;0]) = -4.
Proof.
  exists (ex_model 1 1 ex_grav 0 0 0), (ex_params 1 1 ex_grav 0 0 0).
  assert (Hr : ModelReach 4 (ex_model 1 1 ex_grav 0 0 0)) by (eapply mr_new; apply ex_model_new; lra).
  split; [exact Hr|split; [reflexivity|split; [reflexivity|split]]].
  - apply (layout_x (ex_model 1 1 ex_grav 0 0 0) (ex_params 1 1 ex_grav 0 0 0) 1 1 1 1 0 100 (1/10) 0); try reflexivity; [exact Hr|].
    apply Forall_cons; [lra|apply Forall_cons; [lra|apply Forall_cons; [lra|apply Forall_cons; [lra|apply Forall_nil]]]].
  - unfold doc_x, documented. cbv zeta. rows. cbn [wr_x]. lra.
Qed.

(** ** The mixer rebuilt from the stored parts *)
Lemma combine_fst_snd {A B} (l : list (A * B)) : combine (map fst l) (map snd l) = l.
Proof. induction l as [|[a b] l IH]; cbn; [reflexivity|]. rewrite IH. reflexivity. Qed.
Lemma combine_map_snd {A B C} (f : A -> C) (l : list (A * B)) : combine (map (fun c => f (fst c)) l) (map snd l) = map (fun c => (f (fst c), snd c)) l.
Proof. induction l as [|[a b] l IH]; cbn; [reflexivity|]. rewrite IH. reflexivity. Qed.
Definition parts_ok {T} {O : Ops T} {G : Gen T} n (mo : ModelObj T G) : Prop :=
  forall c, mo_cfg mo = Some c -> exists mixer, compute_mixer_6D n (p_motors (cf_params c)) = Some mixer /\
    cf_fvec c = map (fun x => vz (fst x)) mixer /\ cf_fmat c = map fst mixer /\ cf_tmat c = map snd mixer.
Lemma update_parts {T} {O : Ops T} {G : Gen T} n (mo mo' : ModelObj T G) p : parts_ok n mo -> update_params n mo p = Some mo' -> parts_ok n mo'.
Proof.
  intros P H. unfold update_params in H. destruct (negb (check_params p)); [injection H as <-; exact P|].
  apply bindo_Some in H as [mixer [Hm H]]. apply bindo_Some in H as [im [Hi H]]. injection H as <-.
  intros c Hc. cbn [mo_cfg] in Hc. injection Hc as <-. exists mixer. cbn [cf_params cf_fvec cf_fmat cf_tmat].
  split; [exact Hm|]. split; [reflexivity|]. split; reflexivity.
Qed.
Lemma reach_parts {T} {O : Ops T} {G : Gen T} n (mo : ModelObj T G) : ModelReach n mo -> parts_ok n mo.
Proof.
  induction 1 as [p seed mo Hn|mo p mo' Hr IH Hu|mo dt mo' Hr IH Hs|mo Hr IH].
  - refine (update_parts n _ mo p _ Hn). intros c Hc. discriminate.
  - exact (update_parts n mo mo' p IH Hu).
  - pose proof (set_noise_cfg mo mo' dt Hs) as Hc. intros c E. apply IH. congruence.
  - exact IH.
Qed.
Lemma rebuilt_mixer {T} {O : Ops T} {G : Gen T} n (mo : ModelObj T G) p : ModelReach n mo -> get_params mo = Some p ->
  get_mixer_6 mo = compute_mixer_6D n (p_motors p) /\
  get_mixer_4 mo = option_map (map (fun ft => mkV4 (vz (fst ft)) (vx (snd ft)) (vy (snd ft)) (vz (snd ft)))) (compute_mixer_6D n (p_motors p)).
Proof.
  intros Hr Hp. unfold get_params in Hp. destruct (mo_cfg mo) as [c|] eqn:Hc; [|discriminate]. injection Hp as <-.
  destruct (reach_parts n mo Hr c Hc) as (mixer & Hm & A & B & C). unfold get_mixer_6, get_mixer_4. rewrite Hc, Hm. cbn [option_map].
  rewrite A, B, C. split; [rewrite combine_fst_snd; reflexivity|]. f_equal. rewrite combine_map_snd, map_map. reflexivity.
Qed.
