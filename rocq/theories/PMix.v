(** Mixers, parameter checks, drag and the signed square over the reals. *)

From Coq Require Import ZArith List Bool Lia Reals Lra Psatz.
From Verif Require Import Scalar LinAlg MUtils MModel MDynamics SpecDyn SpecRun SpecMix PBase PDyn PModel PDynR PPhys EBase.
Import ListNotations.
Local Open Scope R_scope.

(** ** Parameter check *)
Lemma check_motor_R m : check_motor m = true <-> checked_motor m.
Proof.
  unfold check_motor, checked_motor; unR. split.
  - rcase; intros; try discriminate. repeat split; assumption.
  - intros (A & B & C & D & E). rcase; try lra; reflexivity.
Qed.

Lemma check_params_R p : check_params p = true <-> checked p.
Proof.
  unfold check_params, checked. rewrite !mdet_R. unR. split.
  - rcase; intros H; try discriminate. repeat split; try assumption.
    apply Forall_forall. intros m Hm. rewrite forallb_forall in H. apply check_motor_R, H, Hm.
  - intros (A & B & C & D & E). rcase; try lra.
    apply forallb_forall. intros m Hm. apply check_motor_R. rewrite Forall_forall in E. apply E, Hm.
Qed.

(** ** update_params *)
Lemma update_rejected {T} {O : Ops T} {G : Gen T} n (mo : ModelObj T G) p :
  check_params p = false -> update_params n mo p = Some mo.
Proof. intros H. unfold update_params. rewrite H. reflexivity. Qed.

Lemma update_accepted {T} {O : Ops T} {G : Gen T} n (mo mo' : ModelObj T G) p :
  check_params p = true -> update_params n mo p = Some mo' ->
  get_params mo' = Some p /\ mo_sforce mo' = mo_sforce mo /\ mo_smoment mo' = mo_smoment mo /\
  mo_eng mo' = mo_eng mo /\ mo_dist mo' = mo_dist mo.
Proof.
  intros H Hu. apply update_params_cases in Hu. destruct Hu as [[E _]|(_ & c & Hc & Hp & _ & _ & A & B & C & D)]; [congruence|].
  unfold get_params. rewrite Hc. cbn. rewrite Hp. repeat split; assumption.
Qed.

Lemma mixer_never_set {T} {O : Ops T} {G : Gen T} n (mo : ModelObj T G) :
  ModelReach n mo -> get_mixer_matrix mo = None.
Proof. intros H. apply model_reach_ok in H. apply H. Qed.

(** ** Wrench of the rotors through the interface *)
Lemma api_force {G : Gen R} n (mo : ModelObj R G) p w :
  ModelReach n mo -> get_params mo = Some p -> length (p_motors p) = n -> length w = n ->
  get_force_by_motors mo w = Some (vec_of (rotor_force (p_motors p) w)).
Proof.
  intros Hr Hp Hn Hw. apply get_params_cfg in Hp as [c [Hc Hcp]]. subst p.
  pose proof (model_reach_ok n _ Hr) as [_ Hok]. rewrite Hc in Hok.
  destruct Hok as (_ & Hlen & _ & Hf & _ & _).
  unfold get_force_by_motors. rewrite Hc. cbn [option_map]. f_equal. apply pr_ext. intros a.
  rewrite Hf, force_by_motors_R by lia. rewrite pr_vec_of. reflexivity.
Qed.

Lemma api_torque {G : Gen R} n (mo : ModelObj R G) p w acc :
  ModelReach n mo -> get_params mo = Some p -> length (p_motors p) = n -> length w = n -> length acc = n ->
  get_torque_by_motors mo w acc = Some (vec_of (rotor_torque (p_motors p) w acc)).
Proof.
  intros Hr Hp Hn Hw Hac. apply get_params_cfg in Hp as [c [Hc Hcp]]. subst p.
  pose proof (model_reach_ok n _ Hr) as [_ Hok]. rewrite Hc in Hok.
  destruct Hok as (_ & Hlen & _ & _ & Ht & Hi).
  unfold get_torque_by_motors. rewrite Hc. cbn [option_map]. f_equal. apply pr_ext. intros a.
  rewrite Ht, Hi, torque_by_motors_R by lia. rewrite pr_vec_of. reflexivity.
Qed.

Lemma fold_left_Rplus l : forall x, fold_left Rplus l x = x + rsum l.
Proof. induction l as [|y l IH]; intros x; cbn; [lra|]. rewrite IH. unfold rsum. lra. Qed.
Lemma sumT_R (l : list R) : sumT l = rsum l.
Proof. destruct l as [|x l]; [reflexivity|]. cbn. unR. rewrite fold_left_Rplus. reflexivity. Qed.

Lemma api_thrust {G : Gen R} n (mo : ModelObj R G) p w :
  ModelReach n mo -> get_params mo = Some p -> length (p_motors p) = n -> length w = n ->
  get_thrust_by_motors mo w = Some (rotor_force (p_motors p) w AZ).
Proof.
  intros Hr Hp Hn Hw. apply get_params_cfg in Hp as [c [Hc Hcp]]. subst p.
  pose proof (model_reach_ok n _ Hr) as [_ Hok]. rewrite Hc in Hok.
  destruct Hok as (_ & Hlen & Hf & _).
  unfold get_thrust_by_motors, thrust_by_motors, ldot. rewrite Hc. cbn [option_map]. f_equal. rewrite sumT_R, Hf.
  replace (n - length (p_motors (cf_params c)))%nat with 0%nat by lia. cbn [repeat]. rewrite app_nil_r.
  unfold rotor_force. clear -Hn Hw. revert n w Hn Hw. induction (p_motors (cf_params c)) as [|m ms IH]; intros n w Hn Hw.
  - cbn in Hn. subst n. destruct w; [reflexivity|discriminate].
  - destruct n as [|k]; [discriminate|]. destruct w as [|x w]; [discriminate|].
    cbn [map combine fst snd rsum fold_right rotor_sum]. fold rsum. rewrite (IH k) by (cbn in *; lia).
    f_equal. change (vz (fst (mixer6_col m))) with (pr AZ (fst (mixer6_col m))). rewrite mixer6_force, sqks_R. unR. ring.
Qed.

(** ** Configurations *)
Lemma sq_signed_0 : sq_signed 0 = 0. Proof. unfold sq_signed. ring. Qed.

Ltac cfg_sum := unfold rotor_force, rotor_torque, rotor_axis, cross3;
  cbn [rotor_sum mt_kf mt_kt mt_dir mt_rot mt_pos mt_J pr vx vy vz mI mdiag m02 m12 m22]; unR.

Lemma quad_x_force kf kt x y mn mx tau J w a :
  rotor_force (quad_x kf kt x y mn mx tau J) [w;w;w;w] a = match a with AZ => 4 * kf * sq_signed w | _ => 0 end.
Proof. unfold quad_x. destruct a; cfg_sum; ring. Qed.
Lemma quad_x_torque kf kt x y mn mx tau J w al a :
  rotor_torque (quad_x kf kt x y mn mx tau J) [w;w;w;w] [al;al;al;al] a = 0.
Proof. unfold quad_x. destruct a; cfg_sum; ring. Qed.
Lemma quad_plus_force kf kt x y mn mx tau J w a :
  rotor_force (quad_plus kf kt x y mn mx tau J) [w;w;w;w] a = match a with AZ => 4 * kf * sq_signed w | _ => 0 end.
Proof. unfold quad_plus. destruct a; cfg_sum; ring. Qed.
Lemma quad_plus_torque kf kt x y mn mx tau J w al a :
  rotor_torque (quad_plus kf kt x y mn mx tau J) [w;w;w;w] [al;al;al;al] a = 0.
Proof. unfold quad_plus. destruct a; cfg_sum; ring. Qed.
Lemma hexa_force kf kt r mn mx tau J w a :
  rotor_force (hexa kf kt r mn mx tau J) [w;w;w;w;w;w] a = match a with AZ => 6 * kf * sq_signed w | _ => 0 end.
Proof. unfold hexa. destruct a; cfg_sum; ring. Qed.
Lemma hexa_torque kf kt r mn mx tau J w al a :
  rotor_torque (hexa kf kt r mn mx tau J) [w;w;w;w;w;w] [al;al;al;al;al;al] a = 0.
Proof.
  unfold hexa. destruct a; cfg_sum; ring.
Qed.

(** Rotor speed differences produce the expected moments (X configuration,
    rotors 0..3 at (x,-y), (x,y), (-x,y), (-x,-y)). *)
Lemma quad_x_moments kf kt x y mn mx tau J a b c d :
  let s := sq_signed in
  let ms := quad_x kf kt x y mn mx tau J in
  rotor_torque ms [a;b;c;d] [0;0;0;0] AX = kf * y * (- s a + s b + s c - s d) /\
  rotor_torque ms [a;b;c;d] [0;0;0;0] AY = kf * x * (- s a - s b + s c + s d) /\
  rotor_torque ms [a;b;c;d] [0;0;0;0] AZ = kt * (s a - s b + s c - s d).
Proof. cbv zeta. unfold quad_x. repeat split; cfg_sum; ring. Qed.

(** ** 4-row and 6-row mixers *)
Lemma mixer4_of_6 (m : Motor R) : mt_rot m = mI ->
  mixer4_col m = let ft := mixer6_col m in
    mkV4 (vz (fst ft)) (vx (snd ft)) (vy (snd ft)) (vz (snd ft)).
Proof. intros H. unfold mixer4_col, mixer6_col. rewrite H. unfold mI, mdiag. unV. f_equal; ring. Qed.

Lemma mixer4_rows n (ms : list (Motor R)) :
  (forall m, In m ms -> mt_rot m = mI) ->
  compute_mixer_4D n ms =
  option_map (map (fun ft => mkV4 (vz (fst ft)) (vx (snd ft)) (vy (snd ft)) (vz (snd ft)))) (compute_mixer_6D n ms).
Proof.
  intros H. unfold compute_mixer_4D, compute_mixer_6D, cols. destruct (Nat.ltb n (length ms)); [reflexivity|].
  cbn [option_map]. f_equal. rewrite map_app, map_map. f_equal.
  - apply map_ext_in. intros m Hm. apply mixer4_of_6, H, Hm.
  - induction (n - length ms)%nat as [|k IH]; cbn; [reflexivity|]. cbn in IH. rewrite IH. reflexivity.
Qed.

(** ** Dissipation *)
Lemma abs_sq x : x * sq_signed x = Rabs x * (x * x).
Proof. unfold sq_signed. ring. Qed.
Lemma drag_dissipates {G : Gen R} n (mo : ModelObj R G) p v f :
  ModelReach n mo -> get_params mo = Some p -> get_drag_force mo v = Some f ->
  dot3 f v <= 0 /\ (0 < p_drag p -> dot3 f v = 0 -> v = mkV 0 0 0).
Proof.
  intros Hr Hp Hf. apply get_params_cfg in Hp as [c [Hc Hcp]].
  pose proof (model_reach_ok n _ Hr) as [_ Hok]. rewrite Hc in Hok. destruct Hok as (Hk & _).
  apply check_params_R in Hk. rewrite Hcp in Hk. destruct Hk as (_ & _ & Hd & _).
  unfold get_drag_force in Hf. rewrite Hc in Hf. cbn in Hf. injection Hf as <-. rewrite Hcp.
  unfold dot3. change (vx (drag_force ?k ?u)) with (pr AX (drag_force k u)).
  change (vy (drag_force ?k ?u)) with (pr AY (drag_force k u)). change (vz (drag_force ?k ?u)) with (pr AZ (drag_force k u)).
  rewrite !drag_R. unfold drag_spec. cbn [pr].
  assert (A : forall x, 0 <= sq_signed x * x /\ (sq_signed x * x = 0 -> x = 0)).
  { intros x. replace (sq_signed x * x) with (Rabs x * (x * x)) by (unfold sq_signed; ring).
    pose proof (Rabs_pos x). split; [nra|]. intros E. apply Rmult_integral in E as [E|E].
    - destruct (Req_dec x 0) as [Z|Z]; [exact Z|]. apply Rabs_no_R0 in Z. contradiction.
    - apply Rmult_integral in E as [E|E]; exact E. }
  destruct (A (vx v)) as [X1 X2], (A (vy v)) as [Y1 Y2], (A (vz v)) as [Z1 Z2].
  split.
  - replace (- p_drag p * sq_signed (vx v) * vx v + - p_drag p * sq_signed (vy v) * vy v + - p_drag p * sq_signed (vz v) * vz v)
      with (- (p_drag p * (sq_signed (vx v) * vx v + sq_signed (vy v) * vy v + sq_signed (vz v) * vz v))) by ring.
    assert (0 <= p_drag p * (sq_signed (vx v) * vx v + sq_signed (vy v) * vy v + sq_signed (vz v) * vz v)) by (apply Rmult_le_pos; lra).
    lra.
  - intros Hpos E.
    assert (S : sq_signed (vx v) * vx v + sq_signed (vy v) * vy v + sq_signed (vz v) * vz v = 0).
    { apply Rmult_eq_reg_l with (- p_drag p); [|lra]. rewrite Rmult_0_r, <- E. ring. }
    apply V3_eq; cbn [vx vy vz]; [apply X2|apply Y2|apply Z2]; lra.
Qed.

Lemma aero_dissipates {G : Gen R} (mo : ModelObj R G) p w f :
  get_params mo = Some p -> pos_semidef (p_aero p) -> get_aero_moment mo w = Some f -> dot3 f w <= 0.
Proof.
  intros Hp HC Hf. apply get_params_cfg in Hp as [c [Hc Hcp]].
  unfold get_aero_moment in Hf. rewrite Hc in Hf. cbn in Hf. injection Hf as <-. rewrite Hcp.
  specialize (HC w). unfold dot3 in *.
  change (vx (aero_moment ?k ?u)) with (pr AX (aero_moment k u)).
  change (vy (aero_moment ?k ?u)) with (pr AY (aero_moment k u)). change (vz (aero_moment ?k ?u)) with (pr AZ (aero_moment k u)).
  rewrite !aero_R. unfold aero_spec. unfold vec_of in HC. cbn [vx vy vz] in HC.
  pose proof (sqrt_pos (vx w * vx w + vy w * vy w + vz w * vz w)) as L. unfold len3, dot3.
  set (l := sqrt _) in *. nra.
Qed.

(** ** Signed square and root *)
Lemma sq_signed_pos x : 0 <= x -> sq_signed x = x * x.
Proof. intros. unfold sq_signed. rewrite Rabs_pos_eq by lra. reflexivity. Qed.
Lemma sq_signed_neg x : x <= 0 -> sq_signed x = - (x * x).
Proof. intros. unfold sq_signed. rewrite Rabs_left1 by lra. ring. Qed.

Lemma sqrtks_R (x : R) : sqrtks x = if Rle_dec 0 x then sqrt x else - sqrt (- x).
Proof.
  unfold sqrtks. rewrite signT_R. unR. destruct (Rle_dec 0 x) as [H|H].
  - rewrite Rabs_pos_eq by lra. destruct (Rlt_dec 0 x); [ring|]. destruct (Rlt_dec x 0); [lra|].
    replace x with 0 by lra. rewrite sqrt_0. ring.
  - rewrite Rabs_left1 by lra. destruct (Rlt_dec 0 x); [lra|]. destruct (Rlt_dec x 0); [ring|lra].
Qed.

Lemma sqks_sqrtks x : sqks (sqrtks x) = x.
Proof.
  rewrite sqks_R, sqrtks_R. destruct (Rle_dec 0 x) as [H|H].
  - rewrite sq_signed_pos by apply sqrt_pos. apply sqrt_sqrt, H.
  - rewrite sq_signed_neg by (pose proof (sqrt_pos (- x)); lra).
    replace (- sqrt (- x) * - sqrt (- x)) with (sqrt (- x) * sqrt (- x)) by ring. rewrite sqrt_sqrt by lra. ring.
Qed.

Lemma sqrtks_sqks x : sqrtks (sqks x) = x.
Proof.
  rewrite sqks_R, sqrtks_R. destruct (Rle_dec 0 x) as [H|H].
  - rewrite sq_signed_pos by exact H. destruct (Rle_dec 0 (x * x)); [|nra].
    apply sqrt_square, H.
  - rewrite sq_signed_neg by lra. destruct (Rle_dec 0 (- (x * x))) as [E|E]; [nra|].
    replace (- - (x * x)) with ((- x) * (- x)) by ring. rewrite sqrt_square by lra. ring.
Qed.

Lemma sq_signed_mono x y : x < y -> sq_signed x < sq_signed y.
Proof.
  intros H. destruct (Rle_dec 0 x).
  - rewrite !sq_signed_pos by lra. nra.
  - destruct (Rle_dec 0 y).
    + rewrite sq_signed_neg, sq_signed_pos by lra. nra.
    + rewrite !sq_signed_neg by lra. nra.
Qed.
Lemma sqks_odd x : sqks (- x) = - sqks x.
Proof. rewrite !sqks_R. unfold sq_signed. rewrite Rabs_Ropp. ring. Qed.
Lemma sqks_mono x y : x < y -> sqks x < sqks y.
Proof. rewrite !sqks_R. apply sq_signed_mono. Qed.
