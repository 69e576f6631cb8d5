(** Proofs: the numbering of the rotors does not matter. *)

From Coq Require Import ZArith List Bool Permutation Lia Reals Lra.
From Verif Require Import Scalar LinAlg MUtils MModel MDynamics MPid MControl MImu MSim SpecDyn SpecRun SpecCtl SpecSim SpecRenum
  PBase PDyn PModel PDynR PPhys PVeh PNoise PDynMore PSim PSimEnd.
Import ListNotations.
Local Open Scope R_scope.

(** ** Lists *)
Section Lists.
Variable pi : list nat.

Lemma renum_map {A B} (f : A -> B) l : renum pi (map f l) = map f (renum pi l).
Proof.
  unfold renum. induction pi as [|i r IH]; [reflexivity|]. cbn [flat_map]. rewrite map_app, IH. f_equal.
  unfold pick. rewrite nth_error_map. destruct (nth_error l i); reflexivity.
Qed.
Lemma nth_combine {A B} : forall (a : list A) (b : list B) i, length a = length b ->
  nth_error (combine a b) i = match nth_error a i, nth_error b i with Some x, Some y => Some (x, y) | _, _ => None end.
Proof.
  induction a as [|x a IH]; intros [|y b] i E; try discriminate E; [destruct i; reflexivity|].
  destruct i as [|i]; [reflexivity|]. cbn [combine nth_error]. apply IH. injection E as E. exact E.
Qed.
Lemma renum_combine {A B} (a : list A) (b : list B) : length a = length b -> renum pi (combine a b) = combine (renum pi a) (renum pi b).
Proof.
  intros E. unfold renum. induction pi as [|i r IH]; [reflexivity|]. cbn [flat_map]. rewrite IH. unfold pick. rewrite nth_combine by exact E.
  destruct (nth_error a i) as [x|] eqn:Ea, (nth_error b i) as [y|] eqn:Eb; try reflexivity; exfalso.
  - apply nth_error_None in Eb. assert (nth_error a i <> None) by congruence. apply nth_error_Some in H. lia.
  - apply nth_error_None in Ea. assert (nth_error b i <> None) by congruence. apply nth_error_Some in H. lia.
Qed.
Lemma pick_seq {A} (l : list A) : forall pre, flat_map (pick (pre ++ l)) (seq (length pre) (length l)) = l.
Proof.
  induction l as [|x l IH]; intros pre; [reflexivity|]. cbn [length seq flat_map]. unfold pick at 1.
  rewrite nth_error_app2 by lia. rewrite Nat.sub_diag. cbn [nth_error app]. f_equal.
  specialize (IH (pre ++ [x])). rewrite app_length in IH. cbn [length] in IH. rewrite <- app_assoc in IH. cbn [app] in IH.
  replace (length pre + 1)%nat with (S (length pre)) in IH by lia. exact IH.
Qed.

Variable n : nat.
Hypothesis Hpi : Permutation pi (seq 0 n).

Lemma renum_perm {A} (l : list A) : length l = n -> Permutation (renum pi l) l.
Proof.
  intros E. unfold renum. rewrite (Permutation_flat_map (pick l) Hpi). rewrite <- E. pose proof (pick_seq l []) as K. cbn [length app] in K. rewrite K. reflexivity.
Qed.
Lemma renum_length {A} (l : list A) : length l = n -> length (renum pi l) = n.
Proof. intros E. rewrite (Permutation_length (renum_perm l E)). exact E. Qed.
Lemma renum_repeat {A} (x : A) : renum pi (repeat x n) = repeat x n.
Proof.
  assert (P := renum_perm (repeat x n) (repeat_length x n)). symmetry in P.
  assert (F : Forall (eq x) (renum pi (repeat x n))).
  { apply (Permutation_Forall P). apply Forall_forall. intros y Y. apply repeat_spec in Y. symmetry. exact Y. }
  apply Permutation_length in P. rewrite repeat_length in P. rewrite P at 2. clear P.
  induction F as [|y l <- F IH]; [reflexivity|]. cbn [length repeat]. f_equal. exact IH.
Qed.
Lemma renum_forallb {A} (f : A -> bool) l : length l = n -> forallb f (renum pi l) = forallb f l.
Proof.
  intros E. assert (K : forall a b, Permutation a b -> forallb f a = forallb f b).
  { intros a b P. induction P as [|x a b P IH|x y a|a b c P1 IH1 P2 IH2]; cbn [forallb].
    - reflexivity.
    - rewrite IH. reflexivity.
    - destruct (f x), (f y); reflexivity.
    - rewrite IH1. exact IH2. }
  apply K, renum_perm, E.
Qed.
End Lists.

(** ** Sums *)
Lemma fold_vadd l : forall x, fold_left vadd l x = vadd x (fold_right vadd (mkV 0 0 0) l).
Proof.
  induction l as [|y l IH]; intros x; cbn [fold_left fold_right]; [unV; destruct x; f_equal; cbn; ring|].
  rewrite IH. unV. f_equal; ring.
Qed.
Lemma vsum_right (l : list (V3 R)) : vsum l = fold_right vadd (mkV 0 0 0) l.
Proof. destruct l as [|x l]; [reflexivity|]. unfold vsum. apply fold_vadd. Qed.
Lemma vsum_perm (a b : list (V3 R)) : Permutation a b -> vsum a = vsum b.
Proof.
  rewrite !vsum_right. intros P. induction P as [|x a b P IH|x y a|a b c P1 IH1 P2 IH2]; cbn [fold_right].
  - reflexivity.
  - rewrite IH. reflexivity.
  - unV. f_equal; ring.
  - rewrite IH1. exact IH2.
Qed.

Section Vehicle.
Context {G H : Gen R}.
Notation sim := (Sim R G H).
Variables (n : nat) (pi : list nat).
Hypothesis Hpi : Permutation pi (seq 0 n).

Lemma colsmul_renum (m : list (V3 R)) (w : list R) : length m = n -> length w = n -> colsmul (renum pi m) (renum pi w) = colsmul m w.
Proof.
  intros A B. unfold colsmul. rewrite <- renum_combine by lia. apply vsum_perm, Permutation_map, (renum_perm pi n Hpi).
  rewrite combine_length. lia.
Qed.

Lemma map_opt_some {A B} (f : A -> option B) l ys : map_opt f l = Some ys <-> map f l = map Some ys.
Proof.
  revert ys. induction l as [|x l IH]; intros ys; cbn [map_opt map].
  - split; [intros E; injection E as <-; reflexivity|]. destruct ys; [reflexivity|discriminate].
  - destruct (f x) as [y|]; cbn [bindo].
    + destruct (map_opt f l) as [zs|] eqn:E; cbn [bindo].
      * split; [intros K; injection K as <-; cbn; f_equal; apply IH; reflexivity|].
        destruct ys as [|y' ys]; [discriminate|]. cbn. intros K. injection K as -> K. apply IH in K. injection K as ->. reflexivity.
      * split; [discriminate|]. destruct ys as [|y' ys]; [discriminate|]. cbn. intros K. injection K as -> K. apply IH in K. discriminate K.
    + split; [discriminate|]. destruct ys as [|y' ys]; discriminate.
Qed.

Lemma clamp_zip (w : list R) : forall ms, length w = length ms ->
  clamp_motors w ms = map_opt (fun xm => clamp (fst xm) (mt_min (snd xm)) (mt_max (snd xm))) (combine w ms).
Proof.
  induction w as [|x w IH]; intros [|m ms] E; try discriminate E; [reflexivity|]. cbn [clamp_motors combine map_opt fst snd].
  rewrite IH by (injection E as E; exact E). reflexivity.
Qed.
Lemma clamp_renum (w : list R) ms des : length w = n -> length ms = n -> clamp_motors w ms = Some des ->
  clamp_motors (renum pi w) (renum pi ms) = Some (renum pi des) /\ length des = n.
Proof.
  intros A B E. rewrite clamp_zip in E by lia. apply map_opt_some in E. split.
  - rewrite clamp_zip by (rewrite !(renum_length pi n Hpi) by assumption; reflexivity).
    apply map_opt_some. rewrite <- renum_combine by lia. rewrite <- !renum_map, E. reflexivity.
  - apply (f_equal (@length _)) in E. rewrite !map_length, combine_length in E. lia.
Qed.

Lemma deriv_zip (des : list R) : forall cur ms, length des = length cur -> length des = length ms ->
  motors_derivative des cur ms = Some (map (fun x => div (sub (fst x) (fst (snd x))) (mt_tau (snd (snd x)))) (combine des (combine cur ms))).
Proof.
  induction des as [|x des IH]; intros [|c cur] [|m ms] E F; try discriminate E; try discriminate F; [reflexivity|].
  cbn [motors_derivative combine map fst snd]. rewrite IH by (injection E as E; injection F as F; assumption). reflexivity.
Qed.
Lemma deriv_renum (des cur : list R) ms macc : length des = n -> length cur = n -> length ms = n ->
  motors_derivative des cur ms = Some macc ->
  motors_derivative (renum pi des) (renum pi cur) (renum pi ms) = Some (renum pi macc) /\ length macc = n.
Proof.
  intros A B C E. rewrite deriv_zip in E by lia. injection E as <-. split.
  - rewrite deriv_zip by (rewrite !(renum_length pi n Hpi) by assumption; reflexivity). f_equal.
    rewrite renum_map. f_equal. rewrite renum_combine by (rewrite combine_length; lia). f_equal. symmetry. apply renum_combine. lia.
  - rewrite map_length, !combine_length. lia.
Qed.
Lemma ladd_renum (a b : list R) : length a = n -> length b = n -> ladd (renum pi a) (renum pi b) = renum pi (ladd a b).
Proof. intros A B. unfold ladd, lmap2. rewrite <- renum_combine by lia. rewrite renum_map. reflexivity. Qed.

Lemma noise_renum (mo : ModelObj R G) dt (noise : bool) mo' :
  (if noise then set_noise mo dt else Some (disable_noise mo)) = Some mo' ->
  (if noise then set_noise (renum_model pi mo) dt else Some (disable_noise (renum_model pi mo))) = Some (renum_model pi mo').
Proof.
  destruct noise.
  - unfold set_noise. destruct (leb dt zero); [intros K; injection K as <-; reflexivity|].
    change (mo_cfg (renum_model pi mo)) with (option_map (renum_cfg pi) (mo_cfg mo)).
    destruct (mo_cfg mo) as [c|] eqn:Ec; [|discriminate]. cbn [option_map bindo].
    change (p_fnoise (cf_params (renum_cfg pi c))) with (p_fnoise (cf_params c)). change (p_mnoise (cf_params (renum_cfg pi c))) with (p_mnoise (cf_params c)).
    change (mo_eng (renum_model pi mo)) with (mo_eng mo). change (mo_dist (renum_model pi mo)) with (mo_dist mo).
    destruct (draw3 G 0 _ _ _) as [f [e1 d1]]. destruct (draw3 G 1 _ _ _) as [m [e2 d2]]. intros K. injection K as <-.
    unfold renum_model. cbn [mo_cfg mo_mixer mo_eng mo_dist mo_sforce mo_smoment option_map]. rewrite ?Ec. reflexivity.
  - intros K. injection K as <-. reflexivity.
Qed.

(** A configuration with a motor and a column per rotor. *)
Definition full (c : Cfg R) : Prop :=
  length (p_motors (cf_params c)) = n /\ length (cf_fmat c) = n /\ length (cf_tmat c) = n /\ length (cf_imat c) = n.

Lemma vehicle_full (d : Dyn R G) act p : vehicle n d act p -> length (p_motors p) = n ->
  exists c, mo_cfg (d_model d) = Some c /\ cf_params c = p /\ full c.
Proof.
  intros (V1 & V2 & _) L. apply get_params_cfg in V2 as (c & Hc & Hp). exists c. split; [exact Hc|]. split; [exact Hp|].
  apply model_reach_ok in V1 as [_ V]. rewrite Hc in V. destruct V as (_ & _ & _ & F2 & F3 & F4). rewrite Hp in *.
  unfold full. rewrite Hp, F2, F3, F4, L, Nat.sub_diag, !app_length, !map_length. cbn. lia.
Qed.

Lemma core_renum (d d' : Dyn R G) act dt ext noise p : vehicle n d act p -> length (p_motors p) = n ->
  euler_core d act dt ext noise = Some d' ->
  euler_core (renum_dyn pi d) (renum pi act) dt ext noise = Some (renum_dyn pi d').
Proof.
  intros V L E. destruct (vehicle_full d act p V L) as (c & Hc & Hp & (L1 & L2 & L3 & L4)). destruct V as (_ & _ & La & Lw).
  unfold euler_core in E |- *. apply bindo_Some in E as (mo & Hn & E). apply bindo_Some in E as (c' & Hc' & E).
  assert (c' = c) as ->.
  { assert (mo_cfg mo = mo_cfg (d_model d)) by (apply noise_model_cfg in Hn; exact Hn). congruence. }
  cbv zeta in E. apply bindo_Some in E as (des & Hd & E). apply bindo_Some in E as (macc & Ha & E). apply bindo_Some in E as (mvel & Hv & E).
  injection E as <-. cbn [renum_dyn d_model d_state]. rewrite (noise_renum _ _ _ _ Hn). cbn [bindo].
  change (mo_cfg (renum_model pi mo)) with (option_map (renum_cfg pi) (mo_cfg mo)). rewrite Hc'. cbn [option_map bindo]. cbv zeta.
  cbn [renum_cfg cf_params renum_params p_motors p_inertia p_aero p_grav p_drag p_mass cf_tmat cf_imat cf_fmat renum_state s_mvel s_angvel s_ori s_vel s_pos].
  destruct (clamp_renum act _ des La L1 Hd) as [-> Ld]. cbn [bindo].
  destruct (deriv_renum des _ _ macc Ld Lw L1 Ha) as [-> Lm]. cbn [bindo].
  assert (Lx : length (map (fun a => mul a dt) macc) = n) by (rewrite map_length; exact Lm).
  rewrite <- renum_map, ladd_renum by assumption.
  assert (Ll : length (ladd (s_mvel (d_state d)) (map (fun a => mul a dt) macc)) = n).
  { unfold ladd, lmap2. rewrite map_length, combine_length. lia. }
  destruct (clamp_renum _ _ mvel Ll L1 Hv) as [-> _]. cbn [bindo].
  unfold torque_by_motors, force_by_motors. rewrite <- !renum_map.
  assert (Lq : length (map sqks (s_mvel (d_state d))) = n) by (rewrite map_length; exact Lw).
  rewrite !colsmul_renum by assumption. reflexivity.
Qed.

Lemma process_renum (d : Dyn R G) act dt ext noise p : vehicle n d act p -> length (p_motors p) = n ->
  orel (fun a b => b = renum_dyn pi a /\ vehicle n a act p) (process d act dt ext noise) (process (renum_dyn pi d) (renum pi act) dt ext noise).
Proof.
  intros V L.
  assert (S : forall (x y : Dyn R G) h, y = renum_dyn pi x /\ vehicle n x act p ->
    optrel (fun a b => b = renum_dyn pi a /\ vehicle n a act p) (euler_core x act h ext noise) (euler_core y (renum pi act) h ext noise)).
  { intros x y h [-> Vx]. destruct (euler_core x act h ext noise) as [x'|] eqn:E.
    - rewrite (core_renum x x' act h ext noise p Vx L E). split; [reflexivity|]. eapply vehicle_core; eassumption.
    - exfalso. destruct (euler_core_total x act h ext noise (vehicle_ready n x act p Vx L)) as [x' E']. congruence. }
  unfold process. destruct (leb dt zero); [split; [reflexivity|exact V]|]. destruct (ltb dtmax dt).
  - apply for_int_rel; [split; [reflexivity|exact V]|]. intros x y Hxy. unfold euler_sub.
    destruct (leb dtmax zero); [exact Hxy|]. destruct (ltb dtmax dtmax); [exact I|]. apply orel_of_opt, S, Hxy.
  - apply orel_of_opt, S. split; [reflexivity|exact V].
Qed.

(** ** The simulator *)
Lemma new_renum p seed st (d : Dyn R G) : check_params p = true -> length (p_motors p) = n ->
  dyn_new n p seed st = Some d -> dyn_new n (renum_params pi p) seed (renum_state pi st) = Some (renum_dyn pi d).
Proof.
  intros C L. unfold dyn_new, model_new, update_params. rewrite C.
  assert (C' : check_params (renum_params pi p) = true).
  { revert C. unfold check_params. cbn [renum_params p_mass p_inertia p_drag p_aero p_motors].
    rewrite (renum_forallb pi n Hpi) by exact L. tauto. }
  rewrite C'. cbn [negb]. unfold compute_mixer_6D, compute_mixer_inertia, cols. cbn [renum_params p_motors].
  rewrite (renum_length pi n Hpi) by exact L. rewrite L, Nat.ltb_irrefl, Nat.sub_diag. cbn [repeat bindo option_map]. rewrite !app_nil_r.
  intros K. injection K as <-. unfold renum_dyn, renum_model, renum_cfg. cbn. rewrite !map_map, !renum_map. reflexivity.
Qed.

Lemma below_renum (s : sim) : below_floor (renum_sim pi s) = below_floor s.
Proof. reflexivity. Qed.

Lemma acro_renum (c : Ctl R) w th des dt : ctl_acro (renum_ctl pi c) w th des dt = renum_ctl pi (ctl_acro c w th des dt).
Proof.
  unfold ctl_acro, acro_to_motor. unfold renum_ctl, renum_indi.
  cbn [ct_acro ct_indi ct_pos ct_traj ct_vel ct_dpos ct_dvel ct_dacc ct_dthrust ct_dang ct_dmotor in_pid in_inertia in_minv in_thrust in_torque in_motor].
  rewrite renum_map. reflexivity.
Qed.
Lemma acc_renum (c : Ctl R) A w acc yaw dt : ctl_acc (renum_ctl pi c) A w acc yaw dt = renum_ctl pi (ctl_acc c A w acc yaw dt).
Proof.
  unfold ctl_acc. change (ct_acro (renum_ctl pi c)) with (ct_acro c). destruct (acc_to_acro _ _ _ _) as [a' [th w']]. rewrite <- acro_renum. reflexivity.
Qed.
Lemma traj_renum (c : Ctl R) p v A w dp dv da yaw dt : ctl_traj (renum_ctl pi c) p v A w dp dv da yaw dt = renum_ctl pi (ctl_traj c p v A w dp dv da yaw dt).
Proof.
  unfold ctl_traj. change (ct_traj (renum_ctl pi c)) with (ct_traj c). destruct (traj_control _ _ _ _ _ _ _) as [p' acc]. rewrite <- acc_renum. reflexivity.
Qed.
Lemma vel_renum (c : Ctl R) v A w dv yaw dt : ctl_vel (renum_ctl pi c) v A w dv yaw dt = renum_ctl pi (ctl_vel c v A w dv yaw dt).
Proof. unfold ctl_vel. cbv zeta. rewrite <- acc_renum. reflexivity. Qed.
Lemma pos_renum (c : Ctl R) p A v w dp yaw dt : ctl_pos (renum_ctl pi c) p A v w dp yaw dt = renum_ctl pi (ctl_pos c p A v w dp yaw dt).
Proof. unfold ctl_pos. cbv zeta. rewrite <- vel_renum. reflexivity. Qed.

Lemma ctl_new_renum p : ctl_new n (renum_ctl_params pi p) = renum_ctl pi (ctl_new n p).
Proof.
  unfold ctl_new, indi_new, renum_ctl, renum_indi.
  cbn [ct_acro ct_indi ct_pos ct_traj ct_vel ct_dpos ct_dvel ct_dacc ct_dthrust ct_dang ct_dmotor in_pid in_inertia in_minv in_thrust in_torque in_motor].
  rewrite (renum_repeat pi n Hpi). reflexivity.
Qed.

Lemma controller_renum (s : sim) dt : update_controller n (renum_sim pi s) dt = renum_sim pi (update_controller n s dt).
Proof.
  unfold update_controller. change (sm_armed (renum_sim pi s)) with (sm_armed s). destruct (negb _).
  { unfold with_act, renum_sim. cbn [sm_dyn sm_ctl sm_imu sm_odom sm_armed sm_floor_en sm_floor_col sm_floor_h sm_refs sm_act sm_ext sm_mode sm_yawmode].
    rewrite (renum_repeat pi n Hpi). reflexivity. }
  change (sm_yawmode (renum_sim pi s)) with (sm_yawmode s).
  assert (Y : match sm_yawmode s with ANGLE => renum_sim pi s | RATE => update_yaw_reference (renum_sim pi s) end
            = renum_sim pi (match sm_yawmode s with ANGLE => s | RATE => update_yaw_reference s end)).
  { destruct (sm_yawmode s); reflexivity. }
  rewrite Y. clear Y. cbv zeta. generalize (match sm_yawmode s with ANGLE => s | RATE => update_yaw_reference s end). clear s. intros s.
  change (sm_mode (renum_sim pi s)) with (sm_mode s).
  assert (X : forall c, with_control (renum_sim pi s) (renum_ctl pi c) = renum_sim pi (with_control s c)) by reflexivity.
  destruct (sm_mode s).
  - rewrite <- X, <- pos_renum. reflexivity.
  - reflexivity.
  - rewrite <- X, <- acro_renum. reflexivity.
  - rewrite <- X, <- traj_renum. reflexivity.
  - rewrite <- X, <- vel_renum. reflexivity.
  - rewrite <- X, <- pos_renum. reflexivity.
Qed.

Lemma dynamics_renum (s : sim) dt : well n s ->
  orel (fun a b => b = renum_sim pi a) (update_dynamics s dt) (update_dynamics (renum_sim pi s) dt).
Proof.
  intros [(p & V & L) _ _]. unfold update_dynamics. rewrite below_renum.
  assert (K : forall s1 : sim, sm_dyn s1 = sm_dyn s -> sm_act s1 = sm_act s ->
    let f s1 := match process (sm_dyn s1) (sm_act s1) dt (sm_ext s1) (negb (sm_floor_col s1)) with
    | UB => UB
    | Throw d => Throw (with_dyn s1 d)
    | Ok d =>
      let s2 := with_col (with_ext (with_dyn s1 d) v0) false in
      if below_floor s2 then
        let st := floor_state (d_state d) (sm_floor_h s2) in
        let s3 := with_dyn (with_col s2 true) (dyn_set_state d st) in
        let s4 := with_imu s3 (imu_reset (sm_imu s3)) in
        Ok (with_odom s4 (odom_reset (odom_set_init (sm_odom s4) (s_ori st))))
      else Ok s2
    end in orel (fun a b : sim => b = renum_sim pi a) (f s1) (f (renum_sim pi s1))).
  { intros s1 Ed Ea. cbv beta zeta.
    change (sm_dyn (renum_sim pi s1)) with (renum_dyn pi (sm_dyn s1)). change (sm_act (renum_sim pi s1)) with (renum pi (sm_act s1)).
    change (sm_ext (renum_sim pi s1)) with (sm_ext s1). change (sm_floor_col (renum_sim pi s1)) with (sm_floor_col s1).
    rewrite Ed, Ea. pose proof (process_renum (sm_dyn s) (sm_act s) dt (sm_ext s1) (negb (sm_floor_col s1)) p V L) as P.
    destruct (process (sm_dyn s) _ _ _ _) as [d|d|], (process (renum_dyn pi (sm_dyn s)) _ _ _ _) as [d'|d'|]; cbn [orel] in P; try contradiction.
    - destruct P as [-> _].
      change (with_col (with_ext (with_dyn (renum_sim pi s1) (renum_dyn pi d)) v0) false) with (renum_sim pi (with_col (with_ext (with_dyn s1 d) v0) false)).
      rewrite below_renum. destruct (below_floor _); reflexivity.
    - destruct P as [-> _]. reflexivity.
    - exact I. }
  cbv beta zeta in K. destruct (below_floor s).
  - change (mo_cfg (d_model (sm_dyn (renum_sim pi s)))) with (option_map (renum_cfg pi) (mo_cfg (d_model (sm_dyn s)))).
    destruct (mo_cfg (d_model (sm_dyn s))) as [c|]; cbn [option_map]; [|exact I].
    exact (K (with_ext s (vscaler (vneg (p_grav (cf_params c))) (p_mass (cf_params c)))) eq_refl eq_refl).
  - exact (K s eq_refl eq_refl).
Qed.

Lemma step_renum (s : sim) op : well n s -> fits n op ->
  orel (fun a b => b = renum_sim pi a) (sim_step n s op) (sim_step n (renum_sim pi s) (renum_call pi op)).
Proof.
  intros W Q. destruct op; cbn [renum_call sim_step orel fits] in *; try reflexivity.
  - apply dynamics_renum, W.
  - apply controller_renum.
  - unfold disarm, renum_sim. cbn [sm_dyn sm_ctl sm_imu sm_odom sm_armed sm_floor_en sm_floor_col sm_floor_h sm_refs sm_act sm_ext sm_mode sm_yawmode].
    rewrite (renum_repeat pi n Hpi). reflexivity.
  - unfold set_control_mode. change (sm_mode (renum_sim pi s)) with (sm_mode s). change (sm_yawmode (renum_sim pi s)) with (sm_yawmode s).
    destruct (_ && _); reflexivity.
  - destruct Q as (C & L & _). destruct (new_defined (G := G) n p seed st C) as [d Ed]; [lia|]. unfold set_dynamics_params.
    rewrite Ed, (new_renum p seed st d C L Ed). reflexivity.
  - unfold set_controller_params. rewrite ctl_new_renum. reflexivity.
Qed.

Lemma run_renum ops : forall s : sim, well n s -> Forall (fits n) ops ->
  exists a, sim_run n s ops = Some a /\ sim_run n (renum_sim pi s) (map (renum_call pi) ops) = Some (renum_sim pi a).
Proof.
  induction ops as [|op ops IH]; intros s W F; [exists s; split; reflexivity|].
  apply Forall_cons_iff in F as [Q F]. destruct (well_step n s op W Q) as (s1 & N & W1).
  destruct (IH s1 W1 F) as (a & A & B). exists a. pose proof (step_renum s op W Q) as S. cbn [sim_run map].
  destruct N as [N|N]; rewrite N in S |- *; (split; [exact A|]); destruct (sim_step n (renum_sim pi s) (renum_call pi op)) as [x|x|]; cbn [orel] in S; try contradiction;
    rewrite S; exact B.
Qed.

Lemma renumbered sp ops : fitting_params n sp -> Forall (fits n) ops ->
  exists a : sim, sim_after n sp ops = Some a /\ sim_after n (renum_start pi sp) (map (renum_call pi) ops) = Some (renum_sim pi a).
Proof.
  intros (C & Lm & Ls & Lc) F. destruct (new_defined (G := G) n (sp_model sp) (sp_seed sp) (sp_state sp) C) as [d Ed]; [lia|].
  unfold sim_after, sim_new. rewrite Ed. cbn [option_map].
  cbn [renum_start sp_model sp_seed sp_state sp_ctl sp_imu sp_odom]. rewrite (new_renum _ _ _ d C Lm Ed). cbn [option_map].
  destruct (new_params _ _ _ _ _ Ed C) as (A & B & E).
  match goal with |- exists a, sim_run n ?x ops = _ /\ _ => assert (W : well n x) end.
  { split; [|apply repeat_length|exact Lc]. exists (sp_model sp). split; [|exact Lm].
    split; [exact A|]. split; [exact B|]. split; [apply repeat_length|]. cbn. rewrite E. exact Ls. }
  destruct (run_renum ops _ W F) as (a & K & K'). exists a. split; [exact K|]. rewrite <- K'. f_equal.
  unfold renum_sim. cbn [sm_dyn sm_ctl sm_imu sm_odom sm_armed sm_floor_en sm_floor_col sm_floor_h sm_refs sm_act sm_ext sm_mode sm_yawmode].
  rewrite ctl_new_renum, (renum_repeat pi n Hpi). unfold refs0, renum_refs. cbn [rf_motors rf_thrust rf_ang rf_pos rf_vel rf_acc rf_yaw rf_yawrate].
  rewrite (renum_repeat pi n Hpi). reflexivity.
Qed.
End Vehicle.

(** ** The allocation matrix of a quadrotor *)
Lemma four_orders pi : Permutation pi (seq 0 4) -> exists i j k l, pi = [i; j; k; l] /\ NoDup [i; j; k; l] /\
  (i < 4 /\ j < 4 /\ k < 4 /\ l < 4)%nat.
Proof.
  intros P. pose proof (Permutation_length P) as L. cbn in L.
  destruct pi as [|i [|j [|k [|l [|x r]]]]]; try discriminate L. exists i, j, k, l. split; [reflexivity|]. split.
  - eapply Permutation_NoDup; [symmetry; exact P|apply seq_NoDup].
  - assert (Q : forall x, In x [i; j; k; l] -> (x < 4)%nat).
    { intros x X. apply (Permutation_in _ P), in_seq in X. lia. }
    repeat split; apply Q; cbn; tauto.
Qed.

Lemma quot_flip (x y x' y' : R) : x' = - x -> y' = - y -> x' / y' = x / y.
Proof. intros -> ->. unfold Rdiv. rewrite Rinv_opp. ring. Qed.

Lemma V4_eq (x y : V4 R) : v4a x = v4a y -> v4b x = v4b y -> v4c x = v4c y -> v4d x = v4d y -> x = y.
Proof. destruct x as [xa xb xc xd], y as [ya yb yc yd]. cbn [v4a v4b v4c v4d]. intros -> -> -> ->. reflexivity. Qed.
Lemma M4_eq (x y : M4 R) : r4a x = r4a y -> r4b x = r4b y -> r4c x = r4c y -> r4d x = r4d y -> x = y.
Proof. destruct x as [xa xb xc xd], y as [ya yb yc yd]. cbn [r4a r4b r4c r4d]. intros -> -> -> ->. reflexivity. Qed.
Lemma cof01 (a b c : V4 R) : let C := m4cof a b c in
  m4cof (mkV4 (v4b a) (v4a a) (v4c a) (v4d a)) (mkV4 (v4b b) (v4a b) (v4c b) (v4d b)) (mkV4 (v4b c) (v4a c) (v4c c) (v4d c)) = mkV4 (- v4b C) (- v4a C) (- v4c C) (- v4d C).
Proof. cbv zeta. unfold m4cof, mdet. cbn [v4a v4b v4c v4d m00 m01 m02 m10 m11 m12 m20 m21 m22]. unR. apply V4_eq; cbn [v4a v4b v4c v4d]; ring. Qed.
Lemma dot01 (a C : V4 R) : v4dot (mkV4 (v4b a) (v4a a) (v4c a) (v4d a)) (mkV4 (- v4b C) (- v4a C) (- v4c C) (- v4d C)) = - v4dot a C.
Proof. unfold v4dot. cbn [v4a v4b v4c v4d]. unR. ring. Qed.
Lemma inv01 (a b c d : V4 R) : let M := m4inv (mkM4 a b c d) in
  m4inv (mkM4 (mkV4 (v4b a) (v4a a) (v4c a) (v4d a)) (mkV4 (v4b b) (v4a b) (v4c b) (v4d b)) (mkV4 (v4b c) (v4a c) (v4c c) (v4d c)) (mkV4 (v4b d) (v4a d) (v4c d) (v4d d))) = mkM4 (r4b M) (r4a M) (r4c M) (r4d M).
Proof.
  cbv zeta. unfold m4inv. cbv zeta. cbn [r4a r4b r4c r4d]. rewrite !cof01. cbv zeta. rewrite dot01.
  generalize (m4cof b c d) (m4cof a c d) (m4cof a b d) (m4cof a b c) (v4dot a (m4cof b c d)). intros c0 c1 c2 c3 e.
  unfold v4neg. cbn [v4a v4b v4c v4d]. unR. apply M4_eq; cbn [r4a r4b r4c r4d]; apply V4_eq; cbn [v4a v4b v4c v4d]; apply quot_flip; ring.
Qed.
Lemma swap01 (a b c d r1 r2 r3 r4 : V3 R * V3 R) : quad_mixer_inverse a b c d = [r1; r2; r3; r4] -> quad_mixer_inverse b a c d = [r2; r1; r3; r4].
Proof.
  unfold quad_mixer_inverse. cbv zeta. intros E. injection E as <- <- <- <-. unfold mixer_rows4.
  pose proof (inv01 (mkV4 (vz (fst a)) (vz (fst b)) (vz (fst c)) (vz (fst d))) (mkV4 (vx (snd a)) (vx (snd b)) (vx (snd c)) (vx (snd d)))
    (mkV4 (vy (snd a)) (vy (snd b)) (vy (snd c)) (vy (snd d))) (mkV4 (vz (snd a)) (vz (snd b)) (vz (snd c)) (vz (snd d)))) as K.
  cbv zeta in K. cbn [v4a v4b v4c v4d] in K. rewrite K. reflexivity.
Qed.
Lemma cof12 (a b c : V4 R) : let C := m4cof a b c in
  m4cof (mkV4 (v4a a) (v4c a) (v4b a) (v4d a)) (mkV4 (v4a b) (v4c b) (v4b b) (v4d b)) (mkV4 (v4a c) (v4c c) (v4b c) (v4d c)) = mkV4 (- v4a C) (- v4c C) (- v4b C) (- v4d C).
Proof. cbv zeta. unfold m4cof, mdet. cbn [v4a v4b v4c v4d m00 m01 m02 m10 m11 m12 m20 m21 m22]. unR. apply V4_eq; cbn [v4a v4b v4c v4d]; ring. Qed.
Lemma dot12 (a C : V4 R) : v4dot (mkV4 (v4a a) (v4c a) (v4b a) (v4d a)) (mkV4 (- v4a C) (- v4c C) (- v4b C) (- v4d C)) = - v4dot a C.
Proof. unfold v4dot. cbn [v4a v4b v4c v4d]. unR. ring. Qed.
Lemma inv12 (a b c d : V4 R) : let M := m4inv (mkM4 a b c d) in
  m4inv (mkM4 (mkV4 (v4a a) (v4c a) (v4b a) (v4d a)) (mkV4 (v4a b) (v4c b) (v4b b) (v4d b)) (mkV4 (v4a c) (v4c c) (v4b c) (v4d c)) (mkV4 (v4a d) (v4c d) (v4b d) (v4d d))) = mkM4 (r4a M) (r4c M) (r4b M) (r4d M).
Proof.
  cbv zeta. unfold m4inv. cbv zeta. cbn [r4a r4b r4c r4d]. rewrite !cof12. cbv zeta. rewrite dot12.
  generalize (m4cof b c d) (m4cof a c d) (m4cof a b d) (m4cof a b c) (v4dot a (m4cof b c d)). intros c0 c1 c2 c3 e.
  unfold v4neg. cbn [v4a v4b v4c v4d]. unR. apply M4_eq; cbn [r4a r4b r4c r4d]; apply V4_eq; cbn [v4a v4b v4c v4d]; apply quot_flip; ring.
Qed.
Lemma swap12 (a b c d r1 r2 r3 r4 : V3 R * V3 R) : quad_mixer_inverse a b c d = [r1; r2; r3; r4] -> quad_mixer_inverse a c b d = [r1; r3; r2; r4].
Proof.
  unfold quad_mixer_inverse. cbv zeta. intros E. injection E as <- <- <- <-. unfold mixer_rows4.
  pose proof (inv12 (mkV4 (vz (fst a)) (vz (fst b)) (vz (fst c)) (vz (fst d))) (mkV4 (vx (snd a)) (vx (snd b)) (vx (snd c)) (vx (snd d)))
    (mkV4 (vy (snd a)) (vy (snd b)) (vy (snd c)) (vy (snd d))) (mkV4 (vz (snd a)) (vz (snd b)) (vz (snd c)) (vz (snd d)))) as K.
  cbv zeta in K. cbn [v4a v4b v4c v4d] in K. rewrite K. reflexivity.
Qed.
Lemma cof23 (a b c : V4 R) : let C := m4cof a b c in
  m4cof (mkV4 (v4a a) (v4b a) (v4d a) (v4c a)) (mkV4 (v4a b) (v4b b) (v4d b) (v4c b)) (mkV4 (v4a c) (v4b c) (v4d c) (v4c c)) = mkV4 (- v4a C) (- v4b C) (- v4d C) (- v4c C).
Proof. cbv zeta. unfold m4cof, mdet. cbn [v4a v4b v4c v4d m00 m01 m02 m10 m11 m12 m20 m21 m22]. unR. apply V4_eq; cbn [v4a v4b v4c v4d]; ring. Qed.
Lemma dot23 (a C : V4 R) : v4dot (mkV4 (v4a a) (v4b a) (v4d a) (v4c a)) (mkV4 (- v4a C) (- v4b C) (- v4d C) (- v4c C)) = - v4dot a C.
Proof. unfold v4dot. cbn [v4a v4b v4c v4d]. unR. ring. Qed.
Lemma inv23 (a b c d : V4 R) : let M := m4inv (mkM4 a b c d) in
  m4inv (mkM4 (mkV4 (v4a a) (v4b a) (v4d a) (v4c a)) (mkV4 (v4a b) (v4b b) (v4d b) (v4c b)) (mkV4 (v4a c) (v4b c) (v4d c) (v4c c)) (mkV4 (v4a d) (v4b d) (v4d d) (v4c d))) = mkM4 (r4a M) (r4b M) (r4d M) (r4c M).
Proof.
  cbv zeta. unfold m4inv. cbv zeta. cbn [r4a r4b r4c r4d]. rewrite !cof23. cbv zeta. rewrite dot23.
  generalize (m4cof b c d) (m4cof a c d) (m4cof a b d) (m4cof a b c) (v4dot a (m4cof b c d)). intros c0 c1 c2 c3 e.
  unfold v4neg. cbn [v4a v4b v4c v4d]. unR. apply M4_eq; cbn [r4a r4b r4c r4d]; apply V4_eq; cbn [v4a v4b v4c v4d]; apply quot_flip; ring.
Qed.
Lemma swap23 (a b c d r1 r2 r3 r4 : V3 R * V3 R) : quad_mixer_inverse a b c d = [r1; r2; r3; r4] -> quad_mixer_inverse a b d c = [r1; r2; r4; r3].
Proof.
  unfold quad_mixer_inverse. cbv zeta. intros E. injection E as <- <- <- <-. unfold mixer_rows4.
  pose proof (inv23 (mkV4 (vz (fst a)) (vz (fst b)) (vz (fst c)) (vz (fst d))) (mkV4 (vx (snd a)) (vx (snd b)) (vx (snd c)) (vx (snd d)))
    (mkV4 (vy (snd a)) (vy (snd b)) (vy (snd c)) (vy (snd d))) (mkV4 (vz (snd a)) (vz (snd b)) (vz (snd c)) (vz (snd d)))) as K.
  cbv zeta in K. cbn [v4a v4b v4c v4d] in K. rewrite K. reflexivity.
Qed.

Lemma inverse_renum pi (a b c d : V3 R * V3 R) : Permutation pi (seq 0 4) ->
  match renum pi [a; b; c; d] with
  | [a'; b'; c'; d'] => quad_mixer_inverse a' b' c' d' = renum pi (quad_mixer_inverse a b c d)
  | _ => False
  end.
Proof.
  intros P. destruct (four_orders pi P) as (i & j & k & l & -> & N & (I & J & K & L)). clear P.
  assert (E : exists r1 r2 r3 r4, quad_mixer_inverse a b c d = [r1; r2; r3; r4]) by (do 4 eexists; reflexivity).
  destruct E as (r1 & r2 & r3 & r4 & E). rewrite E.
  destruct i as [|[|[|[|i]]]]; try lia; destruct j as [|[|[|[|j]]]]; try lia; try (exfalso; inversion N; cbn in *; tauto);
  destruct k as [|[|[|[|k]]]]; try lia; try (exfalso; inversion N as [|? ? ? N1]; inversion N1; cbn in *; tauto);
  destruct l as [|[|[|[|l]]]]; try lia; try (exfalso; inversion N as [|? ? ? N1]; inversion N1 as [|? ? ? N2]; inversion N2; cbn in *; tauto);
  clear - E; cbn [renum flat_map pick nth_error app]; eauto 8 using swap01, swap12, swap23.
Qed.

Lemma allocation_renum pi ms : Permutation pi (seq 0 4) -> length ms = 4%nat ->
  quad_inverse (renum pi ms) = option_map (renum pi) (quad_inverse ms).
Proof.
  intros P L. unfold quad_inverse, compute_mixer_6D, cols. rewrite (renum_length pi 4 P) by exact L. rewrite L. cbn [Nat.ltb Nat.leb Nat.sub repeat].
  rewrite !app_nil_r, <- renum_map. destruct ms as [|a [|b [|c [|d [|e r]]]]]; try discriminate L. cbn [map].
  pose proof (inverse_renum pi (mixer6_col a) (mixer6_col b) (mixer6_col c) (mixer6_col d) P) as Q.
  destruct (renum pi _) as [|a' [|b' [|c' [|d' [|e' r']]]]]; try contradiction. cbn [option_map]. rewrite Q. reflexivity.
Qed.

Lemma flights_agree {G H : Gen R} n pi sp ops : Permutation pi (seq 0 n) -> fitting_params n sp -> Forall (fits n) ops ->
  exists a b : Sim R G H, sim_after n sp ops = Some a /\ sim_after n (renum_start pi sp) (map (renum_call pi) ops) = Some b /\ same_flight pi a b.
Proof.
  intros P F Q. destruct (renumbered n pi P sp ops F Q) as (a & A & B). exists a, (renum_sim pi a). split; [exact A|]. split; [exact B|].
  unfold same_flight. cbv zeta. do 12 (split; [reflexivity|]). reflexivity.
Qed.
