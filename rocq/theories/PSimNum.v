(** Proofs: while the vehicle stays within a range, every number the simulator shows is finite. *)

From Coq Require Import ZArith Bool List Reals Lra Lia.
From Flocq Require Import Core BinarySingleNaN.
From Verif Require Import Scalar Float64 LinAlg MUtils MModel MDynamics MPid MControl MCtlRun MImu MSim SpecDyn SpecRun SpecRound SpecNumber SpecPidNum SpecImuNum SpecCtlNum SpecSimNum
  PBase PFloat PRound PQuat64 PDyn PUnit64 PPhys PUp PNumber PExact PPidNum PImuNum PNorm64 PCtlNum ENumber.
Import ListNotations.
Local Open Scope R_scope.

Lemma step_traj {T} {O : Ops T} (c : Ctl T) cp cv R cw dp dv da yaw dt : ctl_step c (CTraj cp cv R cw dp dv da yaw dt) = ctl_traj c cp cv R cw dp dv da yaw dt.
Proof. reflexivity. Qed.

Section Sim.
Variable L : Libm.
#[local] Instance FO : Ops b64 := F64Ops L.
Local Open Scope sc_scope.

(** ** Orientation *)
Lemma qmat_up q : unit_within (1/2) q -> upto9 32 (qmat q).
Proof.
  intros U. destruct (unit_up q U) as [W (X & Y & Z)]. cbn [qvec vx vy vz] in X, Y, Z.
  assert (Two : upto 1 (ofZ 2)) by (apply up_const; lia). assert (One : upto 4 one) by (apply (up_weak 1); [lia|apply up_const; lia]).
  assert (T : forall a b, upto 1 a -> upto 1 b -> upto 3 (ofZ 2 * a * b)).
  { intros a b A B. apply (up_mul L 2 1); [apply (up_mul L 1 1); [exact Two|exact A|lia]|exact B|lia]. }
  assert (P : forall a b, upto 3 a -> upto 3 b -> upto 32 (a + b)) by (intros a b A B; apply (up_weak 4); [lia|apply (up_add L 3); [exact A|exact B|lia]]).
  assert (M : forall a b, upto 3 a -> upto 3 b -> upto 32 (a - b)) by (intros a b A B; apply (up_weak 4); [lia|apply (up_sub L 3); [exact A|exact B|lia]]).
  assert (D : forall a b, upto 3 a -> upto 3 b -> upto 32 (one - (a + b))) by (intros a b A B; apply (up_weak 5); [lia|apply (up_sub L 4); [exact One|apply (up_add L 3); [exact A|exact B|lia]|lia]]).
  unfold qmat. cbv zeta. unfold upto9. cbn [m00 m01 m02 m10 m11 m12 m20 m21 m22].
  split; [split; [|split]|split; [split; [|split]|split; [|split]]]; cbn [vx vy vz]; first [apply D|apply P|apply M]; (apply T; assumption).
Qed.
Lemma norm_unit q : unit_within (1/2) q -> unit_within (1/2) (qnormalized q).
Proof.
  intros [F A]. apply Rabs_le_inv in A. apply within_weak. apply (normalized64 L q F); [lra|].
  assert (B : (2^4 <= huge)%R) by (unfold huge; apply bpow_le; lia). change (2^4) with 16%R in B. lra.
Qed.
Lemma yaw_num q : atan_range L -> unit_within (1/2) q -> upto 2 (vz (quat_to_euler q)).
Proof.
  intros At U0. pose proof (norm_unit q U0) as U. unfold quat_to_euler. cbv zeta. cbn [vz]. set (p := qnormalized q) in *. clearbody p.
  destruct (unit_up p U) as [W (X & Y & Z)]. cbn [qvec vx vy vz] in X, Y, Z.
  assert (Two : upto 1 (ofZ 2)) by (apply up_const; lia). assert (One : upto 4 one) by (apply (up_weak 1); [lia|apply up_const; lia]).
  assert (S2 : forall a b c d, upto 1 a -> upto 1 b -> upto 1 c -> upto 1 d -> upto 4 (ofZ 2 * (a * b + c * d))).
  { intros a b c d A B C D. apply (up_mul L 1 3); [exact Two|apply (up_add L 2); [apply (up_mul L 1 1); [exact A|exact B|lia]|apply (up_mul L 1 1); [exact C|exact D|lia]|lia]|lia]. }
  apply At.
  - exact (up_fin 4 _ (S2 _ _ _ _ W Z X Y)).
  - exact (up_fin 5 _ (up_sub L 4 _ _ One (S2 _ _ _ _ Y Y Z Z) ltac:(lia))).
Qed.
Lemma up_div_abs e g x y : upto e x -> fin y -> (2^g <= Rabs (val y))%R -> (-1000 <= e - g <= 1023)%Z -> upto (e - g) (x / y).
Proof.
  intros [Fx Ax] Fy Ay He. pose proof (pow_pos g) as Pg. assert (Ny : B2R y <> 0%R). { intros E. unfold val in Ay. rewrite E, Rabs_R0 in Ay. lra. }
  pose proof (Bdiv_correct 53 1024 _ _ mode_NE x y Ny) as C.
  destruct (rnd_up (e - g) (val x / val y)) as [U V]; [lia| |].
  { unfold Rdiv, Z.sub. rewrite bpow_plus, Rabs_mult, bpow_opp, Rabs_inv. apply Rmult_le_compat; try apply Rabs_pos; [|exact Ax|].
    - rewrite <- Rabs_inv. apply Rabs_pos.
    - apply Rinv_le_contravar; assumption. }
  unfold val in U, V. rewrite V in C. destruct C as (C & F & _). split; [exact (eq_trans F Fx)|]. unfold val. change (Bdiv mode_NE x y) with (x / y)%sc in C. rewrite C. exact U.
Qed.
Lemma yaw_from_rate c cur rate : upto 2 cur -> upto 32 rate -> upto 32 (m22 (ac_kp (ct_acro c))) -> yaw_gain (m22 (ac_kp (ct_acro c))) -> fin (yaw_rate_to_angle c cur rate).
Proof.
  intros Uc Ur [Fk _] Hk. unfold yaw_rate_to_angle. cbv zeta. destruct (_ =? zero) eqn:E; [apply Uc|].
  destruct Hk as [Z|K].
  - exfalso. change (Beqb (m22 (ac_kp (ct_acro c))) (b64_ofZ 0) = false) in E. rewrite Beqb_correct in E by (exact Fk || reflexivity).
    unfold val in Z. rewrite Z in E. change (B2R (b64_ofZ 0)) with 0%R in E. rewrite Req_bool_true in E by reflexivity. discriminate E.
  - apply (up_fin 65). apply (up_add L 64); [apply (up_weak 2); [lia|exact Uc]| |lia]. exact (up_div_abs 32 (-32) _ _ Ur Fk K ltac:(lia)).
Qed.

(** ** What the controller leaves unchanged *)
Definition shape (n : nat) (c : Ctl b64) : Prop := length (in_minv (ct_indi c)) = n /\ yaw_gain (m22 (ac_kp (ct_acro c))).
Lemma acro_shape n c cur th des dt : shape n c -> shape n (ctl_acro c cur th des dt) /\ length (ct_dmotor (ctl_acro c cur th des dt)) = n.
Proof. intros [A B]. split; [split; [exact A|exact B]|]. unfold ctl_acro, acro_to_motor. cbn [ct_dmotor in_motor]. rewrite map_length. exact A. Qed.
Lemma acc_shape n c R cw acc yaw dt : shape n c -> shape n (ctl_acc c R cw acc yaw dt) /\ length (ct_dmotor (ctl_acc c R cw acc yaw dt)) = n.
Proof. intros [A B]. unfold ctl_acc. destruct (acc_to_acro (ct_acro c) acc R yaw) as [a' [th w]] eqn:E. apply acro_shape. split; [exact A|]. unfold acc_to_acro in E. injection E as <- _. exact B. Qed.
Lemma vel_shape n c cv R cw dv yaw dt : shape n c -> shape n (ctl_vel c cv R cw dv yaw dt) /\ length (ct_dmotor (ctl_vel c cv R cw dv yaw dt)) = n.
Proof. intros [A B]. unfold ctl_vel. apply acc_shape. split; assumption. Qed.
Lemma pos_shape n c cp R cv cw dp yaw dt : shape n c -> shape n (ctl_pos c cp R cv cw dp yaw dt) /\ length (ct_dmotor (ctl_pos c cp R cv cw dp yaw dt)) = n.
Proof. intros [A B]. unfold ctl_pos. apply vel_shape. split; assumption. Qed.
Lemma traj_shape n c cp cv R cw dp dv da yaw dt : shape n c -> shape n (ctl_traj c cp cv R cw dp dv da yaw dt) /\ length (ct_dmotor (ctl_traj c cp cv R cw dp dv da yaw dt)) = n.
Proof. intros [A B]. unfold ctl_traj. destruct (traj_control _ _ _ _ _ _ _) as [p' acc]. apply acc_shape. split; assumption. Qed.

Lemma traj_step_ok c cp cv R cw dp dv da yaw dt : trig_range L -> ctl_ok c -> upto3 32 cp -> upto3 32 cv -> upto9 32 R -> upto3 32 cw -> upto3 32 dp -> upto3 32 dv -> upto3 32 da -> fin yaw -> sane_step 32 dt ->
  ctl_ok (ctl_traj c cp cv R cw dp dv da yaw dt).
Proof.
  intros Tr Hc H1 H2 H3 H4 H5 H6 H7 H8 H9.
  pose proof (ctl_step_ok L c (CTraj cp cv R cw dp dv da yaw dt) Tr Hc (conj H1 (conj H2 (conj H3 (conj H4 (conj H5 (conj H6 (conj H7 (conj H8 H9))))))))) as K. rewrite step_traj in K. exact K.
Qed.

(** ** The invariant *)
Context {G H : Gen b64}.
Hypothesis HG : reasonable_gen G.
Hypothesis HH : reasonable_gen H.
Hypothesis Tr : trig_range L.
Hypothesis At : atan_range L.
Variable n : nat.
Hypothesis Hn : (n <= 100)%nat.

Definition refs_ok (r : Refs b64) : Prop :=
  (length (rf_motors r) = n /\ Forall fin (rf_motors r)) /\ upto 32 (rf_thrust r) /\ upto3 32 (rf_ang r) /\ upto3 32 (rf_pos r) /\ upto3 32 (rf_vel r) /\ upto3 32 (rf_acc r) /\
  fin (rf_yaw r) /\ upto 32 (rf_yawrate r).
Definition dyn_ok (s : Sim b64 G H) : Prop := exists p, vehicle n (sm_dyn s) (sm_act s) p /\ sane_vehicle p.
Definition sim_ok (s : Sim b64 G H) : Prop :=
  (dyn_ok s /\ numbers (sim_state s)) /\ (ctl_ok (sm_ctl s) /\ shape n (sm_ctl s)) /\ imu_ok (sm_imu s) /\ odom_ok (sm_odom s) /\
  Forall fin (sm_act s) /\ upto3 64 (sm_ext s) /\ upto 32 (sm_floor_h s) /\ refs_ok (sm_refs s).

Lemma act_ok (s : Sim b64 G H) a : dyn_ok s -> length a = n -> exists p, vehicle n (sm_dyn s) a p /\ sane_vehicle p.
Proof. intros (p & (A & B & _ & D) & P) E. exists p. split; [split; [exact A|split; [exact B|split; [exact E|exact D]]]|exact P]. Qed.
Lemma control_ok (s : Sim b64 G H) c : sim_ok s -> ctl_ok c -> shape n c -> length (ct_dmotor c) = n -> sim_ok (with_control s c).
Proof.
  intros ((D & N) & _ & I & Od & A & E & F & R) C Sh Len. split; [split; [exact (act_ok s _ D Len)|exact N]|]. split; [split; [exact C|exact Sh]|]. split; [exact I|]. split; [exact Od|].
  split; [|split; [exact E|split; [exact F|exact R]]]. cbn [with_control with_act with_ctl sm_act]. destruct C as (_ & _ & _ & _ & _ & (_ & _ & _ & _ & _ & M)).
  eapply Forall_impl; [|exact M]. intros x. apply up_fin.
Qed.
Lemma refs_set (s : Sim b64 G H) r : sim_ok s -> refs_ok r -> sim_ok (with_refs s r).
Proof. intros (D & C & I & Od & A & E & F & _) R. split; [exact D|]. split; [exact C|]. split; [exact I|]. split; [exact Od|]. split; [exact A|]. split; [exact E|]. split; [exact F|exact R]. Qed.
Lemma act_set (s : Sim b64 G H) a : sim_ok s -> length a = n -> Forall fin a -> sim_ok (with_act s a).
Proof. intros ((D & N) & C & I & Od & _ & E & F & R) Len A. split; [split; [exact (act_ok s _ D Len)|exact N]|]. split; [exact C|]. split; [exact I|]. split; [exact Od|]. split; [exact A|]. split; [exact E|]. split; [exact F|exact R]. Qed.
Lemma zeros_fin k : Forall fin (repeat (zero : b64) k).
Proof. apply Forall_forall. intros x Hx. apply repeat_spec in Hx as ->. reflexivity. Qed.

Lemma controller_ok (s : Sim b64 G H) dt : sim_ok s -> small_motion s -> sane_step 32 dt -> sim_ok (update_controller n s dt).
Proof.
  intros S [Sm _] Sd. unfold update_controller. destruct (sm_armed s); cbn [negb]; [|apply act_set; [exact S|apply repeat_length|apply zeros_fin]].
  cbv zeta. set (t := match sm_yawmode s with ANGLE => s | RATE => update_yaw_reference s end).
  pose proof S as ((_ & N) & _). destruct (Sm N) as ((_ & U & _) & Sp & Sv & Sw & _).
  assert (T : sim_ok t /\ sim_state t = sim_state s).
  { unfold t. destruct (sm_yawmode s); split; try reflexivity; try exact S. apply refs_set; [exact S|].
    pose proof S as (_ & (C & Sh) & _ & _ & _ & _ & _ & (R1 & R2 & R3 & R4 & R5 & R6 & R7 & R8)). split; [exact R1|]. split; [exact R2|]. split; [exact R3|]. split; [exact R4|]. split; [exact R5|]. split; [exact R6|]. split; [|exact R8].
    cbn [set_ref_yaw rf_yaw]. apply yaw_from_rate; [apply yaw_num; [exact At|exact U]|exact R8| |apply Sh]. destruct C as ((K & _) & _). apply K. }
  clearbody t. destruct T as [T E]. rewrite E. pose proof T as (_ & (C & Sh) & _ & _ & _ & _ & _ & (R1 & R2 & R3 & R4 & R5 & R6 & R7 & R8)).
  pose proof (qmat_up _ U) as UR. clear E Sm S.
  destruct (sm_mode t).
  - apply control_ok; [exact T|apply pos_step_ok; assumption|apply pos_shape; exact Sh|apply pos_shape; exact Sh].
  - apply act_set; [exact T|apply R1|apply R1].
  - apply control_ok; [exact T| |apply acro_shape; exact Sh|apply acro_shape; exact Sh]. apply acro_step_ok; [exact C|exact Sw|apply (up_weak 32); [lia|exact R2]|apply (up3_weak 32); [lia|exact R3]|exact Sd].
  - apply control_ok; [exact T| |apply traj_shape; exact Sh|apply traj_shape; exact Sh].
    apply traj_step_ok; assumption.
  - apply control_ok; [exact T| |apply vel_shape; exact Sh|apply vel_shape; exact Sh]. apply vel_step_ok; try assumption. apply (up3_weak 32); [lia|exact R5].
  - apply control_ok; [exact T|apply pos_step_ok; assumption|apply pos_shape; exact Sh|apply pos_shape; exact Sh].
Qed.

(** ** A step of the dynamics *)
Lemma weight_force p : sane_vehicle p -> upto3 64 (vscaler (vneg (p_grav p)) (p_mass p)).
Proof.
  intros (_ & M & (A & B & C)). apply (up3_weak 63); [lia|]. apply (up3_scaler L 32 31); [|exact M|lia]. split; [|split]; apply (up_neg L); assumption.
Qed.
Lemma motion_ok (s s' : Sim b64 G H) dt : sim_ok s -> fin dt -> (2^(-64) <= val dt)%R ->
  in_range L (sm_dyn s) (mkCall (sm_act s) dt (outer_force L s) (negb (sm_floor_col s))) -> update_dynamics s dt = Ok s' -> small_motion s' -> sim_ok s'.
Proof.
  intros S Fd Pd Hr Hu Sm'. pose proof S as ((D & N) & C & I & Od & A & E & F & R). pose proof D as (p & V & P).
  pose proof V as (Hm & Hp & La & Lw). pose proof Hp as Hp'. apply get_params_cfg in Hp' as (c & Hc & Hcp).
  unfold update_dynamics in Hu.
  set (s1 := if below_floor s then with_ext s (vscaler (vneg (p_grav p)) (p_mass p)) else s).
  assert (E1 : (if below_floor s then option_map (fun c => with_ext s (vscaler (vneg (p_grav (cf_params c))) (p_mass (cf_params c)))) (mo_cfg (d_model (sm_dyn s))) else Some s) = Some s1).
  { unfold s1. destruct (below_floor s); [|reflexivity]. rewrite Hc. cbn [option_map]. rewrite Hcp. reflexivity. }
  rewrite E1 in Hu. cbv beta iota in Hu.
  assert (Ex : sm_ext s1 = outer_force L s). { unfold outer_force, s1. rewrite Hp. destruct (below_floor s); reflexivity. }
  assert (Ue : upto3 64 (outer_force L s)). { unfold outer_force. rewrite Hp. destruct (below_floor s); [apply weight_force, P|exact E]. }
  assert (K : sm_dyn s1 = sm_dyn s /\ sm_act s1 = sm_act s /\ sm_floor_col s1 = sm_floor_col s /\ sm_ctl s1 = sm_ctl s /\ sm_imu s1 = sm_imu s /\ sm_odom s1 = sm_odom s /\ sm_refs s1 = sm_refs s /\ sm_floor_h s1 = sm_floor_h s)
    by (unfold s1; destruct (below_floor s); (split; [reflexivity|split; [reflexivity|split; [reflexivity|split; [reflexivity|split; [reflexivity|split; [reflexivity|split; reflexivity]]]]]])).
  clearbody s1. clear E1. destruct K as (K1 & K2 & K3 & K4 & K5 & K6 & K7 & K8). rewrite K1, K2, K3, Ex in Hu.
  destruct (process (sm_dyn s) (sm_act s) dt (outer_force L s) (negb (sm_floor_col s))) as [d|d|] eqn:Ep; [|discriminate Hu|discriminate Hu].
  set (c0 := mkCall (sm_act s) dt (outer_force L s) (negb (sm_floor_col s))) in *.
  assert (Rc : reasonable_call c0).
  { split; [eapply Forall_impl; [|exact A]; intros x; apply fin_nan|]. split; [exact Ue|]. split; [exact Fd|]. pose proof (pow_pos (-64)). split; [unfold c0; cbn [k_dt]; lra|]. intros _. exact Pd. }
  destruct (process_numbers L n (sm_dyn s) d c0 p Hn V (proj1 P) HG N Hr Rc Ep) as [Nd Vd]. cbn [k_act c0] in Vd.
  destruct (below_floor _) eqn:Eb in Hu; injection Hu as <-.
  - set (t := with_odom _ _) in *.
    assert (Nt : numbers (sim_state t)).
    { destruct Nd as (N1 & N2 & N3 & N4 & N5 & N6 & N7 & N8 & N9 & N10). change (sim_state t) with (floor_state (d_state d) (sm_floor_h s1)). unfold floor_state.
      assert (Z : finv v0) by (split; [reflexivity|split; reflexivity]). split; [|split; [exact N2|split; [exact Z|split; [exact Z|split; [exact Z|split; [exact Z|split; [exact N7|split; [exact N8|split; [exact N9|exact N10]]]]]]]]].
      cbn [s_pos vsetz]. split; [apply N1|split; [apply N1|]]. cbn [vz]. rewrite K8. apply F. }
    destruct Sm' as [Sm' _]. destruct (Sm' Nt) as ((_ & U & _) & _).
    split; [split; [|exact Nt]|].
    + exists p. split; [|exact P]. destruct Vd as (V1 & V2 & V3 & V4). split; [exact V1|]. split; [exact V2|]. split; [|exact V4]. change (length (sm_act s1) = n). rewrite K2. exact La.
    + split; [change (ctl_ok (sm_ctl s1) /\ shape n (sm_ctl s1)); rewrite K4; exact C|].
      split; [change (imu_ok (imu_reset (sm_imu s1))); rewrite K5; exact (imu_step_ok L _ IReset HH I Logic.I)|].
      split; [change (odom_ok (odom_reset (odom_set_init (sm_odom s1) (s_ori (sim_state t))))); rewrite K6; exact (odom_step_ok L _ OReset (odom_step_ok L _ (OInit _) Od U) Logic.I)|].
      split; [change (Forall fin (sm_act s1)); rewrite K2; exact A|]. split; [apply (up3_v0 L)|]. split; [change (upto 32 (sm_floor_h s1)); rewrite K8; exact F|]. change (refs_ok (sm_refs s1)). rewrite K7. exact R.
  - split; [split; [|exact Nd]|].
    + exists p. split; [|exact P]. destruct Vd as (V1 & V2 & V3 & V4). split; [exact V1|]. split; [exact V2|]. split; [|exact V4]. change (length (sm_act s1) = n). rewrite K2. exact La.
    + split; [change (ctl_ok (sm_ctl s1) /\ shape n (sm_ctl s1)); rewrite K4; exact C|].
      split; [change (imu_ok (sm_imu s1)); rewrite K5; exact I|]. split; [change (odom_ok (sm_odom s1)); rewrite K6; exact Od|].
      split; [change (Forall fin (sm_act s1)); rewrite K2; exact A|]. split; [apply (up3_v0 L)|]. split; [change (upto 32 (sm_floor_h s1)); rewrite K8; exact F|]. change (refs_ok (sm_refs s1)). rewrite K7. exact R.
Qed.
Lemma motion_no_throw (s t : Sim b64 G H) dt : fin dt -> (2^(-64) <= val dt)%R -> update_dynamics s dt <> Throw t.
Proof.
  intros Fd Pd. unfold update_dynamics. destruct (if below_floor s then _ else _) as [s1|]; [|discriminate].
  destruct (process _ _ _ _ _) as [d|d|] eqn:E; [|intros _|discriminate].
  - destruct (below_floor _); discriminate.
  - apply (process_throw_only (F64_sane L)) in E as [E _]. pose proof (pow_pos (-64)). pose proof (leb_pos L dt Fd ltac:(lra)) as LP. congruence.
Qed.

(** ** Every call *)
Lemma g981_up : upto 32 (lit 981 100 : b64).
Proof.
  apply (up_weak 4); [lia|]. split; [vm_compute; reflexivity|].
  assert (E1 : B2SF (lit 981 100 : b64) = SpecFloat.S754_finite false 5522539043063071 (-49)) by (vm_compute; reflexivity).
  generalize dependent (lit 981 100 : b64). intros x E1. unfold val. rewrite <- SF2R_B2SF, E1. cbn [SF2R cond_Zopp]. unfold F2R. cbn [Fnum Fexp].
  rewrite Rabs_pos_eq; [|apply Rmult_le_pos; [lra|apply bpow_ge_0]]. apply Rle_trans with (2^53 * 2^(-49))%R; [|rewrite <- bpow_plus; apply bpow_le; lia].
  apply Rmult_le_compat_r; [apply bpow_ge_0|]. change (2^53) with 9007199254740992%R. lra.
Qed.
Lemma new_dyn (d : Dyn b64 G) pm st sd a : dyn_new n pm sd st = Some d -> check_params pm = true -> sane_vehicle pm -> sane_start n st -> length a = n ->
  (exists p, vehicle n d a p /\ sane_vehicle p) /\ numbers (d_state d).
Proof.
  intros E C V [N Lw] La. destruct (dyn_new_vehicle n pm sd st d C E) as (M & Gp & Es). split; [|rewrite Es; exact N].
  exists pm. split; [|exact V]. split; [exact M|]. split; [exact Gp|]. split; [exact La|]. rewrite Es. exact Lw.
Qed.
Lemma sim_step_ok (s s' : Sim b64 G H) op : sim_ok s -> small_motion s -> sane_sim_op L n op ->
  match op with SDynamics dt => in_range L (sm_dyn s) (mkCall (sm_act s) dt (outer_force L s) (negb (sm_floor_col s))) | _ => True end ->
  (sim_step n s op = Ok s' \/ sim_step n s op = Throw s') -> small_motion s' -> sim_ok s'.
Proof.
  intros S Sm Ho Hr Hs Sm'. pose proof S as ((D & N) & C & I & Od & A & E & F & R). pose proof R as (R1 & R2 & R3 & R4 & R5 & R6 & R7 & R8).
  assert (Z : upto3 64 v0) by apply (up3_v0 L). assert (Z2 : upto3 32 v0) by apply (up3_v0 L).
  destruct op as [dt|dt|dt|dt| | |h| |m y|w|th w|p v a|v|p|y|y|p sd st|p|p|p|d|c|i|o]; cbn [sane_sim_op sim_step] in *; try contradiction.
  - destruct Ho as [Fd Pd]. destruct Hs as [Hs|Hs]; [exact (motion_ok s s' dt S Fd Pd Hr Hs Sm')|exfalso; exact (motion_no_throw s s' dt Fd Pd Hs)].
  - destruct Hs as [Hs|Hs]; [injection Hs as <-|discriminate Hs]. apply controller_ok; assumption.
  - destruct Hs as [Hs|Hs]; [injection Hs as <-|discriminate Hs]. destruct (proj1 Sm N) as ((_ & U & _) & _ & _ & Uw & Uf).
    split; [split; [exact D|exact N]|]. split; [exact C|]. split; [|split; [exact Od|split; [exact A|split; [exact E|split; [exact F|exact R]]]]].
    refine (imu_step_ok L (sm_imu s) (IUpdate dt _ _) HH I (conj Ho (conj _ (up3_weak 32 64 _ ltac:(lia) Uw)))).
    destruct (unit_up _ U) as [Qw Qv]. exact (up3_rot L 57 _ _ Qw Qv Uf ltac:(lia)).
  - destruct Hs as [Hs|Hs]; [injection Hs as <-|discriminate Hs]. pose proof I as (_ & _ & _ & _ & _ & _ & _ & M1 & M2). destruct (proj2 Sm (up3_fin _ _ M1) (up3_fin _ _ M2)) as [U1 U2].
    split; [split; [exact D|exact N]|]. split; [exact C|]. split; [exact I|]. split; [|split; [exact A|split; [exact E|split; [exact F|exact R]]]].
    exact (odom_step_ok L (sm_odom s) (OUpdate _ _ dt) Od (conj U1 (conj U2 Ho))).
  - destruct Hs as [Hs|Hs]; [injection Hs as <-|discriminate Hs]. split; [split; [exact D|exact N]|]. split; [exact C|]. split; [exact I|]. split; [exact Od|]. split; [exact A|]. split; [exact E|]. split; [exact F|].
    split; [exact R1|]. split; [exact g981_up|]. split; [exact Z2|]. split; [|split; [exact R5|split; [exact R6|split; [exact R7|exact R8]]]]. destruct R4 as (P1 & P2 & _). split; [exact P1|split; [exact P2|exact F]].
  - destruct Hs as [Hs|Hs]; [injection Hs as <-|discriminate Hs]. split; [split; [exact (act_ok s _ D (repeat_length _ _))|exact N]|]. split; [exact C|]. split; [exact I|]. split; [exact Od|]. split; [apply zeros_fin|]. split; [exact E|]. split; [exact F|exact R].
  - destruct Hs as [Hs|Hs]; [injection Hs as <-|discriminate Hs]. split; [split; [exact D|exact N]|]. split; [exact C|]. split; [exact I|]. split; [exact Od|]. split; [exact A|]. split; [exact Z|]. split; [exact Ho|exact R].
  - destruct Hs as [Hs|Hs]; [injection Hs as <-|discriminate Hs]. split; [split; [exact D|exact N]|]. split; [exact C|]. split; [exact I|]. split; [exact Od|]. split; [exact A|]. split; [exact Z|]. split; [exact F|exact R].
  - destruct Hs as [Hs|Hs]; [injection Hs as <-|discriminate Hs]. unfold set_control_mode. destruct (_ && _); [exact S|]. cbv zeta. destruct (proj1 Sm N) as ((_ & U & _) & Up & _).
    split; [split; [exact D|exact N]|]. split; [exact C|]. split; [exact I|]. split; [exact Od|]. split; [exact A|]. split; [exact E|]. split; [exact F|].
    split; [exact R1|]. split; [apply up_zero; reflexivity|]. split; [exact Z2|]. split; [exact Up|]. split; [exact Z2|]. split; [exact Z2|]. split; [exact (up_fin 2 _ (yaw_num _ At U))|exact R8].
  - destruct Hs as [Hs|Hs]; [injection Hs as <-|discriminate Hs]. apply refs_set; [exact S|]. split; [exact Ho|]. split; [exact R2|]. split; [exact R3|]. split; [exact R4|]. split; [exact R5|]. split; [exact R6|]. split; [exact R7|exact R8].
  - destruct Hs as [Hs|Hs]; [injection Hs as <-|discriminate Hs]. destruct Ho. apply refs_set; [exact S|]. split; [exact R1|]. split; [assumption|]. split; [assumption|]. split; [exact R4|]. split; [exact R5|]. split; [exact R6|]. split; [exact R7|exact R8].
  - destruct Hs as [Hs|Hs]; [injection Hs as <-|discriminate Hs]. destruct Ho as (H1 & H2 & H3). apply refs_set; [exact S|]. split; [exact R1|]. split; [exact R2|]. split; [exact R3|]. split; [exact H1|]. split; [exact H2|]. split; [exact H3|]. split; [exact R7|exact R8].
  - destruct Hs as [Hs|Hs]; [injection Hs as <-|discriminate Hs]. apply refs_set; [exact S|]. split; [exact R1|]. split; [exact R2|]. split; [exact R3|]. split; [exact R4|]. split; [exact Ho|]. split; [exact R6|]. split; [exact R7|exact R8].
  - destruct Hs as [Hs|Hs]; [injection Hs as <-|discriminate Hs]. apply refs_set; [exact S|]. split; [exact R1|]. split; [exact R2|]. split; [exact R3|]. split; [exact Ho|]. split; [exact R5|]. split; [exact R6|]. split; [exact R7|exact R8].
  - destruct Hs as [Hs|Hs]; [injection Hs as <-|discriminate Hs]. apply refs_set; [exact S|]. split; [exact R1|]. split; [exact R2|]. split; [exact R3|]. split; [exact R4|]. split; [exact R5|]. split; [exact R6|]. split; [exact Ho|exact R8].
  - destruct Hs as [Hs|Hs]; [injection Hs as <-|discriminate Hs]. apply refs_set; [exact S|]. split; [exact R1|]. split; [exact R2|]. split; [exact R3|]. split; [exact R4|]. split; [exact R5|]. split; [exact R6|]. split; [exact R7|exact Ho].
  - destruct Ho as (V & Ck & St). unfold set_dynamics_params in Hs. destruct (dyn_new n p sd st) as [d|] eqn:Ed; cbn [option_map of_opt] in Hs; [|destruct Hs as [Hs|Hs]; discriminate Hs].
    destruct Hs as [Hs|Hs]; [injection Hs as <-|discriminate Hs]. destruct D as (p0 & (_ & _ & La & _) & _).
    destruct (new_dyn d p st sd (sm_act s) Ed Ck V St La) as [Dn Nn]. split; [split; [exact Dn|exact Nn]|]. split; [exact C|]. split; [exact I|]. split; [exact Od|]. split; [exact A|]. split; [exact E|]. split; [exact F|exact R].
  - destruct Hs as [Hs|Hs]; [injection Hs as <-|discriminate Hs]. destruct Ho as (H1 & H2 & H3). split; [split; [exact D|exact N]|]. split; [split; [exact (ctl_new_ok L n p H1)|split; [exact H2|exact H3]]|]. split; [exact I|]. split; [exact Od|]. split; [exact A|]. split; [exact E|]. split; [exact F|exact R].
  - destruct Hs as [Hs|Hs]; [injection Hs as <-|discriminate Hs]. split; [split; [exact D|exact N]|]. split; [exact C|]. split; [exact (imu_new_ok L p HH Ho)|]. split; [exact Od|]. split; [exact A|]. split; [exact E|]. split; [exact F|exact R].
  - destruct Hs as [Hs|Hs]; [injection Hs as <-|discriminate Hs]. split; [split; [exact D|exact N]|]. split; [exact C|]. split; [exact I|]. split; [|split; [exact A|split; [exact E|split; [exact F|exact R]]]].
    destruct Ho as [W Q]. pose proof (up3_v0 L) as Z0. split; [exact W|]. split; [exact Q|]. split; [apply Z0|]. split; [apply Z0|]. split; [apply Z0|]. split; [exact Q|]. split; [apply Z0|]. split; apply Z0.
Qed.
Lemma sim_new_ok p (s : Sim b64 G H) : sim_new n p = Some s -> sane_sim L n p -> sim_ok s.
Proof.
  intros Hs (V & Ck & St & (C1 & C2 & C3) & I & (W & Q)). unfold sim_new in Hs. destruct (dyn_new n (sp_model p) (sp_seed p) (sp_state p)) as [d|] eqn:Ed; cbn [option_map] in Hs; [|discriminate Hs]. injection Hs as <-.
  destruct (new_dyn d _ _ _ (repeat zero n) Ed Ck V St (repeat_length _ _)) as [Dn Nn]. pose proof (up3_v0 L) as Z0.
  split; [split; [exact Dn|exact Nn]|]. split; [split; [exact (ctl_new_ok L n _ C1)|split; [exact C2|exact C3]]|]. split; [exact (imu_new_ok L _ HH I)|].
  split; [split; [exact W|]; split; [exact Q|]; split; [apply Z0|]; split; [apply Z0|]; split; [apply Z0|]; split; [exact Q|]; split; [apply Z0|]; split; apply Z0|].
  split; [apply zeros_fin|]. split; [apply Z0|]. split; [apply up_zero; reflexivity|].
  split; [split; [apply repeat_length|apply zeros_fin]|]. split; [apply up_zero; reflexivity|]. split; [apply Z0|]. split; [apply Z0|]. split; [apply Z0|]. split; [apply Z0|]. split; [reflexivity|apply up_zero; reflexivity].
Qed.
Lemma ok_numbers (s : Sim b64 G H) : sim_ok s -> all_numbers s.
Proof.
  intros ((_ & N) & (C & _) & I & Od & A & E & F & (R1 & R2 & R3 & R4 & R5 & R6 & R7 & R8)).
  destruct C as (_ & _ & _ & _ & _ & (D1 & D2 & D3 & D4 & D5 & D6)). destruct I as (_ & _ & _ & _ & _ & B1 & B2 & M1 & M2). destruct Od as (_ & _ & _ & _ & P & [Q _] & V & W & Ac).
  split; [exact N|]. split; [exact A|].
  split; [split; [apply R1|]; split; [apply R2|]; split; [exact (up3_fin _ _ R3)|]; split; [exact (up3_fin _ _ R4)|]; split; [exact (up3_fin _ _ R5)|]; split; [exact (up3_fin _ _ R6)|]; split; [exact R7|apply R8]|].
  split; [split; [exact (up3_fin _ _ D1)|]; split; [exact (up3_fin _ _ D2)|]; split; [exact (up3_fin _ _ D3)|]; split; [apply D4|]; split; [exact (up3_fin _ _ D5)|]; eapply Forall_impl; [|exact D6]; intros x; apply up_fin|].
  split; [split; [exact (up3_fin _ _ M1)|]; split; [exact (up3_fin _ _ M2)|]; split; [exact (up3_fin _ _ B1)|exact (up3_fin _ _ B2)]|].
  split; [split; [exact (up3_fin _ _ P)|]; split; [exact Q|]; split; [exact (up3_fin _ _ V)|]; split; [exact (up3_fin _ _ W)|exact (up3_fin _ _ Ac)]|].
  split; [exact (up3_fin _ _ E)|apply F].
Qed.
Lemma small_head (s : Sim b64 G H) ops : stays_small L n s ops -> small_motion s.
Proof. destruct ops; intros [A _]; exact A. Qed.
Theorem history_all_numbers p (s s' : Sim b64 G H) ops : sane_sim L n p -> sim_new n p = Some s -> stays_small L n s ops -> sim_run n s ops = Some s' -> all_numbers s'.
Proof.
  intros Hp Hs Hr Hrun. apply ok_numbers. pose proof (sim_new_ok p s Hs Hp) as Ok0. clear Hs Hp. revert s Ok0 Hr Hrun.
  induction ops as [|op r IH]; intros s Ok0 Hr Hrun; cbn [sim_run stays_small] in *; [injection Hrun as <-; exact Ok0|].
  destruct Hr as (Sm & Ho & Hi & Hn').
  destruct (sim_step n s op) as [t|t|] eqn:E; [| |discriminate Hrun];
    (apply (IH t); [refine (sim_step_ok s t op Ok0 Sm Ho Hi _ (small_head _ _ Hn'))|exact Hn'|exact Hrun]); [left; exact E|right; exact E].
Qed.
End Sim.
