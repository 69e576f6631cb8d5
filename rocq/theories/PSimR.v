(** The simulator over the reals. *)

From Coq Require Import ZArith List Bool Lia Reals Lra Psatz.
From Verif Require Import Scalar LinAlg MUtils MModel MDynamics MPid MControl MImu MSim SpecDyn SpecRun SpecImu SpecSim
  PBase PDyn PModel PDynR PPhys PNoise PDynMore PVeh PPid PPidR PImu PSim.
Import ListNotations.
Local Open Scope R_scope.

Section SimR.
Context {G H : Gen R}.
Variable n : nat.
Implicit Types s : Sim R G H.

(** Generic induction step: what an operation can do to the vehicle. *)
Lemma step_dyn s op s' : hands_off op -> next (sim_step n s op) s' ->
  (exists dt ext d, op = SDynamics dt /\ free_motion s dt ext d /\
     ext = (if sm_floor_en s && ltb (vz (s_pos (sim_state s))) (sm_floor_h s) then ext else sm_ext s) /\
     (stopped_at (sm_floor_h s) (d_state d) (sim_state s') /\ d_model (sm_dyn s') = d_model d \/ sm_dyn s' = d)) \/
  sm_dyn s' = sm_dyn s /\ forall dt, op = SDynamics dt -> dt <= 0.
Proof.
  intros Q N. destruct op; try contradiction; cbn [sim_step] in N.
  1:{ destruct N as [N|N].
      - left. destruct (ud_ok _ _ _ N) as (ext & d & F & E & _ & E'). exists dt, ext, d.
        split; [reflexivity|]. split; [exact F|]. split.
        + change (sm_floor_en s && ltb (vz (s_pos (sim_state s))) (sm_floor_h s)) with (below_floor s).
          destruct (below_floor s); [reflexivity|exact E].
        + cbv zeta in E'. destruct (below_floor _) in E'; subst s'.
          * left. split; [|destruct s; reflexivity]. unfold stopped_at, sim_state. destruct s; cbn. repeat split; reflexivity.
          * right. destruct s; reflexivity.
      - right. destruct (ud_throw R_sane _ _ _ N) as [D C]. split.
        + destruct C as [[_ ->]|[_ (c & _ & ->)]]; [reflexivity|]. destruct s; reflexivity.
        + intros dt' E. injection E as <-. unR. apply Rleb_true in D. exact D. }
  all: right; split; [|intros ? ?; discriminate]; destruct N as [N|N]; try discriminate.
  all: try (injection N as <-; destruct s; reflexivity).
  - injection N as <-. unfold update_controller. destruct (negb _); [destruct s; reflexivity|].
    destruct s as [? ? ? ? ? ? ? ? ? ? ? [] []]; reflexivity.
  - injection N as <-. unfold set_control_mode. destruct (_ && _); destruct s; reflexivity.
Qed.

(** *** Unit attitude for every history. *)
Lemma sim_unit ops s s' : unitq (s_ori (sim_state s)) -> Forall hands_off ops -> sim_run n s ops = Some s' ->
  unitq (s_ori (sim_state s')).
Proof.
  intros U F Rn. apply (run_inv n (fun x => unitq (s_ori (sim_state x))) hands_off ops) with (s := s); auto.
  clear. intros s op s' U Q N. destruct (step_dyn s op s' Q N) as [(dt & ext & d & _ & F & _ & C)|[E _]].
  - unfold free_motion in F. pose proof (process_unit _ _ _ _ _ _ (unitq_nonzero _ U) F) as V.
    destruct C as [[St _]|E].
    + destruct St as (_ & _ & _ & O & _). rewrite O. exact V.
    + unfold sim_state. rewrite E. exact V.
  - unfold sim_state in *. rewrite E. exact U.
Qed.

(** *** Rotors of a disarmed vehicle run down (C46). *)
Lemma free_rotor s dt ext d p i m w :
  get_params (d_model (sm_dyn s)) = Some p -> sm_act s = repeat 0 n -> free_motion s dt ext d ->
  0 < dt <= 1/100 -> dt <= mt_tau m -> length (s_mvel (sim_state s)) = n ->
  nth_error (p_motors p) i = Some m -> mt_min m <= 0 <= mt_max m ->
  nth_error (s_mvel (sim_state s)) i = Some w -> mt_min m <= w <= mt_max m ->
  nth_error (s_mvel (d_state d)) i = Some ((1 - dt / mt_tau m) * w) /\ length (s_mvel (d_state d)) = n /\
  mt_min m <= (1 - dt / mt_tau m) * w <= mt_max m.
Proof.
  intros P A F Hd Ht Hl Hm Hz Hw Hr. unfold free_motion in F. apply process_small_inv in F; [|exact Hd].
  destruct (euler_core_rotors _ _ _ _ _ _ F) as [L _].
  { rewrite A, repeat_length. symmetry. exact Hl. }
  change (d_state (sm_dyn s)) with (sim_state s) in L.
  assert (Hi : (i < n)%nat) by (rewrite <- Hl; apply nth_error_Some; congruence).
  destruct (nth_error (s_mvel (d_state d)) i) as [w'|] eqn:E.
  2:{ apply nth_error_None in E. lia. }
  destruct (step_rotor _ _ _ _ _ _ p i w' P F E) as (m' & cmd & w0 & A1 & A2 & A3 & ->).
  assert (m' = m) as -> by congruence. change (d_state (sm_dyn s)) with (sim_state s) in A3.
  assert (w0 = w) as -> by congruence.
  assert (cmd = 0) as ->.
  { rewrite A in A2. assert (X : In cmd (repeat 0 n)) by (eapply nth_error_In; exact A2). apply repeat_spec in X. exact X. }
  assert (B : 0 <= 1 - dt / mt_tau m <= 1).
  { assert (0 < / mt_tau m) by (apply Rinv_0_lt_compat; lra).
    assert (dt / mt_tau m <= 1). { unfold Rdiv. replace 1 with (mt_tau m * / mt_tau m) by (field; lra). apply Rmult_le_compat_r; lra. }
    assert (0 <= dt / mt_tau m) by (unfold Rdiv; apply Rmult_le_pos; lra). lra. }
  assert (C : mt_min m <= (1 - dt / mt_tau m) * w <= mt_max m) by nra.
  rewrite (limited_id 0) by exact Hz.
  replace (w + (0 - w) / mt_tau m * dt) with ((1 - dt / mt_tau m) * w) by (field; lra).
  rewrite limited_id by exact C. split; [reflexivity|]. split; [lia|exact C].
Qed.

Lemma rundown ops : forall s s' p i m w,
  get_params (d_model (sm_dyn s)) = Some p -> sm_armed s = false -> sm_act s = repeat 0 n ->
  length (s_mvel (sim_state s)) = n ->
  nth_error (p_motors p) i = Some m -> mt_min m <= 0 <= mt_max m ->
  nth_error (s_mvel (sim_state s)) i = Some w -> mt_min m <= w <= mt_max m ->
  Forall hands_off ops -> Forall not_arm ops -> Forall (short_steps (mt_tau m)) ops ->
  sim_run n s ops = Some s' ->
  nth_error (s_mvel (sim_state s')) i = Some (decay (mt_tau m) ops * w).
Proof.
  induction ops as [|op r IH]; intros s s' p i m w P Ar A L Hm Hz Hw Hr F1 F2 F3; cbn [sim_run].
  - intros K. injection K as <-. cbn [decay]. rewrite Rmult_1_l. exact Hw.
  - apply Forall_cons_iff in F1 as [Q1 F1]. apply Forall_cons_iff in F2 as [Q2 F2]. apply Forall_cons_iff in F3 as [Q3 F3].
    intros K. assert (X : exists s1, next (sim_step n s op) s1 /\ sim_run n s1 r = Some s').
    { destruct (sim_step n s op) as [y|y|]; try discriminate; exists y; (split; [|exact K]); [left|right]; reflexivity. }
    destruct X as (s1 & N & K'). clear K.
    assert (Ar1 : sm_armed s1 = false).
    { rewrite (step_armed n _ _ _ N). destruct op; cbn; auto. contradiction. }
    assert (A1 : sm_act s1 = repeat 0 n) by exact (step_safe n s op s1 (fun _ => A) N Ar1).
    destruct (step_dyn s op s1 Q1 N) as [(dt & ext & d & -> & F & _ & C)|[E T]].
    + destruct Q3 as [Hd Ht].
      destruct (free_rotor s dt ext d p i m w P A F Hd Ht L Hm Hz Hw Hr) as (V & VL & VR).
      unfold free_motion in F. pose proof (process_params R_sane _ _ _ _ _ _ F) as PP. rewrite P in PP.
      assert (E : s_mvel (sim_state s1) = s_mvel (d_state d) /\ d_model (sm_dyn s1) = d_model d).
      { destruct C as [[St M]|E]; [|unfold sim_state; rewrite E; split; reflexivity].
        split; [apply St|exact M]. }
      destruct E as [E1 E2]. cbn [decay].
      replace ((1 - dt / mt_tau m) * decay (mt_tau m) r * w) with (decay (mt_tau m) r * ((1 - dt / mt_tau m) * w)) by ring.
      apply (IH s1 s' p i m); try assumption; try (rewrite E1; assumption). rewrite E2. congruence.
    + assert (D : decay (mt_tau m) (op :: r) = decay (mt_tau m) r).
      { destruct op; cbn [decay]; try reflexivity. exfalso. destruct Q3 as [Hd _]. specialize (T _ eq_refl). lra. }
      rewrite D. apply (IH s1 s' p i m w); try assumption; unfold sim_state in *; rewrite ?E; assumption.
Qed.

(** The decay is at least as fast as the exponential of the time flown. *)
Lemma decay_exp tau (ops : list (SimOp R G H)) : 0 < tau -> Forall (short_steps tau) ops ->
  0 <= decay tau ops <= exp (- flown ops / tau).
Proof.
  intros Ht F. induction F as [|op r Q F IH].
  - cbn. replace (- 0 / tau) with 0 by (field; lra). rewrite exp_0. lra.
  - destruct op; cbn [decay flown]; try exact IH. destruct Q as [Hd Hb].
    assert (0 < / tau) by (apply Rinv_0_lt_compat, Ht).
    assert (dt / tau <= 1). { unfold Rdiv. replace 1 with (tau * / tau) by (field; lra). apply Rmult_le_compat_r; lra. }
    split; [apply Rmult_le_pos; lra|].
    replace (- (dt + flown r) / tau) with (- (dt / tau) + - flown r / tau) by (field; lra).
    rewrite exp_plus. apply Rmult_le_compat; try lra.
    pose proof (exp_ineq1_le (- (dt / tau))). lra.
Qed.

Lemma rotors_stop ops s s' p i m w :
  get_params (d_model (sm_dyn s)) = Some p -> length (s_mvel (sim_state s)) = n ->
  nth_error (p_motors p) i = Some m -> mt_min m <= 0 <= mt_max m ->
  nth_error (s_mvel (sim_state s)) i = Some w -> mt_min m <= w <= mt_max m -> 0 < mt_tau m ->
  Forall hands_off ops -> Forall not_arm ops -> Forall (short_steps (mt_tau m)) ops ->
  sim_run n s (SDisarm :: ops) = Some s' ->
  exists w', nth_error (s_mvel (sim_state s')) i = Some w' /\ w' = decay (mt_tau m) ops * w /\
    Rabs w' <= exp (- flown ops / mt_tau m) * Rabs w.
Proof.
  intros P L Hm Hz Hw Hr Ht F1 F2 F3 K. cbn [sim_run sim_step] in K.
  exists (decay (mt_tau m) ops * w). split; [|split; [reflexivity|]].
  - apply (rundown ops (disarm n s) s' p i m w); try assumption; reflexivity.
  - rewrite Rabs_mult. apply Rmult_le_compat_r; [apply Rabs_pos|].
    pose proof (decay_exp (mt_tau m) ops Ht F3). rewrite Rabs_right; lra.
Qed.

(** *** Standing on the floor. *)
Lemma motors_zero ms w : (forall x, In x w -> x = 0) -> forall f, (forall m, f m 0 = 0) -> rotor_sum f ms w = 0.
Proof.
  intros Hw f Hf. revert w Hw. induction ms as [|m ms IH]; intros [|x w] Hw; cbn; try reflexivity.
  rewrite (Hw x) by (left; reflexivity). rewrite Hf, IH; [ring|]. intros y Hy. apply Hw. right. exact Hy.
Qed.

Lemma silent_core (d d' : Dyn R G) act dt ext noise p :
  get_params (d_model d) = Some p -> p_fnoise p = 0 -> euler_core d act dt ext noise = Some d' -> mo_sforce (d_model d') = v0.
Proof.
  intros P Hf E. apply get_params_cfg in P as [c [Hc Hcp]]. apply euler_core_inv in E as [_ Hi].
  destruct (Hi c Hc) as (mo & des & macc & mvel & Hn & _ & _ & _ & _ & ->). cbn [d_model].
  destruct noise; cbn in Hn; [|injection Hn as <-; reflexivity].
  eapply set_noise_zero; [exact Hc| |exact Hn]. rewrite Hcp. exact Hf.
Qed.

(** Rotors at their commands, not turning, moments balanced: only the
    translation changes. *)
Lemma steady_core k (d d' : Dyn R G) act dt ext noise p :
  vehicle k d act p -> euler_core d act dt ext noise = Some d' -> mo_sforce (d_model d') = v0 ->
  s_angvel (d_state d) = mkV 0 0 0 -> unitq (s_ori (d_state d)) -> s_mvel (d_state d) = act ->
  speeds_between (p_motors p) act -> (forall a, rotor_torque (p_motors p) act (repeat 0 (length act)) a = 0) ->
  s_angvel (d_state d') = mkV 0 0 0 /\ s_ori (d_state d') = s_ori (d_state d) /\ s_mvel (d_state d') = act.
Proof.
  intros (Hr & Hp & Hla & Hlw) Hcore Hs E2 E3 E4 E5 E7. apply get_params_cfg in Hp as [c [Hc Hcp]].
  pose proof (model_reach_ok k _ Hr) as [_ Hok]. rewrite Hc in Hok.
  destruct Hok as (_ & Hlen & _ & _ & Ht & Him).
  apply euler_core_inv in Hcore as [_ Hi].
  destruct (Hi c Hc) as (mo & des & macc & mvel & Hn & Hm & Hd & Ha & Hmv & E). cbv zeta in E.
  rewrite Hcp in *.
  rewrite (clamp_motors_id act _ E5) in Hd. injection Hd as <-.
  assert (Hms : (length act <= length (p_motors p))%nat).
  { pose proof (clamp_motors_id act _ E5) as K. apply clamp_motors_le in K. exact K. }
  rewrite E4 in Ha, Hmv. rewrite (motors_derivative_zero act _ Hms) in Ha. injection Ha as <-.
  rewrite ladd_zero, (clamp_motors_id act _ E5) in Hmv. injection Hmv as <-.
  assert (T0 : s_torque (d_state d') = mkV 0 0 0).
  { rewrite E. cbn [d_state s_torque]. apply pr_ext. intros a. unfold total_torque.
    rewrite PDynR.pr_vsub, !PDynR.pr_vadd, Ht, Him, E4, torque_by_motors_R by (rewrite ?repeat_length; lia). rewrite E7.
    rewrite aero_R, pr_vcross, E2. rewrite E in Hs. cbn [d_model] in Hs. rewrite Hs.
    unfold aero_spec, cross3, mat_vec, v0; unV. destruct a; unR; ring. }
  split; [|split].
  - assert (A0 : s_angacc (d_state d') = mkV 0 0 0).
    { rewrite E. cbn [d_state s_angacc]. rewrite E in T0. cbn [d_state s_torque] in T0. rewrite T0. unfold ang_acc.
      apply pr_ext. intros a. rewrite pr_mmulv. unfold mat_vec. cbn [vx vy vz].
      replace (pr a (mkV 0 0 0)) with 0 by (destruct a; reflexivity). ring. }
    assert (s_angvel (d_state d') = vadd (s_angvel (d_state d)) (vscaler (s_angacc (d_state d')) dt)) as -> by (rewrite E; reflexivity).
    rewrite A0, E2. unV. f_equal; ring.
  - rewrite E. cbn [d_state s_ori]. rewrite E2.
    assert (qadd (s_ori (d_state d)) (qmap (fun x => mul x dt) (quat_derivative (s_ori (d_state d)) (mkV 0 0 0))) = s_ori (d_state d)) as ->.
    { apply Quat_eq; unfold quat_derivative; unV; unfold half, lit; unR; field. }
    apply qnormalized_id, E3.
  - rewrite E. reflexivity.
Qed.

Definition idle_motors (p : Params R) : Prop := forall m, In m (p_motors p) -> mt_min m <= 0 <= mt_max m.

Lemma idle_between p : length (p_motors p) = n -> idle_motors p -> speeds_between (p_motors p) (repeat 0 n).
Proof.
  intros L I i x E. assert (X : x = 0) by (apply (repeat_spec n 0), nth_error_In with i; exact E). subst x.
  assert (Hi : (i < n)%nat) by (rewrite <- (repeat_length 0 n); apply nth_error_Some; congruence).
  destruct (nth_error (p_motors p) i) as [m|] eqn:Em; [|apply nth_error_None in Em; lia].
  exists m. split; [reflexivity|]. apply I. eapply nth_error_In; exact Em.
Qed.

Lemma zero_rotors p a : rotor_force (p_motors p) (repeat 0 n) a = 0 /\
  rotor_torque (p_motors p) (repeat 0 n) (repeat 0 (length (repeat 0 n))) a = 0.
Proof.
  assert (Z : forall k x, In x (repeat 0 k) -> x = 0) by (intros k x X; apply repeat_spec in X; exact X).
  assert (S0 : sq_signed 0 = 0) by (unfold sq_signed; ring).
  unfold rotor_force, rotor_torque. rewrite !motors_zero; try (apply Z); try (intros; rewrite ?S0; ring). split; ring.
Qed.

(** Invariant of a vehicle standing on the floor, disarmed. *)
Record grounded (p : Params R) (h : R) (pos : V3 R) (q : Quat R) (s : Sim R G H) : Prop := {
  gr_reach : ModelReach n (d_model (sm_dyn s));
  gr_params : get_params (d_model (sm_dyn s)) = Some p;
  gr_armed : sm_armed s = false;
  gr_act : sm_act s = repeat 0 n;
  gr_en : sm_floor_en s = true;
  gr_h : sm_floor_h s = h;
  gr_ext : sm_ext s = mkV 0 0 0;
  gr_pos : s_pos (sim_state s) = pos;
  gr_ori : s_ori (sim_state s) = q;
  gr_stand : standing n h s }.

Lemma standing_step p h pos q op s s' : length (p_motors p) = n -> idle_motors p -> p_fnoise p = 0 ->
  vx (p_grav p) = 0 -> vy (p_grav p) = 0 -> vz (p_grav p) <= 0 -> 0 < p_mass p -> unitq q -> vz pos = h ->
  hands_off op -> not_arm op -> keeps_floor op -> (forall dt, op = SDynamics dt -> dt <= 1/100) ->
  grounded p h pos q s -> next (sim_step n s op) s' -> grounded p h pos q s'.
Proof.
  intros Hn Hi Hf Gx Gy Gz Hm Hq Hz Q1 Q2 Q3 Q4 [Ir Ip Ia Ic Ie Ih Ix Ipos Iq Is] N.
  assert (A1 : sm_armed s' = false).
  { rewrite (step_armed n _ _ _ N). destruct op; cbn; auto. contradiction. }
  assert (A2 : sm_act s' = repeat 0 n) by exact (step_safe n s op s' (fun _ => Ic) N A1).
  assert (A3 : (if sm_floor_en s' then Some (sm_floor_h s') else None) = Some h).
  { rewrite <- (step_floor n s op s' _ N eq_refl). rewrite Ie, Ih. destruct op; try reflexivity; contradiction. }
  destruct (sm_floor_en s') eqn:A4; [|discriminate]. injection A3 as A3.
  assert (NB : below_floor s = false).
  { unfold below_floor. rewrite Ie, Ih. destruct Is as (Z & _). rewrite Z. cbn. unR. apply Rltb_false. lra. }
  assert (A5 : sm_ext s' = mkV 0 0 0).
  { apply (step_ext n s op s' N Ix); [|exact R_sane]. intros dt _ _. exact NB. }
  destruct (step_dyn s op s' Q1 N) as [(dt & ext & d & -> & F & Ef & C)|[E T]].
  2:{ split; try assumption; unfold standing, sim_state in *; rewrite ?E; assumption. }
  unfold free_motion in F. pose proof (process_params R_sane _ _ _ _ _ _ F) as PP. rewrite Ip in PP.
  assert (Hd : 0 < dt <= 1/100).
  { split; [|apply Q4; reflexivity]. apply Rnot_le_lt. intros Hle. rewrite process_reject in F; [discriminate|]. unR. apply Rleb_true. exact Hle. }
  change (sm_floor_en s && ltb (vz (s_pos (sim_state s))) (sm_floor_h s)) with (below_floor s) in Ef. rewrite NB in Ef. subst ext.
  apply process_small_inv in F; [|exact Hd].
  destruct Is as (Z & Vx & Vy & Vz & W & Mv).
  assert (Hv : vehicle n (sm_dyn s) (sm_act s) p).
  { split; [exact Ir|]. split; [exact Ip|]. split; [rewrite Ic; apply repeat_length|].
    change (d_state (sm_dyn s)) with (sim_state s). rewrite Mv. apply repeat_length. }
  pose proof (silent_core _ _ _ _ _ _ p Ip Hf F) as Sil.
  pose proof (vehicle_core _ _ _ _ _ _ _ _ Hv F) as Hv'.
  destruct (steady_core n _ _ _ _ _ _ p Hv F Sil W) as (W' & O' & M').
  { change (d_state (sm_dyn s)) with (sim_state s). rewrite Iq. exact Hq. }
  { change (d_state (sm_dyn s)) with (sim_state s). rewrite Mv, Ic. reflexivity. }
  { rewrite Ic. apply idle_between; assumption. }
  { intros a. rewrite Ic. apply zero_rotors. }
  pose proof (step_newton n _ _ _ _ _ _ p Hv F) as Nw. cbv zeta in Nw.
  change (d_state (sm_dyn s)) with (sim_state s) in *.
  assert (FX : forall a, pr a (s_force (d_state d)) = pr a (p_grav p) + drag_spec (p_drag p) (s_vel (sim_state s)) a).
  { intros a. destruct (Nw a) as (-> & _). rewrite Sil, Ix. rewrite Mv.
    replace (to_world (s_ori (sim_state s)) (vec_of (rotor_force (p_motors p) (repeat 0 n))) a) with 0.
    2:{ unfold to_world, vec_of. cbn [vx vy vz]. rewrite !(proj1 (zero_rotors p _)). ring. }
    rewrite pr_v0. destruct a; cbn; ring. }
  assert (PX : vx (s_pos (d_state d)) = vx pos /\ vy (s_pos (d_state d)) = vy pos /\
               vz (s_pos (d_state d)) = h + dt * vz (s_vel (sim_state s))).
  { destruct (Nw AX) as (_ & _ & _ & X), (Nw AY) as (_ & _ & _ & Y), (Nw AZ) as (_ & _ & _ & Zz). cbn [pr] in X, Y, Zz.
    rewrite X, Y, Zz, Vx, Vy, Z, Ipos. repeat split; ring. }
  destruct PX as (P1 & P2 & P3).
  assert (VX : vx (s_vel (d_state d)) = 0 /\ vy (s_vel (d_state d)) = 0).
  { destruct (Nw AX) as (_ & X1 & X2 & _), (Nw AY) as (_ & Y1 & Y2 & _). cbn [pr] in *. rewrite X2, Y2, X1, Y1.
    pose proof (FX AX) as FA. pose proof (FX AY) as FB. cbn [pr] in FA, FB. rewrite FA, FB.
    unfold drag_spec, sq_signed. cbn [pr]. rewrite Vx, Vy, Gx, Gy. unfold Rdiv. split; ring. }
  destruct N as [N|N]; cbn [sim_step] in N.
  2:{ destruct (ud_throw R_sane _ _ _ N) as [D _]. unR. apply Rleb_true in D. lra. }
  destruct (floor_height _ _ _ N Ie R_irrefl) as [Fl _]. unR. apply Rltb_false in Fl. rewrite Ih in Fl.
  destruct Hv' as (Hv1 & _ & _ & _).
  destruct C as [[St Md]|E].
  - destruct St as (B1 & B2 & B3 & B4 & B5 & B6 & _ & _ & B9 & _).
    split; try assumption.
    + rewrite Md. exact Hv1.
    + rewrite Md. congruence.
    + apply V3_eq; [rewrite B1; exact P1|rewrite B2; exact P2|rewrite B3; congruence].
    + rewrite B4, O'. exact Iq.
    + unfold standing. rewrite B3, B5, B6, B9, M'. cbn.
      split; [exact Ih|]. do 2 (split; [reflexivity|]). split; [lra|]. split; [reflexivity|exact Ic].
  - unfold sim_state in Fl. rewrite E in Fl.
    assert (V0 : vz (s_vel (sim_state s)) = 0) by nra.
    split; try assumption; unfold sim_state in *.
    + rewrite E. exact Hv1.
    + rewrite E. congruence.
    + rewrite E. apply V3_eq; [exact P1|exact P2|]. rewrite P3, V0, Hz. ring.
    + rewrite E, O'. exact Iq.
    + unfold standing, sim_state. rewrite E. split; [rewrite P3, V0; ring|].
      split; [apply VX|]. split; [apply VX|]. split.
      * destruct (Nw AZ) as (_ & Z1 & Z2 & _). cbn [pr] in Z1, Z2. rewrite Z2, Z1. pose proof (FX AZ) as FA. cbn [pr] in FA.
        rewrite FA. unfold drag_spec, sq_signed. cbn [pr]. rewrite V0.
        assert (0 < / p_mass p) by (apply Rinv_0_lt_compat; exact Hm).
        replace (0 + dt * ((vz (p_grav p) + - p_drag p * (0 * Rabs 0)) / p_mass p)) with (vz (p_grav p) * (dt * / p_mass p)) by (unfold Rdiv; ring).
        assert (0 < dt * / p_mass p) by (apply Rmult_lt_0_compat; lra). nra.
      * split; [exact W'|rewrite M'; exact Ic].
Qed.

Lemma standing_run p h pos q ops s s' : length (p_motors p) = n -> idle_motors p -> p_fnoise p = 0 ->
  vx (p_grav p) = 0 -> vy (p_grav p) = 0 -> vz (p_grav p) <= 0 -> 0 < p_mass p -> unitq q -> vz pos = h ->
  Forall hands_off ops -> Forall not_arm ops -> Forall keeps_floor ops -> Forall small_steps ops ->
  grounded p h pos q s -> sim_run n s ops = Some s' -> grounded p h pos q s'.
Proof.
  intros A1 A2 A3 A4 A5 A6 A7 A8 A9 F1 F2 F3 F4 Gr Rn.
  apply (run_inv n (grounded p h pos q) (fun op => (hands_off op /\ not_arm op) /\ keeps_floor op /\ small_steps op) ops) with (s := s); auto.
  - clear s s' Gr Rn. intros s op s' I ((Q1 & Q2) & Q3 & Q4) N. eapply standing_step; try eassumption.
    intros dt ->. exact Q4.
  - apply Forall_and; apply Forall_and; assumption.
Qed.
End SimR.
