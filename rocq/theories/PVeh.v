(** Vehicle-level lemmas over the reals. *)

From Coq Require Import ZArith List Bool Lia Reals Lra Psatz.
From Verif Require Import Scalar LinAlg MUtils MModel MDynamics SpecDyn SpecRun PBase PDyn PModel PDynR PPhys PNoise EBase.
Import ListNotations.
Local Open Scope R_scope.

(** ** Totality *)
Lemma steps_exist dt : 0 < dt -> exists k : nat, (1 <= k)%nat /\ (INR k - 1) * (1/100) < dt <= INR k * (1/100).
Proof.
  intros H. set (z := (up (dt * 100 - 1))%Z).
  destruct (archimed (dt * 100 - 1)) as [A B]. fold z in A, B.
  assert (Hz : (0 <= z)%Z). { apply le_IZR. destruct (Z_lt_le_dec z 0) as [L|L]; [|apply IZR_le; lia].
    assert (IZR z <= -1) by (apply (IZR_le z (-1)); lia). lra. }
  destruct (Req_dec (IZR z) (dt * 100 - 1 + 1)) as [E|E].
  - exists (Z.to_nat z). assert (Hz1 : (1 <= z)%Z).
    { apply le_IZR. destruct (Z_lt_le_dec z 1) as [L|L]; [|apply IZR_le; lia].
      assert (IZR z <= 0) by (apply (IZR_le z 0); lia). lra. }
    rewrite INR_IZR_INZ, Z2Nat.id by lia. split; [lia|]. split; lra.
  - destruct (Z.eq_dec z 0) as [Z0|Z0].
    + exists 1%nat. split; [lia|]. cbn [INR]. rewrite Z0 in *. lra.
    + destruct (Rle_dec (dt * 100) (IZR z)) as [L|L].
      * exists (Z.to_nat z). rewrite INR_IZR_INZ, Z2Nat.id by lia. split; [lia|]. split; lra.
      * exists (Z.to_nat (z + 1)). rewrite INR_IZR_INZ, Z2Nat.id by lia. rewrite plus_IZR. split; [lia|]. split; lra.
Qed.

Lemma process_total {G : Gen R} (d : Dyn R G) act dt ext noise :
  ready d act -> 0 < dt <= 2147483647 / 100 -> exists d', process d act dt ext noise = Ok d' /\ ready d' act.
Proof.
  intros Hr [H0 H1]. destruct (Rle_dec dt (1/100)) as [Hs|Hs].
  - rewrite process_small by lra. destruct (euler_core_total d act dt ext noise Hr) as [d' Hd'].
    rewrite Hd'. exists d'. split; [reflexivity|]. eapply euler_core_ready; eauto.
  - destruct (steps_exist dt H0) as (k & Hk & Hb).
    rewrite (process_count d act dt ext noise k); [|lra| |exact Hb].
    + apply oiter_total; [exact R_sane|exact Hr].
    + apply le_IZR. rewrite INR_IZR_INZ in Hb.
      destruct (Z_lt_le_dec 2147483647 (Z.of_nat k)) as [L|L]; [|apply IZR_le; lia].
      assert (IZR 2147483648 <= IZR (Z.of_nat k)) by (apply IZR_le; lia). lra.
Qed.

(** One call with dt equals k calls with 0.01. *)
Lemma process_is_substeps {G : Gen R} (d : Dyn R G) act dt ext noise (k : nat) :
  1 / 100 < dt -> (Z.of_nat k <= 2147483647)%Z -> (INR k - 1) * (1 / 100) < dt <= INR k * (1 / 100) ->
  process d act dt ext noise = oiter k (fun x => process x act (1/100) ext noise) d.
Proof.
  intros H1 H2 H3. rewrite (process_count d act dt ext noise k H1 H2 H3).
  clear H2 H3. revert d; induction k as [|k IH]; intros d; cbn [oiter]; [reflexivity|].
  rewrite process_small by lra. rewrite (euler_sub_eq R_sane). unfold dtmax; unR.
  destruct (euler_core d act (1/100) ext noise); cbn [of_opt]; [apply IH|reflexivity].
Qed.

Lemma process_overflow {G : Gen R} (d : Dyn R G) act dt ext noise :
  2147483647 / 100 < dt -> process d act dt ext noise = UB.
Proof.
  intros H. unfold process, dtmax; unR.
  assert (Rleb dt 0 = false) as -> by (apply Rleb_false; lra).
  assert (Rltb (1/100) dt = true) as -> by (apply Rltb_true; lra).
  destruct (for_int (dt / (1/100)) (euler_sub act ext noise) d) as [d'|d'|] eqn:E; [| |reflexivity]; exfalso.
  - (* the loop cannot stop normally *)
    assert (A : match for_int (dt / (1/100)) (euler_sub act ext noise) d with Ok _ => False | _ => True end).
    { rewrite for_int_nloop.
      assert (L : forall k i (x : Dyn R G), (0 <= i <= int_max)%Z ->
        match nloop k (fstep (dt / (1/100)) (euler_sub act ext noise)) (i, x) with
        | inr (Ok _) => False | _ => True end).
      { intros k; induction k as [|k IH]; intros i x Hi; cbn [nloop fstep]; [exact I|].
        assert (ltb (ofZ i) (dt / (1/100)) = true) as ->.
        { unR. apply Rltb_true. assert (IZR i <= IZR int_max) by (apply IZR_le; lia).
          unfold int_max in *. replace (dt / (1/100)) with (dt * 100) by field. lra. }
        destruct (euler_sub act ext noise x); [|exact I|exact I].
        destruct (Z.eqb_spec i int_max); [exact I|]. apply IH. lia. }
      specialize (L (Pos.to_nat (2^31)) 0%Z d ltac:(unfold int_max; lia)).
      destruct (nloop _ _ _) as [[? ?]|[?|?|]]; exact I || exact L. }
    rewrite E in A. exact A.
  - assert (P : process d act dt ext noise = Throw d').
    { unfold process, dtmax; unR.
      assert (Rleb dt 0 = false) as -> by (apply Rleb_false; lra).
      assert (Rltb (1/100) dt = true) as -> by (apply Rltb_true; lra). exact E. }
    apply (process_throw_only R_sane) in P as [P _]. unR. apply Rleb_true in P. lra.
Qed.

(** ** Coasting: no rotor force, no drag, no gravity *)

Lemma rotor_force_zero ms w a : (forall m, In m ms -> mt_kf m = 0) -> rotor_force ms w a = 0.
Proof.
  unfold rotor_force. revert w; induction ms as [|m ms IH]; intros [|x w] H; cbn; try reflexivity.
  rewrite IH by (intros m' Hm'; apply H; right; exact Hm'). rewrite (H m) by (left; reflexivity). ring.
Qed.

Lemma vehicle_core {T} {O : Ops T} {G : Gen T} n (d d' : Dyn T G) act dt ext noise p :
  vehicle n d act p -> euler_core d act dt ext noise = Some d' -> vehicle n d' act p.
Proof.
  intros (Hr & Hp & Hla & Hlw) H. split; [|split; [|split]].
  - pose proof H as H'. apply euler_core_inv in H' as [[c Hc] Hi].
    destruct (Hi c Hc) as (mo & des & macc & mvel & Hn & Hm & Hd & Ha & Hv & ->). cbn [d_model].
    destruct noise; cbn in Hn; [eapply mr_noise; eauto|injection Hn as <-; apply mr_disable; exact Hr].
  - unfold get_params in *. rewrite (euler_core_cfg _ _ _ _ _ _ H). exact Hp.
  - exact Hla.
  - apply euler_core_rotors in H as [H _]; congruence.
Qed.

Lemma coast_core {G : Gen R} n (d d' : Dyn R G) act dt p :
  vehicle n d act p -> coasting p -> euler_core d act dt (mkV 0 0 0) false = Some d' ->
  s_vel (d_state d') = s_vel (d_state d) /\
  forall a, pr a (s_pos (d_state d')) = pr a (s_pos (d_state d)) + dt * pr a (s_vel (d_state d)).
Proof.
  intros Hv (Hg & Hd & Hk) H. pose proof (step_newton n d d' act dt _ _ p Hv H) as N. cbv zeta in N.
  destruct (step_nonoise d d' act dt _ H) as [Hs _]. split.
  - apply pr_ext. intros a. destruct (N a) as (N1 & N2 & N3 & _). rewrite N3, N2, N1, Hs, Hg, Hd.
    unfold drag_spec, to_world, vec_of. cbn [vx vy vz]. rewrite !rotor_force_zero by exact Hk.
    unfold v0; unR. destruct a; cbn [pr vx vy vz]; unfold Rdiv; ring.
  - intros a. apply N.
Qed.

Lemma coast_iter {G : Gen R} n act p (k : nat) : forall (d d' : Dyn R G),
  vehicle n d act p -> coasting p ->
  oiter k (fun x => process x act (1/100) (mkV 0 0 0) false) d = Ok d' ->
  s_vel (d_state d') = s_vel (d_state d) /\
  forall a, pr a (s_pos (d_state d')) = pr a (s_pos (d_state d)) + INR k * (1/100) * pr a (s_vel (d_state d)).
Proof.
  induction k as [|k IH]; intros d d' Hv Hc H; cbn [oiter] in H.
  - injection H as <-. split; [reflexivity|]. intros a. cbn. lra.
  - destruct (process d act (1/100) (mkV 0 0 0) false) as [d1|d1|] eqn:E; try discriminate.
    apply process_small_inv in E; [|lra].
    destruct (coast_core n d d1 act (1/100) p Hv Hc E) as [V P].
    destruct (IH d1 d' (vehicle_core _ _ _ _ _ _ _ _ Hv E) Hc H) as [V' P'].
    split; [congruence|]. intros a. rewrite P', P, V, S_INR. lra.
Qed.

Lemma coast_process {G : Gen R} n (d d' : Dyn R G) act dt p (k : nat) :
  vehicle n d act p -> coasting p -> (Z.of_nat k <= 2147483647)%Z ->
  1/100 < dt -> (INR k - 1) * (1 / 100) < dt <= INR k * (1 / 100) ->
  process d act dt (mkV 0 0 0) false = Ok d' ->
  forall a, pr a (s_pos (d_state d')) = pr a (s_pos (d_state d)) + INR k * (1/100) * pr a (s_vel (d_state d)).
Proof.
  intros Hv Hc Hk H1 H2 H. rewrite (process_is_substeps d act dt _ _ k H1 Hk H2) in H.
  apply (coast_iter n act p k d d' Hv Hc H).
Qed.

(** ** Free fall *)
Lemma free_fall {G : Gen R} n (d d' : Dyn R G) act dt p :
  vehicle n d act p -> s_mvel (d_state d) = repeat 0 n -> s_vel (d_state d) = mkV 0 0 0 ->
  0 < dt <= 1/100 -> process d act dt (mkV 0 0 0) false = Ok d' ->
  forall a, pr a (s_linacc (d_state d')) = pr a (p_grav p) / p_mass p.
Proof.
  intros Hv Hw Hvel Hdt H a. apply process_small_inv in H; [|exact Hdt].
  destruct (step_newton n d d' act dt _ _ p Hv H a) as (N1 & N2 & _).
  destruct (step_nonoise d d' act dt _ H) as [Hs _].
  rewrite N2, N1, Hs, Hw, Hvel.
  assert (Z : forall b, rotor_force (p_motors p) (repeat 0 n) b = 0).
  { intros b. unfold rotor_force. generalize (p_motors p). clear. revert b; induction n as [|k IH]; intros b [|m ms]; cbn; try reflexivity.
    rewrite IH. unfold sq_signed. ring. }
  unfold to_world, vec_of. cbn [vx vy vz]. rewrite !Z. unfold drag_spec, sq_signed, v0; unR.
  destruct a; cbn [pr vx vy vz]; f_equal; ring.
Qed.

(** ** First-order lag *)
Lemma mvel_nth_exists {G : Gen R} (d d' : Dyn R G) act dt ext noise i w :
  euler_core d act dt ext noise = Some d' -> length act = length (s_mvel (d_state d)) ->
  nth_error (s_mvel (d_state d)) i = Some w -> exists w', nth_error (s_mvel (d_state d')) i = Some w'.
Proof.
  intros H Hl Hw. apply euler_core_rotors in H as [H _]; [|exact Hl].
  assert (i < length (s_mvel (d_state d)))%nat by (apply nth_error_Some; congruence).
  destruct (nth_error (s_mvel (d_state d')) i) eqn:E; [eauto|].
  apply nth_error_None in E. lia.
Qed.

Lemma lag_bounds w cmd lo hi r : 0 <= r <= 1 -> lo <= w <= hi -> lo <= cmd <= hi -> lo <= w + (cmd - w) * r <= hi.
Proof. intros. split; nra. Qed.

Lemma rotor_lag {G : Gen R} (D : nat -> Dyn R G) act dt (ext : nat -> V3 R) noise p i m cmd w0 :
  get_params (d_model (D O)) = Some p ->
  (forall k, process (D k) act dt (ext k) noise = Ok (D (S k))) -> 0 < dt <= 1/100 ->
  length act = length (s_mvel (d_state (D O))) ->
  nth_error (p_motors p) i = Some m -> nth_error act i = Some cmd -> nth_error (s_mvel (d_state (D O))) i = Some w0 ->
  mt_min m <= cmd <= mt_max m -> mt_min m <= w0 <= mt_max m -> dt <= mt_tau m ->
  forall k, exists wk, nth_error (s_mvel (d_state (D k))) i = Some wk /\
    wk - cmd = (1 - dt / mt_tau m) ^ k * (w0 - cmd) /\ mt_min m <= wk <= mt_max m.
Proof.
  intros Hp HD Hdt Hl Hm Hc Hw Hcb Hwb Htau k.
  assert (I : get_params (d_model (D k)) = Some p /\ length act = length (s_mvel (d_state (D k))) /\
    exists wk, nth_error (s_mvel (d_state (D k))) i = Some wk /\
    wk - cmd = (1 - dt / mt_tau m) ^ k * (w0 - cmd) /\ mt_min m <= wk <= mt_max m).
  { induction k as [|k (Pk & Lk & wk & Wk & Ek & Bk)].
    - split; [exact Hp|]. split; [exact Hl|]. exists w0. split; [exact Hw|]. split; [cbn; ring|exact Hwb].
    - pose proof (HD k) as H. apply process_small_inv in H; [|exact Hdt].
      split; [unfold get_params in *; rewrite (euler_core_cfg _ _ _ _ _ _ H); exact Pk|].
      split; [destruct (euler_core_rotors _ _ _ _ _ _ H Lk); congruence|].
      destruct (mvel_nth_exists _ _ _ _ _ _ i wk H Lk Wk) as [w' Hw'].
      exists w'. split; [exact Hw'|].
      destruct (step_rotor _ _ _ _ _ _ p i w' Pk H Hw') as (m' & cmd' & w & A & B & C & E).
      assert (m' = m) by congruence. assert (cmd' = cmd) by congruence. assert (w = wk) by congruence. subst m' cmd' w.
      assert (R : 0 <= dt / mt_tau m <= 1).
      { split; [apply Rlt_le, Rdiv_lt_0_compat; lra|]. apply Rmult_le_reg_r with (mt_tau m); [lra|].
        unfold Rdiv. rewrite Rmult_assoc, Rinv_l by lra. lra. }
      rewrite (limited_id cmd) in E by lra.
      replace ((cmd - wk) / mt_tau m * dt) with ((cmd - wk) * (dt / mt_tau m)) in E by (unfold Rdiv; ring).
      pose proof (lag_bounds wk cmd _ _ _ R Bk Hcb) as Q.
      rewrite limited_id in E by exact Q. split; [|rewrite E; exact Q].
      rewrite E. cbn [pow].
      replace ((1 - dt / mt_tau m) * (1 - dt / mt_tau m) ^ k * (w0 - cmd)) with ((1 - dt / mt_tau m) * (wk - cmd)) by (rewrite Ek; ring).
      ring. }
  apply I.
Qed.

(** ** Hover *)

Lemma clamp_motors_id w : forall ms, speeds_between ms w -> clamp_motors w ms = Some w.
Proof.
  induction w as [|x w IH]; intros ms H; [reflexivity|].
  destruct (H 0%nat x eq_refl) as (m & Hm & Hx). destruct ms as [|m0 ms]; [discriminate|].
  cbn in Hm. injection Hm as ->. cbn. rewrite clamp_R_in by exact Hx. cbn.
  rewrite IH; [reflexivity|]. intros i y Hy. destruct (H (S i) y Hy) as (m' & A & B). exists m'. split; assumption.
Qed.

Lemma motors_derivative_zero w : forall ms, (length w <= length ms)%nat -> motors_derivative w w ms = Some (repeat 0 (length w)).
Proof.
  induction w as [|x w IH]; intros ms H; [reflexivity|]. destruct ms as [|m ms]; [cbn in H; lia|]. cbn in H |- *.
  rewrite IH by lia. cbn. unR. replace ((x - x) / mt_tau m) with 0; [reflexivity|]. unfold Rdiv. ring.
Qed.

Lemma ladd_zero w dt : ladd w (map (fun a => mul a dt) (repeat 0 (length w))) = w.
Proof.
  unfold ladd, lmap2. induction w as [|x w IH]; [reflexivity|]. cbn. cbn in IH. rewrite IH. unR. f_equal. ring.
Qed.

Lemma qnormalized_id q : unitq q -> qnormalized q = q.
Proof.
  intros H. assert (E : qsqn q = 1) by (unfold qsqn; unR; unfold unitq in H; lra).
  unfold qnormalized. rewrite E. unR. assert (Rltb 0 1 = true) as -> by (apply Rltb_true; lra).
  rewrite sqrt_1. destruct q as [a b c e]. unfold qmap. cbn. f_equal; unfold Rdiv; rewrite Rinv_1; ring.
Qed.

Lemma equilibrium_core {G : Gen R} n (d d' : Dyn R G) act dt p :
  vehicle n d act p -> in_equilibrium p (d_state d) act ->
  euler_core d act dt (mkV 0 0 0) false = Some d' ->
  s_pos (d_state d') = s_pos (d_state d) /\ s_ori (d_state d') = s_ori (d_state d) /\
  s_linacc (d_state d') = mkV 0 0 0 /\ s_angacc (d_state d') = mkV 0 0 0 /\ in_equilibrium p (d_state d') act.
Proof.
  intros Hv (E1 & E2 & E3 & E4 & E5 & E6 & E7) H.
  pose proof (step_newton n d d' act dt _ _ p Hv H) as N. cbv zeta in N.
  destruct (step_nonoise d d' act dt _ H) as [Hs _].
  destruct Hv as (Hr & Hp & Hla & Hlw). apply get_params_cfg in Hp as [c [Hc Hcp]].
  pose proof (model_reach_ok n _ Hr) as [_ Hok]. rewrite Hc in Hok.
  destruct Hok as (_ & Hlen & _ & _ & Ht & Him).
  apply euler_core_inv in H as [_ Hi].
  destruct (Hi c Hc) as (mo & des & macc & mvel & Hn & Hm & Hd & Ha & Hmv & E). cbv zeta in E.
  rewrite Hcp in *.
  rewrite (clamp_motors_id act _ E5) in Hd. injection Hd as <-.
  assert (Hms : (length act <= length (p_motors p))%nat).
  { pose proof (clamp_motors_id act _ E5) as K. apply clamp_motors_le in K. exact K. }
  rewrite <- E4 in Ha, Hmv. rewrite (motors_derivative_zero act _ Hms) in Ha. injection Ha as <-.
  rewrite ladd_zero, (clamp_motors_id act _ E5) in Hmv. injection Hmv as <-.
  assert (L0 : s_linacc (d_state d') = mkV 0 0 0).
  { apply pr_ext. intros a. destruct (N a) as (N1 & N2 & _). rewrite N2, N1, Hs, E1, <- E4.
    replace (to_world (s_ori (d_state d)) (vec_of (rotor_force (p_motors p) act)) a + pr a (p_grav p)) with 0 by (rewrite E6; reflexivity).
    unfold drag_spec, sq_signed, v0; unR. destruct a; cbn [pr vx vy vz]; unfold Rdiv; ring. }
  assert (T0 : s_torque (d_state d') = mkV 0 0 0).
  { rewrite E. cbn [d_state s_torque]. apply pr_ext. intros a. unfold total_torque.
    rewrite pr_vsub, !pr_vadd, Ht, Him, <- E4, torque_by_motors_R by (rewrite ?repeat_length; lia). rewrite E7.
    rewrite aero_R, pr_vcross, E2. rewrite E in Hs. cbn [d_model] in Hs. rewrite Hs.
    unfold aero_spec, cross3, mat_vec, v0; unV. destruct a; unR; ring. }
  assert (A0 : s_angacc (d_state d') = mkV 0 0 0).
  { rewrite E. cbn [d_state s_angacc]. rewrite E in T0. cbn [d_state s_torque] in T0. rewrite T0. unfold ang_acc.
    apply pr_ext. intros a. rewrite pr_mmulv. unfold mat_vec. cbn [vx vy vz].
    replace (pr a (mkV 0 0 0)) with 0 by (destruct a; reflexivity). ring. }
  assert (V0 : s_vel (d_state d') = mkV 0 0 0).
  { apply pr_ext. intros a. destruct (N a) as (_ & _ & N3 & _). rewrite N3, L0, E1. destruct a; cbn; ring. }
  assert (W0 : s_angvel (d_state d') = mkV 0 0 0).
  { assert (s_angvel (d_state d') = vadd (s_angvel (d_state d)) (vscaler (s_angacc (d_state d')) dt)) as -> by (rewrite E; reflexivity).
    rewrite A0, E2. unV. f_equal; ring. }
  assert (Q0 : s_ori (d_state d') = s_ori (d_state d)).
  { rewrite E. cbn [d_state s_ori]. rewrite E2.
    assert (qadd (s_ori (d_state d)) (qmap (fun x => mul x dt) (quat_derivative (s_ori (d_state d)) (mkV 0 0 0))) = s_ori (d_state d)) as ->.
    { apply Quat_eq; unfold quat_derivative; unV; unfold half, lit; unR; field. }
    apply qnormalized_id, E3. }
  split; [|split; [exact Q0|split; [exact L0|split; [exact A0|]]]].
  - apply pr_ext. intros a. destruct (N a) as (_ & _ & _ & N4). rewrite N4, E1. destruct a; cbn; ring.
  - split; [exact V0|]. split; [exact W0|]. rewrite Q0. split; [exact E3|].
    split; [rewrite E; reflexivity|]. split; [exact E5|]. split; [exact E6|exact E7].
Qed.

Lemma hover_forever {G : Gen R} n (d : Dyn R G) act dt p :
  vehicle n d act p -> in_equilibrium p (d_state d) act ->
  match process d act dt (mkV 0 0 0) false with
  | Ok d' => s_pos (d_state d') = s_pos (d_state d) /\ s_ori (d_state d') = s_ori (d_state d) /\
             vehicle n d' act p /\ in_equilibrium p (d_state d') act
  | Throw d' => d' = d
  | UB => True
  end.
Proof.
  intros Hv He.
  set (P := fun x : Dyn R G => vehicle n x act p /\ in_equilibrium p (d_state x) act /\
             s_pos (d_state x) = s_pos (d_state d) /\ s_ori (d_state x) = s_ori (d_state d)).
  assert (P0 : P d) by (repeat split; try reflexivity; apply Hv || apply He).
  pose proof (process_inv P d act dt (mkV 0 0 0) false P0) as I.
  assert (S : forall x y h, P x -> euler_core x act h (mkV 0 0 0) false = Some y -> P y).
  { intros x y h (A & B & C & D) E. destruct (equilibrium_core n x y act h p A B E) as (F1 & F2 & F3 & F4 & F5).
    split; [eapply vehicle_core; eauto|]. split; [exact F5|]. split; congruence. }
  specialize (I S). destruct (process d act dt (mkV 0 0 0) false) as [d'|d'|] eqn:E; [| |exact I].
  - destruct I as (A & B & C & D). repeat split; try assumption; apply A || apply B.
  - apply (process_throw_only R_sane) in E. apply E.
Qed.
