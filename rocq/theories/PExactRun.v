(** Proofs: a flight with equal rotor speeds stays straight to the last bit. *)

From Coq Require Import ZArith Bool List Reals Lra Lia.
From Flocq Require Import Core BinarySingleNaN.
From Verif Require Import Scalar Float64 LinAlg MUtils MModel MDynamics SpecDyn SpecRun SpecRound SpecNumber SpecExact
  PBase PFloat PRound PQuat64 PDyn PModel PPhys PUnit64 PUp PNumber PExact.
Import ListNotations.
Local Open Scope R_scope.

Section Exact.
Variable L : Libm.
#[local] Instance FO : Ops b64 := F64Ops L.
Local Open Scope sc_scope.

Definition nought3 (v : V3 b64) : Prop := nought (vx v) /\ nought (vy v) /\ nought (vz v).
Lemma n3_add a b : nought3 a -> nought3 b -> nought3 (vadd a b).
Proof. intros (A1 & A2 & A3) (B1 & B2 & B3). split; [|split]; apply (n_add L); assumption. Qed.
Lemma n3_sub a b : nought3 a -> nought3 b -> nought3 (vsub a b).
Proof. intros (A1 & A2 & A3) (B1 & B2 & B3). split; [|split]; apply (n_sub L); assumption. Qed.
Lemma n3_fin a : nought3 a -> finv a.
Proof. intros (A1 & A2 & A3). split; [|split]; apply n_fin; assumption. Qed.
Lemma n3_zero : nought3 v0.
Proof. split; [|split]; apply (n_zero L). Qed.
Lemma n3_scaler a k : nought3 a -> fin k -> nought3 (vscaler a k).
Proof. intros (A1 & A2 & A3) F. split; [|split]; apply (n_mul_l L); assumption. Qed.
Lemma n3_cross_r a b : finv a -> nought3 b -> nought3 (vcross a b).
Proof. intros (A1 & A2 & A3) (B1 & B2 & B3). split; [|split]; apply (n_sub L); apply (n_mul_r L); assumption. Qed.
Lemma n3_mul m v : upto9 900 m -> nought3 v -> nought3 (mmulv m v).
Proof.
  intros ((A1 & A2 & A3) & (B1 & B2 & B3) & (C1 & C2 & C3)) (N1 & N2 & N3). cbn [vx vy vz] in *.
  split; [|split]; (apply (n_add L); [apply (n_add L)|]); apply (n_mul_r L); try assumption; eapply up_fin; eassumption.
Qed.
Lemma up9_weak e f m : (e <= f)%Z -> upto9 e m -> upto9 f m.
Proof. intros H (A & B & C). split; [|split]; apply (up3_weak e f); assumption. Qed.

(** A vertical force stays vertical under a rotation about the vertical. *)
Lemma rot_vertical q f : finq q -> nought (qx q) -> nought (qy q) -> nought (vx f) -> nought (vy f) -> fin (vz f) ->
  nought (vx (qrot q f)) /\ nought (vy (qrot q f)).
Proof.
  intros (Fw & _ & _ & Fz) X Y Fx Fy F3.
  assert (U0 : nought3 (vcross (qvec q) f)).
  { unfold vcross, qvec. cbn [vx vy vz]. split; [|split]; apply (n_sub L).
    - apply (n_mul_l L); assumption.
    - apply (n_mul_r L); assumption.
    - apply (n_mul_r L); assumption.
    - apply (n_mul_l L); assumption.
    - apply (n_mul_l L); [exact X|apply n_fin, Fy].
    - apply (n_mul_l L); [exact Y|apply n_fin, Fx]. }
  pose proof (n3_add _ _ U0 U0) as U1. assert (Qv : finv (qvec q)) by (split; [apply n_fin, X|split; [apply n_fin, Y|exact Fz]]).
  pose proof (n3_cross_r _ _ Qv U1) as (C1 & C2 & _). destruct U1 as (D1 & D2 & _).
  split; (apply (n_add L); [apply (n_add L); [assumption|]|assumption]); (apply (n_mul_r L); [exact Fw|assumption]).
Qed.
Lemma n_aero C w : upto9 64 C -> nought3 w -> nought3 (aero_moment C w).
Proof.
  intros ((A1 & A2 & A3) & (B1 & B2 & B3) & (C1 & C2 & C3)) W. pose proof W as (W1 & W2 & W3). cbn [vx vy vz] in *. unfold aero_moment. cbv zeta.
  assert (K : nought (mone * vnorm w)).
  { apply (n_mul_r L); [reflexivity|]. unfold vnorm. apply (n_sqrt L). unfold vsqn, vdot.
    apply (n_add L); [apply (n_add L)|]; apply (n_mul_l L); try assumption; apply n_fin; assumption. }
  assert (Z : forall x, upto 64 x -> nought (mone * vnorm w * x)) by (intros x Ux; apply (n_mul_l L); [exact K|eapply up_fin; exact Ux]).
  cbn [mmulv m00 m01 m02 m10 m11 m12 m20 m21 m22].
  split; [|split]; (apply (n_add L); [apply (n_add L)|]); (apply (n_mul_l L); [apply Z; assumption|apply n_fin; assumption]).
Qed.

(** Rotors that are alike in range and lag. *)
Lemma clamp_same x mn mx m1 m2 m3 m4 y : mt_min m1 = mn /\ mt_max m1 = mx -> mt_min m2 = mn /\ mt_max m2 = mx -> mt_min m3 = mn /\ mt_max m3 = mx -> mt_min m4 = mn /\ mt_max m4 = mx ->
  clamp_motors [x;x;x;x] [m1;m2;m3;m4] = Some y -> exists z, y = [z;z;z;z].
Proof.
  intros [A1 B1] [A2 B2] [A3 B3] [A4 B4]. cbn [clamp_motors]. rewrite A1, A2, A3, A4, B1, B2, B3, B4. destruct (clamp x mn mx) as [z|]; cbn [bindo]; [|discriminate].
  intros E. injection E as <-. exists z. reflexivity.
Qed.
Lemma deriv_same d w tau m1 m2 m3 m4 y : mt_tau m1 = tau -> mt_tau m2 = tau -> mt_tau m3 = tau -> mt_tau m4 = tau ->
  motors_derivative [d;d;d;d] [w;w;w;w] [m1;m2;m3;m4] = Some y -> exists z, y = [z;z;z;z].
Proof.
  intros A1 A2 A3 A4. cbn [motors_derivative bindo]. rewrite A1, A2, A3, A4. intros E. injection E as <-. eexists. reflexivity.
Qed.

(** ** One step *)
Lemma core_exact {G : Gen b64} (d d' : Dyn b64 G) act dt ext noise p :
  vehicle 4 d act p -> reasonable_params p -> reasonable_gen G -> reasonable_state (d_state d) ->
  reasonable_call (mkCall act dt ext noise) -> val dt <= 1 -> even_quad L p -> even_call p (mkCall act dt ext noise) -> upright_still (d_state d) ->
  euler_core d act dt ext noise = Some d' ->
  upright_still (d_state d') /\ kept (vx (s_pos (d_state d))) (vx (s_pos (d_state d'))) /\ kept (vy (s_pos (d_state d))) (vy (s_pos (d_state d'))) /\
  (unturned (d_state d) -> unturned (d_state d')).
Proof.
  intros Hv Hrp HG Hrs Hrc Vd (Hq & Gx & Gy) ((cw & Ea0) & Ex & Ey & Hns) (Qx & Qy & Wx & Wy & Wz & Vx & Vy & (w & Ew)) H.
  pose proof (core_numbers L 4 d d' act dt ext noise p ltac:(lia) Hv Hrp HG Hrs Hrc Vd H) as Num.
  destruct Hv as (Hr & Hp & Hla & Hlw). destruct Hrp as (Hm & Lm & Hi & Hd & Ha & Hg & Hf & Pf). destruct Hrs as (Sp & So & Sv & Sw & Sm). destruct Hrc as (Na & Ue & Fd & Pd & Ld).
  cbn [k_act k_dt k_ext k_noise] in *. subst act.
  pose proof So as [So' _]. pose proof So' as (Fqw & Fqx & Fqy & Fqz).
  pose proof Hp as Hp'. apply get_params_cfg in Hp as [c [Hc Hcp]].
  apply euler_core_inv in H as [_ Hinv].
  destruct (Hinv c Hc) as (mo & des & macc & mvel & En & Em & Ed & Ea & Ev & E). cbv zeta in E.
  pose proof (model_reach_ok 4 _ Hr) as [_ Hok]. rewrite Hc in Hok. rewrite Hcp in *.
  destruct Hok as (_ & Hlen & _ & Kf & Kt & Ki). rewrite Hcp in *.
  destruct Hq as (kf & kt & x & y & mn & mx & tau & J & Hq). cbv zeta in Hq.
  assert (Hq' : exists plus, p_motors p = quad_of L plus kf kt x y mn mx tau J) by (destruct Hq as [Hq|Hq]; [exists false|exists true]; exact Hq).
  clear Hq. destruct Hq' as [plus Hq].
  assert (Kp : upto 64 kf /\ upto 64 kt /\ upto 64 x /\ upto 64 y /\ upto 64 J).
  { rewrite Hq in Hm. rewrite Forall_forall in Hm. destruct plus; unfold quad_of, quad_x, quad_plus in Hm.
    - pose proof (Hm _ (or_introl eq_refl)) as (_ & K1 & K2 & _ & (K3 & _) & _ & _ & _ & K5). pose proof (Hm _ (or_intror (or_introl eq_refl))) as (_ & _ & _ & _ & (_ & K4 & _) & _).
      cbn [mt_kf mt_kt mt_pos mt_J vx vy] in *. split; [exact K1|]. split; [exact K2|]. split; [exact K3|]. split; [exact K4|exact K5].
    - pose proof (Hm _ (or_introl eq_refl)) as (_ & K1 & K2 & _ & (K3 & _) & _ & _ & _ & K5). pose proof (Hm _ (or_intror (or_introl eq_refl))) as (_ & _ & _ & _ & (_ & K4 & _) & _).
      cbn [mt_kf mt_kt mt_pos mt_J vx vy] in *. split; [exact K1|]. split; [exact K2|]. split; [exact K3|]. split; [exact K4|exact K5]. }
  destruct Kp as (Uf & Ut & Ux & Uy & UJ).
  destruct (quad_of_mk L plus kf kt x y mn mx tau J) as (x1 & y1 & x2 & y2 & x3 & y3 & x4 & y4 & Hmk).
  (* rotors *)
  pose proof (clamp_motors_up L _ _ des Na Hm Ed) as Ud. pose proof (macc_up L _ _ _ _ Ud Sm Hm Ea) as Ua.
  rewrite Ew in Ea, Ev. rewrite Ew in E. rewrite Hq, Hmk in Ed, Ea, Ev.
  apply (clamp_same cw mn mx) in Ed as [y0 ->]; [|split; reflexivity|split; reflexivity|split; reflexivity|split; reflexivity].
  apply (deriv_same y0 w tau) in Ea as [al ->]; [|reflexivity|reflexivity|reflexivity|reflexivity].
  change (ladd [w;w;w;w] (map (fun a => a * dt) [al;al;al;al])) with [w + al * dt; w + al * dt; w + al * dt; w + al * dt] in Ev.
  apply (clamp_same (w + al * dt) mn mx) in Ev as [w' ->]; [|split; reflexivity|split; reflexivity|split; reflexivity|split; reflexivity].
  (* noise *)
  assert (Uno : nought3 (mo_sforce mo)).
  { destruct Hns as [->|Nf].
    - injection En as <-. apply n3_zero.
    - destruct noise; cbn [noise_model] in En; [|injection En as <-; apply n3_zero].
      unfold set_noise in En. assert (LP : leb dt zero = false) by exact (leb_pos L dt Fd Pd). rewrite LP, Hc in En. cbn [bindo] in En. rewrite Hcp in En.
      assert (K : nought (sqrtT (p_fnoise p / dt))) by (apply (n_sqrt L), (n_div L); [exact Nf|exact Fd|lra]).
      assert (D3 : nought3 (fst (draw3 G 0 (sqrtT (p_fnoise p / dt)) (mo_eng (d_model d)) (mo_dist (d_model d))))).
      { assert (F : forall e0 d0, fin (fst (g_draw G e0 d0))) by (intros e0 d0; eapply up_fin; apply HG).
        unfold draw3. pose proof (F (mo_eng (d_model d)) (mo_dist (d_model d))) as F1. destruct (g_draw G (mo_eng (d_model d)) (mo_dist (d_model d))) as [a1 [e1 d1]].
        pose proof (F e1 d1) as F2. destruct (g_draw G e1 d1) as [a2 [e2 d2]]. pose proof (F e2 d2) as F3. destruct (g_draw G e2 d2) as [a3 [e3 d3]]. cbn [fst] in *.
        destruct (g_perm G 0); (split; [|split]); cbn [papply vx vy vz]; (apply (n_mul_l L); [exact K|assumption]). }
      destruct (draw3 G 0 _ _ _) as [f [e1 d1]]. destruct (draw3 G 1 _ _ _) as [m [e2 d2]]. injection En as <-. exact D3. }
  (* rotor force and torque *)
  assert (HM : forall m, In m (quad_of L plus kf kt x y mn mx tau J) -> reasonable_motor m) by (rewrite <- Hq; apply Forall_forall, Hm).
  assert (Uq : upto 200 (sqks w)). { apply (up_weak 129); [lia|]. rewrite Ew in Sm. apply Forall_cons_iff in Sm as [Sw1 _]. apply (up_sqks L 64); [exact Sw1|lia]. }
  assert (Ual : upto 200 al). { apply (up_weak 129); [lia|]. apply Forall_cons_iff in Ua as [Ua1 _]. exact Ua1. }
  destruct (wrench_exact L plus kf kt x y mn mx tau J (sqks w) al Uf Ut Ux Uy UJ Uq Ual HM) as (Fx & Fy & Tq & Iq).
  assert (L4 : (4 - length (p_motors p) = 0)%nat) by (rewrite Hq, Hmk; reflexivity).
  rewrite L4, app_nil_r, Hq in Kf, Kt, Ki.
  set (fm := force_by_motors (cf_fmat c) [w;w;w;w]) in E.
  assert (Efm : fm = colsmul (map (fun m => fst (mixer6_col m)) (quad_of L plus kf kt x y mn mx tau J)) [sqks w; sqks w; sqks w; sqks w]) by (unfold fm, force_by_motors; rewrite Kf; reflexivity).
  set (tm := torque_by_motors (cf_tmat c) (cf_imat c) [w;w;w;w] [al;al;al;al]) in E.
  assert (Ntm : nought3 tm).
  { unfold tm, torque_by_motors. rewrite Kt, Ki. apply n3_add; [exact Tq|exact Iq]. }
  assert (Ufm : fin (vz fm)).
  { assert (U : upto3 359 fm).
    { unfold fm, force_by_motors. rewrite Kf. apply (up3_colsmul L 130 129 _ _ 100); try lia.
      - rewrite <- Hq. pose proof (cols_up L 130 (fun m => fst (mixer6_col m)) (p_motors p) 0 (fcol_up L) Hm) as K. cbn [repeat] in K. rewrite app_nil_r in K. exact K.
      - rewrite Ew in Sm. apply (sqks_all L), Sm.
      - rewrite Hmk. cbn. lia. }
    apply U. }
  assert (Fx' : nought (vx fm)) by (rewrite Efm; exact Fx). assert (Fy' : nought (vy fm)) by (rewrite Efm; exact Fy).
  clear Fx Fy. rename Fx' into Fx, Fy' into Fy. clearbody fm tm.
  destruct (rot_vertical (s_ori (d_state d)) fm So' Qx Qy Fx Fy Ufm) as [Rx Ry].
  (* torque *)
  assert (W : nought3 (s_angvel (d_state d))) by (split; [exact Wx|split; [exact Wy|exact Wz]]).
  destruct Hi as (ia & ib & ic & iz & Ei & Ez & Fz & (La & Lb & Lc) & UIa & UIb & UIc).
  assert (UI : upto9 900 (p_inertia p)).
  { apply (up9_weak 64); [lia|]. rewrite Ei. assert (Uz : upto 64 iz) by (apply up_zero; assumption). unfold upto9, upto3. cbn [m00 m01 m02 m10 m11 m12 m20 m21 m22 vx vy vz].
    split; [split; [|split]|split; [split; [|split]|split; [|split]]]; assumption. }
  assert (UM : upto9 900 (minv (p_inertia p))) by (apply (up9_weak 321); [lia|]; rewrite Ei; apply (minv_up L); assumption).
  set (torque := total_torque _ _ _ _ _) in E.
  assert (Nt : nought3 torque).
  { unfold torque, total_torque. apply n3_sub; [apply n3_add; [apply n3_add; [exact Ntm|apply n_aero; [exact Ha|exact W]]|exact Uno]|].
    apply n3_cross_r; [apply n3_fin, W|]. apply n3_mul; [exact UI|exact W]. }
  assert (Na3 : nought3 (ang_acc (p_inertia p) torque)) by (apply n3_mul; [exact UM|exact Nt]).
  (* force *)
  set (force := total_force _ _ _ _ _) in E.
  assert (Fk : fin (mone * p_drag p)) by (apply (up_fin 65); apply (up_mul L 1 64); [apply (up_const L); lia|exact Hd|lia]).
  assert (Nf : nought (vx force) /\ nought (vy force)).
  { destruct Uno as (N1 & N2 & _). unfold force, total_force, drag_force, vadd, vmap2, vscale, vmap. cbn [vx vy].
    split; (apply (n_add L); [apply (n_add L); [apply (n_add L); [apply (n_add L); assumption|]|assumption]|assumption]); (apply (n_mul_r L); [exact Fk|apply (n_sqks L); assumption]). }
  assert (Fm : fin (p_mass p) /\ val (p_mass p) <> 0%R). { destruct Lm as [F0 V0]. split; [exact F0|]. pose proof (pow_pos (-64)). lra. }
  assert (Nl : nought (vx (vdiv force (p_mass p))) /\ nought (vy (vdiv force (p_mass p)))) by (destruct Nf as [A B]; destruct Fm as [F0 V0]; split; apply (n_div L); assumption).
  (* attitude *)
  set (qd := quat_derivative _ _) in E.
  assert (Nq : nought (qw qd) /\ nought (qx qd) /\ nought (qy qd) /\ nought (qz qd)).
  { assert (Hh : fin half) by reflexivity. unfold qd, quat_derivative, qmap, qmul. cbn [qw qx qy qz]. pose proof (n_zero L) as N0.
    split; [|split; [|split]]; (apply (n_mul_r L); [exact Hh|]); repeat first [apply (n_sub L)|apply (n_add L)]; (apply (n_mul_r L); assumption). }
  destruct Nq as (D1 & D2 & D3 & D4).
  set (qn := qadd _ _) in E.
  assert (Kq : fin (qw qn) /\ val (qw qn) = val (qw (s_ori (d_state d)))) by (apply (k_add L); [exact Fqw|apply (n_mul_l L); assumption]).
  assert (Nx : nought (qx qn)) by (apply (n_add L); [exact Qx|apply (n_mul_l L); assumption]).
  assert (Ny : nought (qy qn)) by (apply (n_add L); [exact Qy|apply (n_mul_l L); assumption]).
  assert (Kz : fin (qz qn) /\ val (qz qn) = val (qz (s_ori (d_state d)))) by (apply (k_add L); [exact Fqz|apply (n_mul_l L); assumption]).
  subst d'. cbn [d_state s_pos s_ori s_vel s_angvel s_linacc s_angacc s_force s_torque s_mvel s_macc] in *.
  destruct Num as (_ & (Nq1 & Nq2 & Nq3 & Nq4) & _). cbn [s_ori] in Nq1, Nq2, Nq3, Nq4. clearbody qn qd torque force.
  destruct Na3 as (A1 & A2 & A3). destruct Nl as (B1 & B2). destruct Sp as (P1 & P2 & P3).
  unfold upright_still, unturned, vadd, vmap2, vscaler, vmap. cbn [s_pos s_ori s_vel s_angvel s_mvel vx vy vz].
  split; [|split; [|split]].
  - split; [|split; [|split; [|split; [|split; [|split; [|split]]]]]].
    + unfold qnormalized in Nq2 |- *. cbv zeta in Nq2 |- *. destruct (zero <? qsqn qn); [|exact Nx]. cbn [qmap qx] in Nq2 |- *. apply (n_quot L); assumption.
    + unfold qnormalized in Nq3 |- *. cbv zeta in Nq3 |- *. destruct (zero <? qsqn qn); [|exact Ny]. cbn [qmap qy] in Nq3 |- *. apply (n_quot L); assumption.
    + apply (n_add L); [exact Wx|apply (n_mul_l L); assumption].
    + apply (n_add L); [exact Wy|apply (n_mul_l L); assumption].
    + apply (n_add L); [exact Wz|apply (n_mul_l L); assumption].
    + apply (n_add L); [exact Vx|apply (n_mul_l L); assumption].
    + apply (n_add L); [exact Vy|apply (n_mul_l L); assumption].
    + exists w'. reflexivity.
  - apply (k_add L); [apply (up_fin 64), P1|apply (n_mul_l L); assumption].
  - apply (k_add L); [apply (up_fin 64), P2|apply (n_mul_l L); assumption].
  - intros [[_ K1] K2]. rewrite val_one in K1. destruct Kq as [Fq1 Vq1]. rewrite K1 in Vq1. destruct Kz as [Fq4 Vq4]. rewrite (proj2 K2) in Vq4.
    assert (Nz : nought (qz qn)) by (split; assumption).
    assert (Sq : fin (qsqn qn) /\ val (qsqn qn) = 1%R).
    { unfold qsqn. assert (M1 : fin (qw qn * qw qn) /\ val (qw qn * qw qn) = 1%R).
      { assert (U1 : upto 0 (qw qn)). { split; [exact Fq1|]. rewrite Vq1, Rabs_R1. change (bpow radix2 0) with 1%R. apply Rle_refl. }
        split; [apply (up_fin 0), (up_mul L 0 0 _ _ U1 U1); lia|]. assert (R1 : rnd (val (qw qn) * val (qw qn))%R = 1%R) by (rewrite Vq1, Rmult_1_l, <- val_one; apply rnd_val).
        exact (eq_trans (v_mul L 0 0 _ _ U1 U1 ltac:(lia)) R1). }
      destruct M1 as [M1 M2].
      assert (N3 : nought (qx qn * qx qn + qy qn * qy qn + qz qn * qz qn)).
      { apply (n_add L); [apply (n_add L)|]; apply (n_mul_l L); try assumption; apply n_fin; assumption. }
      destruct (k_add_l L _ _ N3 M1) as [K3 K4]. split; [exact K3|]. exact (eq_trans K4 M2). }
    destruct Sq as [Fs Vs].
    assert (Lt : (zero <? qsqn qn) = true). { apply (proj2 (ltb_val (b64_ofZ 0) (qsqn qn) eq_refl Fs)). rewrite Vs. change (val (b64_ofZ 0)) with 0%R. lra. }
    assert (Sr : fin (sqrtT (qsqn qn)) /\ val (sqrtT (qsqn qn)) = 1%R).
    { destruct (Bsqrt_correct 53 1024 _ _ mode_NE (qsqn qn)) as (C1 & C2 & _). change (B2R (qsqn qn)) with (val (qsqn qn)) in C1. rewrite Vs, sqrt_1 in C1.
      assert (R1 : rnd 1 = 1%R) by (rewrite <- val_one; apply rnd_val). split; [|exact (eq_trans C1 R1)].
      change (is_finite (Bsqrt mode_NE (qsqn qn)) = true). rewrite C2. destruct (qsqn qn) as [s|s| |s m e B]; try discriminate Fs; try reflexivity.
      destruct s; [|reflexivity]. exfalso. unfold val in Vs. cbn [B2R] in Vs. pose proof (F2R_lt_0 radix2 (Float radix2 (Zneg m) e) ltac:(cbn; lia)) as Q. change (cond_Zopp true (Zpos m)) with (Zneg m) in Vs. lra. }
    destruct Sr as [F1' V1']. unfold qnormalized in Nq1, Nq4 |- *. cbv zeta in Nq1, Nq4 |- *. rewrite Lt in Nq1, Nq4 |- *. cbn [qmap qw qz] in Nq1, Nq4 |- *.
    split; [|apply (n_quot L); assumption]. split; [exact Nq1|]. rewrite val_one.
    pose proof (Bdiv_correct 53 1024 _ _ mode_NE (qw qn) (sqrtT (qsqn qn))) as C. change (B2R (sqrtT (qsqn qn))) with (val (sqrtT (qsqn qn))) in C. rewrite V1' in C.
    specialize (C ltac:(lra)). change (B2R (qw qn)) with (val (qw qn)) in C. rewrite Vq1 in C. replace (1 / 1)%R with 1%R in C by field.
    assert (R1 : rnd 1 = 1%R) by (rewrite <- val_one; apply rnd_val). rewrite R1, Rabs_R1 in C.
    rewrite Rlt_bool_true in C; [exact (proj1 C)|]. change 1%R with (bpow radix2 0). apply bpow_lt. lia.
Qed.

(** ** Flights *)
Lemma kept_trans x y z : kept x y -> kept y z -> kept x z.
Proof. intros [_ A] [F B]. split; [exact F|congruence]. Qed.
Definition straight (s s' : State b64) : Prop :=
  upright_still s' /\ kept (vx (s_pos s)) (vx (s_pos s')) /\ kept (vy (s_pos s)) (vy (s_pos s')) /\ (unturned s -> unturned s').
Lemma straight_trans s s' s'' : straight s s' -> straight s' s'' -> straight s s''.
Proof.
  intros (_ & A1 & A2 & A3) (B0 & B1 & B2 & B3). split; [exact B0|]. split; [exact (kept_trans _ _ _ A1 B1)|]. split; [exact (kept_trans _ _ _ A2 B2)|].
  intros Hu. apply B3, A3, Hu.
Qed.
Lemma straight_refl s : numbers s -> upright_still s -> straight s s.
Proof. intros ((F1 & F2 & _) & _) U. split; [exact U|]. split; [split; [exact F1|reflexivity]|]. split; [split; [exact F2|reflexivity]|]. intros Hu. exact Hu. Qed.

Lemma process_exact {G : Gen b64} (d d' : Dyn b64 G) c p :
  vehicle 4 d (k_act c) p -> reasonable_params p -> reasonable_gen G -> numbers (d_state d) -> in_range L d c ->
  reasonable_call c -> even_quad L p -> even_call p c -> upright_still (d_state d) -> process d (k_act c) (k_dt c) (k_ext c) (k_noise c) = Ok d' ->
  straight (d_state d) (d_state d') /\ numbers (d_state d') /\ vehicle 4 d' (k_act c) p.
Proof.
  intros Hv Hp HG Hs [Hr Hl] Hc He Hec Hup H. destruct c as [act dt ext noise]. pose proof Hc as (Na & Ue & Fd & Pd & Ld). cbn [k_act k_dt k_ext k_noise] in *.
  destruct (dtmax_val L) as [Fm [Pm Vm]].
  assert (Fm' : fin dtmax) by exact Fm. assert (Pm' : 0 < val dtmax) by exact Pm. assert (Vm' : val dtmax <= 1) by exact Vm.
  assert (SA : Sane FO) by exact (F64_sane L).
  assert (LP : leb dt zero = false) by exact (leb_pos L dt Fd Pd).
  destruct (ltb dtmax dt) eqn:Edt.
  - specialize (Hl eq_refl).
    refine (process_long SA (fun x => (exists k, oiter k (fun y => process y act dtmax ext noise) d = Ok x) /\ straight (d_state d) (d_state x) /\ numbers (d_state x) /\ vehicle 4 x act p)
      (fun x => straight (d_state d) (d_state x) /\ numbers (d_state x) /\ vehicle 4 x act p) d act dt ext noise d' Edt
      (conj (ex_intro _ 0%nat eq_refl) (conj (straight_refl _ Hs Hup) (conj Hs Hv))) _ H).
    intros x y [[k Hk] (Sx & Nx & Vx)] E. pose proof (core_vehicle L 4 x y act dtmax ext noise p Vx E) as Vy.
    assert (Rc : reasonable_call (mkCall act dtmax ext noise)).
    { split; [exact Na|]. split; [exact Ue|]. split; [exact Fm'|]. split; [exact Pm'|]. intros _. exact (dtmax_low L). }
    assert (Ny : numbers (d_state y)) by exact (core_numbers L 4 x y act dtmax ext noise p ltac:(lia) Vx Hp HG (Hl k x Hk Nx) Rc Vm' E).
    assert (Sy : straight (d_state d) (d_state y)).
    { apply (straight_trans _ _ _ Sx). exact (core_exact x y act dtmax ext noise p Vx Hp HG (Hl k x Hk Nx) Rc Vm' He Hec (proj1 Sx) E). }
    split; [|split; [|split]; assumption]. split; [|split; [|split]; assumption].
    exists (S k). apply (oiter_S k _ d x y Hk). apply (process_at_max SA). exact E.
  - apply (process_short _ _ _ _ _ _ LP Edt) in H.
    assert (V1 : val dt <= 1).
    { eapply Rle_trans; [|exact Vm'].
      change (Bltb dtmax dt = false) in Edt. rewrite Bltb_correct in Edt by assumption.
      destruct (Rlt_bool_spec (B2R dtmax) (B2R dt)) as [|A]; [discriminate|exact A]. }
    split; [exact (core_exact d d' act dt ext noise p Hv Hp HG (Hr Hs) Hc V1 He Hec Hup H)|]. split; [|eapply (core_vehicle L); eassumption].
    exact (core_numbers L 4 d d' act dt ext noise p ltac:(lia) Hv Hp HG (Hr Hs) Hc V1 H).
Qed.
Theorem run_exact {G : Gen b64} (l : list (Call b64)) p : reasonable_params p -> reasonable_gen G -> even_quad L p -> Forall (even_call p) l ->
  forall d d' : Dyn b64 G, ModelReach 4 (d_model d) -> get_params (d_model d) = Some p ->
  numbers (d_state d) -> run_in_range L d l -> upright_still (d_state d) -> dyn_run d l = Some d' ->
  upright_still (d_state d') /\ kept (vx (s_pos (d_state d))) (vx (s_pos (d_state d'))) /\ kept (vy (s_pos (d_state d))) (vy (s_pos (d_state d'))) /\
  (unturned (d_state d) -> unturned (d_state d')).
Proof.
  intros Hp HG He. change (Forall (even_call p) l -> forall d d' : Dyn b64 G, ModelReach 4 (d_model d) -> get_params (d_model d) = Some p ->
  numbers (d_state d) -> run_in_range L d l -> upright_still (d_state d) -> dyn_run d l = Some d' -> straight (d_state d) (d_state d')).
  induction l as [|c r IH]; intros Hl d d' M P Hs Ht Hup H; cbn [dyn_run run_in_range] in *.
  - injection H as <-. apply straight_refl; assumption.
  - apply Forall_cons_iff in Hl as [Lc Hl]. destruct Ht as (Hc & Hr & Ht).
    assert (V : vehicle 4 d (k_act c) p).
    { split; [exact M|]. split; [exact P|]. split; [destruct Lc as [[w ->] _]; reflexivity|]. destruct Hup as (_ & _ & _ & _ & _ & _ & _ & w & ->). reflexivity. }
    destruct (process d (k_act c) (k_dt c) (k_ext c) (k_noise c)) as [y|y|] eqn:E; [| |discriminate].
    + destruct (process_exact d y c p V Hp HG Hs Hr Hc He Lc Hup E) as (Sy & Ny & (My & Py & _)).
      apply (straight_trans _ _ _ Sy). exact (IH Hl y d' My Py Ny Ht (proj1 Sy) H).
    + exfalso. destruct Hc as (_ & _ & Fd & Pd & _). apply (process_throw_only (F64_sane L)) in E as [E _]. pose proof (leb_pos L _ Fd Pd) as LP. congruence.
Qed.
End Exact.
