(** Proofs: a step from reasonable numbers gives numbers (binary64). *)

From Coq Require Import ZArith Bool List Reals Lra Lia.
From Flocq Require Import Core BinarySingleNaN.
From Verif Require Import Scalar Float64 LinAlg MUtils MModel MDynamics SpecDyn SpecRun SpecRound SpecNumber PBase PFloat PRound PQuat64 PDyn PModel PPhys PUnit64 PUp.
Import ListNotations.
Local Open Scope R_scope.

Section Number.
Variable L : Libm.
#[local] Instance FO : Ops b64 := F64Ops L.
Local Open Scope sc_scope.


(** ** Clamping *)
Lemma clamp_up (x lo hi y : b64) e : is_nan x = false -> upto e lo -> upto e hi -> clamp x lo hi = Some y -> upto e y.
Proof.
  intros Nx Lo Hi H. unfold clamp in H. destruct (hi <? lo); [discriminate|]. destruct (x <? lo) eqn:E1; [injection H as <-; exact Lo|].
  destruct (hi <? x) eqn:E2; injection H as <-; [exact Hi|].
  destruct Lo as [Fl Al], Hi as [Fh Ah]. change (Bltb x lo = false) in E1. change (Bltb hi x = false) in E2.
  assert (Fx : fin x).
  { destruct x as [s|s| |s m e' He]; [reflexivity| |discriminate Nx|reflexivity].
    destruct s; [destruct lo as [sl|sl| |sl ml el Hl]; first [discriminate Fl|discriminate E1]|destruct hi as [sl|sl| |sl ml el Hl]; first [discriminate Fh|discriminate E2]]. }
  split; [exact Fx|].
  assert (A : ~ val x < val lo). { intros A. apply (ltb_val x lo Fx Fl) in A. congruence. }
  assert (B : ~ val hi < val x). { intros B. apply (ltb_val hi x Fh Fx) in B. congruence. }
  apply Rabs_le_inv in Al. apply Rabs_le_inv in Ah. apply Rabs_le. lra.
Qed.
Lemma clamp_motors_up : forall (w : list b64) ms (y : list b64), Forall (fun x => is_nan x = false) w -> Forall reasonable_motor ms -> clamp_motors w ms = Some y -> Forall (upto 64) y.
Proof.
  induction w as [|x w IH]; intros ms y Hw Hm H; cbn in H.
  - injection H as <-. constructor.
  - destruct ms as [|m ms]; [discriminate|]. apply bindo_Some in H as [z [Hz H]]. apply bindo_Some in H as [zs [Hzs H]]. injection H as <-.
    apply Forall_cons_iff in Hw as [Nx Hw]. apply Forall_cons_iff in Hm as [Rm Hm]. constructor; [|exact (IH ms zs Hw Hm Hzs)].
    destruct Rm as (_ & _ & _ & _ & _ & Mn & Mx & _). exact (clamp_up x (mt_min m) (mt_max m) z 64 Nx Mn Mx Hz).
Qed.
Lemma fin_nan (x : b64) : fin x -> is_nan x = false.
Proof. destruct x; [reflexivity|discriminate|discriminate|reflexivity]. Qed.

Lemma macc_up : forall (des cur : list b64) ms (y : list b64), Forall (upto 64) des -> Forall (upto 64) cur -> Forall reasonable_motor ms -> motors_derivative des cur ms = Some y ->
  Forall (upto 129) y.
Proof.
  induction des as [|d des IH]; intros cur ms y Hd Hc Hm H; cbn in H.
  - injection H as <-. constructor.
  - destruct cur as [|c cur]; [discriminate|]. destruct ms as [|m ms]; [discriminate|]. apply bindo_Some in H as [zs [Hzs H]]. injection H as <-.
    apply Forall_cons_iff in Hd as [Ud Hd]. apply Forall_cons_iff in Hc as [Uc Hc]. apply Forall_cons_iff in Hm as [Rm Hm]. constructor; [|exact (IH cur ms zs Hd Hc Hm Hzs)].
    destruct Rm as (_ & _ & _ & _ & _ & _ & _ & Ta & _). apply (up_div L 65 (-64)); [apply (up_sub L 64); [assumption|assumption|lia]|exact Ta|lia].
Qed.
Lemma ladd_up e : forall a b : list b64, Forall (upto e) a -> Forall (upto e) b -> (-1000 <= e <= 1022)%Z -> Forall (upto (e + 1)) (ladd a b).
Proof.
  intros a b Ha Hb He. unfold ladd, lmap2. apply Forall_forall. intros v I. apply in_map_iff in I as ([x y] & <- & I).
  rewrite Forall_forall in Ha, Hb. apply up_add; [apply Ha; eapply in_combine_l; exact I|apply Hb; eapply in_combine_r; exact I|exact He].
Qed.

(** ** Columns of the mixers *)
Lemma up_dir m : reasonable_motor m -> upto 1 (ofZ (mt_dir m)).
Proof. intros [[E|E] _]; rewrite E; apply up_const; lia. Qed.
Lemma zvec e k : upto e k -> upto3 e (mkV zero zero k).
Proof. intros H. assert (Z0 : upto e zero) by (apply up_zero; reflexivity). split; [exact Z0|split; [exact Z0|exact H]]. Qed.
Lemma fcol_up m : reasonable_motor m -> upto3 130 (fst (mixer6_col m)).
Proof.
  intros (_ & Kf & Kt & Ro & Po & _). cbn [mixer6_col fst]. apply (up3_mmulv L 64 64); [exact Ro|apply zvec; exact Kf|lia].
Qed.
Lemma tcol_up m : reasonable_motor m -> upto3 196 (snd (mixer6_col m)).
Proof.
  intros M. pose proof (up_dir m M) as D. pose proof (fcol_up m M) as Fc. destruct M as (_ & Kf & Kt & Ro & Po & _). cbn [mixer6_col snd fst] in *.
  apply (up3_add L 195); [|apply (up3_weak 131); [lia|]|lia].
  - apply (up3_cross L 64 130); [exact Po|exact Fc|lia].
  - apply (up3_mmulv L 64 65); [exact Ro|apply zvec|lia]. apply (up_mul L 1 64); [exact D|exact Kt|lia].
Qed.
Lemma icol_up m : reasonable_motor m -> upto3 131 (inertia_col m).
Proof.
  intros M. pose proof (up_dir m M) as D. destruct M as (_ & Kf & Kt & Ro & Po & _ & _ & _ & Jm). unfold inertia_col.
  apply (up3_mmulv L 64 65); [exact Ro|apply zvec|lia]. apply (up_mul L 1 64); [exact D|exact Jm|lia].
Qed.
Lemma zero3 e : upto3 e v0.
Proof. assert (Z0 : upto e zero) by (apply up_zero; reflexivity). split; [exact Z0|split; exact Z0]. Qed.
Lemma cols_up e (f : Motor b64 -> V3 b64) ms k : (forall m, reasonable_motor m -> upto3 e (f m)) -> Forall reasonable_motor ms ->
  Forall (upto3 e) (map f ms ++ repeat v0 k).
Proof.
  intros Hf Hm. apply Forall_app. split.
  - apply Forall_forall. intros v I. apply in_map_iff in I as (m & <- & I). apply Hf. rewrite Forall_forall in Hm. apply Hm, I.
  - apply Forall_forall. intros v I. apply repeat_spec in I as ->. apply zero3.
Qed.
Lemma sqks_all w : Forall (upto 64) w -> Forall (upto 129) (map sqks w).
Proof. intros H. apply Forall_forall. intros v I. apply in_map_iff in I as (x & <- & I). rewrite Forall_forall in H. apply (up_sqks L 64); [apply H, I|lia]. Qed.

(** ** The inverse of a diagonal inertia *)
Lemma minv_up (a b c z : b64) : val z = 0 -> fin z -> atleast (-64) a -> atleast (-64) b -> atleast (-64) c -> upto 64 a -> upto 64 b -> upto 64 c ->
  upto9 321 (minv (mkM a z z z b z z z c)).
Proof.
  intros Ez Fz La Lb Lc Ua Ub Uc. unfold minv. cbn [m00 m01 m02 m10 m11 m12 m20 m21 m22].
  assert (Uz : forall e, upto e z) by (intros e; apply up_zero; assumption).
  assert (W : forall x, upto 64 x -> upto 1000 x) by (intros x; apply up_weak; lia).
  assert (Mz : forall x, upto 64 x -> fin (x * z) /\ val (x * z) = 0) by (intros x Hx; apply mul_zero_r; [apply W, Hx|exact Fz|exact Ez]).
  assert (Zm : forall x, upto 64 x -> fin (z * x) /\ val (z * x) = 0) by (intros x Hx; apply mul_zero_l; [apply W, Hx|exact Fz|exact Ez]).
  destruct (Mz z (Uz 64%Z)) as [F1 E1].
  (* cofactors off the diagonal are zero *)
  assert (S1 : fin (z * z - c * z) /\ val (z * z - c * z) = 0) by (destruct (Mz c Uc); apply sub_zero; assumption).
  assert (S2 : fin (z * z - z * b) /\ val (z * z - z * b) = 0) by (destruct (Zm b Ub); apply sub_zero; assumption).
  assert (S3 : fin (z * z - z * c) /\ val (z * z - z * c) = 0) by (destruct (Zm c Uc); apply sub_zero; assumption).
  assert (S4 : fin (z * z - a * z) /\ val (z * z - a * z) = 0) by (destruct (Mz a Ua); apply sub_zero; assumption).
  assert (S5 : fin (z * z - b * z) /\ val (z * z - b * z) = 0) by (destruct (Mz b Ub); apply sub_zero; assumption).
  assert (S6 : fin (z * z - z * a) /\ val (z * z - z * a) = 0) by (destruct (Zm a Ua); apply sub_zero; assumption).
  assert (P : forall x y, upto 64 x -> upto 64 y -> upto 129 (x * y - z * z)).
  { intros x y Hx Hy. apply (up_sub L 128); [apply (up_mul L 64 64); [assumption|assumption|lia]|apply up_zero; assumption|lia]. }
  assert (LP : forall x y, atleast (-64) x -> atleast (-64) y -> upto 64 x -> upto 64 y -> atleast (-128) (x * y - z * z)).
  { intros x y Lx Ly Hx Hy. apply low_sub_zero; try assumption; try lia.
    - apply (low_mul L (-64) (-64)); try assumption; try lia; eapply up_weak; try eassumption; lia.
    - apply (up_weak 128); [lia|]. apply (up_mul L 64 64); [assumption|assumption|lia]. }
  set (c00 := b * c - z * z) in *. set (c10 := z * z - c * z) in *. set (c20 := z * z - z * b) in *.
  assert (UA : upto 193 (c00 * a)) by (apply (up_mul L 129 64); [apply P; assumption|exact Ua|lia]).
  assert (Det : atleast (-192) (c00 * a + c10 * z + c20 * z)).
  { destruct S1 as [G1 H1]. destruct S2 as [G2 H2].
    destruct (mul_zero_r L c10 z) as [K1 J1]; [apply up_zero; assumption|exact Fz|exact Ez|].
    destruct (mul_zero_r L c20 z) as [K2 J2]; [apply up_zero; assumption|exact Fz|exact Ez|].
    apply low_add_zero; [|apply (up_weak 194); [lia|]|exact K2|exact J2|lia].
    - apply low_add_zero; [|apply (up_weak 193); [lia|exact UA]|exact K1|exact J1|lia].
      apply (low_mul L (-128) (-64)); [apply LP; assumption|exact La| | |lia].
      + apply (up_weak 129); [lia|apply P; assumption].
      + apply (up_weak 64); [lia|exact Ua].
    - apply (up_add L 193); [exact UA|apply up_zero; assumption|lia]. }
  set (det := c00 * a + c10 * z + c20 * z) in *.
  assert (Ud : upto 192 (one / det)).
  { change 192%Z with (0 - (-192))%Z. apply up_div; [|exact Det|lia]. split; [reflexivity|].
    change (val one) with (val (b64_ofZ 1)). rewrite val_one, Rabs_R1. change (2^0) with 1. lra. }
  set (d := one / det) in *.
  assert (K0 : forall x, fin x /\ val x = 0 -> upto 321 (x * d)).
  { intros x [Fx Ex]. destruct (mul_zero_l L x d) as [Fm Em]; [apply (up_weak 192); [lia|exact Ud]|exact Fx|exact Ex|]. apply up_zero; assumption. }
  assert (K1 : forall x y, upto 64 x -> upto 64 y -> upto 321 ((x * y - z * z) * d)).
  { intros x y Hx Hy. apply (up_mul L 129 192); [apply P; assumption|exact Ud|lia]. }
  unfold upto9, upto3. cbn [m00 m01 m02 m10 m11 m12 m20 m21 m22 vx vy vz].
  split; [split; [|split]|split; [split; [|split]|split; [|split]]].
  - apply K1; assumption.
  - apply K0, S1.
  - apply K0, S2.
  - apply K0, S3.
  - apply K1; assumption.
  - apply K0, S4.
  - apply K0, S5.
  - apply K0, S6.
  - apply K1; assumption.
Qed.

(** ** Noise *)
Lemma papply_up e p (a b c : b64) : upto e a -> upto e b -> upto e c -> upto3 e (papply p a b c).
Proof. intros A B C. destruct p; (split; [|split]); assumption. Qed.
Lemma draw3_up {G : Gen b64} site (k : b64) e0 (d0 : g_dist G) : reasonable_gen G -> upto 128 k -> upto3 192 (fst (draw3 G site k e0 d0)).
Proof.
  intros HG Hk. unfold draw3.
  pose proof (HG e0 d0) as A. destruct (g_draw G e0 d0) as [a [e1 d1]].
  pose proof (HG e1 d1) as B. destruct (g_draw G e1 d1) as [b [e2 d2]].
  pose proof (HG e2 d2) as C. destruct (g_draw G e2 d2) as [c [e3 d3]]. cbn [fst] in *.
  apply papply_up; apply (up_mul L 128 64); (assumption || lia).
Qed.
Lemma div_nonneg (x y : b64) : fin x -> 0 <= val x -> 0 < val y -> upto 128 (x / y) -> 0 <= val (x / y).
Proof.
  intros Fx Px Py U. pose proof (Bdiv_correct 53 1024 _ _ mode_NE x y ltac:(unfold val in Py; lra)) as C.
  destruct (Rlt_bool _ _) in C.
  - destruct C as (C & _). unfold val. change (Bdiv mode_NE x y) with (x / y)%sc in C. rewrite C. apply rnd_nonneg.
    apply Rmult_le_pos; [exact Px|]. apply Rlt_le, Rinv_0_lt_compat, Py.
  - destruct U as [F _]. change (x / y)%sc with (Bdiv mode_NE x y) in F. unfold fin in F. rewrite <- is_finite_SF_B2SF, C in F.
    unfold binary_overflow in F. cbn in F. discriminate.
Qed.
Lemma noise_up {G : Gen b64} (mo mo' : ModelObj b64 G) (dt : b64) noise p : reasonable_gen G -> get_params mo = Some p ->
  upto 64 (p_fnoise p) -> 0 <= val (p_fnoise p) -> fin dt -> 0 < val dt -> (noise = true -> 2^(-64) <= val dt) ->
  noise_model mo dt noise = Some mo' -> upto3 192 (mo_sforce mo').
Proof.
  intros HG Hp Un Pn Fd Pd Ld H. destruct noise; cbn [noise_model] in H.
  - specialize (Ld eq_refl). unfold set_noise in H. assert (LP : leb dt zero = false) by exact (leb_pos L dt Fd Pd). rewrite LP in H. apply bindo_Some in H as [c [Hc H]].
    unfold get_params in Hp. rewrite Hc in Hp. cbn in Hp. injection Hp as <-.
    assert (U : upto 128 (p_fnoise (cf_params c) / dt)) by (apply (up_div L 64 (-64)); [exact Un|split; assumption|lia]).
    assert (K : upto 128 (sqrtT (p_fnoise (cf_params c) / dt))).
    { apply up_sqrt; [exact U|lia|]. apply div_nonneg; [apply Un|exact Pn|exact Pd|exact U]. }
    pose proof (draw3_up 0 _ (mo_eng mo) (mo_dist mo) HG K) as D.
    destruct (draw3 G 0 _ _ _) as [f [e1 d1]]. destruct (draw3 G 1 _ _ _) as [m [e2 d2]]. injection H as <-. exact D.
  - injection H as <-. apply zero3.
Qed.

(** ** Aerodynamics *)
Lemma aero_up (C : M3 b64) (w : V3 b64) : upto9 64 C -> upto3 64 w -> upto3 261 (aero_moment C w).
Proof.
  intros ((A1 & A2 & A3) & (B1 & B2 & B3) & (C1 & C2 & C3)) W. unfold aero_moment. cbv zeta. cbn [vx vy vz] in *.
  assert (K : upto 131 (mone * vnorm w)) by (apply (up_mul L 1 130); [apply up_const; lia|apply (up_norm L 64); [exact W|lia]|lia]).
  apply (up3_mmulv L 195 64); [|exact W|lia]. unfold upto9, upto3. cbn [m00 m01 m02 m10 m11 m12 m20 m21 m22 vx vy vz].
  split; [split; [|split]|split; [split; [|split]|split; [|split]]]; apply (up_mul L 131 64); (assumption || lia).
Qed.
Lemma drag_up (c : b64) (v : V3 b64) : upto 64 c -> upto3 64 v -> upto3 194 (drag_force c v).
Proof.
  intros Hc (A & B & C). unfold drag_force. apply (up3_scale L 129 65); [apply (up_mul L 1 64); [apply up_const; lia|exact Hc|lia]| |lia].
  split; [|split]; cbn [vmap vx vy vz]; apply (up_sqks L 64); (assumption || lia).
Qed.
Lemma unit_up q : unit_within (1/2) q -> upto 1 (qw q) /\ upto3 1 (qvec q).
Proof.
  intros ((Fw & Fx & Fy & Fz) & H). apply Rabs_le_inv in H. unfold sqlen in H. change (2^1) with 2.
  assert (K : forall x : b64, fin x -> val x ^ 2 <= 3/2 -> upto 1 x).
  { intros x F X. split; [exact F|]. change (2^1) with 2. apply Rabs_le. nra. }
  pose proof (pow2_ge_0 (val (qw q))). pose proof (pow2_ge_0 (val (qx q))). pose proof (pow2_ge_0 (val (qy q))). pose proof (pow2_ge_0 (val (qz q))).
  split; [apply K; [exact Fw|lra]|]. split; [|split]; cbn [qvec vx vy vz]; apply K; (assumption || lra).
Qed.
Lemma rates_up w : upto3 64 w -> rates_below bigw w.
Proof.
  intros ((F1 & A1) & (F2 & A2) & (F3 & A3)). split; [split; [|split]; assumption|].
  assert (B : 4 * 2^64 <= bigw). { unfold bigw. change 4 with (2^2). rewrite <- bpow_plus. apply bpow_le. lia. }
  pose proof (pow_pos 64). lra.
Qed.

(** ** The step *)
Lemma core_numbers {G : Gen b64} n (d d' : Dyn b64 G) act dt ext noise p :
  (n <= 100)%nat -> vehicle n d act p -> reasonable_params p -> reasonable_gen G -> reasonable_state (d_state d) ->
  reasonable_call (mkCall act dt ext noise) -> val dt <= 1 ->
  euler_core d act dt ext noise = Some d' -> numbers (d_state d').
Proof.
  intros Hn (Hr & Hp & Hla & Hlw) (Hm & Lm & Hi & Hd & Ha & Hg & Hf & Pf) HG (Sp & So & Sv & Sw & Sm) (Na & Ue & Fd & Pd & Ld) Vd H.
  cbn [k_act k_dt k_ext k_noise] in *.
  destruct (unit_up _ So) as [Qw Qv].
  assert (U0 : upto 0 dt). { split; [exact Fd|]. change (2^0) with 1. apply Rabs_le. lra. }
  pose proof (core_unit L d d' act dt ext noise So (rates_up _ Sw) Fd (conj Pd Vd) H) as [Qf _].
  pose proof Hp as Hp'. apply get_params_cfg in Hp as [c [Hc Hcp]].
  apply euler_core_inv in H as [_ Hinv].
  destruct (Hinv c Hc) as (mo & des & macc & mvel & En & Em & Ed & Ea & Ev & E). cbv zeta in E.
  pose proof (model_reach_ok n _ Hr) as [_ Hok]. rewrite Hc in Hok. rewrite Hcp in *.
  destruct Hok as (_ & Hlen & _ & Kf & Kt & Ki). rewrite Hcp in *.
  (* rotors *)
  pose proof (clamp_motors_up act _ des Na Hm Ed) as Ud.
  pose proof (macc_up _ _ _ _ Ud Sm Hm Ea) as Ua.
  assert (Us : Forall (upto 130) (ladd (s_mvel (d_state d)) (map (fun a => a * dt) macc))).
  { apply (ladd_up 129); [| |lia].
    - eapply Forall_impl; [|exact Sm]. intros x. apply up_weak. lia.
    - apply Forall_forall. intros v I. apply in_map_iff in I as (x & <- & I). rewrite Forall_forall in Ua. apply (up_mul L 129 0); [apply Ua, I|exact U0|lia]. }
  pose proof (clamp_motors_up _ _ mvel (Forall_impl _ (fun x Hx => fin_nan x (up_fin _ _ Hx)) Us) Hm Ev) as Uv.
  (* noise *)
  pose proof (noise_up _ _ dt noise p HG Hp' Hf Pf Fd Pd Ld En) as Uno.
  (* matrices *)
  assert (Mf : Forall (upto3 130) (cf_fmat c)) by (rewrite Kf; apply cols_up; [exact fcol_up|exact Hm]).
  assert (Mt : Forall (upto3 196) (cf_tmat c)) by (rewrite Kt; apply cols_up; [exact tcol_up|exact Hm]).
  assert (Mi : Forall (upto3 131) (cf_imat c)) by (rewrite Ki; apply cols_up; [exact icol_up|exact Hm]).
  assert (Nf : (Z.of_nat (length (cf_fmat c)) <= 100)%Z) by (rewrite Kf, app_length, map_length, repeat_length; lia).
  assert (Nt : (Z.of_nat (length (cf_tmat c)) <= 100)%Z) by (rewrite Kt, app_length, map_length, repeat_length; lia).
  assert (Ni : (Z.of_nat (length (cf_imat c)) <= 100)%Z) by (rewrite Ki, app_length, map_length, repeat_length; lia).
  pose proof (sqks_all _ Sm) as Sq.
  (* force *)
  assert (Uf : upto3 359 (force_by_motors (cf_fmat c) (s_mvel (d_state d)))).
  { apply (up3_colsmul L 130 129 _ _ 100); (assumption || lia). }
  assert (Uq : upto3 366 (qrot (s_ori (d_state d)) (force_by_motors (cf_fmat c) (s_mvel (d_state d))))) by (apply (up3_rot L 359); (assumption || lia)).
  pose proof (drag_up _ _ Hd Sv) as Udr.
  set (force := total_force _ _ _ _ _) in E.
  assert (UF : upto3 370 force).
  { unfold force, total_force. apply (up3_add L 369); [|apply (up3_weak 64); [lia|exact Ue]|lia].
    apply (up3_add L 368); [|apply (up3_weak 192); [lia|exact Uno]|lia].
    apply (up3_add L 367); [|apply (up3_weak 194); [lia|exact Udr]|lia].
    apply (up3_add L 366); [exact Uq|apply (up3_weak 64); [lia|exact Hg]|lia]. }
  assert (UA : upto3 434 (vdiv force (p_mass p))) by (apply (up3_div L 370 (-64)); [exact UF|exact Lm|lia]).
  (* torque *)
  assert (UT1 : upto3 426 (torque_by_motors (cf_tmat c) (cf_imat c) (s_mvel (d_state d)) macc)).
  { unfold torque_by_motors. apply (up3_add L 425); [|apply (up3_weak 360); [lia|]|lia].
    - apply (up3_colsmul L 196 129 _ _ 100); (assumption || lia).
    - apply (up3_colsmul L 131 129 _ _ 100); (assumption || lia). }
  pose proof (aero_up _ _ Ha Sw) as Uae.
  destruct Hi as (a & b & c' & z & Ei & Ez & Fz & (La & Lb & Lc) & UIa & UIb & UIc).
  assert (UI : upto9 64 (p_inertia p)).
  { rewrite Ei. assert (Uz : upto 64 z) by (apply up_zero; assumption). unfold upto9, upto3. cbn [m00 m01 m02 m10 m11 m12 m20 m21 m22 vx vy vz].
    split; [split; [|split]|split; [split; [|split]|split; [|split]]]; assumption. }
  set (torque := total_torque _ _ _ _ _) in E.
  assert (UT : upto3 429 torque).
  { unfold torque, total_torque. apply (up3_sub L 428); [|apply (up3_weak 195); [lia|]|lia].
    - apply (up3_add L 427); [|apply (up3_weak 192); [lia|exact Uno]|lia].
      apply (up3_add L 426); [exact UT1|apply (up3_weak 261); [lia|exact Uae]|lia].
    - apply (up3_cross L 64 130); [exact Sw| |lia]. apply (up3_mmulv L 64 64); [exact UI|exact Sw|lia]. }
  assert (UAA : upto3 752 (ang_acc (p_inertia p) torque)).
  { unfold ang_acc. apply (up3_mmulv L 321 429); [|exact UT|lia]. rewrite Ei. apply minv_up; assumption. }
  subst d'. cbn [d_state s_pos s_ori s_vel s_angvel s_linacc s_angacc s_force s_torque s_mvel s_macc] in *.
  unfold numbers. cbn [s_pos s_ori s_vel s_angvel s_linacc s_angacc s_force s_torque s_mvel s_macc].
  split; [|split; [|split; [|split; [|split; [|split; [|split; [|split; [|split]]]]]]]].
  - apply (up3_fin 65). apply (up3_add L 64); [exact Sp| |lia]. apply (up3_scaler L 64 0); [exact Sv|exact U0|lia].
  - exact Qf.
  - apply (up3_fin 435). apply (up3_add L 434); [apply (up3_weak 64); [lia|exact Sv]| |lia]. apply (up3_scaler L 434 0); [exact UA|exact U0|lia].
  - apply (up3_fin 753). apply (up3_add L 752); [apply (up3_weak 64); [lia|exact Sw]| |lia]. apply (up3_scaler L 752 0); [exact UAA|exact U0|lia].
  - apply (up3_fin 434 _ UA).
  - apply (up3_fin 752 _ UAA).
  - apply (up3_fin 370 _ UF).
  - apply (up3_fin 429 _ UT).
  - eapply Forall_impl; [|exact Uv]. intros x. apply up_fin.
  - eapply Forall_impl; [|exact Ua]. intros x. apply up_fin.
Qed.

Lemma dtmax_low : 2^(-64) <= val dtmax.
Proof.
  assert (E1 : B2SF b64_dtmax = SpecFloat.S754_finite false 5764607523034235 (-59)) by (vm_compute; reflexivity).
  change (2^(-64) <= B2R b64_dtmax). rewrite <- SF2R_B2SF, E1. cbn [SF2R cond_Zopp]. unfold F2R. cbn [Fnum Fexp].
  apply Rle_trans with (1 * 2^(-59)); [rewrite Rmult_1_l; apply bpow_le; lia|]. apply Rmult_le_compat_r; [apply bpow_ge_0|]. lra.
Qed.
Lemma core_vehicle {G : Gen b64} n (d d' : Dyn b64 G) act dt ext noise p :
  vehicle n d act p -> euler_core d act dt ext noise = Some d' -> vehicle n d' act p.
Proof.
  intros (Hr & Hp & Hla & Hlw) E. pose proof (euler_core_rotors _ _ _ _ _ _ E ltac:(congruence)) as [Lr _].
  pose proof (euler_core_cfg _ _ _ _ _ _ E) as Ec. split; [|split; [unfold get_params in *; rewrite Ec; exact Hp|split; [exact Hla|congruence]]].
  apply euler_core_inv in E as [[c Hc] Hi].
  destruct (Hi c Hc) as (mo & des & macc & mvel & Hn & Hm & _ & _ & _ & ->). cbn [d_model].
  destruct noise; [eapply mr_noise; eassumption|]. injection Hn as <-. apply mr_disable, Hr.
Qed.
Lemma process_numbers {G : Gen b64} n (d d' : Dyn b64 G) c p :
  (n <= 100)%nat -> vehicle n d (k_act c) p -> reasonable_params p -> reasonable_gen G -> numbers (d_state d) -> in_range L d c ->
  reasonable_call c -> process d (k_act c) (k_dt c) (k_ext c) (k_noise c) = Ok d' ->
  numbers (d_state d') /\ vehicle n d' (k_act c) p.
Proof.
  intros Hn Hv Hp HG Hs [Hr Hl] Hc H. destruct c as [act dt ext noise]. pose proof Hc as (Na & Ue & Fd & Pd & Ld). cbn [k_act k_dt k_ext k_noise] in *.
  destruct (dtmax_val L) as [Fm [Pm Vm]].
  assert (Fm' : fin dtmax) by exact Fm. assert (Pm' : 0 < val dtmax) by exact Pm. assert (Vm' : val dtmax <= 1) by exact Vm.
  assert (SA : Sane FO) by exact (F64_sane L).
  assert (LP : leb dt zero = false) by exact (leb_pos L dt Fd Pd).
  destruct (ltb dtmax dt) eqn:Edt.
  - specialize (Hl eq_refl).
    refine (process_long SA (fun x => (exists k, oiter k (fun y => process y act dtmax ext noise) d = Ok x) /\ numbers (d_state x) /\ vehicle n x act p)
      (fun x => numbers (d_state x) /\ vehicle n x act p) d act dt ext noise d' Edt (conj (ex_intro _ 0%nat eq_refl) (conj Hs Hv)) _ H).
    intros x y [[k Hk] [Nx Vx]] E. pose proof (core_vehicle n x y act dtmax ext noise p Vx E) as Vy.
    assert (Ny : numbers (d_state y)).
    { refine (core_numbers n x y act dtmax ext noise p Hn Vx Hp HG (Hl k x Hk Nx) _ Vm' E).
      split; [exact Na|]. split; [exact Ue|]. split; [exact Fm'|]. split; [exact Pm'|]. intros _. exact dtmax_low. }
    split; [|split; assumption]. split; [|split; assumption].
    exists (S k). apply (oiter_S k _ d x y Hk). apply (process_at_max SA). exact E.
  - apply (process_short _ _ _ _ _ _ LP Edt) in H. split; [|eapply core_vehicle; eassumption].
    refine (core_numbers n d d' act dt ext noise p Hn Hv Hp HG (Hr Hs) Hc _ H).
    eapply Rle_trans; [|exact Vm'].
    change (Bltb dtmax dt = false) in Edt. rewrite Bltb_correct in Edt by assumption.
    destruct (Rlt_bool_spec (B2R dtmax) (B2R dt)) as [|A]; [discriminate|exact A].
Qed.
Lemma run_numbers {G : Gen b64} n (l : list (Call b64)) p : (n <= 100)%nat -> reasonable_params p -> reasonable_gen G ->
  forall d d' : Dyn b64 G, ModelReach n (d_model d) -> get_params (d_model d) = Some p -> length (s_mvel (d_state d)) = n ->
  Forall (fun c => length (k_act c) = n) l ->
  numbers (d_state d) -> run_in_range L d l -> dyn_run d l = Some d' -> numbers (d_state d').
Proof.
  intros Hn Hp HG. induction l as [|c r IH]; intros d d' M P Lw Hl Hs Ht H; cbn [dyn_run run_in_range] in *.
  - injection H as <-. exact Hs.
  - apply Forall_cons_iff in Hl as [Lc Hl]. destruct Ht as (Hc & Hr & Ht).
    destruct (process d (k_act c) (k_dt c) (k_ext c) (k_noise c)) as [y|y|] eqn:E; [| |discriminate].
    + destruct (process_numbers n d y c p Hn (conj M (conj P (conj Lc Lw))) Hp HG Hs Hr Hc E) as [Ny (My & Py & _ & Ly)].
      exact (IH y d' My Py Ly Hl Ny Ht H).
    + exfalso. destruct Hc as (_ & _ & Fd & Pd & _). apply (process_throw_only (F64_sane L)) in E as [E _]. pose proof (leb_pos L _ Fd Pd) as LP. congruence.
Qed.
End Number.
