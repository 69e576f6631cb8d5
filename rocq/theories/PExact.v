(** Proofs: equal rotor speeds lift a quadrotor straight up, in binary64. *)

From Coq Require Import ZArith Bool List Reals Lra Lia.
From Flocq Require Import Core BinarySingleNaN.
From Verif Require Import Scalar Float64 LinAlg MUtils MModel MDynamics SpecDyn SpecRun SpecRound SpecNumber SpecExact
  PBase PFloat PRound PQuat64 PDyn PModel PPhys PUnit64 PUp PNumber.
Import ListNotations.
Local Open Scope R_scope.

(** ** Zeros *)
Lemma nought_zero (x : b64) : nought x <-> exists s, x = B754_zero s.
Proof.
  split.
  - intros [F V]. destruct x as [s|s| |s m e B]; [exists s; reflexivity|discriminate F|discriminate F|].
    exfalso. unfold val in V. cbn [B2R] in V. apply eq_0_F2R in V. cbn in V. destruct s; discriminate.
  - intros [s ->]. split; reflexivity.
Qed.

Section Exact.
Variable L : Libm.
#[local] Instance FO : Ops b64 := F64Ops L.
Local Open Scope sc_scope.

Lemma n_mul_l (x y : b64) : nought x -> fin y -> nought (x * y).
Proof. rewrite !nought_zero. intros [s ->] F. destruct y as [t|t| |t m e B]; try discriminate F; eexists; reflexivity. Qed.
Lemma n_mul_r (x y : b64) : fin x -> nought y -> nought (x * y).
Proof. rewrite !nought_zero. intros F [s ->]. destruct x as [t|t| |t m e B]; try discriminate F; eexists; reflexivity. Qed.
Lemma n_add (x y : b64) : nought x -> nought y -> nought (x + y).
Proof. rewrite !nought_zero. intros [s ->] [t ->]. destruct s, t; eexists; reflexivity. Qed.
Lemma n_sub (x y : b64) : nought x -> nought y -> nought (x - y).
Proof. rewrite !nought_zero. intros [s ->] [t ->]. destruct s, t; eexists; reflexivity. Qed.
Lemma n_div (x y : b64) : nought x -> fin y -> val y <> 0 -> nought (x / y).
Proof.
  rewrite !nought_zero. intros [s ->] F V. destruct y as [t|t| |t m e B]; try discriminate F; [|eexists; reflexivity]. exfalso. apply V. reflexivity.
Qed.
Lemma n_quot (x y : b64) : nought x -> fin (x / y) -> nought (x / y).
Proof.
  rewrite !nought_zero. intros [s ->] F. destruct y as [t|t| |t m e B]; try discriminate F; eexists; reflexivity.
Qed.
Lemma n_sqrt (x : b64) : nought x -> nought (sqrtT x).
Proof. rewrite !nought_zero. intros [s ->]. exists s. reflexivity. Qed.
Lemma n_neg (x : b64) : nought x -> nought (neg x).
Proof. rewrite !nought_zero. intros [s ->]. eexists. reflexivity. Qed.
Lemma n_zero : nought zero.
Proof. split; reflexivity. Qed.
Lemma n_fin (x : b64) : nought x -> fin x.
Proof. intros [F _]. exact F. Qed.
Lemma n_up e (x : b64) : nought x -> upto e x.
Proof. intros [F V]. apply up_zero; assumption. Qed.
Lemma n_sqks (x : b64) : nought x -> nought (sqks x).
Proof. intros N. unfold sqks. apply n_mul_l; [apply n_mul_l; [exact N|apply n_fin, N]|apply (up_fin 1), (up_sign L)]. Qed.

(** ** Values *)
Lemma rnd_val (x : b64) : rnd (val x) = val x.
Proof. apply round_generic; [apply valid_rnd_N|apply generic_format_B2R]. Qed.
Lemma below_top (x : b64) : Rlt_bool (Rabs (val x)) (bpow radix2 1024) = true.
Proof. apply Rlt_bool_true, abs_B2R_lt_emax. Qed.
Lemma rnd_opp x : rnd (- x) = - rnd x.
Proof. apply round_NE_opp. Qed.
Lemma rnd_zero : rnd 0 = 0.
Proof. apply round_0, valid_rnd_N. Qed.

Lemma k_add (x y : b64) : fin x -> nought y -> fin (x + y) /\ val (x + y) = val x.
Proof.
  intros Fx [Fy Vy]. pose proof (Bplus_correct 53 1024 _ _ mode_NE x y Fx Fy) as C. unfold val in Vy. rewrite Vy, Rplus_0_r in C. change (B2R x) with (val x) in C.
  rewrite rnd_val, below_top in C. destruct C as (C & F & _). split; [exact F|exact C].
Qed.
Lemma k_add_l (x y : b64) : nought x -> fin y -> fin (x + y) /\ val (x + y) = val y.
Proof.
  intros [Fx Vx] Fy. pose proof (Bplus_correct 53 1024 _ _ mode_NE x y Fx Fy) as C. unfold val in Vx. rewrite Vx, Rplus_0_l in C. change (B2R y) with (val y) in C.
  rewrite rnd_val, below_top in C. destruct C as (C & F & _). split; [exact F|exact C].
Qed.
Lemma k_sub (x y : b64) : fin x -> nought y -> fin (x - y) /\ val (x - y) = val x.
Proof.
  intros Fx [Fy Vy]. pose proof (Bminus_correct 53 1024 _ _ mode_NE x y Fx Fy) as C. unfold val in Vy. rewrite Vy, Rminus_0_r in C. change (B2R x) with (val x) in C.
  rewrite rnd_val, below_top in C. destruct C as (C & F & _). split; [exact F|exact C].
Qed.
Lemma k_sub_l (x y : b64) : nought x -> fin y -> fin (x - y) /\ val (x - y) = - val y.
Proof.
  intros [Fx Vx] Fy. pose proof (Bminus_correct 53 1024 _ _ mode_NE x y Fx Fy) as C. unfold val in Vx. rewrite Vx, Rminus_0_l in C. change (B2R y) with (val y) in C.
  rewrite rnd_opp, rnd_val, Rabs_Ropp, below_top in C. destruct C as (C & F & _). split; [exact F|exact C].
Qed.
Lemma k_one (x : b64) : fin x -> fin (one * x) /\ val (one * x) = val x.
Proof.
  intros Fx. pose proof (Bmult_correct 53 1024 _ _ mode_NE (b64_ofZ 1) x) as C. change (B2R (b64_ofZ 1)) with (val (b64_ofZ 1)) in C. rewrite val_one, Rmult_1_l in C. change (B2R x) with (val x) in C.
  rewrite rnd_val, below_top in C. destruct C as (C & F & _). unfold fin in Fx. rewrite Fx in F. split; [exact F|exact C].
Qed.
(** An exact product is rounded once. *)
Lemma v_mul e f (x y : b64) : upto e x -> upto f y -> (-1000 <= e + f <= 1023)%Z -> val (x * y) = rnd (val x * val y).
Proof.
  intros [Fx Ax] [Fy Ay] He. pose proof (Bmult_correct 53 1024 _ _ mode_NE x y) as C.
  destruct (rnd_up (e + f) (val x * val y)) as [U V]; [lia| |].
  { rewrite bpow_plus, Rabs_mult. apply Rmult_le_compat; try apply Rabs_pos; assumption. }
  unfold val in U, V. rewrite V in C. destruct C as (C & _). exact C.
Qed.
Lemma v_add e (x y : b64) : upto e x -> upto e y -> (-1000 <= e <= 1022)%Z -> val (x + y) = rnd (val x + val y).
Proof.
  intros [Fx Ax] [Fy Ay] He. pose proof (Bplus_correct 53 1024 _ _ mode_NE x y Fx Fy) as C.
  destruct (rnd_up (e + 1) (val x + val y)) as [U V]; [lia| |].
  { rewrite pow_S. eapply Rle_trans; [apply Rabs_triang|]. lra. }
  unfold val in U, V. rewrite V in C. destruct C as (C & _). exact C.
Qed.
Lemma rnd_signed s x : (s = -1 \/ s = 0 \/ s = 1)%Z -> rnd (IZR s * x)%R = (IZR s * rnd x)%R.
Proof.
  intros [ -> | [ -> | -> ] ].
  - replace (IZR (-1) * x)%R with (- x)%R by lra. rewrite rnd_opp. lra.
  - rewrite !Rmult_0_l. apply rnd_zero.
  - rewrite !Rmult_1_l. reflexivity.
Qed.
Lemma rnd_multiple k Q : rnd Q = Q -> (Z.abs k <= 2)%Z -> rnd (IZR k * Q)%R = (IZR k * Q)%R.
Proof.
  intros HQ Hk. assert (Ck : (k = -2 \/ k = 2 \/ (k = -1 \/ k = 0 \/ k = 1))%Z) by lia. destruct Ck as [ -> | [ -> | Ck ] ].
  3: { rewrite rnd_signed by exact Ck. rewrite HQ. reflexivity. }
  all: assert (F2 : rnd (Q * 2) = (Q * 2)%R).
  1,3: apply round_generic; [apply valid_rnd_N|]; apply (fmt_scale Q 1); [lia|]; rewrite <- HQ; apply generic_format_round; [apply fexp_correct; exact prec53|apply valid_rnd_N].
  - replace (IZR (-2) * Q)%R with (- (Q * 2))%R by lra. rewrite rnd_opp, F2. reflexivity.
  - replace (IZR 2 * Q)%R with (Q * 2)%R by lra. exact F2.
Qed.

(** Equal parts with signs that cancel leave nothing, in any of these sums. *)
Lemma cancel4 (a b c d q : b64) P i j k l : upto 200 a -> upto 200 b -> upto 200 c -> upto 200 d -> upto 200 q ->
  (i = -1 \/ i = 0 \/ i = 1)%Z -> (j = -1 \/ j = 0 \/ j = 1)%Z -> (k = -1 \/ k = 0 \/ k = 1)%Z -> (l = -1 \/ l = 0 \/ l = 1)%Z -> (i + j + k + l = 0)%Z ->
  val a = (IZR i * P)%R -> val b = (IZR j * P)%R -> val c = (IZR k * P)%R -> val d = (IZR l * P)%R ->
  nought (a * q + b * q + c * q + d * q).
Proof.
  intros Ua Ub Uc Ud Uq Hi Hj Hk Hl Hsum Ea Eb Ec Ed. set (Q := rnd (P * val q)%R).
  assert (HQ : rnd Q = Q) by (apply round_generic; [apply valid_rnd_N|apply generic_format_round; [apply fexp_correct; exact prec53|apply valid_rnd_N]]).
  assert (M : forall x s, upto 200 x -> (s = -1 \/ s = 0 \/ s = 1)%Z -> val x = (IZR s * P)%R -> upto 400 (x * q) /\ val (x * q) = (IZR s * Q)%R).
  { intros x s Ux Hs Ex. split; [exact (up_mul L 200 200 x q Ux Uq ltac:(lia))|]. rewrite (v_mul 200 200 x q Ux Uq) by lia. rewrite Ex, Rmult_assoc. apply rnd_signed, Hs. }
  assert (A : forall e x y s t, upto e x -> upto e y -> (0 <= e <= 1000)%Z -> val x = (IZR s * Q)%R -> val y = (IZR t * Q)%R -> (Z.abs (s + t) <= 2)%Z ->
    upto (e + 1) (x + y) /\ val (x + y) = (IZR (s + t) * Q)%R).
  { intros e x y s t Ux Uy He Ex Ey Hst. split; [apply (up_add L e); [assumption|assumption|lia]|]. rewrite (v_add e x y Ux Uy) by lia. rewrite Ex, Ey, <- Rmult_plus_distr_r, <- plus_IZR.
    apply rnd_multiple; assumption. }
  destruct (M a i Ua Hi Ea) as [U1 V1]. destruct (M b j Ub Hj Eb) as [U2 V2]. destruct (M c k Uc Hk Ec) as [U3 V3'].
  destruct (M d l Ud Hl Ed) as [U4 V4].
  destruct (A 400%Z _ _ i j U1 U2 ltac:(lia) V1 V2 ltac:(lia)) as [W1 X1].
  destruct (A 401%Z _ _ (i + j)%Z k W1 (up_weak 400 401 _ ltac:(lia) U3) ltac:(lia) X1 V3' ltac:(lia)) as [W2 X2].
  destruct (A 402%Z _ _ (i + j + k)%Z l W2 (up_weak 400 402 _ ltac:(lia) U4) ltac:(lia) X2 V4 ltac:(lia)) as [W3 X3].
  split; [apply (up_fin 403), W3|]. rewrite X3. rewrite Hsum. apply Rmult_0_l.
Qed.
Lemma cancel0 (a b c d q : b64) : nought a -> nought b -> nought c -> nought d -> fin q -> nought (a * q + b * q + c * q + d * q).
Proof. intros. apply n_add; [apply n_add; [apply n_add|]|]; apply n_mul_l; assumption. Qed.

(** ** The columns of an upright rotor *)
Definition mk (kf kt mn mx tau J : b64) d px py : Motor b64 := mkMotor d kf kt mI (mkV px py zero) mn mx tau J.
Definition up_force (kf : b64) : b64 := zero * zero + zero * zero + one * kf.
Lemma up_force_val kf : fin kf -> fin (up_force kf) /\ val (up_force kf) = val kf.
Proof.
  intros F. destruct (k_one kf F) as [F1 V1]. assert (N : nought (zero * zero + zero * zero)) by (apply n_add; apply n_mul_l; (apply n_zero || reflexivity)).
  destruct (k_add_l _ _ N F1) as [F2 V2]. split; [exact F2|]. unfold up_force. rewrite V2. exact V1.
Qed.
Lemma mI_v k : fin k -> nought (vx (mmulv mI (mkV zero zero k))) /\ nought (vy (mmulv mI (mkV zero zero k))) /\
  fin (vz (mmulv mI (mkV zero zero k))) /\ val (vz (mmulv mI (mkV zero zero k))) = val k.
Proof.
  intros F. assert (Z0 : nought (zero * zero)) by (apply n_mul_l; (apply n_zero || reflexivity)).
  assert (O0 : nought (one * zero)) by (apply n_mul_r; [reflexivity|apply n_zero]). assert (ZK : nought (zero * k)) by (apply n_mul_l; [apply n_zero|exact F]).
  cbn [mmulv mI mdiag vx vy vz m00 m01 m02 m10 m11 m12 m20 m21 m22].
  split; [apply n_add; [apply n_add; assumption|exact ZK]|]. split; [apply n_add; [apply n_add; assumption|exact ZK]|].
  exact (up_force_val k F).
Qed.
Lemma dir_mul d k : (d = 1 \/ d = -1)%Z -> fin k -> fin (ofZ d * k) /\ val (ofZ d * k) = (IZR d * val k)%R.
Proof.
  intros Hd F. assert (Vd : val (ofZ d) = IZR d /\ fin (ofZ d)).
  { destruct Hd as [ -> | -> ]; split; try reflexivity; [exact val_one|]. change (ofZ (-1)) with (b64_ofZ (-1)).
    assert (E : B2SF (b64_ofZ (-1)) = SpecFloat.S754_finite true 4503599627370496 (-52)) by (vm_compute; reflexivity).
    unfold val. rewrite <- SF2R_B2SF, E. cbn [SF2R cond_Zopp Z.opp]. unfold F2R. cbn [Fnum Fexp Z.opp].
    change (bpow radix2 (-52)) with (/ IZR (Z.pow_pos 2 52)). replace (IZR (Z.pow_pos 2 52)) with 4503599627370496 by (f_equal; reflexivity). lra. }
  destruct Vd as [Vd Fd]. pose proof (Bmult_correct 53 1024 _ _ mode_NE (ofZ d) k) as C. change (B2R (ofZ d)) with (val (ofZ d)) in C. change (B2R k) with (val k) in C.
  rewrite Vd in C. rewrite rnd_signed, rnd_val in C by lia.
  assert (T : Rlt_bool (Rabs (IZR d * val k)) (bpow radix2 1024) = true).
  { destruct Hd as [ -> | -> ]; [rewrite Rmult_1_l|replace (IZR (-1) * val k)%R with (- val k)%R by lra; rewrite Rabs_Ropp]; apply below_top. }
  rewrite T in C. destruct C as (C & Fm & _). split; [|exact C]. eapply eq_trans; [exact Fm|]. apply andb_true_iff. split; [exact Fd|exact F].
Qed.
Lemma fcol_exact kf kt mn mx tau J d px py : fin kf ->
  nought (vx (fst (mixer6_col (mk kf kt mn mx tau J d px py)))) /\ nought (vy (fst (mixer6_col (mk kf kt mn mx tau J d px py)))).
Proof. intros F. destruct (mI_v kf F) as (A & B & _). split; [exact A|exact B]. Qed.
Lemma tcol_exact kf kt mn mx tau J d px py : upto 64 kf -> fin kt -> (d = 1 \/ d = -1)%Z -> upto 64 px -> upto 64 py ->
  let c := snd (mixer6_col (mk kf kt mn mx tau J d px py)) in
  val (vx c) = val (py * up_force kf) /\ val (vy c) = (- val (px * up_force kf)%sc)%R /\ val (vz c) = (IZR d * val kt)%R.
Proof.
  intros Uf Ft Hd Ux Uy. cbv zeta. pose proof (up_fin _ _ Uf) as Ff. destruct (mI_v kf Ff) as (A & B & _ & _). destruct (dir_mul d kt Hd Ft) as [Fd Vd]. destruct (mI_v _ Fd) as (A' & B' & C' & D').
  destruct (up_force_val kf Ff) as [Fu Vu]. assert (Uu : upto 64 (up_force kf)) by (split; [exact Fu|rewrite Vu; apply Uf]).
  pose proof (up_fin _ _ (up_mul L 64 64 py _ Uy Uu ltac:(lia))) as Fy. pose proof (up_fin _ _ (up_mul L 64 64 px _ Ux Uu ltac:(lia))) as Fx.
  unfold mixer6_col, mk. cbn [mt_rot mt_pos mt_kf mt_kt mt_dir snd]. unfold vadd, vmap2, vcross. cbn [vx vy vz].
  change (vz (mmulv mI (mkV zero zero kf))) with (up_force kf).
  assert (N1 : nought (zero * vy (mmulv mI (mkV zero zero kf)))) by (apply n_mul_r; [reflexivity|exact B]).
  assert (N2 : nought (zero * vx (mmulv mI (mkV zero zero kf)))) by (apply n_mul_r; [reflexivity|exact A]).
  assert (N3 : nought (px * vy (mmulv mI (mkV zero zero kf)) - py * vx (mmulv mI (mkV zero zero kf)))) by (apply n_sub; apply n_mul_r; (assumption || (eapply up_fin; eassumption))).
  split; [|split].
  - destruct (k_sub _ _ Fy N1) as [F1 V1]. destruct (k_add _ _ F1 A') as [_ V2]. exact (eq_trans V2 V1).
  - destruct (k_sub_l _ _ N2 Fx) as [F1 V1]. destruct (k_add _ _ F1 B') as [_ V2]. exact (eq_trans V2 V1).
  - destruct (k_add_l _ _ N3 C') as [_ V2]. exact (eq_trans V2 (eq_trans D' Vd)).
Qed.
Lemma icol_exact kf kt mn mx tau J d px py : fin J -> (d = 1 \/ d = -1)%Z ->
  let c := inertia_col (mk kf kt mn mx tau J d px py) in nought (vx c) /\ nought (vy c) /\ val (vz c) = (IZR d * val J)%R.
Proof.
  intros F Hd. cbv zeta. destruct (dir_mul d J Hd F) as [Fd Vd]. destruct (mI_v _ Fd) as (A & B & C & D). split; [exact A|]. split; [exact B|].
  change (inertia_col (mk kf kt mn mx tau J d px py)) with (mmulv mI (mkV zero zero (ofZ d * J))). exact (eq_trans D Vd).
Qed.
Lemma neg_val (x : b64) : val (neg x) = (- val x)%R.
Proof. unfold val. cbn. apply B2R_Bopp. Qed.
Lemma neg_mul (x y : b64) : upto 64 x -> upto 64 y -> val (neg x * y) = (- val (x * y)%sc)%R.
Proof.
  intros Ux Uy. assert (Un : upto 64 (neg x)) by exact (up_neg L 64 x Ux). rewrite (v_mul 64 64 (neg x) y Un Uy) by lia. rewrite (v_mul 64 64 x y Ux Uy) by lia. rewrite neg_val.
  replace (- val x * val y)%R with (- (val x * val y))%R by ring. apply rnd_opp.
Qed.

(** ** Forces and torques of four rotors at one speed *)
Lemma colsmul4 (c1 c2 c3 c4 : V3 b64) q : colsmul [c1;c2;c3;c4] [q;q;q;q] =
  mkV (vx c1 * q + vx c2 * q + vx c3 * q + vx c4 * q) (vy c1 * q + vy c2 * q + vy c3 * q + vy c4 * q) (vz c1 * q + vz c2 * q + vz c3 * q + vz c4 * q).
Proof. reflexivity. Qed.

Definition quad_of (plus : bool) (kf kt x y mn mx tau J : b64) : list (Motor b64) := if plus then quad_plus kf kt x y mn mx tau J else quad_x kf kt x y mn mx tau J.
Lemma quad_of_mk plus kf kt x y mn mx tau J : exists x1 y1 x2 y2 x3 y3 x4 y4, quad_of plus kf kt x y mn mx tau J =
  [mk kf kt mn mx tau J 1 x1 y1; mk kf kt mn mx tau J (-1) x2 y2; mk kf kt mn mx tau J 1 x3 y3; mk kf kt mn mx tau J (-1) x4 y4].
Proof. destruct plus; do 8 eexists; reflexivity. Qed.

Lemma wrench_exact plus kf kt x y mn mx tau J q al : upto 64 kf -> upto 64 kt -> upto 64 x -> upto 64 y -> upto 64 J -> upto 200 q -> upto 200 al ->
  let ms := quad_of plus kf kt x y mn mx tau J in
  (forall m, In m ms -> reasonable_motor m) ->
  nought (vx (colsmul (map (fun m => fst (mixer6_col m)) ms) [q;q;q;q])) /\ nought (vy (colsmul (map (fun m => fst (mixer6_col m)) ms) [q;q;q;q])) /\
  (let t := colsmul (map (fun m => snd (mixer6_col m)) ms) [q;q;q;q] in nought (vx t) /\ nought (vy t) /\ nought (vz t)) /\
  (let t := colsmul (map inertia_col ms) [al;al;al;al] in nought (vx t) /\ nought (vy t) /\ nought (vz t)).
Proof.
  intros Uf Ut Ux Uy UJ Uq Ual ms HM. pose proof (up_fin _ _ Uf) as Ff. pose proof (up_fin _ _ Ut) as Ft. pose proof (up_fin _ _ UJ) as FJ.
  assert (Unx : upto 64 (neg x)) by exact (up_neg L 64 x Ux). assert (Uny : upto 64 (neg y)) by exact (up_neg L 64 y Uy). assert (U0 : upto 64 zero) by (apply n_up, n_zero).
  destruct (up_force_val kf Ff) as [Fu Vu]. assert (Uu : upto 64 (up_force kf)) by (split; [exact Fu|rewrite Vu; apply Uf]).
  assert (Cc : forall m, In m ms -> upto3 200 (snd (mixer6_col m)) /\ upto3 200 (inertia_col m)).
  { intros m Hm. pose proof (HM m Hm) as Rm. split; [apply (up3_weak 196); [lia|]; apply (tcol_up L), Rm|apply (up3_weak 131); [lia|]; apply (icol_up L), Rm]. }
  assert (D1 : (1 = 1 \/ 1 = -1)%Z) by lia. assert (D2 : (-1 = 1 \/ -1 = -1)%Z) by lia.
  assert (Z0 : val (zero * up_force kf) = 0%R) by apply (n_mul_l zero (up_force kf) n_zero Fu).
  pose proof (neg_mul x (up_force kf) Ux Uu) as Nx. pose proof (neg_mul y (up_force kf) Uy Uu) as Ny.
  assert (S : forall s : Z, (s = -1 \/ s = 0 \/ s = 1)%Z -> (s = -1 \/ s = 0 \/ s = 1)%Z) by (intros s Hs; exact Hs).
  assert (TC : forall m, In m ms -> True) by (intros; exact I). clear TC S.
  destruct plus; unfold ms, quad_of, quad_x, quad_plus in *; cbn [map] in *.
  all: rewrite !colsmul4; cbn [vx vy vz].
  all: match type of HM with forall m, In m [?m1; ?m2; ?m3; ?m4] -> _ =>
    destruct (Cc m1 ltac:(cbn; tauto)) as [(Ta1 & Tb1 & Tc1) (Ia1 & Ib1 & Ic1)]; destruct (Cc m2 ltac:(cbn; tauto)) as [(Ta2 & Tb2 & Tc2) (Ia2 & Ib2 & Ic2)];
    destruct (Cc m3 ltac:(cbn; tauto)) as [(Ta3 & Tb3 & Tc3) (Ia3 & Ib3 & Ic3)]; destruct (Cc m4 ltac:(cbn; tauto)) as [(Ta4 & Tb4 & Tc4) (Ia4 & Ib4 & Ic4)] end.
  - destruct (tcol_exact kf kt mn mx tau J 1 x zero Uf Ft D1 Ux U0) as (A1 & B1 & C1). destruct (tcol_exact kf kt mn mx tau J (-1) zero y Uf Ft D2 U0 Uy) as (A2 & B2 & C2).
    destruct (tcol_exact kf kt mn mx tau J 1 (neg x) zero Uf Ft D1 Unx U0) as (A3 & B3 & C3). destruct (tcol_exact kf kt mn mx tau J (-1) zero (neg y) Uf Ft D2 U0 Uny) as (A4 & B4 & C4).
    split; [apply cancel0; try apply fcol_exact; try assumption; apply (up_fin 200), Uq|]. split; [apply cancel0; try apply fcol_exact; try assumption; apply (up_fin 200), Uq|]. split.
    + split; [|split].
      * apply (cancel4 _ _ _ _ q (val (y * up_force kf)) 0 1 0 (-1)); try assumption; try lia; unfold mk in *; first [rewrite A1|rewrite A2|rewrite A3|rewrite A4]; rewrite ?Z0, ?Ny; lra.
      * apply (cancel4 _ _ _ _ q (val (x * up_force kf)) (-1) 0 1 0); try assumption; try lia; unfold mk in *; first [rewrite B1|rewrite B2|rewrite B3|rewrite B4]; rewrite ?Z0, ?Nx; lra.
      * apply (cancel4 _ _ _ _ q (val kt) 1 (-1) 1 (-1)); try assumption; try lia.
    + destruct (icol_exact kf kt mn mx tau J 1 x zero FJ D1) as (P1 & Q1 & R1). destruct (icol_exact kf kt mn mx tau J (-1) zero y FJ D2) as (P2 & Q2 & R2).
      destruct (icol_exact kf kt mn mx tau J 1 (neg x) zero FJ D1) as (P3 & Q3 & R3). destruct (icol_exact kf kt mn mx tau J (-1) zero (neg y) FJ D2) as (P4 & Q4 & R4).
      split; [apply cancel0; try assumption; apply (up_fin 200), Ual|]. split; [apply cancel0; try assumption; apply (up_fin 200), Ual|].
      apply (cancel4 _ _ _ _ al (val J) 1 (-1) 1 (-1)); try assumption; try lia.
  - destruct (tcol_exact kf kt mn mx tau J 1 x (neg y) Uf Ft D1 Ux Uny) as (A1 & B1 & C1). destruct (tcol_exact kf kt mn mx tau J (-1) x y Uf Ft D2 Ux Uy) as (A2 & B2 & C2).
    destruct (tcol_exact kf kt mn mx tau J 1 (neg x) y Uf Ft D1 Unx Uy) as (A3 & B3 & C3). destruct (tcol_exact kf kt mn mx tau J (-1) (neg x) (neg y) Uf Ft D2 Unx Uny) as (A4 & B4 & C4).
    split; [apply cancel0; try apply fcol_exact; try assumption; apply (up_fin 200), Uq|]. split; [apply cancel0; try apply fcol_exact; try assumption; apply (up_fin 200), Uq|]. split.
    + split; [|split].
      * apply (cancel4 _ _ _ _ q (val (y * up_force kf)) (-1) 1 1 (-1)); try assumption; try lia; unfold mk in *; first [rewrite A1|rewrite A2|rewrite A3|rewrite A4]; rewrite ?Z0, ?Ny; lra.
      * apply (cancel4 _ _ _ _ q (val (x * up_force kf)) (-1) (-1) 1 1); try assumption; try lia; unfold mk in *; first [rewrite B1|rewrite B2|rewrite B3|rewrite B4]; rewrite ?Z0, ?Nx; lra.
      * apply (cancel4 _ _ _ _ q (val kt) 1 (-1) 1 (-1)); try assumption; try lia.
    + destruct (icol_exact kf kt mn mx tau J 1 x (neg y) FJ D1) as (P1 & Q1 & R1). destruct (icol_exact kf kt mn mx tau J (-1) x y FJ D2) as (P2 & Q2 & R2).
      destruct (icol_exact kf kt mn mx tau J 1 (neg x) y FJ D1) as (P3 & Q3 & R3). destruct (icol_exact kf kt mn mx tau J (-1) (neg x) (neg y) FJ D2) as (P4 & Q4 & R4).
      split; [apply cancel0; try assumption; apply (up_fin 200), Ual|]. split; [apply cancel0; try assumption; apply (up_fin 200), Ual|].
      apply (cancel4 _ _ _ _ al (val J) 1 (-1) 1 (-1)); try assumption; try lia.
Qed.
End Exact.
