(** The orientation stays a unit quaternion in binary64, along runs. *)

From Coq Require Import ZArith Bool List Reals Lra Lia Psatz.
From Flocq Require Import Core BinarySingleNaN.
From Flocq Require Import Mult_error.
From Verif Require Import Scalar Float64 LinAlg MUtils MModel MDynamics MImu SpecDyn SpecRun SpecRound PBase PFloat PRound PQuat64 PDyn.
Import ListNotations.
Local Open Scope R_scope.

(** ** The dynamics *)
Lemma leb_pos L (x : b64) : let O := F64Ops L in fin x -> 0 < val x -> leb x zero = false.
Proof.
  intros O Fx Px. change (Bleb x (b64_ofZ 0) = false). rewrite Bleb_correct by (exact Fx || reflexivity).
  apply Rle_bool_false. exact Px.
Qed.
Lemma dtmax_val L : let O := F64Ops L in fin dtmax /\ 0 < val dtmax <= 1.
Proof.
  intros O. destruct b64_dtmax_pos as [P F]. split; [exact F|]. split; [exact P|].
  change (val b64_dtmax <= 1).
  assert (H : Bleb b64_dtmax (b64_ofZ 1) = true) by (vm_compute; reflexivity).
  rewrite Bleb_correct in H by (exact F || reflexivity).
  destruct (Rle_bool_spec (B2R b64_dtmax) (B2R (b64_ofZ 1))) as [H'|]; [|discriminate].
  eapply Rle_trans; [exact H'|].
  assert (E1 : B2SF (b64_ofZ 1) = SpecFloat.S754_finite false 4503599627370496 (-52)) by (vm_compute; reflexivity).
  rewrite <- SF2R_B2SF, E1. cbn [SF2R cond_Zopp]. unfold F2R. cbn [Fnum Fexp].
  change (bpow radix2 (-52)) with (/ IZR (Z.pow_pos 2 52)). replace (IZR (Z.pow_pos 2 52)) with 4503599627370496 by (f_equal; reflexivity). lra.
Qed.

Lemma core_unit L {G : Gen b64} (d d' : Dyn b64 G) act dt ext noise : let O := F64Ops L in
  unit_within (1/2) (s_ori (d_state d)) -> rates_below bigw (s_angvel (d_state d)) -> fin dt -> 0 < val dt <= 1 ->
  euler_core d act dt ext noise = Some d' -> unit_within (16 * uu) (s_ori (d_state d')).
Proof.
  intros O Hu Hr Fd Hd H. apply euler_core_inv in H as [[c Hc] Hi].
  destruct (Hi c Hc) as (mo & des & macc & mvel & _ & _ & _ & _ & _ & ->). cbn [d_state s_ori].
  exact (integrate64 L _ _ dt Hu Hr Fd Hd).
Qed.
Lemma within_weak q : unit_within (16 * uu) q -> unit_within (1/2) q.
Proof. intros [F H]. split; [exact F|]. lra. Qed.

(** The sub-steps of a long call. *)
Lemma oiter_S {A} k (f : A -> outcome A) a x y : oiter k f a = Ok x -> f x = Ok y -> oiter (S k) f a = Ok y.
Proof.
  revert a. induction k as [|k IH]; intros a H E; cbn [oiter] in *.
  - injection H as ->. rewrite E. reflexivity.
  - destruct (f a) as [z|z|]; try discriminate. apply (IH z H E).
Qed.

Section Long.
Context {T : Type} {O : Ops T} {G : Gen T}.
Lemma process_at_max (S : Sane O) (x y : Dyn T G) act ext noise : euler_core x act dtmax ext noise = Some y -> process x act dtmax ext noise = Ok y.
Proof. intros E. unfold process. rewrite (sane_dtmax _ S), (sane_irrefl _ S), E. reflexivity. Qed.
Lemma process_short (d d' : Dyn T G) act dt ext noise : leb dt zero = false -> ltb dtmax dt = false ->
  process d act dt ext noise = Ok d' -> euler_core d act dt ext noise = Some d'.
Proof.
  intros A B H. unfold process in H. rewrite A, B in H.
  destruct (euler_core d act dt ext noise) as [y|]; cbn [of_opt] in H; [|discriminate]. injection H as <-. reflexivity.
Qed.
Lemma process_long (S : Sane O) (I0 P : Dyn T G -> Prop) (d : Dyn T G) act dt ext noise (d' : Dyn T G) :
  ltb dtmax dt = true -> I0 d ->
  (forall x y, I0 x -> euler_core x act dtmax ext noise = Some y -> I0 y /\ P y) ->
  process d act dt ext noise = Ok d' -> P d'.
Proof.
  intros Edt Hd Hs H. unfold process in H.
  destruct (leb dt zero); [discriminate|]. rewrite Edt in H.
  assert (A : match for_int (div dt dtmax) (euler_sub act ext noise) d with
                | Ok y => I0 y /\ P y | Throw _ => True | UB => True end).
  { rewrite for_int_nloop.
    destruct (Pos2Nat.is_succ (2 ^ 31)) as [k ->]. cbn [nloop fstep].
    rewrite (sane_quot _ S dt Edt).
    assert (B : forall x, I0 x -> match euler_sub act ext noise x with
                  | Ok y => I0 y /\ P y | Throw _ => True | UB => True end).
    { intros x Hx. rewrite (euler_sub_eq S).
      destruct (euler_core x act dtmax ext noise) as [y|] eqn:E; cbn [of_opt]; [|exact I]. apply (Hs x y Hx E). }
    pose proof (B d Hd) as Bd.
    destruct (euler_sub act ext noise d) as [y|y|]; [|exact I|exact I].
    destruct (Z.eqb 0 int_max); [exact I|].
    pose proof (fstep_inv (fun z => I0 z /\ P z) (fun _ => True) (div dt dtmax)
                   (euler_sub act ext noise) (fun x Hx => B x (proj1 Hx)) k (Z.succ 0) y Bd) as F.
    destruct (nloop _ _ _) as [[j z]|r]; [exact I|]. destruct r; exact F || exact I. }
  rewrite H in A. exact (proj2 A).
Qed.
End Long.

Lemma process_unit L {G : Gen b64} (d d' : Dyn b64 G) (c : Call b64) : let O := F64Ops L in
  unit_within (1/2) (s_ori (d_state d)) -> fin (k_dt c) -> 0 < val (k_dt c) -> rates_stay L d c ->
  process d (k_act c) (k_dt c) (k_ext c) (k_noise c) = Ok d' -> unit_within (16 * uu) (s_ori (d_state d')).
Proof.
  intros O Hu Fd Pd [Hr Hl] H. destruct c as [act dt ext noise]. cbn [k_act k_dt k_ext k_noise] in *.
  destruct (dtmax_val L) as [Fm Vm]. fold O in Fm, Vm.
  pose proof (F64_sane L) as SA. fold O in SA.
  pose proof (leb_pos L dt Fd Pd) as LP. fold O in LP.
  destruct (@ltb _ O (@dtmax _ O) dt) eqn:Edt.
  - specialize (Hl Edt).
    refine (process_long SA (fun x => (exists k, oiter k (fun y => process y act dtmax ext noise) d = Ok x) /\ unit_within (1/2) (s_ori (d_state x)))
      (fun x => unit_within (16 * uu) (s_ori (d_state x))) d act dt ext noise d' Edt (conj (ex_intro _ 0%nat eq_refl) Hu) _ H).
    intros x y [[k Hk] Hx] E. pose proof (core_unit L x y act dtmax ext noise Hx (Hl k x Hk) Fm Vm E) as U.
    split; [|exact U]. split; [|apply within_weak; exact U]. exists (S k). apply (oiter_S k _ d x y Hk). apply (process_at_max SA). exact E.
  - apply (process_short _ _ _ _ _ _ LP Edt) in H.
    refine (core_unit L d d' act dt ext noise Hu Hr Fd _ H). split; [exact Pd|].
    eapply Rle_trans; [|apply Vm].
    change (Bltb (@dtmax _ O) dt = false) in Edt. rewrite Bltb_correct in Edt by assumption.
    destruct (Rlt_bool_spec (B2R (@dtmax _ O)) (B2R dt)) as [|A]; [discriminate|exact A].
Qed.

Lemma run_unit L {G : Gen b64} (l : list (Call b64)) : forall (d d' : Dyn b64 G), let O := F64Ops L in
  unit_within (1/2) (s_ori (d_state d)) -> tame L d l -> dyn_run d l = Some d' ->
  (l <> [] -> unit_within (16 * uu) (s_ori (d_state d'))) /\ unit_within (1/2) (s_ori (d_state d')).
Proof.
  induction l as [|c r IH]; intros d d' O Hu Ht H; cbn [dyn_run tame] in *.
  - injection H as <-. split; [intros N; exfalso; apply N; reflexivity|exact Hu].
  - destruct Ht as (Fd & Pd & Hr & Ht). fold O in Ht.
    destruct (process d (k_act c) (k_dt c) (k_ext c) (k_noise c)) as [y|y|] eqn:E; [| |discriminate].
    + pose proof (process_unit L d y c Hu Fd Pd Hr E) as U.
      destruct (IH y d' (within_weak _ U) Ht H) as [A B]. split; [intros _|exact B].
      destruct r as [|c2 r]; [|apply A; discriminate]. cbn [dyn_run] in H. injection H as <-. exact U.
    + exfalso. apply (process_throw_only (F64_sane L)) in E as [E _]. pose proof (leb_pos L _ Fd Pd) as LP. congruence.
Qed.

(** ** The complementary filter of the odometry never exceeds a power of two that bounds its inputs *)
Notation fmt := (generic_format radix2 (SpecFloat.fexp 53 1024)).
Lemma fmt_val (x : b64) : fmt (val x).
Proof. apply generic_format_B2R. Qed.
Lemma fmt_pow e : (-1074 <= e <= 1000)%Z -> fmt (bpow radix2 e).
Proof. intros He. apply generic_format_bpow. cbn. unfold SpecFloat.fexp, SpecFloat.emin. lia. Qed.
Lemma fmt_scale x e : (0 <= e)%Z -> fmt x -> fmt (x * bpow radix2 e).
Proof. intros He Fx. apply (mult_bpow_pos_exact_FLT radix2 (-1074) 53); [exact Fx|exact He]. Qed.

Lemma val_one : val (b64_ofZ 1) = 1.
Proof.
  assert (E1 : B2SF (b64_ofZ 1) = SpecFloat.S754_finite false 4503599627370496 (-52)) by (vm_compute; reflexivity).
  unfold val. rewrite <- SF2R_B2SF, E1. cbn [SF2R cond_Zopp]. unfold F2R. cbn [Fnum Fexp].
  change (bpow radix2 (-52)) with (/ IZR (Z.pow_pos 2 52)). replace (IZR (Z.pow_pos 2 52)) with 4503599627370496 by (f_equal; reflexivity). lra.
Qed.

(** 1 - alpha, rounded. *)
Lemma rnd_compl x : 0 <= x <= 1 -> 0 <= rnd x <= 1 /\ rnd x <= x + / 2 * bpow radix2 (-53).
Proof.
  intros Hx. pose proof (bpow_gt_0 radix2 (-53)) as BP.
  assert (V : Valid_exp (SpecFloat.fexp 53 1024)) by (apply fexp_correct; exact prec53).
  assert (N : Valid_rnd (round_mode mode_NE)) by apply valid_rnd_N.
  assert (B : 0 <= rnd x <= 1).
  { split.
    - apply round_ge_generic; [exact V|exact N|apply generic_format_0|apply Hx].
    - apply round_le_generic; [exact V|exact N|change 1 with (bpow radix2 0); apply fmt_pow; lia|apply Hx]. }
  split; [exact B|].
  destruct (Rle_lt_or_eq_dec x 1 (proj2 Hx)) as [Lt|E1]; [|subst x; lra].
  destruct (Rle_lt_or_eq_dec 0 x (proj1 Hx)) as [Gt|E0].
  - pose proof (error_le_half_ulp radix2 (SpecFloat.fexp 53 1024) (fun z => negb (Z.even z)) x) as E.
    change (Znearest (fun z => negb (Z.even z))) with (round_mode mode_NE) in E.
    rewrite ulp_neq_0 in E by lra. unfold cexp in E.
    assert (M : (mag radix2 x <= 0)%Z) by (apply mag_le_bpow; [lra|rewrite Rabs_right by lra; exact Lt]).
    assert (C : (SpecFloat.fexp 53 1024 (mag radix2 x) <= -53)%Z) by (unfold SpecFloat.fexp, SpecFloat.emin; lia).
    apply (bpow_le radix2) in C. apply Rabs_le_inv in E. lra.
  - subst x. rewrite round_0 by exact N. lra.
Qed.

Lemma mix_le a p e : (0 <= e <= 900)%Z -> 0 <= a <= 1 -> Rabs p <= (a + rnd (1 - a)) * bpow radix2 e -> Rabs (rnd p) <= bpow radix2 e.
Proof.
  intros He Ha Hp. pose proof (bpow_gt_0 radix2 e) as BE.
  assert (V : Valid_exp (SpecFloat.fexp 53 1024)) by (apply fexp_correct; exact prec53).
  assert (N : Valid_rnd (round_mode mode_NE)) by apply valid_rnd_N.
  destruct (rnd_compl (1 - a) ltac:(lra)) as [_ C].
  assert (Hq : Rabs p <= (1 + / 2 * bpow radix2 (-53)) * bpow radix2 e).
  { eapply Rle_trans; [exact Hp|]. apply Rmult_le_compat_r; lra. }
  assert (SU : succ radix2 (SpecFloat.fexp 53 1024) (bpow radix2 e) = bpow radix2 e + 2 * (bpow radix2 (-53) * bpow radix2 e)).
  { rewrite succ_eq_pos by lra. rewrite ulp_bpow. f_equal. rewrite <- bpow_plus.
    change 2 with (bpow radix2 1). rewrite <- bpow_plus. f_equal. unfold SpecFloat.fexp, SpecFloat.emin. lia. }
  pose proof (bpow_gt_0 radix2 (-53)) as BP. pose proof (Rmult_lt_0_compat _ _ BP BE) as BB.
  assert (UP : forall v, v <= (1 + / 2 * bpow radix2 (-53)) * bpow radix2 e -> rnd v <= bpow radix2 e).
  { intros v Hv. apply (round_N_le_midp radix2 (SpecFloat.fexp 53 1024) (fun z => negb (Z.even z))).
    - apply fmt_pow. lia.
    - rewrite SU. lra. }
  apply Rabs_le_inv in Hq. apply Rabs_le. split.
  - rewrite <- (Ropp_involutive p). change (round_mode mode_NE) with ZnearestE. rewrite round_NE_opp. apply Ropp_le_contravar. change ZnearestE with (round_mode mode_NE). apply UP. lra.
  - apply UP. lra.
Qed.

Lemma rnd_scaled a x e : (0 <= e <= 900)%Z -> fmt a -> 0 <= a <= 1 -> Rabs x <= bpow radix2 e -> Rabs (rnd (a * x)) <= a * bpow radix2 e.
Proof.
  intros He Fa Ha Hx. apply abs_round_le_generic; [apply fexp_correct; exact prec53|apply valid_rnd_N|apply fmt_scale; [lia|exact Fa]|].
  rewrite Rabs_mult, (Rabs_right a) by lra. apply Rmult_le_compat_l; lra.
Qed.
Lemma pow_huge e : (0 <= e <= 900)%Z -> bpow radix2 e <= huge / 4.
Proof.
  intros He. replace (huge / 4) with (bpow radix2 998).
  - apply bpow_le. lia.
  - unfold huge. change 1000%Z with (998 + 2)%Z. rewrite bpow_plus. change (bpow radix2 2) with 4. field.
Qed.

Lemma filt64 L (al new old : b64) e : let O := F64Ops L in (0 <= e <= 900)%Z -> fin al -> 0 <= val al <= 1 ->
  fin new -> fin old -> Rabs (val new) <= bpow radix2 e -> Rabs (val old) <= bpow radix2 e ->
  fin (add (mul al new) (mul (sub one al) old)) /\ Rabs (val (add (mul al new) (mul (sub one al) old))) <= bpow radix2 e.
Proof.
  intros O He Fa Ha Fn Fo Hn Ho. pose proof (pow_huge e He) as PH. pose proof (bpow_gt_0 radix2 e) as BE. pose proof huge_big as HB.
  change (add (mul al new) (mul (sub one al) old)) with (Bplus mode_NE (Bmult mode_NE al new) (Bmult mode_NE (Bminus mode_NE (b64_ofZ 1) al) old)).
  (* beta *)
  pose proof (Bminus_correct 53 1024 _ _ mode_NE (b64_ofZ 1) al ltac:(reflexivity) Fa) as C.
  change (B2R (b64_ofZ 1)) with (val (b64_ofZ 1)) in C. rewrite val_one in C. change (B2R al) with (val al) in C.
  rewrite (rnd_big (1 - val al)) in C by (apply Rabs_le; lra). destruct C as (Vb & Fb & _).
  set (be := Bminus mode_NE (b64_ofZ 1) al) in *. change (B2R be) with (val be) in Vb.
  destruct (rnd_compl (1 - val al) ltac:(lra)) as [Hb _]. rewrite <- Vb in Hb.
  (* products *)
  assert (M1 : Rabs (val al * val new) <= bpow radix2 e).
  { rewrite Rabs_mult, (Rabs_right (val al)) by lra. rewrite <- (Rmult_1_l (bpow radix2 e)). apply Rmult_le_compat; try lra. apply Rabs_pos. }
  assert (M2 : Rabs (val be * val old) <= bpow radix2 e).
  { rewrite Rabs_mult, (Rabs_right (val be)) by lra. rewrite <- (Rmult_1_l (bpow radix2 e)). apply Rmult_le_compat; try lra. apply Rabs_pos. }
  pose proof (Bmult_correct 53 1024 _ _ mode_NE al new) as C. change (B2R al) with (val al) in C. change (B2R new) with (val new) in C.
  rewrite (rnd_big (val al * val new)) in C by lra. destruct C as (V1 & F1 & _). rewrite Fa, Fn in F1.
  set (p1 := Bmult mode_NE al new) in *. change (B2R p1) with (val p1) in V1.
  pose proof (Bmult_correct 53 1024 _ _ mode_NE be old) as C. change (B2R be) with (val be) in C. change (B2R old) with (val old) in C.
  rewrite (rnd_big (val be * val old)) in C by lra. destruct C as (V2 & F2 & _). rewrite Fb, Fo in F2.
  set (p2 := Bmult mode_NE be old) in *. change (B2R p2) with (val p2) in V2.
  pose proof (rnd_scaled (val al) (val new) e He (fmt_val al) Ha Hn) as R1. rewrite <- V1 in R1.
  pose proof (rnd_scaled (val be) (val old) e He (fmt_val be) Hb Ho) as R2. rewrite <- V2 in R2.
  assert (S1 : Rabs (val p1 + val p2) <= (val al + rnd (1 - val al)) * bpow radix2 e).
  { rewrite <- Vb. eapply Rle_trans; [apply Rabs_triang|]. lra. }
  assert (S2 : Rabs (val p1 + val p2) <= huge).
  { eapply Rle_trans; [exact S1|]. rewrite <- Vb. apply Rle_trans with (2 * bpow radix2 e); [apply Rmult_le_compat_r; lra|lra]. }
  pose proof (Bplus_correct 53 1024 _ _ mode_NE p1 p2 F1 F2) as C. change (B2R p1) with (val p1) in C. change (B2R p2) with (val p2) in C.
  rewrite (rnd_big _ S2) in C. destruct C as (V3' & F3 & _). split; [exact F3|]. unfold val at 1. rewrite V3'.
  apply (mix_le (val al)); assumption.
Qed.

(** ** Odometry *)
Definition od_good (e : Z) (al : b64) (o : Odom b64) : Prop :=
  od_alpha o = al /\ unit_within (1/2) (od_init o) /\ unit_within (1/2) (od_ori o) /\ comps_below (bpow radix2 e) (od_gyrof o) /\ comps_below (bpow radix2 e) (od_angvel o).

Lemma comps_zero e L : let O := F64Ops L in comps_below (bpow radix2 e) v0.
Proof.
  intros O. pose proof (bpow_gt_0 radix2 e) as B. assert (Rabs (val (b64_ofZ 0)) <= bpow radix2 e) by (rewrite val_zero, Rabs_R0; lra).
  split; [split; [|split]; reflexivity|]. split; [|split]; assumption.
Qed.

Lemma odom_step_good L e al (o : Odom b64) op : let O := F64Ops L in (0 <= e <= 390)%Z -> fin al -> 0 <= val al <= 1 ->
  od_good e al o -> odom_tame (bpow radix2 e) op ->
  od_good e al (odom_step o op) /\ (match op with OUpdate _ _ _ => unit_within (16 * uu) (od_ori (odom_step o op)) | _ => True end).
Proof.
  intros O He Fa Ha (Al & Hi & Ho & Hg & Hw) Hop. pose proof (comps_zero e L) as CZ. fold O in CZ.
  destruct op as [gyro accel dt| |q]; cbn [odom_step odom_tame] in *.
  - destruct Hop as ((Fg & Bx & By & Bz) & Fd & Hd). destruct Hg as (Ff & Cx & Cy & Cz).
    destruct Fg as (Fgx & Fgy & Fgz). destruct Ff as (Ffx & Ffy & Ffz).
    destruct (filt64 L al (vx gyro) (vx (od_gyrof o)) e ltac:(lia) Fa Ha Fgx Ffx Bx Cx) as [Gx Lx].
    destruct (filt64 L al (vy gyro) (vy (od_gyrof o)) e ltac:(lia) Fa Ha Fgy Ffy By Cy) as [Gy Ly].
    destruct (filt64 L al (vz gyro) (vz (od_gyrof o)) e ltac:(lia) Fa Ha Fgz Ffz Bz Cz) as [Gz Lz].
    set (w := od_gyrof (odom_filter o gyro accel)).
    assert (CW : comps_below (bpow radix2 e) w).
    { unfold w, odom_filter. cbn [od_gyrof]. rewrite Al. split; [split; [exact Gx|split; [exact Gy|exact Gz]]|split; [exact Lx|split; [exact Ly|exact Lz]]]. }
    assert (RB : rates_below bigw w).
    { destruct CW as (FW & Wx & Wy & Wz). split; [exact FW|]. unfold bigw.
      assert (E4 : 4 * bpow radix2 e <= bpow radix2 400).
      { change 4 with (bpow radix2 2). rewrite <- bpow_plus. apply bpow_le. lia. }
      pose proof (bpow_gt_0 radix2 e). lra. }
    pose proof (integrate64 L (od_ori o) w dt Ho RB Fd Hd) as U. fold O in U.
    change (unit_within (16 * uu) (od_ori (odom_update o gyro accel dt))) in U. split; [|exact U].
    split; [exact Al|]. split; [exact Hi|]. split; [apply within_weak; exact U|]. split; exact CW.
  - split; [|exact I]. unfold odom_reset. split; [exact Al|]. split; [exact Hi|]. split; [exact Hi|]. split; exact CZ.
  - split; [|exact I]. unfold odom_set_init. split; [exact Al|]. split; [exact Hop|]. split; [exact Hop|]. split; assumption.
Qed.

Lemma odom_run_good L e p (ops : list (OdomOp b64)) : let O := F64Ops L in (0 <= e <= 390)%Z -> fin (odp_alpha p) -> 0 <= val (odp_alpha p) <= 1 ->
  unit_within (1/2) (odp_ori p) -> Forall (odom_tame (bpow radix2 e)) ops -> od_good e (odp_alpha p) (odom_run (odom_new p) ops).
Proof.
  intros O He Fa Ha Hp F.
  assert (G0 : od_good e (odp_alpha p) (odom_new p)).
  { pose proof (comps_zero e L) as CZ. fold O in CZ. split; [reflexivity|]. split; [exact Hp|]. split; [exact Hp|]. split; exact CZ. }
  revert G0. generalize (odom_new p). unfold odom_run. induction F as [|op l Hop Hl IH]; intros o G0; cbn [fold_left]; [exact G0|].
  apply IH. apply (proj1 (odom_step_good L e _ o op He Fa Ha G0 Hop)).
Qed.

Lemma odom_run_unit L e p ops gyro accel dt : let O := F64Ops L in (0 <= e <= 390)%Z -> fin (odp_alpha p) -> 0 <= val (odp_alpha p) <= 1 ->
  unit_within (1/2) (odp_ori p) -> Forall (odom_tame (bpow radix2 e)) ops -> odom_tame (bpow radix2 e) (OUpdate gyro accel dt) ->
  let o := odom_step (odom_run (odom_new p) ops) (OUpdate gyro accel dt) in
  unit_within (16 * uu) (odom_get_orientation o) /\ comps_below (bpow radix2 e) (odom_get_angular_velocity o).
Proof.
  intros O He Fa Ha Hp F Hop o. pose proof (odom_run_good L e p ops He Fa Ha Hp F) as G0. fold O in G0.
  destruct (odom_step_good L e _ _ (OUpdate gyro accel dt) He Fa Ha G0 Hop) as [(_ & _ & _ & _ & W) U]. split; [exact U|exact W].
Qed.

Lemma pow49 : 16 * uu = bpow radix2 (-49).
Proof.
  change (bpow radix2 (-49)) with (/ IZR (Z.pow_pos 2 49)). replace (IZR (Z.pow_pos 2 49)) with 562949953421312 by (f_equal; reflexivity). lra.
Qed.
Lemma run_unit_pow L : let O := F64Ops L in forall (G : Gen b64) (d d' : Dyn b64 G) l,
  unit_within (1/2) (s_ori (d_state d)) -> tame L d l -> l <> [] -> dyn_run d l = Some d' ->
  unit_within (bpow radix2 (-49)) (s_ori (d_state d')).
Proof. intros O G d d' l Hu Ht Hn Hr. rewrite <- pow49. exact (proj1 (run_unit L l d d' Hu Ht Hr) Hn). Qed.
Lemma odom_unit_pow L : let O := F64Ops L in
  forall e p ops gyro accel dt, (0 <= e <= 390)%Z -> fin (odp_alpha p) -> 0 <= val (odp_alpha p) <= 1 ->
  unit_within (1/2) (odp_ori p) -> Forall (odom_tame (bpow radix2 e)) ops -> odom_tame (bpow radix2 e) (OUpdate gyro accel dt) ->
  let o := odom_step (odom_run (odom_new p) ops) (OUpdate gyro accel dt) in
  unit_within (bpow radix2 (-49)) (odom_get_orientation o) /\ comps_below (bpow radix2 e) (odom_get_angular_velocity o).
Proof. intros O. rewrite <- pow49. exact (odom_run_unit L). Qed.
