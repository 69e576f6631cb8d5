(** Drag in binary64. *)

From Coq Require Import ZArith List Bool Lia Reals Lra Psatz.
From Flocq Require Import Core BinarySingleNaN.
From Verif Require Import Scalar Float64 LinAlg MUtils MModel MDynamics SpecDyn SpecRun SpecRound SpecNumber
  PBase PFloat PModel PPhys PDyn PRound PUp PExact PUnit64 PLag.
Import ListNotations.

Section Floats.
Variable L : Libm.
#[local] Instance FO : Ops b64 := F64Ops L.
Local Open Scope sc_scope.

Lemma one_up : upto 0 (one : b64) /\ val (one : b64) = 1%R.
Proof. assert (V : val (one : b64) = 1%R) by exact val_one. split; [|exact V]. split; [vm_compute; reflexivity|]. rewrite V, Rabs_R1. change (bpow radix2 0) with 1%R. lra. Qed.
Lemma mone_up : upto 0 (mone : b64) /\ val (mone : b64) = (-1)%R.
Proof.
  assert (V : val (mone : b64) = (-1)%R).
  { assert (E : B2SF (mone : b64) = SpecFloat.S754_finite true 4503599627370496 (-52)) by (vm_compute; reflexivity).
    unfold val. rewrite <- SF2R_B2SF, E. cbn [SF2R cond_Zopp]. unfold F2R. cbn [Fnum Fexp]. replace (bpow radix2 (-52)) with (/ bpow radix2 52)%R by (rewrite <- bpow_opp; reflexivity). change (bpow radix2 52) with 4503599627370496%R. change (Z.neg 4503599627370496) with (- 4503599627370496)%Z. rewrite opp_IZR. field. }
  split; [|exact V]. split; [vm_compute; reflexivity|]. rewrite V. change (bpow radix2 0) with 1%R. rewrite Rabs_left by lra. lra.
Qed.
Lemma zero_up : upto 0 (zero : b64) /\ val (zero : b64) = 0%R.
Proof. split; [|reflexivity]. split; [reflexivity|]. change (val (zero : b64)) with 0%R. rewrite Rabs_R0. change (bpow radix2 0) with 1%R. lra. Qed.

(** The sign, as a real. *)
Definition sgn (x : R) : R := if Rlt_dec 0 x then 1%R else if Rlt_dec x 0 then (-1)%R else 0%R.
Lemma sign_up (x : b64) : fin x -> upto 0 (signT x) /\ val (signT x) = sgn (val x).
Proof.
  intros F. unfold signT, sgn. destruct zero_up as [Z Vz].
  destruct (ltb zero x) eqn:E1.
  - apply (ltb_val zero x (up_fin _ _ Z) F) in E1. rewrite Vz in E1. destruct (Rlt_dec 0 (val x)); [exact one_up|lra].
  - destruct (Rlt_dec 0 (val x)) as [P|P]; [rewrite <- Vz in P; apply (ltb_val zero x (up_fin _ _ Z) F) in P; change (ltb zero x = true) in P; congruence|].
    destruct (ltb x zero) eqn:E2.
    + apply (ltb_val x zero F (up_fin _ _ Z)) in E2. rewrite Vz in E2. destruct (Rlt_dec (val x) 0); [exact mone_up|lra].
    + destruct (Rlt_dec (val x) 0) as [Q|Q]; [rewrite <- Vz in Q; apply (ltb_val x zero F (up_fin _ _ Z)) in Q; change (ltb x zero = true) in Q; congruence|exact zero_up].
Qed.

Lemma rnd_sgn y x : rnd (y * sgn x) = (rnd y * sgn x)%R.
Proof.
  unfold sgn. destruct (Rlt_dec 0 x); [rewrite !Rmult_1_r; reflexivity|]. destruct (Rlt_dec x 0).
  - replace (y * -1)%R with (- y)%R by ring. rewrite rnd_opp. ring.
  - rewrite !Rmult_0_r. apply rnd_zero.
Qed.
Lemma rnd_of (x : b64) : rnd (val x) = val x.
Proof. apply rnd_fmt. apply generic_format_B2R. Qed.

(** One component. *)
Lemma drag_comp (c x : b64) : upto 64 c -> upto 64 x -> let f := (mone * c) * sqks x in
  fin f /\ val f = (- (rnd (val c * rnd (val x * val x)) * sgn (val x)))%R.
Proof.
  intros Uc Ux f. destruct mone_up as [U1 V1]. destruct (sign_up x (up_fin _ _ Ux)) as [Us Vs].
  assert (Vm : val (mone * c) = (- val c)%R).
  { rewrite (v_mul L 0 64) by (try assumption; lia). rewrite V1. replace (-1 * val c)%R with (- val c)%R by ring. rewrite rnd_opp, rnd_of. reflexivity. }
  assert (Um : upto 64 (mone * c)) by (apply (up_mul L 0 64); [assumption..|lia]).
  assert (Uq : upto 128 (x * x)) by (apply (up_mul L 64 64); [assumption..|lia]).
  assert (Vq : val (x * x) = rnd (val x * val x)) by (apply (v_mul L 64 64); [assumption..|lia]).
  assert (Uk : upto 128 (sqks x)) by (apply (up_mul L 128 0); [assumption..|lia]).
  assert (Vk : val (sqks x) = (rnd (val x * val x) * sgn (val x))%R).
  { unfold sqks. rewrite (v_mul L 128 0) by (try assumption; lia). rewrite Vs, Vq, rnd_sgn, <- Vq, rnd_of. reflexivity. }
  split; [apply (up_fin 192), (up_mul L 64 128); [assumption..|lia]|].
  unfold f. rewrite (v_mul L 64 128) by (try assumption; lia). rewrite Vm, Vk.
  replace (- val c * (rnd (val x * val x) * sgn (val x)))%R with (- (val c * rnd (val x * val x) * sgn (val x)))%R by ring.
  rewrite rnd_opp, rnd_sgn. reflexivity.
Qed.

Lemma drag64 {G : Gen b64} (mo : ModelObj b64 G) p v f : get_params mo = Some p -> upto 64 (p_drag p) -> (0 <= val (p_drag p))%R -> upto3 64 v ->
  get_drag_force mo v = Some f -> forall a, fin (pr a f) /\ (val (pr a f) * val (pr a v) <= 0)%R.
Proof.
  intros P Uc Cp (Ux & Uy & Uz) E a. apply get_params_cfg in P as [c [Hc Hp]]. unfold get_drag_force in E. rewrite Hc in E. cbn [option_map] in E. injection E as <-.
  rewrite Hp. assert (U : upto 64 (pr a v)) by (destruct a; assumption).
  assert (Ea : pr a (drag_force (p_drag p) v) = (mone * p_drag p) * sqks (pr a v)) by (destruct a; reflexivity).
  rewrite Ea. destruct (drag_comp (p_drag p) (pr a v) Uc U) as [F V]. cbv zeta in F, V. split; [exact F|]. rewrite V.
  assert (0 <= rnd (val (p_drag p) * rnd (val (pr a v) * val (pr a v))))%R.
  { apply rnd_pos. apply Rmult_le_pos; [exact Cp|]. apply rnd_pos. apply Rle_0_sqr. }
  unfold sgn. destruct (Rlt_dec 0 (val (pr a v))); [nra|]. destruct (Rlt_dec (val (pr a v)) 0); nra.
Qed.
Lemma drag64_grows {G : Gen b64} (mo : ModelObj b64 G) p v w f g a : get_params mo = Some p -> upto 64 (p_drag p) -> (0 <= val (p_drag p))%R -> upto3 64 v -> upto3 64 w ->
  get_drag_force mo v = Some f -> get_drag_force mo w = Some g -> (Rabs (val (pr a v)) <= Rabs (val (pr a w)))%R -> (Rabs (val (pr a f)) <= Rabs (val (pr a g)))%R.
Proof.
  intros P Uc Cp (Ux & Uy & Uz) (Wx & Wy & Wz) E1 E2 Le. apply get_params_cfg in P as [c [Hc Hp]]. unfold get_drag_force in E1, E2. rewrite Hc in E1, E2. cbn [option_map] in E1, E2. injection E1 as <-. injection E2 as <-.
  rewrite Hp. assert (U : upto 64 (pr a v)) by (destruct a; assumption). assert (W : upto 64 (pr a w)) by (destruct a; assumption).
  assert (Ea : forall u, pr a (drag_force (p_drag p) u) = (mone * p_drag p) * sqks (pr a u)) by (intros u; destruct a; reflexivity).
  rewrite !Ea. destruct (drag_comp (p_drag p) (pr a v) Uc U) as [_ V1]. destruct (drag_comp (p_drag p) (pr a w) Uc W) as [_ V2]. cbv zeta in V1, V2. rewrite V1, V2.
  set (x := val (pr a v)) in *. set (y := val (pr a w)) in *. clearbody x y. rewrite !Rabs_Ropp, !Rabs_mult.
  assert (P0 : forall z, (0 <= rnd (val (p_drag p) * rnd (z * z)))%R) by (intros z; apply rnd_pos, Rmult_le_pos; [exact Cp|apply rnd_pos, Rle_0_sqr]).
  rewrite !(Rabs_pos_eq (rnd _)) by apply P0.
  assert (M : (rnd (val (p_drag p) * rnd (x * x)) <= rnd (val (p_drag p) * rnd (y * y)))%R).
  { apply rnd_le, Rmult_le_compat_l; [exact Cp|]. apply rnd_le. apply Rsqr_le_abs_1 in Le. exact Le. }
  assert (Sg : (Rabs (sgn x) <= Rabs (sgn y))%R \/ y = 0%R).
  { unfold sgn. destruct (Rlt_dec 0 y), (Rlt_dec 0 x); rewrite ?Rabs_R1; try (left; lra).
    all: destruct (Rlt_dec x 0); try destruct (Rlt_dec y 0); rewrite ?Rabs_R0, ?Rabs_R1, ?(Rabs_left (-1)) by lra; try (left; lra); right; lra. }
  assert (S0 : (0 <= Rabs (sgn x))%R) by apply Rabs_pos.
  destruct Sg as [Sg|Y].
  - apply Rmult_le_compat; [apply P0|exact S0|exact M|exact Sg].
  - subst y. rewrite Rabs_R0 in Le. assert (x = 0%R) by (pose proof (Rle_abs x); pose proof (Rle_abs (- x)); rewrite Rabs_Ropp in *; lra). subst x. lra.
Qed.
End Floats.
