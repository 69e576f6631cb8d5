(** Rotors in any arithmetic, and whole runs in binary64. *)

From Coq Require Import ZArith List Bool Lia Reals Lra.
From Flocq Require Import Core BinarySingleNaN.
From Verif Require Import Scalar Float64 LinAlg MUtils MModel MDynamics SpecDyn SpecRun SpecRound SpecNumber SpecLag
  PBase PFloat PDyn PModel PPhys PRound PLag.
Import ListNotations.

Section Gen.
Context {T : Type} {O : Ops T} {G : Gen T}.
Local Open Scope sc_scope.

Lemma clamp_motors_g : forall (w : list T) ms y i b, clamp_motors w ms = Some y -> nth_error y i = Some b ->
  exists a m, nth_error w i = Some a /\ nth_error ms i = Some m /\ clamp a (mt_min m) (mt_max m) = Some b.
Proof.
  induction w as [|x w IH]; intros [|m ms] y i b H Hb; cbn in H; try discriminate; try (injection H as <-; destruct i; discriminate).
  apply bindo_Some in H as [z [Hz H]]. apply bindo_Some in H as [zs [Hzs H]]. injection H as <-.
  destruct i as [|i]; cbn in Hb; [injection Hb as <-; exists x, m; split; [reflexivity|split; [reflexivity|exact Hz]]|].
  destruct (IH _ _ _ _ Hzs Hb) as (a & m' & A & B & C). exists a, m'. split; [exact A|split; [exact B|exact C]].
Qed.
Lemma motors_derivative_g : forall (des cur : list T) ms y i b, motors_derivative des cur ms = Some y -> nth_error y i = Some b ->
  exists d c m, nth_error des i = Some d /\ nth_error cur i = Some c /\ nth_error ms i = Some m /\ b = (d - c) / mt_tau m.
Proof.
  induction des as [|x des IH]; intros [|c cur] [|m ms] y i b H Hb; cbn in H; try discriminate; try (injection H as <-; destruct i; discriminate).
  apply bindo_Some in H as [zs [Hzs H]]. injection H as <-.
  destruct i as [|i]; cbn in Hb; [injection Hb as <-; exists x, c, m; split; [reflexivity|split; [reflexivity|split; reflexivity]]|].
  destruct (IH _ _ _ _ _ Hzs Hb) as (d' & c' & m' & A & B & C & D). exists d', c', m'. split; [exact A|split; [exact B|split; [exact C|exact D]]].
Qed.
Lemma ladd_g (w a : list T) dt : forall i x, nth_error (ladd w (map (fun k => k * dt) a)) i = Some x ->
  exists u v, nth_error w i = Some u /\ nth_error a i = Some v /\ x = u + v * dt.
Proof.
  unfold ladd, lmap2. revert a; induction w as [|u w IH]; intros [|v a] [|i] x H; cbn in H; try discriminate.
  - injection H as <-. exists u, v. split; [reflexivity|split; reflexivity].
  - destruct (IH a i x H) as (u' & v' & A & B & C). exists u', v'. split; [exact A|split; [exact B|exact C]].
Qed.

(** One rotor in one sub-step. *)
Lemma core_rotor (d d' : Dyn T G) act h ext noise p i m cmd w : get_params (d_model d) = Some p ->
  nth_error (p_motors p) i = Some m -> length act = length (s_mvel (d_state d)) -> nth_error act i = Some cmd -> nth_error (s_mvel (d_state d)) i = Some w ->
  euler_core d act h ext noise = Some d' ->
  exists cd y, clamp cmd (mt_min m) (mt_max m) = Some cd /\ clamp (w + (cd - w) / mt_tau m * h) (mt_min m) (mt_max m) = Some y /\
    nth_error (s_mvel (d_state d')) i = Some y.
Proof.
  intros Hp Hm Hl Hc Hw E.
  destruct (euler_core_rotors _ _ _ _ _ _ E Hl) as [Ll _].
  assert (Ex : exists y, nth_error (s_mvel (d_state d')) i = Some y).
  { assert (i < length (s_mvel (d_state d)))%nat by (apply nth_error_Some; congruence).
    destruct (nth_error (s_mvel (d_state d')) i) eqn:Q; [eauto|]. apply nth_error_None in Q. lia. }
  destruct Ex as [y Hy]. apply get_params_cfg in Hp as [c [Hcf Hcp]].
  apply euler_core_inv in E as [_ Hi]. destruct (Hi c Hcf) as (mo & des & macc & mvel & Hn & Hm' & Hd & Ha & Hv & ->).
  cbn [d_state s_mvel] in Hy. rewrite Hcp in *.
  destruct (clamp_motors_g _ _ _ _ _ Hv Hy) as (z & m1 & Hz & Hm1 & Cz).
  destruct (ladd_g _ _ _ _ _ Hz) as (u & v & Hu & Hv' & ->).
  destruct (motors_derivative_g _ _ _ _ _ _ Ha Hv') as (de & cu & m2 & A & B & C & ->).
  destruct (clamp_motors_g _ _ _ _ _ Hd A) as (cm & m3 & D & F & Cd).
  assert (m1 = m) by congruence. assert (m2 = m) by congruence. assert (m3 = m) by congruence. assert (cu = w) by congruence. assert (u = w) by congruence. assert (cm = cmd) by congruence. subst.
  exists de, y. split; [exact Cd|]. split; [exact Cz|exact Hy].
Qed.

(** A call is a sequence of sub-steps of its own or of the greatest length. *)
Lemma process_steps (P : Dyn T G -> Prop) (d : Dyn T G) act dt ext noise : P d ->
  (forall x y h, P x -> (h = dt /\ ltb dtmax dt = false \/ h = dtmax /\ ltb dtmax dt = true) -> leb h zero = false -> euler_core x act h ext noise = Some y -> P y) ->
  match process d act dt ext noise with Ok y => P y | Throw y => P y | UB => True end.
Proof.
  intros Hd Hs. unfold process. destruct (leb dt zero) eqn:E0; [exact Hd|].
  destruct (ltb dtmax dt) eqn:E1.
  - apply for_int_inv; [exact Hd|]. intros x Hx. unfold euler_sub.
    destruct (leb dtmax zero) eqn:E2; [exact Hx|]. destruct (ltb dtmax dtmax); [exact I|].
    destruct (euler_core x act dtmax ext noise) eqn:E; cbn; [|exact I]. eapply (Hs x d0 dtmax); [exact Hx|right; split; reflexivity|exact E2|exact E].
  - destruct (euler_core d act dt ext noise) eqn:E; cbn; [|exact I]. eapply (Hs d d0 dt); [exact Hd|left; split; reflexivity|exact E0|exact E].
Qed.

(** A rotor whose rounded increment vanishes stays for ever. *)
Lemma rotor_stalls (l : list (Call T)) p i m cmd cd w h n : nth_error (p_motors p) i = Some m ->
  clamp cmd (mt_min m) (mt_max m) = Some cd -> clamp (w + (cd - w) / mt_tau m * h) (mt_min m) (mt_max m) = Some w -> ltb dtmax h = false ->
  Forall (fun c => commands n i cmd c /\ k_dt c = h) l ->
  forall d d' : Dyn T G, get_params (d_model d) = Some p -> length (s_mvel (d_state d)) = n -> nth_error (s_mvel (d_state d)) i = Some w ->
  dyn_run d l = Some d' -> nth_error (s_mvel (d_state d')) i = Some w.
Proof.
  intros Hm Hcd Hst Hh. induction l as [|c l IH]; intros Hl d d' Hp Hn Hw Hr; cbn [dyn_run] in Hr; [injection Hr as <-; exact Hw|].
  inversion Hl as [|? ? [[La Ha] Hk] Hl']; subst.
  pose proof (process_steps (fun x => get_params (d_model x) = Some p /\ length (s_mvel (d_state x)) = length (s_mvel (d_state d)) /\ nth_error (s_mvel (d_state x)) i = Some w)
    d (k_act c) (k_dt c) (k_ext c) (k_noise c) (conj Hp (conj eq_refl Hw))) as Q.
  assert (S1 : match process d (k_act c) (k_dt c) (k_ext c) (k_noise c) with
    | Ok y | Throw y => get_params (d_model y) = Some p /\ length (s_mvel (d_state y)) = length (s_mvel (d_state d)) /\ nth_error (s_mvel (d_state y)) i = Some w | UB => True end).
  { apply Q. intros x y h' (Px & Lx & Wx) Hh' _ E.
    assert (h' = k_dt c) by (destruct Hh' as [[A B]|[A B]]; congruence). subst h'.
    split; [unfold get_params in *; rewrite (euler_core_cfg _ _ _ _ _ _ E); exact Px|].
    split; [destruct (euler_core_rotors _ _ _ _ _ _ E ltac:(congruence)) as [Q1 _]; congruence|].
    destruct (core_rotor x y (k_act c) (k_dt c) _ _ p i m cmd w Px Hm ltac:(congruence) Ha Wx E) as (cd' & z & C1 & C2 & C3).
    congruence. }
  destruct (process d (k_act c) (k_dt c) (k_ext c) (k_noise c)) as [x|x|]; [| |discriminate]; destruct S1 as (P1 & L1 & W1);
    rewrite <- L1 in IH, Hl'; eapply (IH Hl' x d'); eauto.
Qed.
End Gen.

Section Floats.
Variable L : Libm.
#[local] Instance FO : Ops b64 := F64Ops L.
Local Open Scope R_scope.

Lemma dtmax_top : fin (dtmax : b64) /\ 0 < val dtmax <= 1/50.
Proof.
  assert (E1 : B2SF b64_dtmax = SpecFloat.S754_finite false 5764607523034235 (-59)) by (vm_compute; reflexivity).
  change (fin b64_dtmax /\ 0 < B2R b64_dtmax <= 1/50). destruct b64_dtmax_pos as [P F]. split; [exact F|]. split; [exact P|].
  rewrite <- SF2R_B2SF, E1. cbn [SF2R cond_Zopp]. unfold F2R. cbn [Fnum Fexp].
  replace (bpow radix2 (-59)) with (/ bpow radix2 59) by (rewrite <- bpow_opp; reflexivity). change (bpow radix2 59) with 576460752303423488. lra.
Qed.

Lemma rotor_run {G : Gen b64} (l : list (Call b64)) p i m cmd n : nth_error (p_motors p) i = Some m ->
  upto 64 (mt_min m) -> upto 64 (mt_max m) -> atleast (-64) (mt_tau m) ->
  fin cmd -> val (mt_min m) <= val cmd <= val (mt_max m) ->
  Forall (fun c => commands n i cmd c /\ fin (k_dt c) /\ shorter (val dtmax) (val (k_dt c)) (val (mt_tau m))) l ->
  forall (d d' : Dyn b64 G) w, get_params (d_model d) = Some p -> length (s_mvel (d_state d)) = n -> nth_error (s_mvel (d_state d)) i = Some w ->
  fin w -> val (mt_min m) <= val w <= val (mt_max m) ->
  dyn_run d l = Some d' -> exists w', nth_error (s_mvel (d_state d')) i = Some w' /\ fin w' /\ toward (val w) (val w') (val cmd).
Proof.
  intros Hm Um UM At Fc Bc. destruct dtmax_top as [Fd Bd].
  assert (Cm : clamp cmd (mt_min m) (mt_max m) = Some cmd) by (apply (clamp_in L); [exact Fc|apply Um|apply UM|exact Bc]).
  induction l as [|c l IH]; intros Hl d d' w Hp Hn Hw Fw Bw Hr; cbn [dyn_run] in Hr.
  { injection Hr as <-. exists w. split; [exact Hw|]. split; [exact Fw|]. unfold toward. lra. }
  inversion Hl as [|? ? [[La Ha] [Fk Sk]] Hl']; subst.
  set (P := fun x : Dyn b64 G => get_params (d_model x) = Some p /\ length (s_mvel (d_state x)) = length (s_mvel (d_state d)) /\
    exists w1, nth_error (s_mvel (d_state x)) i = Some w1 /\ fin w1 /\ toward (val w) (val w1) (val cmd)).
  assert (S1 : match process d (k_act c) (k_dt c) (k_ext c) (k_noise c) with Ok y | Throw y => P y | UB => True end).
  { apply process_steps.
    - split; [exact Hp|]. split; [reflexivity|]. exists w. split; [exact Hw|]. split; [exact Fw|]. unfold toward. lra.
    - intros x y h (Px & Lx & w1 & Wx & F1 & T1) Hh H0 E.
      split; [unfold get_params in *; rewrite (euler_core_cfg _ _ _ _ _ _ E); exact Px|].
      split; [destruct (euler_core_rotors _ _ _ _ _ _ E ltac:(congruence)) as [Q1 _]; congruence|].
      assert (Hb : fin h /\ 0 < val h <= 1/50 /\ val h <= (1 - / 1125899906842624) * val (mt_tau m)).
      { assert (Pz : forall z : b64, fin z -> leb z zero = false -> 0 < val z).
        { intros z Fz Lz. destruct (Rlt_dec 0 (val z)) as [Q|Q]; [exact Q|exfalso].
          assert (E' : Bleb z (b64_ofZ 0) = true); [|change (leb z zero) with (Bleb z (b64_ofZ 0)) in Lz; congruence].
          rewrite (Bleb_correct _ _ z (b64_ofZ 0) Fz eq_refl). apply Rle_bool_true. change (B2R z <= 0). unfold val in Q. lra. }
        unfold shorter in Sk. destruct Hh as [[-> Ef]|[-> Et]].
        - assert (val (k_dt c) <= val dtmax).
          { destruct (Rle_dec (val (k_dt c)) (val dtmax)) as [Q|Q]; [exact Q|exfalso].
            assert (ltb dtmax (k_dt c) = true) by (apply (ltb_of L); [exact Fd|exact Fk|lra]). congruence. }
          rewrite Rmin_left in Sk by lra. pose proof (Pz _ Fk H0). split; [exact Fk|]. split; [lra|exact Sk].
        - apply (ltb_of L) in Et; [|exact Fd|exact Fk]. rewrite Rmin_right in Sk by lra. split; [exact Fd|]. split; [lra|exact Sk]. }
      destruct Hb as (Fh & Bh & Th).
      destruct (core_rotor x y (k_act c) h _ _ p i m cmd w1 Px Hm ltac:(congruence) Ha Wx E) as (cd' & z & C1 & C2 & C3).
      rewrite Cm in C1. injection C1 as <-.
      assert (B1 : val (mt_min m) <= val w1 <= val (mt_max m)) by (unfold toward in T1; lra).
      destruct (rotor_toward L m cmd w1 h z Um UM At Fc F1 Bc B1 Fh Bh Th C2) as [Fz Tz].
      exists z. split; [exact C3|]. split; [exact Fz|]. unfold toward in *. lra. }
  destruct (process d (k_act c) (k_dt c) (k_ext c) (k_noise c)) as [x|x|]; [| |discriminate]; destruct S1 as (P1 & L1 & w1 & W1 & F1 & T1);
    rewrite <- L1 in IH, Hl'; (destruct (IH Hl' x d' w1) as (w2 & W2 & F2 & T2); [exact P1|reflexivity|exact W1|exact F1|unfold toward in T1; lra|exact Hr|]);
    exists w2; (split; [exact W2|]); (split; [exact F2|]); unfold toward in *; lra.
Qed.
End Floats.
