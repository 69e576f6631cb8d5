(** Concrete binary64 cases: boolean checks that imply reasonable size. *)

From Coq Require Import ZArith Bool List Reals Lra Lia.
From Flocq Require Import Core BinarySingleNaN.
From Verif Require Import Scalar Float64 LinAlg MUtils MModel MDynamics SpecDyn SpecRun SpecRound SpecNumber PBase PFloat PRound PQuat64 PDyn PUnit64 PUp PNumber EBase ERound PWitDyn.
Import ListNotations.
Local Open Scope R_scope.

Definition big64 : b64 := b64_ofZ 18446744073709551616.
Lemma big64_val : fin big64 /\ val big64 = 2^64.
Proof.
  split; [vm_compute; reflexivity|].
  assert (E1 : B2SF big64 = SpecFloat.S754_finite false 4503599627370496 12) by (vm_compute; reflexivity).
  unfold val. rewrite <- SF2R_B2SF, E1. cbn [SF2R cond_Zopp]. unfold F2R. cbn [Fnum Fexp].
  change 64%Z with (52 + 12)%Z. rewrite bpow_plus. f_equal.
Qed.
Definition uptob (x : b64) : bool := is_finite x && Bleb x big64 && Bleb (Bopp big64) x.
Lemma uptob_ok x : uptob x = true -> upto 64 x.
Proof.
  unfold uptob. rewrite !andb_true_iff. intros [[F A] B]. split; [exact F|]. destruct big64_val as [FB VB].
  rewrite Bleb_correct in A by assumption.
  rewrite Bleb_correct in B by (rewrite ?is_finite_Bopp; assumption). rewrite B2R_Bopp in B. change (B2R big64) with (val big64) in *. rewrite VB in *.
  destruct (Rle_bool_spec (B2R x) (2^64)) as [A'|]; [|discriminate].
  destruct (Rle_bool_spec (- 2^64) (B2R x)) as [B'|]; [|discriminate]. apply Rabs_le. unfold val. lra.
Qed.
Definition inv128 : b64 := Bdiv mode_NE (b64_ofZ 1) (b64_ofZ 128).
Lemma inv128_val : fin inv128 /\ 2^(-64) <= val inv128.
Proof.
  split; [vm_compute; reflexivity|].
  assert (E1 : B2SF inv128 = SpecFloat.S754_finite false 4503599627370496 (-59)) by (vm_compute; reflexivity).
  unfold val. rewrite <- SF2R_B2SF, E1. cbn [SF2R cond_Zopp]. unfold F2R. cbn [Fnum Fexp].
  apply Rle_trans with (1 * 2^(-59)); [rewrite Rmult_1_l; apply bpow_le; lia|]. apply Rmult_le_compat_r; [apply bpow_ge_0|]. lra.
Qed.
Definition atleastb (x : b64) : bool := is_finite x && Bleb inv128 x.
Lemma atleastb_ok x : atleastb x = true -> atleast (-64) x.
Proof.
  unfold atleastb. rewrite andb_true_iff. intros [F A]. split; [exact F|]. destruct inv128_val as [FB VB].
  rewrite Bleb_correct in A by assumption. destruct (Rle_bool_spec (B2R inv128) (B2R x)) as [A'|]; [|discriminate].
  eapply Rle_trans; [exact VB|exact A'].
Qed.
Definition upto3b (v : V3 b64) : bool := uptob (vx v) && uptob (vy v) && uptob (vz v).
Lemma upto3b_ok v : upto3b v = true -> upto3 64 v.
Proof. unfold upto3b. rewrite !andb_true_iff. intros [[A B] C]. split; [|split]; apply uptob_ok; assumption. Qed.
Definition upto9b (m : M3 b64) : bool :=
  upto3b (mkV (m00 m) (m01 m) (m02 m)) && upto3b (mkV (m10 m) (m11 m) (m12 m)) && upto3b (mkV (m20 m) (m21 m) (m22 m)).
Lemma upto9b_ok v : upto9b v = true -> upto9 64 v.
Proof. unfold upto9b. rewrite !andb_true_iff. intros [[A B] C]. split; [|split]; apply upto3b_ok; assumption. Qed.
Definition motorb (m : Motor b64) : bool :=
  (Z.eqb (mt_dir m) 1 || Z.eqb (mt_dir m) (-1)) && uptob (mt_kf m) && uptob (mt_kt m) && upto9b (mt_rot m) && upto3b (mt_pos m) &&
  uptob (mt_min m) && uptob (mt_max m) && atleastb (mt_tau m) && uptob (mt_J m).
Lemma motorb_ok m : motorb m = true -> reasonable_motor m.
Proof.
  unfold motorb. rewrite !andb_true_iff, orb_true_iff, !Z.eqb_eq. intros [[[[[[[[A B] C] D] E] F] G] H] I].
  split; [exact A|]. split; [apply uptob_ok, B|]. split; [apply uptob_ok, C|]. split; [apply upto9b_ok, D|]. split; [apply upto3b_ok, E|].
  split; [apply uptob_ok, F|]. split; [apply uptob_ok, G|]. split; [apply atleastb_ok, H|apply uptob_ok, I].
Qed.
Lemma forallb_Forall {A} (f : A -> bool) (P : A -> Prop) l : (forall x, f x = true -> P x) -> forallb f l = true -> Forall P l.
Proof. intros H E. apply Forall_forall. intros x I. apply H. rewrite forallb_forall in E. apply E, I. Qed.

Lemma dyn_new_vehicle {T} {O : Ops T} {G : Gen T} n p sd st (d : Dyn T G) : check_params p = true -> dyn_new n p sd st = Some d ->
  ModelReach n (d_model d) /\ get_params (d_model d) = Some p /\ d_state d = st.
Proof.
  intros C E. unfold dyn_new in E. destruct (model_new n p sd) as [m|] eqn:Em; [|discriminate]. cbn [option_map] in E. injection E as <-. cbn [d_model d_state].
  split; [eapply mr_new; exact Em|]. split; [|reflexivity]. unfold model_new in Em. apply PModel.update_params_cases in Em as [[C' _]|(_ & c & Hc & Hp & _)]; [congruence|].
  unfold get_params. rewrite Hc. cbn [option_map]. f_equal. exact Hp.
Qed.

Section Run.
Variable L : Libm.
Notation FO := (F64Ops L).
Definition n_params : Params b64 := @f_params L (@one _ FO) (@one _ FO) (@lit _ FO (-981) 100).
Lemma n_params_ok : reasonable_params n_params.
Proof.
  split; [apply (forallb_Forall motorb); [exact motorb_ok|vm_compute; reflexivity]|].
  split; [apply atleastb_ok; vm_compute; reflexivity|]. split.
  - exists (b64_ofZ 1), (b64_ofZ 1), (b64_ofZ 1), (b64_ofZ 0). split; [reflexivity|]. split; [reflexivity|]. split; [reflexivity|].
    assert (A : atleast (-64) (b64_ofZ 1)) by (apply atleastb_ok; vm_compute; reflexivity).
    assert (U : upto 64 (b64_ofZ 1)) by (apply uptob_ok; vm_compute; reflexivity).
    split; [split; [exact A|split; exact A]|]. split; [exact U|split; exact U].
  - split; [apply uptob_ok; vm_compute; reflexivity|]. split; [apply upto9b_ok; vm_compute; reflexivity|].
    split; [apply upto3b_ok; vm_compute; reflexivity|]. split; [apply uptob_ok; vm_compute; reflexivity|].
    change (0 <= 0). lra.
Qed.
Lemma n_gen_ok : reasonable_gen (@gen1 _ FO).
Proof. intros e d. apply uptob_ok. vm_compute. reflexivity. Qed.

Definition stateb (s : State b64) : bool := upto3b (s_pos s) && upto3b (s_vel s) && upto3b (s_angvel s) && forallb uptob (s_mvel s).
Lemma stateb_ok s : stateb s = true -> unit_within (1/2) (s_ori s) -> reasonable_state s.
Proof.
  unfold stateb. rewrite !andb_true_iff. intros [[[A B] C] D] U. split; [apply upto3b_ok, A|]. split; [exact U|].
  split; [apply upto3b_ok, B|]. split; [apply upto3b_ok, C|]. apply (forallb_Forall uptob); [exact uptob_ok|exact D].
Qed.
Definition callb (c : Call b64) : bool :=
  forallb (fun x => negb (is_nan x)) (k_act c) && upto3b (k_ext c) && atleastb (k_dt c) && negb (@ltb _ FO (@dtmax _ FO) (k_dt c)).
Lemma callb_ok c : callb c = true -> reasonable_call c.
Proof.
  unfold callb. rewrite !andb_true_iff. intros [[[A B] C] _]. apply atleastb_ok in C as [F V].
  split; [apply (forallb_Forall (fun x => negb (is_nan x))); [intros x Hx; apply negb_true_iff, Hx|exact A]|].
  split; [apply upto3b_ok, B|]. split; [exact F|]. split; [pose proof (pow_pos (-64)); lra|]. intros _. exact V.
Qed.
Fixpoint rangeb {G : Gen b64} (d : Dyn b64 G) (l : list (Call b64)) : bool :=
  match l with
  | [] => true
  | c :: r => callb c && stateb (d_state d) &&
      match @process _ FO _ d (k_act c) (k_dt c) (k_ext c) (k_noise c) with Ok d' => rangeb d' r | _ => true end
  end.
Lemma rangeb_ok {G : Gen b64} l : forall d : Dyn b64 G, unit_within (1/2) (s_ori (d_state d)) -> rangeb d l = true -> run_in_range L d l.
Proof.
  induction l as [|c r IH]; intros d U H; cbn [rangeb run_in_range] in *; [exact I|].
  rewrite !andb_true_iff in H. destruct H as [[C S] N]. pose proof (callb_ok c C) as RC. pose proof (stateb_ok _ S U) as RS.
  assert (NL : @ltb _ FO (@dtmax _ FO) (k_dt c) = false). { unfold callb in C. rewrite !andb_true_iff in C. destruct C as [_ C]. apply negb_true_iff, C. }
  split; [exact RC|]. split; [split; [intros _; exact RS|intros E; rewrite NL in E; discriminate]|].
  destruct (@process _ FO _ d (k_act c) (k_dt c) (k_ext c) (k_noise c)) as [d'|d'|] eqn:E; [|exact I|exact I].
  apply IH; [|exact N]. apply within_weak. destruct RC as (_ & _ & Fd & Pd & _). destruct RS as (_ & _ & _ & SW & _).
  refine (process_unit L d d' c U Fd Pd _ E). split; [apply rates_up, SW|]. intros K. rewrite NL in K. discriminate.
Qed.

(** The vehicle of [r_dyn] for two steps of a hundredth of a second, with noise, an external force, and an infinite command. *)
Definition n_calls : list (Call b64) :=
  repeat (mkCall [@one _ FO; B754_infinity false; @one _ FO; @zero _ FO] (@lit _ FO 1 100) (mkV (@one _ FO) (@one _ FO) (@one _ FO)) true) 2.
Lemma n_check : @check_params _ FO n_params = true. Proof. vm_compute. reflexivity. Qed.
Lemma n_ok : exists d d', r_dyn L = Some d /\ @ModelReach _ FO _ 4 (d_model d) /\ get_params (d_model d) = Some n_params /\ length (s_mvel (d_state d)) = 4%nat /\
  Forall (fun c => length (k_act c) = 4%nat) n_calls /\ numbers (d_state d) /\ run_in_range L d n_calls /\
  @dyn_run _ FO _ d n_calls = Some d' /\ Beqb (vx (s_vel (d_state d'))) (b64_ofZ 0) = false.
Proof.
  destruct (r_dyn L) as [d|] eqn:E.
  2:{ exfalso. assert (X : match r_dyn L with Some _ => true | None => false end = true) by (vm_compute; reflexivity). rewrite E in X. discriminate. }
  destruct (dyn_new_vehicle _ _ _ _ _ n_check E) as (Mr & Gp & Es).
  assert (Q : s_ori (d_state d) = @q1 _ FO) by (rewrite Es; reflexivity).
  assert (U : unit_within (1/2) (s_ori (d_state d))).
  { rewrite Q. split; [split; [|split; [|split]]; reflexivity|]. unfold sqlen.
    change (val (qw (@q1 _ FO))) with (val (b64_ofZ 1)). change (val (qx (@q1 _ FO))) with 0. change (val (qy (@q1 _ FO))) with 0. change (val (qz (@q1 _ FO))) with 0.
    rewrite val_one. apply Rabs_le. lra. }
  assert (X : match r_dyn L with Some x => rangeb x n_calls && match @dyn_run _ FO _ x n_calls with Some y => negb (Beqb (vx (s_vel (d_state y))) (b64_ofZ 0)) | None => false end | None => false end = true) by (vm_compute; reflexivity).
  rewrite E in X. apply andb_true_iff in X as [X1 X2].
  destruct (@dyn_run _ FO _ d n_calls) as [d'|] eqn:R; [|discriminate]. exists d, d'.
  split; [reflexivity|]. split; [exact Mr|]. split; [exact Gp|]. split; [rewrite Es; reflexivity|].
  split; [constructor; [reflexivity|constructor; [reflexivity|constructor]]|].
  split; [|split; [apply rangeb_ok; assumption|split; [exact R|apply negb_true_iff, X2]]].
  rewrite Es. unfold numbers. cbn [s_pos s_ori s_vel s_angvel s_linacc s_angacc s_force s_torque s_mvel s_macc].
  assert (F0 : finv (@v0 _ FO)) by (split; [|split]; reflexivity).
  split; [exact F0|]. split; [split; [|split; [|split]]; reflexivity|]. split; [exact F0|]. split; [split; [|split]; vm_compute; reflexivity|].
  split; [exact F0|]. split; [exact F0|]. split; [exact F0|]. split; [exact F0|].
  split; cbn [repeat]; repeat (constructor; [reflexivity|]); constructor.
Qed.

(** Finite numbers and accepted parameters alone do not suffice: without drag and with a
    velocity of 2^600 the next velocity is NaN. *)
Definition fast : b64 := b64_ofZ (2 ^ 600).
Definition fast_dyn : option (Dyn b64 (@gen1 _ FO)) := @dyn_new _ FO (@gen1 _ FO) 4 n_params 0
  (mkState (@v0 _ FO) (@q1 _ FO) (mkV fast (@zero _ FO) (@zero _ FO)) (@v0 _ FO) (@v0 _ FO) (@v0 _ FO) (@v0 _ FO) (@v0 _ FO) (repeat (@zero _ FO) 4) (repeat (@zero _ FO) 4)).
Lemma fast_ok : exists d d' : Dyn b64 (@gen1 _ FO), @vehicle _ FO _ 4 d (repeat (@zero _ FO) 4) n_params /\ numbers (d_state d) /\
  @process _ FO _ d (repeat (@zero _ FO) 4) (@lit _ FO 1 1000) (@v0 _ FO) false = Ok d' /\ is_nan (vx (s_vel (d_state d'))) = true.
Proof.
  assert (X : match fast_dyn with Some x => match @process _ FO _ x (repeat (@zero _ FO) 4) (@lit _ FO 1 1000) (@v0 _ FO) false with Ok y => is_nan (vx (s_vel (d_state y))) | _ => false end | None => false end = true) by (vm_compute; reflexivity).
  destruct fast_dyn as [d|] eqn:E; [|discriminate].
  destruct (dyn_new_vehicle _ _ _ _ _ n_check E) as (Mr & Gp & Es).
  destruct (@process _ FO _ d (repeat (@zero _ FO) 4) (@lit _ FO 1 1000) (@v0 _ FO) false) as [d'|d'|] eqn:R; [|discriminate|discriminate]. exists d, d'.
  split; [|split; [|split; [exact R|exact X]]].
  - split; [exact Mr|]. split; [exact Gp|split; [reflexivity|rewrite Es; reflexivity]].
  - rewrite Es. unfold numbers. cbn [s_pos s_ori s_vel s_angvel s_linacc s_angacc s_force s_torque s_mvel s_macc].
    assert (F0 : finv (@v0 _ FO)) by (split; [|split]; reflexivity).
    split; [exact F0|]. split; [split; [|split; [|split]]; reflexivity|]. split; [split; [|split]; vm_compute; reflexivity|]. split; [exact F0|].
    split; [exact F0|]. split; [exact F0|]. split; [exact F0|]. split; [exact F0|].
    split; cbn [repeat]; repeat (constructor; [reflexivity|]); constructor.
Qed.
End Run.
Lemma finite_only L : let O := F64Ops L in
  exists (d d' : Dyn b64 gen1) act dt p, vehicle 4 d act p /\ reasonable_params p /\ numbers (d_state d) /\
  process d act dt v0 false = Ok d' /\ ~ numbers (d_state d').
Proof.
  intros O. destruct (fast_ok L) as (d & d' & V & N & P & X). exists d, d', (repeat zero 4), (lit 1 1000), (n_params L).
  split; [exact V|]. split; [exact (n_params_ok L)|]. split; [exact N|]. split; [exact P|].
  intros (_ & _ & (F & _) & _). apply fin_nan in F. exact (eq_true_false_abs _ X F).
Qed.
