(** A concrete straight flight in binary64. *)

From Coq Require Import ZArith Bool List Reals Lra Lia.
From Flocq Require Import Core BinarySingleNaN.
From Verif Require Import Scalar Float64 LinAlg MUtils MModel MDynamics SpecDyn SpecRun SpecRound SpecNumber SpecExact
  PBase PFloat PRound PQuat64 PDyn PUnit64 PUp PNumber PExact PExactRun EBase PWitDyn ERound ENumber.
Import ListNotations.
Local Open Scope R_scope.

Section Run.
Variable L : Libm.
#[local] Instance FO : Ops b64 := F64Ops L.
(** Parameters that are not binary fractions: 1.3 kg, arms of 0.17 m and 0.23 m, lag 20 ms. *)
Definition x_params : Params b64 :=
  mkParams (quad_x (lit 1 10) (lit 1 70) (lit 17 100) (lit 23 100) zero (ofZ 1000) (lit 1 50) (lit 1 1000)) (lit 13 10)
    (mkM (lit 1 10) zero zero zero (lit 1 10) zero zero zero (lit 2 10)) (lit 1 10) mI (mkV zero zero (lit (-981) 100)) zero zero.
Definition x_state : State b64 :=
  mkState (mkV (lit 1 10) (lit (-7) 3) (lit 2 3)) (mkQ (lit 8 10) zero zero (lit 6 10)) (mkV zero zero (lit 1 3)) v0 v0 v0 v0 v0
    (repeat (lit 1 3) 4) (repeat zero 4).
Definition x_calls : list (Call b64) := repeat (mkCall (repeat (lit 77 10) 4) (lit 1 100) (mkV zero zero (lit 1 7)) true) 3.
Definition x_dyn : option (Dyn b64 gen1) := dyn_new 4 x_params 0 x_state.
Lemma x_check : check_params x_params = true. Proof. vm_compute. reflexivity. Qed.
Lemma x_params_ok : reasonable_params x_params.
Proof.
  split; [apply (forallb_Forall motorb); [exact motorb_ok|vm_compute; reflexivity]|].
  split; [apply atleastb_ok; vm_compute; reflexivity|]. split.
  - exists (lit 1 10), (lit 1 10), (lit 2 10), zero. split; [reflexivity|]. split; [reflexivity|]. split; [reflexivity|].
    assert (A : atleast (-64) (lit 1 10)) by (apply atleastb_ok; vm_compute; reflexivity).
    assert (A2 : atleast (-64) (lit 2 10)) by (apply atleastb_ok; vm_compute; reflexivity).
    assert (U : upto 64 (lit 1 10)) by (apply uptob_ok; vm_compute; reflexivity).
    assert (U2 : upto 64 (lit 2 10)) by (apply uptob_ok; vm_compute; reflexivity).
    split; [split; [exact A|split; [exact A|exact A2]]|]. split; [exact U|split; [exact U|exact U2]].
  - split; [apply uptob_ok; vm_compute; reflexivity|]. split; [apply upto9b_ok; vm_compute; reflexivity|].
    split; [apply upto3b_ok; vm_compute; reflexivity|]. split; [apply uptob_ok; vm_compute; reflexivity|].
    change (0 <= 0). lra.
Qed.
Lemma x_nought : nought zero. Proof. split; reflexivity. Qed.
Lemma x_even : even_quad L x_params.
Proof.
  split; [|split; exact x_nought]. exists (lit 1 10), (lit 1 70), (lit 17 100), (lit 23 100), zero, (ofZ 1000), (lit 1 50), (lit 1 1000). cbv zeta. left. reflexivity.
Qed.
Lemma x_calls_even : Forall (even_call x_params) x_calls.
Proof.
  assert (E : even_call x_params (mkCall (repeat (lit 77 10) 4) (lit 1 100) (mkV zero zero (lit 1 7)) true)).
  { split; [exists (lit 77 10); reflexivity|]. split; [exact x_nought|]. split; [exact x_nought|]. right. exact x_nought. }
  unfold x_calls. cbn [repeat]. constructor; [exact E|constructor; [exact E|constructor; [exact E|constructor]]].
Qed.
Lemma x_vals : (fin (lit 8 10) /\ 79/100 <= val (lit 8 10) <= 81/100) /\ (fin (lit 6 10) /\ 59/100 <= val (lit 6 10) <= 61/100).
Proof.
  assert (P : bpow radix2 (-53) * 9007199254740992 = 1).
  { change 9007199254740992 with (bpow radix2 53). rewrite <- bpow_plus. reflexivity. }
  split; (split; [vm_compute; reflexivity|]).
  - assert (E1 : B2SF (lit 8 10 : b64) = SpecFloat.S754_finite false 7205759403792794 (-53)) by (vm_compute; reflexivity).
    generalize dependent (lit 8 10 : b64). intros x E1. unfold val. rewrite <- SF2R_B2SF, E1. cbn [SF2R cond_Zopp]. unfold F2R. cbn [Fnum Fexp]. lra.
  - assert (E1 : B2SF (lit 6 10 : b64) = SpecFloat.S754_finite false 5404319552844595 (-53)) by (vm_compute; reflexivity).
    generalize dependent (lit 6 10 : b64). intros x E1. unfold val. rewrite <- SF2R_B2SF, E1. cbn [SF2R cond_Zopp]. unfold F2R. cbn [Fnum Fexp]. lra.
Qed.
Lemma x_ok : exists d d', x_dyn = Some d /\ ModelReach 4 (d_model d) /\ get_params (d_model d) = Some x_params /\ d_state d = x_state /\
  numbers x_state /\ run_in_range L d x_calls /\ upright_still x_state /\ dyn_run d x_calls = Some d' /\
  Bltb (vz (s_pos x_state)) (vz (s_pos (d_state d'))) = true /\ Beqb (vz (s_vel x_state)) (vz (s_vel (d_state d'))) = false.
Proof.
  destruct x_dyn as [d|] eqn:E.
  2:{ exfalso. assert (X : match x_dyn with Some _ => true | None => false end = true) by (vm_compute; reflexivity). rewrite E in X. discriminate. }
  destruct (dyn_new_vehicle _ _ _ _ _ x_check E) as (Mr & Gp & Es).
  assert (U : unit_within (1/2) (s_ori (d_state d))).
  { rewrite Es. unfold x_state. cbn [s_ori].
    destruct x_vals as [[A1 A2] [C1 C2]].
    split; [split; [exact A1|split; [reflexivity|split; [reflexivity|exact C1]]]|]. unfold sqlen. cbn [qw qx qy qz]. change (val zero) with 0.
    apply Rabs_le. nra. }
  assert (X : match x_dyn with Some x => rangeb L x x_calls && match dyn_run x x_calls with Some y => Bltb (vz (s_pos x_state)) (vz (s_pos (d_state y))) && negb (Beqb (vz (s_vel x_state)) (vz (s_vel (d_state y)))) | None => false end | None => false end = true) by (vm_compute; reflexivity).
  rewrite E in X. apply andb_true_iff in X as [X1 X2].
  destruct (dyn_run d x_calls) as [d'|] eqn:R; [|discriminate]. apply andb_true_iff in X2 as [X2 X3]. exists d, d'.
  split; [reflexivity|]. split; [exact Mr|]. split; [exact Gp|]. split; [exact Es|].
  split; [|split; [apply rangeb_ok; assumption|split; [|split; [exact R|split; [exact X2|apply negb_true_iff, X3]]]]].
  - unfold numbers, x_state. cbn [s_pos s_ori s_vel s_angvel s_linacc s_angacc s_force s_torque s_mvel s_macc].
    assert (F0 : finv v0) by (split; [|split]; reflexivity).
    split; [split; [|split]; vm_compute; reflexivity|]. split; [split; [|split; [|split]]; vm_compute; reflexivity|]. split; [split; [|split]; vm_compute; reflexivity|]. split; [exact F0|].
    split; [exact F0|]. split; [exact F0|]. split; [exact F0|]. split; [exact F0|].
    split; cbn [repeat]; repeat (constructor; [vm_compute; reflexivity|]); constructor.
  - unfold upright_still, x_state. cbn [s_ori s_vel s_angvel s_mvel qx qy vx vy vz v0].
    split; [exact x_nought|]. split; [exact x_nought|]. split; [exact x_nought|]. split; [exact x_nought|]. split; [exact x_nought|]. split; [exact x_nought|]. split; [exact x_nought|].
    exists (lit 1 3). reflexivity.
Qed.
End Run.
