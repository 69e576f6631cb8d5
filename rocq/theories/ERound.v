(** Concrete binary64 cases: boolean checks that imply the hypotheses. *)

From Coq Require Import ZArith Bool List Reals Lra Lia.
From Flocq Require Import Core BinarySingleNaN.
From Verif Require Import Scalar Float64 LinAlg MUtils MModel MDynamics MImu SpecDyn SpecRun SpecRound PBase PFloat PRound PQuat64 PDyn PUnit64 EBase PWitDyn.
Import ListNotations.
Local Open Scope R_scope.

Definition below1 (x : b64) : bool := is_finite x && Bleb x (b64_ofZ 1) && Bleb (Bopp (b64_ofZ 1)) x.
Lemma below1_val x : below1 x = true -> fin x /\ Rabs (val x) <= 1.
Proof.
  unfold below1. rewrite !andb_true_iff. intros [[F A] B]. split; [exact F|].
  rewrite Bleb_correct in A, B by (exact F || reflexivity).
  destruct (Rle_bool_spec (B2R x) (B2R (b64_ofZ 1))) as [A'|]; [|discriminate].
  destruct (Rle_bool_spec (B2R (Bopp (b64_ofZ 1))) (B2R x)) as [B'|]; [|discriminate].
  rewrite B2R_Bopp in B'. change (B2R (b64_ofZ 1)) with (val (b64_ofZ 1)) in *. rewrite val_one in *.
  apply Rabs_le. unfold val in *. lra.
Qed.
Definition small3 (w : V3 b64) : bool := below1 (vx w) && below1 (vy w) && below1 (vz w).
Lemma small3_comps w : small3 w = true -> comps_below 1 w.
Proof.
  unfold small3. rewrite !andb_true_iff. intros [[A B] C].
  apply below1_val in A as [A1 A2]. apply below1_val in B as [B1 B2]. apply below1_val in C as [C1 C2].
  split; [split; [|split]; assumption|split; [|split]; assumption].
Qed.
Lemma small3_rates w : small3 w = true -> rates_below (bpow radix2 400) w.
Proof.
  intros Hw. apply small3_comps in Hw as (F & A & B & C). split; [exact F|].
  assert (E4 : 4 <= bpow radix2 400) by (change 4 with (bpow radix2 2); apply bpow_le; lia). lra.
Qed.
Lemma pos_val x : is_finite x = true -> Bltb (b64_ofZ 0) x = true -> 0 < val x.
Proof. intros F H. apply (ltb_val (b64_ofZ 0) x) in H; [exact H|reflexivity|exact F]. Qed.

Lemma dyn_new_state {T} {O : Ops T} {G : Gen T} n p sd st (d : Dyn T G) : dyn_new n p sd st = Some d -> d_state d = st.
Proof. unfold dyn_new. destruct (model_new n p sd) as [m|]; cbn [option_map]; intros H; [injection H as <-; reflexivity|discriminate]. Qed.

Section Run.
Variable L : Libm.
Notation FO := (F64Ops L).
Fixpoint tameb {G : Gen b64} (d : Dyn b64 G) (l : list (Call b64)) : bool :=
  match l with
  | [] => true
  | c :: r => is_finite (k_dt c) && Bltb (b64_ofZ 0) (k_dt c) && negb (@ltb _ FO (@dtmax _ FO) (k_dt c)) && small3 (s_angvel (d_state d)) &&
      match @process _ FO _ d (k_act c) (k_dt c) (k_ext c) (k_noise c) with Ok d' => tameb d' r | _ => true end
  end.
Lemma tameb_tame {G : Gen b64} l : forall d : Dyn b64 G, tameb d l = true -> tame L d l.
Proof.
  induction l as [|c r IH]; intros d H; cbn [tameb tame] in *; [exact I|].
  rewrite !andb_true_iff in H. destruct H as [[[[F P] S] W] N]. apply negb_true_iff in S.
  split; [exact F|]. split; [apply pos_val; assumption|]. split.
  - split; [apply small3_rates; exact W|]. intros E. rewrite S in E. discriminate.
  - destruct (@process _ FO _ d (k_act c) (k_dt c) (k_ext c) (k_noise c)) as [d'|d'|]; [apply IH; exact N|exact I|exact I].
Qed.

(** A spinning vehicle with two rotors faster than the others, two steps of 1 ms. *)
#[local] Instance FO' : Ops b64 := F64Ops L.
Definition r_dyn : option (Dyn b64 gen1) :=
  @dyn_new _ FO _ 4 (@f_params L one one (@lit _ FO (-981) 100)) 0
    (mkState v0 q1 v0 v0 (mkV (@lit _ FO 1 2) (@lit _ FO (-1) 4) (@lit _ FO 3 4)) v0 v0 v0 [one; zero; one; zero] (repeat zero 4)).
Definition r_calls : list (Call b64) := repeat (mkCall [one; zero; one; zero] (@lit _ FO 1 1000) v0 false) 2.
Lemma r_ok : exists d d', r_dyn = Some d /\ unit_within (1/2) (s_ori (d_state d)) /\ tame L d r_calls /\ @dyn_run _ FO _ d r_calls = Some d' /\
  Beqb (qz (s_ori (d_state d'))) (b64_ofZ 0) = false.
Proof.
  destruct r_dyn as [d|] eqn:E.
  2:{ exfalso. assert (X : match r_dyn with Some _ => true | None => false end = true) by (vm_compute; reflexivity). rewrite E in X. discriminate. }
  assert (Q : s_ori (d_state d) = @q1 _ FO).
  { unfold r_dyn in E. apply dyn_new_state in E. rewrite E. reflexivity. }
  assert (T : tameb d r_calls = true).
  { assert (X : match r_dyn with Some x => tameb x r_calls | None => false end = true) by (vm_compute; reflexivity). rewrite E in X. exact X. }
  assert (Z : match @dyn_run _ FO _ d r_calls with Some y => negb (Beqb (qz (s_ori (d_state y))) (b64_ofZ 0)) | None => false end = true).
  { assert (X : match r_dyn with Some x => match @dyn_run _ FO _ x r_calls with Some y => negb (Beqb (qz (s_ori (d_state y))) (b64_ofZ 0)) | None => false end | None => false end = true) by (vm_compute; reflexivity). rewrite E in X. exact X. }
  destruct (@dyn_run _ FO _ d r_calls) as [d'|] eqn:R; [|discriminate]. exists d, d'.
  split; [reflexivity|]. split.
  - rewrite Q. split; [split; [|split; [|split]]; reflexivity|]. unfold sqlen.
    change (val (qw (@q1 _ FO))) with (val (b64_ofZ 1)). change (val (qx (@q1 _ FO))) with 0. change (val (qy (@q1 _ FO))) with 0. change (val (qz (@q1 _ FO))) with 0.
    rewrite val_one. apply Rabs_le. lra.
  - split; [apply tameb_tame; exact T|]. split; [exact R|]. apply negb_true_iff. exact Z.
Qed.

(** The odometry with filter constant 1/10 and a turning vehicle. *)
Definition r_odp : OdomParams b64 := mkODP (@lit _ FO 1 10) (@q1 _ FO).
Definition r_update : OdomOp b64 := OUpdate (mkV (@lit _ FO 1 2) (@lit _ FO (-1) 4) (@lit _ FO 3 4)) (@v0 _ FO) (@lit _ FO 1 100).
Lemma r_odom : fin (odp_alpha r_odp) /\ 0 <= val (odp_alpha r_odp) <= 1 /\ unit_within (1/2) (odp_ori r_odp) /\ odom_tame (bpow radix2 0) r_update.
Proof.
  assert (A : below1 (odp_alpha r_odp) = true) by (vm_compute; reflexivity). apply below1_val in A as [A1 A2].
  assert (P : 0 < val (odp_alpha r_odp)) by (apply pos_val; [exact A1|vm_compute; reflexivity]).
  assert (B : below1 (@lit _ FO 1 100) = true) by (vm_compute; reflexivity). apply below1_val in B as [B1 B2].
  assert (P2 : 0 < val (@lit _ FO 1 100)) by (apply pos_val; [exact B1|vm_compute; reflexivity]).
  apply Rabs_le_inv in A2. apply Rabs_le_inv in B2.
  split; [exact A1|]. split; [lra|]. split.
  - split; [split; [|split; [|split]]; reflexivity|]. unfold sqlen.
    change (val (qw (odp_ori r_odp))) with (val (b64_ofZ 1)). change (val (qx (odp_ori r_odp))) with 0. change (val (qy (odp_ori r_odp))) with 0. change (val (qz (odp_ori r_odp))) with 0.
    rewrite val_one. apply Rabs_le. lra.
  - split; [|split; [exact B1|lra]]. change (bpow radix2 0) with 1. apply small3_comps. vm_compute. reflexivity.
Qed.
End Run.
