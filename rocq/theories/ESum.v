(** Concrete runs in binary64: sums of speed times step. *)

From Coq Require Import ZArith Bool List Reals Lra Lia.
From Flocq Require Import Core BinarySingleNaN.
From Verif Require Import Scalar Float64 LinAlg MUtils MModel MDynamics MImu SpecDyn SpecRun SpecRound SpecNumber SpecSum PBase PFloat PRound PDyn PUnit64 PUp PNumber PSum EBase ERound ENumber PWitDyn EPidNum EImuNum.
Import ListNotations.
Local Open Scope R_scope.

Section Case.
Variable L : Libm.
#[local] Instance FO : Ops b64 := F64Ops L.
Fixpoint seenb {G : Gen b64} (q : State b64 -> bool) (d : Dyn b64 G) (l : list (Call b64)) : bool :=
  q (d_state d) && match l with [] => true | c :: r => match process d (k_act c) (k_dt c) (k_ext c) (k_noise c) with Ok d' | Throw d' => seenb q d' r | UB => true end end.
Lemma seenb_ok {G : Gen b64} q (Q : State b64 -> Prop) l : (forall s, q s = true -> Q s) -> forall d : Dyn b64 G, seenb q d l = true -> seen L Q d l.
Proof.
  intros H. induction l as [|c r IH]; intros d E; cbn [seenb seen] in *; apply andb_true_iff in E as [A B]; (split; [apply H, A|]); [exact I|].
  destruct (process d _ _ _ _) as [d'|d'|]; [apply IH, B|apply IH, B|exact I].
Qed.
Lemma below1_within x : below1 x = true -> within 1 x.
Proof. intros H. exact (below1_val x H). Qed.
Definition ms : b64 := lit 1 1000.
Lemma ms_step : short_call L (1/64) (mkCall [one; zero; one; zero] ms v0 false).
Proof.
  split; [vm_compute; reflexivity|]. split; [|vm_compute; reflexivity]. cbn [k_dt].
  assert (E1 : B2SF ms = SpecFloat.S754_finite false 4611686018427388 (-62)) by (vm_compute; reflexivity).
  generalize dependent ms. intros x E1. unfold val. rewrite <- SF2R_B2SF, E1. cbn [SF2R cond_Zopp]. unfold F2R. cbn [Fnum Fexp].
  replace (1/64) with (2^56 * 2^(-62)) by (rewrite <- bpow_plus; change (2^(56 + -62)) with (/ 64); lra). apply Rmult_le_compat_r; [apply bpow_ge_0|]. change (2^56) with 72057594037927936. lra.
Qed.
Definition q_fall (s : State b64) : bool := below1 (vz (s_pos s)) && below1 (vz (s_vel s)).
Lemma fall_case : exists d d', r_dyn L = Some d /\ Forall (short_call L (1/64)) (r_calls L) /\
  seen L (fun s => within 1 (pr AZ (s_pos s)) /\ within 1 (pr AZ (s_vel s))) d (r_calls L) /\ dyn_run d (r_calls L) = Some d' /\ Bltb (vz (s_pos (d_state d'))) (b64_ofZ 0) = true.
Proof.
  assert (X : match r_dyn L with Some x => seenb q_fall x (r_calls L) && match dyn_run x (r_calls L) with Some y => Bltb (vz (s_pos (d_state y))) (b64_ofZ 0) | None => false end | None => false end = true) by (vm_compute; reflexivity).
  destruct (r_dyn L) as [d|]; [|discriminate X]. apply andb_true_iff in X as [X1 X2]. destruct (dyn_run d (r_calls L)) as [d'|] eqn:R; [|discriminate X2]. exists d, d'.
  split; [reflexivity|]. split; [constructor; [exact ms_step|constructor; [exact ms_step|constructor]]|]. split; [|split; [exact R|exact X2]].
  apply (seenb_ok q_fall); [|exact X1]. intros s E. apply andb_true_iff in E as [A B]. split; apply below1_within; assumption.
Qed.

(** Far away a slow vehicle does not move at all. *)
Definition far : b64 := b64_ofZ (2 ^ 60).
Definition far_dyn : option (Dyn b64 gen1) := dyn_new 4 (n_params L) 0 (mkState (mkV far zero zero) q1 (mkV one zero zero) v0 v0 v0 v0 v0 (repeat zero 4) (repeat zero 4)).
Lemma far_case : exists d d' : Dyn b64 gen1, far_dyn = Some d /\ process d (repeat zero 4) ms v0 false = Ok d' /\ 0 < val (vx (s_vel (d_state d))) * val ms /\
  val (vx (s_pos (d_state d'))) = val (vx (s_pos (d_state d))).
Proof.
  assert (X : match far_dyn with Some x => match process x (repeat zero 4) ms v0 false with Ok y => is_finite (vx (s_pos (d_state y))) && Beqb (vx (s_pos (d_state y))) far | _ => false end | None => false end = true) by (vm_compute; reflexivity).
  destruct far_dyn as [d|] eqn:E; [|discriminate X]. destruct (process d _ ms v0 false) as [d'|d'|] eqn:R; [|discriminate X|discriminate X]. exists d, d'. split; [reflexivity|]. split; [exact R|].
  apply dyn_new_state in E. apply andb_true_iff in X as [X0 X]. rewrite Beqb_correct in X by (exact X0 || reflexivity). destruct (Req_bool_spec (B2R (vx (s_pos (d_state d')))) (B2R far)) as [X1|]; [|discriminate X]. clear X. rename X1 into X.
  rewrite E. cbn [s_vel s_pos vx]. split; [|exact X]. change (val one) with (val (b64_ofZ 1)). rewrite val_one, Rmult_1_l. apply pos_val; vm_compute; reflexivity.
Qed.

Definition odom_l : list (V3 b64 * V3 b64 * b64) := repeat (mkV (lit 1 7) (lit (-1) 9) zero, mkV (lit 1 3) (lit 1 4) zero, ms) 3.
Fixpoint odom_seenb (q : Odom b64 -> bool) (o : Odom b64) (l : list (V3 b64 * V3 b64 * b64)) : bool :=
  q o && match l with [] => true | (g, a, dt) :: r => odom_seenb q (odom_update o g a dt) r end.
Lemma odom_seenb_ok q (Q : Odom b64 -> Prop) l : (forall s, q s = true -> Q s) -> forall o, odom_seenb q o l = true -> odom_seen L Q o l.
Proof.
  intros H. induction l as [|[[g a] dt] r IH]; intros o E; cbn [odom_seenb odom_seen] in *; apply andb_true_iff in E as [A B]; (split; [apply H, A|]); [exact I|apply IH, B].
Qed.
Definition q_odom (o : Odom b64) : bool := below1 (vx (od_pos o)) && below1 (vx (od_vel o)) && below1 (vx (od_linacc o)).
Lemma odom_case : let o := odom_new (odn_p L) in Forall (fun c => Rabs (val (snd c)) <= 1/64) odom_l /\
  odom_seen L (fun o => within 1 (pr AX (odom_get_position o)) /\ within 1 (pr AX (odom_get_linear_velocity o)) /\ within 1 (pr AX (odom_get_linear_acceleration o))) o odom_l /\
  Bltb (b64_ofZ 0) (vx (odom_get_position (odom_run o (odom_calls odom_l)))) = true.
Proof.
  cbv zeta. split; [|split; [|vm_compute; reflexivity]].
  - destruct ms_step as (F & B & _). cbn [k_dt] in F, B. assert (P : 0 < val ms) by (apply pos_val; vm_compute; reflexivity).
    assert (A : Rabs (val ms) <= 1/64) by (rewrite Rabs_pos_eq; lra). constructor; [exact A|constructor; [exact A|constructor; [exact A|constructor]]].
  - apply (odom_seenb_ok q_odom); [|vm_compute; reflexivity]. intros s E. unfold q_odom in E. rewrite !andb_true_iff in E. destruct E as [[A B] C].
    split; [apply below1_within, A|split; [apply below1_within, B|apply below1_within, C]].
Qed.
End Case.
