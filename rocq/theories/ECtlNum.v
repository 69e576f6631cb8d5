(** A concrete flight controller in binary64. *)

From Coq Require Import ZArith Bool List Reals Lra Lia.
From Flocq Require Import Core BinarySingleNaN.
From Verif Require Import Scalar Float64 LinAlg MUtils MPid MControl MCtlRun SpecDyn SpecRound SpecNumber SpecPidNum SpecCtlNum PBase PFloat PRound PQuat64 PUnit64 PUp PNumber PExact PPidNum PNorm64 PCtlNum ERound ENumber EPidNum.
Import ListNotations.
Local Open Scope R_scope.

(** Numbers up to 1024; steps from 1/128 to 1024. *)
Lemma kilo_val : fin (b64_ofZ 1024) /\ val (b64_ofZ 1024) = 2^10.
Proof.
  split; [reflexivity|]. assert (E : B2SF (b64_ofZ 1024) = SpecFloat.S754_finite false 4503599627370496 (-42)) by (vm_compute; reflexivity).
  unfold val. rewrite <- SF2R_B2SF, E. cbn [SF2R cond_Zopp]. unfold F2R. cbn [Fnum Fexp].
  change (IZR 4503599627370496) with (2^52). rewrite <- bpow_plus. reflexivity.
Qed.
Definition kb (x : b64) : bool := is_finite x && Bleb x (b64_ofZ 1024) && Bleb (Bopp (b64_ofZ 1024)) x.
Lemma kb_ok x : kb x = true -> upto 32 x.
Proof.
  unfold kb. rewrite !andb_true_iff. intros [[F A] B]. split; [exact F|]. destruct kilo_val as [FB VB].
  rewrite Bleb_correct in A by assumption.
  rewrite Bleb_correct in B by (rewrite ?is_finite_Bopp; assumption). rewrite B2R_Bopp in B. change (B2R (b64_ofZ 1024)) with (val (b64_ofZ 1024)) in *. rewrite VB in *.
  destruct (Rle_bool_spec (B2R x) (2^10)) as [A'|]; [|discriminate].
  destruct (Rle_bool_spec (- 2^10) (B2R x)) as [B'|]; [|discriminate]. apply Rle_trans with (2^10); [|apply bpow_le; lia]. apply Rabs_le. unfold val. lra.
Qed.
Definition k3b (v : V3 b64) : bool := kb (vx v) && kb (vy v) && kb (vz v).
Lemma k3b_ok v : k3b v = true -> upto3 32 v.
Proof. unfold k3b. rewrite !andb_true_iff. intros [[A B] C]. split; [|split]; apply kb_ok; assumption. Qed.
Definition k9b (m : M3 b64) : bool := k3b (mkV (m00 m) (m01 m) (m02 m)) && k3b (mkV (m10 m) (m11 m) (m12 m)) && k3b (mkV (m20 m) (m21 m) (m22 m)).
Lemma k9b_ok m : k9b m = true -> upto9 32 m.
Proof. unfold k9b. rewrite !andb_true_iff. intros [[A B] C]. split; [|split]; apply k3b_ok; assumption. Qed.
Lemma inv128_small : 2^(-32) <= val inv128.
Proof.
  assert (E : B2SF inv128 = SpecFloat.S754_finite false 4503599627370496 (-59)) by (vm_compute; reflexivity).
  unfold val. rewrite <- SF2R_B2SF, E. cbn [SF2R cond_Zopp]. unfold F2R. cbn [Fnum Fexp].
  change (IZR 4503599627370496) with (2^52). rewrite <- bpow_plus. apply bpow_le. lia.
Qed.
Definition kstepb (x : b64) : bool := is_finite x && Bleb inv128 x && kb x.
Lemma kstepb_ok x : kstepb x = true -> sane_step 32 x.
Proof.
  unfold kstepb. rewrite !andb_true_iff. intros [[F A] B]. split; [|apply kb_ok, B]. split; [exact F|]. destruct inv128_val as [FB _].
  rewrite Bleb_correct in A by assumption. destruct (Rle_bool_spec (B2R inv128) (B2R x)) as [A'|]; [|discriminate].
  change (- (32))%Z with (-32)%Z. eapply Rle_trans; [exact inv128_small|exact A'].
Qed.
Definition kpairb (u l : b64) : bool := kb u && kb l && pairb u l.
Lemma kpairb_ok u l : kpairb u l = true -> limit_pair 32 u l.
Proof. unfold kpairb. rewrite !andb_true_iff. intros [[A B] C]. split; [apply kb_ok, A|]. split; [apply kb_ok, B|]. apply pairb_ok in C. apply C. Qed.
Definition kweightsb (v : V3 b64) : bool := weightb (vx v) && weightb (vy v) && weightb (vz v).
Definition ksetb (p : PidParams b64) : bool :=
  k3b (pp_kp p) && k3b (pp_ki p) && k3b (pp_kd p) && k3b (pp_aw p) && kweightsb (pp_alpha p) &&
  (kpairb (vx (pp_up p)) (vx (pp_lo p)) && kpairb (vy (pp_up p)) (vy (pp_lo p)) && kpairb (vz (pp_up p)) (vz (pp_lo p))).
Lemma ksetb_ok p : ksetb p = true -> sane_settings 32 p.
Proof.
  unfold ksetb, kweightsb. rewrite !andb_true_iff. intros [[[[[A B] C] D] [[W1 W2] W3]] [[P1 P2] P3]].
  split; [apply k3b_ok, A|]. split; [apply k3b_ok, B|]. split; [apply k3b_ok, C|]. split; [apply k3b_ok, D|].
  split; [split; [|split]; apply weightb_ok; assumption|]. split; [|split]; apply kpairb_ok; assumption.
Qed.

(** A sine and cosine that return numbers. *)
Definition flat_libm : Libm :=
  {| lm_sin := fun _ => Bdiv mode_NE (b64_ofZ 6) (b64_ofZ 10); lm_cos := fun _ => Bdiv mode_NE (b64_ofZ 8) (b64_ofZ 10); lm_asin := fun _ => b64_ofZ 0; lm_atan2 := fun _ _ => b64_ofZ 1 |}.
Definition oneb (x : b64) : bool := is_finite x && Bleb x (b64_ofZ 1) && Bleb (Bopp (b64_ofZ 1)) x.
Lemma oneb_ok x : oneb x = true -> upto 0 x.
Proof.
  unfold oneb. rewrite !andb_true_iff. intros [[F A] B]. split; [exact F|].
  rewrite Bleb_correct in A by (exact F || reflexivity).
  rewrite Bleb_correct in B by (exact F || (rewrite is_finite_Bopp; reflexivity)). rewrite B2R_Bopp in B. change (B2R (b64_ofZ 1)) with (val (b64_ofZ 1)) in *. rewrite val_one in *.
  destruct (Rle_bool_spec (B2R x) 1) as [A'|]; [|discriminate].
  destruct (Rle_bool_spec (- (1)) (B2R x)) as [B'|]; [|discriminate]. change (2^0) with 1. apply Rabs_le. unfold val. lra.
Qed.
Lemma flat_trig : trig_range flat_libm.
Proof. intros x _. split; apply oneb_ok; vm_compute; reflexivity. Qed.

Section Case.
#[local] Instance FO : Ops b64 := F64Ops flat_libm.
Notation c3 x := (mkV x x x).
(** A quadrotor: position gains 1, velocity gains 3 with limits, attitude gain 5, rate gains 20. *)
Definition kpp (kp up : b64) : PidParams b64 := mkPP (c3 kp) (c3 (lit 1 10)) (c3 (lit 1 7)) (c3 one) (c3 (lit 1 2)) true true (c3 up) (c3 (neg up)).
Definition k_rows : list (V3 b64 * V3 b64) :=
  [(mkV zero zero (ofZ 250), mkV (ofZ 1000) (ofZ (-1000)) (ofZ 500)); (mkV zero zero (ofZ 250), mkV (ofZ (-1000)) (ofZ (-1000)) (ofZ (-500)));
   (mkV zero zero (ofZ 250), mkV (ofZ (-1000)) (ofZ 1000) (ofZ 500)); (mkV zero zero (ofZ 250), mkV (ofZ 1000) (ofZ 1000) (ofZ (-500)))].
Definition k_ctl : CtlParams b64 :=
  mkCP (mkAP one (mkM (ofZ 5) zero zero zero (ofZ 5) zero zero zero (ofZ 5)) (mkV zero zero (lit (-981) 100)))
       (mkIP (mkM (lit 1 100) zero zero zero (lit 1 100) zero zero zero (lit 2 100)) k_rows (kpp (ofZ 20) (ofZ 1000))) (kpp one (ofZ 20)) (kpp (ofZ 2) (ofZ 20)) (kpp (ofZ 3) (ofZ 20)).
Definition k_ops : list (CtlOp b64) :=
  [CPos v0 mI (mkV (lit 1 3) zero zero) (c3 (lit 1 9)) (mkV (ofZ 3) (ofZ (-2)) (ofZ 5)) (lit 1 4) (lit 1 100);
   CMass (lit 11 10);
   CTraj v0 (c3 (lit 1 3)) mI v0 (c3 one) (c3 (lit 1 7)) v0 zero (lit 1 100);
   CAcro (c3 (lit 1 9)) (ofZ 12) (c3 (lit 1 5)) (lit 1 50)].
Lemma k_ctl_ok : sane_ctl k_ctl.
Proof.
  split; [split; [apply kb_ok; vm_compute; reflexivity|split; [apply k9b_ok; vm_compute; reflexivity|apply k3b_ok; vm_compute; reflexivity]]|].
  split; [split; [apply k9b_ok; vm_compute; reflexivity|split; [|apply ksetb_ok; vm_compute; reflexivity]]|].
  { apply (forallb_Forall (fun r => k3b (fst r) && k3b (snd r))); [intros r; rewrite andb_true_iff; intros [A B]; split; apply k3b_ok; assumption|vm_compute; reflexivity]. }
  split; [|split]; apply ksetb_ok; vm_compute; reflexivity.
Qed.
Ltac b3 := apply k3b_ok; vm_compute; reflexivity.
Ltac b9 := apply k9b_ok; vm_compute; reflexivity.
Ltac bs := apply kstepb_ok; vm_compute; reflexivity.
Lemma k_ops_ok : Forall sane_ctl_op k_ops.
Proof.
  unfold k_ops. constructor; [split; [b3|split; [b9|split; [b3|split; [b3|split; [b3|split; [vm_compute; reflexivity|bs]]]]]]|].
  constructor; [apply kb_ok; vm_compute; reflexivity|].
  constructor; [split; [b3|split; [b3|split; [b9|split; [b3|split; [b3|split; [b3|split; [b3|split; [vm_compute; reflexivity|bs]]]]]]]]|].
  constructor; [|constructor]. split; [b3|split; [apply kb_ok; vm_compute; reflexivity|split; [b3|bs]]].
Qed.
Lemma k_case : trig_range flat_libm /\ sane_ctl k_ctl /\ Forall sane_ctl_op k_ops /\
  List.length (get_desired_motor_angular_velocity (ctl_run (ctl_new 4 k_ctl) k_ops)) = 4%nat /\
  forallb (fun x => Bltb (b64_ofZ 0) x) (get_desired_motor_angular_velocity (ctl_run (ctl_new 4 k_ctl) k_ops)) = true.
Proof. split; [exact flat_trig|]. split; [exact k_ctl_ok|]. split; [exact k_ops_ok|]. split; vm_compute; reflexivity. Qed.
End Case.
