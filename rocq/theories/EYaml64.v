(** The shipped configuration file in binary64 (C112). *)

From Coq Require Import ZArith List Bool String Lia Reals Lra.
From Flocq Require Import Core BinarySingleNaN.
From Verif Require Import Scalar Float64 LinAlg MUtils MModel MDynamics MPid MControl MCtlRun MImu MSim MText MExample MScript MConfig MYaml
  SpecRun SpecSim SpecText SpecExample SpecConfig SpecRound SpecScript SpecYaml SpecShipped
  PBase PFloat PRound PWell PExample PConfig PYaml PYamlMain PTick EYaml.
Import ListNotations.
Local Open Scope string_scope.

Section B64.
Variable L : Libm.
#[local] Instance FO : Ops b64 := F64Ops L.
Context {G H : Gen b64}.
Notation ms := (lit 1 1000 : b64).
Notation a := (time_at ms).

Lemma shipped_check : check_params (doc_model shipped_doc) = true.
Proof. vm_compute. reflexivity. Qed.
Lemma shipped_fits p : fitting_params 4 (program_params p (FromFile shipped_doc)).
Proof. split; [|destruct p; (split; [reflexivity|]); split; reflexivity]. destruct p; exact shipped_check. Qed.
Lemma shipped_well p : exists s : Sim b64 G H, get_simulator p (FromFile shipped_doc) = Some s /\ gwell 4 s.
Proof.
  assert (F' : Forall (fits_short (G := G) (H := H) 4) [SEnableFloor (program_floor (FromFile shipped_doc)); SArm]).
  { apply Forall_cons; [exact Logic.I|]. apply Forall_cons; [exact Logic.I|]. apply Forall_nil. }
  destruct (gsimulator_defined (F64_sane L) 4 _ _ (shipped_fits p) F') as [s K].
  pose proof (gafter_well (F64_sane L) 4 _ _ s (shipped_fits p) F' K) as W. exists s. split; [|exact W].
  unfold sim_after in K. unfold get_simulator. destruct (sim_new 4 (program_params p (FromFile shipped_doc))) as [s0|]; [|discriminate].
  exact K.
Qed.

(** Comparisons of the clock, by its exact values. *)
Local Open Scope R_scope.
Lemma of60 : fin (ofZ 60 : b64) /\ val (ofZ 60 : b64) = 60.
Proof.
  destruct (sf_val (ofZ 60) false 8444249301319680 (-47)) as [F E]; [vm_compute; reflexivity|]. split; [exact F|]. rewrite E.
  unfold F2R. cbn [Fnum Fexp cond_Zopp]. change (bpow radix2 (-47)) with (/ 140737488355328). lra.
Qed.
Lemma share8 : fin (div (ofZ 60) (ofZ 8) : b64) /\ val (div (ofZ 60) (ofZ 8) : b64) = 7.5.
Proof.
  destruct (sf_val (div (ofZ 60) (ofZ 8)) false 8444249301319680 (-50)) as [F E]; [vm_compute; reflexivity|]. split; [exact F|]. rewrite E.
  unfold F2R. cbn [Fnum Fexp cond_Zopp]. change (bpow radix2 (-50)) with (/ 1125899906842624). lra.
Qed.
Lemma share9 : fin (div (ofZ 60) (ofZ 9) : b64) /\ 6.6661 < val (div (ofZ 60) (ofZ 9) : b64).
Proof.
  destruct (sf_val (div (ofZ 60) (ofZ 9)) false 7505999378950827 (-50)) as [F E]; [vm_compute; reflexivity|]. split; [exact F|]. rewrite E.
  unfold F2R. cbn [Fnum Fexp cond_Zopp]. change (bpow radix2 (-50)) with (/ 1125899906842624). lra.
Qed.
Lemma above (x y : b64) : fin x -> fin y -> val x < val y -> ltb x y = true.
Proof. intros Fx Fy Lt. exact (proj2 (ltb_val x y Fx Fy) Lt). Qed.
Lemma not_above (x y : b64) : fin x -> fin y -> val y <= val x -> ltb x y = false.
Proof.
  intros Fx Fy Le. destruct (ltb x y) eqn:E; [|reflexivity]. apply (ltb_val x y Fx Fy) in E. lra.
Qed.

Ltac reading L at_j := match goal with |- context [val ?x] =>
  let E := fresh "E" in pose proof (proj2 (shown L _ _ (at_j L))) as E;
  match type of E with _ = IZR ?z / _ => let w := eval vm_compute in z in change (IZR z) with (IZR w) in E end;
  match type of E with _ = ?r => assert (E' : val x = r) by exact E; rewrite E'; lra end end.
Lemma read_6666 : val (a (Z.to_nat 6666)) <= 6.6661. Proof. reading L at_6666. Qed.
Lemma read_7499 : val (a (Z.to_nat 7499)) <= 7.5. Proof. reading L at_7499. Qed.
Lemma read_7500 : 7.5 < val (a (Z.to_nat 7500)). Proof. reading L at_7500. Qed.
Lemma read_60000 : val (a (Z.to_nat 60000)) < 60. Proof. reading L at_60000. Qed.
Lemma read_60001 : 60 <= val (a (Z.to_nat 60001)). Proof. reading L at_60001. Qed.

Definition K60 : nat := Z.to_nat 60001.
Lemma clock8 : clock 8 (ofZ 60) ms K60 zero zero 0 = Undefined.
Proof.
  destruct share8 as [Fs Es]. destruct of60 as [F6 E6].
  change (clock 8 (ofZ 60) ms K60 (a 0) (a 0) 0 = Undefined).
  assert (Ok : forall i, (i <= Z.to_nat 60000)%nat -> fin (a i)) by (intros i Hi; apply (tick_ok L); lia).
  apply (clock_short 8 (ofZ 60) ms (Z.to_nat 7500)) with (d := Z.to_nat 60000).
  - lia.
  - intros j Hj. change (ltb (div (ofZ 60) (ofZ 8)) (a j) = false). apply not_above; [exact Fs|apply Ok; lia|].
    rewrite Es. apply Rle_trans with (val (a (Z.to_nat 7499))); [apply (tick_mono L); lia|].
    exact read_7499.
  - change (ltb (div (ofZ 60) (ofZ 8)) (a (Z.to_nat 7500)) = true). apply above; [exact Fs|apply Ok; lia|].
    rewrite Es. exact read_7500.
  - intros i Hi. apply above; [apply Ok; lia|exact F6|]. rewrite E6.
    apply Rle_lt_trans with (val (a (Z.to_nat 60000))); [apply (tick_mono L); lia|].
    exact read_60000.
  - lia.
  - lia.
  - lia.
  - lia.
  - unfold K60. lia.
Qed.
Lemma clock9 k : match clock 9 (ofZ 60) ms k zero zero 0 with Flying _ => (k <= K60)%nat | Landed (t, _, _) => ltb t (ofZ 60) = false | _ => False end.
Proof.
  destruct share9 as [Fs Es]. destruct of60 as [F6 E6].
  assert (Ok : forall i, (i <= Z.to_nat 60001)%nat -> fin (a i)) by (intros i Hi; apply (tick_ok L); lia).
  assert (HJ : forall j, (j < Z.to_nat 6667)%nat -> ltb (div (ofZ 60) (ofZ 9)) (a j) = false).
  { intros j Hj. apply not_above; [exact Fs|apply Ok; lia|].
    apply Rle_trans with (val (a (Z.to_nat 6666))); [apply (tick_mono L); lia|].
    pose proof read_6666. lra. }
  assert (HM : ltb (a (Z.to_nat 60001)) (ofZ 60) = false).
  { apply not_above; [apply Ok; lia|exact F6|]. rewrite E6. exact read_60001. }
  pose proof (clock_enough 9 (ofZ 60) ms (Z.to_nat 6667) (Z.to_nat 60001) HJ HM) as C.
  specialize (C ltac:(lia) k 0%nat 0%nat 0%nat ltac:(lia) ltac:(lia) ltac:(lia)).
  change (a 0) with (zero : b64) in C.
  pose proof (clock_flying 9 (ofZ 60) ms k 0 zero 0) as D. change (a 0) with (zero : b64) in D.
  destruct (clock 9 (ofZ 60) ms k zero zero 0) as [x|x| |]; [|exact C|exact C|exact C].
  destruct (Nat.le_gt_cases k K60) as [Le|Gt]; [exact Le|]. specialize (D (Z.to_nat 60001) Gt). cbn [Nat.add] in D. rewrite HM in D. discriminate.
Qed.

Lemma shipped_clock_case :
  ltb (div (ofZ 60) (ofZ 8)) (a (Z.to_nat 7499)) = false /\ ltb (div (ofZ 60) (ofZ 8)) (a (Z.to_nat 7500)) = true /\
  ltb (a (Z.to_nat 60000)) (ofZ 60) = true /\ ltb (a (Z.to_nat 60001)) (ofZ 60) = false.
Proof.
  destruct share8 as [Fs Es]. destruct of60 as [F6 E6].
  assert (Ok : forall i, (i <= Z.to_nat 60001)%nat -> fin (a i)) by (intros i Hi; apply (tick_ok L); lia).
  refine (conj _ (conj _ (conj _ _))).
  - apply not_above; [exact Fs|apply Ok; lia|]. rewrite Es. exact read_7499.
  - apply above; [exact Fs|apply Ok; lia|]. rewrite Es. exact read_7500.
  - apply above; [apply Ok; lia|exact F6|]. rewrite E6. exact read_60000.
  - apply not_above; [apply Ok; lia|exact F6|]. rewrite E6. exact read_60001.
Qed.

Lemma ms_short : ltb dtmax ms = false /\ leb ms zero = false.
Proof. split; vm_compute; reflexivity. Qed.
Lemma tour9 fmt v (s : Sim b64 G H) : gwell 4 s ->
  (forall k, sound (tour fmt v shipped_positions (ofZ 60) ms k s)) /\
  exists k f, tour fmt v shipped_positions (ofZ 60) ms k s = Landed f /\ ltb (fl_t f) (ofZ 60) = false.
Proof.
  intros W. destruct ms_short as [D0 D1].
  assert (X : forall k, match tour fmt v shipped_positions (ofZ 60) ms k s with Flying _ => (k <= K60)%nat | Landed f => ltb (fl_t f) (ofZ 60) = false | _ => False end).
  { intros k. destruct (gtour_in_step (F64_sane L) fmt v shipped_positions (ofZ 60) ms k s ltac:(discriminate) D0 D1 W) as (s1 & _ & X).
    pose proof (clock9 k) as C. change (List.length shipped_positions) with 9%nat in X.
    destruct (clock 9 (ofZ 60) ms k zero zero 0) as [[[t rt] ix]|[[t rt] ix]| |]; try contradiction;
      destruct (tour fmt v shipped_positions (ofZ 60) ms k s) as [f|f| |]; try contradiction.
    - exact C.
    - destruct X as (E & _). rewrite E. exact C. }
  split.
  - intros k. specialize (X k). destruct (tour fmt v shipped_positions (ofZ 60) ms k s); try contradiction; exact Logic.I.
  - exists (S K60). specialize (X (S K60)). destruct (tour fmt v shipped_positions (ofZ 60) ms (S K60) s) as [f|f| |]; try contradiction; [lia|].
    exists f. split; [reflexivity|exact X].
Qed.

Variable num : string -> option b64.
Hypothesis Hn : reads_table num.
Lemma shipped_lands64 fmt :
  (forall k, sound (main_fly (G := G) (H := H) num fmt (Holds shipped) k) /\ sound (main_fly_yaw (G := G) (H := H) num fmt (Holds shipped) k)) /\
  (exists k f, main_fly (G := G) (H := H) num fmt (Holds shipped) k = Landed f /\ ltb (fl_t f) (ofZ 60) = false) /\
  (exists k f, main_fly_yaw (G := G) (H := H) num fmt (Holds shipped) k = Landed f /\ ltb (fl_t f) (ofZ 60) = false).
Proof.
  destruct (shipped_well FlyExample) as (s & K & W).
  assert (E : forall k, main_fly (G := G) (H := H) num fmt (Holds shipped) k = tour fmt Positions shipped_positions (ofZ 60) ms k s).
  { intros k. rewrite (proj1 (shipped_flies num Hn fmt k)). unfold flown. rewrite K. reflexivity. }
  assert (E' : forall k, main_fly_yaw (G := G) (H := H) num fmt (Holds shipped) k = tour fmt (PositionsTurning (lit 1 10)) shipped_positions (ofZ 60) ms k s).
  { intros k. rewrite (proj1 (proj2 (proj2 (shipped_flies num Hn fmt k)))). unfold flown. rewrite K. reflexivity. }
  destruct (tour9 fmt Positions s W) as (S1 & k1 & f1 & L1 & M1).
  destruct (tour9 fmt (PositionsTurning (lit 1 10)) s W) as (S2 & k2 & f2 & L2 & M2).
  refine (conj _ (conj _ _)).
  - intros k. rewrite E, E'. split; [apply S1|apply S2].
  - exists k1, f1. rewrite E. split; assumption.
  - exists k2, f2. rewrite E'. split; assumption.
Qed.
Lemma shipped_overruns64 fmt : exists k, main_fly_velocity (G := G) (H := H) num fmt (Holds shipped) k = Undefined.
Proof.
  destruct (shipped_well FlyExample) as (s & K & W). destruct ms_short as [D0 D1]. exists K60.
  rewrite (proj1 (proj2 (shipped_flies num Hn fmt K60))). unfold flown. rewrite K.
  change (tour fmt Velocities shipped_velocities (ofZ 60) ms K60 s = Undefined).
  apply (gtour_overruns (F64_sane L)); [discriminate|exact D0|exact D1|exact W|exact clock8].
Qed.
End B64.
