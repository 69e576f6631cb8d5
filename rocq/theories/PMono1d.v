(** A larger error never gives a smaller command in double precision: the scalar controller with given rates. *)

From Coq Require Import ZArith Bool List Reals Lra Lia.
From Flocq Require Import Core BinarySingleNaN.
From Verif Require Import Scalar Float64 LinAlg MUtils MPid MPid1 SpecDyn SpecPid SpecRound SpecNumber SpecPidNum SpecExact SpecMono
  PBase PFloat PRound PQuat64 PUnit64 PUp PNumber PExact PPid PPidNum PPid64 PLag PMono PMono64 PMono1.
Import ListNotations.

Section Mono1d.
Variable L : Libm.
#[local] Instance FO : Ops b64 := F64Ops L.
Variables (g h : Z).
Hypothesis Hgh : (0 <= g <= h)%Z.
Hypothesis Hcap : (h + 2 * g + 60 <= 1000)%Z.
Notation big := (h + g + 56)%Z.
Local Notation vle x y := (Rle (val x) (val y)).
Local Open Scope sc_scope.

Lemma larger64_1_d pp ops p dt e1 e2 d1 d2 : sane_settings1 g pp -> Forall (sane_op1 g h) ops -> sane_step g dt -> upto h e1 -> upto h e2 -> upto h d1 -> upto h d2 ->
  pid1_run (pid1_new pp) ops = Some p -> willing641 p -> vle e1 e2 -> vle d1 d2 -> (pp1_rflag (pid1_get_params p) = false \/ val e1 < val e2)%R ->
  exists q1 q2, pid1_step p (Op1ComputeD dt e1 d1) = Some q1 /\ pid1_step p (Op1ComputeD dt e2 d2) = Some q2 /\ vle (pid1_output q1) (pid1_output q2).
Proof.
  intros Hs Ho D U1 U2 V1 V2 Hr W E Lf St. pose proof (run1_ok L g h Hgh Hcap pp ops p Hs Ho Hr) as Hp. pose proof Hp as [C S]. clear pp ops Hs Ho Hr.
  destruct W as (Kp & Ki & Kd). cbn [pid1_get_params pp1_kp pp1_ki pp1_kd pp1_rflag] in *.
  assert (S1 : st1_ok g h (s1_init (pid1_s p) e1)) by exact (init1_ok L g h _ _ S U1). assert (S2 : st1_ok g h (s1_init (pid1_s p) e2)) by exact (init1_ok L g h _ _ S U2).
  assert (F : s1_acc (s1_init (pid1_s p) e1) = s1_acc (s1_init (pid1_s p) e2)) by (unfold s1_init; destruct (s1_first (pid1_s p)); reflexivity).
  destruct (acc1_ok L g h Hgh Hcap _ _ dt e1 C S1 D U1) as (a1 & A1 & B1). destruct (acc1_ok L g h Hgh Hcap _ _ dt e2 C S2 D U2) as (a2 & A2 & B2).
  pose proof C as (K1 & K2 & K3 & K4 & K5 & _).
  assert (La : vle a1 a2). { assert (A1c : pid1_acc (pid1_c p) (s1_acc (s1_init (pid1_s p) e1)) dt e1 = Some a1) by exact A1. rewrite F in A1c. exact (le_acc1 L g h Hgh Hcap _ _ dt e1 e2 a1 a2 C S2 D U1 U2 E St A1c A2). }
  pose proof (gain1_ok L g h Hgh Hcap h _ _ ltac:(lia) K1 U1) as P1. pose proof (gain1_ok L g h Hgh Hcap h _ _ ltac:(lia) K1 U2) as P2.
  pose proof (gain1_ok L g h Hgh Hcap big _ _ ltac:(lia) K2 B1) as I1. pose proof (gain1_ok L g h Hgh Hcap big _ _ ltac:(lia) K2 B2) as I2.
  pose proof (gain1_ok L g h Hgh Hcap h _ _ ltac:(lia) K3 V1) as Q1. pose proof (gain1_ok L g h Hgh Hcap h _ _ ltac:(lia) K3 V2) as Q2.
  destruct (out1_ok L g h Hgh Hcap _ _ _ _ C P1 I1 Q1) as (o1 & O1 & _). destruct (out1_ok L g h Hgh Hcap _ _ _ _ C P2 I2 Q2) as (o2 & O2 & _).
  assert (A1' : pid1_acc (pid1_c p) (s1_acc (s1_init (pid1_s p) e1)) dt e1 = Some a1) by exact A1.
  assert (A2' : pid1_acc (pid1_c p) (s1_acc (s1_init (pid1_s p) e2)) dt e2 = Some a2) by exact A2.
  assert (O1' : pid1_out (pid1_c p) (c1_kp (pid1_c p) * e1) (c1_ki (pid1_c p) * a1) (c1_kd (pid1_c p) * d1) = Some o1) by exact O1.
  assert (O2' : pid1_out (pid1_c p) (c1_kp (pid1_c p) * e2) (c1_ki (pid1_c p) * a2) (c1_kd (pid1_c p) * d2) = Some o2) by exact O2.
  assert (Z : forall e d a o, pid1_acc (pid1_c p) (s1_acc (s1_init (pid1_s p) e)) dt e = Some a -> pid1_out (pid1_c p) (c1_kp (pid1_c p) * e) (c1_ki (pid1_c p) * a) (c1_kd (pid1_c p) * d) = Some o ->
    exists q, pid1_step p (Op1ComputeD dt e d) = Some q /\ pid1_output q = o).
  { intros e d a o X Y. eexists. split; [cbn [pid1_step]; unfold pid1_compute_d; cbv zeta; rewrite X; cbn [bindo]; rewrite Y; cbn [bindo]; reflexivity|reflexivity]. }
  destruct (Z _ _ _ _ A1' O1') as (q1 & Z1 & R1). destruct (Z _ _ _ _ A2' O2') as (q2 & Z2 & R2).
  exists q1, q2. split; [exact Z1|]. split; [exact Z2|]. rewrite R1, R2.
  refine (le_out1 L g h Hgh Hcap _ _ _ _ _ _ _ _ _ C P1 P2 I1 I2 Q1 Q2 _ _ _ O1 O2).
  - apply (le_mul L h g); [exact K1|exact U1|exact U2|lia|exact Kp|exact E].
  - apply (le_mul L big g); [exact K2|exact B1|exact B2|lia|exact Ki|exact La].
  - apply (le_mul L h g); [exact K3|exact V1|exact V2|lia|exact Kd|exact Lf].
Qed.
End Mono1d.
