(** Examples: what rounding does to the signed square and root. *)

From Coq Require Import ZArith Bool Reals Lra Lia.
From Flocq Require Import Core BinarySingleNaN.
From Verif Require Import Scalar Float64 MUtils SpecRound PBase PFloat PRound PUnit64 PRoot64.
Local Open Scope R_scope.

Definition b_small : b64 := binary_normalize 53 1024 prec53 max1024 mode_NE 1 (-600) false.
Definition b_large : b64 := binary_normalize 53 1024 prec53 max1024 mode_NE 1 600 false.

Section Ex.
Variable L : Libm.
Let O := F64Ops L.
Existing Instance O.

Lemma root_lost : (let x := b64_ofZ 2 in fin x /\ fin (sqks (sqrtks x)) /\ val (sqks (sqrtks x)) <> val x) /\
  (fin b_small /\ val b_small <> 0 /\ val (sqrtks (sqks b_small)) = 0) /\ (fin b_large /\ is_finite (sqks b_large) = false).
Proof.
  cbv zeta. split; [|split].
  - assert (F1 : fin (b64_ofZ 2)) by reflexivity. assert (F2 : fin (sqks (sqrtks (b64_ofZ 2)))) by (vm_compute; reflexivity).
    split; [exact F1|]. split; [exact F2|]. intros E. pose proof (Beqb_correct 53 1024 _ _ F2 F1) as B.
    assert (K : Beqb (sqks (sqrtks (b64_ofZ 2))) (b64_ofZ 2) = false) by (vm_compute; reflexivity).
    rewrite K in B. unfold val in E. rewrite Req_bool_true in B by exact E. discriminate B.
  - assert (F1 : fin b_small) by (vm_compute; reflexivity). assert (F2 : fin (sqrtks (sqks b_small))) by (vm_compute; reflexivity).
    split; [exact F1|]. split.
    + intros E. pose proof (Beqb_correct 53 1024 b_small (b64_ofZ 0) F1 fin_zero) as B.
      assert (K : Beqb b_small (b64_ofZ 0) = false) by (vm_compute; reflexivity). rewrite K in B. unfold val in E. rewrite Req_bool_true in B; [discriminate B|]. rewrite E. symmetry. exact val_zero.
    + pose proof (Beqb_correct 53 1024 _ (b64_ofZ 0) F2 fin_zero) as B.
      assert (K : Beqb (sqrtks (sqks b_small)) (b64_ofZ 0) = true) by (vm_compute; reflexivity). rewrite K in B.
      destruct (Req_bool_spec (B2R (sqrtks (sqks b_small))) (B2R (b64_ofZ 0))) as [E|E]; [|discriminate B]. unfold val. rewrite E. exact val_zero.
  - split; [vm_compute; reflexivity|]. vm_compute. reflexivity.
Qed.

(** 3 is an ordinary number; its square is 9. *)
Lemma root_case : let x := b64_ofZ 3 in fin x /\ (bpow radix2 (-511) <= Rabs (val x) < bpow radix2 499) /\ Beqb (sqks x) (b64_ofZ 9) = true.
Proof.
  cbv zeta. split; [reflexivity|]. split; [|vm_compute; reflexivity].
  assert (E1 : B2SF (b64_ofZ 3) = SpecFloat.S754_finite false 6755399441055744 (-51)) by (vm_compute; reflexivity).
  assert (V : val (b64_ofZ 3) = 3).
  { unfold val. rewrite <- SF2R_B2SF, E1. cbn [SF2R cond_Zopp]. unfold F2R. cbn [Fnum Fexp].
    change (bpow radix2 (-51)) with (/ IZR (Z.pow_pos 2 51)). replace (IZR (Z.pow_pos 2 51)) with 2251799813685248 by (f_equal; reflexivity). lra. }
  rewrite V, Rabs_right by lra. pose proof (bpow_le radix2 (-511) 0 ltac:(lia)) as A. pose proof (bpow_le radix2 2 499 ltac:(lia)) as B.
  change (bpow radix2 0) with 1 in A. change (bpow radix2 2) with 4 in B. lra.
Qed.
End Ex.
