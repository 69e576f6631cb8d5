(** Example: a vector of doubles clamped. *)

From Coq Require Import ZArith List Bool Lia Reals Lra.
From Flocq Require Import Core BinarySingleNaN.
From Verif Require Import Scalar Float64 MClamp SpecRun SpecClamp PBase PFloat PClamp.
Import ListNotations.
Local Open Scope R_scope.

Section Ex.
Variable L : Libm.
Let O := F64Ops L.
Existing Instance O.

(** 0.1 is not a float: the largest component ends up above the limit. *)
Lemma above_limit :
  exists mx y : b64, mx = lit 1 10 /\ clamp_vector narrow64 [one; zero] zero mx = Some [y; zero] /\ ltb mx y = true.
Proof.
  set (mx := lit 1 10 : b64). set (y := match narrow64 mx with Some y => y | None => zero end).
  exists mx, y. split; [reflexivity|]. split; [|vm_compute; reflexivity].
  assert (N : narrow64 mx = Some y).
  { unfold y. destruct (narrow64 mx) eqn:E; [reflexivity|]. exfalso.
    assert (K : match narrow64 mx with Some _ => true | None => false end = true) by (vm_compute; reflexivity). rewrite E in K. discriminate K. }
  unfold clamp_vector. rewrite N. change (narrow64 zero) with (Some (zero : b64)). cbn [bindo map_opt]. unfold clamp.
  assert (ltb y zero = false) as -> by (vm_compute; reflexivity). assert (ltb (one : b64) zero = false) as -> by (vm_compute; reflexivity).
  assert (ltb y (one : b64) = true) as -> by (vm_compute; reflexivity). assert (ltb (zero : b64) zero = false) as -> by (vm_compute; reflexivity).
  reflexivity.
Qed.
Lemma narrow_same : forall x : b64, option_map B2SF (narrow64 x) = Some (B2SF x) -> narrow64 x = Some x.
Proof. intros x E. destruct (narrow64 x) as [y|]; [|discriminate E]. cbn in E. injection E as E. f_equal. apply B2SF_inj, E. Qed.
(** Whole limits are floats. *)
Lemma inside_limit :
  clamp_vector narrow64 [lit 3 2; lit 3 10; neg (ofZ 2)] (neg one : b64) one = Some [one; lit 3 10; neg one].
Proof.
  assert (A : narrow64 (neg one : b64) = Some (neg one)) by (apply narrow_same; vm_compute; reflexivity).
  assert (B : narrow64 (one : b64) = Some one) by (apply narrow_same; vm_compute; reflexivity).
  unfold clamp_vector. rewrite A, B. cbn [bindo map_opt]. unfold clamp.
  assert (ltb (one : b64) (neg one) = false) as -> by (vm_compute; reflexivity).
  assert (ltb (lit 3 2 : b64) (neg one) = false) as -> by (vm_compute; reflexivity).
  assert (ltb (one : b64) (lit 3 2) = true) as -> by (vm_compute; reflexivity).
  assert (ltb (lit 3 10 : b64) (neg one) = false) as -> by (vm_compute; reflexivity).
  assert (ltb (one : b64) (lit 3 10) = false) as -> by (vm_compute; reflexivity).
  assert (ltb (neg (ofZ 2) : b64) (neg one) = true) as -> by (vm_compute; reflexivity). reflexivity.
Qed.
(** A limit no float can hold. *)
Lemma out_of_range : exists big : b64, is_finite big = true /\ clamp_vector narrow64 [one] zero big = None.
Proof.
  set (big := b64_ofZ (2 ^ 200)). exists big. split; [vm_compute; reflexivity|].
  unfold clamp_vector. change (narrow64 zero) with (Some (zero : b64)). cbn [bindo].
  assert (N : narrow64 big = None).
  { destruct (narrow64 big) eqn:E; [|reflexivity]. exfalso.
    assert (K : match narrow64 big with Some _ => true | None => false end = false) by (vm_compute; reflexivity). rewrite E in K. discriminate K. }
  rewrite N. reflexivity.
Qed.
End Ex.
