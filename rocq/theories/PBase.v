(** General lemmas: loops, clamp, outcome relations, real-number tactics. *)

From Coq Require Import ZArith List Bool Lia Reals Lra.
From Verif Require Import Scalar LinAlg MUtils MModel MDynamics SpecDyn SpecRun.
Import ListNotations.

(** ** Bounded loops *)

Fixpoint nloop {A B} (k : nat) (f : A -> A + B) (a : A) : A + B :=
  match k with
  | O => inl a
  | S k' => match f a with inl a' => nloop k' f a' | inr b => inr b end
  end.

Lemma nloop_add {A B} (f : A -> A + B) k1 k2 a :
  nloop (k1 + k2) f a = match nloop k1 f a with inl a' => nloop k2 f a' | inr b => inr b end.
Proof.
  revert a; induction k1 as [|k1 IH]; intros a; cbn [nloop Nat.add]; [reflexivity|].
  destruct (f a); [apply IH | reflexivity].
Qed.

Lemma wloop_nloop {A B} p (f : A -> A + B) a : wloop p f a = nloop (Pos.to_nat p) f a.
Proof.
  revert a; induction p as [p IH|p IH|]; intros a; cbn [wloop].
  - rewrite Pos2Nat.inj_xI. replace (S (2 * Pos.to_nat p)) with (1 + (Pos.to_nat p + Pos.to_nat p)) by lia.
    rewrite nloop_add. cbn [nloop]. destruct (f a) as [a'|b]; [|reflexivity].
    rewrite nloop_add, <- IH. destruct (wloop p f a'); [apply IH|reflexivity].
  - rewrite Pos2Nat.inj_xO. replace (2 * Pos.to_nat p) with (Pos.to_nat p + Pos.to_nat p) by lia.
    rewrite nloop_add, <- IH. destruct (wloop p f a); [apply IH|reflexivity].
  - change (Pos.to_nat 1) with 1. cbn [nloop]. destruct (f a); reflexivity.
Qed.


Section ForInt.
Context {T : Type} {O : Ops T} {A : Type}.

Definition fstep (bound : T) (body : A -> outcome A) (ia : Z * A) : (Z * A) + outcome A :=
  let '(i, x) := ia in
  if ltb (ofZ i) bound then
    match body x with
    | Ok y => if Z.eqb i int_max then inr UB else inl (Z.succ i, y)
    | Throw y => inr (Throw y)
    | UB => inr UB
    end
  else inr (Ok x).

Lemma for_int_nloop bound body (a : A) :
  for_int bound body a =
  match nloop (Pos.to_nat (2 ^ 31)) (fstep bound body) (0%Z, a) with inr r => r | inl _ => UB end.
Proof. unfold for_int. rewrite wloop_nloop. reflexivity. Qed.

Lemma fstep_inv (P Q : A -> Prop) bound body :
  (forall x, P x -> match body x with Ok y => P y | Throw y => Q y | UB => True end) ->
  forall k i x, P x ->
  match nloop k (fstep bound body) (i, x) with
  | inl (_, y) => P y
  | inr (Ok y) => P y | inr (Throw y) => Q y | inr UB => True end.
Proof.
  intros Hb k; induction k as [|k IH]; intros i x Hx; cbn [nloop]; [exact Hx|].
  unfold fstep at 1. destruct (ltb (ofZ i) bound); [|exact Hx].
  specialize (Hb x Hx). destruct (body x) as [y|y|]; [|exact Hb|exact I].
  destruct (Z.eqb i int_max); [exact I|]. apply IH, Hb.
Qed.

Lemma for_int_inv (P Q : A -> Prop) bound body a :
  P a ->
  (forall x, P x -> match body x with Ok y => P y | Throw y => Q y | UB => True end) ->
  match for_int bound body a with Ok y => P y | Throw y => Q y | UB => True end.
Proof.
  intros Ha Hb. rewrite for_int_nloop.
  pose proof (fstep_inv P Q bound body Hb (Pos.to_nat (2 ^ 31)) 0%Z a Ha) as H.
  destruct (nloop _ _ _) as [[j y]|r]; [exact I|exact H].
Qed.

(** As above, when the first iteration certainly runs: the invariant may be
    established by the body instead of holding beforehand. *)
Lemma for_int_inv1 (P Q : A -> Prop) bound body a :
  ltb (ofZ 0) bound = true ->
  (forall x, match body x with Ok y => P y | Throw y => Q y | UB => True end) ->
  match for_int bound body a with Ok y => P y | Throw y => Q y | UB => True end.
Proof.
  intros H0 Hb. rewrite for_int_nloop.
  assert (E : exists k, Pos.to_nat (2 ^ 31) = S k).
  { destruct (Pos2Nat.is_succ (2 ^ 31)) as [k Hk]. exists k; exact Hk. }
  destruct E as [k ->]. cbn [nloop]. unfold fstep at 1. rewrite H0.
  pose proof (Hb a) as Ha. destruct (body a) as [y|y|]; [|exact Ha|exact I].
  destruct (Z.eqb 0 int_max); [exact I|].
  pose proof (fstep_inv P Q bound body (fun x _ => Hb x) k (Z.succ 0) y Ha) as H.
  destruct (nloop _ _ _) as [[j z]|r]; [exact I|exact H].
Qed.

Lemma nloop_count bound (body : A -> outcome A) :
  forall k i x fuel,
  (0 <= i)%Z -> (i + Z.of_nat k <= int_max)%Z -> (k < fuel)%nat ->
  (forall j, (i <= j < i + Z.of_nat k)%Z -> ltb (ofZ j) bound = true) ->
  ltb (ofZ (i + Z.of_nat k)) bound = false ->
  nloop fuel (fstep bound body) (i, x) = inr (oiter k body x).
Proof.
  intros k; induction k as [|k IH]; intros i x fuel Hi Hm Hf Hlt Hstop.
  - destruct fuel as [|fuel]; [lia|]. cbn [nloop oiter]. unfold fstep at 1.
    replace (i + Z.of_nat 0)%Z with i in Hstop by lia. rewrite Hstop. reflexivity.
  - destruct fuel as [|fuel]; [lia|]. cbn [nloop oiter]. unfold fstep at 1.
    rewrite (Hlt i) by lia.
    destruct (body x) as [y|y|]; [|reflexivity|reflexivity].
    destruct (Z.eqb_spec i int_max) as [E|E]; [lia|].
    apply IH; try lia.
    + intros j Hj. apply Hlt. lia.
    + replace (Z.succ i + Z.of_nat k)%Z with (i + Z.of_nat (S k))%Z by lia. exact Hstop.
Qed.

(** The loop body runs exactly [k] times when [k] is the first counter value
    that is not below the bound. *)
Lemma for_int_count bound (body : A -> outcome A) k a :
  (Z.of_nat k <= int_max)%Z ->
  (forall j, (0 <= j < Z.of_nat k)%Z -> ltb (ofZ j) bound = true) ->
  ltb (ofZ (Z.of_nat k)) bound = false ->
  for_int bound body a = oiter k body a.
Proof.
  intros Hk Hlt Hstop. rewrite for_int_nloop.
  rewrite (nloop_count bound body k 0%Z a); [reflexivity|lia|lia| |exact Hlt|exact Hstop].
  unfold int_max in Hk.
  rewrite <- Z2Nat.inj_pos. apply Nat2Z.inj_lt. rewrite Z2Nat.id by lia. cbn; lia.
Qed.

Lemma nloop_overflow bound (body : A -> outcome A) :
  (forall x, exists y, body x = Ok y) ->
  (forall j, (0 <= j <= int_max)%Z -> ltb (ofZ j) bound = true) ->
  forall k i x, (0 <= i <= int_max)%Z -> (i + Z.of_nat k = int_max + 1)%Z ->
  nloop k (fstep bound body) (i, x) = inr UB.
Proof.
  intros Hb Hlt k; induction k as [|k IH]; intros i x Hi Hk; [lia|].
  cbn [nloop]. unfold fstep at 1. rewrite (Hlt i Hi).
  destruct (Hb x) as [y ->]. destruct (Z.eqb_spec i int_max) as [E|E]; [reflexivity|].
  apply IH; lia.
Qed.

Lemma for_int_overflow bound (body : A -> outcome A) a :
  (forall x, exists y, body x = Ok y) ->
  (forall j, (0 <= j <= int_max)%Z -> ltb (ofZ j) bound = true) ->
  for_int bound body a = UB.
Proof.
  intros Hb Hlt. rewrite for_int_nloop, (nloop_overflow bound body Hb Hlt); [reflexivity| |].
  - unfold int_max; lia.
  - rewrite positive_nat_Z. reflexivity.
Qed.

End ForInt.

(** ** Relating two outcomes *)

Definition orel {A B} (R : A -> B -> Prop) (x : outcome A) (y : outcome B) : Prop :=
  match x, y with
  | Ok a, Ok b => R a b
  | Throw a, Throw b => R a b
  | UB, UB => True
  | _, _ => False
  end.

Definition optrel {A B} (R : A -> B -> Prop) (x : option A) (y : option B) : Prop :=
  match x, y with Some a, Some b => R a b | None, None => True | _, _ => False end.

Lemma orel_of_opt {A B} (R : A -> B -> Prop) x y : optrel R x y -> orel R (of_opt x) (of_opt y).
Proof. destruct x, y; cbn; auto. Qed.

Lemma for_int_rel {T} {O : Ops T} {A B} (R : A -> B -> Prop) bound body1 body2 (a : A) (b : B) :
  R a b -> (forall x y, R x y -> orel R (body1 x) (body2 y)) ->
  orel R (for_int bound body1 a) (for_int bound body2 b).
Proof.
  intros Hab Hb. rewrite !for_int_nloop.
  assert (G : forall k i x y, R x y ->
    match nloop k (fstep bound body1) (i, x), nloop k (fstep bound body2) (i, y) with
    | inl _, inl _ => True | inr r1, inr r2 => orel R r1 r2 | _, _ => False end).
  { intros k; induction k as [|k IH]; intros i x y Hxy; cbn [nloop fstep]; [exact I|].
    destruct (ltb (ofZ i) bound); [|exact Hxy].
    specialize (Hb x y Hxy).
    destruct (body1 x), (body2 y); cbn in Hb; try contradiction; try exact Hb; try exact I.
    destruct (Z.eqb i int_max); [exact I|]. apply IH, Hb. }
  specialize (G (Pos.to_nat (2 ^ 31)) 0%Z a b Hab).
  destruct (nloop _ _ (0%Z, a)), (nloop _ _ (0%Z, b)); try contradiction; [exact I|exact G].
Qed.

(** ** option bind *)

Lemma bindo_Some {A B} (x : option A) (f : A -> option B) b :
  bindo x f = Some b -> exists a, x = Some a /\ f a = Some b.
Proof. destruct x as [a|]; cbn; [eauto|discriminate]. Qed.

(** ** Reals *)

Lemma Rltb_true x y : Rltb x y = true <-> (x < y)%R.
Proof. unfold Rltb. destruct (Rlt_dec x y); split; intros; try easy. Qed.
Lemma Rltb_false x y : Rltb x y = false <-> (y <= x)%R.
Proof. unfold Rltb. destruct (Rlt_dec x y); split; intros; try easy; lra. Qed.
Lemma Rleb_true x y : Rleb x y = true <-> (x <= y)%R.
Proof. unfold Rleb. destruct (Rle_dec x y); split; intros; try easy. Qed.
Lemma Rleb_false x y : Rleb x y = false <-> (y < x)%R.
Proof. unfold Rleb. destruct (Rle_dec x y); split; intros; try easy; lra. Qed.
Lemma Reqb_true x y : Reqb x y = true <-> x = y.
Proof. unfold Reqb. destruct (Req_EM_T x y); split; intros; try easy. Qed.
Lemma Reqb_false x y : Reqb x y = false <-> x <> y.
Proof. unfold Reqb. destruct (Req_EM_T x y); split; intros; try easy. Qed.

(** Expose real operations. *)
Ltac unR :=
  unfold zero, one, mone, half, eps, lit in *;
  cbn [ofZ add sub mul div neg absT sqrtT ltb leb eqb signbitT sinT cosT asinT atan2T piT ROps] in *.

(** Case split on every real comparison of the goal and context. *)
Ltac rcase :=
  repeat match goal with
  | |- context [Rltb ?a ?b] => let E := fresh "E" in destruct (Rltb a b) eqn:E; [apply Rltb_true in E|apply Rltb_false in E]
  | |- context [Rleb ?a ?b] => let E := fresh "E" in destruct (Rleb a b) eqn:E; [apply Rleb_true in E|apply Rleb_false in E]
  | |- context [Reqb ?a ?b] => let E := fresh "E" in destruct (Reqb a b) eqn:E; [apply Reqb_true in E|apply Reqb_false in E]
  end.

Lemma V3_eq {T} (a b : V3 T) : vx a = vx b -> vy a = vy b -> vz a = vz b -> a = b.
Proof. destruct a, b; cbn; intros; subst; reflexivity. Qed.
Lemma Quat_eq {T} (a b : Quat T) : qw a = qw b -> qx a = qx b -> qy a = qy b -> qz a = qz b -> a = b.
Proof. destruct a, b; cbn; intros; subst; reflexivity. Qed.
Lemma M3_eq {T} (a b : M3 T) :
  m00 a = m00 b -> m01 a = m01 b -> m02 a = m02 b ->
  m10 a = m10 b -> m11 a = m11 b -> m12 a = m12 b ->
  m20 a = m20 b -> m21 a = m21 b -> m22 a = m22 b -> a = b.
Proof. destruct a, b; cbn; intros; subst; reflexivity. Qed.

(** ** Order facts of the two arithmetics *)

(** Facts about an arithmetic used by the step theorems: comparison is
    irreflexive, 0.01 is positive, and a step above 0.01 divides into a positive
    number of sub-steps. *)

Lemma R_irrefl : Irrefl ROps.
Proof. intros x. apply Rltb_false. lra. Qed.

Lemma R_sane : Sane ROps.
Proof.
  split; [exact R_irrefl| |].
  - unfold dtmax; unR. apply Rleb_false. lra.
  - intros dt H. unfold dtmax in *; unR. apply Rltb_true in H. apply Rltb_true.
    apply Rdiv_lt_0_compat; lra.
Qed.
