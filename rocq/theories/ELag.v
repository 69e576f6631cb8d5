(** A rotor that stops short of its command, and a vehicle too far away to move. *)

From Coq Require Import ZArith Bool List Reals Lra Lia.
From Flocq Require Import Core BinarySingleNaN.
From Verif Require Import Scalar Float64 LinAlg MUtils MModel MDynamics SpecDyn SpecRun SpecRound SpecNumber SpecExact SpecLag
  PBase PFloat PRound PDyn PDynMore PUp PNumber PVeh PWell PLag PLagRun EBase PWitDyn ERound ENumber EExact.
Import ListNotations.

Section Run.
Variable L : Libm.
#[local] Instance FO : Ops b64 := F64Ops L.
Local Open Scope sc_scope.

Definition l_cmd : b64 := lit 77 10.
Definition l_w : b64 := l_cmd - lit 1 1125899906842624.
Definition l_state : State b64 :=
  mkState (mkV zero zero (ofZ 5)) (mkQ one zero zero zero) v0 v0 v0 v0 v0 v0 (repeat l_w 4) (repeat zero 4).
Definition l_call : Call b64 := mkCall (repeat l_cmd 4) (lit 1 1000) v0 false.

Lemma short_runs n p c : leb (k_dt c) zero = false -> ltb dtmax (k_dt c) = false -> length (p_motors p) = n ->
  forall k (d : Dyn b64 gen1), vehicle n d (k_act c) p -> exists d', dyn_run d (repeat c k) = Some d'.
Proof.
  intros H0 H1 Hn. induction k as [|k IH]; intros d Hv; cbn [repeat dyn_run]; [exists d; reflexivity|].
  destruct (short_step_defined n d (k_act c) (k_dt c) (k_ext c) (k_noise c) p Hv Hn H0 H1) as [d1 E]. rewrite E. apply IH.
  unfold process in E. rewrite H0, H1 in E. destruct (euler_core d (k_act c) (k_dt c) (k_ext c) (k_noise c)) as [d2|] eqn:Ec; [|discriminate].
  cbn in E. injection E as <-. exact (vehicle_core n d d2 _ _ _ _ p Hv Ec).
Qed.

Lemma same_b64 (x y : b64) : B2SF x = B2SF y -> x = y. Proof. apply B2SF_inj. Qed.
Lemma clamp_keep (x lo hi : b64) : ltb hi lo = false -> ltb x lo = false -> ltb hi x = false -> clamp x lo hi = Some x.
Proof. intros A B C. unfold clamp. rewrite A, B, C. reflexivity. Qed.
Lemma l_same : l_w + (l_cmd - l_w) / lit 1 50 * lit 1 1000 = l_w.
Proof. apply same_b64. vm_compute. reflexivity. Qed.
Lemma l_rotor : exists m, nth_error (p_motors (x_params L)) 0 = Some m /\ mt_min m = zero /\ mt_max m = ofZ 1000 /\ mt_tau m = lit 1 50.
Proof. eexists. split; [unfold x_params, quad_x; cbn [p_motors nth_error]; reflexivity|]. cbn [mt_min mt_max mt_tau]. split; [reflexivity|]. split; reflexivity. Qed.

(** The rotor is one unit in the last place below its command, and stays there for ever. *)
Lemma stops_short : exists (d : Dyn b64 gen1), dyn_new 4 (x_params L) 0 l_state = Some d /\ Bltb l_w l_cmd = true /\
  forall k, exists d', dyn_run d (repeat l_call k) = Some d' /\ nth_error (s_mvel (d_state d')) 0 = Some l_w.
Proof.
  destruct (gnew_defined (G:=gen1) 4 (x_params L) 0 l_state (x_check L)) as [d E]; [cbn; lia|]. exists d. split; [exact E|]. split; [vm_compute; reflexivity|].
  destruct (dyn_new_vehicle _ _ _ _ _ (x_check L) E) as (Mr & Gp & Es). intros k.
  destruct (short_runs 4 (x_params L) l_call ltac:(vm_compute; reflexivity) ltac:(vm_compute; reflexivity) eq_refl k d) as [d' R].
  { split; [exact Mr|]. split; [exact Gp|]. split; [reflexivity|]. rewrite Es. unfold l_state. cbn [s_mvel repeat length]. reflexivity. }
  exists d'. split; [exact R|]. destruct l_rotor as (m & Hm & Hmin & Hmax & Htau).
  apply (rotor_stalls (repeat l_call k) (x_params L) 0 m l_cmd l_cmd l_w (lit 1 1000) 4 Hm) with (d := d); try assumption; rewrite ?Hmin, ?Hmax, ?Htau.
  - apply clamp_keep; vm_compute; reflexivity.
  - rewrite l_same. apply clamp_keep; vm_compute; reflexivity.
  - vm_compute. reflexivity.
  - apply Forall_forall. intros c Hc. apply repeat_spec in Hc. subst c. split; [split; reflexivity|reflexivity].
  - rewrite Es. unfold l_state. cbn [s_mvel repeat length nth_error]. reflexivity.
  - rewrite Es. unfold l_state. cbn [s_mvel repeat length nth_error]. reflexivity.
Qed.

(** Two vehicles that differ only in their height: one climbs, the other, 2^53 m up, does not. *)
Definition far_up : V3 b64 := mkV zero zero (ofZ 9007199254740992).
Definition climb : State b64 :=
  mkState (mkV zero zero (ofZ 5)) (mkQ one zero zero zero) (mkV zero zero one) v0 v0 v0 v0 v0 (repeat l_w 4) (repeat zero 4).
Definition vsf (v : V3 b64) := (B2SF (vx v), B2SF (vy v), B2SF (vz v)).
Lemma vsf_inj u v : vsf u = vsf v -> u = v.
Proof. destruct u, v. unfold vsf. cbn. intros E. injection E as E1 E2 E3. apply B2SF_inj in E1, E2, E3. congruence. Qed.
Lemma no_motion_far : exists (d a b : Dyn b64 gen1), dyn_new 4 (x_params L) 0 climb = Some d /\
  dyn_run d [l_call] = Some a /\ dyn_run (dyn_set_state d (put (d_state d) far_up)) [l_call] = Some b /\
  Bltb (vz (s_pos (d_state d))) (vz (s_pos (d_state a))) = true /\ s_pos (d_state b) = far_up.
Proof.
  set (q := dyn_new (G:=gen1) 4 (x_params L) 0 climb).
  assert (X : match q with Some d => match dyn_run d [l_call], dyn_run (dyn_set_state d (put (d_state d) far_up)) [l_call] with
    | Some a, Some b => Bltb (vz (s_pos (d_state d))) (vz (s_pos (d_state a))) = true /\ vsf (s_pos (d_state b)) = vsf far_up | _, _ => False end | None => False end) by (vm_compute; split; reflexivity).
  destruct q as [d|] eqn:E; [|contradiction]. destruct (dyn_run d [l_call]) as [a|] eqn:A; [|contradiction].
  destruct (dyn_run (dyn_set_state d _) [l_call]) as [b|] eqn:B; [|contradiction]. exists d, a, b.
  split; [reflexivity|]. split; [exact A|]. split; [exact B|]. destruct X as [X1 X2]. split; [exact X1|]. apply vsf_inj, X2.
Qed.

(** The rotor of the next example slows down to 5 rad/s in steps of 1 ms. *)
Definition l_slow : Call b64 := mkCall (repeat (ofZ 5) 4) (lit 1 1000) v0 false.
Lemma leb_val (x y : b64) : is_finite x && is_finite y && Bleb x y = true -> (val x <= val y)%R.
Proof.
  rewrite !andb_true_iff. intros [[F1 F2] E]. rewrite Bleb_correct in E by assumption. destruct (Rle_bool_spec (B2R x) (B2R y)) as [Q|]; [exact Q|discriminate].
Qed.
Lemma l_shorter : shorter (val dtmax) (val (lit 1 1000)) (val (lit 1 50)).
Proof.
  unfold shorter. apply Rle_trans with (val (lit 1 1000)); [apply Rmin_l|].
  assert (P : (bpow radix2 (-58) = 16 * bpow radix2 (-62))%R) by (change 16%R with (bpow radix2 4); rewrite <- bpow_plus; reflexivity).
  pose proof (bpow_gt_0 radix2 (-62)) as P0.
  assert (E1 : B2SF (lit 1 1000 : b64) = SpecFloat.S754_finite false 4611686018427388 (-62)) by (vm_compute; reflexivity).
  assert (E2 : B2SF (lit 1 50 : b64) = SpecFloat.S754_finite false 5764607523034235 (-58)) by (vm_compute; reflexivity).
  set (x := lit 1 1000 : b64) in *. set (y := lit 1 50 : b64) in *. clearbody x y. unfold val. rewrite <- !SF2R_B2SF, E1, E2. cbn [SF2R cond_Zopp]. unfold F2R. cbn [Fnum Fexp].
  rewrite P. set (b := bpow radix2 (-62)) in *. clearbody b. lra.
Qed.
Lemma follow_case : exists (d : Dyn b64 gen1) m, dyn_new 4 (x_params L) 0 climb = Some d /\ nth_error (p_motors (x_params L)) 0 = Some m /\
  upto 64 (mt_min m) /\ upto 64 (mt_max m) /\ atleast (-64) (mt_tau m) /\ fin (ofZ 5) /\ (val (mt_min m) <= val (ofZ 5) <= val (mt_max m))%R /\
  (val (mt_min m) <= val l_w <= val (mt_max m))%R /\
  Forall (fun c => commands 4 0 (ofZ 5) c /\ fin (k_dt c) /\ shorter (val dtmax) (val (k_dt c)) (val (mt_tau m))) (repeat l_slow 3) /\
  match dyn_run d (repeat l_slow 3) with
  | Some d' => match nth_error (s_mvel (d_state d')) 0 with Some w => Bltb (ofZ 5) w && Bltb w l_w | None => false end | None => false end = true.
Proof.
  set (q := dyn_new (G:=gen1) 4 (x_params L) 0 climb).
  assert (X : match q with Some d => match dyn_run d (repeat l_slow 3) with
    | Some d' => match nth_error (s_mvel (d_state d')) 0 with Some w => Bltb (ofZ 5) w && Bltb w l_w | None => false end | None => false end | None => false end = true) by (vm_compute; reflexivity).
  destruct q as [d|] eqn:E; [|discriminate]. destruct l_rotor as (m & Hm & Hmin & Hmax & Htau). exists d, m.
  split; [reflexivity|]. split; [exact Hm|]. rewrite Hmin, Hmax, Htau.
  split; [apply uptob_ok; vm_compute; reflexivity|]. split; [apply uptob_ok; vm_compute; reflexivity|]. split; [apply atleastb_ok; vm_compute; reflexivity|].
  split; [vm_compute; reflexivity|]. split; [split; apply leb_val; vm_compute; reflexivity|]. split; [split; apply leb_val; vm_compute; reflexivity|]. split; [|exact X].
  apply Forall_forall. intros c Hc. apply repeat_spec in Hc. subst c. split; [split; reflexivity|]. split; [vm_compute; reflexivity|]. exact l_shorter.
Qed.
End Run.
