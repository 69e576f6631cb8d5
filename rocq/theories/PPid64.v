(** The vector PID in binary64: the integral stays within its bound, the first call has no derivative. *)

From Coq Require Import ZArith Bool List Reals Lra Lia.
From Flocq Require Import Core BinarySingleNaN.
From Verif Require Import Scalar Float64 LinAlg MUtils MPid MPid1 SpecDyn SpecPid SpecRound SpecNumber SpecPidNum SpecExact
  PBase PFloat PRound PQuat64 PUnit64 PUp PNumber PExact PPid PPidNum PLag.
Import ListNotations.

Section Run.
Variable L : Libm.
#[local] Instance FO : Ops b64 := F64Ops L.
Variables (g h : Z).
Hypothesis Hgh : (0 <= g <= h)%Z.
Hypothesis Hcap : (h + 2 * g + 60 <= 1000)%Z.
Notation big := (h + g + 56)%Z.
Local Open Scope sc_scope.

Lemma run_ok pp ops : sane_settings g pp -> Forall (sane_op g h) ops -> pid_ok g h (pid_run (pid_new pp) ops).
Proof.
  intros H Hl. unfold pid_run. assert (K : forall l q, pid_ok g h q -> Forall (sane_op g h) l -> pid_ok g h (fold_left pid_step l q)).
  { induction l as [|o r IH]; intros q Hq Hf; cbn [fold_left]; [exact Hq|]. apply Forall_cons_iff in Hf as [Ho Hf]. apply IH; [apply (step_ok L g h Hgh Hcap); assumption|exact Hf]. }
  exact (K ops _ (new_ok L g h Hgh pp H) Hl).
Qed.

Lemma nz : nought zero. Proof. split; reflexivity. Qed.
Lemma fin_up e x : upto e x -> fin x. Proof. intros [F _]. exact F. Qed.

(** A diagonal matrix multiplies each axis by its own entry, rounded once. *)
Lemma diag_row m v a : diag_ok m -> upto9 g m -> upto3 big v ->
  val (pr a (mmulv m v)) = rnd (val (pr a (mdiagv m)) * val (pr a v)).
Proof.
  intros D ((A1 & _ & _) & (_ & B2 & _) & (_ & _ & C3)) (V1 & V2 & V3'). unfold diag_ok in D. rewrite D.
  assert (P : forall k x, upto g k -> upto big x -> fin (k * x) /\ val (k * x) = rnd (val k * val x)).
  { intros k x Uk Ux. split; [apply (up_fin (g + big)), (up_mul L); [assumption..|lia]|apply (v_mul L g big); [assumption..|lia]]. }
  destruct (P _ _ A1 V1) as [F1 E1]. destruct (P _ _ B2 V2) as [F2 E2]. destruct (P _ _ C3 V3') as [F3 E3].
  assert (Z : forall x, upto big x -> nought (zero * x)) by (intros x Ux; apply (n_mul_l L); [exact nz|apply (fin_up _ _ Ux)]).
  destruct a; cbn [pr mmulv vdiagm mdiag mdiagv vx vy vz m00 m01 m02 m10 m11 m12 m20 m21 m22].
  - destruct (k_add L (m00 m * vx v) (zero * vy v) F1 (Z _ V2)) as [G1 G2].
    destruct (k_add L (m00 m * vx v + zero * vy v) (zero * vz v) G1 (Z _ V3')) as [_ G3]. exact (eq_trans G3 (eq_trans G2 E1)).
  - destruct (k_add_l L (zero * vx v) (m11 m * vy v) (Z _ V1) F2) as [G1 G2].
    destruct (k_add L (zero * vx v + m11 m * vy v) (zero * vz v) G1 (Z _ V3')) as [_ G3]. exact (eq_trans G3 (eq_trans G2 E2)).
  - assert (N : nought (zero * vx v + zero * vy v)) by (apply (n_add L); auto).
    destruct (k_add_l L _ (m22 m * vz v) N F3) as [_ G3]. exact (eq_trans G3 E3).
Qed.

(** ** C24 *)
Lemma no_kick pp ops dt e a : sane_settings g pp -> Forall (sane_op g h) ops -> sane_step g dt -> upto3 h e ->
  nought (pr a (pid_der_part (pid_step (pid_reset (pid_run (pid_new pp) ops)) (OpCompute dt e)))).
Proof.
  intros Hs Ho Hd (E1 & E2 & E3). destruct (run_ok pp ops Hs Ho) as [(_ & _ & Kd & _ & (W1 & W2 & W3) & _) _].
  set (p := pid_run (pid_new pp) ops) in *. clearbody p.
  assert (Fx : forall al x, weight al -> upto h x -> nought (al * ((x - x) / dt) + (one - al) * zero)).
  { intros al x Wa Ux. destruct Hd as [[Fd Ld] Ud]. assert (Dz : (val dt <> 0)%R) by (pose proof (bpow_gt_0 radix2 (- g)); lra).
    assert (Nx : nought (x - x)).
    { split; [apply (up_fin (h + 1)), (up_sub L); [exact Ux|exact Ux|lia]|].
      pose proof (Bminus_correct 53 1024 _ _ mode_NE x x (fin_up _ _ Ux) (fin_up _ _ Ux)) as C.
      replace (B2R x - B2R x)%R with 0%R in C by ring. rewrite rnd_zero in C. rewrite Rlt_bool_true in C by (rewrite Rabs_R0; apply bpow_gt_0). apply C. }
    apply (n_add L); [apply (n_mul_r L); [apply Wa|apply (n_div L); [exact Nx|exact Fd|exact Dz]]|].
    apply (n_mul_r L); [apply (weight_rest L), Wa|exact nz]. }
  cbn [pid_step pid_compute pid_der_part pid_s ps_cd pid_reset pid_c].
  assert (N : nought (vx (pid_filt (pid_c p) (ps_init (ps_reset (pid_s p)) e) dt e)) /\
              nought (vy (pid_filt (pid_c p) (ps_init (ps_reset (pid_s p)) e) dt e)) /\ nought (vz (pid_filt (pid_c p) (ps_init (ps_reset (pid_s p)) e) dt e))).
  { split; [|split]; [exact (Fx _ _ W1 E1)|exact (Fx _ _ W2 E2)|exact (Fx _ _ W3 E3)]. }
  set (f := pid_filt _ _ _ _) in *. clearbody f. destruct N as (N1 & N2 & N3). destruct Kd as ((A1 & A2 & A3) & (B1 & B2 & B3) & (C1 & C2 & C3)).
  assert (Pm : forall k x, upto g k -> nought x -> nought (k * x)) by (intros k x Uk Nx; apply (n_mul_r L); [apply (fin_up _ _ Uk)|exact Nx]).
  destruct a; cbn [pr mmulv vx vy vz]; (apply (n_add L); [apply (n_add L)|]); apply Pm; assumption.
Qed.

(** ** C22 *)
Lemma mone_mul x : upto g x -> fin (mone * x) /\ val (mone * x) = (- val x)%R.
Proof.
  intros Ux. assert (Um : upto 0 mone) by (exact (up_mone L)).
  split; [apply (up_fin (0 + g)), (up_mul L); [assumption..|lia]|].
  rewrite (v_mul L 0 g) by (assumption || lia). assert (Vm : val mone = (-1)%R).
  { assert (E1 : B2SF (mone : b64) = SpecFloat.S754_finite true 4503599627370496 (-52)) by (vm_compute; reflexivity).
    unfold val. rewrite <- SF2R_B2SF, E1. cbn [SF2R cond_Zopp]. unfold F2R. cbn [Fnum Fexp].
    replace (bpow radix2 (-52)) with (/ bpow radix2 52)%R by (rewrite <- bpow_opp; reflexivity). change (bpow radix2 52) with 4503599627370496%R. cbn [cond_Zopp Z.opp]. lra. }
  rewrite Vm. replace (-1 * val x)%R with (- val x)%R by ring. rewrite rnd_opp, rnd_val. reflexivity.
Qed.
Lemma sat_bound x u : fin x -> upto g u -> (0 <= val u)%R -> Rle (Rabs (val (sat1 x u (mone * u)))) (val u).
Proof.
  intros Fx Uu Pu. destruct (mone_mul u Uu) as [Fm Vm]. unfold sat1.
  destruct (u <? x) eqn:E1; [rewrite Rabs_pos_eq; lra|]. destruct (x <? mone * u) eqn:E2.
  - rewrite Vm, Rabs_Ropp, Rabs_pos_eq; lra.
  - apply Rabs_le. split.
    + destruct (Rle_dec (- val u) (val x)) as [Q|Q]; [exact Q|exfalso]. assert (x <? mone * u = true); [|congruence]. apply (ltb_of L); [exact Fx|exact Fm|lra].
    + destruct (Rle_dec (val x) (val u)) as [Q|Q]; [exact Q|exfalso]. assert (u <? x = true); [|congruence]. apply (ltb_of L); [apply (fin_up _ _ Uu)|exact Fx|lra].
Qed.

Lemma acc_within c s dt e a : cfg_ok g c -> st_ok g h s -> sane_step g dt -> upto3 h e -> veqb (pc_aw c) v0 = false -> (0 <= val (pr a (pc_aw c)))%R ->
  (Rabs (val (pr a (pid_acc c (ps_acc s) dt e))) <= val (pr a (pc_aw c)))%R.
Proof.
  intros C S D E W P. pose proof C as (_ & _ & _ & (U1 & U2 & U3) & _). destruct S as ((A1 & A2 & A3) & _). destruct E as (E1 & E2 & E3).
  unfold pid_acc. rewrite W. cbn [negb]. unfold saturate. cbn [negb].
  assert (St : forall acc aw er, upto big acc -> upto h er -> fin (rst1 (pc_rflag c) acc aw er + er * dt)).
  { intros acc aw er Ua Ue. exact (fin_up big _ (acc_step L g h Hgh Hcap _ _ _ (rst_small L g h (pc_rflag c) acc aw er Ua) Ue D)). }
  destruct a; cbn [pr vx vy vz] in *; (apply sat_bound; [apply St; assumption|assumption|exact P]).
Qed.

Lemma eqb_zero x : fin x -> eqb x zero = true -> val x = 0%R.
Proof.
  intros F E. change (Beqb x (b64_ofZ 0) = true) in E. rewrite Beqb_correct in E by (exact F || reflexivity).
  destruct (Req_bool_spec (B2R x) (B2R (b64_ofZ 0))) as [Q|]; [|discriminate]. exact Q.
Qed.
Lemma windup_on (p : Pid b64) : pid_ok g h p -> (exists b, val (pr b (pid_aw p)) <> 0%R) -> veqb (pid_aw p) v0 = false.
Proof.
  intros [(_ & _ & _ & (U1 & U2 & U3) & _) _] [b N]. change (pid_aw p) with (pc_aw (pid_c p)) in *.
  destruct (veqb (pc_aw (pid_c p)) v0) eqn:E; [exfalso|reflexivity]. unfold veqb in E. apply andb_true_iff in E as [E E3]. apply andb_true_iff in E as [E1 E2].
  apply N. destruct b; cbn [pr]; [apply eqb_zero; [apply U1|exact E1]|apply eqb_zero; [apply U2|exact E2]|apply eqb_zero; [apply U3|exact E3]].
Qed.

Lemma int_within pp ops op a : sane_settings g pp -> Forall (sane_op g h) ops -> sane_op g h op -> is_compute op = true ->
  let p := pid_run (pid_new pp) ops in (exists b, val (pr b (pid_aw p)) <> 0%R) -> (0 <= val (pr a (pid_aw p)))%R ->
  (Rabs (val (pr a (pid_int_part (pid_step p op)))) <= rnd (Rabs (val (pr a (pid_ki p))) * val (pr a (pid_aw p))))%R.
Proof.
  intros Hs Ho Hop Hc. cbv zeta. pose proof (run_ok pp ops Hs Ho) as [C S].
  assert (Rr : Reached (pid_run (pid_new pp) ops)) by (exists pp, ops; reflexivity).
  apply reached_inv in Rr as (_ & _ & Di & _).
  set (p := pid_run (pid_new pp) ops) in *. clearbody p. intros W0 P. pose proof (windup_on p (conj C S) W0) as W.
  assert (G : forall dt e, sane_step g dt -> upto3 h e -> (Rabs (val (pr a (mmulv (pc_ki (pid_c p)) (pid_acc (pid_c p) (ps_acc (ps_init (pid_s p) e)) dt e)))) <=
    rnd (Rabs (val (pr a (pid_ki p))) * val (pr a (pid_aw p))))%R).
  { intros dt e D E. pose proof (init_ok L g h _ e S E) as S1.
    pose proof (acc_within _ _ dt e a C S1 D E W P) as B. pose proof (acc_ok L g h Hgh Hcap _ _ dt e C S1 D E) as U.
    rewrite diag_row by (assumption || apply C).
    rewrite <- round_NE_abs by exact (fexp_correct 53 1024 prec53). rewrite Rabs_mult. apply rnd_le. apply Rmult_le_compat_l; [apply Rabs_pos|exact B]. }
  destruct op; try discriminate Hc; cbn [sane_op] in Hop; [destruct Hop as [D E]|destruct Hop as (D & E & _)]; exact (G _ _ D E).
Qed.
End Run.
