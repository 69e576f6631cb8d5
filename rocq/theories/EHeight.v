(** Concrete climbs to a height. *)

From Coq Require Import ZArith List Bool Lia Reals Lra.
From Verif Require Import Scalar LinAlg MUtils MModel MDynamics MPid MControl MCtlRun MImu MSim
  SpecDyn SpecRun SpecPid SpecCtl SpecImu SpecSim SpecVertical SpecClimb SpecSink SpecHeight
  PBase PDynR PPhys PSim PSimR PSimEnd PHover PVertical PMix PClimb PClimbSim PSinkSim PHeight PHeightSim EBase EPid ECtl ESim EClimb.
Import ListNotations.
Local Open Scope R_scope.

(** A hanging quadrotor of weight 4 with gains [Kx] and [Kv] and rotors of time constant [tau]. *)
Definition gain_pid (K : R) : PidParams R := mkPP (r3 K) LinAlg.v0 LinAlg.v0 LinAlg.v0 v1 false false LinAlg.v0 LinAlg.v0.
Definition hang_model (tau : R) : Params R := mkParams (quad_x 1 1 1 1 0 100 tau 0) 1 mI 0 mI (mkV 0 0 (-4)) 0 0.
Definition sp_hang (Kv Kx tau : R) : SimParams R :=
  mkSP (hang_model tau) 0 (st_rise 0)
       (mkCP (mkAP 1 mI (mkV 0 0 (-4))) (mkIP mI inv_ex cpx_pid) (gain_pid Kx) cpx_pid (gain_pid Kv)) imp_plain (mkODP 1 (level 0)).

Lemma hang_check tau : 0 < tau -> check_params (hang_model tau) = true.
Proof.
  intros Ht. unfold check_params, hang_model. cbn [p_mass p_inertia p_drag p_aero p_motors].
  assert (M : forallb check_motor (quad_x 1 1 1 1 0 100 tau 0) = true).
  { unfold quad_x. cbn [forallb]. unfold check_motor. cbn [mt_dir mt_kf mt_kt mt_min mt_max mt_tau mt_J Z.eqb]. unR. rcase; try lra; try reflexivity. }
  rewrite M, !mdet_R. unfold det3, mI, mdiag. cbn [m00 m01 m02 m10 m11 m12 m20 m21 m22]. unR. rcase; try lra; try reflexivity.
Qed.

Lemma hang_hangs Kv Kx tau h : 0 < Kv -> 0 < Kx -> 0 < tau -> 0 <= h -> 4 * (Kv * Kx * h) <= 4 -> hangs 0 4 Kv Kx tau 1 0 100 1 h (sp_hang Kv Kx tau).
Proof.
  intros HKv HKx Ht Hh Hl. pose proof PI_RGT_0.
  assert (Q : quad_layout 1 1 1 1 0 100 tau 0 (p_motors (sp_model (sp_hang Kv Kx tau)))) by (left; reflexivity).
  assert (0 <= Kv * Kx * h) by (apply Rmult_le_pos; [apply Rmult_le_pos; lra|exact Hh]).
  split; try reflexivity; try lra.
  - split; [exact (hang_check tau Ht)|]. split; [reflexivity|]. split; reflexivity.
  - unfold fair_start. split. { exists 1, 1, 1, 1, 0, 100, tau, 0. split; [lra|]. split; [lra|]. split; [lra|]. split; [lra|exact Q]. }
    split; [exact (hang_check tau Ht)|]. split; [reflexivity|]. split; [split; reflexivity|]. split.
    { split; [exact (proj1 c_ex_inverse)|]. split; [split; reflexivity|]. split.
      - intros a. destruct a; split; cbn; lra.
      - intros pp [<-|[<-|[<-|[]]]]; split; split; cbn; lra. }
    split; [reflexivity|]. split; [lra|]. split; [split; reflexivity|]. split; [reflexivity|]. exists 1. reflexivity.
  - exists 1, 1, 1, 0. split; [lra|]. split; [lra|]. split; [lra|exact Q].
  - cbn. lra.
  - cbn. lra.
  - split; [reflexivity|]. split; [reflexivity|]. split; [reflexivity|]. left. split; reflexivity.
  - split; [reflexivity|]. split; [reflexivity|]. split; [reflexivity|]. left. split; reflexivity.
  - change (p_mass (sp_model (sp_hang Kv Kx tau))) with 1. split; lra.
  - change (p_mass (sp_model (sp_hang Kv Kx tau))) with 1. split; lra.
Qed.

Section Ex.
Context {G H : Gen R}.
(** Asked to hold a place 1 above, with rounds of 10 ms. *)
Lemma hang_ex : hangs 0 4 2 (1/2) (1/10) 1 0 100 1 1 (sp_hang 2 (1/2) (1/10)) /\ nested_loops 2 (1/2) (1/10) /\
  exists z : nat -> R, z 0%nat = 3 /\
  (forall k, exists s : Sim R G H, sim_after 4 (sp_hang 2 (1/2) (1/10)) (lift_calls ANGLE (mkV 1 2 4) (1/100) k) = Some s /\ s_pos (sim_state s) = mkV 1 2 (z k)) /\
  forall k, z k <= z (S k) <= 4 /\ 4 - z k <= 2 * (797/800) ^ k.
Proof.
  assert (C : hangs 0 4 2 (1/2) (1/10) 1 0 100 1 1 (sp_hang 2 (1/2) (1/10))) by (apply hang_hangs; lra).
  assert (N : nested_loops 2 (1/2) (1/10)) by (split; lra).
  split; [exact C|]. split; [exact N|].
  destruct (lift_flight (G := G) (H := H) _ _ _ _ _ _ _ _ _ _ _ C N ANGLE (1/100)) as (z & A & F & B); [lra|lra|].
  change (s_pos (sp_state (sp_hang 2 (1/2) (1/10)))) with (mkV 1 2 3 : V3 R) in *. unfold up_by in *. cbn [vx vy vz] in *.
  replace (3 + 1) with 4 in * by ring. exists z. split; [exact A|]. split; [exact F|]. intros k. specialize (B k).
  replace (1 - 3 / 4 * (1/100 * (1/2))) with (797/800) in B by field. rewrite Rmult_1_r in B. exact B.
Qed.

(** With loops as fast as the rotors the vehicle shoots past. *)
Lemma hasty_over : exists sp Kv Kx tau h (s : Sim R G H), hangs 0 4 Kv Kx tau 1 0 100 1 h sp /\ 1/100 <= tau /\
  sim_after 4 sp (lift_calls ANGLE (up_by h (s_pos (sp_state sp))) (1/100) 4) = Some s /\ vz (s_pos (sim_state s)) = vz (s_pos (sp_state sp)) + 3 * h /\ 0 < h.
Proof.
  set (h := 1/10000). set (sp := sp_hang 100 100 (1/100)).
  assert (C : hangs 0 4 100 100 (1/100) 1 0 100 1 h sp) by (apply hang_hangs; unfold h; lra).
  destruct (simulator_defined (G := G) (H := H) 4 sp (lift_calls ANGLE (up_by h (s_pos (sp_state sp))) (1/100) 4) (hg_fits _ _ _ _ _ _ _ _ _ _ _ C)) as [s K].
  { unfold lift_calls, rounds. cbn [repeat concat app]. repeat (apply Forall_cons; [first [exact I|cbn; lra]|]). apply Forall_nil. }
  exists sp, 100, 100, (1/100), h, s. split; [exact C|]. split; [lra|]. split; [exact K|]. split; [|unfold h; lra].
  destruct (lift_begin (G := G) (H := H) _ _ _ _ _ _ _ _ _ _ _ C ANGLE 1) as (s0 & A0 & Cl).
  { lra. }
  { split; [reflexivity|]. split; [reflexivity|]. split; [reflexivity|]. left. split; reflexivity. }
  { split; [reflexivity|]. split; [reflexivity|]. split; [reflexivity|]. left. split; reflexivity. }
  set (target := up_by h (s_pos (sp_state sp))) in *.
  unfold lift_calls, sim_after in K, A0. destruct (sim_new 4 sp) as [sn|]; [|discriminate]. rewrite run_app, A0 in K. clear A0 sn.
  destruct C as [Fit Fair (kt & x & yy & J & K2 & K3 & K4 & L) Hk Ht Hm Hdr Hgz HW Cm Cg _ _ [HKx HKv] He Mv (Pw & L1) St0 Mn Mx].
  destruct Fair as (_ & Ck & Hn & Hgr & Fc & Or & Hy & Ve & Wz & Ew).
  assert (Kf : (1:R) <> 0) by lra.
  destruct (layout_even 1 kt x yy 0 100 (1/100) J _ Kf K2 K3 K4 L) as [Q Sp]. specialize (Sp _ (proj1 Fc)).
  pose proof (layout_value 1 kt x yy 0 100 (1/100) J _ Kf K2 K3 K4 L _ (proj1 Fc)) as Sv.
  set (p := sp_model sp) in *. set (inv := ip_minv (cp_indi (sp_ctl sp))) in *.
  assert (Ma : p_mass p = 1) by reflexivity.
  assert (Step : forall e v w c e' v' (s1 s2 : Sim R G H) l, lifting p inv (s_pos (sp_state sp)) 0 4 100 100 (vz target) 1 e v w s1 ->
    sim_run 4 s1 ([SController (1/100); SDynamics (1/100)] ++ l) = Some s2 ->
    c = 100 * (100 * e - v) -> 0 <= e <= h -> -2 <= c <= 1 -> 0 <= w -> e' = e - 1/100 * v -> v' = v + 1/100 * (lift 1 w - 4) ->
    exists s3 : Sim R G H, sim_run 4 s3 l = Some s2 /\ lifting p inv (s_pos (sp_state sp)) 0 4 100 100 (vz target) 1 e' v' (speed 1 (4 + c)) s3).
  { intros e v w c e' v' s1 s2 l Li Rn Ec Ee Cc Pw' Ee' Ev'. rewrite run_app in Rn. cbn [sim_run sim_step] in Rn.
    assert (Wc : want 100 100 e v = c) by (unfold want; lra).
    assert (Hd : 0 < 1/100 <= 1/100) by lra. assert (Hdm : 1/100 <= 1/100) by lra.
    destruct (lift_control p inv (s_pos (sp_state sp)) 0 4 100 100 1 (vz target) 1 (1/100) Hy Sp Sv Hk HKv e v w s1 Li) as [L1' L2'].
    { unfold in_limits. rewrite Ma, Wc. unfold h in *. split; [|split]; lra. }
    cbv zeta in L1', L2'.
    assert (Ss : 0 <= speed 1 (4 + c)) by apply speed_pos.
    assert (Sl : lift 1 (speed 1 (4 + c)) = 4 + c) by (apply lift_speed; lra).
    assert (Su : speed 1 (4 + c) <= 100) by (apply (lift_le 1 Hk); [lra|]; rewrite Sl; unfold lift; lra).
    assert (Hw : hw 1 (p_mass p) 4 100 100 (1/100) (1/100) e v w = speed 1 (4 + c)) by (unfold hw; rewrite Ma, Wc, Rmult_1_l; field).
    assert (Hv : hv 1 (p_mass p) 4 (1/100) v w = v') by (unfold hv, acc; rewrite Ma; lra).
    assert (Hp : hp (1/100) e v = e') by (unfold hp; lra).
    destruct (update_dynamics (update_controller 4 s1 (1/100)) (1/100)) as [s3|s3|] eqn:U; [| |discriminate]; exists s3; (split; [exact Rn|]);
    (rewrite <- Hw, <- Hv, <- Hp;
     apply (lift_motion p inv (s_pos (sp_state sp)) 0 4 100 100 (1/100) 1 0 100 (vz target) 1 (1/100) Q Hn Hgr Hm Hd Hdm Hdr Hgz e v w (update_controller 4 s1 (1/100)) s3 L1' Pw');
       [rewrite Hw; lra|rewrite Ma, Wc, Rmult_1_l; lra|exact L2'|]); [left|right]; exact U. }
  assert (L1c : lift 1 1 = 4) by (unfold lift; ring).
  assert (Sl : forall c, -2 <= c -> lift 1 (speed 1 (4 + c)) = 4 + c) by (intros c Hc; apply lift_speed; lra).
  unfold rounds in K. cbn [repeat concat] in K.
  destruct (Step h 0 1 1 h 0 s0 s _ Cl K) as (s1 & R1 & C1); [unfold h; lra|unfold h; lra|lra|lra|lra|rewrite L1c; lra|]. clear K Cl.
  destruct (Step h 0 _ 1 h (1/100) s1 s _ C1 R1) as (s2 & R2 & C2); [unfold h; lra|unfold h; lra|lra|apply speed_pos|lra|rewrite Sl; lra|]. clear R1 C1.
  destruct (Step h (1/100) _ 0 0 (1/50) s2 s _ C2 R2) as (s3 & R3 & C3); [unfold h; lra|unfold h; lra|lra|apply speed_pos|unfold h; lra|rewrite Sl; lra|]. clear R2 C2.
  destruct (Step 0 (1/50) _ (-2) (- (2 * h)) (1/50) s3 s _ C3 R3) as (s4 & R4 & C4); [lra|unfold h; lra|lra|apply speed_pos|unfold h; lra|rewrite Sl; lra|]. clear R3 C3.
  injection R4 as <-. rewrite (lf_place _ _ _ _ _ _ _ _ _ _ _ _ _ C4). unfold target. cbn [up_by vz]. ring.
Qed.
End Ex.
