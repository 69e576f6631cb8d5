(** The same for the simulator in motor mode. *)

From Coq Require Import ZArith List Bool Lia Reals Lra.
From Verif Require Import Scalar LinAlg MUtils MModel MDynamics MPid MControl MCtlRun MImu MSim
  SpecDyn SpecRun SpecMotion SpecPid SpecCtl SpecImu SpecSim SpecTrue SpecTrueSim
  PBase PDyn PModel PDynR PPhys PDynMore PVeh PSim PSimR PSimEnd PNav PLip PTrue.
Import ListNotations.
Local Open Scope R_scope.

Section Sim.
Context {G H : Gen R}.

Lemma run_dynamics n (s : Sim R G H) dt k : sim_run n s (repeat (SDynamics dt) (S k)) =
  match sim_run n s (repeat (SDynamics dt) k) with Some s1 => sim_run n s1 [SDynamics dt] | None => None end.
Proof.
  replace (repeat (SDynamics dt) (S k)) with (repeat (SDynamics dt : SimOp R G H) k ++ [SDynamics dt]).
  - apply run_app.
  - replace (S k) with (k + 1)%nat by lia. rewrite repeat_app. reflexivity.
Qed.

(** With the floor off, no force pending, a dynamics update is one step of the vehicle. *)
Lemma free_step n (s s' : Sim R G H) dt : 0 < dt -> sm_floor_en s = false -> sm_floor_col s = false -> sm_ext s = mkV 0 0 0 -> sim_run n s [SDynamics dt] = Some s' ->
  process (sm_dyn s) (sm_act s) dt (mkV 0 0 0) true = Ok (sm_dyn s') /\ sm_act s' = sm_act s /\ sm_floor_en s' = false /\ sm_floor_col s' = false /\ sm_ext s' = mkV 0 0 0.
Proof.
  intros Hd F Fc X K. cbn [sim_run sim_step] in K. destruct (update_dynamics s dt) as [s1|s1|] eqn:U; [| |discriminate]; injection K as <-.
  2:{ destruct (ud_throw R_sane _ _ _ U) as [Q _]. unR. apply Rleb_true in Q. lra. }
  destruct (ud_ok _ _ _ U) as (ext & d & Fm & E & _ & E'). cbv zeta in E'.
  assert (Bf : below_floor s = false) by (unfold below_floor; rewrite F; reflexivity).
  rewrite Bf in E. rewrite X in E. subst ext.
  assert (Bf2 : below_floor (with_col (with_ext (with_dyn s d) v0) false) = false).
  { unfold below_floor. cbn [with_col with_ext with_dyn sm_floor_en]. rewrite F. reflexivity. }
  rewrite Bf2 in E'. subst s1. unfold free_motion in Fm. rewrite Fc in Fm. split; [exact Fm|]. split; [reflexivity|]. split; [exact F|]. split; reflexivity.
Qed.

Theorem sim_converges n sp cmd T X : fitting_params n sp -> p_fnoise (sp_model sp) = 0 -> 0 < p_mass (sp_model sp) -> det3 (p_inertia (sp_model sp)) <> 0 ->
  unitq (s_ori (sp_state sp)) -> speeds_between (p_motors (sp_model sp)) (s_mvel (sp_state sp)) -> length cmd = n -> 0 <= T ->
  true_motion (sp_model sp) cmd (mkV 0 0 0) T X ->
  exists C d1, 0 < d1 /\ 0 <= C /\ forall d dt d0, 0 < dt <= d1 -> dt <= 1/100 -> 0 <= d0 <= d1 ->
    (forall m, In m (p_motors (sp_model sp)) -> dt <= mt_tau m) -> agree d0 (sp_state sp) (X 0) ->
    forall k, INR k * dt <= T -> exists s : Sim R G H, sim_after n sp (motor_calls cmd d dt k) = Some s /\ agree (C * (dt + d0)) (sim_state s) (X (INR k * dt)).
Proof.
  intros Fit Hf Hms Hdet U Sb Lc HT Hm.
  destruct (flight_converges (G := G) n (sp_model sp) cmd (mkV 0 0 0) true T X (or_intror Hf) HT Hms Hdet Hm Lc) as (C & d1 & P1 & P0 & Cv).
  exists C, d1. split; [exact P1|]. split; [exact P0|]. intros d dt d0 Hd Hdm Hd0 Ht Ag.
  assert (Def : forall k, exists s : Sim R G H, sim_after n sp (motor_calls cmd d dt k) = Some s).
  { intros k. apply simulator_defined; [exact Fit|]. unfold motor_calls. apply Forall_cons; [exact I|]. apply Forall_cons; [exact Lc|]. apply Forall_cons; [exact I|].
    apply Forall_forall. intros op Ho. apply repeat_spec in Ho. subst op. cbn. lra. }
  destruct (Def 0%nat) as [s0 A0]. pose (sq := fun k => match sim_after n sp (motor_calls cmd d dt k) with Some s => s | None => s0 end).
  assert (Eq : forall k, sim_after n sp (motor_calls cmd d dt k) = Some (sq k)) by (intros k; unfold sq; destruct (Def k) as [s ->]; reflexivity).
  clearbody sq.
  assert (E0 : sq 0%nat = s0) by (specialize (Eq 0%nat); rewrite A0 in Eq; injection Eq as <-; reflexivity).
  (* the start *)
  assert (St : sm_act s0 = cmd /\ sm_floor_en s0 = false /\ sm_floor_col s0 = false /\ sm_ext s0 = mkV 0 0 0 /\ sim_state s0 = sp_state sp /\ vehicle n (sm_dyn s0) cmd (sp_model sp)).
  { unfold sim_after in A0. destruct (sim_new n sp) as [sn|] eqn:N; [|discriminate].
    destruct (new_fields n _ _ N) as (F1 & F2 & F3 & F4 & F5 & F6 & F7 & F8 & dd & Dn & Ed).
    destruct Fit as (Ck & Lm & Lw & Li). destruct (new_params _ _ _ _ _ Dn Ck) as (Mr & Gp & Ds).
    unfold motor_calls in A0. cbn [repeat app sim_run sim_step] in A0. injection A0 as <-.
    set (s1 := set_ref_motors (arm sn) cmd).
    assert (S1 : sm_armed s1 = true /\ sm_mode s1 = MOTOR_W /\ sm_floor_en s1 = false /\ sm_floor_col s1 = false /\ sm_ext s1 = mkV 0 0 0 /\ sm_dyn s1 = sm_dyn sn /\ rf_motors (sm_refs s1) = cmd /\ sm_yawmode s1 = ANGLE).
    { unfold s1. repeat split; try assumption; reflexivity. }
    destruct S1 as (S1 & S2 & S3 & Sc & S4 & S5 & S6 & S7). unfold update_controller. rewrite S1, S7, S2. cbn [negb]. rewrite S6.
    change (sim_state (with_act s1 cmd)) with (d_state (sm_dyn s1)). change (sm_dyn (with_act s1 cmd)) with (sm_dyn s1).
    rewrite S5, Ed. split; [reflexivity|]. split; [exact S3|]. split; [exact Sc|]. split; [exact S4|]. split; [exact Ds|].
    split; [exact Mr|]. split; [exact Gp|]. split; [exact Lc|]. rewrite Ds. exact Lw. }
  destruct St as (Ac & Fl & Fo & Ex & Ss & V).
  assert (Inv : forall k, sm_act (sq k) = cmd /\ sm_floor_en (sq k) = false /\ sm_floor_col (sq k) = false /\ sm_ext (sq k) = mkV 0 0 0 /\
    process (sm_dyn (sq k)) cmd dt (mkV 0 0 0) true = Ok (sm_dyn (sq (S k)))).
  { assert (Nx : forall k, sim_run n (sq k) [SDynamics dt] = Some (sq (S k))).
    { intros k. pose proof (Eq (S k)) as E1. pose proof (Eq k) as E2. unfold sim_after, motor_calls in E1, E2. destruct (sim_new n sp) as [sn|]; [|discriminate].
      rewrite run_app in E1, E2. destruct (sim_run n sn [SArm; SRefMotors cmd; SController d]) as [s1|]; [|discriminate].
      rewrite run_dynamics, E2 in E1. exact E1. }
    induction k as [|k (I1 & I2 & Ic & I3 & I4)].
    - rewrite E0 in *. specialize (Nx 0%nat). rewrite E0 in Nx. destruct (free_step n s0 _ dt (proj1 Hd) Fl Fo Ex Nx) as (Q1 & _). rewrite Ac in Q1.
      split; [exact Ac|]. split; [exact Fl|]. split; [exact Fo|]. split; [exact Ex|exact Q1].
    - destruct (free_step n (sq k) _ dt (proj1 Hd) I2 Ic I3 (Nx k)) as (_ & Q2 & Q3 & Qc & Q4). rewrite I1 in Q2.
      destruct (free_step n (sq (S k)) _ dt (proj1 Hd) Q3 Qc Q4 (Nx (S k))) as (Q5 & _). rewrite Q2 in Q5.
      split; [exact Q2|]. split; [exact Q3|]. split; [exact Qc|]. split; [exact Q4|exact Q5]. }
  intros k Hk. exists (sq k). split; [apply Eq|].
  refine (Cv (fun j => sm_dyn (sq j)) dt d0 Hd Hdm Hd0 Ht _ (fun j => proj2 (proj2 (proj2 (proj2 (Inv j))))) _ _ _ k Hk); rewrite E0; try exact V; change (d_state (sm_dyn s0)) with (sim_state s0); rewrite Ss; assumption.
Qed.
End Sim.
