(** No undefined behaviour of the simulator in any arithmetic. *)

From Coq Require Import ZArith List Bool Lia.
From Verif Require Import Scalar LinAlg MUtils MModel MDynamics MPid MControl MCtlRun MImu MSim SpecDyn SpecRun SpecPid SpecCtl SpecImu SpecSim
  PBase PDyn PModel PPhys PVeh PDynMore PSim PSimEnd.
Import ListNotations.

Section Well.
Context {T : Type} {O : Ops T} {G H : Gen T}.
Hypothesis Sn : Sane O.
Implicit Types s : Sim T G H.

Record gwell (n : nat) s : Prop := {
  gwe_veh : exists p, vehicle n (sm_dyn s) (sm_act s) p /\ length (p_motors p) = n;
  gwe_ref : length (rf_motors (sm_refs s)) = n;
  gwe_minv : length (in_minv (ct_indi (sm_ctl s))) = n }.

Lemma gvehicle_act n (d : Dyn T G) a b p : vehicle n d a p -> length b = n -> vehicle n d b p.
Proof. intros (A & B & _ & D) L. split; [exact A|]. split; [exact B|]. split; assumption. Qed.

Lemma gacro_sizes (c : Ctl T) w th des dt : let c' := ctl_acro c w th des dt in
  length (ct_dmotor c') = length (in_minv (ct_indi c)) /\ in_minv (ct_indi c') = in_minv (ct_indi c).
Proof. cbv zeta. unfold ctl_acro, acro_to_motor. cbn. rewrite map_length. split; reflexivity. Qed.
Lemma gacc_sizes (c : Ctl T) A w acc yaw dt : let c' := ctl_acc c A w acc yaw dt in
  length (ct_dmotor c') = length (in_minv (ct_indi c)) /\ in_minv (ct_indi c') = in_minv (ct_indi c).
Proof. cbv zeta. unfold ctl_acc. destruct (acc_to_acro _ _ _ _) as [a' [th w']]. match goal with |- context [ctl_acro ?c0 ?b ?d ?e ?f] => exact (gacro_sizes c0 b d e f) end. Qed.
Ltac gacc_size := match goal with |- context [ctl_acc ?c0 ?b ?d ?e ?f ?g] => exact (gacc_sizes c0 b d e f g) end.

Lemma gwell_controller n s dt : gwell n s -> gwell n (update_controller n s dt).
Proof.
  intros [(p & V & L) Rf Mi]. unfold update_controller. destruct (negb _).
  { split; [|exact Rf|exact Mi]. exists p. split; [|exact L]. eapply gvehicle_act; [exact V|apply repeat_length]. }
  assert (X : forall s1, sm_dyn s1 = sm_dyn s -> sm_ctl s1 = sm_ctl s -> rf_motors (sm_refs s1) = rf_motors (sm_refs s) ->
    forall c, length (ct_dmotor c) = length (in_minv (ct_indi (sm_ctl s1))) /\ in_minv (ct_indi c) = in_minv (ct_indi (sm_ctl s1)) -> gwell n (with_control s1 c)).
  { intros s1 Ed Ec Er c [Lc Ic]. rewrite Ec in Lc, Ic. split.
    - exists p. split; [|exact L]. cbn. rewrite Ed. eapply gvehicle_act; [exact V|]. rewrite Lc. exact Mi.
    - cbn. rewrite Er. exact Rf.
    - cbn. rewrite Ic. exact Mi. }
  assert (Y : let s1 := match sm_yawmode s with RATE => update_yaw_reference s | ANGLE => s end in
    sm_dyn s1 = sm_dyn s /\ sm_ctl s1 = sm_ctl s /\ rf_motors (sm_refs s1) = rf_motors (sm_refs s)).
  { cbv zeta. destruct (sm_yawmode s); split; try reflexivity; split; reflexivity. }
  cbv zeta in Y. revert Y. generalize (match sm_yawmode s with ANGLE => s | RATE => update_yaw_reference s end). intros s1 (Ed & Ec & Er).
  destruct (sm_mode s1).
  - apply (X s1 Ed Ec Er). unfold ctl_pos, ctl_vel. cbv zeta. gacc_size.
  - split.
    + exists p. split; [|exact L]. cbn. rewrite Ed. eapply gvehicle_act; [exact V|]. rewrite Er. exact Rf.
    + cbn. rewrite Er. exact Rf.
    + cbn. rewrite Ec. exact Mi.
  - apply (X s1 Ed Ec Er). apply gacro_sizes.
  - apply (X s1 Ed Ec Er). unfold ctl_traj, traj_control. cbv zeta. gacc_size.
  - apply (X s1 Ed Ec Er). unfold ctl_vel. cbv zeta. gacc_size.
  - apply (X s1 Ed Ec Er). unfold ctl_pos, ctl_vel. cbv zeta. gacc_size.
Qed.

Lemma gwell_dynamics n s dt : gwell n s -> ltb dtmax dt = false ->
  exists s', next (update_dynamics s dt) s' /\ gwell n s'.
Proof.
  intros [(p & V & L) Rf Mi] D.
  assert (Fr : forall s', next (update_dynamics s dt) s' -> (exists d, vehicle n d (sm_act s) p /\ d_model (sm_dyn s') = d_model d /\ s_mvel (sim_state s') = s_mvel (d_state d)) -> gwell n s').
  { intros s' N (d & Vd & Md & Sd). destruct (frame_dynamics n s dt s' N) as (C & _ & _ & _ & Rr & Ac & _). split.
    - exists p. split; [|exact L]. destruct Vd as (A & B & E & F). rewrite Ac.
      split; [rewrite Md; exact A|]. split; [rewrite Md; exact B|]. split; [exact E|].
      change (d_state (sm_dyn s')) with (sim_state s'). rewrite Sd. exact F.
    - rewrite Rr. exact Rf.
    - rewrite C. exact Mi. }
  pose proof V as (Vr & Vp & _). pose proof Vp as Vp'. apply get_params_cfg in Vp' as (c & Hc & Hcp).
  destruct (leb dt zero) eqn:Zl.
  -     destruct (below_floor s) eqn:B.
    + apply andb_prop in B as [B1 B2].
      destruct (failed_below n s dt p Zl Vp B1 B2) as (s' & K & _ & Ed & _).
      exists s'. split; [right; exact K|]. apply Fr; [right; exact K|]. exists (sm_dyn s). split; [exact V|]. unfold sim_state. rewrite Ed. split; reflexivity.
    + apply andb_false_iff in B. pose proof (failed_above n Sn s dt Zl B) as K.
      exists s. split; [right; exact K|]. apply Fr; [right; exact K|]. exists (sm_dyn s). split; [exact V|]. split; reflexivity.
  - assert (U : exists s', update_dynamics s dt = Ok s').
    { unfold update_dynamics. rewrite Hc. cbn [option_map].
      destruct (below_floor s).
      - destruct (short_step_defined n (sm_dyn s) (sm_act s) dt (vscaler (vneg (p_grav (cf_params c))) (p_mass (cf_params c))) (negb (sm_floor_col s)) p V L Zl D) as [d Pd].
        cbn [with_ext sm_dyn sm_act sm_ext sm_floor_col]. rewrite Pd. cbv zeta. destruct (below_floor _); eexists; reflexivity.
      - destruct (short_step_defined n (sm_dyn s) (sm_act s) dt (sm_ext s) (negb (sm_floor_col s)) p V L Zl D) as [d Pd].
        rewrite Pd. cbv zeta. destruct (below_floor _); eexists; reflexivity. }
    destruct U as [s' K]. exists s'. split; [left; exact K|]. apply Fr; [left; exact K|].
    destruct (contact_cases _ _ _ K) as (ext & d & F & C). unfold free_motion in F.
    assert (Vd : vehicle n d (sm_act s) p).
    { pose proof (process_inv (fun x => vehicle n x (sm_act s) p) (sm_dyn s) (sm_act s) dt ext (negb (sm_floor_col s)) V) as I.
      rewrite F in I. apply I. intros x y h Vx E. eapply vehicle_core; eassumption. }
    exists d. split; [exact Vd|]. destruct C as [(_ & _ & St & M & _)|(_ & Ed & _)].
    + split; [exact M|]. destruct St as (_ & _ & _ & _ & _ & _ & _ & _ & Mv & _). exact Mv.
    + unfold sim_state. rewrite Ed. split; reflexivity.
Qed.

Lemma gnew_defined n p seed st : check_params p = true -> (length (p_motors p) <= n)%nat -> exists d : Dyn T G, dyn_new n p seed st = Some d.
Proof.
  intros C L. unfold dyn_new, model_new, update_params. rewrite C. cbn [negb]. unfold compute_mixer_6D, compute_mixer_inertia, cols.
  assert (Nat.ltb n (length (p_motors p)) = false) as -> by (apply Nat.ltb_ge; exact L). cbn. eexists. reflexivity.
Qed.

Lemma gwell_step n s op : gwell n s -> fits_short n op -> exists s', next (sim_step n s op) s' /\ gwell n s'.
Proof.
  intros W Q. pose proof W as [(p & V & L) Rf Mi].
  destruct op; cbn [sim_step fits_short] in *; try (eexists; split; [left; reflexivity|]; split; [exists p; split; assumption|assumption|assumption]).
  - apply gwell_dynamics; assumption.
  - eexists; split; [left; reflexivity|]. apply gwell_controller, W.
  - eexists; split; [left; reflexivity|]. split; [exists p; split; [|exact L]|exact Rf|exact Mi].
    eapply gvehicle_act; [exact V|apply repeat_length].
  - eexists; split; [left; reflexivity|]. unfold set_control_mode. destruct (_ && _); [exact W|]. split; [exists p; split; assumption|exact Rf|exact Mi].
  - destruct Q as (C & Lm & Ls). destruct (gnew_defined n p0 seed st C) as [d Ed]; [lia|].
    exists (with_dyn s d). split; [left; unfold set_dynamics_params; rewrite Ed; reflexivity|].
    destruct (new_params _ _ _ _ _ Ed C) as (A & B & E). split; [|exact Rf|exact Mi].
    exists p0. split; [|exact Lm]. split; [exact A|]. split; [exact B|]. split; [apply V|]. cbn. rewrite E. exact Ls.
  - destruct Q as (p0 & V0 & L0). eexists; split; [left; reflexivity|]. split; [|exact Rf|exact Mi].
    exists p0. split; [|exact L0]. eapply gvehicle_act; [exact V0|]. apply V.
Qed.

Lemma gwell_run n ops : forall s, gwell n s -> Forall (fits_short n) ops -> exists s', sim_run n s ops = Some s' /\ gwell n s'.
Proof.
  induction ops as [|op r IH]; intros s W F; [exists s; split; [reflexivity|exact W]|].
  apply Forall_cons_iff in F as [Q F]. destruct (gwell_step n s op W Q) as (s1 & N & W1).
  destruct (IH s1 W1 F) as (s' & K & W'). exists s'. split; [|exact W']. cbn [sim_run]. destruct N as [-> | ->]; exact K.
Qed.

Lemma gsimulator_defined n sp ops : fitting_params n sp -> Forall (fits_short (G := G) (H := H) n) ops -> exists s', sim_after n sp ops = Some s'.
Proof.
  intros (C & Lm & Ls & Lc) F. destruct (gnew_defined n (sp_model sp) (sp_seed sp) (sp_state sp) C) as [d Ed]; [lia|].
  unfold sim_after, sim_new. rewrite Ed. cbn [option_map].
  destruct (new_params _ _ _ _ _ Ed C) as (A & B & E).
  match goal with |- exists s', sim_run n ?x ops = _ => assert (W : gwell n x) end.
  { split; [|apply repeat_length|exact Lc]. exists (sp_model sp). split; [|exact Lm].
    split; [exact A|]. split; [exact B|]. split; [apply repeat_length|]. cbn. rewrite E. exact Ls. }
  destruct (gwell_run n ops _ W F) as (s' & K & _). exists s'. exact K.
Qed.

Lemma gafter_well n sp ops s : fitting_params n sp -> Forall (fits_short (G := G) (H := H) n) ops -> sim_after n sp ops = Some s -> gwell n s.
Proof.
  intros (C & Lm & Ls & Lc) F. destruct (gnew_defined n (sp_model sp) (sp_seed sp) (sp_state sp) C) as [d Ed]; [lia|].
  unfold sim_after, sim_new. rewrite Ed. cbn [option_map].
  destruct (new_params _ _ _ _ _ Ed C) as (A & B & E).
  match goal with |- sim_run n ?x ops = _ -> _ => assert (W : gwell n x) end.
  { split; [|apply repeat_length|exact Lc]. exists (sp_model sp). split; [|exact Lm].
    split; [exact A|]. split; [exact B|]. split; [apply repeat_length|]. cbn. rewrite E. exact Ls. }
  destruct (gwell_run n ops _ W F) as (s' & K & W'). rewrite K. intros Q. injection Q as <-. exact W'.
Qed.

End Well.
