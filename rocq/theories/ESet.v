(** Examples for the theorems on settings and references. *)

From Coq Require Import ZArith List Bool Lia Reals Lra.
From Verif Require Import Scalar LinAlg MUtils MModel MDynamics MPid MPid1 MControl MCtlRun MImu MSim
  SpecDyn SpecRun SpecPid SpecCtl SpecSim SpecSet PBase PPid PPidR EPid PCtl PCtlR EBase ECtl PSim PSimEnd ESim PSet.
Import ListNotations.
Local Open Scope R_scope.

Lemma usable_R u l : 1/1000 <= u - l -> usable (u : R) l = true.
Proof.
  intros W. unfold usable. unR. unfold Rltb. rewrite Rabs_pos_eq by lra.
  destruct (Rlt_dec (u - l) _); [lra|]. destruct (Rlt_dec u l); [lra|]. reflexivity.
Qed.
Lemma unusable_R u l : u < l -> usable (u : R) l = false.
Proof. intros W. unfold usable. unR. unfold Rltb at 2. destruct (Rlt_dec u l); [|lra]. apply andb_false_r. Qed.

(** A gain changed in flight, an inverted range refused, then a range set. *)
Definition set_ex : list (PidOp R) :=
  [OpKp (mkV 7 8 9); OpCompute (1/100) (mkV 1 2 3); OpSetSat (mkV 4 1 4) (mkV (-4) 2 (-4)) true; OpReset].
Lemma set_case : let p := pid_run (pid_new pp_ex) set_ex in let q := pid_run (pid_new pp_ex) (set_ex ++ [OpSetSat (mkV 4 5 6) (mkV (-4) 0 2) true]) in
  pid_sat_on (pid_new pp_ex) = true /\ pid_kp p = mkV 7 8 9 /\ pid_ki p = r3 1 /\ pid_sat_on p = false /\ pid_prop_on p = false /\
  pid_sat_on q = true /\ pid_prop_on q = true /\ pid_limits q = (mkV 4 5 6, mkV (-4) 0 2).
Proof.
  cbv zeta. destruct (pid_last pp_ex set_ex) as (Kp & Ki & _ & _ & _ & _ & Pr & St & _).
  destruct (pid_last pp_ex (set_ex ++ [OpSetSat (mkV 4 5 6) (mkV (-4) 0 2) true])) as (_ & _ & _ & _ & _ & _ & Pr2 & St2 & Lm2).
  assert (U : usable3 (mkV 4 5 6 : V3 R) (mkV (-4) 0 2) = true).
  { unfold usable3. cbn [vx vy vz]. rewrite !usable_R by lra. reflexivity. }
  assert (N : usable3 (mkV 4 1 4 : V3 R) (mkV (-4) 2 (-4)) = false).
  { unfold usable3. cbn [vx vy vz]. rewrite (unusable_R 1 2) by lra. rewrite andb_false_r. reflexivity. }
  assert (On : pid_sat_on (pid_run (pid_new pp_ex) (set_ex ++ [OpSetSat (mkV 4 5 6) (mkV (-4) 0 2) true])) = true).
  { rewrite St2, last_app. cbn [sets_sat]. exact U. }
  specialize (Lm2 On (v0, v0)). rewrite Kp, Ki, Pr, St, Pr2, On, Lm2, !last_app.
  cbn [sets_prop sets_limits]. rewrite U. unfold set_ex. cbn [last_set sets_kp sets_ki sets_sat sets_prop]. rewrite N.
  repeat (split; [first [reflexivity|rewrite pp_ex_new; reflexivity]|]). reflexivity.
Qed.

(** The scalar controller: limits stay while saturation is disabled. *)
Definition pp1_set : P1Params R := mkPP1 1 2 3 0 1 false 5 (-5).
Lemma set1_case : exists q, pid1_run (pid1_new pp1_set) [Op1Kd 4; Op1SetSat 6 (-1); Op1SetSat 1 2; Op1DisableSat] = Some q /\
  pp1_kd (pid1_get_params q) = 4 /\ pp1_ki (pid1_get_params q) = 2 /\ pid1_sat_on q = false /\ pid1_limits q = (6, -1).
Proof.
  eexists. split; [reflexivity|].
  match goal with |- context [pid1_limits ?q] => destruct (pid1_last pp1_set [Op1Kd 4; Op1SetSat 6 (-1); Op1SetSat 1 2; Op1DisableSat] q eq_refl) as (_ & Ki & Kd & _ & _ & _ & St & Lm) end.
  rewrite Kd, Ki, St, Lm. cbn [last_set sets1_kd sets1_ki sets1_sat sets1_limits].
  rewrite (usable_R 6 (-1)) by lra. rewrite (unusable_R 1 2) by lra. split; [reflexivity|]. split; [reflexivity|]. split; reflexivity.
Qed.

(** A velocity gain changed through the controller, a new mass, and a call. *)
Definition route_ex : list (CtlOp R) := [CPid WVel (OpKp (mkV 7 8 9)); CMass 3; CConvVel (mkV 1 0 0) (mkV 0 0 0) (1/100); CKp mI].
Lemma route_case : let c := ctl_run c_ex route_ex in
  pid_kp (get_pid WVel c) = mkV 7 8 9 /\ pid_kp (get_pid WPos c) = r3 1 /\ ac_mass (ct_acro c) = 3 /\ ac_kp (ct_acro c) = mI.
Proof.
  cbv zeta. destruct (ctl_last 4 cp_ex route_ex) as (Ms & _ & Kr & _ & _ & Lo). fold c_ex in Ms, Kr, Lo. rewrite Ms, Kr.
  assert (K : forall w, pid_kp (get_pid w (ctl_run c_ex route_ex)) = last_set sets_kp (pp_kp (loop_params w cp_ex)) (flat_map (reaches w) route_ex)).
  { intros w. destruct (Lo w) as [E _]. apply (f_equal pp_kp) in E.
    transitivity (pid_kp (pid_run (pid_new (loop_params w cp_ex)) (flat_map (reaches w) route_ex))); [exact E|]. apply pid_last. }
  rewrite !K. split; [reflexivity|]. split; [reflexivity|]. split; reflexivity.
Qed.

(** References: a position asked for and kept through updates. *)
Section Ex.
Context {G H : Gen R}.
Lemma refs_case : exists (s s2 : Sim R G H), sim_after 4 (sp_ex 1 10 10 st_hover imp_plain) [SMode POSITION ANGLE] = Some s /\
  In (VPos (mkV 1 2 3)) (requests (SRefPos (G := G) (H := H) (mkV 1 2 3))) /\
  Forall (fun o => ~ replaces (G := G) (H := H) o (VPos (mkV 1 2 3))) [SController (1/100); SRefVel (mkV 1 1 1); SDynamics (1/100); SDisarm] /\
  sim_run 4 s [SRefPos (mkV 1 2 3); SController (1/100); SRefVel (mkV 1 1 1); SDynamics (1/100); SDisarm] = Some s2 /\ ref_is s2 (VPos (mkV 1 2 3)) /\ ref_is s2 (VVel (mkV 1 1 1)).
Proof.
  set (sp := sp_ex 1 10 10 st_hover imp_plain).
  set (ops := [SController (1/100); SRefVel (mkV 1 1 1); SDynamics (1/100); SDisarm] : list (SimOp R G H)).
  assert (F : fitting_params 4 sp) by (apply sp_fits; [lra|reflexivity]).
  destruct (ex_start (G := G) (H := H) 4 sp F) as (s0 & _ & A & W & _).
  destruct (well_run 4 [SMode POSITION ANGLE] s0 W) as (s & Ks & Ws); [apply Forall_cons; [exact Logic.I|apply Forall_nil]|].
  destruct (well_step 4 s (SRefPos (mkV 1 2 3)) Ws Logic.I) as (s1 & N1 & W1).
  destruct (well_run 4 ops s1 W1) as (s2 & K2 & _).
  { unfold ops. apply Forall_cons; [exact Logic.I|]. apply Forall_cons; [exact Logic.I|]. apply Forall_cons; [cbn [fits]; lra|].
    apply Forall_cons; [exact Logic.I|]. apply Forall_nil. }
  assert (Fr : Forall (fun o => ~ replaces (G := G) (H := H) o (VPos (mkV 1 2 3))) ops).
  { unfold ops. repeat (apply Forall_cons; [cbn; tauto|]). apply Forall_nil. }
  exists s, s2.
  split; [unfold sim_after in *; destruct (sim_new 4 sp) as [x|]; [|discriminate]; injection A as ->; exact Ks|].
  split; [left; reflexivity|]. split; [exact Fr|].
  split; [destruct N1 as [N1|N1]; [|discriminate]; injection N1 as <-; exact K2|].
  split; [exact (ref_kept 4 s (SRefPos (mkV 1 2 3)) ops s1 s2 _ N1 (or_introl eq_refl) Fr K2)|].
  unfold ops in K2. cbn [sim_run sim_step] in K2.
  refine (ref_kept 4 (update_controller 4 s1 (1/100)) (SRefVel (mkV 1 1 1)) [SDynamics (1/100); SDisarm] _ s2 _ (or_introl eq_refl) (or_introl eq_refl) _ K2).
  repeat (apply Forall_cons; [cbn; tauto|]). apply Forall_nil.
Qed.
End Ex.
Lemma parts_case {G H : Gen R} : exists s s' : Sim R G H, sim_new 4 (sp_ex 1 10 10 st_hover imp_plain) = Some s /\
  sim_after 4 (sp_ex 1 10 10 st_hover imp_plain) [SSetCtl cp_ex] = Some s' /\
  ac_grav (ct_acro (sm_ctl s')) = mkV 0 0 (-10) /\ m11 (ac_kp (ct_acro (sm_ctl s))) = 1 /\ m11 (ac_kp (ct_acro (sm_ctl s'))) = 2.
Proof.
  set (sp := sp_ex 1 10 10 st_hover imp_plain).
  assert (F : fitting_params 4 sp) by (apply sp_fits; [lra|reflexivity]).
  destruct (ex_start (G := G) (H := H) 4 sp F) as (s & N & A & _ & _ & Ct & _).
  exists s, (set_controller_params 4 s cp_ex). split; [exact N|].
  split; [exact (after_cons 4 sp s (SSetCtl cp_ex) [] _ A (or_introl eq_refl))|].
  split; [reflexivity|]. split; [rewrite Ct|]; reflexivity.
Qed.
