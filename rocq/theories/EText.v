(** Examples and counterexamples for the text output and the example flights. *)

From Coq Require Import ZArith List Bool String Ascii Lia Reals Lra.
From Flocq Require Import BinarySingleNaN.
From Verif Require Import Scalar Float64 LinAlg MUtils MModel MDynamics MPid MControl MCtlRun MImu MSim MText MExample
  SpecDyn SpecRun SpecPid SpecCtl SpecImu SpecSim SpecText SpecExample
  PBase PFloat PModel PSim PSimEnd PWell PText PExample EBase ECtl EImu ESim.
Import ListNotations.
Local Open Scope string_scope.

(** A printer. *)
Definition sign (x : R) : string := if Rltb x 0 then "-1" else "1".
Lemma sign_plain : plain_printer (T := R) sign.
Proof.
  intro x. unfold sign. destruct (Rltb x 0); cbn [free_of]; split; split; try discriminate; try exact I; split; try discriminate; exact I.
Qed.

Definition st_text : State R := (mkState (mkV 1 (-2) 3) q1 (mkV (-1) 0 0) v0 v0 v0 v0 v0 [1;2;3;4] [-1;-1;0;0])%R.
Lemma state_text_ex : plain_printer (T := R) sign /\ s_macc st_text <> [] /\
  nth 1 (fields (out_state sign "" st_text)) "" = "-1" /\ nth 6 (fields (out_state sign "" st_text)) "" = "-1" /\
  List.length (fields (out_state sign "" st_text)) = 32.
Proof.
  split; [exact sign_plain|]. split; [discriminate|]. rewrite (state_fields sign sign_plain st_text) by discriminate.
  assert (E : sign (-2) = "-1") by (unfold sign; destruct (Rltb (-2) 0) eqn:Q; [reflexivity|apply Rltb_false in Q; lra]).
  assert (E1 : sign (-1) = "-1") by (unfold sign; destruct (Rltb (-1) 0) eqn:Q; [reflexivity|apply Rltb_false in Q; lra]).
  split; [exact E|]. split; [exact E1|]. reflexivity.
Qed.
Lemma print_state_short : exists (fmt : R -> string) st, plain_printer fmt /\
  List.length (s_mvel st) = 4 /\ List.length (s_macc st) = 4 /\
  List.length (fields (print_state fmt "" st)) <> 18 + 6 + 2 * 4.
Proof.
  exists sign, st_text. split; [exact sign_plain|]. split; [reflexivity|]. split; [reflexivity|].
  rewrite (print_state_fields sign sign_plain st_text 3) by reflexivity. discriminate.
Qed.

(** A parameter set in any arithmetic. *)
Section Any.
Context {T : Type} {O : Ops T}.
Definition gsp : SimParams T :=
  mkSP (mkParams (quad_x one one one one zero (ofZ 100) (lit 1 10) zero) one mI zero mI (mkV zero zero (lit (-981) 100)) zero zero) 0
       (mkState v0 q1 v0 v0 v0 v0 v0 v0 (repeat zero 4) (repeat zero 4))
       (mkCP (mkAP one mI (mkV zero zero (lit (-981) 100))) (mkIP mI (repeat (v0, v0) 4) pp0) pp0 pp0 pp0)
       imp0 odp0.
Definition undefb {A} (w : Watch A) : bool := match w with Undefined => true | _ => false end.
End Any.

Section B64.
Variable L : Libm.
#[local] Instance FO : Ops b64 := F64Ops L.
Context {G H : Gen b64}.

Lemma gsp_fits : fitting_params 4 gsp.
Proof. split; [vm_compute; reflexivity|]. split; [reflexivity|]. split; reflexivity. Qed.

(** A reference that is not a number. *)
Definition nan3 : V3 b64 := mkV zero B754_nan zero.
Lemma nan_row : exists sp (s : Sim b64 G H) mass grav, fitting_params 4 sp /\
  sim_after 4 sp [SRefPos nan3] = Some s /\ four_rotors s /\ vehicle_of s mass grav /\
  forall fmt, plain_printer fmt -> exists row, save fmt "" zero s = Some (row ++ newline) /\ List.length (fields row) <> 74.
Proof.
  destruct (gnew_defined (G := G) 4 (sp_model gsp) (sp_seed gsp) (sp_state gsp) (proj1 gsp_fits)) as [d Ed].
  { rewrite (proj1 (proj2 gsp_fits)). lia. }
  destruct (new_params _ _ _ _ _ Ed (proj1 gsp_fits)) as (A & B & E).
  assert (X : exists s : Sim b64 G H, sim_after 4 gsp [SRefPos nan3] = Some s /\ sm_dyn s = d /\ sm_act s = repeat zero 4 /\ rf_pos (sm_refs s) = nan3).
  { unfold sim_after, sim_new. rewrite Ed. cbn [option_map sim_run sim_step]. eexists. split; [reflexivity|]. split; [reflexivity|]. split; reflexivity. }
  destruct X as (s & Sa & Sd & Sc & Sr).
  assert (F : four_rotors s).
  { unfold four_rotors, sim_state. rewrite Sd, E, Sc. split; [reflexivity|]. split; reflexivity. }
  assert (Vh : vehicle_of s (p_mass (sp_model gsp)) (p_grav (sp_model gsp))).
  { exists (sp_model gsp). rewrite Sd. split; [exact B|]. split; reflexivity. }
  exists gsp, s, (p_mass (sp_model gsp)), (p_grav (sp_model gsp)).
  split; [exact gsp_fits|]. split; [exact Sa|]. split; [exact F|]. split; [exact Vh|].
  intros fmt P. destruct (save_row fmt P "" zero s _ _ F Vh) as (row & K & _ & _ & I & _).
  exists row. split; [exact K|]. intro N. apply I in N as [_ N].
  assert (Q : number (B754_nan : b64)).
  { apply (proj1 (Forall_forall _ _) N ("y_ref", B754_nan)). unfold ref_columns. rewrite Sr. right. left. reflexivity. }
  unfold number in Q. vm_compute in Q. discriminate Q.
Qed.

(** Two references, 1.1 s, steps of 5 ms: after the 1.1 s the loop still asks
    for another reference. *)
Lemma clock_overrun : clock 2 (lit 11 10) (lit 5 1000) 225 zero zero 0 = Undefined.
Proof.
  assert (E : undefb (clock 2 (lit 11 10) (lit 5 1000) 225 zero zero 0) = true) by (vm_compute; reflexivity).
  destruct (clock 2 (lit 11 10) (lit 5 1000) 225 zero zero 0) as [?|?| |]; (reflexivity || discriminate E).
Qed.
Lemma tours_overrun fmt v sp (ops : list (SimOp b64 G H)) s a b : fitting_params 4 sp -> Forall (fits_short 4) ops ->
  sim_after 4 sp ops = Some s -> tour fmt v [a; b] (lit 11 10) (lit 5 1000) 225 s = Undefined.
Proof.
  intros P F E. apply (gtour_overruns (F64_sane L)); [discriminate|vm_compute; reflexivity|vm_compute; reflexivity| |exact clock_overrun].
  exact (gafter_well (F64_sane L) 4 sp ops s P F E).
Qed.
Lemma tour_refuted fmt v : exists sp (ops : list (SimOp b64 G H)) s refs tmax dt k,
  fitting_params 4 sp /\ Forall (fits_short 4) ops /\ sim_after 4 sp ops = Some s /\ refs <> [] /\
  ltb zero dt = true /\ leb dt dtmax = true /\ ~ sound (tour fmt v refs tmax dt k s).
Proof.
  destruct (gsimulator_defined (G := G) (H := H) (F64_sane L) 4 gsp [] gsp_fits (Forall_nil _)) as [s E].
  exists gsp, [], s, [v0; v0], (lit 11 10), (lit 5 1000), 225.
  split; [exact gsp_fits|]. split; [constructor|]. split; [exact E|]. split; [discriminate|].
  split; [vm_compute; reflexivity|]. split; [vm_compute; reflexivity|].
  rewrite (tours_overrun fmt v gsp [] s v0 v0 gsp_fits (Forall_nil _) E). exact (fun x => x).
Qed.
End B64.

(** A simulator ready for a tour, and a log. *)
Section Exact.
Local Open Scope R_scope.
Context {G H : Gen R}.
Lemma tour_ex : exists (s : Sim R G H), fitting_params 4 (sp_ex 1 4 4 st_text imp_plain) /\
  Forall (fits (G := G) (H := H) 4) [SEnableFloor (-5); SArm] /\
  sim_after 4 (sp_ex 1 4 4 st_text imp_plain) [SEnableFloor (-5); SArm] = Some s /\ four_rotors s /\
  s_pos (sim_state s) = mkV 1 (-2) 3.
Proof.
  assert (F : fitting_params 4 (sp_ex 1 4 4 st_text imp_plain)) by (apply sp_fits; [lra|reflexivity]).
  destruct (ex_start (G := G) (H := H) 4 _ F) as (s & _ & A & _ & St & _ & _ & _ & _ & _ & Ac & _).
  exists (arm (enable_floor s (-5))). split; [exact F|].
  split; [constructor; [exact I|constructor; [exact I|constructor]]|].
  split; [exact (after_cons 4 _ s (SEnableFloor (-5)) [SArm] (enable_floor s (-5)) A (or_introl eq_refl))|].
  change (sim_state (arm (enable_floor s (-5)))) with (sim_state s).
  unfold four_rotors. change (sim_state (arm (enable_floor s (-5)))) with (sim_state s). rewrite St.
  split; [|reflexivity]. split; [reflexivity|]. split; [reflexivity|].
  cbn [arm enable_floor sm_act]. rewrite Ac. reflexivity.
Qed.
Lemma log_ex : exists (s : Sim R G H), loggable (1/2, s).
Proof.
  destruct tour_ex as (s & P & F & E & M & _). exists s.
  apply (flyable_loggable sign); [exact sign_plain|]. eapply run_flyable; [exact P|exact F|exact E|apply M].
Qed.
End Exact.
