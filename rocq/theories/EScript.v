(** Examples and counterexamples for the scripted flights. *)

From Coq Require Import ZArith List Bool String Lia Reals Lra.
From Flocq Require Import Core BinarySingleNaN.
From Verif Require Import Scalar Float64 LinAlg MUtils MModel MDynamics MPid MControl MCtlRun MImu MSim MText MExample MConfig MScript
  SpecDyn SpecRun SpecPid SpecCtl SpecImu SpecSim SpecText SpecExample SpecConfig SpecRound SpecScript
  PBase PFloat PRound PCtlR PSim PSimEnd PWell PExample PConfig EConfig PScript PScriptMore PScript64.
Import ListNotations.

Section B64.
Variable L : Libm.
#[local] Instance FO : Ops b64 := F64Ops L.
Context {G H : Gen b64}.
Lemma builtin_after p : exists s : Sim b64 G H, get_simulator p FromCode = Some s /\
  fitting_params 4 (program_params p FromCode) /\ Forall (fits_short (G := G) (H := H) 4) [SEnableFloor (program_floor FromCode); SArm] /\
  sim_after 4 (program_params p FromCode) [SEnableFloor (program_floor FromCode); SArm] = Some s.
Proof.
  destruct (builtin_defined L G H p [] (Forall_nil _)) as (s & s' & K & _). exists s. split; [exact K|].
  split. { split; [|destruct p; (split; [reflexivity|]); split; reflexivity]. destruct p; exact (builtin_check L). }
  split; [constructor; [exact I|constructor; [exact I|constructor]]|].
  exact (simulator_after _ _ _ K).
Qed.
Definition small_dt : b64 := lit 1 1152921504606846976.
Lemma endless fmt v p : exists (s : Sim b64 G H) dt tmax, get_simulator p FromCode = Some s /\
  ltb zero dt = true /\ leb dt dtmax = true /\ forall k, exists f, scripted fmt v tmax dt k s = Flying f.
Proof.
  destruct (builtin_after p) as (s & K & P & F & E). exists s, small_dt, one. split; [exact K|].
  split; [vm_compute; reflexivity|]. split; [vm_compute; reflexivity|].
  assert (Lt : forall x y : b64, is_finite x = true -> is_finite y = true -> Bltb x y = true -> (val x < val y)%R).
  { intros x y Fx Fy Hxy. apply (ltb_val x y Fx Fy). exact Hxy. }
  apply (scripted_endless64 L G H fmt v _ _ s one small_dt half P F E).
  - vm_compute. reflexivity.
  - reflexivity.
  - vm_compute. reflexivity.
  - change 0%R with (val (b64_ofZ 0)). apply Lt; [reflexivity|vm_compute; reflexivity|vm_compute; reflexivity].
  - vm_compute. reflexivity.
  - split; [|apply Lt; vm_compute; reflexivity].
    apply Rlt_le. change 0%R with (val (b64_ofZ 0)). apply Lt; vm_compute; reflexivity.
  - apply B2SF_inj. vm_compute. reflexivity.
Qed.
Lemma landing_case fmt v p : exists (s : Sim b64 G H) dt tmax, get_simulator p FromCode = Some s /\
  dt = lit 1 1000 /\ tmax = ofZ 60 /\ exists k f, scripted fmt v tmax dt k s = Landed f.
Proof.
  destruct (builtin_after p) as (s & K & P & F & E). exists s, (lit 1 1000), (ofZ 60). split; [exact K|]. split; [reflexivity|]. split; [reflexivity|].
  assert (Lt : forall x y : b64, is_finite x = true -> is_finite y = true -> Bltb x y = true -> (val x < val y)%R).
  { intros x y Fx Fy Hxy. apply (ltb_val x y Fx Fy). exact Hxy. }
  apply (scripted_lands64 L G H fmt v _ _ s (ofZ 60) (lit 1 1000) P F E).
  - vm_compute. reflexivity.
  - reflexivity.
  - change 0%R with (val (b64_ofZ 0)). apply Lt; [reflexivity|vm_compute; reflexivity|vm_compute; reflexivity].
  - vm_compute. reflexivity.
  - assert (A : (val (ofZ 60) < 64)%R).
    { replace 64%R with (val (b64_ofZ 64)). - apply Lt; vm_compute; reflexivity.
      - unfold val. assert (E1 : B2SF (b64_ofZ 64) = SpecFloat.S754_finite false 4503599627370496 (-46)) by (vm_compute; reflexivity). rewrite <- SF2R_B2SF, E1.
        cbn [SF2R cond_Zopp]. unfold F2R. cbn [Fnum Fexp]. change (bpow radix2 (-46)) with (/ IZR (Z.pow_pos 2 46))%R.
        replace (Z.pow_pos 2 46) with 70368744177664%Z by reflexivity. lra. }
    assert (Bb : (/ 1024 < val (lit 1 1000))%R).
    { pose (x := lit 1 1024 : b64). replace (/ 1024)%R with (val x). - apply Lt; vm_compute; reflexivity.
      - unfold val. assert (E1 : B2SF x = SpecFloat.S754_finite false 4503599627370496 (-62)) by (vm_compute; reflexivity). rewrite <- SF2R_B2SF, E1.
        cbn [SF2R cond_Zopp]. unfold F2R. cbn [Fnum Fexp]. change (bpow radix2 (-62)) with (/ IZR (Z.pow_pos 2 62))%R.
        replace (Z.pow_pos 2 62) with 4611686018427387904%Z by reflexivity. lra. }
    lra.
Qed.
End B64.

Local Open Scope R_scope.
Lemma script_ex {G H : Gen R} fmt v : plain_printer (T := R) fmt -> exists (s : Sim R G H) f,
  sensible (FromFile doc_ex) /\ effective_rotors (FromFile doc_ex) /\ get_simulator FlyExample (FromFile doc_ex) = Some s /\ four_rotors s /\
  scripted fmt v 3 (1/2) 7 s = Landed f /\ sh_t f = 3 /\ complete_log (rows_before v + 6) (sh_log f).
Proof.
  intros Pl. destruct doc_ex_sensible as [A B].
  destruct (program_runs (G := G) (H := H) FlyExample (FromFile doc_ex) [] A (Forall_nil _)) as (s & s' & K & _).
  pose proof (simulator_after _ _ _ K) as E. pose proof (program_fits FlyExample (FromFile doc_ex) A) as Fp.
  pose proof (program_four _ _ _ K) as M.
  assert (F : Forall (fits (G := G) (H := H) 4) [SEnableFloor (program_floor (FromFile doc_ex)); SArm]).
  { apply Forall_cons; [exact I|]. apply Forall_cons; [exact I|]. apply Forall_nil. }
  pose proof (run_flyable _ _ s Fp F E (proj1 (proj2 M))) as Fl.
  destruct (flyable_scripted fmt v 3 (1/2) 7 s Fl) as (n & f & s1 & (C & Tm & Be) & _ & F1 & more & Lg & Fm & Ms); [lra|].
  exists s, f. split; [exact A|]. split; [exact B|]. split; [exact K|]. split; [exact M|].
  assert (N : n = 6%nat /\ scripted fmt v 3 (1/2) 7 s = Landed f).
  { destruct C as [[C ->]|[C [_ Q]]].
    - exfalso. specialize (Be 6%nat ltac:(lia)). rewrite time_at_val in Be. unR. apply Rltb_true in Be. cbn in Be. lra.
    - split; [|exact C]. rewrite time_at_val in Q. unR. apply Rltb_false in Q.
      assert (L6 : (6 <= n)%nat). { destruct (le_lt_dec 6 n) as [|X]; [assumption|exfalso]. assert (Y : INR n <= INR 5) by (apply le_INR; lia). cbn in Y. apply Rmult_le_compat_r with (r := 1/2) in Y; lra. }
      destruct (Nat.eq_dec n 6) as [|X]; [assumption|exfalso]. specialize (Be 6%nat ltac:(lia)). rewrite time_at_val in Be. unR. apply Rltb_true in Be. cbn in Be. lra. }
  destruct N as [-> N]. split; [exact N|]. split; [rewrite Tm, time_at_val; cbn; lra|].
  assert (Lo : Forall loggable (first_log v s1 ++ more)).
  { apply Forall_app. split.
    - destruct v; cbn; try constructor; try constructor; eapply flyable_loggable; eassumption.
    - eapply Forall_impl; [|exact Fm]. intros [t2 s2] W2. eapply flyable_loggable; eassumption. }
  destruct (PText.log_file_lines fmt Pl _ Lo) as (hd & tx & file & A1 & B1 & C2 & _ & D2).
  rewrite Lg in A1. injection A1 as <-. exists hd, tx. split; [exact B1|]. split; [|exact D2].
  apply f2_length in C2. rewrite C2, app_length. replace (List.length more) with 6%nat.
  { destruct v; reflexivity. }
  rewrite <- (map_length fst more), Ms, map_length, seq_length. reflexivity.
Qed.
