(** Examples for the configuration theorems. *)

From Coq Require Import ZArith List Bool Lia Reals Lra.
From Verif Require Import Scalar Float64 LinAlg MUtils MModel MDynamics MPid MControl MCtlRun MImu MSim MText MExample MConfig
  SpecDyn SpecRun SpecPid SpecCtl SpecImu SpecSim SpecText SpecExample SpecConfig
  PBase PFloat PCtlR PSim PSimEnd PWell PConfig.
Import ListNotations.

(** The built-in configuration is accepted in binary64 and nothing done with it
    is undefined, for updates of at most 10 ms. *)
Lemma builtin_check L : let O := F64Ops L in check_params code_model = true.
Proof. vm_compute. reflexivity. Qed.
Lemma builtin_defined L : let O := F64Ops L in forall (G H : Gen b64) p (ops : list (SimOp b64 G H)),
  Forall (fits_short 4) ops -> exists s s' : Sim b64 G H, get_simulator p FromCode = Some s /\ sim_run 4 s ops = Some s'.
Proof.
  intros O G H p ops F.
  assert (Fp : fitting_params 4 (program_params p FromCode)).
  { split; [|destruct p; (split; [reflexivity|]); split; reflexivity]. destruct p; exact (builtin_check L). }
  assert (F' : Forall (fits_short (G := G) (H := H) 4) ([SEnableFloor (program_floor FromCode); SArm] ++ ops)).
  { apply Forall_app. split; [|exact F]. apply Forall_cons; [exact I|]. apply Forall_cons; [exact I|]. apply Forall_nil. }
  destruct (gsimulator_defined (F64_sane L) 4 _ _ Fp F') as [s' K].
  unfold sim_after in K. unfold get_simulator. destruct (sim_new 4 (program_params p FromCode)) as [s0|]; [|discriminate].
  eexists. exists s'. split; [reflexivity|]. exact K.
Qed.

Local Open Scope R_scope.
Definition sec_ex : PidSection R := mkPidSec (mkV 1 2 3) v0 v0 (mkV 1 1 1) v0 (mkV 5 0 5).
Definition doc_ex : Doc R :=
  mkDoc (1/2) (mkV 0 0 1) (mkQ 1 0 0 0) v0 v0 v0 v0 (mkV 0 0 (-4)) 2 (mkV 1 2 3) (1/10) (mkV 1 1 1) 0 0
        2 3 (1/5) (1/4) 0 100 (1/50) (1/1000) sec_ex (mkV 1 2 3) sec_ex sec_ex sec_ex 0 0 0 0 1.

Lemma doc_ex_sensible : sensible (FromFile doc_ex) /\ effective_rotors (FromFile doc_ex).
Proof.
  unfold sensible, sensible_doc, effective_rotors, doc_ex.
  cbv beta iota delta [yd_mass yd_inertia yd_drag yd_aero yd_kf yd_kt yd_min yd_max yd_tau yd_J yd_x yd_y vx vy vz].
  split; repeat (split; [lra|]); lra.
Qed.

Lemma config_ex {G H : Gen R} : exists s s' : Sim R G H,
  sensible (FromFile doc_ex) /\ effective_rotors (FromFile doc_ex) /\ get_simulator FlyExample (FromFile doc_ex) = Some s /\
  Forall (flight_call (G := G) (H := H)) [SMode POSITION ANGLE; SRefPos (mkV 1 2 3); SController (1/100); SDynamics (1/100)] /\
  sim_run 4 s [SMode POSITION ANGLE; SRefPos (mkV 1 2 3); SController (1/100); SDynamics (1/100)] = Some s' /\
  sm_armed s' = true /\ sm_mode s' = POSITION /\ p_mass (sp_model (program_params FlyExample (FromFile doc_ex))) = 2.
Proof.
  destruct doc_ex_sensible as [A B].
  set (ops := [SMode POSITION ANGLE; SRefPos (mkV 1 2 3); SController (1/100); SDynamics (1/100)] : list (SimOp R G H)).
  assert (F : Forall (fits (G := G) (H := H) 4) ops).
  { unfold ops. apply Forall_cons; [exact I|]. apply Forall_cons; [exact I|]. apply Forall_cons; [exact I|].
    apply Forall_cons; [cbn; lra|]. apply Forall_nil. }
  destruct (program_runs (G := G) (H := H) FlyExample (FromFile doc_ex) ops A F) as (s & s' & K & Rn).
  exists s, s'. split; [exact A|]. split; [exact B|]. split; [exact K|]. split.
  { unfold ops. apply Forall_cons; [exact I|]. apply Forall_cons; [exact I|]. apply Forall_cons; [exact I|].
    apply Forall_cons; [exact I|]. apply Forall_nil. }
  split; [exact Rn|].
  destruct (started _ _ _ K) as (A0 & _ & _ & _ & _ & _ & M0 & _).
  pose proof (run_armed 4 ops s s' Rn) as X. pose proof (run_mode 4 ops s s' Rn) as Y. rewrite A0 in X. cbn in X, Y.
  split; [exact X|]. split; [|reflexivity]. congruence.
Qed.
