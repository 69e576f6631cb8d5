(** Examples for the theorems on the configuration file. *)

From Coq Require Import ZArith List Bool Lia Reals Lra.
From Verif Require Import Scalar LinAlg MUtils MModel MDynamics MPid MControl MCtlRun MImu MSim MConfig
  SpecDyn SpecRun SpecPid SpecCtl SpecSim SpecConfig SpecSet SpecFile PBase PPid EPid PCtl PSim PSimEnd PConfig PSet ESet EConfig PFile.
Import ListNotations.
Local Open Scope R_scope.

Definition sec_t : PidSection R := mkPidSec (mkV 1 2 3) v0 v0 (r3 (1/2)) v0 (mkV 5 6 7).
Definition doc_t : Doc R :=
  mkDoc (1/2) (mkV 0 0 1) (mkQ 1 0 0 0) v0 v0 v0 v0 (mkV 0 0 (-4)) 2 (mkV 1 2 3) (1/10) (mkV 1 1 1) 0 0
        2 3 (1/5) (1/4) 0 100 (1/50) (1/1000) sec_ex (mkV 1 2 3) sec_t sec_ex sec_t 0 0 0 0 1.
Lemma doc_t_sensible : sensible (FromFile doc_t).
Proof.
  unfold sensible, sensible_doc, doc_t.
  cbv beta iota delta [yd_mass yd_inertia yd_drag yd_aero yd_kf yd_kt yd_min yd_max yd_tau yd_J yd_x yd_y vx vy vz].
  repeat (split; [lra|]); lra.
Qed.
Section Ex.
Context {G H : Gen R}.
Lemma doc_t_runs p : exists s : Sim R G H, check_params (sp_model (program_params p (FromFile doc_t))) = true /\ get_simulator p (FromFile doc_t) = Some s.
Proof.
  pose proof (program_fits p _ doc_t_sensible) as Fp.
  destruct (simulator_defined (G := G) (H := H) 4 _ [] Fp (Forall_nil _)) as [s' K].
  unfold sim_after in K. unfold get_simulator. destruct (sim_new 4 (program_params p (FromFile doc_t))) as [s0|]; [|discriminate].
  eexists. split; [exact (proj1 Fp)|reflexivity].
Qed.
Lemma file_case : exists s : Sim R G H, check_params (sp_model (program_params FlyExample (FromFile doc_t))) = true /\
  get_simulator FlyExample (FromFile doc_t) = Some s /\
  pid_kp (get_pid WPos (sm_ctl s)) = mkV 1 2 3 /\ pid_alpha (get_pid WPos (sm_ctl s)) = r3 (1/2) /\
  pid_sat_on (get_pid WPos (sm_ctl s)) = true /\ fst (pid_limits (get_pid WPos (sm_ctl s))) = mkV 5 6 7 /\ vz (snd (pid_limits (get_pid WPos (sm_ctl s)))) = -7.
Proof.
  destruct (doc_t_runs FlyExample) as (s & C & K). exists s. split; [exact C|]. split; [exact K|].
  destruct (as_written R_sane FlyExample doc_t [] s s C K (Forall_nil _) eq_refl) as (_ & _ & _ & _ & _ & (Lp & _ & _ & Al & _) & _).
  destruct Lp as (Kp & _ & _ & _ & _ & _ & On & Lm).
  assert (S : pid_sat_on (get_pid WPos (sm_ctl s)) = true).
  { rewrite On. cbn [doc_t yd_posc sec_t ks_limit]. unfold usable3, minus, vscale, vmap. cbn [vx vy vz]. unR.
    rewrite !usable_R by lra. apply andb_true_iff. split; [|reflexivity]. apply negb_true_iff, andb_false_iff. right.
    unfold veqb. cbn [vx vy vz v0]. unR. unfold Reqb. destruct (Req_EM_T 5 0); [lra|reflexivity]. }
  split; [exact Kp|]. split; [exact Al|]. split; [exact S|]. rewrite (Lm S). cbn [fst snd doc_t yd_posc sec_t ks_limit]. split; [reflexivity|].
  unfold minus, vscale, vmap. cbn [vx vy vz]. unR. lra.
Qed.
End Ex.
