(** Concrete objects for the non-vacuity examples and the counterexamples. *)

From Coq Require Import ZArith List Bool Lia Reals Lra.
From Verif Require Import Scalar LinAlg MUtils MModel MDynamics SpecDyn SpecRun PBase PDyn PModel PDynR PPhys.
Import ListNotations.
Local Open Scope R_scope.

(** A generator that always draws 1. *)
Definition gen1 {T} {O : Ops T} : Gen T :=
  {| g_eng := unit; g_dist := unit; g_dist0 := tt; g_seed := fun _ => tt;
     g_draw := fun _ _ => (one, (tt, tt)); g_perm := fun _ => P012 |}.

Definition ex_motors (kf : R) : list (Motor R) := quad_x kf 1 1 1 0 100 (1/10) 0.

(** A quadrotor of mass [m] with gravity [g], drag [c] and noise parameters. *)
Definition ex_params (kf m : R) (g : V3 R) (c fn mn : R) : Params R :=
  mkParams (ex_motors kf) m mI c mI g fn mn.

Definition ex_grav : V3 R := mkV 0 0 (-981/100).

Lemma ex_motors_check kf : 0 <= kf -> forallb check_motor (ex_motors kf) = true.
Proof.
  intros Hkf.
  unfold ex_motors, quad_x. cbn [forallb]. unfold check_motor.
  cbn [mt_max mt_min mt_tau mt_J mt_kf mt_kt]. unR. rcase; try lra; try reflexivity.
Qed.

Lemma ex_check kf m g c fn mn : 0 <= kf -> 0 <= m -> 0 <= c -> check_params (ex_params kf m g c fn mn) = true.
Proof.
  intros Hkf Hm Hc. unfold check_params, ex_params. cbn [p_mass p_inertia p_drag p_aero p_motors].
  rewrite (ex_motors_check kf Hkf), !mdet_R. unfold det3, mI, mdiag. cbn [m00 m01 m02 m10 m11 m12 m20 m21 m22].
  unR. rcase; try lra; try reflexivity.
Qed.

Definition ex_cfg (kf m : R) (g : V3 R) (c fn mn : R) : Cfg R :=
  mkCfg (ex_params kf m g c fn mn) (map (fun x => vz (fst (mixer6_col x))) (ex_motors kf))
    (map (fun x => fst (mixer6_col x)) (ex_motors kf)) (map (fun x => snd (mixer6_col x)) (ex_motors kf))
    (map inertia_col (ex_motors kf)).

Definition ex_model (kf m : R) (g : V3 R) (c fn mn : R) : ModelObj R gen1 :=
  mkModel (G:=gen1) (Some (ex_cfg kf m g c fn mn)) None (tt : g_eng gen1) (tt : g_dist gen1) v0 v0.

Lemma ex_model_new kf m g c fn mn : 0 <= kf -> 0 <= m -> 0 <= c ->
  model_new (G:=gen1) 4 (ex_params kf m g c fn mn) 0 = Some (ex_model kf m g c fn mn).
Proof.
  intros Hkf Hm Hc. unfold model_new, update_params. rewrite (ex_check kf m g c fn mn Hkf Hm Hc). cbn [negb].
  unfold compute_mixer_6D, compute_mixer_inertia, cols. cbn [p_motors ex_params ex_motors quad_x length Nat.ltb Nat.leb Nat.sub].
  reflexivity.
Qed.

(** A state with given velocity, body rates and rotor speeds. *)
Definition ex_state (v w : V3 R) (speeds : list R) : State R :=
  mkState v0 q1 v w v0 v0 v0 v0 speeds [0;0;0;0].

Definition ex_dyn (kf m : R) (g : V3 R) (c fn mn : R) (v w : V3 R) (sp : list R) : Dyn R gen1 :=
  mkDyn (ex_model kf m g c fn mn) (ex_state v w sp).

Lemma ex_vehicle kf m g c fn mn v w a b e f act :
  0 <= kf -> 0 <= m -> 0 <= c -> length act = 4%nat ->
  vehicle 4 (ex_dyn kf m g c fn mn v w [a;b;e;f]) act (ex_params kf m g c fn mn).
Proof.
  intros Hkf Hm Hc Ha. split; [|split; [reflexivity|split; [exact Ha|reflexivity]]].
  eapply mr_new. apply ex_model_new; assumption.
Qed.

Lemma ex_ready kf m g c fn mn v w a b e f act :
  0 <= kf -> 0 <= m -> 0 <= c -> length act = 4%nat -> ready (ex_dyn kf m g c fn mn v w [a;b;e;f]) act.
Proof.
  intros Hkf Hm Hc Ha. exists (ex_cfg kf m g c fn mn). split; [reflexivity|].
  split; [apply ex_check; assumption|]. split; [exact Ha|reflexivity].
Qed.
