(** A moving vehicle with out-of-range commands, for non-vacuity examples. *)

From Coq Require Import ZArith List Bool Lia Reals Lra Psatz.
From Verif Require Import Scalar LinAlg MUtils MModel MDynamics SpecDyn SpecRun SpecMix
  PBase PDyn PModel PDynR PPhys PNoise EBase PVeh PMix PWitDyn PDynMore.
Import ListNotations.
Local Open Scope R_scope.

Definition exp1 : Params R := ex_params 1 2 ex_grav 1 1 1.
Definition exd : Dyn R gen1 := ex_dyn 1 2 ex_grav 1 1 1 (mkV 1 2 3) (mkV 1 0 2) [10;20;30;40].
Definition exact1 : list R := [-5;200;30;50].

Lemma exd_vehicle : vehicle 4 exd exact1 exp1.
Proof. apply ex_vehicle; (lra || reflexivity). Qed.
Lemma exd_params : get_params (d_model exd) = Some exp1.
Proof. reflexivity. Qed.
Lemma exd_det : det3 (p_inertia exp1) <> 0.
Proof. unfold det3. cbn. lra. Qed.
Lemma exd_unit : unitq (s_ori (d_state exd)).
Proof. unfold unitq. cbn. lra. Qed.
Lemma exd_speeds : speeds_ok (p_motors exp1) (s_mvel (d_state exd)).
Proof.
  intros i x Hi.
  do 4 (destruct i as [|i]; [eexists; split; [reflexivity|]; cbn in Hi; injection Hi as <-; cbn;
    split; apply Rltb_false; lra|]). destruct i; discriminate.
Qed.
Lemma exd_step dt noise : 0 < dt <= 2147483647 / 100 -> exists d', process exd exact1 dt zero3 noise = Ok d'.
Proof. apply (complete_step_defined 4 exd exact1 dt zero3 noise exp1 exd_vehicle eq_refl). Qed.

(** An endless run of equal calls. *)
Lemma exd_runs : exists D : nat -> Dyn R gen1, D O = exd /\
  forall k, process (D k) exact1 (1/100) zero3 false = Ok (D (S k)).
Proof.
  set (f := fun d : Dyn R gen1 => match process d exact1 (1/100) zero3 false with Ok d' => d' | _ => d end).
  exists (fun k => Nat.iter k f exd). split; [reflexivity|]. intros k.
  assert (Hr : ready (Nat.iter k f exd) exact1).
  { induction k as [|k IH]; [apply (vehicle_ready 4 _ _ exp1 exd_vehicle eq_refl)|].
    cbn [Nat.iter]. change (ready (f (Nat.iter k f exd)) exact1). unfold f at 1.
    destruct (process_total _ _ (1/100) zero3 false IH ltac:(lra)) as (d' & E & R). rewrite E. exact R. }
  destruct (process_total _ _ (1/100) zero3 false Hr ltac:(lra)) as (d' & E & R).
  change (Nat.iter (S k) f exd) with (f (Nat.iter k f exd)). unfold f at 2. rewrite E. reflexivity.
Qed.

Lemma exd_run_calls : exists d', dyn_run exd [mkCall exact1 (1/100) zero3 true; mkCall exact1 0 zero3 true;
  mkCall exact1 (3/100) zero3 false] = Some d'.
Proof.
  cbn [dyn_run k_act k_dt k_ext k_noise].
  destruct (process_total exd exact1 (1/100) zero3 true (vehicle_ready 4 _ _ exp1 exd_vehicle eq_refl) ltac:(lra))
    as (d1 & -> & R1).
  rewrite process_reject by (apply Rleb_true; unR; lra).
  destruct (process_total d1 exact1 (3/100) zero3 false R1 ltac:(lra)) as (d2 & -> & _).
  exists d2. reflexivity.
Qed.
