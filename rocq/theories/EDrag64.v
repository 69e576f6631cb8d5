(** C16: the drag of a vehicle at 3 and -7 m/s. *)

From Coq Require Import ZArith Bool List Reals Lra Lia.
From Flocq Require Import Core BinarySingleNaN.
From Verif Require Import Scalar Float64 LinAlg MUtils MModel MDynamics SpecDyn SpecRun SpecRound SpecNumber
  PBase PFloat PRound PDyn PDynMore PUp PNumber PVeh PWell PLag PLagRun EBase PWitDyn ERound ENumber EExact ELag.
Import ListNotations.

Section Run.
Variable L : Libm.
#[local] Instance FO : Ops b64 := F64Ops L.
Local Open Scope sc_scope.
Definition gust : V3 b64 := mkV (ofZ 3) (neg (ofZ 7)) zero.

Lemma gust_ex : exists (d : Dyn b64 gen1) f, dyn_new 4 (x_params L) 0 (l_state L) = Some d /\ get_params (d_model d) = Some (x_params L) /\
  reasonable_params (x_params L) /\ Bltb zero (p_drag (x_params L)) = true /\ upto3 64 gust /\
  get_drag_force (d_model d) gust = Some f /\ Bltb (vx f) zero = true /\ Bltb zero (vy f) = true.
Proof.
  destruct (gnew_defined (G:=gen1) 4 (x_params L) 0 (l_state L) (x_check L)) as [d E]; [cbn; lia|]. exists d.
  destruct (dyn_new_vehicle _ _ _ _ _ (x_check L) E) as (Mr & Gp & Es).
  exists (drag_force (p_drag (x_params L)) gust). split; [exact E|]. split; [exact Gp|]. split; [exact (x_params_ok L)|]. split; [vm_compute; reflexivity|]. split; [apply upto3b_ok; vm_compute; reflexivity|].
  split; [|split; vm_compute; reflexivity].
  unfold get_params in Gp. unfold get_drag_force. destruct (mo_cfg (d_model d)) as [c|]; [|discriminate]. cbn [option_map] in *. injection Gp as Gp. rewrite Gp. reflexivity.
Qed.
End Run.
