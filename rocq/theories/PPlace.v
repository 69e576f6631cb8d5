(** Everything but the position evolves independently of the position, in every arithmetic. *)

From Coq Require Import ZArith Bool List.
From Verif Require Import Scalar LinAlg MUtils MModel MDynamics SpecDyn SpecRun SpecLag PBase PDyn PNoise.
Import ListNotations.

Section Place.
Context {T : Type} {O : Ops T} {G : Gen T}.
Definition placed (d1 d2 : Dyn T G) : Prop := d_model d2 = d_model d1 /\ d_state d2 = put (d_state d1) (s_pos (d_state d2)).

Lemma core_placed (d1 d2 : Dyn T G) act h ext noise : placed d1 d2 -> optrel placed (euler_core d1 act h ext noise) (euler_core d2 act h ext noise).
Proof.
  intros [Hm Hs]. unfold euler_core. rewrite Hm, Hs.
  destruct (if noise then _ else _) as [mo|]; cbn [bindo]; [|exact I].
  destruct (mo_cfg mo) as [c|]; cbn [bindo]; [|exact I].
  cbn [put s_pos s_ori s_vel s_angvel s_mvel].
  destruct (clamp_motors act _) as [des|]; cbn [bindo]; [|exact I].
  destruct (motors_derivative des _ _) as [macc|]; cbn [bindo]; [|exact I].
  destruct (clamp_motors (ladd _ _) _) as [mv|]; cbn [bindo]; [|exact I].
  split; reflexivity.
Qed.

Lemma place_independent (d : Dyn T G) p (l : list (Call T)) :
  both (fun a b => d_state b = put (d_state a) (s_pos (d_state b)) /\ d_model b = d_model a) (dyn_run d l) (dyn_run (dyn_set_state d (put (d_state d) p)) l).
Proof.
  pose proof (run_rel placed l (fun a b c h _ => core_placed a b (k_act c) h (k_ext c) (k_noise c)) d (dyn_set_state d (put (d_state d) p)) (conj eq_refl eq_refl)) as K.
  destruct (dyn_run d l), (dyn_run (dyn_set_state d _) l); cbn in *; try contradiction; [destruct K as [K1 K2]; exact (conj K2 K1)|exact I].
Qed.
End Place.
