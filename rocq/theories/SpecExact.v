(** Specification vocabulary for binary64: flights that are straight to the last bit. *)

From Coq Require Import ZArith Bool List Reals.
From Flocq Require Import Core BinarySingleNaN.
From Verif Require Import Scalar Float64 LinAlg MUtils MModel MDynamics SpecDyn SpecRun SpecRound SpecNumber.
Import ListNotations.
Local Open Scope R_scope.

(** Zero of either sign; the same number up to the sign of zero. *)
Definition nought (x : b64) : Prop := fin x /\ val x = 0.
Definition kept (x y : b64) : Prop := fin y /\ val y = val x.

(** Upright (some heading), not turning, not moving sideways, four rotors at one speed. *)
Definition upright_still (s : State b64) : Prop :=
  nought (qx (s_ori s)) /\ nought (qy (s_ori s)) /\
  nought (vx (s_angvel s)) /\ nought (vy (s_angvel s)) /\ nought (vz (s_angvel s)) /\
  nought (vx (s_vel s)) /\ nought (vy (s_vel s)) /\ exists w, s_mvel s = [w; w; w; w].
(** The attitude is the identity. *)
Definition unturned (s : State b64) : Prop := kept (b64_ofZ 1) (qw (s_ori s)) /\ nought (qz (s_ori s)).

(** A ready-made quadrotor whose gravity points along the vertical. *)
Definition even_quad (L : Libm) (p : Params b64) : Prop :=
  (exists kf kt x y mn mx tau J, let O := F64Ops L in
     p_motors p = quad_x kf kt x y mn mx tau J \/ p_motors p = quad_plus kf kt x y mn mx tau J) /\
  nought (vx (p_grav p)) /\ nought (vy (p_grav p)).
(** One command for all rotors, an external force along the vertical, no noise. *)
Definition even_call (p : Params b64) (c : Call b64) : Prop :=
  (exists w, k_act c = [w; w; w; w]) /\ nought (vx (k_ext c)) /\ nought (vy (k_ext c)) /\
  (k_noise c = false \/ nought (p_fnoise p)).
