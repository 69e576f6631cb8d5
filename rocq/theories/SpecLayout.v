(** Specification vocabulary: the documented matrices of the ready-made rotor
    layouts (docs/CommonConfigurations.md), and what a layout can do. *)

From Coq Require Import ZArith List Bool Reals.
From Verif Require Import Scalar LinAlg MUtils MModel SpecDyn SpecMix.
Import ListNotations.
Local Open Scope R_scope.

(** Thrust along body z and the three torques. *)
Record Wrench := mkWrench { wr_thrust : R; wr_x : R; wr_y : R; wr_z : R }.

Definition row (coeffs xs : list R) : R := fold_right Rplus 0 (map (fun p => fst p * snd p) (combine coeffs xs)).
(** Matrix times squared speeds, plus the row of rotor inertias times accelerations. *)
Definition documented (fz tx ty tz j w acc : list R) : Wrench :=
  let s := map (fun x => x * x) w in mkWrench (row fz s) (row tx s) (row ty s) (row tz s + row j acc).

(** docs/CommonConfigurations.md, "Quadrotor + Configuration". *)
Definition doc_plus (kf kt dx dy J : R) : list R -> list R -> Wrench :=
  documented [kf; kf; kf; kf] [0; dy * kf; 0; - dy * kf] [- dx * kf; 0; dx * kf; 0] [kt; - kt; kt; - kt] [J; - J; J; - J].
(** "Quadrotor X Configuration". *)
Definition doc_x (kf kt dx dy J : R) : list R -> list R -> Wrench :=
  documented [kf; kf; kf; kf] [- dy * kf; dy * kf; dy * kf; - dy * kf] [- dx * kf; - dx * kf; dx * kf; dx * kf]
    [kt; - kt; kt; - kt] [J; - J; J; - J].
(** "Hexarotor Configuration", c and s the cosine and sine of 60 degrees. *)
Definition doc_hexa (kf kt r J : R) : list R -> list R -> Wrench :=
  let c := cos (PI / 3) in let s := sin (PI / 3) in
  documented [kf; kf; kf; kf; kf; kf] [- r * kf; - c * r * kf; 0; c * r * kf; r * kf; c * r * kf]
    [0; s * r * kf; s * r * kf; 0; - s * r * kf; - s * r * kf] [kt; - kt; kt; - kt; kt; - kt] [J; - J; J; - J; J; - J].

(** What a model answers for rotor speeds [w] and accelerations [acc]. *)
Definition answers {G : Gen R} (mo : ModelObj R G) (w acc : list R) (x : Wrench) : Prop :=
  get_force_by_motors mo w = Some (mkV 0 0 (wr_thrust x)) /\ get_torque_by_motors mo w acc = Some (mkV (wr_x x) (wr_y x) (wr_z x)).

(** A regular polygon of [k] rotors with radius [r], the first one in front,
    numbered counter-clockwise seen from above, neighbours turning in opposite directions. *)
Definition polygon (k : nat) (r : R) (ms : list (Motor R)) : Prop :=
  length ms = k /\
  forall i m, nth_error ms i = Some m ->
    mt_pos m = mkV (r * cos (2 * PI * INR i / INR k)) (r * sin (2 * PI * INR i / INR k)) 0 /\
    mt_rot m = mI /\ mt_dir m = (if Nat.even i then 1 else -1)%Z.
