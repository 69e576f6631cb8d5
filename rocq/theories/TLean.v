(** Property theorems: leaning to the side the vehicle is to fly to. *)

From Coq Require Import Reals.
From Verif Require Import Scalar LinAlg MPid MControl MCtlRun SpecDyn SpecRun SpecPid SpecCtl SpecLean PLean ECtl ELean.
Local Open Scope R_scope.

(** ** C113 *)
(** Level and heading as demanded: it pitches forward iff the force it needs
    points ahead, and rolls left iff it points to the left, and so on. *)
Theorem C113_sides :
  forall (c : Ctl R) op kx ky kz, uses_acc op = true -> att_of op = rot_z (yaw_of op) ->
  own_gains (ac_kp (ct_acro c)) kx ky kz -> 0 < kx -> 0 < ky -> 0 < vz (force_of c op) ->
  let f := force_of c op in let w := get_desired_angular_velocity (ctl_step c op) in
  (0 < ahead (yaw_of op) f <-> 0 < vy w) /\ (ahead (yaw_of op) f < 0 <-> vy w < 0) /\
  (0 < leftward (yaw_of op) f <-> vx w < 0) /\ (leftward (yaw_of op) f < 0 <-> 0 < vx w).
Proof. exact lean_signs. Qed.
Print Assumptions C113_sides.

(** Whatever way it faces, within limits: turning at the commanded rates, its
    thrust axis moves towards the force it needs. *)
Theorem C113_force :
  forall (c : Ctl R) op cur k kz path t, uses_acc op = true -> att_of op = rot_z cur ->
  own_gains (ac_kp (ct_acro c)) k k kz -> 0 < k ->
  mild_tilt (yaw_of op - cur) (force_of c op) -> sideways (force_of c op) ->
  path t = att_of op -> turning path t (get_desired_angular_velocity (ctl_step c op)) ->
  leans_along path t (force_of c op).
Proof. exact leans. Qed.
Print Assumptions C113_force.

(** Asked for a velocity: towards the missing velocity. *)
Theorem C113_velocity_partial :
  forall n (c0 : Ctl R) cv cw dv yaw dt cur k kz path t, CtlReached n c0 -> 0 < dt ->
  let c := ctl_step c0 CReset in let op := CVel cv (rot_z cur) cw dv yaw dt in
  even_loop (get_pid WVel c0) dt (vsub dv cv) ->
  own_gains (ac_kp (ct_acro c)) k k kz -> 0 < k -> 0 < ac_mass (ct_acro c) -> vx (ac_grav (ct_acro c)) = 0 -> vy (ac_grav (ct_acro c)) = 0 ->
  mild_tilt (yaw - cur) (force_of c op) -> sideways (vsub dv cv) ->
  path t = rot_z cur -> turning path t (get_desired_angular_velocity (ctl_step c op)) ->
  leans_along path t (vsub dv cv).
Proof. exact leans_velocity. Qed.
Print Assumptions C113_velocity_partial.

(** Asked for a position, at rest: towards it. *)
Theorem C113_position_partial :
  forall n (c0 : Ctl R) cp cw dp yaw dt cur k kz path t, CtlReached n c0 -> 0 < dt ->
  let c := ctl_step c0 CReset in let op := CPos cp (rot_z cur) (mkV 0 0 0) cw dp yaw dt in
  even_loop (get_pid WPos c0) dt (vsub dp cp) ->
  even_loop (get_pid WVel c0) dt (get_desired_linear_velocity (ctl_step c op)) ->
  own_gains (ac_kp (ct_acro c)) k k kz -> 0 < k -> 0 < ac_mass (ct_acro c) -> vx (ac_grav (ct_acro c)) = 0 -> vy (ac_grav (ct_acro c)) = 0 ->
  mild_tilt (yaw - cur) (force_of c op) -> sideways (vsub dp cp) ->
  path t = rot_z cur -> turning path t (get_desired_angular_velocity (ctl_step c op)) ->
  leans_along path t (vsub dp cp).
Proof. exact leans_position. Qed.
Print Assumptions C113_position_partial.

(** Facing exactly backwards and asked to go sideways, it does not lean at all. *)
Theorem C113_backwards_refuted :
  exists (c : Ctl R) op, CtlReached 4 c /\ uses_acc op = true /\ att_of op = rot_z 0 /\
  own_gains (ac_kp (ct_acro c)) 2 2 3 /\ 0 < vz (force_of c op) /\ len3 (force_of c op) < 3 * vz (force_of c op) /\
  force_of c op = mkV 0 3 10 /\
  vx (get_desired_angular_velocity (ctl_step c op)) = 0 /\ vy (get_desired_angular_velocity (ctl_step c op)) = 0 /\
  forall path t, path t = att_of op -> turning path t (get_desired_angular_velocity (ctl_step c op)) -> ~ leans_along path t (force_of c op).
Proof. exact backwards_still. Qed.
Print Assumptions C113_backwards_refuted.

Example C113_case : let op := CAcc (rot_z (PI / 3)) (mkV 0 0 0) (mkV 3 0 0) 0 (1/100) in
  uses_acc op = true /\ att_of op = rot_z (PI / 3) /\ own_gains (ac_kp (ct_acro c_lean)) 2 2 3 /\
  mild_tilt (yaw_of op - PI / 3) (force_of c_lean op) /\ sideways (force_of c_lean op) /\
  exists path, path 0 = att_of op /\ turning path 0 (get_desired_angular_velocity (ctl_step c_lean op)) /\ leans_along path 0 (mkV 3 0 0).
Proof. exact lean_case. Qed.
Example C113_velocity_case : let c := ctl_step c_lean CReset in
  let op := CVel (mkV 0 0 0) (rot_z (PI / 3)) (mkV 0 0 0) (mkV 1 0 0) 0 (1/100) in
  even_loop (get_pid WVel c_lean) (1/100) (vsub (mkV 1 0 0) (mkV 0 0 0)) /\ mild_tilt (0 - PI / 3) (force_of c op) /\
  sideways (vsub (mkV 1 0 0) (mkV 0 0 0)) /\ force_of c op = mkV 2 0 10.
Proof. exact lean_velocity_case. Qed.
Example C113_position_case : let c := ctl_step c_lean CReset in
  let op := CPos (mkV 0 0 0) (rot_z (PI / 3)) (mkV 0 0 0) (mkV 0 0 0) (mkV 0 (1/2) 0) 0 (1/100) in
  even_loop (get_pid WPos c_lean) (1/100) (vsub (mkV 0 (1/2) 0) (mkV 0 0 0)) /\
  even_loop (get_pid WVel c_lean) (1/100) (get_desired_linear_velocity (ctl_step c op)) /\ mild_tilt (0 - PI / 3) (force_of c op) /\
  sideways (vsub (mkV 0 (1/2) 0) (mkV 0 0 0)) /\ force_of c op = mkV 0 2 10.
Proof. exact lean_position_case. Qed.
