(** Proofs: sensors do not influence the flight, nor does a disarmed controller. *)

From Coq Require Import ZArith List Bool Lia.
From Verif Require Import Scalar LinAlg MUtils MModel MDynamics MPid MControl MImu MSim SpecRun SpecSim SpecWatch PBase PSim.
Import ListNotations.

Section Watch.
Context {T : Type} {O : Ops T} {G H1 H2 : Gen T}.
Variable n : nat.
Notation sim1 := (Sim T G H1).
Notation sim2 := (Sim T G H2).

(** [b] with the flight of [a]. *)
Definition with_flight (a : sim1) (b : sim2) : sim2 :=
  mkSim (sm_dyn a) (sm_ctl a) (sm_imu b) (sm_odom b) (sm_armed a) (sm_floor_en a) (sm_floor_col a) (sm_floor_h a)
        (sm_refs a) (sm_act a) (sm_ext a) (sm_mode a) (sm_yawmode a).
Lemma flight_eq (a : sim1) (b : sim2) : flight_of a = flight_of b -> b = with_flight a b.
Proof. destruct a, b. unfold flight_of. cbn. intros E. injection E as <- <- <- <- <- <- <- <- <- <- <-. reflexivity. Qed.

Definition fly (a : sim1) (b : sim2) : Prop := flight_of a = flight_of b.

Lemma dynamics_watch (a : sim1) (b : sim2) dt : orel fly (update_dynamics a dt) (update_dynamics (with_flight a b) dt).
Proof.
  unfold update_dynamics. change (below_floor (with_flight a b)) with (below_floor a).
  change (sm_dyn (with_flight a b)) with (sm_dyn a).
  assert (K : forall (x : sim1) o,
    orel fly (match o with
      | UB => UB
      | Throw e => Throw (with_dyn x e)
      | Ok e => let s2 := with_col (with_ext (with_dyn x e) v0) false in
        if below_floor s2 then
          let st := floor_state (d_state e) (sm_floor_h s2) in
          let s3 := with_dyn (with_col s2 true) (dyn_set_state e st) in
          let s4 := with_imu s3 (imu_reset (sm_imu s3)) in
          Ok (with_odom s4 (odom_reset (odom_set_init (sm_odom s4) (s_ori st))))
        else Ok s2 end)
     (match o with
      | UB => UB
      | Throw e => Throw (with_dyn (with_flight x b) e)
      | Ok e => let s2 := with_col (with_ext (with_dyn (with_flight x b) e) v0) false in
        if below_floor s2 then
          let st := floor_state (d_state e) (sm_floor_h s2) in
          let s3 := with_dyn (with_col s2 true) (dyn_set_state e st) in
          let s4 := with_imu s3 (imu_reset (sm_imu s3)) in
          Ok (with_odom s4 (odom_reset (odom_set_init (sm_odom s4) (s_ori st))))
        else Ok s2 end)).
  { intros x o. destruct o as [e|e|]; [|reflexivity|exact I]. cbv zeta.
    change (below_floor (with_col (with_ext (with_dyn (with_flight x b) e) v0) false)) with (below_floor (with_col (with_ext (with_dyn x e) v0) false)).
    destruct (below_floor _); reflexivity. }
  destruct (below_floor a).
  - destruct (mo_cfg (d_model (sm_dyn a))) as [c|]; [|exact I]. cbn [option_map]. exact (K (with_ext a (vscaler (vneg (p_grav (cf_params c))) (p_mass (cf_params c)))) _).
  - exact (K a _).
Qed.

Lemma controller_watch (a : sim1) (b : sim2) dt : fly (update_controller n a dt) (update_controller n (with_flight a b) dt).
Proof.
  unfold update_controller, fly. change (sm_armed (with_flight a b)) with (sm_armed a). destruct (sm_armed a); cbn [negb]; [|reflexivity].
  change (sm_yawmode (with_flight a b)) with (sm_yawmode a). destruct (sm_yawmode a); cbv zeta.
  - change (sm_mode (with_flight a b)) with (sm_mode a). destruct (sm_mode a); reflexivity.
  - change (sm_mode (update_yaw_reference (with_flight a b))) with (sm_mode (update_yaw_reference a)). destruct (sm_mode (update_yaw_reference a)); reflexivity.
Qed.

Lemma step_watch (a : sim1) (b : sim2) op : fly a b ->
  match unwatched op with
  | [] => exists a', sim_step n a op = Ok a' /\ fly a' b
  | op' :: _ => unwatched op = [op'] /\ orel fly (sim_step n a op) (sim_step n b op')
  end.
Proof.
  intros F. rewrite (flight_eq a b F). destruct op; cbn [unwatched sim_step]; try (split; [reflexivity|]; reflexivity).
  all: try (eexists; split; [reflexivity|]; reflexivity).
  - split; [reflexivity|]. apply dynamics_watch.
  - split; [reflexivity|]. apply controller_watch.
  - split; [reflexivity|]. unfold set_control_mode. change (sm_mode (with_flight a b)) with (sm_mode a).
    change (sm_yawmode (with_flight a b)) with (sm_yawmode a). destruct (mode_eqb _ _ && yaw_eqb _ _); reflexivity.
  - split; [reflexivity|]. unfold set_dynamics_params. destruct (dyn_new n p seed st) as [d|]; [reflexivity|exact I].
Qed.

Lemma run_watch ops : forall (a : sim1) (b : sim2), fly a b -> both fly (sim_run n a ops) (sim_run n b (flat_map unwatched ops)).
Proof.
  induction ops as [|op r IH]; intros a b F; [exact F|]. cbn [sim_run flat_map].
  pose proof (step_watch a b op F) as K. destruct (unwatched op) as [|op' u].
  - destruct K as (a' & -> & F'). apply IH, F'.
  - destruct K as [E K]. injection E as ->. cbn [app sim_run].
    destruct (sim_step n a op) as [x|x|], (sim_step n b op') as [y|y|]; try contradiction K; [apply IH, K|apply IH, K|exact I].
Qed.

Lemma after_watch pa pb ops : same_but_sensors pa pb ->
  both fly (sim_after n pa ops) (sim_after n pb (flat_map unwatched ops)).
Proof.
  intros (E1 & E2 & E3 & E4). unfold sim_after, sim_new. rewrite <- E1, <- E2, <- E3, <- E4.
  destruct (dyn_new n (sp_model pa) (sp_seed pa) (sp_state pa)) as [d|]; [|exact I]. apply run_watch. reflexivity.
Qed.
End Watch.

Section Disarmed.
Context {T : Type} {O : Ops T} {G H : Gen T}.
Variable n : nat.
Notation sim := (Sim T G H).

(** Two disarmed simulators with the same vehicle and floor. *)
Definition idle (a b : sim) : Prop :=
  sm_dyn a = sm_dyn b /\ (sm_floor_en a, sm_floor_col a, sm_floor_h a) = (sm_floor_en b, sm_floor_col b, sm_floor_h b) /\
  sm_ext a = sm_ext b /\ (sm_armed a = false /\ sm_armed b = false) /\ (sm_act a = repeat zero n /\ sm_act b = repeat zero n).

Lemma dynamics_idle a b dt : idle a b -> orel idle (update_dynamics a dt) (update_dynamics b dt).
Proof.
  intros (E1 & E2 & E3 & (A1 & A2) & (C1 & C2)). injection E2 as F1 F2 F3.
  unfold update_dynamics, below_floor, sim_state. rewrite <- E1, <- F1, <- F3.
  assert (K : forall (x y : sim) e, idle x y ->
    orel idle
      (let s2 := with_col (with_ext (with_dyn x e) v0) false in
        if sm_floor_en s2 && ltb (vz (s_pos (d_state (sm_dyn s2)))) (sm_floor_h s2) then
          let st := floor_state (d_state e) (sm_floor_h s2) in
          let s3 := with_dyn (with_col s2 true) (dyn_set_state e st) in
          let s4 := with_imu s3 (imu_reset (sm_imu s3)) in
          Ok (with_odom s4 (odom_reset (odom_set_init (sm_odom s4) (s_ori st))))
        else Ok s2)
      (let s2 := with_col (with_ext (with_dyn y e) v0) false in
        if sm_floor_en s2 && ltb (vz (s_pos (d_state (sm_dyn s2)))) (sm_floor_h s2) then
          let st := floor_state (d_state e) (sm_floor_h s2) in
          let s3 := with_dyn (with_col s2 true) (dyn_set_state e st) in
          let s4 := with_imu s3 (imu_reset (sm_imu s3)) in
          Ok (with_odom s4 (odom_reset (odom_set_init (sm_odom s4) (s_ori st))))
        else Ok s2)).
  { intros x y e (X1 & X2 & X3 & X4 & X5). injection X2 as Y1 Y2 Y3. cbv zeta.
    cbn [with_col with_ext with_dyn sm_floor_en sm_floor_h sm_dyn]. rewrite <- Y1, <- Y3.
    destruct (sm_floor_en x && _); cbn [orel]; unfold idle; cbn; rewrite ?Y1, ?Y3; repeat (split; [first [reflexivity|assumption]|]); first [reflexivity|assumption]. }
  assert (K2 : forall (x y : sim) o, idle x y ->
     orel idle (match o with UB => UB | Throw e => Throw (with_dyn x e) | Ok e =>
       (let s2 := with_col (with_ext (with_dyn x e) v0) false in
        if sm_floor_en s2 && ltb (vz (s_pos (d_state (sm_dyn s2)))) (sm_floor_h s2) then
          let st := floor_state (d_state e) (sm_floor_h s2) in
          let s3 := with_dyn (with_col s2 true) (dyn_set_state e st) in
          let s4 := with_imu s3 (imu_reset (sm_imu s3)) in
          Ok (with_odom s4 (odom_reset (odom_set_init (sm_odom s4) (s_ori st))))
        else Ok s2) end)
       (match o with UB => UB | Throw e => Throw (with_dyn y e) | Ok e =>
       (let s2 := with_col (with_ext (with_dyn y e) v0) false in
        if sm_floor_en s2 && ltb (vz (s_pos (d_state (sm_dyn s2)))) (sm_floor_h s2) then
          let st := floor_state (d_state e) (sm_floor_h s2) in
          let s3 := with_dyn (with_col s2 true) (dyn_set_state e st) in
          let s4 := with_imu s3 (imu_reset (sm_imu s3)) in
          Ok (with_odom s4 (odom_reset (odom_set_init (sm_odom s4) (s_ori st))))
        else Ok s2) end)).
  { intros x y o I0. destruct o as [e|e|]; [apply K, I0| |exact I].
    destruct I0 as (X1 & X2 & X3 & X4 & X5). split; [reflexivity|]. split; [exact X2|]. split; [exact X3|]. split; [exact X4|exact X5]. }
  assert (I0 : idle a b).
  { split; [exact E1|]. split; [rewrite F1, F2, F3; reflexivity|]. split; [exact E3|]. split; [split; assumption|split; assumption]. }
  destruct (sm_floor_en a && _).
  - destruct (mo_cfg (d_model (sm_dyn a))) as [c|]; [|exact I]. cbn [option_map].
    set (e := vscaler (vneg (p_grav (cf_params c))) (p_mass (cf_params c))).
    assert (I1 : idle (with_ext a e) (with_ext b e)).
    { destruct I0 as (X1 & X2 & X3 & X4 & X5). split; [exact X1|]. split; [exact X2|]. split; [reflexivity|]. split; [exact X4|exact X5]. }
    cbn [with_ext sm_dyn sm_act sm_ext sm_floor_col]. rewrite <- E1, C1, C2, <- F2. exact (K2 _ _ _ I1).
  - rewrite <- E1, C1, C2, <- F2, <- E3. exact (K2 _ _ _ I0).
Qed.

Lemma idle_refl_parts a b : idle a b -> forall a', sm_dyn a' = sm_dyn a -> (sm_floor_en a', sm_floor_col a', sm_floor_h a') = (sm_floor_en a, sm_floor_col a, sm_floor_h a) ->
  sm_ext a' = sm_ext a -> sm_armed a' = false -> sm_act a' = repeat zero n -> idle a' b.
Proof.
  intros (E1 & E2 & E3 & (A1 & A2) & (C1 & C2)) a' D F E A C. unfold idle. rewrite D, F, E.
  split; [exact E1|]. split; [exact E2|]. split; [exact E3|]. split; [split; assumption|split; assumption].
Qed.

Lemma step_idle a b op : idle a b -> not_arming op ->
  if own_call op then orel idle (sim_step n a op) (sim_step n b op) else exists a', sim_step n a op = Ok a' /\ idle a' b.
Proof.
  intros I0 N. assert (I1 := I0). destruct I1 as (E1 & E2 & E3 & (A1 & A2) & (C1 & C2)).
  destruct op; cbn [own_call sim_step]; try contradiction N.
  1: apply dynamics_idle, I0.
  1: { eexists. split; [reflexivity|]. unfold update_controller. rewrite A1. cbn [negb]. apply (idle_refl_parts a b I0); try reflexivity; exact A1. }
  all: try (eexists; split; [reflexivity|]; apply (idle_refl_parts a b I0); first [reflexivity|assumption]).
  - injection E2 as F1 F2 F3. split; [exact E1|]. cbn. rewrite F2. split; [reflexivity|]. split; [reflexivity|]. split; [split; assumption|split; assumption].
  - injection E2 as F1 F2 F3. split; [exact E1|]. cbn. rewrite F2, F3. split; [reflexivity|]. split; [reflexivity|]. split; [split; assumption|split; assumption].
  - eexists. split; [reflexivity|]. unfold set_control_mode. destruct (mode_eqb _ _ && yaw_eqb _ _); [exact I0|].
    apply (idle_refl_parts a b I0); first [reflexivity|assumption].
  - unfold set_dynamics_params. destruct (dyn_new n p seed st) as [d|]; [|exact I]. split; [reflexivity|]. split; [exact E2|]. split; [exact E3|]. split; [split; assumption|split; assumption].
  - split; [reflexivity|]. split; [exact E2|]. split; [exact E3|]. split; [split; assumption|split; assumption].
Qed.

Lemma run_idle ops : forall a b : sim, idle a b -> Forall not_arming ops ->
  both (fun x y => sm_dyn x = sm_dyn y) (sim_run n a ops) (sim_run n b (filter own_call ops)).
Proof.
  induction ops as [|op r IH]; intros a b I0 F; [exact (proj1 I0)|]. cbn [sim_run filter].
  pose proof (step_idle a b op I0 (Forall_inv F)) as K. apply Forall_inv_tail in F. destruct (own_call op).
  - cbn [sim_run]. destruct (sim_step n a op) as [x|x|], (sim_step n b op) as [y|y|]; try contradiction K; [apply IH; assumption|apply IH; assumption|exact I].
  - destruct K as (a' & -> & I'). apply IH; assumption.
Qed.

Lemma after_idle pa pb (ops : list (SimOp T G H)) : same_vehicle pa pb -> Forall not_arming ops ->
  both (fun x y => sm_dyn x = sm_dyn y) (sim_after n pa ops) (sim_after n pb (filter own_call ops)).
Proof.
  intros (E1 & E2 & E3) F. unfold sim_after, sim_new. rewrite <- E1, <- E2, <- E3.
  destruct (dyn_new n (sp_model pa) (sp_seed pa) (sp_state pa)) as [d|]; [|exact I]. apply run_idle; [|exact F].
  split; [reflexivity|]. split; [reflexivity|]. split; [reflexivity|]. split; split; reflexivity.
Qed.
End Disarmed.
