(** Proofs: the flight controller fed with sensible numbers commands numbers, whatever its history. *)

From Coq Require Import ZArith Bool List Reals Lra Lia.
From Flocq Require Import Core BinarySingleNaN.
From Verif Require Import Scalar Float64 LinAlg MUtils MPid MControl MCtlRun SpecDyn SpecRound SpecNumber SpecPidNum SpecCtlNum PBase PFloat PRound PQuat64 PUnit64 PUp PNumber PExact PPidNum PNorm64.
Import ListNotations.
Local Open Scope R_scope.

Section Ctl.
Variable L : Libm.
#[local] Instance FO : Ops b64 := F64Ops L.
Local Open Scope sc_scope.

(** ** Sizes may be enlarged *)
Lemma op_mono g h k op : (h <= k)%Z -> sane_op g h op -> sane_op g k op.
Proof.
  intros Hk. destruct op as [pp| |u l b| |kp ki kd|x|x|x|x|al|b|b|dt e|dt e de]; cbn [sane_op]; intros H; try exact H.
  - destruct H as [A B]. split; [exact A|exact (up3_weak _ _ _ Hk B)].
  - destruct H as (A & B & C). split; [exact A|]. split; [exact (up3_weak _ _ _ Hk B)|exact (up3_weak _ _ _ Hk C)].
Qed.
Lemma pid_upd_ok g h p pp : (0 <= g <= h)%Z -> (h + 2 * g + 60 <= 1000)%Z -> pid_ok g h p -> sane_settings g pp -> pid_ok g h (pid_update p pp).
Proof. intros A B C D. exact (step_ok L g h A B p (OpUpdate pp) C D). Qed.
Lemma pid_rst_ok g h p : (0 <= g <= h)%Z -> (h + 2 * g + 60 <= 1000)%Z -> pid_ok g h p -> pid_ok g h (pid_reset p).
Proof. intros A B C. exact (step_ok L g h A B p OpReset C I). Qed.

(** ** Matrices *)
Notation row0 m := (mkV (m00 m) (m01 m) (m02 m)).
Lemma up9_trans e m : upto9 e m -> upto9 e (mtrans m).
Proof. intros ((A1 & A2 & A3) & (B1 & B2 & B3) & (C1 & C2 & C3)). split; [|split]; (split; [|split]); assumption. Qed.
Lemma up9_cols e a b c : upto3 e a -> upto3 e b -> upto3 e c -> upto9 e (mofcols a b c).
Proof. intros (A1 & A2 & A3) (B1 & B2 & B3) (C1 & C2 & C3). split; [|split]; (split; [|split]); assumption. Qed.
Lemma up9_col e m : upto9 e m -> upto3 e (mcol0 m) /\ upto3 e (mcol1 m) /\ upto3 e (mcol2 m).
Proof. intros ((A1 & A2 & A3) & (B1 & B2 & B3) & (C1 & C2 & C3)). split; [|split]; (split; [|split]); assumption. Qed.
Lemma up9_mul e f a b : upto9 e a -> upto9 f b -> (-1000 <= e + f <= 1000)%Z -> upto9 (e + f + 2) (mmul a b).
Proof. intros A B H. destruct (up9_col _ _ B) as (B0 & B1 & B2). apply up9_cols; (apply (up3_mmulv L e f); assumption). Qed.
Lemma up9_sub e a b : upto9 e a -> upto9 e b -> (-1000 <= e <= 1022)%Z -> upto9 (e + 1) (msub a b).
Proof.
  intros ((A1 & A2 & A3) & (B1 & B2 & B3) & (C1 & C2 & C3)) ((X1 & X2 & X3) & (Y1 & Y2 & Y3) & (Z1 & Z2 & Z3)) H.
  split; [|split]; (split; [|split]); (apply (up_sub L e); assumption).
Qed.
Lemma up9_neg e m : upto9 e m -> upto9 e (mneg m).
Proof. intros ((A1 & A2 & A3) & (B1 & B2 & B3) & (C1 & C2 & C3)). split; [|split]; (split; [|split]); (apply (up_neg L e); assumption). Qed.
Lemma up9_weak e f m : (e <= f)%Z -> upto9 e m -> upto9 f m.
Proof. intros H (A & B & C). split; [|split]; eapply up3_weak; eassumption. Qed.

(** ** Attitude *)
Lemma attitude_up yaw thrust : trig_range L -> fin yaw -> upto3 400 thrust -> upto9 2 (desired_attitude yaw thrust).
Proof.
  intros T Fy U. destruct (T yaw Fy) as [Us Uc]. unfold desired_attitude. cbv zeta.
  assert (X : upto3 0 (mkV (cosT yaw) (sinT yaw) zero)) by (split; [exact Uc|split; [exact Us|apply up_zero; reflexivity]]).
  pose proof (normalized_up L 400 thrust U ltac:(lia)) as Zb.
  pose proof (up3_cross L 2 0 _ _ Zb X ltac:(lia)) as Y1. pose proof (normalized_up L _ _ Y1 ltac:(lia)) as Yb.
  pose proof (up3_cross L 2 2 _ _ Yb Zb ltac:(lia)) as X1. pose proof (normalized_up L _ _ X1 ltac:(lia)) as Xb.
  apply up9_cols; assumption.
Qed.
Lemma half_up : upto 0 half.
Proof. destruct (val_half L) as [F V]. split; [exact F|]. change (2^0) with 1%R. assert (V' : val half = (1/2)%R) by exact V. rewrite V'. apply Rabs_le. lra. Qed.
Lemma error_up Rd R : upto9 2 Rd -> upto9 32 R -> upto3 37 (rotation_error Rd R).
Proof.
  intros D C. unfold rotation_error. cbv zeta.
  pose proof (up9_mul 2 32 _ _ (up9_trans _ _ D) C ltac:(lia)) as A. pose proof (up9_mul 32 2 _ _ (up9_trans _ _ C) D ltac:(lia)) as B.
  change (2 + 32 + 2)%Z with 36%Z in A. change (32 + 2 + 2)%Z with 36%Z in B.
  pose proof (up9_sub 36 _ _ A B ltac:(lia)) as ((E1 & E2 & E3) & (E4 & E5 & E6) & (E7 & E8 & E9)). change (36 + 1)%Z with 37%Z in *.
  apply (up3_scale L 37 0); [exact half_up| |lia]. split; [|split]; assumption.
Qed.
Definition acro_ok (a : Acro b64) : Prop := upto9 32 (ac_kp a) /\ upto 32 (ac_mass a) /\ upto3 32 (ac_grav a) /\ fin (ac_thrust a) /\ upto3 71 (ac_angvel a).
Lemma yaw_ok a R yaw thrust : trig_range L -> acro_ok a -> upto9 32 R -> fin yaw -> upto3 400 thrust -> acro_ok (yaw_to_angvel a R yaw thrust).
Proof.
  intros T (K & M & G & Th & W) HR Fy U. unfold yaw_to_angvel. cbv zeta. split; [exact K|]. split; [exact M|]. split; [exact G|]. split; [exact Th|]. cbn [ac_angvel].
  exact (up3_mmulv L 32 37 _ _ (up9_neg _ _ K) (error_up _ _ (attitude_up yaw thrust T Fy U) HR) ltac:(lia)).
Qed.
Lemma thrust_up a acc : acro_ok a -> upto3 290 acc -> upto3 323 (acc_to_thrust a acc).
Proof.
  intros (_ & M & G & _) A. apply (up3_scaler L 291 32); [|exact M|lia]. apply (up3_sub L 290); [exact A|apply (up3_weak 32); [lia|exact G]|lia].
Qed.
Lemma acc_ok2 a acc R yaw : trig_range L -> acro_ok a -> upto3 290 acc -> upto9 32 R -> fin yaw ->
  acro_ok (fst (acc_to_acro a acc R yaw)) /\ upto 327 (fst (snd (acc_to_acro a acc R yaw))) /\ upto3 71 (snd (snd (acc_to_acro a acc R yaw))).
Proof.
  intros T A U HR Fy. pose proof (thrust_up a acc A U) as Ut.
  pose proof (yaw_ok a R yaw _ T A HR Fy (up3_weak 323 400 _ ltac:(lia) Ut)) as Y.
  unfold acc_to_acro. cbv zeta. cbn [fst snd]. split; [exact Y|].
  pose proof (normalized_up L 32 _ (proj2 (proj2 (up9_col _ _ HR))) ltac:(lia)) as (N1 & N2 & N3). pose proof Ut as (U1 & U2 & U3).
  pose proof (up_dot3 L 323 2 _ _ _ _ _ _ U1 U2 U3 N1 N2 N3 ltac:(lia)) as Ud.
  destruct (_ <? zero); cbn [fst snd].
  - split; [apply up_zero; reflexivity|apply up3_v0].
  - split; [exact Ud|apply Y].
Qed.

(** ** Rotor commands *)
Definition indi_ok (i : Indi b64) : Prop :=
  pid_ok 32 72 (in_pid i) /\ upto9 32 (in_inertia i) /\ sane_rows (in_minv i) /\ upto3 400 (in_thrust i) /\ upto3 400 (in_torque i) /\ Forall (upto 400) (in_motor i).
Lemma up_abs e x : upto e x -> upto e (absT x) /\ (0 <= val (absT x))%R.
Proof.
  intros [F A]. split; [split|].
  - unfold fin. change (is_finite (Babs x) = true). rewrite is_finite_Babs. exact F.
  - unfold val. change (Rabs (B2R (Babs x)) <= 2^e)%R. rewrite B2R_Babs, Rabs_Rabsolu. exact A.
  - unfold val. change (0 <= B2R (Babs x))%R. rewrite B2R_Babs. apply Rabs_pos.
Qed.
Lemma sqrtks_up e x : upto e x -> (0 <= e <= 1000)%Z -> upto (e + 1) (sqrtks x).
Proof.
  intros U He. destruct (up_abs e x U) as [Ua Pa]. apply (up_mul L e 1); [|apply up_sign|lia]. apply (up_sqrt L e); [exact Ua|lia|exact Pa].
Qed.
Lemma row_up r th tq : upto3 32 (fst r) -> upto3 32 (snd r) -> upto3 327 th -> upto3 327 tq -> upto 364 (row6 r th tq).
Proof.
  intros (A1 & A2 & A3) (B1 & B2 & B3) (C1 & C2 & C3) (D1 & D2 & D3). unfold row6.
  pose proof (up_mul L 32 327 _ _ A1 C1 ltac:(lia)) as P1. pose proof (up_mul L 32 327 _ _ A2 C2 ltac:(lia)) as P2. pose proof (up_mul L 32 327 _ _ A3 C3 ltac:(lia)) as P3.
  pose proof (up_mul L 32 327 _ _ B1 D1 ltac:(lia)) as P4. pose proof (up_mul L 32 327 _ _ B2 D2 ltac:(lia)) as P5. pose proof (up_mul L 32 327 _ _ B3 D3 ltac:(lia)) as P6.
  pose proof (up_add L 359 _ _ P1 P2 ltac:(lia)) as S1. pose proof (up_add L 360 _ _ S1 (up_weak 359 360 _ ltac:(lia) P3) ltac:(lia)) as S2.
  pose proof (up_add L 361 _ _ S2 (up_weak 359 361 _ ltac:(lia) P4) ltac:(lia)) as S3. pose proof (up_add L 362 _ _ S3 (up_weak 359 362 _ ltac:(lia) P5) ltac:(lia)) as S4.
  exact (up_add L 363 _ _ S4 (up_weak 359 363 _ ltac:(lia) P6) ltac:(lia)).
Qed.
Lemma motor_ok i cur th des dt : indi_ok i -> upto3 32 cur -> upto 327 th -> upto3 71 des -> sane_step 32 dt -> indi_ok (acro_to_motor i cur th des dt).
Proof.
  intros (P & I & M & _) C T D S. unfold acro_to_motor. cbv zeta.
  assert (E : upto3 72 (get_error cur des)) by (apply (up3_sub L 71); [exact D|apply (up3_weak 32); [lia|exact C]|lia]).
  pose proof (compute_ok L 32 72 ltac:(lia) ltac:(lia) _ dt _ P S E) as P'. set (p := pid_compute _ _ _) in *. clearbody p.
  pose proof P' as [_ (_ & _ & _ & _ & _ & _ & Uo)]. change (72 + 2 * 32 + 60)%Z with 196%Z in Uo.
  pose proof (up3_mmulv L 32 196 _ _ I Uo ltac:(lia)) as T1. pose proof (up3_mmulv L 32 71 _ _ I D ltac:(lia)) as T2. pose proof (up3_cross L 71 105 _ _ D T2 ltac:(lia)) as T3.
  assert (Tq : upto3 231 (vadd (mmulv (in_inertia i) (ps_out (pid_s p))) (vcross des (mmulv (in_inertia i) des)))) by (apply (up3_add L 230); [exact T1|apply (up3_weak 177); [lia|exact T3]|lia]).
  assert (Th : upto3 327 (mkV zero zero th)) by (split; [apply up_zero; reflexivity|split; [apply up_zero; reflexivity|exact T]]).
  split; [exact P'|]. split; [exact I|]. split; [exact M|]. cbn [in_thrust in_torque in_motor]. split; [apply (up3_weak 327); [lia|exact Th]|]. split; [apply (up3_weak 231); [lia|exact Tq]|].
  apply Forall_map. unfold sane_rows in M. revert M. apply Forall_impl. intros r [R1 R2]. apply (up_weak 365); [lia|]. apply (sqrtks_up 364); [|lia].
  apply row_up; [exact R1|exact R2|exact Th|apply (up3_weak 231); [lia|exact Tq]].
Qed.

(** ** The whole controller *)
Definition ctl_ok (c : Ctl b64) : Prop :=
  acro_ok (ct_acro c) /\ indi_ok (ct_indi c) /\ pid_ok 32 33 (ct_pos c) /\ pid_ok 32 33 (ct_traj c) /\ pid_ok 32 158 (ct_vel c) /\
  (upto3 400 (ct_dpos c) /\ upto3 400 (ct_dvel c) /\ upto3 400 (ct_dacc c) /\ upto 400 (ct_dthrust c) /\ upto3 400 (ct_dang c) /\ Forall (upto 400) (ct_dmotor c)).
Ltac six := split; [|split; [|split; [|split; [|split]]]].
Ltac wk := match goal with H : upto3 ?e ?x |- upto3 400 ?x => apply (up3_weak e); [lia|exact H] | H : upto ?e ?x |- upto 400 ?x => apply (up_weak e); [lia|exact H] end.
Lemma acro_step_ok c cur th des dt : ctl_ok c -> upto3 32 cur -> upto 327 th -> upto3 71 des -> sane_step 32 dt -> ctl_ok (ctl_acro c cur th des dt).
Proof.
  intros (A & I & P & T & V & (D1 & D2 & D3 & _)) C Ht Hd S. pose proof (motor_ok _ cur th des dt I C Ht Hd S) as I'. unfold ctl_acro. cbv zeta. unfold ctl_ok. cbn [ct_acro ct_indi ct_pos ct_traj ct_vel ct_dpos ct_dvel ct_dacc ct_dthrust ct_dang ct_dmotor].
  six; try assumption. six; try assumption; try wk. apply I'.
Qed.
Lemma acc_step_ok c R cw acc yaw dt : trig_range L -> ctl_ok c -> upto9 32 R -> upto3 32 cw -> upto3 290 acc -> fin yaw -> sane_step 32 dt -> ctl_ok (ctl_acc c R cw acc yaw dt).
Proof.
  intros Tr (A & I & P & T & V & (D1 & D2 & D3 & D4 & D5 & D6)) HR Hc Ha Fy S. destruct (acc_ok2 _ acc R yaw Tr A Ha HR Fy) as (A' & Ht & Hw). unfold ctl_acc.
  destruct (acc_to_acro (ct_acro c) acc R yaw) as [a' [th w]]. cbn [fst snd] in A', Ht, Hw. apply acro_step_ok; try assumption.
  six; try assumption. six; try assumption; wk.
Qed.
Lemma out_up h p : pid_ok 32 h p -> upto3 (h + 2 * 32 + 60) (ps_out (pid_s p)).
Proof. intros [_ (_ & _ & _ & _ & _ & _ & U)]. exact U. Qed.
Lemma err_up e a b : upto3 e a -> upto3 e b -> (-1000 <= e <= 1022)%Z -> upto3 (e + 1) (get_error a b).
Proof. intros A B H. exact (up3_sub L e _ _ B A H). Qed.
Lemma traj_ok p cp cv dp dv da dt : pid_ok 32 33 p -> upto3 32 cp -> upto3 32 cv -> upto3 32 dp -> upto3 32 dv -> upto3 32 da -> sane_step 32 dt ->
  pid_ok 32 33 (fst (traj_control p cp cv dp dv da dt)) /\ upto3 158 (snd (traj_control p cp cv dp dv da dt)).
Proof.
  intros P A B C D E S. unfold traj_control. cbv zeta. cbn [fst snd].
  pose proof (compute_d_ok L 32 33 ltac:(lia) ltac:(lia) p dt _ _ P S (err_up 32 _ _ A C ltac:(lia)) (err_up 32 _ _ B D ltac:(lia))) as P'. split; [exact P'|].
  apply (up3_add L 157); [exact (out_up _ _ P')|apply (up3_weak 32); [lia|exact E]|lia].
Qed.
Lemma vel_step_ok c cv R cw dv yaw dt : trig_range L -> ctl_ok c -> upto3 32 cv -> upto9 32 R -> upto3 32 cw -> upto3 157 dv -> fin yaw -> sane_step 32 dt -> ctl_ok (ctl_vel c cv R cw dv yaw dt).
Proof.
  intros Tr (A & I & P & T & V & (D1 & D2 & D3 & D4 & D5 & D6)) Hv HR Hc Hd Fy S.
  pose proof (compute_ok L 32 158 ltac:(lia) ltac:(lia) _ dt _ V S (err_up 157 _ _ (up3_weak 32 157 _ ltac:(lia) Hv) Hd ltac:(lia))) as V'.
  pose proof (out_up _ _ V') as Uo. change (158 + 2 * 32 + 60)%Z with 282%Z in Uo. unfold ctl_vel, pid_on_error. cbv zeta.
  apply acc_step_ok; try assumption; [|apply (up3_weak 282); [lia|exact Uo]].
  six; try assumption. six; try assumption; wk.
Qed.
Lemma pos_step_ok c cp R cv cw dp yaw dt : trig_range L -> ctl_ok c -> upto3 32 cp -> upto9 32 R -> upto3 32 cv -> upto3 32 cw -> upto3 32 dp -> fin yaw -> sane_step 32 dt ->
  ctl_ok (ctl_pos c cp R cv cw dp yaw dt).
Proof.
  intros Tr (A & I & P & T & V & (D1 & D2 & D3 & D4 & D5 & D6)) Hp HR Hv Hc Hd Fy S.
  pose proof (compute_ok L 32 33 ltac:(lia) ltac:(lia) _ dt _ P S (err_up 32 _ _ Hp Hd ltac:(lia))) as P'.
  pose proof (out_up _ _ P') as Uo. change (33 + 2 * 32 + 60)%Z with 157%Z in Uo. unfold ctl_pos, pid_on_error. cbv zeta.
  apply vel_step_ok; try assumption.
  six; try assumption. six; try assumption; wk.
Qed.
Lemma acc_conv c acc R yaw : trig_range L -> ctl_ok c -> upto3 32 acc -> upto9 32 R -> fin yaw -> ctl_ok (with_acro c (fst (acc_to_acro (ct_acro c) acc R yaw))).
Proof.
  intros Tr (A & I & P & T & V & D) Ha HR Fy. destruct (acc_ok2 _ acc R yaw Tr A (up3_weak 32 290 _ ltac:(lia) Ha) HR Fy) as (A' & _).
  six; assumption.
Qed.
Lemma on_pid_ok w c f : ctl_ok c -> (forall h p, (33 <= h <= 158)%Z -> pid_ok 32 h p -> pid_ok 32 h (f p)) -> ctl_ok (on_pid w c f).
Proof.
  intros (A & I & P & T & V & D) H. destruct w; (six; try assumption; try (apply H; [lia|assumption])).
  destruct I as (I1 & I2). split; [apply H; [lia|exact I1]|exact I2].
Qed.
Lemma indi_upd_ok i p : indi_ok i -> sane_indi p -> indi_ok (indi_update i p).
Proof.
  intros (I1 & I2 & I3 & I4 & I5 & I6) (A & B & C). six; try assumption. apply (pid_upd_ok 32 72); [lia|lia|exact I1|exact C].
Qed.
Lemma acro_upd_ok a p : acro_ok a -> sane_acro p -> acro_ok (acro_update a p).
Proof. intros (A1 & A2 & A3 & A4 & A5) (B & C & D). split; [exact C|]. split; [exact B|]. split; [exact D|]. split; [exact A4|exact A5]. Qed.
Lemma ctl_step_ok c op : trig_range L -> ctl_ok c -> sane_ctl_op op -> ctl_ok (ctl_step c op).
Proof.
  intros Tr Hc Ho. pose proof Hc as (A & I & P & T & V & D). pose proof A as (A1 & A2 & A3 & A4 & A5). pose proof I as (I1 & I2 & I3 & I4 & I5 & I6).
  destruct op as [cur th des dt|R cw acc yaw dt|cp cv R cw dp dv da yaw dt|cv R cw dv yaw dt|cp R cv cw dp yaw dt|cur th des dt|acc R yaw|cp cv dp dv da dt|cv dv dt|cp dp dt| |p|p|p|w p|w o|m|gr|k|R yaw th|m|m]; cbn [sane_ctl_op ctl_step] in *.
  - destruct Ho as (H1 & H2 & H3 & H4). apply acro_step_ok; [exact Hc|exact H1|apply (up_weak 32); [lia|exact H2]|apply (up3_weak 32); [lia|exact H3]|exact H4].
  - destruct Ho as (H1 & H2 & H3 & H4 & H5). apply acc_step_ok; try assumption. apply (up3_weak 32); [lia|exact H3].
  - destruct Ho as (H1 & H2 & H3 & H4 & H5 & H6 & H7 & H8 & H9). destruct (traj_ok _ cp cv dp dv da dt T H1 H2 H5 H6 H7 H9) as [T' Ua].
    unfold ctl_traj. destruct (traj_control _ _ _ _ _ _ _) as [p' acc]. cbn [fst snd] in T', Ua. apply acc_step_ok; try assumption; [|apply (up3_weak 158); [lia|exact Ua]].
    destruct D as (D1 & D2 & D3 & D4 & D5 & D6). six; try assumption. six; try assumption; wk.
  - destruct Ho as (H1 & H2 & H3 & H4 & H5 & H6). apply vel_step_ok; try assumption. apply (up3_weak 32); [lia|exact H4].
  - destruct Ho as (H1 & H2 & H3 & H4 & H5 & H6 & H7). apply pos_step_ok; assumption.
  - destruct Ho as (H1 & H2 & H3 & H4). six; try assumption. apply motor_ok; [exact I|exact H1|apply (up_weak 32); [lia|exact H2]|apply (up3_weak 32); [lia|exact H3]|exact H4].
  - destruct Ho as (H1 & H2 & H3). apply acc_conv; assumption.
  - destruct Ho as (H1 & H2 & H3 & H4 & H5 & H6). destruct (traj_ok _ cp cv dp dv da dt T H1 H2 H3 H4 H5 H6) as [T' Ua]. six; assumption.
  - destruct Ho as (H1 & H2 & H3). six; try assumption. apply (compute_ok L 32 158); [lia|lia|exact V|exact H3|]. apply (up3_weak 33); [lia|]. exact (err_up 32 _ _ H1 H2 ltac:(lia)).
  - destruct Ho as (H1 & H2 & H3). six; try assumption. apply (compute_ok L 32 33); [lia|lia|exact P|exact H3|]. exact (err_up 32 _ _ H1 H2 ltac:(lia)).
  - six; assumption.
  - destruct Ho as (H1 & H2 & H3 & H4 & H5). six; [apply acro_upd_ok; assumption|apply indi_upd_ok; assumption| | | |exact D]; (apply pid_upd_ok; [lia|lia|assumption|assumption]).
  - six; try assumption. apply acro_upd_ok; assumption.
  - six; try assumption. apply indi_upd_ok; assumption.
  - apply on_pid_ok; [exact Hc|]. intros h q Hh Hq. apply pid_upd_ok; [lia|lia|exact Hq|exact Ho].
  - apply on_pid_ok; [exact Hc|]. intros h q Hh Hq. apply (step_ok L 32 h); [lia|lia|exact Hq|]. apply (op_mono 32 32); [lia|exact Ho].
  - six; try assumption. split; [exact A1|]. split; [exact Ho|]. split; [exact A3|]. split; [exact A4|exact A5].
  - six; try assumption. split; [exact A1|]. split; [exact A2|]. split; [exact Ho|]. split; [exact A4|exact A5].
  - six; try assumption. split; [exact Ho|]. split; [exact A2|]. split; [exact A3|]. split; [exact A4|exact A5].
  - destruct Ho as (H1 & H2 & H3). six; try assumption. apply yaw_ok; try assumption. apply (up3_weak 32); [lia|exact H3].
  - six; try assumption. six; assumption.
  - six; try assumption. six; assumption.
Qed.
Lemma zeros_ok e n : Forall (upto e) (repeat zero n).
Proof. apply Forall_forall. intros x Hx. apply repeat_spec in Hx as ->. apply up_zero; reflexivity. Qed.
Lemma ctl_new_ok n p : sane_ctl p -> ctl_ok (ctl_new n p).
Proof.
  intros ((A1 & A2 & A3) & (I1 & I2 & I3) & Hp & Ht & Hv). six.
  - split; [exact A2|]. split; [exact A1|]. split; [exact A3|]. split; [reflexivity|apply up3_v0].
  - six; [apply new_ok; [lia|exact I3]|exact I1|exact I2|apply up3_v0|apply up3_v0|apply zeros_ok].
  - apply new_ok; [lia|exact Hp].
  - apply new_ok; [lia|exact Ht].
  - apply new_ok; [lia|exact Hv].
  - six; try apply up3_v0; [apply up_zero; reflexivity|apply zeros_ok].
Qed.
Theorem ctl_numbers n p ops : trig_range L -> sane_ctl p -> Forall sane_ctl_op ops -> let c := ctl_run (ctl_new n p) ops in
  Forall (upto 400) (get_desired_motor_angular_velocity c) /\ upto 400 (get_desired_thrust c) /\ upto3 400 (get_desired_angular_velocity c) /\
  upto3 400 (get_desired_linear_acceleration c) /\ upto3 400 (get_desired_linear_velocity c) /\ upto3 400 (get_desired_position c).
Proof.
  intros Tr Hp Hl. cbv zeta. unfold ctl_run. assert (K : forall l c, ctl_ok c -> Forall sane_ctl_op l -> ctl_ok (fold_left ctl_step l c)).
  { induction l as [|o r IH]; intros c Hc Hf; cbn [fold_left]; [exact Hc|]. apply Forall_cons_iff in Hf as [Ho Hf]. apply IH; [apply ctl_step_ok; assumption|exact Hf]. }
  destruct (K ops _ (ctl_new_ok n p Hp) Hl) as (_ & _ & _ & _ & _ & (D1 & D2 & D3 & D4 & D5 & D6)).
  split; [exact D6|]. split; [exact D4|]. split; [exact D5|]. split; [exact D3|]. split; [exact D2|exact D1].
Qed.
End Ctl.
