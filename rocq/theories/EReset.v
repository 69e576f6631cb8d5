(** A controller that has flown. *)

From Coq Require Import ZArith List Bool Reals Lra.
From Verif Require Import Scalar LinAlg MUtils MPid MControl MCtlRun SpecDyn SpecPid SpecCtl SpecReset PBase PPid PReset ECtl EPid.
Import ListNotations.
Local Open Scope R_scope.

Definition c1x : PidCfg R := mkPC (vdiagm (r3 1)) (vdiagm (r3 1)) (vdiagm (r3 1)) v0 v1 false false false v0 v0.
Lemma c1x_out s : ps_first s = false -> ps_perr s = r3 1 -> ps_filt s = v0 ->
  pid_output (pid_on_error (mkPid c1x s) v0 (r3 1) 1) = vadd (r3 2) (ps_acc s).
Proof.
  destruct s as [fi acc fl pe de a b d o]. cbn [ps_first ps_perr ps_filt ps_acc]. intros -> -> ->. destruct acc as [x y z].
  assert (V : @veqb R ROps v0 v0 = true) by (unfold veqb, v0; cbn [vx vy vz]; unR; rdec; reflexivity).
  unfold pid_on_error, get_error, pid_compute, ps_init, pid_acc, pid_filt, pid_out, rst1, pid_output, c1x.
  cbn [ps_first pid_c pid_s pc_sflag pc_aw pc_rflag ps_out ps_acc ps_filt ps_perr pc_kp pc_ki pc_kd pc_alpha]. rewrite V. cbn [negb].
  unfold v0, v1, vadd, vsub, vscaler, vcmul, vdiv, vmap2, vmap, mmulv, vdiagm, r3. unR. apply V3_eq; cbn; lra.
Qed.
Lemma c1x_first s p : ps_first s = true -> p = pid_on_error (mkPid c1x s) v0 (r3 1) 1 ->
  pid_c p = c1x /\ ps_first (pid_s p) = false /\ ps_perr (pid_s p) = r3 1 /\ ps_filt (pid_s p) = v0 /\ ps_acc (pid_s p) = r3 1 /\ pid_output p = r3 2.
Proof.
  destruct s as [fi acc fl pe de a b d o]. cbn [ps_first ps_perr ps_filt ps_acc]. intros -> ->.
  assert (V : @veqb R ROps v0 v0 = true) by (unfold veqb, v0; cbn [vx vy vz]; unR; rdec; reflexivity).
  unfold pid_on_error, get_error, pid_compute, ps_init, pid_acc, pid_filt, pid_out, rst1, pid_output, c1x.
  cbn [ps_first pid_c pid_s pc_sflag pc_aw pc_rflag ps_out ps_acc ps_filt ps_perr pc_kp pc_ki pc_kd pc_alpha]. rewrite V. cbn [negb].
  unfold v0, v1, vadd, vsub, vscaler, vcmul, vdiv, vmap2, vmap, mmulv, vdiagm, r3. unR.
  split; [reflexivity|]. split; [reflexivity|]. split; [apply V3_eq; cbn; lra|]. split; [apply V3_eq; cbn; lra|]. split; apply V3_eq; cbn; lra.
Qed.
Lemma sums_differ : pid_output (pid_on_error (pid_on_error (pid_new cpx_pid) v0 (r3 1) 1) v0 (r3 1) 1) <> pid_output (pid_on_error (pid_new cpx_pid) v0 (r3 1) 1).
Proof.
  assert (E0 : pid_new cpx_pid = mkPid c1x ps0) by (apply (new_cfg_off cpx_pid); intros a; destruct a; reflexivity).
  rewrite E0. destruct (c1x_first ps0 _ eq_refl eq_refl) as (A1 & A2 & A3 & A4 & A5 & A6).
  rewrite A6. destruct (pid_on_error (mkPid c1x ps0) v0 (r3 1) 1) as [c s]. cbn [pid_c pid_s] in *. subst c.
  rewrite c1x_out, A5 by assumption. intros K. apply (f_equal vx) in K. unfold vadd, vmap2, r3 in K. cbn in K. lra.
Qed.

Definition flown : Ctl R := ctl_run (ctl_new 4 cp_ex) [CConvVel v0 (r3 1) 1].
Lemma conv_alike {T} {O : Ops T} (c : Ctl T) a b d : alike (ctl_step c (CConvVel a b d)) c.
Proof.
  unfold alike. split; [reflexivity|]. split; [reflexivity|]. split; [reflexivity|]. split; [reflexivity|]. split; [reflexivity|].
  intros w. destruct w; split; reflexivity.
Qed.
Lemma conv_answer {T} {O : Ops T} (c : Ctl T) a b d : answers c [CConvVel a b d] = [AVec (pid_output (pid_on_error (ct_vel c) a b d))].
Proof. reflexivity. Qed.
Lemma conv_vel {T} {O : Ops T} (c : Ctl T) a b d : ct_vel (ctl_step c (CConvVel a b d)) = pid_on_error (ct_vel c) a b d.
Proof. reflexivity. Qed.
Lemma flown_ok : CtlReached 4 flown /\ alike flown (ctl_new 4 cp_ex) /\
  let op := CConvVel v0 (r3 1) 1 in answers flown [op] <> answers (ctl_new 4 cp_ex) [op] /\ answers flown [CReset; op] = answers (ctl_new 4 cp_ex) [op].
Proof.
  assert (Hr : CtlReached 4 flown) by (exists cp_ex, [CConvVel v0 (r3 1) 1]; reflexivity).
  assert (Ha : alike flown (ctl_new 4 cp_ex)).
  { exact (conv_alike (ctl_new 4 cp_ex) v0 (r3 1) 1). }
  split; [exact Hr|]. split; [exact Ha|]. cbv zeta. split; [|exact (reset_like_new 4 flown cp_ex _ Hr Ha)].
  rewrite !conv_answer. unfold flown, ctl_run, fold_left. rewrite conv_vel. intros K. assert (K1 := f_equal (fun l => match l with [AVec v] => v | _ => v0 end) K).
  exact (sums_differ K1).
Qed.
