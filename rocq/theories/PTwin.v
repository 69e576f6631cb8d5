(** Proofs: PID controllers that answer alike whatever limits they hold while saturation is off. *)

From Coq Require Import ZArith List Bool.
From Verif Require Import Scalar LinAlg MPid SpecPid PPid.
Import ListNotations.

Section Twin.
Context {T : Type} {O : Ops T}.

Definition cfg_alike (c1 c2 : PidCfg T) : Prop :=
  pc_kp c1 = pc_kp c2 /\ pc_ki c1 = pc_ki c2 /\ pc_kd c1 = pc_kd c2 /\ pc_aw c1 = pc_aw c2 /\ pc_alpha c1 = pc_alpha c2 /\
  pc_rflag c1 = pc_rflag c2 /\ pc_sflag c1 = pc_sflag c2 /\ pc_pflag c1 = pc_pflag c2 /\
  (pc_sflag c1 = true -> pc_up c1 = pc_up c2 /\ pc_lo c1 = pc_lo c2).
Definition wtwin (p q : Pid T) : Prop := cfg_alike (pid_c p) (pid_c q) /\ same_next (pid_s p) (pid_s q).

Lemma cfg_alike_refl c : cfg_alike c c.
Proof. unfold cfg_alike. tauto. Qed.
Lemma twin_wtwin p q : twin p q -> wtwin p q.
Proof. intros [E H]. split; [rewrite E; apply cfg_alike_refl|exact H]. Qed.

Lemma set_sat_alike c1 c2 up lo f : cfg_alike c1 c2 -> cfg_alike (pc_set_sat c1 up lo f) (pc_set_sat c2 up lo f).
Proof.
  intros (A & B & C & D & E & F & G & I & J). unfold pc_set_sat.
  destruct (sat_bad (vx up) (vx lo)); [|destruct (sat_bad (vy up) (vy lo)); [|destruct (sat_bad (vz up) (vz lo))]];
    unfold cfg_alike; cbn; repeat (split; try assumption); auto; try discriminate.
Qed.
Lemma update_alike c1 c2 pp : cfg_alike (pc_update c1 pp) (pc_update c2 pp).
Proof.
  unfold pc_update. destruct (negb _ || negb _).
  - set (x1 := pc_set_pflag _ _). set (x2 := pc_set_pflag (pc_set_rflag (pc_set_alpha (pc_set_aw (pc_set_gains c2 _ _ _) _) _) _) _).
    unfold pc_set_sat.
    destruct (sat_bad (vx (pp_up pp)) (vx (pp_lo pp))); [|destruct (sat_bad (vy (pp_up pp)) (vy (pp_lo pp))); [|destruct (sat_bad (vz (pp_up pp)) (vz (pp_lo pp)))]];
    unfold cfg_alike, x1, x2; cbn; repeat (split; try reflexivity); discriminate.
  - unfold cfg_alike; cbn; repeat (split; try reflexivity); discriminate.
Qed.

Lemma step_wtwin p q op : wtwin p q -> wtwin (pid_step p op) (pid_step q op) /\
  (is_compute op = true -> pid_output (pid_step p op) = pid_output (pid_step q op)).
Proof.
  intros [C S].
  assert (K : forall f, cfg_alike (f (pid_c p)) (f (pid_c q)) -> wtwin (on_cfg p f) (on_cfg q f)) by (intros f Hf; split; [exact Hf|exact S]).
  pose proof C as (A1 & A2 & A3 & A4 & A5 & A6 & A7 & A8 & A9).
  destruct op as [pp| |up lo f| |kp ki kd|k|k|k|aw|al|b|b|dt e|dt e de]; cbn [pid_step is_compute];
    try (split; [apply K; unfold cfg_alike; cbn; repeat (split; try assumption); auto; fail|discriminate]).
  - split; [split; [apply update_alike|exact S]|discriminate].
  - split; [|discriminate]. split; [exact C|]. destruct S as [F H]. split; [reflexivity|left; reflexivity].
  - split; [apply K, set_sat_alike, C|discriminate].
  - split; [|discriminate]. apply K. unfold cfg_alike; cbn. repeat (split; try assumption); try reflexivity; discriminate.
  - destruct (init_twin _ _ e S) as (E1 & E2 & E3).
    assert (X : pid_acc (pid_c p) (ps_acc (ps_init (pid_s p) e)) dt e = pid_acc (pid_c q) (ps_acc (ps_init (pid_s q) e)) dt e)
      by (rewrite E1; unfold pid_acc; rewrite A4, A6; reflexivity).
    assert (Y : pid_filt (pid_c p) (ps_init (pid_s p) e) dt e = pid_filt (pid_c q) (ps_init (pid_s q) e) dt e)
      by (unfold pid_filt; rewrite E2, E3, A5; reflexivity).
    split; [split; [exact C|]|intros _].
    + split; [reflexivity|right]. cbn. rewrite X, Y. split; [reflexivity|split; reflexivity].
    + unfold pid_output. cbn [pid_compute pid_s ps_out]. rewrite X, Y, A1, A2, A3. unfold pid_out. rewrite <- A7.
      destruct (pc_sflag (pid_c p)); [|reflexivity]. destruct (A9 eq_refl) as [-> ->]. rewrite A8. reflexivity.
  - destruct (init_twin _ _ e S) as (E1 & E2 & E3).
    assert (X : pid_acc (pid_c p) (ps_acc (ps_init (pid_s p) e)) dt e = pid_acc (pid_c q) (ps_acc (ps_init (pid_s q) e)) dt e)
      by (rewrite E1; unfold pid_acc; rewrite A4, A6; reflexivity).
    split; [split; [exact C|]|intros _].
    + split; [reflexivity|right]. cbn. rewrite X, E2. split; [reflexivity|split; reflexivity].
    + unfold pid_output. cbn [pid_compute_d pid_s ps_out]. rewrite X, A1, A2, A3. unfold pid_out. rewrite <- A7.
      destruct (pc_sflag (pid_c p)); [|reflexivity]. destruct (A9 eq_refl) as [-> ->]. rewrite A8. reflexivity.
Qed.
Lemma wtwin_returned ops : forall p q, wtwin p q -> returned p ops = returned q ops.
Proof.
  induction ops as [|op r IH]; intros p q H; [reflexivity|]. destruct (step_wtwin p q op H) as [G E]. cbn [returned].
  rewrite (IH _ _ G). destruct (is_compute op); [rewrite E; reflexivity|reflexivity].
Qed.
End Twin.
