(** Proofs for C112: reading the configuration file. *)

From Coq Require Import ZArith List Bool String Lia.
From Verif Require Import Scalar LinAlg MUtils MModel MDynamics MPid MControl MImu MSim MText MExample MScript MConfig MYaml SpecYaml.
Import ListNotations.
Local Open Scope string_scope.

Lemma bind_got {A B} (a : Yr A) (f : A -> Yr B) b : ybind a f = Got b -> exists x, a = Got x /\ f x = Got b.
Proof. destruct a as [x|]; cbn [ybind]; [intros E; exists x; split; [reflexivity|exact E]|discriminate]. Qed.
Lemma bind_ext {A B} (a : Yr A) (f g : A -> Yr B) : (forall x, a = Got x -> f x = g x) -> ybind a f = ybind a g.
Proof. destruct a as [x|]; cbn [ybind]; [intros E; apply E; reflexivity|reflexivity]. Qed.
Lemma bind_bind {A B C} (a : Yr A) (f : A -> Yr B) (g : B -> Yr C) : ybind (ybind a f) g = ybind a (fun x => ybind (f x) g).
Proof. destruct a; reflexivity. Qed.

(** ** Trees *)
Lemma assoc_first k v l : assoc k l = Some v <-> first_entry k v l.
Proof.
  split.
  - induction l as [|(k', v') l IH]; cbn [assoc]; [discriminate|].
    destruct (String.eqb_spec k' k) as [->|N]; [intros [= ->]; apply fe_here|]. intros E. apply fe_later; [exact N|apply IH, E].
  - induction 1 as [r|k' v' r N _ IH]; cbn [assoc]; [rewrite String.eqb_refl; reflexivity|].
    destruct (String.eqb_spec k' k) as [->|_]; [now destruct N|exact IH].
Qed.
Lemma assoc_none k l : assoc k l = None <-> forall v, ~ first_entry k v l.
Proof.
  split.
  - intros E v F. apply assoc_first in F. rewrite F in E. discriminate.
  - intros N. destruct (assoc k l) as [v|] eqn:E; [|reflexivity]. apply assoc_first in E. now destruct (N v).
Qed.

Lemma place_app y p q w : place y (p ++ q) w <-> exists v, place y p v /\ place v q w.
Proof.
  split.
  - revert y. induction p as [|a p IH]; intros y H; cbn [app] in H; [exists y; split; [apply pl_end|exact H]|].
    inversion H as [|l k v p' w' F P|l i v p' w' F P|l i v p' w' F P]; subst; destruct (IH _ P) as (u & P1 & P2); exists u; (split; [|exact P2]).
    + now apply pl_key with v. + now apply pl_pos with v. + now apply pl_num with v.
  - intros (v & P & Q). induction P as [y|l k u p w' F P IH|l i u p w' F P IH|l i u p w' F P IH]; cbn [app]; [exact Q| | | ].
    + apply pl_key with u; auto. + apply pl_pos with u; auto. + apply pl_num with u; auto.
Qed.
Lemma key_place y k v : key (Some y) k = Got (Some v) <-> place y [K k] v.
Proof.
  split.
  - destruct y as [|s|l|l]; cbn [key]; try discriminate. intros [= E]. apply pl_key with v; [apply assoc_first, E|apply pl_end].
  - intros P. inversion P as [|l k' u p w F Q| |]; subst. inversion Q; subst. cbn [key]. f_equal. apply assoc_first, F.
Qed.
Lemma idx_place y i v : idx (Some y) i = Got (Some v) <-> place y [I i] v.
Proof.
  split.
  - destruct y as [|s|l|l]; cbn [idx]; try discriminate; intros [= E].
    + apply pl_pos with v; [exact E|apply pl_end].
    + apply pl_num with v; [apply assoc_first, E|apply pl_end].
  - intros P. inversion P as [| |l i' u p w F Q|l i' u p w F Q]; subst; inversion Q; subst; cbn [idx]; f_equal; [exact F|apply assoc_first, F].
Qed.
Lemma walk_none p : walk None p = Got None.
Proof. induction p as [|k p IH]; cbn [walk key ybind]; [reflexivity|exact IH]. Qed.
Lemma walk_place p : forall y v, walk (Some y) p = Got (Some v) <-> place y (map K p) v.
Proof.
  induction p as [|k p IH]; intros y v; cbn [walk map].
  - split; [intros [= ->]; apply pl_end|intros P; inversion P; reflexivity].
  - split.
    + intros E. apply bind_got in E. destruct E as ([u|] & E1 & E2); [|rewrite walk_none in E2; discriminate].
      change (K k :: map K p) with ([K k] ++ map K p)%list. apply place_app. exists u. split; [apply key_place, E1|apply IH, E2].
    + intros P. change (K k :: map K p) with ([K k] ++ map K p)%list in P. apply place_app in P. destruct P as (u & P1 & P2).
      apply key_place in P1. rewrite P1. cbn [ybind]. apply IH, P2.
Qed.

(** ** Assigning to the handle leaves the rest of the tree alone *)
Fixpoint diverge (q p : list string) : bool :=
  match q, p with a :: q', b :: p' => if String.eqb a b then diverge q' p' else true | _, _ => false end.
Lemma assoc_replace k k' f l : assoc k (replace k' f l) = if String.eqb k' k then option_map f (assoc k l) else assoc k l.
Proof.
  induction l as [|(a, v) l IH]; cbn [replace assoc]; [now destruct (String.eqb k' k)|].
  destruct (String.eqb_spec a k') as [->|N]; cbn [assoc].
  - destruct (String.eqb_spec k' k) as [->|N]; reflexivity.
  - rewrite IH. destruct (String.eqb_spec a k) as [->|N']; [|reflexivity].
    destruct (String.eqb_spec k' k) as [->|_]; [now destruct N|reflexivity].
Qed.
Lemma walk_put v p : forall q y, diverge q p = true -> walk (Some (put q v y)) p = walk (Some y) p.
Proof.
  induction p as [|b p IH]; intros [|a q] y D; cbn [diverge] in D; try discriminate.
  cbn [walk put]. destruct y as [|s|l|l]; try reflexivity. cbn [key ybind]. rewrite assoc_replace.
  destruct (String.eqb_spec a b) as [->|N]; [|reflexivity].
  destruct (assoc b l) as [u|]; cbn [option_map]; [apply IH, D|reflexivity].
Qed.

Section Reads.
Context {T : Type} {O : Ops T} {G H : Gen T}.
Variable num : string -> option T.

Lemma number_under p q y x : number num y (map K p ++ q) x <-> exists s, walk (Some y) p = Got (Some s) /\ number num s q x.
Proof.
  split.
  - intros (t & P & E). apply place_app in P. destruct P as (s & P1 & P2). exists s. split; [apply walk_place, P1|exists t; auto].
  - intros (s & P1 & t & P2 & E). exists t. split; [|exact E]. apply place_app. exists s. split; [apply walk_place, P1|exact P2].
Qed.
Lemma as_num_place y x : as_num num (Some y) = Got x <-> number num y [] x.
Proof.
  split.
  - destruct y as [|s|l|l]; cbn [as_num]; try discriminate. destruct (num s) as [z|] eqn:E; [|discriminate]. intros [= ->].
    exists s. split; [apply pl_end|exact E].
  - intros (s & P & E). inversion P; subst. cbn [as_num]. rewrite E. reflexivity.
Qed.
Lemma num_at_says n k x : num_at num n k = Got x <-> exists y, n = Some y /\ number num y [K k] x.
Proof.
  unfold num_at. split.
  - intros E. apply bind_got in E. destruct E as ([u|] & E1 & E2); [|discriminate]. destruct n as [y|]; [|discriminate].
    exists y. split; [reflexivity|]. apply key_place in E1. apply as_num_place in E2. destruct E2 as (s & P & E).
    exists s. split; [|exact E]. change [K k] with ([K k] ++ [])%list. apply place_app. exists u. auto.
  - intros (y & -> & s & P & E). apply key_place in P. rewrite P. cbn [ybind as_num]. rewrite E. reflexivity.
Qed.
Lemma num_idx_says y i x : num_idx num (Some y) i = Got x <-> number num y [I i] x.
Proof.
  unfold num_idx. split.
  - intros E. apply bind_got in E. destruct E as ([u|] & E1 & E2); [|discriminate].
    apply idx_place in E1. apply as_num_place in E2. destruct E2 as (s & P & E).
    exists s. split; [|exact E]. change [I i] with ([I i] ++ [])%list. apply place_app. exists u. auto.
  - intros (s & P & E). apply idx_place in P. rewrite P. cbn [ybind as_num]. rewrite E. reflexivity.
Qed.
Lemma num_idx_none i : num_idx num None i = Thrown. Proof. reflexivity. Qed.
Lemma vec_node_says y v : vec_node num (Some y) = Got v <-> vector num y [] v.
Proof.
  unfold vec_node, vector. cbn [app]. split.
  - intros E. apply bind_got in E. destruct E as (a & E1 & E). apply bind_got in E. destruct E as (b & E2 & E).
    apply bind_got in E. destruct E as (c & E3 & [= <-]). cbn [vx vy vz]. repeat split; apply num_idx_says; assumption.
  - intros (E1 & E2 & E3). apply num_idx_says in E1, E2, E3. rewrite E1, E2, E3. cbn [ybind]. destruct v; reflexivity.
Qed.
Lemma number_key y k i x : number num y ([K k] ++ [I i]) x <-> exists s, key (Some y) k = Got (Some s) /\ number num s [I i] x.
Proof.
  change ([K k] ++ [I i])%list with (map K [k] ++ [I i])%list. rewrite number_under. cbn [walk]. split.
  - intros (s & E & N). apply bind_got in E. destruct E as (u & E & [= ->]). exists s. auto.
  - intros (s & E & N). exists s. rewrite E. auto.
Qed.
Lemma vec_at_says n k v : vec_at num n k = Got v <-> exists y, n = Some y /\ vector num y [K k] v.
Proof.
  unfold vec_at. split.
  - intros E. apply bind_got in E. destruct E as ([u|] & E1 & E2); [|discriminate]. destruct n as [y|]; [|discriminate].
    exists y. split; [reflexivity|]. apply vec_node_says in E2. destruct E2 as (A & B & C). cbn [app] in A, B, C.
    repeat split; apply number_key; exists u; auto.
  - intros (y & -> & A & B & C). apply number_key in A, B, C. destruct A as (u & E & A). destruct B as (u2 & E2 & B). destruct C as (u3 & E3 & C).
    rewrite E in E2, E3. injection E2 as <-. injection E3 as <-. rewrite E. cbn [ybind]. apply vec_node_says. repeat split; assumption.
Qed.
Lemma quat_at_says n k q : quat_at num n k = Got q <-> exists y, n = Some y /\ quaternion num y [K k] q.
Proof.
  unfold quat_at. split.
  - intros E. apply bind_got in E. destruct E as ([u|] & E1 & E); [|discriminate]. destruct n as [y|]; [|discriminate].
    exists y. split; [reflexivity|].
    apply bind_got in E. destruct E as (a & Ea & E). apply bind_got in E. destruct E as (b & Eb & E).
    apply bind_got in E. destruct E as (c & Ec & E). apply bind_got in E. destruct E as (d & Ed & [= <-]).
    apply num_idx_says in Ea, Eb, Ec, Ed. unfold quaternion. cbn [qw qx qy qz]. repeat split; apply number_key; exists u; auto.
  - intros (y & -> & A & B & C & D). apply number_key in A, B, C, D. destruct A as (u & E & A). destruct B as (u2 & E2 & B). destruct C as (u3 & E3 & C). destruct D as (u4 & E4 & D).
    rewrite E in E2, E3, E4. injection E2 as <-. injection E3 as <-. injection E4 as <-. rewrite E. cbn [ybind].
    apply num_idx_says in A, B, C, D. rewrite A, B, C, D. cbn [ybind]. destruct q; reflexivity.
Qed.

(** ** The numbers, read from the unchanged tree *)
Definition outer_flat (p : Program) (root : Yaml) : Yr (PidSection T * PidSection T * PidSection T) :=
  match p with
  | FlyExample =>
    ybind (walk (Some root) ["controller"; "velocity"]) (fun n => ybind (section_at num n "acceleration_limit") (fun v =>
    ybind (walk (Some root) ["controller"; "position"]) (fun n => ybind (section_at num n "velocity_limit") (fun q =>
    Got (unread, v, q)))))
  | TrajExample =>
    ybind (walk (Some root) ["controller"; "trajectory"]) (fun n => ybind (section_traj num n "linear_acceleration_limit") (fun t =>
    Got (t, unread, unread)))
  end.
Local Notation "'do' x <- a ; b" := (ybind a (fun x => b)) (at level 200, x name, a at level 100, b at level 200).
Definition read_flat (p : Program) (root : Yaml) : Yr (Doc T) :=
  do n <- walk (Some root) ["sim_config"]; do fl <- num_at num n "floor_height";
  do s <- walk (Some root) ["dynamics"; "state"];
  do pos <- vec_at num s "position"; do ori <- quat_at num s "orientation"; do vel <- vec_at num s "linear_velocity";
  do av <- vec_at num s "angular_velocity"; do la <- vec_at num s "linear_acceleration"; do aa <- vec_at num s "angular_acceleration";
  do m <- walk (Some root) ["dynamics"; "model"];
  do grav <- vec_at num m "gravity"; do mass <- num_at num m "vehicle_mass"; do inertia <- vec_at num m "vehicle_inertia";
  do drag <- num_at num m "vehicle_drag_coefficient"; do aero <- vec_at num m "vehicle_aero_moment_coefficient";
  do fn <- num_at num m "force_process_noise_auto_correlation"; do mn <- num_at num m "moment_process_noise_auto_correlation";
  do r <- walk (Some root) ["dynamics"; "model"; "motors_params"];
  do kf <- num_at num r "thrust_coefficient"; do kt <- num_at num r "torque_coefficient";
  do x <- num_at num r "x_dist"; do y <- num_at num r "y_dist"; do lo <- num_at num r "min_speed"; do hi <- num_at num r "max_speed";
  do tau <- num_at num r "time_constant"; do J <- num_at num r "rotational_inertia";
  do i4 <- walk (Some root) ["controller"; "indi"]; do indi <- section_at num i4 "angular_acceleration_limit";
  do i5 <- walk (Some root) ["controller"; "acro"]; do kprot <- vec_at num i5 "kp_rot";
  do co <- outer_flat p root; let '(traj, velc, posc) := co in
  do i <- walk (Some root) ["imu"];
  do gv <- num_at num i "gyro_noise_var"; do av2 <- num_at num i "accel_noise_var";
  do gac <- num_at num i "gyro_bias_noise_autocorr_time"; do aac <- num_at num i "accel_bias_noise_autocorr_time";
  do o <- walk (Some root) ["inertial_odometry"]; do al <- num_at num o "alpha";
  Got (mkDoc fl pos ori vel av la aa grav mass inertia drag aero fn mn kf kt x y lo hi tau J indi kprot traj velc posc gv av2 gac aac al).

(** One assignment, with the tree changed only at places that are not read again. *)
Lemma assign_step {B} (c : Cursor) (root : Yaml) p (F : Cursor -> Yr B) (K : Node -> Yr B) :
  walk (Some (cu_root c)) p = walk (Some root) p ->
  (forall n, walk (Some root) p = Got n -> F (match cu_at c, n with
       | Some q, Some v => mkCur (put q v (cu_root c)) (if is_prefix q p then None else Some p) n
       | _, _ => mkCur (cu_root c) (Some p) n end) = K n) ->
  ybind (assign c p) F = ybind (walk (Some root) p) K.
Proof.
  intros E HF. unfold assign. rewrite E, bind_bind. apply bind_ext. intros n En. cbn [ybind]. apply HF, En.
Qed.

Lemma read_doc_flat p root : read_doc num p root = read_flat p root.
Proof.
  unfold read_doc, read_flat. rewrite bind_bind. apply bind_ext. intros n0 _. apply bind_ext. intros fl _.
  unfold start. rewrite bind_bind. apply bind_ext. intros s _. cbn [ybind cu_node].
  do 6 (apply bind_ext; intros ? _).
  apply assign_step; [reflexivity|]. intros m _. cbn [cu_at cu_root].
  destruct m as [m|]; [|reflexivity]. cbn [cu_node is_prefix String.eqb Ascii.eqb Bool.eqb andb].
  do 7 (apply bind_ext; intros ? _).
  apply assign_step; [cbn [cu_root]; now rewrite walk_put by reflexivity|]. intros r _. cbn [cu_at cu_root].
  destruct r as [r|]; [|reflexivity]. cbn [cu_node is_prefix String.eqb Ascii.eqb Bool.eqb andb].
  do 8 (apply bind_ext; intros ? _).
  apply assign_step; [cbn [cu_root]; now rewrite !walk_put by reflexivity|]. intros i4 _. cbn [cu_at cu_root].
  destruct i4 as [i4|]; [|reflexivity]. cbn [cu_node].
  apply bind_ext; intros ? _.
  apply assign_step; [cbn [cu_root]; now rewrite !walk_put by reflexivity|]. intros i5 _. cbn [cu_at cu_root].
  destruct i5 as [i5|]; [|reflexivity]. cbn [cu_node is_prefix String.eqb Ascii.eqb Bool.eqb andb].
  apply bind_ext; intros ? _.
  unfold outer_sections, outer_flat. destruct p.
  - rewrite !bind_bind. apply assign_step; [cbn [cu_root]; now rewrite !walk_put by reflexivity|]. intros v _. cbn [cu_at cu_root].
    destruct v as [v|]; [|reflexivity]. cbn [cu_node is_prefix String.eqb Ascii.eqb Bool.eqb andb].
    rewrite !bind_bind. apply bind_ext; intros ? _.
    rewrite !bind_bind. apply assign_step; [cbn [cu_root]; now rewrite !walk_put by reflexivity|]. intros q _. cbn [cu_at cu_root].
    destruct q as [q|]; [|reflexivity]. cbn [cu_node is_prefix String.eqb Ascii.eqb Bool.eqb andb].
    rewrite !bind_bind. apply bind_ext; intros ? _. cbn [ybind fst snd].
    apply assign_step; [cbn [cu_root]; now rewrite !walk_put by reflexivity|]. intros i _. cbn [cu_at cu_root].
    destruct i as [i|]; [|reflexivity]. cbn [cu_node is_prefix String.eqb Ascii.eqb Bool.eqb andb].
    do 4 (apply bind_ext; intros ? _).
    apply assign_step; [cbn [cu_root]; now rewrite !walk_put by reflexivity|]. intros o _. cbn [cu_at cu_root].
    destruct o as [o|]; reflexivity.
  - rewrite !bind_bind. apply assign_step; [cbn [cu_root]; now rewrite !walk_put by reflexivity|]. intros v _. cbn [cu_at cu_root].
    destruct v as [v|]; [|reflexivity]. cbn [cu_node is_prefix String.eqb Ascii.eqb Bool.eqb andb].
    rewrite !bind_bind. apply bind_ext; intros ? _. cbn [ybind fst snd].
    apply assign_step; [cbn [cu_root]; now rewrite !walk_put by reflexivity|]. intros i _. cbn [cu_at cu_root].
    destruct i as [i|]; [|reflexivity]. cbn [cu_node is_prefix String.eqb Ascii.eqb Bool.eqb andb].
    do 4 (apply bind_ext; intros ? _).
    apply assign_step; [cbn [cu_root]; now rewrite !walk_put by reflexivity|]. intros o _. cbn [cu_at cu_root].
    destruct o as [o|]; reflexivity.
Qed.

(** ** What is read is what the file says *)
Lemma vector_under p q y v : vector num y (map K p ++ q) v <-> exists s, walk (Some y) p = Got (Some s) /\ vector num s q v.
Proof.
  unfold vector. rewrite <- !app_assoc, !number_under. split.
  - intros ((s & W & A) & (s2 & W2 & B) & (s3 & W3 & C)). rewrite W in W2, W3. injection W2 as <-. injection W3 as <-. exists s. auto.
  - intros (s & W & A & B & C). repeat split; exists s; auto.
Qed.
Lemma quaternion_under p q y v : quaternion num y (map K p ++ q) v <-> exists s, walk (Some y) p = Got (Some s) /\ quaternion num s q v.
Proof.
  unfold quaternion. rewrite <- !app_assoc, !number_under. split.
  - intros ((s & W & A) & (s2 & W2 & B) & (s3 & W3 & C) & (s4 & W4 & D)). rewrite W in W2, W3, W4.
    injection W2 as <-. injection W3 as <-. injection W4 as <-. exists s. auto.
  - intros (s & W & A & B & C & D). repeat split; exists s; auto.
Qed.
Lemma gains_under p y l g : gains num y (map K p) l g <-> exists s, walk (Some y) p = Got (Some s) /\ gains num s [] l g.
Proof.
  unfold gains. cbn [app]. rewrite !vector_under. split.
  - intros ((s & W & A) & (s2 & W2 & B) & (s3 & W3 & C) & (s4 & W4 & D) & (s5 & W5 & E)). rewrite W in W2, W3, W4, W5.
    injection W2 as <-. injection W3 as <-. injection W4 as <-. injection W5 as <-. exists s. auto 6.
  - intros (s & W & A & B & C & D & E). refine (conj _ (conj _ (conj _ (conj _ _)))); exists s; auto.
Qed.
Lemma filtered_under p y l g : filtered_gains num y (map K p) l g <-> exists s, walk (Some y) p = Got (Some s) /\ filtered_gains num s [] l g.
Proof.
  unfold filtered_gains. rewrite gains_under, vector_under. cbn [app]. split.
  - intros ((s & W & A) & (s2 & W2 & B)). rewrite W in W2. injection W2 as <-. exists s. auto.
  - intros (s & W & A & B). split; exists s; auto.
Qed.

Ltac unbind E x Ex := apply bind_got in E; destruct E as (x & Ex & E).
Lemma section_at_says n l g : section_at num n l = Got g <-> exists y, n = Some y /\ filtered_gains num y [] l g.
Proof.
  unfold section_at, filtered_gains, gains. cbn [app]. split.
  - intros E. unbind E a Ea. unbind E b Eb. unbind E c Ec. unbind E d Ed. unbind E e Ee. unbind E f Ef. injection E as <-.
    apply vec_at_says in Ea, Eb, Ec, Ed, Ee, Ef. destruct Ea as (y & -> & A). exists y. split; [reflexivity|].
    destruct Eb as (? & [= <-] & B), Ec as (? & [= <-] & C), Ed as (? & [= <-] & D), Ee as (? & [= <-] & E), Ef as (? & [= <-] & F).
    cbn [ks_kp ks_ki ks_kd ks_alpha ks_aw ks_limit]. auto 8.
  - intros (y & -> & (A & B & C & D & E) & F).
    rewrite (proj2 (vec_at_says (Some y) "Kp" _)) by (exists y; auto; exact (conj eq_refl A)). cbn [ybind].
    rewrite (proj2 (vec_at_says (Some y) "Ki" _)) by (exists y; exact (conj eq_refl B)). cbn [ybind].
    rewrite (proj2 (vec_at_says (Some y) "Kd" _)) by (exists y; exact (conj eq_refl C)). cbn [ybind].
    rewrite (proj2 (vec_at_says (Some y) "alpha" _)) by (exists y; exact (conj eq_refl F)). cbn [ybind].
    rewrite (proj2 (vec_at_says (Some y) "antiwindup_cte" _)) by (exists y; exact (conj eq_refl D)). cbn [ybind].
    rewrite (proj2 (vec_at_says (Some y) l _)) by (exists y; exact (conj eq_refl E)). cbn [ybind]. destruct g; reflexivity.
Qed.
Definition no_filter (g : PidSection T) : PidSection T := mkPidSec (ks_kp g) (ks_ki g) (ks_kd g) v0 (ks_aw g) (ks_limit g).
Lemma section_traj_says n l g : section_traj num n l = Got (no_filter g) <-> exists y, n = Some y /\ gains num y [] l g.
Proof.
  unfold section_traj, gains. cbn [app]. split.
  - intros E. unbind E a Ea. unbind E b Eb. unbind E c Ec. unbind E e Ee. unbind E f Ef. injection E as -> -> -> -> ->.
    apply vec_at_says in Ea, Eb, Ec, Ee, Ef. destruct Ea as (y & -> & A). exists y. split; [reflexivity|].
    destruct Eb as (? & [= <-] & B), Ec as (? & [= <-] & C), Ee as (? & [= <-] & E), Ef as (? & [= <-] & F). auto 8.
  - intros (y & -> & (A & B & C & D & E)).
    rewrite (proj2 (vec_at_says (Some y) "Kp" _)) by (exists y; exact (conj eq_refl A)). cbn [ybind].
    rewrite (proj2 (vec_at_says (Some y) "Ki" _)) by (exists y; exact (conj eq_refl B)). cbn [ybind].
    rewrite (proj2 (vec_at_says (Some y) "Kd" _)) by (exists y; exact (conj eq_refl C)). cbn [ybind].
    rewrite (proj2 (vec_at_says (Some y) "antiwindup_cte" _)) by (exists y; exact (conj eq_refl D)). cbn [ybind].
    rewrite (proj2 (vec_at_says (Some y) l _)) by (exists y; exact (conj eq_refl E)). cbn [ybind]. reflexivity.
Qed.
Lemma section_traj_shape n l g : section_traj num n l = Got g -> g = no_filter g.
Proof.
  unfold section_traj. intros E. unbind E a Ea. unbind E b Eb. unbind E c Ec. unbind E e Ee. unbind E f Ef. injection E as <-. reflexivity.
Qed.

(** The numbers a program reads, the others left at zero. *)
Definition trim (p : Program) (d : Doc T) : Doc T :=
  match p with
  | FlyExample => mkDoc (yd_floor d) (yd_pos d) (yd_ori d) (yd_vel d) (yd_angvel d) (yd_linacc d) (yd_angacc d) (yd_grav d) (yd_mass d)
      (yd_inertia d) (yd_drag d) (yd_aero d) (yd_fnoise d) (yd_mnoise d) (yd_kf d) (yd_kt d) (yd_x d) (yd_y d) (yd_min d) (yd_max d)
      (yd_tau d) (yd_J d) (yd_indi d) (yd_kprot d) unread (yd_velc d) (yd_posc d) (yd_gvar d) (yd_avar d) (yd_gac d) (yd_aac d) (yd_alpha d)
  | TrajExample => mkDoc (yd_floor d) (yd_pos d) (yd_ori d) (yd_vel d) (yd_angvel d) (yd_linacc d) (yd_angacc d) (yd_grav d) (yd_mass d)
      (yd_inertia d) (yd_drag d) (yd_aero d) (yd_fnoise d) (yd_mnoise d) (yd_kf d) (yd_kt d) (yd_x d) (yd_y d) (yd_min d) (yd_max d)
      (yd_tau d) (yd_J d) (yd_indi d) (yd_kprot d) (no_filter (yd_traj d)) unread unread (yd_gvar d) (yd_avar d) (yd_gac d) (yd_aac d) (yd_alpha d)
  end.
Lemma trim_same p d : get_simulator (G := G) (H := H) p (FromFile (trim p d)) = get_simulator p (FromFile d).
Proof. destruct p; reflexivity. Qed.

(** A number under a section. *)
Lemma num_down p k y x : number num y (map K p ++ [K k]) x -> exists s, walk (Some y) p = Got (Some s) /\ num_at num (Some s) k = Got x.
Proof. intros N. apply number_under in N. destruct N as (s & W & N). exists s. split; [exact W|]. apply num_at_says. exists s. auto. Qed.
Lemma vec_down p k y x : vector num y (map K p ++ [K k]) x -> exists s, walk (Some y) p = Got (Some s) /\ vec_at num (Some s) k = Got x.
Proof. intros N. apply vector_under in N. destruct N as (s & W & N). exists s. split; [exact W|]. apply vec_at_says. exists s. auto. Qed.
Lemma quat_down p k y x : quaternion num y (map K p ++ [K k]) x -> exists s, walk (Some y) p = Got (Some s) /\ quat_at num (Some s) k = Got x.
Proof. intros N. apply quaternion_under in N. destruct N as (s & W & N). exists s. split; [exact W|]. apply quat_at_says. exists s. auto. Qed.
Lemma filtered_down p l y g : filtered_gains num y (map K p) l g -> exists s, walk (Some y) p = Got (Some s) /\ section_at num (Some s) l = Got g.
Proof. intros N. apply filtered_under in N. destruct N as (s & W & N). exists s. split; [exact W|]. apply section_at_says. exists s. auto. Qed.
Lemma gains_down p l y g : gains num y (map K p) l g -> exists s, walk (Some y) p = Got (Some s) /\ section_traj num (Some s) l = Got (no_filter g).
Proof. intros N. apply gains_under in N. destruct N as (s & W & N). exists s. split; [exact W|]. apply section_traj_says. exists s. auto. Qed.
Lemma num_up p k y n x : walk (Some y) p = Got n -> num_at num n k = Got x -> number num y (map K p ++ [K k]) x.
Proof. intros W N. apply num_at_says in N. destruct N as (s & -> & N). apply number_under. exists s. auto. Qed.
Lemma vec_up p k y n x : walk (Some y) p = Got n -> vec_at num n k = Got x -> vector num y (map K p ++ [K k]) x.
Proof. intros W N. apply vec_at_says in N. destruct N as (s & -> & N). apply vector_under. exists s. auto. Qed.
Lemma quat_up p k y n x : walk (Some y) p = Got n -> quat_at num n k = Got x -> quaternion num y (map K p ++ [K k]) x.
Proof. intros W N. apply quat_at_says in N. destruct N as (s & -> & N). apply quaternion_under. exists s. auto. Qed.
Lemma filtered_up p l y n g : walk (Some y) p = Got n -> section_at num n l = Got g -> filtered_gains num y (map K p) l g.
Proof. intros W N. apply section_at_says in N. destruct N as (s & -> & N). apply filtered_under. exists s. auto. Qed.
Lemma gains_up p l y n g : walk (Some y) p = Got n -> section_traj num n l = Got g -> gains num y (map K p) l g.
Proof.
  intros W N. pose proof (section_traj_shape _ _ _ N) as E. rewrite E in N.
  apply section_traj_says in N. destruct N as (s & -> & N). apply gains_under. exists s. auto.
Qed.

Ltac enter lem := match goal with |- ybind (walk (Some ?y) ?p) _ = _ =>
   let s := fresh "s" in let W := fresh "W" in destruct lem as (s & W & _); rewrite W; cbn [ybind] end.
Ltac take lem := match goal with
  | W : walk (Some ?y) _ = Got (Some ?s) |- ybind (_ num (Some ?s) ?k) _ = _ =>
    let s' := fresh "s" in let W' := fresh "W" in let E := fresh "E" in
    destruct lem as (s' & W' & E); cbn [map app] in W'; rewrite W in W'; injection W' as <-; rewrite E; cbn [ybind]; clear E end.

Lemma read_back p y d : file_says num p y d -> read_doc num p y = Got (trim p d).
Proof.
  intros (C & P). rewrite read_doc_flat. unfold read_flat. destruct C.
  enter (num_down ["sim_config"] "floor_height" y _ cm_floor). take (num_down ["sim_config"] "floor_height" y _ cm_floor).
  enter (vec_down ["dynamics"; "state"] "position" y _ cm_pos).
  take (vec_down ["dynamics"; "state"] "position" y _ cm_pos).
  take (quat_down ["dynamics"; "state"] "orientation" y _ cm_ori).
  take (vec_down ["dynamics"; "state"] "linear_velocity" y _ cm_vel).
  take (vec_down ["dynamics"; "state"] "angular_velocity" y _ cm_angvel).
  take (vec_down ["dynamics"; "state"] "linear_acceleration" y _ cm_linacc).
  take (vec_down ["dynamics"; "state"] "angular_acceleration" y _ cm_angacc).
  enter (vec_down ["dynamics"; "model"] "gravity" y _ cm_grav).
  take (vec_down ["dynamics"; "model"] "gravity" y _ cm_grav).
  take (num_down ["dynamics"; "model"] "vehicle_mass" y _ cm_mass).
  take (vec_down ["dynamics"; "model"] "vehicle_inertia" y _ cm_inertia).
  take (num_down ["dynamics"; "model"] "vehicle_drag_coefficient" y _ cm_drag).
  take (vec_down ["dynamics"; "model"] "vehicle_aero_moment_coefficient" y _ cm_aero).
  take (num_down ["dynamics"; "model"] "force_process_noise_auto_correlation" y _ cm_fnoise).
  take (num_down ["dynamics"; "model"] "moment_process_noise_auto_correlation" y _ cm_mnoise).
  enter (num_down ["dynamics"; "model"; "motors_params"] "thrust_coefficient" y _ cm_kf).
  take (num_down ["dynamics"; "model"; "motors_params"] "thrust_coefficient" y _ cm_kf).
  take (num_down ["dynamics"; "model"; "motors_params"] "torque_coefficient" y _ cm_kt).
  take (num_down ["dynamics"; "model"; "motors_params"] "x_dist" y _ cm_x).
  take (num_down ["dynamics"; "model"; "motors_params"] "y_dist" y _ cm_y).
  take (num_down ["dynamics"; "model"; "motors_params"] "min_speed" y _ cm_min).
  take (num_down ["dynamics"; "model"; "motors_params"] "max_speed" y _ cm_max).
  take (num_down ["dynamics"; "model"; "motors_params"] "time_constant" y _ cm_tau).
  take (num_down ["dynamics"; "model"; "motors_params"] "rotational_inertia" y _ cm_J).
  enter (filtered_down ["controller"; "indi"] "angular_acceleration_limit" y _ cm_indi).
  take (filtered_down ["controller"; "indi"] "angular_acceleration_limit" y _ cm_indi).
  enter (vec_down ["controller"; "acro"] "kp_rot" y _ cm_kprot).
  take (vec_down ["controller"; "acro"] "kp_rot" y _ cm_kprot).
  destruct p; cbn [particular] in P; unfold outer_flat.
  - destruct P as (P1 & P2). rewrite !bind_bind.
    enter (filtered_down ["controller"; "velocity"] "acceleration_limit" y _ P1). rewrite !bind_bind.
    take (filtered_down ["controller"; "velocity"] "acceleration_limit" y _ P1). rewrite !bind_bind.
    enter (filtered_down ["controller"; "position"] "velocity_limit" y _ P2). rewrite !bind_bind.
    take (filtered_down ["controller"; "position"] "velocity_limit" y _ P2).
    enter (num_down ["imu"] "gyro_noise_var" y _ cm_gvar).
    take (num_down ["imu"] "gyro_noise_var" y _ cm_gvar).
    take (num_down ["imu"] "accel_noise_var" y _ cm_avar).
    take (num_down ["imu"] "gyro_bias_noise_autocorr_time" y _ cm_gac).
    take (num_down ["imu"] "accel_bias_noise_autocorr_time" y _ cm_aac).
    enter (num_down ["inertial_odometry"] "alpha" y _ cm_alpha).
    take (num_down ["inertial_odometry"] "alpha" y _ cm_alpha). reflexivity.
  - rewrite !bind_bind.
    enter (gains_down ["controller"; "trajectory"] "linear_acceleration_limit" y _ P). rewrite !bind_bind.
    take (gains_down ["controller"; "trajectory"] "linear_acceleration_limit" y _ P).
    enter (num_down ["imu"] "gyro_noise_var" y _ cm_gvar).
    take (num_down ["imu"] "gyro_noise_var" y _ cm_gvar).
    take (num_down ["imu"] "accel_noise_var" y _ cm_avar).
    take (num_down ["imu"] "gyro_bias_noise_autocorr_time" y _ cm_gac).
    take (num_down ["imu"] "accel_bias_noise_autocorr_time" y _ cm_aac).
    enter (num_down ["inertial_odometry"] "alpha" y _ cm_alpha).
    take (num_down ["inertial_odometry"] "alpha" y _ cm_alpha). reflexivity.
Qed.

Ltac nx E := let x := fresh "x" in let Ex := fresh "R" in apply bind_got in E; destruct E as (x & Ex & E).
Ltac up := match goal with
  | W : walk (Some ?y) ?p = Got ?n, E : num_at num ?n ?k = Got ?x |- number num ?y _ ?x => exact (num_up p k y n x W E)
  | W : walk (Some ?y) ?p = Got ?n, E : vec_at num ?n ?k = Got ?x |- vector num ?y _ ?x => exact (vec_up p k y n x W E)
  | W : walk (Some ?y) ?p = Got ?n, E : quat_at num ?n ?k = Got ?x |- quaternion num ?y _ ?x => exact (quat_up p k y n x W E)
  | W : walk (Some ?y) ?p = Got ?n, E : section_at num ?n ?k = Got ?x |- filtered_gains num ?y _ _ ?x => exact (filtered_up p k y n x W E)
  | W : walk (Some ?y) ?p = Got ?n, E : section_traj num ?n ?k = Got ?x |- gains num ?y _ _ ?x => exact (gains_up p k y n x W E)
  end.
Lemma read_only p y d : read_doc num p y = Got d -> file_says num p y d.
Proof.
  rewrite read_doc_flat. unfold read_flat. intros E.
  do 30 nx E. nx E. unfold outer_flat in R29. destruct p.
  - do 4 nx R29. injection R29 as <-. do 7 nx E. injection E as <-.
    split; [constructor|split]; cbn [yd_floor yd_pos yd_ori yd_vel yd_angvel yd_linacc yd_angacc yd_grav yd_mass yd_inertia yd_drag yd_aero yd_fnoise yd_mnoise yd_kf yd_kt yd_x yd_y yd_min yd_max yd_tau yd_J yd_indi yd_kprot yd_traj yd_velc yd_posc yd_gvar yd_avar yd_gac yd_aac yd_alpha]; up.
  - do 2 nx R29. injection R29 as <-. do 7 nx E. injection E as <-.
    split; [constructor|]; cbn [particular yd_floor yd_pos yd_ori yd_vel yd_angvel yd_linacc yd_angacc yd_grav yd_mass yd_inertia yd_drag yd_aero yd_fnoise yd_mnoise yd_kf yd_kt yd_x yd_y yd_min yd_max yd_tau yd_J yd_indi yd_kprot yd_traj yd_velc yd_posc yd_gvar yd_avar yd_gac yd_aac yd_alpha]; up.
Qed.
Lemma trim_says p y d : file_says num p y (trim p d) -> file_says num p y d.
Proof. intros (C & P). split; [|destruct p; exact P]. destruct p; destruct C; constructor; assumption. Qed.
Lemma vectors_only ys l : vectors num ys = Got l -> Forall2 (fun e v => vector num e [] v) ys l.
Proof.
  revert l. induction ys as [|e ys IH]; intros l E; cbn [vectors] in E; [injection E as <-; apply Forall2_nil|].
  unbind E v Ev. unbind E vs Es. injection E as <-. apply Forall2_cons; [apply vec_node_says, Ev|apply IH, Es].
Qed.
End Reads.

(** A reader of more texts. *)
Section More.
Context {T : Type} {O : Ops T}.
Variables num num' : string -> option T.
Hypothesis Hm : forall s x, num s = Some x -> num' s = Some x.
Lemma number_more y p x : number num y p x -> number num' y p x.
Proof. intros (s & P & E). exists s. split; [exact P|apply Hm, E]. Qed.
Lemma vector_more y p x : vector num y p x -> vector num' y p x.
Proof. intros (A & B & C). repeat split; apply number_more; assumption. Qed.
Lemma quaternion_more y p x : quaternion num y p x -> quaternion num' y p x.
Proof. intros (A & B & C & D). repeat split; apply number_more; assumption. Qed.
Lemma gains_more y p l x : gains num y p l x -> gains num' y p l x.
Proof. intros (A & B & C & D & E). refine (conj _ (conj _ (conj _ (conj _ _)))); apply vector_more; assumption. Qed.
Lemma filtered_more y p l x : filtered_gains num y p l x -> filtered_gains num' y p l x.
Proof. intros (A & B). split; [apply gains_more, A|apply vector_more, B]. Qed.
Lemma says_more p y d : file_says num p y d -> file_says num' p y d.
Proof.
  intros (C & P). split.
  - destruct C; constructor; first [apply number_more; assumption | apply vector_more; assumption | apply quaternion_more; assumption | apply filtered_more; assumption].
  - destruct p; [destruct P; split; apply filtered_more; assumption|apply gains_more, P].
Qed.
End More.
