(** The commanded rates lean the vehicle to the side it is to accelerate to. *)

From Coq Require Import ZArith List Bool Lia Reals Lra Psatz.
From Verif Require Import Scalar LinAlg MUtils MModel MDynamics MPid MControl MCtlRun
  SpecDyn SpecRun SpecPid SpecCtl SpecLean PBase PPhys PPid PPidR PCtl PCtlR ECtl.
Import ListNotations.
Local Open Scope R_scope.

(** ** The demanded frame *)
Lemma frame_facts yaw t Rd : desired_frame yaw t Rd ->
  let X := col Rd AX in let Y := col Rd AY in let Z := col Rd AZ in let q := dot3 X (heading yaw) in let p := dot3 Z (heading yaw) in
  0 < q /\ q * q + p * p = 1 /\ q * vz X = - (p * vz Z) /\ q * vz Y = vx Z * sin yaw - vy Z * cos yaw /\
  vx Z * vx Z + vy Z * vy Z + vz Z * vz Z = 1.
Proof.
  intros (Rt & _ & Hy & Hx). cbv zeta.
  pose proof (rotation_expand Rd (heading yaw) Rt) as Ex. destruct (rotation_cross Rd Rt AZ) as (_ & _ & Cr). destruct Rt as [Or Dt].
  pose proof (Or AZ AZ) as O2.
  pose proof (Ex AX) as E1. pose proof (Ex AY) as E2. pose proof (Ex AZ) as E3. clear Ex Or.
  rewrite Hy in E1, E2, E3. set (q := dot3 (col Rd AX) (heading yaw)) in *. set (p := dot3 (col Rd AZ) (heading yaw)) in *.
  pose proof (sin2_cos2 yaw) as T. unfold Rsqr in T.
  assert (Q : q = m00 Rd * cos yaw + m10 Rd * sin yaw) by (unfold q, dot3, col, heading; cbn; ring).
  assert (P : p = m02 Rd * cos yaw + m12 Rd * sin yaw) by (unfold p, dot3, col, heading; cbn; ring).
  clearbody q p. unfold heading, col, dot3, cross3, ent in *. cbn [vx vy vz pr] in *.
  set (C := cos yaw) in *. set (S := sin yaw) in *. clearbody C S.
  split; [exact Hx|]. split.
  { assert (X : q * (m00 Rd * C + m10 Rd * S) + p * (m02 Rd * C + m12 Rd * S) = C * (q * m00 Rd + p * m02 Rd) + S * (q * m10 Rd + p * m12 Rd)) by ring.
    rewrite <- Q, <- P in X. rewrite X.
    replace (q * m00 Rd + p * m02 Rd) with C by lra. replace (q * m10 Rd + p * m12 Rd) with S by lra. lra. }
  split; [lra|]. split; [|exact O2].
  rewrite <- Cr. replace (q * (m02 Rd * m10 Rd - m12 Rd * m00 Rd)) with (m02 Rd * (q * m10 Rd) - m12 Rd * (q * m00 Rd)) by ring.
  replace (q * m10 Rd) with (S - p * m12 Rd) by lra. replace (q * m00 Rd) with (C - p * m02 Rd) by lra. ring.
Qed.

(** The commanded roll and pitch rates of a level vehicle. *)
Lemma level_rates (c : Ctl R) op cur kx ky kz : uses_acc op = true -> att_of op = rot_z cur ->
  own_gains (ac_kp (ct_acro c)) kx ky kz -> 0 < vz (force_of c op) ->
  let f := force_of c op in let l := len3 f in let d := yaw_of op - cur in let w := get_desired_angular_velocity (ctl_step c op) in
  0 < l /\ exists q p, 0 < q /\ q * q + p * p = 1 /\
  l * p = ahead cur f * cos d + leftward cur f * sin d /\ l * l = ahead cur f * ahead cur f + leftward cur f * leftward cur f + vz f * vz f /\
  l * (q * vy w) = ky / 2 * (q * ahead cur f + p * vz f) /\
  l * (q * vx w) = - (kx / 2 * (q * leftward cur f - (ahead cur f * sin d - leftward cur f * cos d))).
Proof.
  intros U At K Fz. cbv zeta. set (f := force_of c op) in *. unfold own_gains in K.
  assert (L : 0 < len3 f).
  { unfold len3. apply sqrt_lt_R0. unfold dot3. nra. }
  split; [exact L|].
  assert (Al : 0 <= along_z (att_of op) f).
  { rewrite At. unfold along_z, len3, dot3, rot_z, col, ent. cbn [vx vy vz m02 m12 m22].
    replace (0 * 0 + 0 * 0 + 1 * 1) with 1 by ring. rewrite sqrt_1. lra. }
  assert (Np : ~ parallel f (heading (yaw_of op))).
  { intros Pa. pose proof (Pa AX) as P1. pose proof (Pa AY) as P2. unfold cross3, heading in P1, P2. cbn [vx vy vz] in P1, P2.
    pose proof (sin2_cos2 (yaw_of op)) as T. unfold Rsqr in T. assert (sin (yaw_of op) = 0) by nra. assert (cos (yaw_of op) = 0) by nra. nra. }
  destruct (frame_rates c op U L Al Np) as (Rd & Fr & _ & W). fold f in Fr.
  destruct (frame_facts _ _ _ Fr) as (Q & Qp & Xz & Yz & Zn). pose proof Fr as (_ & Hz & _).
  set (q := dot3 (col Rd AX) (heading (yaw_of op))) in *. set (p := dot3 (col Rd AZ) (heading (yaw_of op))) in *.
  pose proof (W AX) as WX. pose proof (W AY) as WY. clear W.
  set (w := get_desired_angular_velocity (ctl_step c op)) in *.
  pose proof (Hz AX) as ZX. pose proof (Hz AY) as ZY. pose proof (Hz AZ) as ZZ. clear Hz.
  exists q, p. split; [exact Q|]. split; [exact Qp|].
  assert (Ll : len3 f * len3 f = vx f * vx f + vy f * vy f + vz f * vz f).
  { unfold len3. rewrite sqrt_sqrt; [reflexivity|]. unfold dot3. nra. }
  rewrite At, K in WX, WY. unfold prop_rates, mat_vec, vec_of, axis_err, rot_z, col, dot3, ent in WX, WY. cbn [pr vx vy vz m00 m01 m02 m10 m11 m12 m20 m21 m22] in WX, WY.
  unfold col, ent in Xz, Yz, Zn, ZX, ZY, ZZ. cbn [pr vx vy vz] in Xz, Yz, Zn, ZX, ZY, ZZ.
  assert (Ep : p = m02 Rd * cos (yaw_of op) + m12 Rd * sin (yaw_of op)) by (unfold p, dot3, col, heading, ent; cbn [vx vy vz]; ring).
  clearbody q p w. set (l := len3 f) in *. clearbody l. clear Fr Np Al At K U.
  unfold ahead, leftward. rewrite cos_minus, sin_minus. pose proof (sin2_cos2 cur) as T. unfold Rsqr in T.
  set (y := yaw_of op) in *. clearbody y. set (C := cos cur) in *. set (S := sin cur) in *. set (Cy := cos y) in *. set (Sy := sin y) in *. clearbody C S Cy Sy.
  set (zx := m02 Rd) in *. set (zy := m12 Rd) in *. set (zz := m22 Rd) in *. set (xz := m20 Rd) in *. set (yz := m21 Rd) in *. clearbody zx zy zz xz yz.
  set (fx := vx f) in *. set (fy := vy f) in *. set (fz := vz f) in *. clearbody fx fy fz.
  assert (U1 : (fx * C + fy * S) * (Cy * C + Sy * S) + (fy * C - fx * S) * (Sy * C - Cy * S) = fx * Cy + fy * Sy).
  { replace (fx * Cy + fy * Sy) with ((fx * Cy + fy * Sy) * (S * S + C * C)) by (rewrite T; ring). ring. }
  assert (U2 : (fx * C + fy * S) * (Sy * C - Cy * S) - (fy * C - fx * S) * (Cy * C + Sy * S) = fx * Sy - fy * Cy).
  { replace (fx * Sy - fy * Cy) with ((fx * Sy - fy * Cy) * (S * S + C * C)) by (rewrite T; ring). ring. }
  assert (U3 : (fx * C + fy * S) * (fx * C + fy * S) + (fy * C - fx * S) * (fy * C - fx * S) = fx * fx + fy * fy).
  { replace (fx * fx + fy * fy) with ((fx * fx + fy * fy) * (S * S + C * C)) by (rewrite T; ring). ring. }
  assert (Lp : l * p = fx * Cy + fy * Sy) by (rewrite Ep, <- ZX, <- ZY; ring).
  split; [rewrite U1; exact Lp|]. split; [rewrite U3; exact Ll|]. split.
  - rewrite WY. replace (l * (q * _)) with (ky / 2 * (q * ((l * zx) * C + (l * zy) * S) - l * (q * xz))) by field.
    rewrite Xz, ZX, ZY. replace (l * - (p * zz)) with (- (p * (l * zz))) by ring. rewrite ZZ. ring.
  - rewrite U2, WX. replace (l * (q * _)) with (- (kx / 2 * (q * ((l * zy) * C - (l * zx) * S) - l * (q * yz)))) by field.
    rewrite Yz, ZX, ZY. replace (l * (zx * Sy - zy * Cy)) with ((l * zx) * Sy - (l * zy) * Cy) by ring. rewrite ZX, ZY. ring.
Qed.

(** ** Heading as demanded *)
Lemma lean_signs (c : Ctl R) op kx ky kz : uses_acc op = true -> att_of op = rot_z (yaw_of op) ->
  own_gains (ac_kp (ct_acro c)) kx ky kz -> 0 < kx -> 0 < ky -> 0 < vz (force_of c op) ->
  let f := force_of c op in let w := get_desired_angular_velocity (ctl_step c op) in
  (0 < ahead (yaw_of op) f <-> 0 < vy w) /\ (ahead (yaw_of op) f < 0 <-> vy w < 0) /\
  (0 < leftward (yaw_of op) f <-> vx w < 0) /\ (leftward (yaw_of op) f < 0 <-> 0 < vx w).
Proof.
  intros U At K Kx Ky Fz. cbv zeta.
  destruct (level_rates c op (yaw_of op) kx ky kz U At K Fz) as (L & q & p & Q & Qp & Lp & Ll & Wy & Wx).
  set (f := force_of c op) in *. set (w := get_desired_angular_velocity (ctl_step c op)) in *. set (a := ahead _ f) in *. set (b := leftward _ f) in *.
  set (l := len3 f) in *. clearbody w a b l.
  replace (yaw_of op - yaw_of op) with 0 in * by ring. rewrite cos_0, sin_0 in *.
  assert (P : p = a / l) by (apply Rmult_eq_reg_l with l; [rewrite Lp; field; lra|lra]).
  assert (Ey : vy w = a * (ky / 2 * (q + vz f / l) / (l * q))).
  { apply Rmult_eq_reg_l with (l * q); [|nra]. rewrite Rmult_assoc, Wy, P. field. split; lra. }
  assert (Ex : vx w = - (b * (kx / 2 * (q + 1) / (l * q)))).
  { apply Rmult_eq_reg_l with (l * q); [|nra]. rewrite Rmult_assoc, Wx. field. split; lra. }
  assert (Py : 0 < ky / 2 * (q + vz f / l) / (l * q)).
  { apply Rdiv_lt_0_compat; [|nra]. apply Rmult_lt_0_compat; [lra|]. assert (0 < vz f / l) by (apply Rdiv_lt_0_compat; assumption). lra. }
  assert (Px : 0 < kx / 2 * (q + 1) / (l * q)).
  { apply Rdiv_lt_0_compat; [|nra]. apply Rmult_lt_0_compat; lra. }
  rewrite Ey, Ex. set (u := ky / 2 * _ / _) in *. set (v := kx / 2 * _ / _) in *. clearbody u v. clear -Py Px.
  split; [|split; [|split]]; split; intros; nra.
Qed.

(** ** Any heading within a quarter turn of the demanded one *)
Lemma leans (c : Ctl R) op cur k kz path t : uses_acc op = true -> att_of op = rot_z cur ->
  own_gains (ac_kp (ct_acro c)) k k kz -> 0 < k ->
  mild_tilt (yaw_of op - cur) (force_of c op) -> sideways (force_of c op) ->
  path t = att_of op -> turning path t (get_desired_angular_velocity (ctl_step c op)) ->
  leans_along path t (force_of c op).
Proof.
  intros U At K Kp (Fz & Tl & Cd) Nz Pt Tu.
  destruct (level_rates c op cur k k kz U At K Fz) as (L & q & p & Q & Qp & Lp & Ll & Wy & Wx).
  set (f := force_of c op) in *. set (w := get_desired_angular_velocity (ctl_step c op)) in *.
  assert (A3 : 0 < ahead cur f * ahead cur f + leftward cur f * leftward cur f).
  { unfold ahead, leftward. pose proof (sin2_cos2 cur) as T. unfold Rsqr in T.
    replace ((vx f * cos cur + vy f * sin cur) * (vx f * cos cur + vy f * sin cur) + (vy f * cos cur - vx f * sin cur) * (vy f * cos cur - vx f * sin cur))
      with ((vx f * vx f + vy f * vy f) * (sin cur * sin cur + cos cur * cos cur)) by ring. rewrite T. destruct Nz; nra. }
  destruct (Tu AX) as (_ & _ & D1). destruct (Tu AY) as (_ & _ & D2).
  exists (vy w * ahead cur f - vx w * leftward cur f). split.
  - unfold lean.
    replace (vy w * ahead cur f - vx w * leftward cur f) with
      (vx f * (vy w * ent (path t) AX AX - vx w * ent (path t) AX AY) + vy f * (vy w * ent (path t) AY AX - vx w * ent (path t) AY AY))
      by (rewrite Pt, At; unfold ahead, leftward, rot_z, ent; cbn [m00 m01 m10 m11]; ring).
    pose proof (derivable_pt_lim_plus _ _ t _ _ (derivable_pt_lim_scal _ (vx f) t _ D1) (derivable_pt_lim_scal _ (vy f) t _ D2)) as D.
    intros eps He. destruct (D eps He) as [del Hd]. exists del. intros h H0 H1. specialize (Hd h H0 H1).
    unfold plus_fct, mult_real_fct in Hd. rewrite !(Rmult_comm _ (vx f)), !(Rmult_comm _ (vy f)). exact Hd.
  - clear D1 D2 Tu Pt At K U. set (a := ahead cur f) in *. set (b := leftward cur f) in *. set (l := len3 f) in *. set (z := vz f) in *.
    set (wx := vx w) in *. set (wy := vy w) in *. set (cd := cos (yaw_of op - cur)) in *. set (sd := sin (yaw_of op - cur)) in *.
    assert (T : sd * sd + cd * cd = 1) by (pose proof (sin2_cos2 (yaw_of op - cur)) as T; unfold Rsqr in T; exact T).
    assert (S1 : - 1 <= sd <= 1) by (pose proof (SIN_bound (yaw_of op - cur)); exact H).
    clearbody wx wy a b l z cd sd. clear Nz w f.
    (* q is at least the cosine of the demanded tilt *)
    assert (Qz : z <= l * q).
    { assert (l * p * (l * p) <= a * a + b * b) by (rewrite Lp; pose proof (Rle_0_sqr (a * sd - b * cd)) as Sq; unfold Rsqr in Sq;
        replace (a * a + b * b) with ((a * a + b * b) * (sd * sd + cd * cd)) by (rewrite T; ring); lra).
      assert (z * z <= (l * q) * (l * q)) by (replace ((l * q) * (l * q)) with (l * l * (q * q + p * p) - l * p * (l * p)) by ring; rewrite Qp; lra).
      assert (0 < l * q) by nra. nra. }
    assert (Tot : l * (l * (q * (wy * a - wx * b))) = k / 2 * (l * q * (a * a + b * b) + (cd * (z * (a * a) + l * (b * b)) - a * b * sd * (l - z)))).
    { replace (l * (l * (q * (wy * a - wx * b)))) with (l * ((l * (q * wy)) * a - (l * (q * wx)) * b)) by ring. rewrite Wy, Wx.
      replace (l * (k / 2 * (q * a + p * z) * a - - (k / 2 * (q * b - (a * sd - b * cd))) * b)) with
        (k / 2 * (l * q * (a * a) + (l * p) * z * a + l * q * (b * b) - l * (a * sd - b * cd) * b)) by ring. rewrite Lp. ring. }
    assert (zl : z <= l) by (clear - Ll A3 Fz L; nra).
    assert (AB : - (a * a + b * b) <= 2 * (a * b * sd) <= a * a + b * b).
    { pose proof (Rle_0_sqr (a - b)) as G1. pose proof (Rle_0_sqr (a + b)) as G2. unfold Rsqr in G1, G2.
      assert (G3 : Rabs (2 * (a * b * sd)) <= a * a + b * b); [|pose proof (Rle_abs (2 * (a * b * sd))) as G4; pose proof (Rle_abs (- (2 * (a * b * sd)))) as G5; rewrite Rabs_Ropp in G5; lra].
      rewrite !Rabs_mult, (Rabs_pos_eq 2) by lra. assert (Rabs sd <= 1) by (apply Rabs_le; lra).
      assert (2 * (Rabs a * Rabs b) <= a * a + b * b).
      { rewrite <- Rabs_mult. destruct (Rle_dec 0 (a * b)); [rewrite Rabs_pos_eq by assumption|rewrite Rabs_left by lra]; lra. }
      pose proof (Rabs_pos a). pose proof (Rabs_pos b). assert (0 <= Rabs a * Rabs b) by (apply Rmult_le_pos; assumption).
      assert (Rabs a * Rabs b * Rabs sd <= Rabs a * Rabs b * 1) by (apply Rmult_le_compat_l; assumption). lra. }
    assert (Main : 0 < l * q * (a * a + b * b) + (cd * (z * (a * a) + l * (b * b)) - a * b * sd * (l - z))).
    { assert (a * b * sd * (l - z) <= (a * a + b * b) / 2 * (l - z)) by (apply Rmult_le_compat_r; lra).
      assert (z * (a * a + b * b) <= l * q * (a * a + b * b)) by (apply Rmult_le_compat_r; lra).
      destruct (Rle_dec 0 cd) as [Cp|Cn].
      - assert (0 <= cd * (z * (a * a) + l * (b * b))) by (apply Rmult_le_pos; [exact Cp|]; nra).
        assert (0 < (a * a + b * b) * (3 * z - l)) by (apply Rmult_lt_0_compat; lra). lra.
      - assert (Up : z * (a * a) + l * (b * b) <= l * (a * a + b * b)) by nra.
        assert (- cd * (z * (a * a) + l * (b * b)) <= - cd * (l * (a * a + b * b))) by (apply Rmult_le_compat_l; lra).
        assert (0 < (a * a + b * b) * (3 * z + 2 * (l * cd) - l)) by (apply Rmult_lt_0_compat; lra). lra. }
    assert (0 < l * (l * (q * (wy * a - wx * b)))) by (rewrite Tot; apply Rmult_lt_0_compat; lra).
    assert (Lq : 0 < l * (l * q)) by (repeat apply Rmult_lt_0_compat; assumption).
    apply Rmult_lt_reg_l with (l * (l * q)); [exact Lq|]. rewrite Rmult_0_r.
    replace (l * (l * q) * (wy * a - wx * b)) with (l * (l * (q * (wy * a - wx * b)))) by ring. assumption.
Qed.

(** ** Velocity and position *)
Lemma first_along p dt e : Reached p -> 0 < dt -> even_loop p dt e ->
  exists k, 0 < k /\ vx (pid_output (pid_step (pid_reset p) (OpCompute dt e))) = k * vx e /\
    vy (pid_output (pid_step (pid_reset p) (OpCompute dt e))) = k * vy e.
Proof.
  intros Hr Hd (Kx & Ky & Ix & Iy & Aw & An & St).
  assert (Hr' : Reached (pid_reset p)).
  { destruct Hr as (pp & ops & ->). exists pp, (ops ++ [OpReset]). unfold pid_run. rewrite fold_left_app. reflexivity. }
  apply reached_inv in Hr as (_ & Dp & Di & Dd).
  set (p' := pid_step (pid_reset p) (OpCompute dt e)).
  assert (D : forall a, pr a (pid_der_part p') = 0).
  { intros a. subst p'. cbn [pid_step pid_compute pid_der_part pid_s ps_cd pid_reset pid_c]. rewrite diag_ok_mul by exact Dd.
    rewrite pid_filt_pr. cbn [ps_init ps_reset ps_first ps_perr ps_filt]. rewrite pr_v0. unfold Rdiv. ring. }
  assert (P : forall a, pr a (pid_prop_part p') = pr a (pid_kp p) * pr a e).
  { intros a. subst p'. cbn [pid_step pid_compute pid_prop_part pid_s ps_cp pid_reset pid_c]. rewrite diag_ok_mul by exact Dp. reflexivity. }
  assert (I : forall a, a <> AZ -> pr a (pid_int_part p') = pr a (pid_ki p) * (pr a e * dt)).
  { intros a Na. subst p'. cbn [pid_step pid_compute pid_int_part pid_s ps_ci pid_reset pid_c]. rewrite diag_ok_mul by exact Di. rewrite first_acc by exact Aw.
    change (mdiagv (pc_ki (pid_c p))) with (pid_ki p). destruct (veqb (pc_aw (pid_c p)) v0) eqn:E; [reflexivity|]. f_equal.
    destruct An as [An|[Ax' Ay']].
    - exfalso. assert (E' : veqb (pc_aw (pid_c p)) v0 = true) by (apply veqb_v0_true; exact An). rewrite E' in E. discriminate.
    - assert (B : Rabs (pr a e * dt) <= pr a (pid_aw p)) by (destruct a; [exact Ax'|exact Ay'|contradiction]).
      unfold pid_aw in B. pose proof (Rle_abs (pr a e * dt)) as B1. pose proof (Rle_abs (- (pr a e * dt))) as B2. rewrite Rabs_Ropp in B2.
      apply limited_id. lra. }
  set (g := vx (pid_kp p) + vx (pid_ki p) * dt).
  assert (G : 0 < g) by (unfold g; assert (0 <= vx (pid_ki p) * dt) by (apply Rmult_le_pos; lra); lra).
  assert (RX : pr AX (pid_prop_part p') + pr AX (pid_int_part p') + pr AX (pid_der_part p') = g * vx e).
  { rewrite P, D, I by discriminate. unfold g. cbn [pr]. ring. }
  assert (RY : pr AY (pid_prop_part p') + pr AY (pid_int_part p') + pr AY (pid_der_part p') = g * vy e).
  { rewrite P, D, I by discriminate. unfold g. cbn [pr]. rewrite Ky, Iy. ring. }
  destruct (pid_sat_on p) eqn:Es.
  - destruct (St eq_refl) as [Pf Lm].
    assert (Az : around_zero (fst (pid_limits (pid_reset p))) (snd (pid_limits (pid_reset p)))).
    { intros a. pose proof (Lm a) as [Q1 Q2]. split; apply Rlt_le; [exact Q1|exact Q2]. }
    destruct (prop_direction (pid_reset p) (OpCompute dt e) eq_refl Es Pf Az) as (k & K01 & Out & _ & Mx). fold p' in Out, Mx.
    assert (Kp : 0 < k).
    { set (raw := fun a => pr a (pid_prop_part p') + pr a (pid_int_part p') + pr a (pid_der_part p')) in *.
      assert (Sm : exists k', 0 < k' <= 1 /\ forall a, pr a (snd (pid_limits p)) <= k' * raw a <= pr a (fst (pid_limits p))).
      { assert (One : forall lo up r, lo < 0 < up -> exists k', 0 < k' <= 1 /\ forall h, 0 <= h <= k' -> lo <= h * r <= up).
        { intros lo up r [L U]. exists (Rmin 1 (Rmin (up / (Rabs r + 1)) (- lo / (Rabs r + 1)))). pose proof (Rabs_pos r) as Pr.
          assert (0 < up / (Rabs r + 1)) by (apply Rdiv_lt_0_compat; lra). assert (0 < - lo / (Rabs r + 1)) by (apply Rdiv_lt_0_compat; lra).
          split; [split; [apply Rmin_glb_lt; [lra|apply Rmin_glb_lt; assumption]|apply Rmin_l]|].
          intros h [h0 h1]. pose proof (Rmin_r 1 (Rmin (up / (Rabs r + 1)) (- lo / (Rabs r + 1)))) as M1.
          pose proof (Rmin_l (up / (Rabs r + 1)) (- lo / (Rabs r + 1))) as M2. pose proof (Rmin_r (up / (Rabs r + 1)) (- lo / (Rabs r + 1))) as M3.
          assert (H1 : h * (Rabs r + 1) <= up).
          { apply Rle_trans with (up / (Rabs r + 1) * (Rabs r + 1)); [apply Rmult_le_compat_r; lra|right; field; lra]. }
          assert (H2 : h * (Rabs r + 1) <= - lo).
          { apply Rle_trans with (- lo / (Rabs r + 1) * (Rabs r + 1)); [apply Rmult_le_compat_r; lra|right; field; lra]. }
          pose proof (Rle_abs r). pose proof (Rle_abs (- r)). rewrite Rabs_Ropp in *.
          assert (h * r <= h * Rabs r) by (apply Rmult_le_compat_l; lra). assert (h * - r <= h * Rabs r) by (apply Rmult_le_compat_l; lra). lra. }
        destruct (One _ _ (raw AX) (Lm AX)) as (kx & Px & Hx). destruct (One _ _ (raw AY) (Lm AY)) as (ky & Py & Hy). destruct (One _ _ (raw AZ) (Lm AZ)) as (kz & Pz & Hz).
        exists (Rmin kx (Rmin ky kz)). pose proof (Rmin_l kx (Rmin ky kz)). pose proof (Rmin_r kx (Rmin ky kz)). pose proof (Rmin_l ky kz). pose proof (Rmin_r ky kz).
        assert (0 < Rmin kx (Rmin ky kz)) by (apply Rmin_glb_lt; [lra|apply Rmin_glb_lt; lra]).
        split; [lra|]. intros a. destruct a; [apply Hx|apply Hy|apply Hz]; lra. }
      destruct Sm as (k' & Pk & Ik). assert (k' <= k); [apply Mx; [lra|exact Ik]|lra]. }
    exists (k * g). split; [apply Rmult_lt_0_compat; assumption|]. split.
    + pose proof (Out AX) as O. cbv beta in O. rewrite RX in O. cbn [pr] in O. rewrite O. ring.
    + pose proof (Out AY) as O. cbv beta in O. rewrite RY in O. cbn [pr] in O. rewrite O. ring.
  - exists g. split; [exact G|].
    assert (Out : forall a, pr a (pid_output p') = pr a (pid_prop_part p') + pr a (pid_int_part p') + pr a (pid_der_part p')).
    { intros a. subst p'. cbn [pid_step pid_compute pid_output pid_prop_part pid_int_part pid_der_part pid_s ps_out ps_cp ps_ci ps_cd pid_reset pid_c].
      unfold pid_out. unfold pid_sat_on in Es. rewrite Es, !pr_vadd. reflexivity. }
    split; [pose proof (Out AX) as O; rewrite RX in O; exact O|pose proof (Out AY) as O; rewrite RY in O; exact O].
Qed.

Lemma leans_scale path t k f g : 0 < k -> vx f = k * vx g -> vy f = k * vy g -> leans_along path t f -> leans_along path t g.
Proof.
  intros Kp X Y (r & D & P). exists (/ k * r). split; [|apply Rmult_lt_0_compat; [apply Rinv_0_lt_compat|]; assumption].
  apply derivable_pt_lim_ext with (f := fun s => / k * lean (path s) f); [|apply (derivable_pt_lim_scal _ (/ k) t r D)].
  intros s. unfold lean. rewrite X, Y. field. lra.
Qed.

Lemma leans_error (c : Ctl R) op cur k kz path t kk e : uses_acc op = true -> att_of op = rot_z cur ->
  own_gains (ac_kp (ct_acro c)) k k kz -> 0 < k -> 0 < ac_mass (ct_acro c) -> vx (ac_grav (ct_acro c)) = 0 -> vy (ac_grav (ct_acro c)) = 0 ->
  mild_tilt (yaw_of op - cur) (force_of c op) -> sideways e -> 0 < kk ->
  vx (get_desired_linear_acceleration (ctl_step c op)) = kk * vx e -> vy (get_desired_linear_acceleration (ctl_step c op)) = kk * vy e ->
  path t = att_of op -> turning path t (get_desired_angular_velocity (ctl_step c op)) ->
  leans_along path t e.
Proof.
  intros U At K Kp M Gx Gy Ml Sd Kk X Y Pt Tu.
  assert (P : 0 < ac_mass (ct_acro c) * kk) by (apply Rmult_lt_0_compat; assumption).
  assert (Fx : vx (force_of c op) = ac_mass (ct_acro c) * kk * vx e) by (unfold force_of, needed_force; cbn [vx]; rewrite X, Gx; ring).
  assert (Fy : vy (force_of c op) = ac_mass (ct_acro c) * kk * vy e) by (unfold force_of, needed_force; cbn [vy]; rewrite Y, Gy; ring).
  apply (leans_scale path t (ac_mass (ct_acro c) * kk) (force_of c op) e P Fx Fy).
  apply (leans c op cur k kz path t U At K Kp Ml); [|exact Pt|exact Tu].
  destruct Sd as [S0|S0]; [left; rewrite Fx|right; rewrite Fy]; apply Rmult_integral_contrapositive_currified; lra.
Qed.

Lemma leans_velocity n (c0 : Ctl R) cv cw dv yaw dt cur k kz path t : CtlReached n c0 -> 0 < dt ->
  let c := ctl_step c0 CReset in let op := CVel cv (rot_z cur) cw dv yaw dt in
  even_loop (get_pid WVel c0) dt (vsub dv cv) ->
  own_gains (ac_kp (ct_acro c)) k k kz -> 0 < k -> 0 < ac_mass (ct_acro c) -> vx (ac_grav (ct_acro c)) = 0 -> vy (ac_grav (ct_acro c)) = 0 ->
  mild_tilt (yaw - cur) (force_of c op) -> sideways (vsub dv cv) ->
  path t = rot_z cur -> turning path t (get_desired_angular_velocity (ctl_step c op)) ->
  leans_along path t (vsub dv cv).
Proof.
  cbv zeta. intros Hr Hd Ev K Kp M Gx Gy Ml Sd Pt Tu. set (c := ctl_step c0 CReset) in *.
  destruct (first_along _ dt _ (get_pid_reached n c0 WVel Hr) Hd Ev) as (kk & Kk & X & Y).
  destruct (vel_records c cv (rot_z cur) cw dv yaw dt) as (_ & A & _ & _ & _ & V). rewrite V in A.
  change (get_pid WVel c) with (pid_reset (get_pid WVel c0)) in A. rewrite <- A in X, Y.
  exact (leans_error c (CVel cv (rot_z cur) cw dv yaw dt) cur k kz path t kk _ eq_refl eq_refl K Kp M Gx Gy Ml Sd Kk X Y Pt Tu).
Qed.

Lemma vsub_none (u : V3 R) : vsub u (mkV 0 0 0) = u.
Proof. destruct u as [a b d]. unfold vsub, vmap2. unR. cbn [vx vy vz]. f_equal; ring. Qed.

Lemma leans_position n (c0 : Ctl R) cp cw dp yaw dt cur k kz path t : CtlReached n c0 -> 0 < dt ->
  let c := ctl_step c0 CReset in let op := CPos cp (rot_z cur) (mkV 0 0 0) cw dp yaw dt in
  even_loop (get_pid WPos c0) dt (vsub dp cp) ->
  even_loop (get_pid WVel c0) dt (get_desired_linear_velocity (ctl_step c op)) ->
  own_gains (ac_kp (ct_acro c)) k k kz -> 0 < k -> 0 < ac_mass (ct_acro c) -> vx (ac_grav (ct_acro c)) = 0 -> vy (ac_grav (ct_acro c)) = 0 ->
  mild_tilt (yaw - cur) (force_of c op) -> sideways (vsub dp cp) ->
  path t = rot_z cur -> turning path t (get_desired_angular_velocity (ctl_step c op)) ->
  leans_along path t (vsub dp cp).
Proof.
  cbv zeta. intros Hr Hd Ep Ev K Kp M Gx Gy Ml Sd Pt Tu. set (c := ctl_step c0 CReset) in *.
  destruct (first_along _ dt _ (get_pid_reached n c0 WPos Hr) Hd Ep) as (k1 & K1 & X1 & Y1).
  destruct (pos_records c cp (rot_z cur) (mkV 0 0 0) cw dp yaw dt) as (_ & B & A & P & V & _).
  rewrite B in Ev. rewrite V in A. rewrite P in *.
  change (get_pid WVel c) with (pid_reset (get_pid WVel c0)) in A. change (get_pid WPos c) with (pid_reset (get_pid WPos c0)) in *.
  set (u := pid_output (pid_step (pid_reset (get_pid WPos c0)) (OpCompute dt (vsub dp cp)))) in *.
  assert (Z : vsub u (mkV 0 0 0) = u) by (apply vsub_none).
  rewrite Z in A.
  destruct (first_along _ dt _ (get_pid_reached n c0 WVel Hr) Hd Ev) as (k2 & K2 & X2 & Y2).
  rewrite <- A in X2, Y2. rewrite X1, <- Rmult_assoc in X2. rewrite Y1, <- Rmult_assoc in Y2.
  exact (leans_error c (CPos cp (rot_z cur) (mkV 0 0 0) cw dp yaw dt) cur k kz path t (k2 * k1) _ eq_refl eq_refl K Kp M Gx Gy Ml Sd (Rmult_lt_0_compat _ _ K2 K1) X2 Y2 Pt Tu).
Qed.
