(** Interval reasoning for binary32 computations: bounds that are binary32 numbers themselves survive
    rounding.  Table lookups with bounded cells are bounded. *)
Require Import ZArith Reals Lia Lra Bool List.
Require Import Coq.Floats.SpecFloat.
From Flocq Require Import Core.
From Verif Require Import Res Word F32 F32Flocq TimeProofs Table TableSpec TableProofs AngleProofs.
Open Scope Z_scope.
Ltac Zify.zify_post_hook ::= idtac.

(** A finite float between two reals. *)
Definition iv (x : f32) (lo hi : R) : Prop := vf x /\ fin x /\ (lo <= R_ x <= hi)%R.
(** A real that is a binary32 number well inside the range. *)
Definition rep (r : R) : Prop := rnd r = r /\ (Rabs r <= bpow radix2 100)%R.

Lemma rep_Z z : Z.abs z <= 2 ^ 24 -> rep (IZR z).
Proof.
  intros H. split; [apply round_generic; [typeclasses eauto|now apply generic_Z]|].
  rewrite <- abs_IZR. eapply Rle_trans; [apply IZR_le; exact H|]. change (IZR (2^24)) with (bpow radix2 24). apply bpow_le. lia.
Qed.
Lemma rep_grid m e : Z.abs m <= 2 ^ 24 -> -149 <= e <= 70 -> rep (IZR m * bpow radix2 e).
Proof.
  intros H E. split; [apply rnd_grid; lia|]. rewrite Rabs_mult, (Rabs_pos_eq (bpow radix2 e)) by apply bpow_ge_0.
  rewrite <- abs_IZR. eapply Rle_trans. { apply Rmult_le_compat_r; [apply bpow_ge_0|apply IZR_le; exact H]. }
  change (IZR (2^24)) with (bpow radix2 24). rewrite <- bpow_plus. apply bpow_le. lia.
Qed.
Lemma rep_bpow e : -149 <= e <= 70 -> rep (bpow radix2 e).
Proof. intros. replace (bpow radix2 e) with (IZR 1 * bpow radix2 e)%R by ring. apply rep_grid; lia. Qed.

Lemma rep_between z lo hi : rep lo -> rep hi -> (lo <= z <= hi)%R ->
  (lo <= rnd z <= hi)%R /\ (Rabs z <= bpow radix2 100)%R.
Proof.
  intros [A B] [C D] [E F]. split.
  - split; [rewrite <- A|rewrite <- C]; now apply rnd_le.
  - apply Rabs_le_inv in B. apply Rabs_le_inv in D. apply Rabs_le. lra.
Qed.

Lemma iv_vf x lo hi : iv x lo hi -> vf x. Proof. now intros (A & _). Qed.
Lemma iv_fin x lo hi : iv x lo hi -> fin x. Proof. now intros (_ & A & _). Qed.
Lemma iv_weak x lo hi lo' hi' : iv x lo hi -> (lo' <= lo)%R -> (hi <= hi')%R -> iv x lo' hi'.
Proof. intros (A & B & C) L H. split; [auto|split; [auto|lra]]. Qed.

Lemma iv_add x y a b c d lo hi : iv x a b -> iv y c d -> rep lo -> rep hi -> (lo <= a + c)%R -> (b + d <= hi)%R -> iv (fadd x y) lo hi.
Proof.
  intros (Vx & Fx & Bx) (Vy & Fy & By) Rl Rh L H. destruct (rep_between (R_ x + R_ y) lo hi) as [B N]; auto; [lra|].
  destruct (fadd_ok x y 100) as [E F]; auto; [lia|]. split; [auto with vf|]. split; [auto|]. now rewrite E.
Qed.
Lemma iv_sub x y a b c d lo hi : iv x a b -> iv y c d -> rep lo -> rep hi -> (lo <= a - d)%R -> (b - c <= hi)%R -> iv (fsub x y) lo hi.
Proof.
  intros (Vx & Fx & Bx) (Vy & Fy & By) Rl Rh L H. destruct (rep_between (R_ x - R_ y) lo hi) as [B N]; auto; [lra|].
  destruct (fsub_ok x y 100) as [E F]; auto; [lia|]. split; [auto with vf|]. split; [auto|]. now rewrite E.
Qed.
Lemma iv_mul x y a b c d lo hi : iv x a b -> iv y c d -> rep lo -> rep hi ->
  (0 <= a)%R -> (0 <= c)%R -> (lo <= a * c)%R -> (b * d <= hi)%R -> iv (fmul x y) lo hi.
Proof.
  intros (Vx & Fx & Bx) (Vy & Fy & By) Rl Rh A C L H.
  assert (a * c <= R_ x * R_ y)%R by (apply Rmult_le_compat; lra).
  assert (R_ x * R_ y <= b * d)%R by (apply Rmult_le_compat; lra).
  destruct (rep_between (R_ x * R_ y) lo hi) as [B N]; auto; [lra|].
  destruct (fmul_ok x y 100) as [E F]; auto; [lia|]. split; [auto with vf|]. split; [auto|]. now rewrite E.
Qed.
Lemma iv_mulc x y a b c lo hi : iv x a b -> iv y c c -> rep lo -> rep hi -> (0 <= c)%R -> (lo <= a * c)%R -> (b * c <= hi)%R -> iv (fmul x y) lo hi.
Proof.
  intros (Vx & Fx & Bx) (Vy & Fy & By) Rl Rh C L H. assert (Ey : R_ y = c) by lra.
  assert (a * c <= R_ x * R_ y)%R by (rewrite Ey; apply Rmult_le_compat_r; lra).
  assert (R_ x * R_ y <= b * c)%R by (rewrite Ey; apply Rmult_le_compat_r; lra).
  destruct (rep_between (R_ x * R_ y) lo hi) as [B N]; auto; [lra|].
  destruct (fmul_ok x y 100) as [E F]; auto; [lia|]. split; [auto with vf|]. split; [auto|]. now rewrite E.
Qed.
Lemma iv_div x y a b c d lo hi : iv x a b -> iv y c d -> rep lo -> rep hi ->
  (0 <= a)%R -> (0 < c)%R -> (0 <= lo)%R -> (lo * d <= a)%R -> (b <= hi * c)%R -> iv (fdiv x y) lo hi.
Proof.
  intros (Vx & Fx & Bx) (Vy & Fy & By) Rl Rh A C L0 L H.
  assert (K : (lo <= R_ x / R_ y <= hi)%R).
  { assert (0 <= hi)%R.
    { destruct (Rlt_le_dec hi 0) as [N|N]; [|exact N].
      assert (hi * c < 0)%R. { rewrite <- (Rmult_0_l c). apply Rmult_lt_compat_r; lra. } lra. }
    split; apply Rmult_le_reg_r with (R_ y); try lra;
      unfold Rdiv; rewrite Rmult_assoc, Rinv_l, Rmult_1_r by lra.
    - apply Rle_trans with (lo * d)%R; [apply Rmult_le_compat_l; lra|lra].
    - apply Rle_trans with (hi * c)%R; [lra|apply Rmult_le_compat_l; lra]. }
  destruct (rep_between (R_ x / R_ y) lo hi) as [B N]; auto.
  destruct (fdiv_ok x y 100) as [E F]; auto; [lia|lra|]. split; [auto with vf|]. split; [auto|]. now rewrite E.
Qed.
(** Division by a positive constant, any sign of the dividend. *)
Lemma iv_divc x y a b c lo hi : iv x a b -> iv y c c -> rep lo -> rep hi ->
  (0 < c)%R -> (lo * c <= a)%R -> (b <= hi * c)%R -> iv (fdiv x y) lo hi.
Proof.
  intros (Vx & Fx & Bx) (Vy & Fy & By) Rl Rh C L H. assert (Ey : R_ y = c) by lra.
  assert (K : (lo <= R_ x / R_ y <= hi)%R).
  { rewrite Ey. split; apply Rmult_le_reg_r with c; try lra;
      unfold Rdiv; rewrite Rmult_assoc, Rinv_l, Rmult_1_r by lra; lra. }
  destruct (rep_between (R_ x / R_ y) lo hi) as [B N]; auto.
  destruct (fdiv_ok x y 100) as [E F]; auto; [lia|lra|]. split; [auto with vf|]. split; [auto|]. now rewrite E.
Qed.

Lemma iv_Z z : Z.abs z <= 2 ^ 24 -> iv (f_of_Z z) (IZR z) (IZR z).
Proof. intros H. destruct (f_of_Z_exact z H) as [A B]. split; [auto with vf|]. split; [exact B|]. rewrite A. lra. Qed.

Lemma nn_of_Z z : Z.abs z <= 2 ^ 64 -> not_nan (f_of_Z z).
Proof. intros H E. destruct (f_of_Z_u32 z H) as [_ F]. rewrite E in F. discriminate. Qed.
Lemma nn_fin x : fin x -> not_nan x.
Proof. intros F E. rewrite E in F. discriminate. Qed.

(** Float to unsigned conversion of a bounded float. *)
Lemma iv_to_u32 x hi : iv x 0 (IZR hi) -> hi < W -> exists z, f_to_u32 x = Ok z /\ 0 <= z <= hi.
Proof.
  intros (V & F & B) H. destruct (Ztrunc_pos_bounds (R_ x)) as [[_ T] T0]; [lra|].
  assert (0 <= Ztrunc (R_ x) <= hi). { split; [exact T0|]. apply le_IZR. lra. }
  exists (Ztrunc (R_ x)). split; [|lia]. unfold f_to_u32, f_to_range.
  rewrite f_trunc_correct by auto. unfold W in *.
  destruct (Z.leb_spec 0 (Ztrunc (R_ x))); [|lia]. destruct (Z.leb_spec (Ztrunc (R_ x)) (4294967296 - 1)); [reflexivity|lia].
Qed.

(** ** Tables with bounded cells *)
(** What a table must look like for its lookups to be bounded: between 1 and 23 strictly ascending
    breakpoints, cells in [lo, hi], and sane storage just past the end of each axis. *)
Definition usable1 (t : table1) (lo hi : R) : Prop :=
  wf_table1 t /\ ascending (t1_cols t) /\ good_tail (t1_cols t) /\ 1 <= ax_num (t1_cols t) <= 23 /\
  (forall k, 0 <= k <= ax_num (t1_cols t) -> sane (elt (t1_data t) k)) /\
  (forall k, 0 <= k < ax_num (t1_cols t) -> (lo <= R_ (elt (t1_data t) k) <= hi)%R).
Definition usable2 (t : table2) (lo hi : R) : Prop :=
  wf_table2 t /\ ascending (t2_cols t) /\ good_tail (t2_cols t) /\ ascending (t2_rows t) /\ good_tail (t2_rows t) /\
  1 <= ax_num (t2_cols t) <= 23 /\ 1 <= ax_num (t2_rows t) <= 23 /\
  (forall r c, 0 <= r <= ax_num (t2_rows t) -> 0 <= c <= ax_num (t2_cols t) -> sane (elt2 (t2_data t) r c)) /\
  (forall r c, 0 <= r < ax_num (t2_rows t) -> 0 <= c < ax_num (t2_cols t) -> (lo <= R_ (elt2 (t2_data t) r c) <= hi)%R).

Lemma look1 nd t hi val : usable1 t 0 hi -> rep hi -> rep (2 * hi) -> vf val -> not_nan val ->
  exists r, interpolate_table_oneaxis nd t val = Ok r /\ iv r 0 (2 * hi).
Proof.
  intros (Wt & Asc & Gt & Hn & Sd & Bd) Rh Rh2 V N.
  destruct (lookup1_cell nd t val) as (v & i & Ev & Sv & Bi & C & D & B & E); auto.
  rewrite E. eexists. split; [reflexivity|].
  assert (Sa : sane (elt (t1_data t) i)) by (apply Sd; lia). assert (Sb : sane (elt (t1_data t) (i+1))) by (apply Sd; lia).
  assert (S1 : sane (elt (ax_values (t1_cols t)) i)) by (apply (proj1 Asc); lia).
  destruct (tail_sane _ i Asc Gt Hn Bi) as [S2 N2].
  assert (Ba : (0 <= R_ (elt (t1_data t) i) <= hi)%R) by (apply Bd; lia).
  split; [unfold lerp; auto 10 with vf|].
  destruct (Z.eq_dec (i + 1) (ax_num (t1_cols t))) as [El|El].
  - assert (R_ v = R_ (elt (ax_values (t1_cols t)) i)). { replace (ax_num (t1_cols t) - 1) with i in B by lia. lra. }
    destruct (lerp_left v (elt (ax_values (t1_cols t)) i) (elt (ax_values (t1_cols t)) (i + 1)) (elt (t1_data t) i) (elt (t1_data t) (i + 1))) as [P Q]; auto.
    split; [exact Q|]. rewrite P. lra.
  - assert (Bb : (0 <= R_ (elt (t1_data t) (i+1)) <= hi)%R) by (apply Bd; lia).
    specialize (D ltac:(lia)).
    destruct (lerp_between v (elt (ax_values (t1_cols t)) i) (elt (ax_values (t1_cols t)) (i + 1)) (elt (t1_data t) i) (elt (t1_data t) (i + 1))) as (Q & P1 & P2); auto; try lra.
    split; [exact Q|].
    set (a := R_ (elt (t1_data t) i)) in *. set (b := R_ (elt (t1_data t) (i+1))) in *.
    destruct (Rle_dec a b) as [Hab|Hab].
    + destruct (P1 Hab) as [L U]. split; [lra|]. eapply Rle_trans; [exact U|].
      assert (rnd (b - a) <= hi)%R. { destruct Rh as [Rh _]. rewrite <- Rh. apply rnd_le. lra. }
      destruct Rh2 as [Rh2 _]. rewrite <- Rh2. apply rnd_le. lra.
    + destruct (P2 ltac:(lra)) as [L U]. split; [|lra]. eapply Rle_trans; [|exact L].
      assert (- a <= rnd (b - a))%R.
      { assert (Ea : rnd (- a) = (- a)%R).
        { apply round_generic; [typeclasses eauto|]. apply generic_format_opp. unfold a. apply generic_R; auto with vf. }
        rewrite <- Ea. apply rnd_le. lra. }
      rewrite <- rnd_0. apply rnd_le. lra.
Qed.

(** One axis of a two-axis lookup: cell, and the weights. *)
Lemma axis_weights nd a val : wf_axis a -> ascending a -> good_tail a -> 1 <= ax_num a <= 23 -> vf val -> not_nan val ->
  exists v i, clamp_to_axis a val = Ok v /\ axis_find_cell_lower nd a v = Ok i /\ 0 <= i < ax_num a /\
    let wl := w_lo v (elt (ax_values a) i) (elt (ax_values a) (i + 1)) in
    let wh := w_hi v (elt (ax_values a) i) (elt (ax_values a) (i + 1)) in
    vf wl /\ vf wh /\ fin wl /\ fin wh /\
    ((i + 1 < ax_num a /\ (0 <= R_ wl <= 1)%R /\ (0 <= R_ wh <= 1)%R /\ (Rabs (R_ wl + R_ wh - 1) <= b2 (-21))%R) \/
     (R_ wl = 1%R /\ R_ wh = 0%R)).
Proof.
  intros Wa Asc Gt Hn V N.
  destruct (clamp_to_axis_spec a val) as (v & Ev & Vv & Fv & B & _); auto; try lia.
  destruct (find_lower_spec nd a v) as (i & Ei & Bi & C & D); auto; try lia.
  assert (Sv : sane v) by (apply (sane_of_between a); auto; lia).
  assert (S1 : sane (elt (ax_values a) i)) by (apply (proj1 Asc); lia).
  destruct (tail_sane _ i Asc Gt Hn Bi) as [S2 N2].
  exists v, i. split; [exact Ev|]. split; [exact Ei|]. split; [exact Bi|]. cbv zeta.
  split; [auto with vf|]. split; [auto with vf|].
  destruct (Z.eq_dec (i + 1) (ax_num a)) as [El|El].
  - assert (R_ v = R_ (elt (ax_values a) i)). { replace (ax_num a - 1) with i in B by lia. lra. }
    destruct (w_exact v _ _ Sv S1 S2 H N2) as (F1 & F2 & O1 & O2). split; [exact F1|]. split; [exact F2|]. right; split; auto.
  - specialize (D (i + 1) ltac:(lia)).
    destruct (w_bounds v _ _ Sv S1 S2) as (F1 & F2 & O1 & O2 & O3); try lra.
    split; [exact F1|]. split; [exact F2|]. left. split; [lia|]. auto.
Qed.

Lemma comb_bounds' w1 w2 a b M lo hi (b_ok : Prop) : vf w1 -> vf w2 -> vf a -> vf b -> fin w1 -> fin w2 -> fin a -> fin b ->
  ((b_ok /\ (0 <= R_ w1 <= 1)%R /\ (0 <= R_ w2 <= 1)%R /\ (Rabs (R_ w1 + R_ w2 - 1) <= b2 (-21))%R) \/ (R_ w1 = 1%R /\ R_ w2 = 0%R)) ->
  (0 <= M)%R -> (M <= b2 101)%R -> (-M <= lo)%R -> (hi <= M)%R -> (lo <= R_ a <= hi)%R -> (b_ok -> (lo <= R_ b <= hi)%R) ->
  fin (comb w1 w2 a b) /\ vf (comb w1 w2 a b) /\
  (lo - (b2 (-20) * M + b2 (-146)) <= R_ (comb w1 w2 a b) <= hi + (b2 (-20) * M + b2 (-146)))%R /\
  (0 <= lo -> 0 <= R_ (comb w1 w2 a b))%R.
Proof.
  intros V1 V2 Va Vb F1 F2 Fa Fb [(O & B1 & B2 & B3)|(E1 & E2)] M0 M1 L H Ba Bb.
  - apply (comb_bounds w1 w2 a b M lo hi); auto.
  - destruct (comb_exact w1 w2 a b) as [E F]; auto. rewrite E.
    assert (0 < b2 (-20))%R by apply bpow_gt_0. assert (0 < b2 (-146))%R by apply bpow_gt_0.
    assert (0 <= b2 (-20) * M)%R by (apply Rmult_le_pos; lra).
    split; [exact F|]. split; [auto with vf|]. split; lra.
Qed.

(** A two-axis lookup stays within the cells' range, widened by four parts per million of [hi]. *)
Lemma look2 nd t lo hi x y : usable2 t lo hi -> (0 <= lo)%R -> (1 <= hi)%R -> (hi <= b2 60)%R ->
  vf x -> not_nan x -> vf y -> not_nan y ->
  exists r, interpolate_table_twoaxis nd t x y = Ok r /\ iv r 0 (hi * (1 + / 100000)) /\ (lo - hi * / 100000 <= R_ r)%R.
Proof.
  intros (Wt & Ax & Gx & Ay & Gy & Hn & Hm & Sd & Bd) L H1 H2 Vx Nx Vy Ny.
  pose proof Wt as (Wx & Wy & _).
  destruct (axis_weights nd (t2_cols t) x) as (vx & i & Ex & Fx & Bi & P); auto.
  destruct (axis_weights nd (t2_rows t) y) as (vy & j & Ey & Fy & Bj & Q); auto.
  rewrite (lookup2_shape nd t x y vx vy i j) by auto. cbv zeta in P, Q |- *. eexists; split; [reflexivity|].
  set (wl := w_lo vx _ _) in *. set (wh := w_hi vx _ _) in *. set (yl := w_lo vy _ _) in *. set (yh := w_hi vy _ _) in *.
  clearbody wl wh yl yh.
  destruct P as (V1 & V2 & F1 & F2 & P). destruct Q as (V3 & V4 & F3 & F4 & Q).
  assert (D11 : sane (elt2 (t2_data t) j i)) by (apply Sd; lia).
  assert (D12 : sane (elt2 (t2_data t) j (i+1))) by (apply Sd; lia).
  assert (D21 : sane (elt2 (t2_data t) (j+1) i)) by (apply Sd; lia).
  assert (D22 : sane (elt2 (t2_data t) (j+1) (i+1))) by (apply Sd; lia).
  assert (U60 : (b2 60 <= b2 99)%R) by (apply bpow_le; lia).
  assert (U99 : (b2 99 <= b2 101)%R) by (apply bpow_le; lia).
  assert (U100 : (2 * b2 99 = b2 100)%R) by (unfold b2; change 100 with (99 + 1); rewrite bpow_S; ring).
  assert (U101 : (b2 100 <= b2 101)%R) by (apply bpow_le; lia).
  assert (E20 : (b2 (-20) = / 1048576)%R) by (unfold b2; simpl; lra).
  assert (E146 : (0 < b2 (-146) <= / 1048576)%R).
  { split; [apply bpow_gt_0|]. rewrite <- E20. apply bpow_le. lia. }
  assert (S0 : (- hi <= lo)%R) by lra.
  destruct (comb_bounds' wl wh (elt2 (t2_data t) j i) (elt2 (t2_data t) j (i+1)) hi lo hi (i + 1 < ax_num (t2_cols t))) as (C1 & C2 & C3 & C4); auto with vf; try lra.
  1: solve [intros; apply Bd; lia]. 1: try solve [intros; apply Bd; lia].
  rewrite E20 in C3.
  set (lo1 := (lo - hi * (2 * / 1048576))%R). set (hi1 := (hi * (1 + 2 * / 1048576))%R).
  assert (A1 : (Rmax 0 lo1 <= R_ (comb wl wh (elt2 (t2_data t) j i) (elt2 (t2_data t) j (i+1))) <= hi1)%R).
  { split; [apply Rmax_lub; [auto|unfold lo1; lra]|unfold hi1; lra]. }
  assert (G : (i + 1 < ax_num (t2_cols t) \/ (R_ wl = 1 /\ R_ wh = 0)%R)) by tauto.
  set (c1 := comb wl wh (elt2 (t2_data t) j i) (elt2 (t2_data t) j (i+1))) in *.
  set (c2 := comb wl wh (elt2 (t2_data t) (j+1) i) (elt2 (t2_data t) (j+1) (i+1))) in *.
  assert (K2 : fin c2 /\ vf c2 /\ (j + 1 < ax_num (t2_rows t) -> (Rmax 0 lo1 <= R_ c2 <= hi1)%R)).
  { destruct (Z.ltb_spec (j + 1) (ax_num (t2_rows t))) as [Lj|Lj].
    - destruct (comb_bounds' wl wh (elt2 (t2_data t) (j+1) i) (elt2 (t2_data t) (j+1) (i+1)) hi lo hi (i + 1 < ax_num (t2_cols t))) as (K1 & K2 & K3 & K4); auto with vf; try lra.
      1: solve [intros; apply Bd; lia]. 1: try solve [intros; apply Bd; lia].
      rewrite E20 in K3. fold c2 in K1, K2, K3, K4. split; [exact K1|]. split; [exact K2|]. intros _. split; [apply Rmax_lub; [auto|unfold lo1; lra]|unfold hi1; lra].
    - destruct D21 as (Va & Fa & Ba). destruct D22 as (Vb & Fb & Bb). apply Rabs_le_inv in Ba. apply Rabs_le_inv in Bb.
      change (bpow radix2 100) with (b2 100) in *. assert (0 <= b2 100)%R by apply bpow_ge_0.
      destruct (comb_bounds' wl wh (elt2 (t2_data t) (j+1) i) (elt2 (t2_data t) (j+1) (i+1)) (b2 100) (- b2 100) (b2 100) True) as (K1 & K2 & _); auto; try lra.
      split; [exact K1|]. split; [exact K2|]. intros; lia. }
  destruct K2 as (K1 & K2 & K3).
  assert (h1 : (hi1 <= 2 * b2 60)%R) by (unfold hi1; lra).
  assert (h2 : (1 <= hi1)%R) by (unfold hi1; lra). assert (h3 : (0 <= Rmax 0 lo1)%R) by apply Rmax_l.
  destruct (comb_bounds' yl yh c1 c2 hi1 (Rmax 0 lo1) hi1 (j + 1 < ax_num (t2_rows t))) as (M1 & M2 & M3 & M4); auto; try lra.
  rewrite E20 in M3. split; [|].
  - split; [exact M2|]. split; [exact M1|]. split; [apply M4, Rmax_l|]. unfold hi1 in *. lra.
  - pose proof (Rmax_r 0 lo1). unfold lo1, hi1 in *. lra.
Qed.

Lemma look2_ok nd t lo hi x y : usable2 t lo hi -> vf x -> not_nan x -> vf y -> not_nan y ->
  exists r, interpolate_table_twoaxis nd t x y = Ok r.
Proof.
  intros (Wt & Ax & Gx & Ay & Gy & Hn & Hm & Sd & Bd) Vx Nx Vy Ny. pose proof Wt as (Wx & Wy & _).
  destruct (axis_weights nd (t2_cols t) x) as (vx & i & Ex & Fx & Bi & P); auto.
  destruct (axis_weights nd (t2_rows t) y) as (vy & j & Ey & Fy & Bj & Q); auto.
  rewrite (lookup2_shape nd t x y vx vy i j) by auto. eauto.
Qed.

(** ** Deciding usability of concrete tables *)
Definition wf_floats (l : list f32) : bool := (Z.of_nat (length l) =? 24) && forallb (valid_binary fprec femax) l.
Definition wf_axisb (a : axis) : bool := wf_floats (ax_values a) && (1 <=? ax_num a) && (ax_num a <=? 23) &&
  ascendingb a && saneb (elt (ax_values a) (ax_num a)) && negb (feq (elt (ax_values a) (ax_num a)) (elt (ax_values a) (ax_num a - 1))).
Definition usable1b (t : table1) (lo hi : f32) : bool :=
  wf_axisb (t1_cols t) && wf_floats (t1_data t) && saneb lo && saneb hi &&
  forallb (fun k => saneb (elt (t1_data t) (Z.of_nat k))) (seq 0 (S (Z.to_nat (ax_num (t1_cols t))))) &&
  forallb (fun k => let x := elt (t1_data t) (Z.of_nat k) in fle lo x && fle x hi) (seq 0 (Z.to_nat (ax_num (t1_cols t)))).
Definition usable2b (t : table2) (lo hi : f32) : bool :=
  wf_axisb (t2_cols t) && wf_axisb (t2_rows t) && (Z.of_nat (length (t2_data t)) =? 24) && forallb wf_floats (t2_data t) && saneb lo && saneb hi &&
  forallb (fun r => forallb (fun c => saneb (elt2 (t2_data t) (Z.of_nat r) (Z.of_nat c)))
    (seq 0 (S (Z.to_nat (ax_num (t2_cols t)))))) (seq 0 (S (Z.to_nat (ax_num (t2_rows t))))) &&
  forallb (fun r => forallb (fun c => let x := elt2 (t2_data t) (Z.of_nat r) (Z.of_nat c) in fle lo x && fle x hi)
    (seq 0 (Z.to_nat (ax_num (t2_cols t))))) (seq 0 (Z.to_nat (ax_num (t2_rows t)))).

Lemma wf_floats_ok l : wf_floats l = true -> length l = 24%nat /\ Forall vf l.
Proof.
  unfold wf_floats. rewrite andb_true_iff, Z.eqb_eq, forallb_forall. intros [A B]. split; [lia|].
  apply Forall_forall. intros x Hx. apply B, Hx.
Qed.
Lemma wf_axisb_ok a : wf_axisb a = true -> wf_axis a /\ ascending a /\ good_tail a /\ 1 <= ax_num a <= 23.
Proof.
  unfold wf_axisb. rewrite !andb_true_iff, !Z.leb_le, negb_true_iff. intros [[[[[A B] C] D] E] F].
  apply wf_floats_ok in A. destruct A as [A1 A2]. split; [repeat split; auto; lia|]. split; [now apply ascendingb_ok|].
  split; [split; [now apply saneb_ok|exact F]|lia].
Qed.
Lemma usable1b_ok t lo hi : usable1b t lo hi = true -> usable1 t (R_ lo) (R_ hi).
Proof.
  unfold usable1b. rewrite !andb_true_iff, !forallb_forall. intros [[[[[A B] C1] C2] D] E].
  apply wf_axisb_ok in A. destruct A as (A1 & A2 & A3 & A4). apply wf_floats_ok in B. destruct B as [B1 B2].
  apply saneb_ok in C1. apply saneb_ok in C2.
  assert (Sn : forall k, 0 <= k <= ax_num (t1_cols t) -> sane (elt (t1_data t) k)).
  { intros k Hk. apply saneb_ok. specialize (D (Z.to_nat k)). rewrite in_seq, Z2Nat.id in D by lia. apply D. lia. }
  split; [repeat split; auto; apply A1|]. split; [exact A2|]. split; [exact A3|]. split; [exact A4|]. split; [exact Sn|].
  intros k Hk. specialize (E (Z.to_nat k)). rewrite in_seq, Z2Nat.id in E by lia. specialize (E ltac:(lia)).
  cbv zeta in E. rewrite andb_true_iff in E. destruct E as [E1 E2]. assert (sane (elt (t1_data t) k)) by (apply Sn; lia).
  apply fle_iff in E1; auto with vf. apply fle_iff in E2; auto with vf.
Qed.
Lemma usable2b_ok t lo hi : usable2b t lo hi = true -> usable2 t (R_ lo) (R_ hi).
Proof.
  unfold usable2b. rewrite !andb_true_iff, !forallb_forall, Z.eqb_eq. intros [[[[[[[A A'] L] B] C1] C2] D] E].
  apply wf_axisb_ok in A. destruct A as (A1 & A2 & A3 & A4).
  apply wf_axisb_ok in A'. destruct A' as (A1' & A2' & A3' & A4').
  apply saneb_ok in C1. apply saneb_ok in C2.
  assert (Sn : forall r c, 0 <= r <= ax_num (t2_rows t) -> 0 <= c <= ax_num (t2_cols t) -> sane (elt2 (t2_data t) r c)).
  { intros r c Hr Hc. apply saneb_ok. specialize (D (Z.to_nat r)). rewrite in_seq, forallb_forall in D.
    specialize (D ltac:(lia) (Z.to_nat c)). rewrite in_seq, !Z2Nat.id in D by lia. apply D. lia. }
  split. { split; [exact A1|]. split; [exact A1'|]. split; [lia|]. apply Forall_forall. intros x Hx. apply wf_floats_ok. now apply B. }
  split; [exact A2|]. split; [exact A3|]. split; [exact A2'|]. split; [exact A3'|]. split; [exact A4|]. split; [exact A4'|].
  split; [exact Sn|].
  intros r c Hr Hc. specialize (E (Z.to_nat r)). rewrite in_seq, forallb_forall in E.
  specialize (E ltac:(lia) (Z.to_nat c)). rewrite in_seq, !Z2Nat.id in E by lia. specialize (E ltac:(lia)).
  cbv zeta in E. rewrite andb_true_iff in E. destruct E as [E1 E2]. assert (sane (elt2 (t2_data t) r c)) by (apply Sn; lia).
  apply fle_iff in E1; auto with vf. apply fle_iff in E2; auto with vf.
Qed.

Definition ivb (x lo hi : f32) : bool := saneb x && saneb lo && saneb hi && fle lo x && fle x hi.
Lemma ivb_ok x lo hi : ivb x lo hi = true -> iv x (R_ lo) (R_ hi).
Proof.
  unfold ivb. rewrite !andb_true_iff. intros [[[[A B] C] D] E]. apply saneb_ok in A. apply saneb_ok in B. apply saneb_ok in C.
  apply fle_iff in D; auto with vf. apply fle_iff in E; auto with vf. split; [auto with vf|]. split; [auto with vf|]. lra.
Qed.
