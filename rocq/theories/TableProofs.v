Require Import ZArith Reals Lia Lra List Bool.
Require Import ZifyBool.
Require Import Coq.Floats.SpecFloat.
From Flocq Require Import Core IEEE754.BinarySingleNaN.
From Verif Require Import Res Word F32 F32Flocq TimeProofs Table TableSpec.
Import ListNotations.
Open Scope Z_scope.
Ltac Zify.zify_post_hook ::= Z.div_mod_to_equations.

Lemma get_elt l i : 0 <= i < Z.of_nat (length l) -> get l i = Ok (elt l i).
Proof.
  intros Hi. unfold get, elt. destruct (Z.ltb_spec i 0); [lia|].
  rewrite (nth_error_nth' l f_zero) by lia. reflexivity.
Qed.

Lemma get_oob {A} (l : list A) i : i < 0 \/ Z.of_nat (length l) <= i -> get l i = Err OutOfBounds.
Proof.
  intros Hi. unfold get. destruct (Z.ltb_spec i 0); [reflexivity|].
  assert (N : nth_error l (Z.to_nat i) = None) by (apply nth_error_None; lia). now rewrite N.
Qed.

Lemma vf_elt l i : Forall vf l -> vf (elt l i).
Proof.
  intros Hl. unfold elt. destruct (Nat.lt_ge_cases (Z.to_nat i) (length l)).
  - rewrite Forall_nth in Hl. now apply Hl.
  - rewrite nth_overflow by assumption. reflexivity.
Qed.

(** ** The cell search stays in bounds whatever the contents *)
Lemma find_cell_bounds fuel values value x1 len :
  0 <= x1 -> 1 <= len -> x1 + len <= Z.of_nat (length values) -> len <= Z.of_nat fuel ->
  exists i, find_cell_loop fuel values value x1 len = Ok i /\ x1 <= i < x1 + len.
Proof.
  revert x1 len. induction fuel as [|f IH]; intros x1 len H1 H2 H3 H4; [lia|].
  cbn [find_cell_loop]. destruct (Z.ltb_spec 1 len); [|exists x1; split; [reflexivity|lia]].
  rewrite get_elt by lia. cbn [bind].
  destruct (fge value _).
  - destruct (IH (x1 + len/2) ((len+1)/2)) as (i & E & B); try lia. exists i. split; [exact E|lia].
  - destruct (IH x1 ((len+1)/2)) as (i & E & B); try lia. exists i. split; [exact E|lia].
Qed.

(** ** The cell search brackets the value on a (weakly) ascending axis *)
Section Search.
  Variable values : list f32.
  Variable num : Z.
  Hypothesis Hlen : num <= Z.of_nat (length values).
  Hypothesis Hv : forall i, 0 <= i < num -> vf (elt values i) /\ fin (elt values i).
  Hypothesis Hasc : forall i, 0 <= i -> i + 1 < num -> (R_ (elt values i) <= R_ (elt values (i+1)))%R.
  Variable value : f32.
  Hypothesis Vv : vf value.
  Hypothesis Fv : fin value.

  Lemma asc_le i j : 0 <= i -> i <= j -> j < num -> (R_ (elt values i) <= R_ (elt values j))%R.
  Proof using Hasc.
    clear Hv. intros H1 H2 H3. replace j with (i + Z.of_nat (Z.to_nat (j - i))) by lia.
    assert (B : Z.of_nat (Z.to_nat (j-i)) < num - i) by lia.
    induction (Z.to_nat (j - i)) as [|n IH]; [rewrite Z.add_0_r; lra|].
    eapply Rle_trans; [apply IH; lia|].
    replace (i + Z.of_nat (S n)) with (i + Z.of_nat n + 1) by lia. apply Hasc; lia.
  Qed.

  Lemma find_cell_correct fuel x1 len :
    0 <= x1 -> 1 <= len -> x1 + len <= num -> len <= Z.of_nat fuel ->
    (R_ (elt values x1) <= R_ value)%R ->
    (forall j, x1 + len <= j < num -> (R_ value < R_ (elt values j))%R) ->
    exists i, find_cell_loop fuel values value x1 len = Ok i /\ x1 <= i < x1 + len /\
      (R_ (elt values i) <= R_ value)%R /\ (forall j, i < j < num -> (R_ value < R_ (elt values j))%R).
  Proof.
    revert x1 len. induction fuel as [|f IH]; intros x1 len H1 H2 H3 H4 Hlo Hhi; [lia|].
    cbn [find_cell_loop]. destruct (Z.ltb_spec 1 len).
    2:{ exists x1. repeat split; auto; try lia. intros j Hj. apply Hhi. lia. }
    rewrite get_elt by lia. cbn [bind].
    assert (Hm : 0 <= x1 + len/2 < num) by lia.
    destruct (Hv _ Hm) as [Vm Fm].
    destruct (fge value (elt values (x1 + len/2))) eqn:G; unfold fge in G.
    - apply fle_iff in G; auto.
      destruct (IH (x1 + len/2) ((len+1)/2)) as (i & E & B & C & D); try lia; auto.
      { intros j Hj. apply Hhi. lia. }
      exists i. repeat split; auto; lia.
    - apply fle_false_iff in G; auto.
      destruct (IH x1 ((len+1)/2)) as (i & E & B & C & D); try lia; auto.
      { intros j Hj. eapply Rlt_le_trans; [exact G|]. apply asc_le; lia. }
      exists i. repeat split; auto; lia.
  Qed.
End Search.

(** ** Clamping *)
Lemma clamp_to_axis_ok a val : 0 < ax_num a -> ax_num a <= Z.of_nat (length (ax_values a)) ->
  exists v, clamp_to_axis a val = Ok v.
Proof.
  intros. unfold clamp_to_axis. rewrite !get_elt by lia. cbn [bind]. eexists; reflexivity.
Qed.

Lemma sane_vf x : sane x -> vf x. Proof. intros (A & _); exact A. Qed.
Lemma sane_fin x : sane x -> fin x. Proof. intros (_ & A & _); exact A. Qed.
Global Hint Resolve sane_vf sane_fin : vf.

Lemma asc_weak a : ascending a -> ax_num a <= Z.of_nat (length (ax_values a)) ->
  forall i j, 0 <= i -> i <= j -> j < ax_num a -> (R_ (elt (ax_values a) i) <= R_ (elt (ax_values a) j))%R.
Proof.
  intros [_ A] _. intros. apply (asc_le (ax_values a) (ax_num a)); auto. intros. apply Rlt_le. auto.
Qed.

Lemma asc_strict a : ascending a ->
  forall i j, 0 <= i -> i < j -> j < ax_num a -> (R_ (elt (ax_values a) i) < R_ (elt (ax_values a) j))%R.
Proof.
  intros [A B] i j H1 H2 H3. eapply Rlt_le_trans; [apply B; lia|].
  apply (asc_le (ax_values a) (ax_num a)); auto; try lia. intros. apply Rlt_le. auto.
Qed.

Lemma vf_cases x : vf x -> fin x \/ x = S754_nan \/ exists s, x = S754_infinity s.
Proof. destruct x; intros; eauto; left; reflexivity. Qed.

(** The clamped value: inside the axis range, unchanged if it was inside. *)
Lemma clamp_to_axis_spec a val : wf_axis a -> ascending a -> 0 < ax_num a <= 24 -> vf val -> not_nan val ->
  exists v, clamp_to_axis a val = Ok v /\ vf v /\ fin v /\
    (R_ (elt (ax_values a) 0) <= R_ v <= R_ (elt (ax_values a) (ax_num a - 1)))%R /\
    (fle val (elt (ax_values a) 0) = true -> R_ v = R_ (elt (ax_values a) 0)) /\
    (fge val (elt (ax_values a) (ax_num a - 1)) = true -> R_ v = R_ (elt (ax_values a) (ax_num a - 1))) /\
    (fin val -> (R_ (elt (ax_values a) 0) <= R_ val <= R_ (elt (ax_values a) (ax_num a - 1)))%R -> v = val).
Proof.
  intros (L & Fv & _) Asc Hn V N.
  pose proof (proj1 Asc 0 ltac:(lia)) as S0. pose proof (proj1 Asc (ax_num a - 1) ltac:(lia)) as Sn.
  pose proof (asc_weak a Asc ltac:(lia) 0 (ax_num a - 1) ltac:(lia) ltac:(lia) ltac:(lia)) as O.
  unfold clamp_to_axis. rewrite !get_elt by lia. cbn [bind].
  set (v0 := elt (ax_values a) 0) in *. set (vn := elt (ax_values a) (ax_num a - 1)) in *.
  eexists. split; [reflexivity|].
  assert (NL : flt v0 vn = true \/ R_ v0 = R_ vn).
  { destruct (Rlt_dec (R_ v0) (R_ vn)); [left; apply flt_iff; auto with vf|right; lra]. }
  assert (G0 : fgt v0 vn = false) by (unfold fgt; apply flt_false_iff; auto with vf).
  destruct (vf_cases val V) as [F|[E|[s E]]].
  - destruct (flt val v0) eqn:C1.
    + rewrite G0. apply flt_iff in C1; auto with vf.
      repeat split; auto with vf; try lra.
      all: intros G; unfold fge in G; apply fle_iff in G; auto with vf; lra.
    + apply flt_false_iff in C1; auto with vf. destruct (fgt val vn) eqn:C2; unfold fgt in C2.
      * apply flt_iff in C2; auto with vf. repeat split; auto with vf; try lra.
        all: intros G; unfold fge in G; apply fle_iff in G; auto with vf; lra.
      * apply flt_false_iff in C2; auto with vf. repeat split; auto with vf; try lra.
        all: intros G; unfold fge in G; apply fle_iff in G; auto with vf; lra.
  - contradiction.
  - assert (F0 := sane_fin _ S0). assert (Fn := sane_fin _ Sn). unfold fin in F0, Fn.
    subst val. destruct s.
    + assert (C1 : flt (S754_infinity true) v0 = true) by (destruct v0; try discriminate F0; reflexivity).
      rewrite C1, G0. repeat split; auto with vf; try lra.
      * intros G. unfold fge in G. destruct vn as [| | |ss ? ?]; try discriminate Fn; try discriminate G; destruct ss; discriminate G.
      * intros FF. discriminate FF.
    + assert (C1 : flt (S754_infinity false) v0 = false) by (destruct v0; try discriminate F0; reflexivity).
      assert (C2 : fgt (S754_infinity false) vn = true).
      { destruct vn as [| | |ss ? ?]; try discriminate Fn; try reflexivity; now destruct ss. }
      rewrite C1, C2. repeat split; auto with vf; try lra.
      * intros G. destruct v0; try discriminate F0; discriminate G.
      * intros FF. discriminate FF.
Qed.

Lemma find_lower_spec nd a v : wf_axis a -> ascending a -> 0 < ax_num a <= 24 -> vf v -> fin v ->
  (R_ (elt (ax_values a) 0) <= R_ v <= R_ (elt (ax_values a) (ax_num a - 1)))%R ->
  exists i, axis_find_cell_lower nd a v = Ok i /\ 0 <= i < ax_num a /\
    (R_ (elt (ax_values a) i) <= R_ v)%R /\
    (forall j, i < j < ax_num a -> (R_ v < R_ (elt (ax_values a) j))%R).
Proof.
  intros (L & Fl & _) Asc Hn V F B. unfold axis_find_cell_lower.
  assert (A : (if nd then Ok tt
   else _ <- c_assert nd (0 <? ax_num a);;
        v0 <- get (ax_values a) 0;;
        _ <- c_assert nd (fge v v0);;
        vn <- get (ax_values a) (ax_num a - 1);;
        c_assert nd (fle v vn)) = Ok tt).
  { destruct nd; [reflexivity|]. unfold c_assert. rewrite !get_elt by lia. cbn [bind].
    destruct (Z.ltb_spec 0 (ax_num a)); [|lia]. cbn [bind].
    pose proof (proj1 Asc 0 ltac:(lia)) as S0. pose proof (proj1 Asc (ax_num a - 1) ltac:(lia)) as Sn.
    assert (C1 : fge v (elt (ax_values a) 0) = true) by (unfold fge; apply fle_iff; auto with vf; lra).
    assert (C2 : fle v (elt (ax_values a) (ax_num a - 1)) = true) by (apply fle_iff; auto with vf; lra).
    rewrite C1. cbn [bind]. rewrite C2. reflexivity. }
  rewrite A. cbn [bind].
  destruct (find_cell_correct (ax_values a) (ax_num a)) with (value := v) (fuel := Z.to_nat (ax_num a)) (x1 := 0) (len := ax_num a)
    as (i & E & Bi & C & D); try (exact (proj1 B)); auto; try lia.
  - intros i Hi. pose proof (proj1 Asc i Hi) as S. auto with vf.
  - intros i H1 H2. apply Rlt_le. now apply (proj2 Asc).
  - exists i. repeat split; auto; lia.
Qed.

(** ** C04: memory safety *)
Lemma find_lower_ndebug a v : 0 < ax_num a -> ax_num a <= Z.of_nat (length (ax_values a)) ->
  exists i, axis_find_cell_lower true a v = Ok i /\ 0 <= i < ax_num a.
Proof.
  intros. unfold axis_find_cell_lower. cbn [bind].
  destruct (find_cell_bounds (Z.to_nat (ax_num a)) (ax_values a) v 0 (ax_num a)) as (i & E & B); try lia.
  exists i. split; [exact E|lia].
Qed.

Lemma lookup1_safe t val : wf_table1 t -> 1 <= ax_num (t1_cols t) <= 23 ->
  exists r, interpolate_table_oneaxis true t val = Ok r.
Proof.
  intros ((L & _) & L2 & _) Hn. unfold interpolate_table_oneaxis.
  destruct (clamp_to_axis_ok (t1_cols t) val) as [v ->]; try lia. cbn [bind].
  destruct (find_lower_ndebug (t1_cols t) v) as (i & -> & B); try lia. cbn [bind].
  rewrite !get_elt by lia. cbn [bind]. eexists; reflexivity.
Qed.

Lemma get2_elt d r c : length d = 24%nat -> Forall (fun r => length r = 24%nat /\ Forall vf r) d ->
  0 <= r < 24 -> 0 <= c < 24 -> get2 d r c = Ok (elt2 d r c).
Proof.
  intros L F Hr Hc. unfold get2, elt2. unfold get at 1. destruct (Z.ltb_spec r 0); [lia|].
  rewrite (nth_error_nth' d []) by lia. cbn [bind].
  rewrite Forall_nth in F. specialize (F (Z.to_nat r) [] ltac:(lia)). destruct F as [Lr _].
  rewrite get_elt by lia. reflexivity.
Qed.

Lemma lookup2_safe t x y : wf_table2 t -> 1 <= ax_num (t2_cols t) <= 23 -> 1 <= ax_num (t2_rows t) <= 23 ->
  exists r, interpolate_table_twoaxis true t x y = Ok r.
Proof.
  intros ((L & _) & (L1 & _) & L2 & L3) Hn Hm. unfold interpolate_table_twoaxis.
  destruct (clamp_to_axis_ok (t2_cols t) x) as [v ->]; try lia. cbn [bind].
  destruct (clamp_to_axis_ok (t2_rows t) y) as [w ->]; try lia. cbn [bind].
  destruct (find_lower_ndebug (t2_cols t) v) as (i & -> & B); try lia. cbn [bind].
  destruct (find_lower_ndebug (t2_rows t) w) as (j & -> & C); try lia. cbn [bind].
  rewrite !get_elt by lia. cbn [bind]. rewrite !get2_elt by (assumption || lia). cbn [bind]. eexists; reflexivity.
Qed.

Lemma lookup1_safe_full nd t val : wf_table1 t -> ascending (t1_cols t) ->
  1 <= ax_num (t1_cols t) <= 24 -> vf val -> not_nan val ->
  (ax_num (t1_cols t) = 24 -> flt val (elt (ax_values (t1_cols t)) 23) = true) ->
  exists r, interpolate_table_oneaxis nd t val = Ok r.
Proof.
  intros ((L & Fl & W0) & L2 & F2) Asc Hn V N Hlast. unfold interpolate_table_oneaxis.
  destruct (clamp_to_axis_spec (t1_cols t) val) as (v & -> & Vv & Fv & B & C1 & C2 & C3); auto; try lia.
  { split; auto. } cbn [bind].
  destruct (find_lower_spec nd (t1_cols t) v) as (i & -> & Bi & C & D); auto; try lia.
  { split; auto. } cbn [bind].
  assert (i + 1 < 24 \/ (i = 23 /\ ax_num (t1_cols t) = 24)) as [Hi|[-> E]] by lia.
  - rewrite !get_elt by lia. cbn [bind]. eexists; reflexivity.
  - specialize (Hlast E). rewrite E in *. change (24 - 1) with 23 in *.
    pose proof (proj1 Asc 23 ltac:(lia)) as Sn.
    exfalso. destruct (vf_cases val V) as [F|[X|[s X]]]; [|contradiction|].
    + apply flt_iff in Hlast; auto with vf.
      destruct (Rle_dec (R_ (elt (ax_values (t1_cols t)) 0)) (R_ val)).
      * rewrite (C3 F) in C by lra. lra.
      * rewrite C1 in C by (apply fle_iff; auto with vf; [apply (proj1 Asc 0); lia|apply (proj1 Asc 0); lia|lra]).
        pose proof (asc_strict _ Asc 0 23 ltac:(lia) ltac:(lia) ltac:(lia)). lra.
    + subst val. destruct s.
      * rewrite C1 in C.
        -- pose proof (asc_strict _ Asc 0 23 ltac:(lia) ltac:(lia) ltac:(lia)). lra.
        -- pose proof (proj1 Asc 0 ltac:(lia)) as (_ & F0 & _). unfold fin in F0.
           destruct (elt (ax_values (t1_cols t)) 0); try discriminate F0; reflexivity.
      * destruct Sn as (_ & F0 & _). unfold fin in F0.
        destruct (elt (ax_values (t1_cols t)) 23) as [| | |ss ? ?]; try discriminate F0; discriminate Hlast.
Qed.

Lemma lookup1_oob nd t val : wf_table1 t -> ascending (t1_cols t) ->
  ax_num (t1_cols t) = 24 -> vf val -> not_nan val -> fge val (elt (ax_values (t1_cols t)) 23) = true ->
  interpolate_table_oneaxis nd t val = Err OutOfBounds.
Proof.
  intros ((L & Fl & W0) & L2 & F2) Asc Hn V N Hge. unfold interpolate_table_oneaxis.
  destruct (clamp_to_axis_spec (t1_cols t) val) as (v & -> & Vv & Fv & B & C1 & C2 & C3); auto; try lia.
  { split; auto. } cbn [bind].
  destruct (find_lower_spec nd (t1_cols t) v) as (i & -> & Bi & C & D); auto; try lia.
  { split; auto. } cbn [bind].
  rewrite Hn in *. change (24 - 1) with 23 in *. specialize (C2 Hge).
  assert (i = 23) as ->.
  { destruct (Z.eq_dec i 23); [assumption|]. specialize (D 23 ltac:(lia)). lra. }
  rewrite get_elt by lia. cbn [bind]. rewrite get_oob by lia. reflexivity.
Qed.

Lemma lookup1_empty nd t val : wf_table1 t -> ax_num (t1_cols t) = 0 ->
  interpolate_table_oneaxis nd t val = Err OutOfBounds.
Proof.
  intros ((L & _) & _) E. unfold interpolate_table_oneaxis, clamp_to_axis.
  rewrite get_elt by lia. cbn [bind]. rewrite E. rewrite get_oob by lia. reflexivity.
Qed.

(** ** Interpolation arithmetic *)
From Flocq Require Import Plus_error.

Lemma bound_max x e : e < 128 -> -149 <= e -> (Rabs x <= bpow radix2 e)%R -> (Rabs (rnd x) < fmaxR)%R.
Proof. intros. apply (rnd_abs_lt_max x e); auto. Qed.

Lemma bpow_S e : bpow radix2 (e + 1) = (2 * bpow radix2 e)%R.
Proof. rewrite bpow_plus. simpl. lra. Qed.

Lemma sub_sane_e e x y : -149 <= e < 127 -> vf x -> vf y -> fin x -> fin y ->
  (Rabs (R_ x) <= bpow radix2 e)%R -> (Rabs (R_ y) <= bpow radix2 e)%R ->
  R_ (fsub x y) = rnd (R_ x - R_ y) /\ fin (fsub x y) /\ vf (fsub x y) /\ (Rabs (R_ (fsub x y)) <= bpow radix2 (e+1))%R.
Proof.
  intros He Vx Vy Fx Fy Bx By.
  assert (B : (Rabs (R_ x - R_ y) <= bpow radix2 (e+1))%R).
  { rewrite bpow_S. eapply Rle_trans; [apply Rabs_triang|]. rewrite Rabs_Ropp. lra. }
  destruct (fsub_correct x y) as [A F]; auto.
  { apply (bound_max _ (e+1)); auto; lia. }
  repeat split; auto with vf. rewrite A. apply rnd_abs_le_bpow; [lia|exact B].
Qed.

Lemma sub_sane x y : sane x -> sane y ->
  R_ (fsub x y) = rnd (R_ x - R_ y) /\ fin (fsub x y) /\ vf (fsub x y) /\ (Rabs (R_ (fsub x y)) <= bpow radix2 101)%R.
Proof. intros (? & ? & ?) (? & ? & ?). apply (sub_sane_e 100); auto; lia. Qed.

Lemma sub_neq0 x y : sane x -> sane y -> R_ x <> R_ y -> R_ (fsub x y) <> 0%R.
Proof.
  intros Sx Sy N. destruct (sub_sane x y Sx Sy) as (A & _). rewrite A.
  unfold Rminus. apply round_plus_neq_0; try typeclasses eauto.
  - apply generic_R; auto with vf.
  - apply generic_format_opp, generic_R; auto with vf.
  - lra.
Qed.

Lemma rnd_1 : rnd 1 = 1%R.
Proof. apply round_generic; [typeclasses eauto|]. apply (generic_Z 1). lia. Qed.

Lemma div_unit n d : vf n -> vf d -> fin n -> fin d -> (0 < R_ d)%R -> (0 <= R_ n <= R_ d)%R ->
  R_ (fdiv n d) = rnd (R_ n / R_ d) /\ fin (fdiv n d) /\ (0 <= R_ (fdiv n d) <= 1)%R.
Proof.
  intros Vn Vd Fn Fd Hd Hn.
  assert (B : (0 <= R_ n / R_ d <= 1)%R).
  { split; [apply Rmult_le_pos; [lra|apply Rlt_le, Rinv_0_lt_compat; lra]|].
    apply Rmult_le_reg_r with (R_ d); [lra|]. unfold Rdiv. rewrite Rmult_assoc, Rinv_l by lra. lra. }
  assert (B' : (0 <= rnd (R_ n / R_ d) <= 1)%R).
  { split; [rewrite <- rnd_0; now apply rnd_le|apply Rle_trans with (rnd 1); [now apply rnd_le|rewrite rnd_1; lra]]. }
  destruct (fdiv_correct n d) as [A F]; auto; [lra| |].
  - apply (bound_max _ 0); try lia. simpl. apply Rabs_le. lra.
  - rewrite A. auto.
Qed.

(** Numerator zero. *)
Lemma div_zero n d : vf n -> vf d -> fin n -> fin d -> R_ d <> 0%R -> R_ n = 0%R ->
  R_ (fdiv n d) = 0%R /\ fin (fdiv n d).
Proof.
  intros Vn Vd Fn Fd Hd Hn.
  assert (E : (R_ n / R_ d = 0)%R) by (rewrite Hn; unfold Rdiv; ring).
  destruct (fdiv_correct n d) as [A F]; auto.
  - rewrite E, rnd_0, Rabs_R0. apply bpow_gt_0.
  - rewrite A, E, rnd_0. auto.
Qed.

Lemma mul_zero x p : vf x -> vf p -> fin x -> fin p -> R_ p = 0%R -> R_ (fmul x p) = 0%R /\ fin (fmul x p).
Proof.
  intros Vx Vp Fx Fp Hp.
  assert (E : (R_ x * R_ p = 0)%R) by (rewrite Hp; ring).
  destruct (fmul_correct x p) as [A F]; auto.
  - rewrite E, rnd_0, Rabs_R0. apply bpow_gt_0.
  - rewrite A, E, rnd_0. auto.
Qed.

Lemma mul_zero_l x p : vf x -> vf p -> fin x -> fin p -> R_ x = 0%R -> R_ (fmul x p) = 0%R /\ fin (fmul x p).
Proof.
  intros Vx Vp Fx Fp Hp.
  assert (E : (R_ x * R_ p = 0)%R) by (rewrite Hp; ring).
  destruct (fmul_correct x p) as [A F]; auto.
  - rewrite E, rnd_0, Rabs_R0. apply bpow_gt_0.
  - rewrite A, E, rnd_0. auto.
Qed.

Lemma mul_one_l x p : vf x -> vf p -> fin x -> fin p -> R_ x = 1%R -> R_ (fmul x p) = R_ p /\ fin (fmul x p).
Proof.
  intros Vx Vp Fx Fp Hp.
  assert (E : (R_ x * R_ p = R_ p)%R) by (rewrite Hp; ring).
  destruct (fmul_correct x p) as [A F]; auto.
  - rewrite E, rnd_R by auto. now apply R_lt_max.
  - rewrite A, E, rnd_R by auto. auto.
Qed.

Lemma add_zero_l x y : vf x -> vf y -> fin x -> fin y -> R_ x = 0%R -> R_ (fadd x y) = R_ y /\ fin (fadd x y).
Proof.
  intros Vx Vy Fx Fy Hx.
  assert (E : (R_ x + R_ y = R_ y)%R) by (rewrite Hx; ring).
  destruct (fadd_correct x y) as [A F]; auto.
  - rewrite E, rnd_R by auto. now apply R_lt_max.
  - rewrite A, E, rnd_R by auto. auto.
Qed.

Lemma add_zero_r x y : vf x -> vf y -> fin x -> fin y -> R_ y = 0%R -> R_ (fadd x y) = R_ x /\ fin (fadd x y).
Proof.
  intros Vx Vy Fx Fy Hx.
  assert (E : (R_ x + R_ y = R_ x)%R) by (rewrite Hx; ring).
  destruct (fadd_correct x y) as [A F]; auto.
  - rewrite E, rnd_R by auto. now apply R_lt_max.
  - rewrite A, E, rnd_R by auto. auto.
Qed.

Definition lerp (val x1 x2 a b : f32) : f32 :=
  fadd (fmul (fsub b a) (fdiv (fsub val x1) (fsub x2 x1))) a.

Lemma lerp_left val x1 x2 a b : sane val -> sane x1 -> sane x2 -> sane a -> sane b ->
  R_ val = R_ x1 -> R_ x2 <> R_ x1 -> R_ (lerp val x1 x2 a b) = R_ a /\ fin (lerp val x1 x2 a b).
Proof.
  intros Sv S1 S2 Sa Sb Ev N. unfold lerp.
  destruct (sub_sane val x1 Sv S1) as (A1 & F1 & V1 & _).
  destruct (sub_sane x2 x1 S2 S1) as (A2 & F2 & V2 & _).
  destruct (sub_sane b a Sb Sa) as (A3 & F3 & V3 & _).
  assert (Z1 : R_ (fsub val x1) = 0%R) by (rewrite A1, Ev, Rminus_diag_eq, rnd_0; reflexivity).
  destruct (div_zero _ _ V1 V2 F1 F2 (sub_neq0 _ _ S2 S1 N) Z1) as [Z2 F4].
  destruct (mul_zero (fsub b a) _ V3 (vf_fdiv _ _ V1 V2) F3 F4 Z2) as [Z3 F5].
  apply add_zero_l; auto with vf.
Qed.

Lemma lerp_between val x1 x2 a b : sane val -> sane x1 -> sane x2 -> sane a -> sane b ->
  (R_ x1 <= R_ val <= R_ x2)%R -> (R_ x1 < R_ x2)%R ->
  fin (lerp val x1 x2 a b) /\
  ((R_ a <= R_ b)%R -> (R_ a <= R_ (lerp val x1 x2 a b) <= rnd (R_ a + rnd (R_ b - R_ a)))%R) /\
  ((R_ b <= R_ a)%R -> (rnd (R_ a + rnd (R_ b - R_ a)) <= R_ (lerp val x1 x2 a b) <= R_ a)%R).
Proof.
  intros Sv S1 S2 Sa Sb Hv H12.
  destruct (sub_sane val x1 Sv S1) as (A1 & F1 & V1 & B1).
  destruct (sub_sane x2 x1 S2 S1) as (A2 & F2 & V2 & B2).
  destruct (sub_sane b a Sb Sa) as (A3 & F3 & V3 & B3).
  assert (P2 : (0 < R_ (fsub x2 x1))%R).
  { assert (N := sub_neq0 _ _ S2 S1 ltac:(lra)).
    assert (0 <= R_ (fsub x2 x1))%R by (rewrite A2, <- rnd_0; apply rnd_le; lra). lra. }
  assert (P1 : (0 <= R_ (fsub val x1) <= R_ (fsub x2 x1))%R).
  { rewrite A1, A2. split; [rewrite <- rnd_0|]; apply rnd_le; lra. }
  destruct (div_unit _ _ V1 V2 F1 F2 P2 P1) as (_ & F4 & B4).
  set (p := fdiv (fsub val x1) (fsub x2 x1)) in *.
  assert (Vp : vf p) by (apply vf_fdiv; auto).
  set (d := fsub b a) in *.
  assert (Bdp : (Rabs (R_ d * R_ p) <= Rabs (R_ d))%R).
  { rewrite Rabs_mult, (Rabs_pos_eq (R_ p)) by lra. rewrite <- (Rmult_1_r (Rabs (R_ d))) at 2.
    apply Rmult_le_compat_l; [apply Rabs_pos|lra]. }
  destruct (fmul_correct d p) as [A5 F5]; auto.
  { apply (bound_max _ 101); try lia. lra. }
  assert (B5 : (Rabs (R_ (fmul d p)) <= bpow radix2 101)%R) by (rewrite A5; apply rnd_abs_le_bpow; [lia|lra]).
  assert (V5 : vf (fmul d p)) by auto with vf.
  destruct Sa as (Va & Fa & Ba). destruct Sb as (Vb & Fb & Bb).
  destruct (fadd_correct (fmul d p) a) as [A6 F6]; auto.
  { apply (bound_max _ 102); try lia. eapply Rle_trans; [apply Rabs_triang|].
    change 102 with (101 + 1). rewrite bpow_S.
    assert (bpow radix2 100 <= bpow radix2 101)%R by (apply bpow_le; lia). lra. }
  split; [exact F6|]. unfold lerp. fold d. fold p. rewrite A6.
  assert (Cmp : forall u v, (u <= v)%R -> (rnd (u + R_ a) <= rnd (v + R_ a))%R) by (intros; apply rnd_le; lra).
  assert (E0 : rnd (0 + R_ a) = R_ a) by (rewrite Rplus_0_l; apply rnd_R; auto).
  rewrite <- A3, (Rplus_comm (R_ a) (R_ d)).
  assert (Rd : rnd (R_ d) = R_ d) by (apply rnd_R; auto).
  split; intros Hab.
  - assert (0 <= R_ d)%R by (rewrite A3, <- rnd_0; apply rnd_le; lra).
    assert (0 <= R_ (fmul d p) <= R_ d)%R.
    { rewrite A5. split; [rewrite <- rnd_0; apply rnd_le; apply Rmult_le_pos; lra|].
      rewrite <- Rd at 2. apply rnd_le. rewrite <- (Rmult_1_r (R_ d)) at 2. apply Rmult_le_compat_l; lra. }
    split; [rewrite <- E0 at 1|]; apply Cmp; lra.
  - assert (R_ d <= 0)%R by (rewrite A3, <- rnd_0; apply rnd_le; lra).
    assert (R_ d <= R_ (fmul d p) <= 0)%R.
    { rewrite A5. split.
      - rewrite <- Rd at 1. apply rnd_le. assert (R_ d * R_ p >= R_ d * 1)%R; [|lra].
        apply Rle_ge. apply Rmult_le_compat_neg_l; lra.
      - rewrite <- rnd_0. apply rnd_le. assert (0 <= - R_ d * R_ p)%R by (apply Rmult_le_pos; lra). lra. }
    split; [|rewrite <- E0 at 2]; apply Cmp; lra.
Qed.

(** ** C05, C06 for one-axis tables *)
Lemma sane_of_between a v : ascending a -> wf_axis a -> 0 < ax_num a <= 24 -> vf v -> fin v ->
  (R_ (elt (ax_values a) 0) <= R_ v <= R_ (elt (ax_values a) (ax_num a - 1)))%R -> sane v.
Proof.
  intros [S _] _ Hn V F B. repeat split; auto.
  destruct (S 0) as (_ & _ & B0); [lia|]. destruct (S (ax_num a - 1)) as (_ & _ & B1); [lia|].
  apply Rabs_le_inv in B0. apply Rabs_le_inv in B1. apply Rabs_le. lra.
Qed.

Lemma lookup1_cell nd t val : wf_table1 t -> ascending (t1_cols t) -> 1 <= ax_num (t1_cols t) <= 23 ->
  vf val -> not_nan val ->
  exists v i, clamp_to_axis (t1_cols t) val = Ok v /\ sane v /\ 0 <= i < ax_num (t1_cols t) /\
    (R_ (elt (ax_values (t1_cols t)) i) <= R_ v)%R /\
    (i + 1 < ax_num (t1_cols t) -> (R_ v < R_ (elt (ax_values (t1_cols t)) (i + 1)))%R) /\
    (R_ (elt (ax_values (t1_cols t)) 0) <= R_ v <= R_ (elt (ax_values (t1_cols t)) (ax_num (t1_cols t) - 1)))%R /\
    interpolate_table_oneaxis nd t val =
      Ok (lerp v (elt (ax_values (t1_cols t)) i) (elt (ax_values (t1_cols t)) (i + 1)) (elt (t1_data t) i) (elt (t1_data t) (i + 1))).
Proof.
  intros (Wa & L2 & F2) Asc Hn V N. unfold interpolate_table_oneaxis.
  destruct (clamp_to_axis_spec (t1_cols t) val) as (v & -> & Vv & Fv & B & _); auto; try lia. cbn [bind].
  destruct (find_lower_spec nd (t1_cols t) v) as (i & -> & Bi & C & D); auto; try lia. cbn [bind].
  destruct Wa as (L & Fl & W0).
  exists v, i. repeat split; auto; try lia; try lra.
  - apply (sane_of_between (t1_cols t)); auto; [split; auto|lia].
  - intros. apply D. lia.
  - rewrite !get_elt by lia. cbn [bind]. reflexivity.
Qed.

Lemma lookup1_at nd t i : wf_table1 t -> ascending (t1_cols t) -> 1 <= ax_num (t1_cols t) <= 23 ->
  (forall k, 0 <= k <= ax_num (t1_cols t) -> sane (elt (t1_data t) k)) ->
  sane (elt (ax_values (t1_cols t)) (ax_num (t1_cols t))) ->
  R_ (elt (ax_values (t1_cols t)) (ax_num (t1_cols t))) <> R_ (elt (ax_values (t1_cols t)) (ax_num (t1_cols t) - 1)) ->
  0 <= i < ax_num (t1_cols t) ->
  forall val v, vf val -> not_nan val -> clamp_to_axis (t1_cols t) val = Ok v -> R_ v = R_ (elt (ax_values (t1_cols t)) i) ->
  exists r, interpolate_table_oneaxis nd t val = Ok r /\ fin r /\ R_ r = R_ (elt (t1_data t) i).
Proof.
  intros Wt Asc Hn Sd Sx Nx Hi val v V N Ev Rv.
  destruct (lookup1_cell nd t val) as (v' & j & Ev' & Sv & Bj & C & D & B & E); auto.
  rewrite Ev in Ev'. injection Ev' as <-.
  assert (j = i) as ->.
  { destruct (Z.lt_trichotomy i j) as [Lt|[Eq|Gt]]; [|easy|].
    - pose proof (asc_strict _ Asc i j ltac:(lia) Lt ltac:(lia)). lra.
    - pose proof (asc_strict _ Asc j i ltac:(lia) Gt ltac:(lia)).
      pose proof (asc_weak _ Asc ltac:(destruct Wt as ((L & _) & _); lia) (j+1) i ltac:(lia) ltac:(lia) ltac:(lia)).
      specialize (D ltac:(lia)). lra. }
  eexists. split; [exact E|].
  destruct (lerp_left v (elt (ax_values (t1_cols t)) i) (elt (ax_values (t1_cols t)) (i + 1)) (elt (t1_data t) i) (elt (t1_data t) (i + 1))) as [P Q]; auto.
  - apply (proj1 Asc). lia.
  - destruct (Z.eq_dec (i + 1) (ax_num (t1_cols t))) as [->|]; [exact Sx|apply (proj1 Asc); lia].
  - apply Sd; lia.
  - apply Sd; lia.
  - destruct (Z.eq_dec (i + 1) (ax_num (t1_cols t))) as [E1|].
    + rewrite E1. replace i with (ax_num (t1_cols t) - 1) by lia. exact Nx.
    + pose proof (asc_strict _ Asc i (i+1) ltac:(lia) ltac:(lia) ltac:(lia)). lra.
Qed.

(** ** C07: validation *)
Lemma valid_axis_loop_spec n values i : 0 <= i -> i + Z.of_nat n < Z.of_nat (length values) \/ n = 0%nat ->
  exists b, valid_axis_loop n values i = Ok b /\
   (b = true <-> forall k, i <= k < i + Z.of_nat n -> fgt (elt values k) (elt values (k+1)) = false).
Proof.
  revert i. induction n as [|n IH]; intros i Hi Hn.
  - exists true. split; [reflexivity|]. split; [intros _ k Hk; lia|reflexivity].
  - cbn [valid_axis_loop]. rewrite !get_elt by lia. cbn [bind].
    destruct (fgt (elt values i) (elt values (i+1))) eqn:G.
    + exists false. split; [reflexivity|]. split; [discriminate|]. intros A. rewrite A in G by lia. discriminate.
    + destruct (IH (i+1)) as (b & E & S); try lia. exists b. split; [exact E|]. rewrite S. split; intros A k Hk.
      * destruct (Z.eq_dec k i) as [->|]; [exact G|]. apply A. lia.
      * apply A. lia.
Qed.

Lemma table_valid_axis_spec a : wf_axis a ->
  exists b, table_valid_axis a = Ok b /\
   (b = true <-> ax_num a <= 24 /\ forall k, 0 <= k -> k + 1 < ax_num a -> fgt (elt (ax_values a) k) (elt (ax_values a) (k+1)) = false).
Proof.
  intros (L & F & N). unfold table_valid_axis, MAX_AXIS_SIZE.
  destruct (Z.ltb_spec 24 (ax_num a)).
  - exists false. split; [reflexivity|]. split; [discriminate|lia].
  - destruct (valid_axis_loop_spec (Z.to_nat (ax_num a - 1)) (ax_values a) 0) as (b & E & S); try lia.
    exists b. split; [exact E|]. rewrite S. split.
    + intros A. split; [lia|]. intros k H1 H2. apply A. lia.
    + intros [_ A] k Hk. apply A; lia.
Qed.

(** ** Two-axis tables *)
From Flocq Require Import Relative.

Definition b2 (e : Z) : R := bpow radix2 e.

Lemma rnd_err x : (Rabs (rnd x - x) <= b2 (-24) * Rabs x + b2 (-150))%R.
Proof.
  destruct (error_N_FLT radix2 (-149) 24 ltac:(lia) (fun x => negb (Z.even x)) x) as (eps & eta & He & Ht & _ & E).
  change (round radix2 (FLT_exp (-149) 24) ZnearestE x = x * (1 + eps) + eta)%R in E.
  change fexp32 with (FLT_exp (-149) 24) in *. rewrite E.
  replace (x * (1 + eps) + eta - x)%R with (x * eps + eta)%R by ring.
  eapply Rle_trans; [apply Rabs_triang|]. rewrite Rabs_mult.
  assert (E1 : (/2 * bpow radix2 (-24 + 1) = b2 (-24))%R).
  { unfold b2. rewrite bpow_S. lra. }
  assert (E2 : (/2 * bpow radix2 (-149) = b2 (-150))%R).
  { unfold b2. change (-149) with (-150 + 1). rewrite bpow_S. lra. }
  assert (He' : (Rabs eps <= b2 (-24))%R) by (rewrite <- E1; exact He).
  rewrite E2 in Ht.
  apply Rplus_le_compat; [|exact Ht]. rewrite (Rmult_comm (b2 _)). apply Rmult_le_compat_l; [apply Rabs_pos|exact He'].
Qed.

Lemma sub_rel x y : sane x -> sane y -> exists e, (Rabs e <= b2 (-24))%R /\ R_ (fsub x y) = ((R_ x - R_ y) * (1 + e))%R.
Proof.
  intros Sx Sy. destruct (sub_sane x y Sx Sy) as (A & _). rewrite A.
  destruct (FLT_plus_error_N_ex radix2 (-149) 24 (fun x => negb (Z.even x)) (R_ x) (- R_ y)) as (e & He & E).
  - apply (generic_R x); auto with vf.
  - apply generic_format_opp. apply (generic_R y); auto with vf.
  - exists e. split; [|exact E]. eapply Rle_trans; [exact He|].
    assert (U : u_ro radix2 24 = b2 (-24)).
    { change (/ 2 * bpow radix2 (-24 + 1) = bpow radix2 (-24))%R. rewrite bpow_S. lra. }
    rewrite U. assert (P : (0 < b2 (-24))%R) by apply bpow_gt_0.
    apply Rmult_le_reg_r with (1 + b2 (-24))%R; [lra|].
    unfold Rdiv. rewrite Rmult_assoc, Rinv_l by lra. nra.
Qed.

Definition w_lo (x x1 x2 : f32) : f32 := fdiv (fsub x2 x) (fsub x2 x1).
Definition w_hi (x x1 x2 : f32) : f32 := fdiv (fsub x x1) (fsub x2 x1).
Definition comb (w1 w2 a b : f32) : f32 := fadd (fmul w1 a) (fmul w2 b).

Lemma div_one n d : vf n -> vf d -> fin n -> fin d -> R_ d <> 0%R -> R_ n = R_ d ->
  R_ (fdiv n d) = 1%R /\ fin (fdiv n d).
Proof.
  intros Vn Vd Fn Fd Hd Hn.
  assert (E : (R_ n / R_ d = 1)%R) by (rewrite Hn; field; auto).
  destruct (fdiv_correct n d) as [A F]; auto.
  - rewrite E. apply (bound_max _ 0); try lia. simpl. rewrite Rabs_R1. lra.
  - rewrite A, E, rnd_1. auto.
Qed.

Lemma w_exact x x1 x2 : sane x -> sane x1 -> sane x2 -> R_ x = R_ x1 -> R_ x2 <> R_ x1 ->
  fin (w_lo x x1 x2) /\ fin (w_hi x x1 x2) /\ R_ (w_lo x x1 x2) = 1%R /\ R_ (w_hi x x1 x2) = 0%R.
Proof.
  intros S S1 S2 E N. unfold w_lo, w_hi.
  destruct (sub_sane x x1 S S1) as (A1 & F1 & V1 & _).
  destruct (sub_sane x2 x1 S2 S1) as (A2 & F2 & V2 & _).
  destruct (sub_sane x2 x S2 S) as (A3 & F3 & V3 & _).
  destruct (div_one (fsub x2 x) (fsub x2 x1)); auto.
  { apply sub_neq0; auto. } { rewrite A3, A2, E. reflexivity. }
  destruct (div_zero (fsub x x1) (fsub x2 x1)); auto.
  { apply sub_neq0; auto. } { rewrite A1, E, Rminus_diag_eq, rnd_0; reflexivity. }
Qed.

Lemma comb_exact w1 w2 a b : vf w1 -> vf w2 -> vf a -> vf b -> fin w1 -> fin w2 -> fin a -> fin b ->
  R_ w1 = 1%R -> R_ w2 = 0%R -> R_ (comb w1 w2 a b) = R_ a /\ fin (comb w1 w2 a b).
Proof.
  intros. unfold comb.
  destruct (mul_one_l w1 a) as [A1 F1]; auto. destruct (mul_zero_l w2 b) as [A2 F2]; auto.
  destruct (add_zero_r (fmul w1 a) (fmul w2 b)) as [A3 F3]; auto with vf.
  split; [congruence|auto].
Qed.

Lemma w_bounds x x1 x2 : sane x -> sane x1 -> sane x2 -> (R_ x1 <= R_ x <= R_ x2)%R -> (R_ x1 < R_ x2)%R ->
  fin (w_lo x x1 x2) /\ fin (w_hi x x1 x2) /\ (0 <= R_ (w_lo x x1 x2) <= 1)%R /\ (0 <= R_ (w_hi x x1 x2) <= 1)%R /\
  (Rabs (R_ (w_lo x x1 x2) + R_ (w_hi x x1 x2) - 1) <= b2 (-21))%R.
Proof.
  intros S S1 S2 B L. unfold w_lo, w_hi.
  destruct (sub_sane x x1 S S1) as (A1 & F1 & V1 & _).
  destruct (sub_sane x2 x1 S2 S1) as (A2 & F2 & V2 & _).
  destruct (sub_sane x2 x S2 S) as (A3 & F3 & V3 & _).
  assert (P2 : (0 < R_ (fsub x2 x1))%R).
  { assert (N := sub_neq0 _ _ S2 S1 ltac:(lra)).
    assert (0 <= R_ (fsub x2 x1))%R by (rewrite A2, <- rnd_0; apply rnd_le; lra). lra. }
  assert (P1 : (0 <= R_ (fsub x x1) <= R_ (fsub x2 x1))%R).
  { rewrite A1, A2. split; [rewrite <- rnd_0|]; apply rnd_le; lra. }
  assert (P3 : (0 <= R_ (fsub x2 x) <= R_ (fsub x2 x1))%R).
  { rewrite A3, A2. split; [rewrite <- rnd_0|]; apply rnd_le; lra. }
  destruct (div_unit _ _ V1 V2 F1 F2 P2 P1) as (R1 & G1 & B1).
  destruct (div_unit _ _ V3 V2 F3 F2 P2 P3) as (R3 & G3 & B3).
  repeat split; try tauto; try apply B1; try apply B3.
  pose proof (rnd_err (R_ (fsub x x1) / R_ (fsub x2 x1))) as E1. rewrite <- R1 in E1.
  pose proof (rnd_err (R_ (fsub x2 x) / R_ (fsub x2 x1))) as E3. rewrite <- R3 in E3.
  destruct (sub_rel x x1 S S1) as (e1 & He1 & Q1).
  destruct (sub_rel x2 x1 S2 S1) as (e2 & He2 & Q2).
  destruct (sub_rel x2 x S2 S) as (e3 & He3 & Q3).
  set (D := R_ (fsub x2 x1)) in *. set (n1 := R_ (fsub x x1)) in *. set (n3 := R_ (fsub x2 x)) in *.
  set (q1 := R_ (fdiv (fsub x x1) (fsub x2 x1))) in *. set (q3 := R_ (fdiv (fsub x2 x) (fsub x2 x1))) in *.
  assert (I1 : (0 <= n1 / D <= 1)%R).
  { split; [apply Rmult_le_pos; [lra|apply Rlt_le, Rinv_0_lt_compat; lra]|].
    apply Rmult_le_reg_r with D; [lra|]. unfold Rdiv. rewrite Rmult_assoc, Rinv_l by lra. lra. }
  assert (I3 : (0 <= n3 / D <= 1)%R).
  { split; [apply Rmult_le_pos; [lra|apply Rlt_le, Rinv_0_lt_compat; lra]|].
    apply Rmult_le_reg_r with D; [lra|]. unfold Rdiv. rewrite Rmult_assoc, Rinv_l by lra. lra. }
  rewrite (Rabs_pos_eq (n1 / D)) in E1 by lra. rewrite (Rabs_pos_eq (n3 / D)) in E3 by lra.
  assert (U : (b2 (-24) = / 16777216)%R) by (unfold b2; simpl; lra).
  assert (U21 : (b2 (-21) = / 2097152)%R) by (unfold b2; simpl; lra).
  assert (T : (0 < b2 (-150) <= / 16777216)%R).
  { split; [apply bpow_gt_0|]. rewrite <- U. apply bpow_le. lia. }
  rewrite U in *. rewrite U21.
  assert (SS : (Rabs (n1 / D + n3 / D - 1) <= 3 * / 16777216)%R).
  { apply Rabs_le_inv in He1. apply Rabs_le_inv in He2. apply Rabs_le_inv in He3.
    assert (K : ((n1 / D + n3 / D - 1) * D = n1 + n3 - D)%R) by (field; lra).
    assert (Kb : (- (3 * / 16777216) * D <= n1 + n3 - D <= 3 * / 16777216 * D)%R).
    { rewrite Q1, Q3, Q2.
      assert (X1 : (-/16777216 * (R_ x - R_ x1) <= e1 * (R_ x - R_ x1) <= /16777216 * (R_ x - R_ x1))%R)
        by (split; apply Rmult_le_compat_r; lra).
      assert (X3 : (-/16777216 * (R_ x2 - R_ x) <= e3 * (R_ x2 - R_ x) <= /16777216 * (R_ x2 - R_ x))%R)
        by (split; apply Rmult_le_compat_r; lra).
      assert (X2 : (-/16777216 * (R_ x2 - R_ x1) <= e2 * (R_ x2 - R_ x1) <= /16777216 * (R_ x2 - R_ x1))%R)
        by (split; apply Rmult_le_compat_r; lra).
      lra. }
    rewrite <- K in Kb. apply Rabs_le. split; apply Rmult_le_reg_r with D; try lra. }
  apply Rabs_le_inv in SS. apply Rabs_le_inv in E1. apply Rabs_le_inv in E3. apply Rabs_le. lra.
Qed.

Lemma comb_bounds w1 w2 a b M lo hi : vf w1 -> vf w2 -> vf a -> vf b -> fin w1 -> fin w2 -> fin a -> fin b ->
  (0 <= R_ w1 <= 1)%R -> (0 <= R_ w2 <= 1)%R -> (Rabs (R_ w1 + R_ w2 - 1) <= b2 (-21))%R ->
  (M <= b2 101)%R -> (-M <= lo)%R -> (hi <= M)%R -> (lo <= R_ a <= hi)%R -> (lo <= R_ b <= hi)%R ->
  fin (comb w1 w2 a b) /\ vf (comb w1 w2 a b) /\
  (lo - (b2 (-20) * M + b2 (-146)) <= R_ (comb w1 w2 a b) <= hi + (b2 (-20) * M + b2 (-146)))%R /\
  (0 <= lo -> 0 <= R_ (comb w1 w2 a b))%R.
Proof.
  intros V1 V2 Va Vb F1 F2 Fa Fb B1 B2 S HM Hlo Hhi Ba Bb. unfold comb.
  assert (Aa : (Rabs (R_ a) <= M)%R) by (apply Rabs_le; lra).
  assert (Ab : (Rabs (R_ b) <= M)%R) by (apply Rabs_le; lra).
  assert (M0 : (0 <= M)%R) by (pose proof (Rabs_pos (R_ a)); lra).
  assert (P1 : (Rabs (R_ w1 * R_ a) <= M)%R).
  { rewrite Rabs_mult, (Rabs_pos_eq (R_ w1)) by lra. pose proof (Rabs_pos (R_ a)). nra. }
  assert (P2 : (Rabs (R_ w2 * R_ b) <= M)%R).
  { rewrite Rabs_mult, (Rabs_pos_eq (R_ w2)) by lra. pose proof (Rabs_pos (R_ b)). nra. }
  destruct (fmul_correct w1 a) as [A1 G1]; auto. { apply (bound_max _ 101); try lia. unfold b2 in HM; lra. }
  destruct (fmul_correct w2 b) as [A2 G2]; auto. { apply (bound_max _ 101); try lia. unfold b2 in HM; lra. }
  assert (Q1 : (Rabs (R_ (fmul w1 a)) <= bpow radix2 101)%R) by (rewrite A1; apply rnd_abs_le_bpow; [lia|unfold b2 in HM; lra]).
  assert (Q2 : (Rabs (R_ (fmul w2 b)) <= bpow radix2 101)%R) by (rewrite A2; apply rnd_abs_le_bpow; [lia|unfold b2 in HM; lra]).
  destruct (fadd_correct (fmul w1 a) (fmul w2 b)) as [A3 G3]; auto with vf.
  { apply (bound_max _ 102); try lia. change 102 with (101 + 1). rewrite bpow_S.
    eapply Rle_trans; [apply Rabs_triang|]. lra. }
  split; [exact G3|]. split; [auto with vf|]. split.
  2:{ intros L0. rewrite A3, <- rnd_0. apply rnd_le.
      assert (0 <= R_ (fmul w1 a))%R. { rewrite A1, <- rnd_0. apply rnd_le. apply Rmult_le_pos; lra. }
      assert (0 <= R_ (fmul w2 b))%R. { rewrite A2, <- rnd_0. apply rnd_le. apply Rmult_le_pos; lra. }
      lra. }
  pose proof (rnd_err (R_ w1 * R_ a)) as E1. rewrite <- A1 in E1.
  pose proof (rnd_err (R_ w2 * R_ b)) as E2. rewrite <- A2 in E2.
  pose proof (rnd_err (R_ (fmul w1 a) + R_ (fmul w2 b))) as E3. rewrite <- A3 in E3.
  assert (U : (b2 (-24) = / 16777216)%R) by (unfold b2; simpl; lra).
  assert (U21 : (b2 (-21) = 8 * / 16777216)%R) by (unfold b2; simpl; lra).
  assert (U20 : (b2 (-20) = 16 * / 16777216)%R) by (unfold b2; simpl; lra).
  assert (U146 : (b2 (-146) = 16 * b2 (-150))%R).
  { unfold b2. change (-146) with (4 + -150). rewrite bpow_plus. simpl (bpow radix2 4). lra. }
  assert (T : (0 < b2 (-150))%R) by apply bpow_gt_0.
  rewrite U in *. rewrite U21 in S. rewrite U20, U146. set (t := b2 (-150)) in *. set (u := (/ 16777216)%R) in *.
  assert (Hu : (u = / 16777216)%R) by reflexivity. clearbody u.
  set (pa := (R_ w1 * R_ a)%R) in *. set (pb := (R_ w2 * R_ b)%R) in *.
  set (ra := R_ (fmul w1 a)) in *. set (rb := R_ (fmul w2 b)) in *. set (r := R_ (fadd (fmul w1 a) (fmul w2 b))) in *.
  assert (W : (R_ w1 * M + R_ w2 * M <= (1 + 8 * u) * M)%R).
  { apply Rabs_le_inv in S. rewrite <- Rmult_plus_distr_r. apply Rmult_le_compat_r; lra. }
  assert (Pa : (Rabs pa <= R_ w1 * M)%R).
  { unfold pa. rewrite Rabs_mult, (Rabs_pos_eq (R_ w1)) by lra. apply Rmult_le_compat_l; lra. }
  assert (Pb : (Rabs pb <= R_ w2 * M)%R).
  { unfold pb. rewrite Rabs_mult, (Rabs_pos_eq (R_ w2)) by lra. apply Rmult_le_compat_l; lra. }
  (* exact combination *)
  assert (X : (lo - 8 * u * M <= pa + pb <= hi + 8 * u * M)%R).
  { assert (sl : (Rabs ((R_ w1 + R_ w2 - 1) * lo) <= 8 * u * M)%R).
    { rewrite Rabs_mult. apply Rmult_le_compat; try apply Rabs_pos; auto. apply Rabs_le; lra. }
    assert (sh : (Rabs ((R_ w1 + R_ w2 - 1) * hi) <= 8 * u * M)%R).
    { rewrite Rabs_mult. apply Rmult_le_compat; try apply Rabs_pos; auto. apply Rabs_le; lra. }
    apply Rabs_le_inv in sl. apply Rabs_le_inv in sh.
    assert (R_ w1 * lo <= pa <= R_ w1 * hi)%R by (unfold pa; split; apply Rmult_le_compat_l; lra).
    assert (R_ w2 * lo <= pb <= R_ w2 * hi)%R by (unfold pb; split; apply Rmult_le_compat_l; lra).
    lra. }
  assert (Err : (Rabs (ra + rb - (pa + pb)) <= u * ((1 + 8 * u) * M) + 2 * t)%R).
  { replace (ra + rb - (pa + pb))%R with ((ra - pa) + (rb - pb))%R by ring.
    eapply Rle_trans; [apply Rabs_triang|].
    assert (u * Rabs pa + u * Rabs pb <= u * ((1 + 8 * u) * M))%R.
    { rewrite <- Rmult_plus_distr_l. apply Rmult_le_compat_l; lra. }
    lra. }
  assert (Sum : (Rabs (ra + rb) <= (1 + 8 * u) * M + (u * ((1 + 8 * u) * M) + 2 * t))%R).
  { replace (ra + rb)%R with ((pa + pb) + (ra + rb - (pa + pb)))%R by ring.
    eapply Rle_trans; [apply Rabs_triang|]. assert (Rabs (pa + pb) <= Rabs pa + Rabs pb)%R by apply Rabs_triang. lra. }
  apply Rabs_le_inv in Err. apply Rabs_le_inv in E3.
  assert (Fin : (u * Rabs (ra + rb) <= 2 * u * M + 2 * t)%R).
  { eapply Rle_trans; [apply Rmult_le_compat_l; [lra|exact Sum]|].
    assert (u * ((1 + 8 * u) * M + (u * ((1 + 8 * u) * M) + 2 * t)) = u * (1 + 8*u) * (1 + u) * M + 2 * u * t)%R by ring.
    assert (u * (1 + 8*u) * (1+u) * M <= 2 * u * M)%R.
    { apply Rmult_le_compat_r; [lra|]. rewrite Hu. lra. }
    assert (2 * u * t <= 2 * t)%R by (rewrite Hu; lra). lra. }
  assert (Err2 : (u * ((1 + 8 * u) * M) <= 2 * u * M)%R).
  { rewrite <- Rmult_assoc. apply Rmult_le_compat_r; [lra|]. rewrite Hu; lra. }
  assert (0 <= u * M)%R by (apply Rmult_le_pos; lra).
  lra.
Qed.

(** ** From lookup values to cells *)
Lemma fge_fle x y : fge x y = fle y x. Proof. reflexivity. Qed.
Lemma fgt_flt x y : fgt x y = flt y x. Proof. reflexivity. Qed.

Lemma cmp_not_nan val x : feq val x = true \/ flt val x = true \/ fgt val x = true \/ fge val x = true -> val <> S754_nan.
Proof. intros H ->. destruct x; cbn in H; intuition discriminate. Qed.

Lemma feq_fin x y : feq x y = true -> fin y -> fin x.
Proof. destruct x as [| [] | |], y as [| [] | |]; cbn; intros; try reflexivity; try discriminate. Qed.
Lemma fle_lt_fin x y z : fle x y = true -> flt y z = true -> fin x -> fin z -> fin y.
Proof. destruct y as [| [] | |], x as [| [] | |], z as [| [] | |]; cbn; intros; try reflexivity; try discriminate. Qed.

Lemma at_breakpoint_clamp a val i : wf_axis a -> ascending a -> 1 <= ax_num a <= 23 -> 0 <= i < ax_num a ->
  vf val -> at_breakpoint a val i ->
  not_nan val /\ exists v, clamp_to_axis a val = Ok v /\ sane v /\ R_ v = R_ (elt (ax_values a) i).
Proof.
  intros Wa Asc Hn Hi V At.
  assert (N : not_nan val).
  { destruct At as [H|[[_ H]|[_ H]]]; eapply cmp_not_nan; eauto. }
  split; [exact N|].
  destruct (clamp_to_axis_spec a val) as (v & E & Vv & Fv & B & C1 & C2 & C3); auto; try lia.
  exists v. split; [exact E|]. split; [apply (sane_of_between a); auto; lia|].
  pose proof (proj1 Asc 0 ltac:(lia)) as S0. pose proof (proj1 Asc (ax_num a - 1) ltac:(lia)) as Sn.
  pose proof (proj1 Asc i ltac:(lia)) as Si.
  destruct At as [H|[[-> H]|[-> H]]].
  - assert (F : fin val) by (apply (feq_fin _ _ H); auto with vf).
    apply feq_iff in H; auto with vf. rewrite (C3 F); auto.
    rewrite H. split; apply (asc_weak a Asc); try lia; destruct Wa as (L & _); lia.
  - apply C1. revert H. clear. unfold flt, fle, SFltb, SFleb. destruct (SFcompare val _) as [[]|]; congruence.
  - apply C2. revert H. clear. rewrite fgt_flt, fge_fle. unfold flt, fle, SFltb, SFleb. destruct (SFcompare _ val) as [[]|]; congruence.
Qed.

Lemma find_at nd a v i : wf_axis a -> ascending a -> 1 <= ax_num a <= 23 -> 0 <= i < ax_num a -> sane v ->
  (R_ (elt (ax_values a) i) <= R_ v)%R -> (i + 1 < ax_num a -> (R_ v < R_ (elt (ax_values a) (i + 1)))%R) ->
  (R_ v <= R_ (elt (ax_values a) (ax_num a - 1)))%R ->
  axis_find_cell_lower nd a v = Ok i.
Proof.
  intros Wa Asc Hn Hi Sv L U T.
  assert (Z0 : (R_ (elt (ax_values a) 0) <= R_ (elt (ax_values a) i))%R).
  { apply (asc_weak a Asc); try lia. destruct Wa as (W & _); lia. }
  destruct (find_lower_spec nd a v) as (j & -> & Bj & C & D); auto with vf; try lia; try lra. f_equal.
  destruct (Z.lt_trichotomy i j) as [Lt|[Eq|Gt]]; [|easy|].
  - assert (R_ (elt (ax_values a) (i+1)) <= R_ (elt (ax_values a) j))%R.
    { apply (asc_weak a Asc); try lia. destruct Wa as (W & _); lia. }
    specialize (U ltac:(lia)). lra.
  - specialize (D i ltac:(lia)). lra.
Qed.

Lemma in_cell_clamp a val i : wf_axis a -> ascending a -> 1 <= ax_num a <= 23 -> vf val -> in_cell a val i ->
  sane val /\ clamp_to_axis a val = Ok val /\
  (R_ (elt (ax_values a) i) <= R_ val)%R /\ (R_ val < R_ (elt (ax_values a) (i + 1)))%R /\
  (forall nd, axis_find_cell_lower nd a val = Ok i).
Proof.
  intros Wa Asc Hn V (I0 & I1 & G & L).
  pose proof (proj1 Asc i ltac:(lia)) as Si. pose proof (proj1 Asc (i+1) ltac:(lia)) as Si1.
  assert (F : fin val).
  { apply (fle_lt_fin _ _ _ G L); auto with vf. }
  rewrite fge_fle in G. apply fle_iff in G; auto with vf. apply flt_iff in L; auto with vf.
  assert (W24 : ax_num a <= Z.of_nat (length (ax_values a))) by (destruct Wa as (W & _); lia).
  assert (R_ (elt (ax_values a) 0) <= R_ (elt (ax_values a) i))%R by (apply (asc_weak a Asc); lia).
  assert (R_ (elt (ax_values a) (i+1)) <= R_ (elt (ax_values a) (ax_num a - 1)))%R by (apply (asc_weak a Asc); lia).
  assert (Sv : sane val) by (apply (sane_of_between a); auto; try lia; lra).
  destruct (clamp_to_axis_spec a val) as (v & E & _ & _ & _ & _ & _ & C3); auto; try lia.
  { intros ->. discriminate F. }
  repeat split; auto with vf; try apply Sv.
  - rewrite E, C3; auto. lra.
  - intros nd. apply find_at; auto; try lia; lra.
Qed.

Lemma tail_sane a i : ascending a -> good_tail a -> 1 <= ax_num a <= 23 -> 0 <= i < ax_num a ->
  sane (elt (ax_values a) (i + 1)) /\ R_ (elt (ax_values a) (i + 1)) <> R_ (elt (ax_values a) i).
Proof.
  intros Asc [S N] Hn Hi. destruct (Z.eq_dec (i + 1) (ax_num a)) as [E|E].
  - rewrite E. split; [exact S|]. replace i with (ax_num a - 1) by lia. intros X.
    assert (feq (elt (ax_values a) (ax_num a)) (elt (ax_values a) (ax_num a - 1)) = true); [|congruence].
    pose proof (proj1 Asc (ax_num a - 1) ltac:(lia)). apply feq_iff; auto with vf.
  - split; [apply (proj1 Asc); lia|]. pose proof (asc_strict a Asc i (i+1) ltac:(lia) ltac:(lia) ltac:(lia)). lra.
Qed.

Lemma at_find nd a v i : wf_axis a -> ascending a -> 1 <= ax_num a <= 23 -> 0 <= i < ax_num a -> sane v ->
  R_ v = R_ (elt (ax_values a) i) -> axis_find_cell_lower nd a v = Ok i.
Proof.
  intros. apply find_at; auto; try lra.
  - intros. rewrite H4. apply asc_strict; auto; lia.
  - rewrite H4. apply asc_weak; auto; try lia. destruct H as (W & _); lia.
Qed.

Lemma elt_sane_data d n i : (forall k, 0 <= k <= n -> sane (elt d k)) -> 0 <= i < n -> sane (elt d i) /\ sane (elt d (i+1)).
Proof. intros H Hi; split; apply H; lia. Qed.

Lemma lookup1_exact nd t val i : wf_table1 t -> ascending (t1_cols t) -> good_tail (t1_cols t) ->
  1 <= ax_num (t1_cols t) <= 23 ->
  (forall k, 0 <= k <= ax_num (t1_cols t) -> sane (elt (t1_data t) k)) ->
  0 <= i < ax_num (t1_cols t) -> vf val -> at_breakpoint (t1_cols t) val i ->
  exists r, interpolate_table_oneaxis nd t val = Ok r /\ feq r (elt (t1_data t) i) = true.
Proof.
  intros (Wa & L2 & F2) Asc Gt Hn Sd Hi V At.
  destruct (at_breakpoint_clamp _ _ _ Wa Asc Hn Hi V At) as (N & v & E & Sv & Rv).
  unfold interpolate_table_oneaxis. rewrite E. cbn [bind]. rewrite (at_find nd _ v i) by auto. cbn [bind].
  pose proof Wa as (Lw & _). rewrite !get_elt by lia. cbn [bind]. eexists; split; [reflexivity|].
  destruct (tail_sane _ i Asc Gt Hn Hi) as [S2 N2].
  destruct (lerp_left v (elt (ax_values (t1_cols t)) i) (elt (ax_values (t1_cols t)) (i + 1)) (elt (t1_data t) i) (elt (t1_data t) (i + 1))) as [P Q];
    auto; try (apply Sd; lia). { apply (proj1 Asc); lia. }
  apply feq_iff; auto with vf; try (apply Sd; lia).
  unfold lerp. assert (sane (elt (t1_data t) i)) by (apply Sd; lia). assert (sane (elt (t1_data t) (i+1))) by (apply Sd; lia).
  assert (sane (elt (ax_values (t1_cols t)) i)) by (apply (proj1 Asc); lia). auto 10 with vf.
Qed.

Lemma lookup2_shape nd t x y vx vy i j : wf_table2 t -> 1 <= ax_num (t2_cols t) <= 23 -> 1 <= ax_num (t2_rows t) <= 23 ->
  0 <= i < ax_num (t2_cols t) -> 0 <= j < ax_num (t2_rows t) ->
  clamp_to_axis (t2_cols t) x = Ok vx -> clamp_to_axis (t2_rows t) y = Ok vy ->
  axis_find_cell_lower nd (t2_cols t) vx = Ok i -> axis_find_cell_lower nd (t2_rows t) vy = Ok j ->
  let xs := elt (ax_values (t2_cols t)) in let ys := elt (ax_values (t2_rows t)) in let d := elt2 (t2_data t) in
  interpolate_table_twoaxis nd t x y = Ok (
    comb (w_lo vy (ys j) (ys (j+1))) (w_hi vy (ys j) (ys (j+1)))
      (comb (w_lo vx (xs i) (xs (i+1))) (w_hi vx (xs i) (xs (i+1))) (d j i) (d j (i+1)))
      (comb (w_lo vx (xs i) (xs (i+1))) (w_hi vx (xs i) (xs (i+1))) (d (j+1) i) (d (j+1) (i+1)))).
Proof.
  intros ((L & _) & (L1 & _) & L2 & L3) Hn Hm Hi Hj Ex Ey Fx Fy. cbv zeta. unfold interpolate_table_twoaxis.
  rewrite Ex, Ey. cbn [bind]. rewrite Fx, Fy. cbn [bind]. rewrite !get_elt by lia. cbn [bind].
  rewrite !get2_elt by (assumption || lia). reflexivity.
Qed.

Lemma vf_comb w1 w2 a b : vf w1 -> vf w2 -> vf a -> vf b -> vf (comb w1 w2 a b).
Proof. intros. unfold comb. auto with vf. Qed.
Lemma vf_w_lo x y z : vf x -> vf y -> vf z -> vf (w_lo x y z). Proof. intros. unfold w_lo. auto with vf. Qed.
Lemma vf_w_hi x y z : vf x -> vf y -> vf z -> vf (w_hi x y z). Proof. intros. unfold w_hi. auto with vf. Qed.
Global Hint Resolve vf_comb vf_w_lo vf_w_hi : vf.

Lemma lookup2_exact nd t x y i j : wf_table2 t ->
  ascending (t2_cols t) -> good_tail (t2_cols t) -> ascending (t2_rows t) -> good_tail (t2_rows t) ->
  1 <= ax_num (t2_cols t) <= 23 -> 1 <= ax_num (t2_rows t) <= 23 ->
  (forall r c, 0 <= r <= ax_num (t2_rows t) -> 0 <= c <= ax_num (t2_cols t) -> sane (elt2 (t2_data t) r c)) ->
  0 <= i < ax_num (t2_cols t) -> 0 <= j < ax_num (t2_rows t) -> vf x -> vf y ->
  at_breakpoint (t2_cols t) x i -> at_breakpoint (t2_rows t) y j ->
  exists r, interpolate_table_twoaxis nd t x y = Ok r /\ feq r (elt2 (t2_data t) j i) = true.
Proof.
  intros Wt Ax Gx Ay Gy Hn Hm Sd Hi Hj Vx Vy Atx Aty.
  pose proof Wt as (Wx & Wy & _).
  destruct (at_breakpoint_clamp _ _ _ Wx Ax Hn Hi Vx Atx) as (_ & vx & Ex & Sx & Rx).
  destruct (at_breakpoint_clamp _ _ _ Wy Ay Hm Hj Vy Aty) as (_ & vy & Ey & Sy & Ry).
  eexists. split. { apply (lookup2_shape nd t x y vx vy i j); auto; apply at_find; auto. }
  destruct (tail_sane _ i Ax Gx Hn Hi) as [S2 N2]. destruct (tail_sane _ j Ay Gy Hm Hj) as [T2 M2].
  assert (S1 : sane (elt (ax_values (t2_cols t)) i)) by (apply (proj1 Ax); lia).
  assert (T1 : sane (elt (ax_values (t2_rows t)) j)) by (apply (proj1 Ay); lia).
  destruct (w_exact vx _ _ Sx S1 S2 Rx N2) as (F1 & F2 & O1 & O2).
  destruct (w_exact vy _ _ Sy T1 T2 Ry M2) as (G1 & G2 & P1 & P2).
  assert (D11 : sane (elt2 (t2_data t) j i)) by (apply Sd; lia).
  assert (D12 : sane (elt2 (t2_data t) j (i+1))) by (apply Sd; lia).
  assert (D21 : sane (elt2 (t2_data t) (j+1) i)) by (apply Sd; lia).
  assert (D22 : sane (elt2 (t2_data t) (j+1) (i+1))) by (apply Sd; lia).
  set (wl := w_lo vx _ _) in *. set (wh := w_hi vx _ _) in *. set (yl := w_lo vy _ _) in *. set (yh := w_hi vy _ _) in *.
  assert (vf wl) by (unfold wl; auto with vf). assert (vf wh) by (unfold wh; auto with vf).
  assert (vf yl) by (unfold yl; auto with vf). assert (vf yh) by (unfold yh; auto with vf).
  destruct (comb_exact wl wh (elt2 (t2_data t) j i) (elt2 (t2_data t) j (i+1))) as [C1 K1]; auto with vf.
  destruct (comb_exact wl wh (elt2 (t2_data t) (j+1) i) (elt2 (t2_data t) (j+1) (i+1))) as [C2 K2]; auto with vf.
  destruct (comb_exact yl yh (comb wl wh (elt2 (t2_data t) j i) (elt2 (t2_data t) j (i+1))) (comb wl wh (elt2 (t2_data t) (j+1) i) (elt2 (t2_data t) (j+1) (i+1)))) as [C3 K3]; auto 10 with vf.
  apply feq_iff; auto 10 with vf. congruence.
Qed.

Lemma lookup1_between nd t val i : wf_table1 t -> ascending (t1_cols t) -> 1 <= ax_num (t1_cols t) <= 23 ->
  vf val -> in_cell (t1_cols t) val i -> sane (elt (t1_data t) i) -> sane (elt (t1_data t) (i + 1)) ->
  let a := R_ (elt (t1_data t) i) in let b := R_ (elt (t1_data t) (i + 1)) in
  exists r, interpolate_table_oneaxis nd t val = Ok r /\ fin r /\
    ((a <= b)%R -> (a <= R_ r <= rnd (a + rnd (b - a)))%R) /\
    ((b <= a)%R -> (rnd (a + rnd (b - a)) <= R_ r <= a)%R).
Proof.
  intros (Wa & L2 & F2) Asc Hn V In Sa Sb. cbv zeta.
  destruct (in_cell_clamp _ _ _ Wa Asc Hn V In) as (Sv & E & B1 & B2 & Fd).
  destruct In as (I0 & I1 & _).
  unfold interpolate_table_oneaxis. rewrite E. cbn [bind]. rewrite Fd. cbn [bind].
  pose proof Wa as (Lw & _). rewrite !get_elt by lia. cbn [bind]. eexists; split; [reflexivity|].
  apply lerp_between; auto; try (apply (proj1 Asc); lia); lra.
Qed.

Lemma lookup2_between nd t x y i j lo hi M : wf_table2 t -> ascending (t2_cols t) -> ascending (t2_rows t) ->
  1 <= ax_num (t2_cols t) <= 23 -> 1 <= ax_num (t2_rows t) <= 23 ->
  vf x -> vf y -> in_cell (t2_cols t) x i -> in_cell (t2_rows t) y j ->
  (forall r c, r = j \/ r = j + 1 -> c = i \/ c = i + 1 ->
     sane (elt2 (t2_data t) r c) /\ (lo <= R_ (elt2 (t2_data t) r c) <= hi)%R) ->
  (- M <= lo)%R -> (hi <= M)%R -> (M <= bpow radix2 100)%R ->
  exists r, interpolate_table_twoaxis nd t x y = Ok r /\ fin r /\
    (lo - (b2 (-18) * M + b2 (-144)) <= R_ r <= hi + (b2 (-18) * M + b2 (-144)))%R /\ (0 <= lo -> 0 <= R_ r)%R.
Proof.
  intros Wt Ax Ay Hn Hm Vx Vy Inx Iny Hd Hlo Hhi HM.
  pose proof Wt as (Wx & Wy & _).
  destruct (in_cell_clamp _ _ _ Wx Ax Hn Vx Inx) as (Sx & Ex & X1 & X2 & Fx).
  destruct (in_cell_clamp _ _ _ Wy Ay Hm Vy Iny) as (Sy & Ey & Y1 & Y2 & Fy).
  destruct Inx as (I0 & I1 & _). destruct Iny as (J0 & J1 & _).
  eexists. split. { apply (lookup2_shape nd t x y x y i j); auto; lia. }
  assert (S1 : sane (elt (ax_values (t2_cols t)) i)) by (apply (proj1 Ax); lia).
  assert (S2 : sane (elt (ax_values (t2_cols t)) (i+1))) by (apply (proj1 Ax); lia).
  assert (T1 : sane (elt (ax_values (t2_rows t)) j)) by (apply (proj1 Ay); lia).
  assert (T2 : sane (elt (ax_values (t2_rows t)) (j+1))) by (apply (proj1 Ay); lia).
  destruct (w_bounds x _ _ Sx S1 S2) as (F1 & F2 & O1 & O2 & O3); try lra.
  destruct (w_bounds y _ _ Sy T1 T2) as (G1 & G2 & P1 & P2 & P3); try lra.
  destruct (Hd j i) as [D11 E11]; auto. destruct (Hd j (i+1)) as [D12 E12]; auto.
  destruct (Hd (j+1) i) as [D21 E21]; auto. destruct (Hd (j+1) (i+1)) as [D22 E22]; auto.
  set (wl := w_lo x _ _) in *. set (wh := w_hi x _ _) in *. set (yl := w_lo y _ _) in *. set (yh := w_hi y _ _) in *.
  assert (vf wl) by (unfold wl; auto with vf). assert (vf wh) by (unfold wh; auto with vf).
  assert (vf yl) by (unfold yl; auto with vf). assert (vf yh) by (unfold yh; auto with vf).
  assert (B101 : (b2 101 = 2 * bpow radix2 100)%R) by (unfold b2; change 101 with (100 + 1); apply bpow_S).
  assert (P100 : (1 <= bpow radix2 100)%R) by (apply (bpow_le radix2 0); lia).
  destruct (comb_bounds wl wh (elt2 (t2_data t) j i) (elt2 (t2_data t) j (i+1)) M lo hi) as (K1 & W1 & B1 & N1); auto with vf; try lra.
  destruct (comb_bounds wl wh (elt2 (t2_data t) (j+1) i) (elt2 (t2_data t) (j+1) (i+1)) M lo hi) as (K2 & W2 & B2 & N2); auto with vf; try lra.
  set (c1 := comb wl wh (elt2 (t2_data t) j i) _) in *. set (c2 := comb wl wh (elt2 (t2_data t) (j+1) i) _) in *.
  assert (U20 : (b2 (-20) = / 1048576)%R) by (unfold b2; simpl; lra).
  assert (U18 : (b2 (-18) = / 262144)%R) by (unfold b2; simpl; lra).
  assert (U144 : (b2 (-144) = 4 * b2 (-146))%R).
  { unfold b2. change (-144) with (2 + -146). rewrite bpow_plus. simpl (bpow radix2 2). lra. }
  assert (T : (0 < b2 (-146))%R) by apply bpow_gt_0.
  assert (T' : (b2 (-146) <= / 1024)%R).
  { apply Rle_trans with (bpow radix2 (-10)); [apply bpow_le; lia|simpl; lra]. }
  assert (M0 : (0 <= M)%R) by lra.
  rewrite U18, U144. rewrite U20 in *. set (tt := b2 (-146)) in *.
  set (M' := (M + (/ 1048576 * M + tt))%R).
  destruct (comb_bounds yl yh c1 c2 M' (lo - (/1048576 * M + tt)) (hi + (/1048576 * M + tt))) as (K3 & W3 & B3 & N3); auto; try (unfold M'; lra).
  split; [exact K3|]. rewrite U20 in B3. unfold M' in B3. split; [fold tt in B3; lra|].
  intros L0. destruct (comb_bounds yl yh c1 c2 M' 0 (hi + (/1048576 * M + tt))) as (_ & _ & _ & N4); auto; try (unfold M'; lra).
Qed.

(** Storage past the axis equal to the last breakpoint: 0/0. *)
Lemma R_zero x : vf x -> fin x -> R_ x = 0%R -> exists s, x = S754_zero s.
Proof.
  intros V F E. destruct x as [s| | |s m e]; try discriminate; [eauto|]. exfalso.
  unfold R_, SF2R in E. apply eq_0_F2R in E. destruct s; discriminate.
Qed.

Lemma fdiv_zz s1 s2 : fdiv (S754_zero s1) (S754_zero s2) = S754_nan. Proof. reflexivity. Qed.
Lemma fmul_nan x : fmul x S754_nan = S754_nan. Proof. destruct x; reflexivity. Qed.
Lemma fadd_nan x : fadd S754_nan x = S754_nan. Proof. destruct x; reflexivity. Qed.

Lemma lookup1_top_nan nd t val : wf_table1 t -> ascending (t1_cols t) -> 1 <= ax_num (t1_cols t) <= 23 ->
  feq (elt (ax_values (t1_cols t)) (ax_num (t1_cols t))) (elt (ax_values (t1_cols t)) (ax_num (t1_cols t) - 1)) = true ->
  vf val -> fge val (elt (ax_values (t1_cols t)) (ax_num (t1_cols t) - 1)) = true ->
  interpolate_table_oneaxis nd t val = Ok S754_nan.
Proof.
  intros (Wa & L2 & F2) Asc Hn Q V G.
  set (n := ax_num (t1_cols t)) in *.
  assert (At : at_breakpoint (t1_cols t) val (n - 1)).
  { unfold at_breakpoint. fold n. rewrite fge_fle in G. rewrite fgt_flt.
    pose proof (proj1 Asc (n-1) ltac:(lia)) as Sn. destruct (vf_cases val V) as [F|[->|[s ->]]].
    - apply fle_iff in G; auto with vf. destruct (Req_dec (R_ val) (R_ (elt (ax_values (t1_cols t)) (n - 1)))).
      + left. apply feq_iff; auto with vf.
      + right; right. split; auto. apply flt_iff; auto with vf. lra.
    - exfalso. clear - G. destruct (elt (ax_values (t1_cols t)) (n-1)); discriminate G.
    - right; right. split; auto. destruct Sn as (_ & Fi & _). clear - G Fi. destruct s, (elt (ax_values (t1_cols t)) (n-1)) as [|[]| |]; try discriminate Fi; try discriminate G; reflexivity. }
  destruct (at_breakpoint_clamp _ _ (n-1) Wa Asc Hn ltac:(unfold n; lia) V At) as (N & v & E & Sv & Rv).
  unfold interpolate_table_oneaxis. rewrite E. cbn [bind]. rewrite (at_find nd _ v (n-1)) by (auto; unfold n; lia). cbn [bind].
  pose proof Wa as (Lw & Fw & _). rewrite !get_elt by (unfold n; lia). cbn [bind]. replace (n - 1 + 1) with n by lia.
  pose proof (proj1 Asc (n-1) ltac:(unfold n; lia)) as Sn.
  assert (Vt : vf (elt (ax_values (t1_cols t)) n)) by (apply vf_elt; auto).
  assert (Ft : fin (elt (ax_values (t1_cols t)) n)) by (apply (feq_fin _ _ Q); auto with vf).
  apply feq_iff in Q; auto with vf.
  assert (St : sane (elt (ax_values (t1_cols t)) n)). { repeat split; auto. rewrite Q. apply Sn. }
  destruct (sub_sane v _ Sv Sn) as (A1 & F1 & V1 & _). destruct (sub_sane _ _ St Sn) as (A3 & F3 & V3 & _).
  rewrite Rv, Rminus_diag_eq, rnd_0 in A1 by reflexivity. rewrite Q, Rminus_diag_eq, rnd_0 in A3 by reflexivity.
  destruct (R_zero _ V1 F1 A1) as [s1 ->]. destruct (R_zero _ V3 F3 A3) as [s3 ->].
  now rewrite fdiv_zz, fmul_nan, fadd_nan.
Qed.

(** ** Deciding the hypotheses on concrete tables *)
Definition saneb (x : f32) : bool :=
  valid_binary fprec femax x && is_finite_SF x && fle x (f_of_Z (2 ^ 100)) && fle (f_of_Z (- 2 ^ 100)) x.
Definition ascendingb (a : axis) : bool :=
  forallb (fun i => saneb (elt (ax_values a) (Z.of_nat i))) (seq 0 (Z.to_nat (ax_num a))) &&
  forallb (fun i => flt (elt (ax_values a) (Z.of_nat i)) (elt (ax_values a) (Z.of_nat i + 1))) (seq 0 (Z.to_nat (ax_num a - 1))).

Lemma R_2p100 : R_ (f_of_Z (2 ^ 100)) = bpow radix2 100 /\ R_ (f_of_Z (- 2 ^ 100)) = (- bpow radix2 100)%R.
Proof.
  split; unfold R_.
  - replace (f_of_Z (2^100)) with (S754_finite false 8388608 77) by reflexivity. cbv -[IZR Rmult]. lra.
  - replace (f_of_Z (-2^100)) with (S754_finite true 8388608 77) by reflexivity. cbv -[IZR Rmult Ropp]. lra.
Qed.

Lemma saneb_ok x : saneb x = true -> sane x.
Proof.
  unfold saneb. rewrite !andb_true_iff. intros [[[V F] A] B].
  assert (V' : vf x) by exact V. assert (F' : fin x) by exact F.
  apply fle_iff in A; auto; try reflexivity. apply fle_iff in B; auto; try reflexivity.
  destruct R_2p100 as [E1 E2]. rewrite E1 in A. rewrite E2 in B. repeat split; auto. apply Rabs_le. lra.
Qed.

Lemma ascendingb_ok a : ascendingb a = true -> ascending a.
Proof.
  unfold ascendingb. rewrite andb_true_iff, !forallb_forall. intros [A B].
  assert (S : forall i, 0 <= i < ax_num a -> sane (elt (ax_values a) i)).
  { intros i Hi. apply saneb_ok. specialize (A (Z.to_nat i)). rewrite in_seq in A. rewrite Z2Nat.id in A by lia. apply A. lia. }
  split; [exact S|]. intros i H1 H2. specialize (B (Z.to_nat i)). rewrite in_seq in B. rewrite Z2Nat.id in B by lia.
  assert (sane (elt (ax_values a) i)) by (apply S; lia). assert (sane (elt (ax_values a) (i+1))) by (apply S; lia).
  apply flt_iff; auto with vf. apply B. lia.
Qed.

Definition pad24 (l : list f32) : list f32 := l ++ repeat f_zero (24 - length l).
