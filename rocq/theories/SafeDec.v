(** The arithmetic of decoding and scheduling is defined on sensible input: no conversion of a float that does not fit. *)
Require Import ZArith Reals List Bool Lia Lra.
Require Import Coq.Floats.SpecFloat.
From Flocq Require Import Core.
From Verif Require Import Res Word F32 F32Flocq Arr TimeProofs Table TableSpec TableProofs AngleProofs Interval Outputs PulseProofs Decoder DecoderProofs DecoderSafe DecoderRun DecoderMissing DecoderAngle Calc CalcSpec CalcProofs FuelProofs System SafeSpec.
Import ListNotations.
Open Scope Z_scope.
Ltac Zify.zify_post_hook ::= idtac.

Lemma rep_p m e : Z.abs m <= 2 ^ 24 -> 0 <= e <= 70 -> rep (IZR (m * 2 ^ e)).
Proof. intros H E. rewrite mult_IZR, (IZR_Zpower radix2) by lia. apply rep_grid; lia. Qed.
Lemma rep_n e : 0 <= e <= 70 -> rep (/ IZR (2 ^ e)).
Proof. intros E. rewrite (IZR_Zpower radix2) by lia. rewrite <- bpow_opp. apply rep_bpow. lia. Qed.

Lemma iv_word z : 0 <= z < 2 ^ 32 -> iv (f_of_Z z) (if z =? 0 then 0 else 1) 4294967296.
Proof.
  intros H. destruct (f_of_Z_u32 z) as [A B]; [lia|]. split; [auto with vf|]. split; [exact B|]. rewrite A.
  assert (R1 : rep 4294967296) by (apply (rep_p 1 32); lia).
  destruct (Z.eqb_spec z 0) as [->|N].
  - apply rep_between; [apply (rep_Z 0); lia|exact R1|lra].
  - apply rep_between; [apply (rep_Z 1); lia|exact R1|]. split; [apply (IZR_le 1); lia|apply (IZR_le _ 4294967296); lia].
Qed.

Lemma iv_ratio : iv tick_degree_rpm_ratio 666666 666667.
Proof.
  unfold tick_degree_rpm_ratio, TICKRATE. eapply iv_divc; [apply (iv_Z 4000000); lia|apply (iv_Z 6); lia|apply (rep_Z 666666); lia|apply (rep_Z 666667); lia|lra|lra|lra].
Qed.

Lemma time_ok rpm deg : 1 <= rpm < 2 ^ 32 -> iv deg 0 720 -> exists t, time_from_rpm_diff rpm deg = Ok t /\ 0 <= t <= 2 ^ 29.
Proof.
  intros H D. unfold time_from_rpm_diff. cbv zeta. pose proof (iv_word rpm ltac:(lia)) as I. replace (rpm =? 0) with false in I by (symmetry; apply Z.eqb_neq; lia).
  assert (A : iv (fdiv tick_degree_rpm_ratio (f_of_Z rpm)) 0 666667).
  { eapply iv_div; [exact iv_ratio|exact I|apply (rep_Z 0); lia|apply (rep_Z 666667); lia|lra..]. }
  apply iv_to_u32; [|unfold W; lia]. eapply iv_mul; [exact A|exact D|apply (rep_Z 0); lia|apply (rep_p 1 29); lia|lra|lra|lra|].
  apply Rle_trans with 480000240%R; [lra|]. apply (IZR_le 480000240). lia.
Qed.

Lemma rpm_ok t deg : 1 <= t < 2 ^ 32 -> iv deg (/ 128) 3600 -> exists r, rpm_from_time_diff t deg = Ok r /\ 0 <= r < 2 ^ 32.
Proof.
  intros H D. unfold rpm_from_time_diff. cbv zeta. pose proof (iv_word t ltac:(lia)) as I. replace (t =? 0) with false in I by (symmetry; apply Z.eqb_neq; lia).
  assert (A : iv (fdiv (f_of_Z t) deg) (/ 4096) 549755813888).
  { eapply iv_div; [exact I|exact D|apply (rep_n 12); lia|apply (rep_p 1 39); lia|lra..]. }
  destruct (iv_to_u32 (fdiv tick_degree_rpm_ratio (fdiv (f_of_Z t) deg)) (3 * 2 ^ 30)) as (z & E & B); [|unfold W; lia|exists z; split; [exact E|lia]].
  eapply iv_div; [exact iv_ratio|exact A|apply (rep_Z 0); lia|apply (rep_p 3 30); lia|lra|lra|lra|lra|].
  apply Rle_trans with (3221225472 * / 4096)%R; [lra|]. apply Rmult_le_compat_r; [lra|]. apply (IZR_le 3221225472). lia.
Qed.

(** Lookups in a table with cells between -M and M. *)
Lemma look2_sym nd t M x y : usable2 t (- M) M -> (1 <= M)%R -> (M <= b2 60)%R -> vf x -> not_nan x -> vf y -> not_nan y ->
  exists r, interpolate_table_twoaxis nd t x y = Ok r /\ vf r /\ fin r /\ (Rabs (R_ r) <= M * (1 + / 100000))%R.
Proof.
  intros (Wt & Ax & Gx & Ay & Gy & Hn & Hm & Sd & Bd) H1 H2 Vx Nx Vy Ny.
  pose proof Wt as (Wx & Wy & _).
  destruct (axis_weights nd (t2_cols t) x) as (vx & i & Ex & Fx & Bi & P); auto.
  destruct (axis_weights nd (t2_rows t) y) as (vy & j & Ey & Fy & Bj & Q); auto.
  rewrite (lookup2_shape nd t x y vx vy i j) by auto. cbv zeta in P, Q |- *. eexists; split; [reflexivity|].
  set (wl := w_lo vx _ _) in *. set (wh := w_hi vx _ _) in *. set (yl := w_lo vy _ _) in *. set (yh := w_hi vy _ _) in *.
  clearbody wl wh yl yh.
  destruct P as (V1 & V2 & F1 & F2 & P). destruct Q as (V3 & V4 & F3 & F4 & Q).
  assert (D11 : sane (elt2 (t2_data t) j i)) by (apply Sd; lia).
  assert (D12 : sane (elt2 (t2_data t) j (i+1))) by (apply Sd; lia).
  assert (D21 : sane (elt2 (t2_data t) (j+1) i)) by (apply Sd; lia).
  assert (D22 : sane (elt2 (t2_data t) (j+1) (i+1))) by (apply Sd; lia).
  assert (U60 : (b2 60 <= b2 99)%R) by (apply bpow_le; lia).
  assert (U99 : (b2 99 <= b2 101)%R) by (apply bpow_le; lia).
  assert (U100 : (2 * b2 99 = b2 100)%R) by (unfold b2; change 100 with (99 + 1); rewrite bpow_S; ring).
  assert (U101 : (b2 100 <= b2 101)%R) by (apply bpow_le; lia).
  assert (E20 : (b2 (-20) = / 1048576)%R) by (unfold b2; simpl; lra).
  assert (E146 : (0 < b2 (-146) <= / 1048576)%R).
  { split; [apply bpow_gt_0|]. rewrite <- E20. apply bpow_le. lia. }
  destruct (comb_bounds' wl wh (elt2 (t2_data t) j i) (elt2 (t2_data t) j (i+1)) M (- M) M (i + 1 < ax_num (t2_cols t))) as (C1 & C2 & C3 & C4); auto with vf; try lra.
  1: solve [intros; apply Bd; lia]. 1: try solve [intros; apply Bd; lia].
  rewrite E20 in C3.
  set (hi1 := (M * (1 + 2 * / 1048576))%R).
  assert (A1 : (- hi1 <= R_ (comb wl wh (elt2 (t2_data t) j i) (elt2 (t2_data t) j (i+1))) <= hi1)%R) by (unfold hi1; lra).
  assert (G : (i + 1 < ax_num (t2_cols t) \/ (R_ wl = 1 /\ R_ wh = 0)%R)) by tauto.
  set (c1 := comb wl wh (elt2 (t2_data t) j i) (elt2 (t2_data t) j (i+1))) in *.
  set (c2 := comb wl wh (elt2 (t2_data t) (j+1) i) (elt2 (t2_data t) (j+1) (i+1))) in *.
  assert (K2 : fin c2 /\ vf c2 /\ (j + 1 < ax_num (t2_rows t) -> (- hi1 <= R_ c2 <= hi1)%R)).
  { destruct (Z.ltb_spec (j + 1) (ax_num (t2_rows t))) as [Lj|Lj].
    - destruct (comb_bounds' wl wh (elt2 (t2_data t) (j+1) i) (elt2 (t2_data t) (j+1) (i+1)) M (- M) M (i + 1 < ax_num (t2_cols t))) as (K1 & K2 & K3 & K4); auto with vf; try lra.
      1: solve [intros; apply Bd; lia]. 1: try solve [intros; apply Bd; lia].
      rewrite E20 in K3. fold c2 in K1, K2, K3, K4. split; [exact K1|]. split; [exact K2|]. intros _. unfold hi1; lra.
    - destruct D21 as (Va & Fa & Ba). destruct D22 as (Vb & Fb & Bb). apply Rabs_le_inv in Ba. apply Rabs_le_inv in Bb.
      change (bpow radix2 100) with (b2 100) in *. assert (0 <= b2 100)%R by apply bpow_ge_0.
      destruct (comb_bounds' wl wh (elt2 (t2_data t) (j+1) i) (elt2 (t2_data t) (j+1) (i+1)) (b2 100) (- b2 100) (b2 100) True) as (K1 & K2 & _); auto; try lra.
      split; [exact K1|]. split; [exact K2|]. intros; lia. }
  destruct K2 as (K1 & K2 & K3).
  assert (h1 : (hi1 <= 2 * b2 60)%R) by (unfold hi1; lra).
  assert (h2 : (1 <= hi1)%R) by (unfold hi1; lra).
  destruct (comb_bounds' yl yh c1 c2 hi1 (- hi1) hi1 (j + 1 < ax_num (t2_rows t))) as (M1 & M2 & M3 & M4); auto; try lra.
  rewrite E20 in M3. split; [exact M2|]. split; [exact M1|]. apply Rabs_le. unfold hi1 in *. lra.
Qed.

(** ** The calculations at any speed but 0 *)
Lemma cut_any k rpm s v : 1 <= rpm < 2 ^ 32 -> 1 <= fu_inj (k_fuel k) -> 0 <= cv_fueling v <= 651000000 -> exists b v', ignition_cut k rpm s v = Ok (b, v').
Proof.
  intros Hr Hi Hv. unfold ignition_cut. destruct (rpm_cut k rpm v) as [r v1] eqn:E1.
  assert (F1 : cv_fueling v1 = cv_fueling v) by (unfold rpm_cut in E1; injection E1 as _ <-; reflexivity).
  destruct r; [eauto|]. unfold fuel_overduty. destruct (time_ok rpm (f_of_Z 720) Hr) as (t & -> & _). { eapply iv_weak; [apply (iv_Z 720); lia|lra|lra]. } cbn [bind].
  destruct (Z.eqb_spec (fu_inj (k_fuel k)) 0); [lia|]. cbn [bind]. rewrite F1.
  destruct (time_from_us_ok (cv_fueling v) Hv) as [p ->]. cbn [bind].
  destruct (t / fu_inj (k_fuel k) <=? p); [eauto|]. unfold boost_cut. eauto.
Qed.

Lemma ignition_any nd k rpm s v : calc_ok k -> sens_in_range s -> 1 <= rpm < 2 ^ 32 ->
  exists v', calculate_ignition nd k rpm s v = Ok v' /\ cv_fueling v' = cv_fueling v /\ angle_ok (cv_advance v') /\ 0 <= cv_dwell v' <= 651000000.
Proof.
  intros [K (t & Et & U) _] S Hr. unfold calculate_ignition. rewrite Et. cbn [deref bind].
  assert (Nm : number (s_map s)) by (destruct (in_map s S) as (? & ? & _); split; auto). apply nnum in Nm. destruct Nm as [Vm Nm].
  destruct (look2_sym nd t 360 (f_of_Z rpm) (s_map s)) as (adv & -> & Va & Fa & Ba); auto with vf; [lra| |apply nn_of_Z; lia|].
  { apply Rle_trans with (b2 9); [simpl; lra|apply bpow_le; lia]. } cbn [bind].
  assert (exists dw, match k_dwell_type k with
        | FIXED_DUTY => x <- time_from_rpm_diff rpm (f_of_Z 45) ;; Ok (x / (TICKRATE / 1000000))
        | FIXED_TIME => f_to_u32 (k_dwell_us k)
        | BRV => t <- deref (k_dwell k) ;; x <- interpolate_table_oneaxis nd t (s_brv s) ;; f_to_u32 (fmul (f_of_Z 1000) x)
        end = Ok dw /\ 0 <= dw <= 651000000) as (dw & -> & Bd).
  { destruct (k_dwell_type k) eqn:E.
    - destruct (time_ok rpm (f_of_Z 45) Hr) as (x & -> & Bx). { eapply iv_weak; [apply (iv_Z 45); lia|lra|lra]. } cbn [bind]. eexists. split; [reflexivity|]. unfold TICKRATE. change (4000000 / 1000000) with 4.
      pose proof (Z.div_mod x 4 ltac:(lia)). pose proof (Z.mod_pos_bound x 4 ltac:(lia)). lia.
    - destruct (iv_to_u32 (k_dwell_us k) 1000000) as (z & -> & B); [apply (in_dwell_us k K E)|unfold W; lia|]. eexists. split; [reflexivity|lia].
    - destruct (in_dwell_t k K E) as (td & -> & Ud). cbn [deref bind]. destruct (nnum _ (in_brv s S)) as [Vb Nb].
      destruct (look1 nd td 100 (s_brv s)) as (x & -> & Ix); auto; [apply (rep_Z 100); lia|replace (2 * 100)%R with 200%R by lra; apply (rep_Z 200); lia|].
      cbn [bind]. destruct (iv_to_u32 (fmul (f_of_Z 1000) x) 200000) as (z & -> & B); [|unfold W; lia|eexists; split; [reflexivity|lia]].
      eapply iv_mul; [apply (iv_Z 1000); lia|exact Ix|apply (rep_Z 0); lia|apply (rep_Z 200000); lia|lra|lra|lra|lra]. }
  cbn [bind]. eexists. split; [reflexivity|]. cbn [cv_fueling cv_advance cv_dwell]. split; [reflexivity|]. split; [|exact Bd]. split; [exact Va|]. split; [exact Fa|lra].
Qed.

(** ** Decoding *)
Section Dec.
Variable c : dcfg.
Hypothesis C : dec_ok c.

Lemma dpt_iv : iv (dc_dpt c) (R_ (dc_dpt c)) (R_ (dc_dpt c)) /\ (/ 100 <= R_ (dc_dpt c) <= 359)%R.
Proof. destruct (do_wheel c C) as [V F B _]. split; [|exact B]. split; [exact V|]. split; [exact F|lra]. Qed.
Lemma dpt_small k : k = 1 \/ k = 2 -> iv (fmul (dc_dpt c) (f_of_Z k)) (/ 128) 720.
Proof.
  intros K. destruct dpt_iv as [I B]. assert (IZR k = 1 \/ IZR k = 2)%R by (destruct K; subst; auto).
  eapply iv_mul; [exact I|apply (iv_Z k); lia|apply (rep_n 7); lia|apply (rep_Z 720); lia|lra| | |]; destruct H as [-> | ->]; lra.
Qed.

(** Adding a tooth to the remembered ones. *)
Lemma times_new d t k u : length (dd_times d) = 37%nat -> ~ In t (dd_times d) -> 1 <= k <= 36 -> get (t :: removelast (dd_times d)) k = Ok u -> 0 <= t < 2 ^ 32 -> In u (dd_times d) /\ u <> t.
Proof.
  intros L N K G T. apply get_ok in G. destruct G as [_ G]. replace (Z.to_nat k) with (S (Z.to_nat (k - 1))) in G by lia. cbn [nth_error] in G.
  apply nth_error_In in G. assert (I : In u (dd_times d)).
  { destruct (dd_times d) as [|a l] eqn:E; [discriminate|]. rewrite <- E in *. rewrite (app_removelast_last 0 (l := dd_times d)) by congruence. apply in_or_app. now left. }
  split; [exact I|]. congruence.
Qed.

Lemma even_rpm_ok d t : length (dd_times d) = 37%nat -> 0 <= t < 2 ^ 32 -> ~ In t (dd_times d) -> (forall x, In x (dd_times d) -> 0 <= x < 2 ^ 32) ->
  (forall u, get (dd_times d) 0 = Ok u -> (t - u) mod 2 ^ 32 <= 2 ^ 31) -> forall d1, dd_times d1 = t :: removelast (dd_times d) -> 0 <= dd_cur d1 <= 37 ->
  exists d' fx, even_tooth_trigger_update_rpm c d1 = Ok (d', fx) /\ 0 <= dd_rpm d' < 2 ^ 32 /\ 0 <= dd_tooth_rpm d' < 2 ^ 32 /\ (dd_state d' <> NOSYNC -> 1 <= dd_rpm d' /\ 1 <= dd_tooth_rpm d').
Proof.
  intros L T N Wd Df d1 Et Cu. destruct dpt_iv as [I B]. unfold even_tooth_trigger_update_rpm. rewrite Et.
  assert (Diff : forall u, In u (dd_times d) -> u <> t -> 1 <= w32 (t - u) < 2 ^ 32).
  { intros u Iu Nu. specialize (Wd u Iu). pose proof (w32_range (t - u)). destruct (Z.eq_dec (w32 (t - u)) 0) as [Z0|]; [|lia]. exfalso. apply Nu. unfold w32, W in Z0.
    apply Z.mod_divide in Z0; [|lia]. destruct Z0 as [q Q]. assert (q = 0) by nia. subst q. lia. }
  assert (L1 : length (t :: removelast (dd_times d)) = 37%nat).
  { cbn [length]. rewrite removelast_firstn_len, firstn_length, L. reflexivity. }
  replace (get (t :: removelast (dd_times d)) 0) with (Ok t) by reflexivity. cbn [bind].
  destruct (get_in_range (t :: removelast (dd_times d)) 1) as [u Gu]; [rewrite L1; lia|]. rewrite Gu. cbn [bind].
  destruct (times_new d t 1 u L N ltac:(lia) Gu T) as [Iu Nu]. pose proof (Diff u Iu Nu) as Du. cbv zeta.
  destruct (rpm_ok (w32 (t - u)) (dc_dpt c)) as (tooth & -> & Bt); [lia|eapply iv_weak; [exact I|lra|lra]|]. cbn [bind]. dsimp. rewrite Et.
  set (w := even_tooth_rpm_window_size _ _).
  assert (Hw : w <= 36 /\ w <= dc_window c) by (unfold w, even_tooth_rpm_window_size; pose proof (su_window c (do_supported c C)); destruct (Z.ltb_spec (dd_cur d1) (dc_window c)); lia).
  clearbody w.
  assert (exists d2, (if 1 <? w then tw <- get (t :: removelast (dd_times d)) w ;; rpm <- rpm_from_time_diff (w32 (t - tw)) (fmul (dc_dpt c) (f_of_Z w)) ;;
     Ok (if rpm =? 0 then set_rpm (set_tooth_rpm d1 tooth) rpm else set_change (set_rpm (set_tooth_rpm d1 tooth) rpm) (fdiv (f_of_Z (if tooth <? rpm then rpm - tooth else tooth - rpm)) (f_of_Z rpm)))
     else Ok (set_rpm (set_tooth_rpm d1 tooth) 0)) = Ok d2 /\ 0 <= dd_rpm d2 < 2 ^ 32 /\ dd_tooth_rpm d2 = tooth) as (d2 & E2 & B2 & T2).
  { destruct (Z.ltb_spec 1 w).
    - destruct (get_in_range (t :: removelast (dd_times d)) w) as [x Gx]; [rewrite L1; lia|]. rewrite Gx. cbn [bind].
      destruct (times_new d t w x L N ltac:(lia) Gx T) as [Ix Nx]. pose proof (Diff x Ix Nx) as Dx.
      assert (Hw2 : (2 <= IZR w)%R) by (apply (IZR_le 2); lia). assert (Hw3 : (IZR w <= IZR (dc_window c))%R) by (apply IZR_le; lia).
      destruct (rpm_ok (w32 (t - x)) (fmul (dc_dpt c) (f_of_Z w))) as (r & -> & Br); [lia| |].
      { eapply iv_mul; [exact I|apply (iv_Z w); lia|apply (rep_n 7); lia|apply (rep_Z 3600); lia|lra|lra| |].
        - apply Rle_trans with (/ 100 * 2)%R; [lra|]. apply Rmult_le_compat; lra.
        - apply Rle_trans with (IZR (dc_window c) * R_ (dc_dpt c))%R; [|apply (do_window c C)]. rewrite Rmult_comm. apply Rmult_le_compat_r; lra. }
      cbn [bind]. eexists. split; [reflexivity|]. destruct (r =? 0); dsimp; auto.
    - eexists. split; [reflexivity|]. dsimp. split; [lia|auto]. }
  cbv zeta in *. rewrite E2. cbn [bind].
  destruct (iv_to_u32 (fmul (f_of_Z (w32 (t - u))) (flit 3 2)) (3 * 2 ^ 30)) as (x & -> & Bx); [|unfold W; lia|].
  { destruct (times_new d t 1 u L N ltac:(lia) Gu T) as [_ _]. assert (G0 : get (dd_times d) 0 = Ok u).
    { destruct (dd_times d) as [|a [|b l]] eqn:Ed; try (cbn [length] in L; lia). cbn [removelast] in Gu. change (get (t :: a :: removelast (b :: l)) 1) with (Ok a) in Gu. injection Gu as ->. reflexivity. }
    specialize (Df u G0). change ((t - u) mod 2 ^ 32) with (w32 (t - u)) in Df. destruct (f_of_Z_u32 (w32 (t - u))) as [A F]; [lia|].
    assert (Iv : iv (f_of_Z (w32 (t - u))) 0 2147483648).
    { split; [auto with vf|]. split; [exact F|]. rewrite A. apply rep_between; [apply (rep_Z 0); lia|apply (rep_p 1 31); lia|]. split; [apply (IZR_le 0); lia|apply (IZR_le _ 2147483648); lia]. }
    assert (R32 : rep (3 / 2)) by (replace (3 / 2)%R with (IZR 3 * bpow radix2 (-1))%R by (simpl; lra); apply rep_grid; lia).
    eapply iv_mul; [exact Iv|unfold flit; eapply (iv_divc _ _ 3 3 2 (3 / 2) (3 / 2)); [apply (iv_Z 3); lia|apply (iv_Z 2); lia|exact R32|exact R32|lra|lra|lra]|apply (rep_Z 0); lia|apply (rep_p 3 30); lia|lra|lra|lra|].
    apply Rle_trans with 3221225472%R; [lra|]. apply (IZR_le 3221225472). lia. }
  cbn [bind]. eexists _, _. split; [reflexivity|]. set (bad := _ || _ || _). set (d3 := if bad then _ else d2). set (d4 := if _ <? _ then _ else d3).
  assert (E4 : dd_rpm d4 = dd_rpm d2 /\ dd_tooth_rpm d4 = tooth /\ (dd_state d4 <> NOSYNC -> bad = false)).
  { unfold d4, d3. destruct bad; dsimp; destruct (dc_num c <? _); dsimp; repeat split; auto; congruence. }
  clearbody d4. destruct E4 as (E4 & E5 & E6). dsimp. rewrite E4, E5. split; [exact B2|]. split; [lia|]. intros Q. specialize (E6 Q). unfold bad in E6. apply orb_false_iff in E6. destruct E6 as [E6 _]. apply orb_false_iff in E6. destruct E6 as [E6 E7].
  apply Z.leb_gt in E6. pose proof (do_min c C). assert (Ht : 1 <= tooth) by lia. split; [|exact Ht]. destruct (Z.eq_dec (dd_rpm d2) 0) as [Z0|]; [|lia]. exfalso. rewrite Z0 in E7.
  assert (I0 : iv (f_of_Z 0) 0 0) by (apply (iv_Z 0); lia). assert (R0 : rep 0) by (apply (rep_Z 0); lia).
  assert (Is : iv (fadd (f_of_Z 0) (fmul (f_of_Z 0) (dc_max_change c))) 0 0).
  { eapply iv_add; [exact I0| |exact R0|exact R0|..]; [eapply (iv_mul _ _ 0 0 0 4 0 0); [exact I0|apply (do_tolerance c C)|exact R0|exact R0|lra|lra|lra|lra]|lra|lra]. }
  pose proof (iv_word tooth Bt) as It. replace (tooth =? 0) with false in It by (symmetry; apply Z.eqb_neq; lia). destruct Is as (V1 & F1 & X1), It as (V2 & F2 & X2).
  unfold fgt in E7. apply flt_false_iff in E7; auto. lra.
Qed.

(** The remembered times are tick counts. *)
Definition words (d : dec) : Prop := forall x, In x (dd_times d) -> 0 <= x < 2 ^ 32.
Lemma words_push d t : words d -> 0 <= t < 2 ^ 32 -> forall x, In x (t :: removelast (dd_times d)) -> 0 <= x < 2 ^ 32.
Proof.
  intros H T x [<-|I]; [exact T|]. apply H. destruct (dd_times d) as [|a l] eqn:E; [destruct I|]. rewrite <- E in *. rewrite (app_removelast_last 0 (l := dd_times d)) by congruence. apply in_or_app. now left.
Qed.

(** The newest one differs from the others. *)
Definition newest_new (d : dec) : Prop := forall k u v, 1 <= k <= 36 -> get (dd_times d) 0 = Ok u -> get (dd_times d) k = Ok v -> u <> v.

Record dsafe (d : dec) : Prop := {
  ds_inv : dinv c d;
  ds_words : words d;
  ds_new : missing c = true -> 0 < dd_cur d -> newest_new d;
  ds_angle : in_cycle (dd_last_angle d);
  ds_rpm : 0 <= dd_rpm d < 2 ^ 32;
  ds_tooth : 0 <= dd_tooth_rpm d < 2 ^ 32;
  ds_turns : (if missing c then dd_state d = SYNC else dd_state d <> NOSYNC) -> 1 <= dd_rpm d /\ 1 <= dd_tooth_rpm d }.

Lemma even_ok d t : missing c = false -> dsafe d -> 0 <= t < 2 ^ 32 -> ~ In t (dd_times d) -> (0 < dd_cur d -> forall u, get (dd_times d) 0 = Ok u -> (t - u) mod 2 ^ 32 <= 2 ^ 31) ->
  exists d' fx, even_tooth_trigger_update c d t = Ok (d', fx) /\ dd_times d' = t :: removelast (dd_times d) /\
  0 <= dd_rpm d' < 2 ^ 32 /\ 0 <= dd_tooth_rpm d' < 2 ^ 32 /\ (dd_state d' <> NOSYNC -> 1 <= dd_rpm d' /\ 1 <= dd_tooth_rpm d').
Proof.
  intros M [I Wd _ _ R Tr Tu] T N Df. rewrite M in Tu. pose proof (di_len _ _ I) as L. pose proof (di_cur _ _ I) as Cu. rewrite M in Cu. pose proof (do_supported c C) as [Sr _ _].
  assert (X : exists d' fx, even_tooth_trigger_update c d t = Ok (d', fx) /\ 0 <= dd_rpm d' < 2 ^ 32 /\ 0 <= dd_tooth_rpm d' < 2 ^ 32 /\ (dd_state d' <> NOSYNC -> 1 <= dd_rpm d' /\ 1 <= dd_tooth_rpm d')).
  { unfold even_tooth_trigger_update. cbv zeta. set (d1 := if dd_cur _ <? _ then _ else _).
    assert (D1 : dd_cur d1 = count_up 37 (dd_cur d) /\ dd_state d1 = dd_state d /\ dd_times d1 = t :: removelast (dd_times d) /\ dd_rpm d1 = dd_rpm d /\ dd_tooth_rpm d1 = dd_tooth_rpm d).
    { unfold d1, count_up, MAX_TRIGGERS. dsimp. change (36 + 1) with 37. destruct (dd_cur d <? 37); dsimp; auto. }
    clearbody d1. destruct D1 as (D1 & D2 & D3 & D4 & D5).
    set (d2 := if is_nosync (dd_state d1) && _ then _ else _).
    assert (F2 : dd_cur d2 = dd_cur d1 /\ dd_times d2 = dd_times d1 /\ dd_rpm d2 = dd_rpm d1 /\ dd_tooth_rpm d2 = dd_tooth_rpm d1 /\ (dd_state d2 <> NOSYNC -> dd_state d = NOSYNC -> dc_required c <= dd_cur d1)).
    { unfold d2. rewrite D2. destruct (dd_state d) eqn:Q; cbn [is_nosync andb]; try (repeat split; auto; congruence). destruct (Z.leb_spec (dc_required c) (dd_cur d1)); dsimp; repeat split; auto; congruence. }
    clearbody d2. destruct F2 as (F1 & F2 & F3 & F4 & F5).
    set (d3 := if is_sync (dd_state d2) then _ else _).
    assert (G : dd_cur d3 = dd_cur d2 /\ dd_times d3 = dd_times d2 /\ dd_rpm d3 = dd_rpm d2 /\ dd_tooth_rpm d3 = dd_tooth_rpm d2 /\ dd_state d3 = dd_state d2).
    { unfold d3. destruct (is_sync _); dsimp; auto. }
    clearbody d3. destruct G as (G1 & G2 & G3 & G4 & G5).
    assert (Cb : 0 <= count_up 37 (dd_cur d) <= 37) by (unfold count_up; destruct (Z.ltb_spec (dd_cur d) 37); lia).
    destruct (dd_state d3) eqn:Q; cbn [is_nosync]; [eexists _, _; split; [reflexivity|]; rewrite G3, G4, F3, F4, D4, D5; split; [lia|]; split; [lia|]; rewrite Q; congruence|..].
    all: apply (even_rpm_ok d t L T N Wd); [|congruence|lia]; apply Df; destruct (dd_state d) eqn:Qd;
      [specialize (F5 ltac:(congruence) eq_refl); unfold count_up in *; destruct (Z.ltb_spec (dd_cur d) 37); lia
      |pose proof (di_rpm _ _ I Qd); lia|pose proof (di_sync _ _ I Qd); lia]. }
  destruct X as (d' & fx & E & X). exists d', fx. split; [exact E|]. split; [|exact X]. now destruct (even_update_keeps _ _ _ _ _ E) as (K1 & _ & _ & K4 & K5 & K6 & _).
Qed.

Lemma diff_ok u v : 0 <= u < 2 ^ 32 -> 0 <= v < 2 ^ 32 -> u <> v -> 1 <= w32 (u - v) < 2 ^ 32.
Proof.
  intros U V N. pose proof (w32_range (u - v)). destruct (Z.eq_dec (w32 (u - v)) 0) as [Z0|]; [|lia]. exfalso. apply N. unfold w32, W in Z0.
  apply Z.mod_divide in Z0; [|lia]. destruct Z0 as [q Q]. assert (q = 0) by nia. subst q. lia.
Qed.
Lemma get_in d k u : get (dd_times d) k = Ok u -> In u (dd_times d).
Proof. intros G. apply get_ok in G. destruct G as [_ G]. now apply nth_error_In in G. Qed.

(** Wheels with a missing tooth *)
Lemma missing_rpms_ok d : missing c = true -> length (dd_times d) = 37%nat -> 0 <= dd_cur d <= 36 -> words d -> (dd_state d <> NOSYNC -> 0 < dd_cur d) -> (0 < dd_cur d -> newest_new d) ->
  0 <= dd_rpm d < 2 ^ 32 -> 0 <= dd_tooth_rpm d < 2 ^ 32 ->
  exists d', missing_update_rpms c d = Ok d' /\ 0 <= dd_rpm d' < 2 ^ 32 /\ 0 <= dd_tooth_rpm d' < 2 ^ 32.
Proof.
  intros M L Cu Wd P Nw R Tr. unfold missing_update_rpms. pose proof (do_supported c C) as [_ _ Sn].
  destruct (get_in_range (dd_times d) 0) as [u Gu]; [rewrite L; lia|].
  assert (X : exists d1, (if is_nosync (dd_state d) then Ok d else r <- missing_tooth_rpm c d ;; Ok (set_tooth_rpm d r)) = Ok d1 /\ dd_rpm d1 = dd_rpm d /\ 0 <= dd_tooth_rpm d1 < 2 ^ 32 /\
    dd_cur d1 = dd_cur d /\ dd_since d1 = dd_since d /\ dd_times d1 = dd_times d).
  { destruct (is_nosync (dd_state d)) eqn:Q; [eexists; split; [reflexivity|]; auto|]. assert (Q' : 0 < dd_cur d) by (apply P; intros E; rewrite E in Q; discriminate).
    unfold missing_tooth_rpm. cbv zeta. rewrite Gu. cbn [bind]. destruct (get_in_range (dd_times d) 1) as [v Gv]; [rewrite L; lia|]. rewrite Gv. cbn [bind].
    destruct (rpm_ok (w32 (u - v)) (fmul (dc_dpt c) (f_of_Z (if is_sync (dd_state d) && (dd_since d =? 0) then 2 else 1)))) as (r & -> & Br).
    - apply diff_ok; try (apply Wd; eapply get_in; eassumption). apply (Nw Q' 1); [lia|exact Gu|exact Gv].
    - eapply iv_weak; [apply dpt_small|lra|lra]. destruct (_ && _); auto.
    - cbn [bind]. eexists; split; [reflexivity|]. dsimp. auto. }
  destruct X as (d1 & -> & X1 & X2 & X3 & X4 & X5). cbn [bind]. unfold missing_tooth_average_rpm. rewrite X3, X4, X5.
  assert (Y : exists r, (if dc_num c <=? dd_cur d then if dd_since d =? 0 then t0 <- get (dd_times d) 0 ;; tn <- get (dd_times d) (w32 (dc_num c - 1)) ;; rpm_from_time_diff (w32 (t0 - tn)) (fmul (f_of_Z (dc_num c)) (dc_dpt c)) else Ok (dd_rpm d1) else Ok (dd_tooth_rpm d1)) = Ok r /\ 0 <= r < 2 ^ 32).
  { destruct (Z.leb_spec (dc_num c) (dd_cur d)) as [Q|Q]; [|eexists; split; [reflexivity|lia]]. destruct (dd_since d =? 0); [|eexists; split; [reflexivity|lia]].
    rewrite Gu. cbn [bind]. replace (w32 (dc_num c - 1)) with (dc_num c - 1) by (unfold w32, W; rewrite Z.mod_small; lia).
    destruct (get_in_range (dd_times d) (dc_num c - 1)) as [v Gv]; [rewrite L; lia|]. rewrite Gv. cbn [bind].
    apply rpm_ok; [apply diff_ok; try (apply Wd; eapply get_in; eassumption); apply (Nw ltac:(lia) (dc_num c - 1)); [lia|exact Gu|exact Gv]|].
    destruct dpt_iv as [I B]. destruct (do_wheel c C) as [_ _ _ Wn].
    assert (N2 : (2 <= IZR (dc_num c) <= 36)%R) by (split; [apply (IZR_le 2)|apply (IZR_le _ 36)]; lia).
    eapply (iv_mul _ _ (IZR (dc_num c)) (IZR (dc_num c)) (R_ (dc_dpt c)) (R_ (dc_dpt c))); [apply iv_Z; lia|exact I|apply (rep_n 7); lia|apply (rep_Z 3600); lia|lra|lra| |].
    - nra.
    - specialize (Wn M). nra. }
  destruct Y as (r & -> & Br). cbn [bind]. eexists; split; [reflexivity|]. dsimp. auto.
Qed.

Lemma missing_advance_ok d t gap : length (dd_times d) = 37%nat -> 1 <= dd_rpm d < 2 ^ 32 -> exists d' fx, missing_advance c d t gap = Ok (d', fx) /\ dd_tooth_rpm d' = dd_tooth_rpm d.
Proof.
  intros L R. unfold missing_advance. cbv zeta. dsimp. match goal with |- context [time_from_rpm_diff _ (fmul _ (f_of_Z ?k))] => set (kk := k) end.
  destruct (time_ok (dd_rpm d) (fmul (dc_dpt c) (f_of_Z kk)) R) as (x & -> & Bx).
  { eapply iv_weak; [apply dpt_small; unfold kk; destruct (_ =? _); auto|lra|lra]. }
  cbn [bind]. destruct (get_in_range (dd_times d) 0) as [u ->]; [rewrite L; lia|]. cbn [bind].
  destruct (iv_to_u32 (fmul (f_of_Z x) (fadd (f_of_Z 1) (dc_max_change c))) (5 * 2 ^ 29)) as (z & -> & Bz); [|unfold W; lia|].
  - assert (Ix : iv (f_of_Z x) 0 (IZR (2 ^ 29))).
    { destruct (f_of_Z_u32 x) as [A B]; [lia|]. split; [auto with vf|]. split; [exact B|]. rewrite A. apply rep_between; [apply (rep_Z 0); lia|apply (rep_p 1 29); lia|]. split; [apply (IZR_le 0)|apply IZR_le]; lia. }
    assert (I1 : iv (fadd (f_of_Z 1) (dc_max_change c)) 1 5).
    { eapply iv_add; [apply (iv_Z 1); lia|apply (do_tolerance c C)|apply (rep_Z 1); lia|apply (rep_Z 5); lia|lra|lra]. }
    assert (E5 : IZR (5 * 2 ^ 29) = (IZR (2 ^ 29) * 5)%R) by (rewrite mult_IZR; lra). assert (0 <= IZR (2 ^ 29))%R by (apply (IZR_le 0); lia).
    eapply iv_mul; [exact Ix|exact I1|apply (rep_Z 0); lia|apply (rep_p 5 29); lia|lra|lra|lra|lra].
  - cbn [bind]. eexists _, _. split; [reflexivity|]. dsimp. reflexivity.
Qed.

Lemma missing_ok d t : missing c = true -> dsafe d -> 0 <= t < 2 ^ 32 -> ~ In t (dd_times d) ->
  exists d' fx, missing_tooth_trigger_update c d t = Ok (d', fx) /\ dd_tooth_rpm d' = dd_tooth_rpm d.
Proof.
  intros M [I Wd Nw _ R Tr Tu] T N. rewrite M in Tu. pose proof (missing_update_good c d t (do_supported c C) M I) as G. pose proof (di_len _ _ I) as L.
  unfold missing_tooth_trigger_update in *. cbv zeta in *. dsimp. set (d1 := if dd_cur d <? MAX_TRIGGERS then _ else _) in *.
  assert (D1 : dd_state d1 = dd_state d /\ dd_times d1 = t :: removelast (dd_times d) /\ dd_rpm d1 = dd_rpm d /\ dd_tooth_rpm d1 = dd_tooth_rpm d).
  { unfold d1. destruct (_ <? _); dsimp; auto. }
  clearbody d1. destruct D1 as (D1 & D2 & D3 & D4).
  destruct (dd_cur d1 <? dc_required c); [eexists _, _; split; [reflexivity|exact D4]|].
  set (d2 := if is_nosync (dd_state d1) then _ else _) in *.
  assert (F : dd_times d2 = dd_times d1 /\ dd_rpm d2 = dd_rpm d1 /\ dd_tooth_rpm d2 = dd_tooth_rpm d1 /\ (dd_state d2 = SYNC -> dd_state d = SYNC)).
  { unfold d2. rewrite <- D1. destruct (dd_state d1) eqn:Q; cbn [is_nosync]; dsimp; rewrite ?Q; repeat split; auto; discriminate. }
  clearbody d2. destruct F as (F1 & F2 & F3 & F4).
  assert (L1 : length (dd_times d2) = 37%nat) by (rewrite F1, D2; cbn [length]; rewrite removelast_firstn_len, firstn_length, L; reflexivity).
  assert (Iv : exists p, missing_intervals c d2 = Ok p).
  { destruct (missing_intervals c d2) as [p|e] eqn:E; [eauto|]. exfalso. cbn [bind good] in G. subst e. revert E. unfold missing_intervals. cbv zeta. pose proof (su_required c (do_supported c C)).
    destruct (get_in_range (dd_times d2) 0) as [x0 ->]; [rewrite L1; lia|]. cbn [bind]. destruct (get_in_range (dd_times d2) 1) as [x1 ->]; [rewrite L1; lia|]. cbn [bind].
    destruct (get_in_range (dd_times d2) (dc_required c)) as [xr ->]; [rewrite L1; lia|]. cbn [bind]. unfold udiv. destruct (_ =? 0); cbn [bind]; discriminate. }
  destruct Iv as [[la av] Iv]. rewrite Iv in *. cbn [bind] in *. set (ratio := fdiv _ _) in *. set (gap := near 2 _ _) in *. set (nor := near 1 _ _) in *. clearbody ratio gap nor. clear G. dsimp.
  destruct (dd_state d2) eqn:Q; [eexists _, _; split; [reflexivity|dsimp; congruence]|eexists _, _; split; [reflexivity|]; destruct gap; [|destruct nor]; cbn [negb]; dsimp; congruence|].
  specialize (Tu (F4 eq_refl)). set (d3 := if _ =? w32 (dc_num c - 1) then _ else _).
  assert (K : dd_times d3 = dd_times d2 /\ dd_rpm d3 = dd_rpm d2 /\ dd_tooth_rpm d3 = dd_tooth_rpm d2).
  { unfold d3. destruct (_ =? w32 _); [destruct gap|destruct nor]; cbn [negb]; dsimp; auto. }
  clearbody d3. destruct K as (K1 & K2 & K3). destruct (missing_advance_ok d3 t gap) as (d' & fx & E & E'); [congruence|rewrite K2, F2, D3; lia|].
  eexists _, _. split; [exact E|congruence].
Qed.

Lemma counted_safe d n : dsafe d -> dsafe (counted d n).
Proof.
  intros [I Wd Nw A R Tr Tu]. destruct (counted_same d n) as (K1 & K2 & K3 & K4 & K5 & K6 & K7 & K8 & K9 & _).
  split; [now apply counted_dinv|unfold words; now rewrite K5|unfold newest_new; now rewrite K3, K5|now rewrite K7|now rewrite K8|now rewrite K9|now rewrite K2, K8, K9].
Qed.
Lemma push_new d t : length (dd_times d) = 37%nat -> 0 <= t < 2 ^ 32 -> ~ In t (dd_times d) -> forall d', dd_times d' = t :: removelast (dd_times d) -> newest_new d'.
Proof.
  intros L T N d' E k u v K G1 G2. rewrite E in G1, G2. injection G1 as <-. destruct (times_new d t k v L N K G2 T) as [_ X]. congruence.
Qed.

Lemma invalidate_safe d : length (dd_times d) = 37%nat -> words d -> in_cycle (dd_last_angle d) -> 0 <= dd_rpm d < 2 ^ 32 -> 0 <= dd_tooth_rpm d < 2 ^ 32 -> dsafe (invalidate_decoder d).
Proof.
  intros L Wd A R Tr. split; [apply invalidate_inv; [apply (do_supported c C)|exact L]|exact Wd| |exact A|exact R|exact Tr|]; unfold invalidate_decoder; dsimp; [lia|]. destruct (missing c); congruence.
Qed.

(** What a pulse preserves without further ado. *)
Definition half (d : dec) : Prop := words d /\ (missing c = true -> 0 < dd_cur d -> newest_new d) /\ 0 <= dd_rpm d < 2 ^ 32 /\ 0 <= dd_tooth_rpm d < 2 ^ 32 /\
  (missing c = false -> dd_state d <> NOSYNC -> 1 <= dd_rpm d /\ 1 <= dd_tooth_rpm d).
Lemma half_same d d' : half d -> dd_times d' = dd_times d -> dd_cur d' = dd_cur d -> dd_rpm d' = dd_rpm d -> dd_tooth_rpm d' = dd_tooth_rpm d -> (dd_state d' <> NOSYNC -> dd_state d <> NOSYNC) -> half d'.
Proof. unfold half, words, newest_new. intros H -> -> -> -> S. destruct H as (H1 & H2 & H3 & H4 & H5). split; [exact H1|]. split; [exact H2|]. split; [exact H3|]. split; [exact H4|]. auto. Qed.
Lemma half_invalidate d : half d -> half (invalidate_decoder d).
Proof. unfold half, words, newest_new, invalidate_decoder. dsimp. intros (H1 & H2 & H3 & H4 & H5). split; [auto|]. split; [lia|]. split; [auto|]. split; [auto|]. congruence. Qed.
Lemma safe_half d : dsafe d -> half d.
Proof. intros [I Wd Nw A R Tr Tu]. split; [exact Wd|]. split; [exact Nw|]. split; [exact R|]. split; [exact Tr|]. intros M. now rewrite M in Tu. Qed.

Lemma even_half d t : missing c = false -> dsafe d -> 0 <= t < 2 ^ 32 -> ~ In t (dd_times d) -> (0 < dd_cur d -> forall u, get (dd_times d) 0 = Ok u -> (t - u) mod 2 ^ 32 <= 2 ^ 31) ->
  exists d' fx, even_tooth_trigger_update c d t = Ok (d', fx) /\ half d'.
Proof.
  intros M S T N Df. destruct (even_ok d t M S T N Df) as (d' & fx & E & E1 & E2 & E3 & E4). exists d', fx. split; [exact E|]. destruct S as [I Wd _ _ _ _ _].
  split; [unfold words; rewrite E1; now apply words_push|]. split; [congruence|]. auto.
Qed.

Lemma missing_half d n t : missing c = true -> dsafe d -> 0 <= t < 2 ^ 32 -> (n = 0 -> ~ In t (dd_times d)) ->
  exists d1 fx, (if n =? 0 then missing_tooth_trigger_update c d t else Ok (d, [])) = Ok (d1, fx) /\ half d1 /\ length (dd_times d1) = 37%nat /\ 0 <= dd_cur d1 <= 36 /\ (dd_state d1 <> NOSYNC -> 0 < dd_cur d1).
Proof.
  intros M S T N. pose proof (ds_inv d S) as I. pose proof (di_len _ _ I) as L. pose proof (su_required c (do_supported c C)) as Rq. destruct (Z.eqb_spec n 0) as [->|Hn].
  - specialize (N eq_refl). destruct (missing_ok d t M S T N) as (d1 & fx & E & E1). exists d1, fx. split; [exact E|].
    destruct (missing_update_keeps _ _ _ _ _ E) as (K1 & K2 & K3 & K4 & K5 & K6 & _). pose proof (missing_update_good c d t (do_supported c C) M I) as G. rewrite E in G. cbn [good fst] in G. destruct G as (G1 & G2 & G3 & G4 & G5).
    destruct S as [_ Wd Nw _ R Tr Tu].
    split; [|split; [exact G1|split; [exact G2|]]].
    + split; [unfold words; rewrite K5; now apply words_push|]. split; [intros _ _; exact (push_new d t L T N d1 K5)|]. split; [rewrite K6; exact R|]. split; [rewrite E1; exact Tr|]. congruence.
    + destruct (dd_state d1); [congruence|intros _; specialize (G5 eq_refl); lia|intros _; specialize (G4 eq_refl); lia].
  - exists d, []. split; [reflexivity|]. split; [now apply safe_half|]. split; [exact L|]. pose proof (di_cur _ _ I) as Cu. rewrite M in Cu. split; [exact Cu|].
    destruct (dd_state d) eqn:Q; [congruence|intros _; pose proof (di_rpm _ _ I Q); lia|intros _; pose proof (di_sync _ _ I Q); lia].
Qed.

Lemma rpms_half d : missing c = true -> half d -> length (dd_times d) = 37%nat -> 0 <= dd_cur d <= 36 -> (dd_state d <> NOSYNC -> 0 < dd_cur d) -> exists d', missing_update_rpms c d = Ok d' /\ half d'.
Proof.
  intros M (H1 & H2 & H3 & H4 & H5) L Cu P. destruct (missing_rpms_ok d M L Cu H1 P (H2 M) H3 H4) as (d' & E & E1 & E2). exists d'. split; [exact E|].
  apply missing_rpms_keeps in E. destruct E as (K1 & K2 & K3 & K4 & _). split; [unfold words; now rewrite K4|]. split; [unfold newest_new; now rewrite K2, K4|]. split; [exact E1|]. split; [exact E2|]. congruence.
Qed.

Lemma decode_half d n t : dsafe d -> pulse_ok c d n t -> exists d' fx, decode c d n t = Ok (d', fx) /\ half d'.
Proof.
  intros S (T & N & Df). unfold is_tooth in *. unfold decode. destruct (dc_type c) eqn:Ty.
  - assert (M : missing c = false) by (unfold missing; now rewrite Ty). rewrite orb_true_r in *. unfold decode_even_no_sync. cbv zeta.
    destruct (even_half d t M S T (N eq_refl) (Df eq_refl M)) as (d1 & fx & -> & H). cbn [bind]. destruct (is_nosync (dd_state d1)) eqn:Q; cbn [negb].
    + destruct (is_sync (dd_state d)); eexists _, _; (split; [reflexivity|]); [now apply half_invalidate|exact H].
    + eexists _, _; (split; [reflexivity|]). eapply half_same; [exact H|reflexivity..|]. dsimp. intros _ X; rewrite X in Q; discriminate.
  - assert (M : missing c = false) by (unfold missing; now rewrite Ty). rewrite orb_false_r in *. unfold decode_even_with_camsync. cbv zeta.
    assert (X : exists d1 fx, (if n =? 0 then even_tooth_trigger_update c d t else if n =? 1 then Ok (even_tooth_sync_update c d, []) else Ok (d, [])) = Ok (d1, fx) /\ half d1).
    { destruct (n =? 0); [exact (even_half d t M S T (N eq_refl) (Df eq_refl M))|]. destruct (n =? 1); eexists _, _; (split; [reflexivity|]); [|now apply safe_half].
      destruct (sync_update_keeps c d) as (K1 & K2 & K3 & K4 & K5 & K6 & _). eapply half_same; [apply safe_half; exact S|exact K4|exact K3| | |rewrite K6; destruct (dd_state d); congruence];
      unfold even_tooth_sync_update; destruct (dd_state d); dsimp; try reflexivity; destruct (_ =? _); reflexivity. }
    destruct X as (d1 & fx & -> & H). cbn [bind]. destruct (is_sync (dd_state d1)) eqn:Q; [eexists _, _; (split; [reflexivity|]); eapply half_same; [exact H|reflexivity..|]; auto|].
    destruct (is_sync (dd_state d)); eexists _, _; (split; [reflexivity|]); [now apply half_invalidate|exact H].
  - assert (M : missing c = true) by (unfold missing; now rewrite Ty). rewrite orb_false_r in *. unfold decode_missing_no_sync. cbv zeta.
    destruct (missing_half d n t M S T) as (d1 & fx & -> & H & L & Cu & P); [intros ->; auto|]. cbn [bind]. destruct (rpms_half d1 M H L Cu P) as (d2 & -> & H2). cbn [bind].
    destruct (is_sync (dd_state d2)); [eexists _, _; (split; [reflexivity|]); eapply half_same; [exact H2|reflexivity..|]; auto|].
    destruct (is_sync (dd_state d)); eexists _, _; (split; [reflexivity|]); [now apply half_invalidate|exact H2].
  - assert (M : missing c = true) by (unfold missing; now rewrite Ty). rewrite orb_false_r in *. unfold decode_missing_with_camsync. cbv zeta.
    match goal with |- context [bind (if n =? 0 then ?a else ?b) _] => assert (X : exists d1 fx, (if n =? 0 then a else b) = Ok (d1, fx) /\ half d1 /\ length (dd_times d1) = 37%nat /\ 0 <= dd_cur d1 <= 36 /\ (dd_state d1 <> NOSYNC -> 0 < dd_cur d1)) end.
    { destruct (missing_half d n t M S T) as (d1 & fx & E & H & L & Cu & P); [intros ->; auto|]. destruct (n =? 0).
      - rewrite E. cbn [bind]. eexists _, _. split; [reflexivity|]. destruct (_ && _); [|auto]. destruct (_ && _); dsimp; (split; [eapply half_same; [exact H|reflexivity..|]; auto|auto]).
      - assert (d1 = d) by congruence. subst d1. destruct (n =? 1); eexists _, _; (split; [reflexivity|]); [|auto]. destruct (is_sync _); [|auto]. destruct (_ || _); dsimp; (split; [eapply half_same; [exact H|reflexivity..|]; auto|auto]). }
    destruct X as (d1 & fx & -> & H & L & Cu & P). cbn [bind]. destruct (rpms_half d1 M H L Cu P) as (d2 & -> & H2). cbn [bind].
    set (d3 := if negb (is_sync (dd_state d2)) then _ else _).
    assert (H3 : half d3). { unfold d3. destruct (is_sync (dd_state d2)); cbn [negb]; [destruct (_ && _); [|exact H2]|]; (eapply half_same; [exact H2|reflexivity..|]; auto). }
    clearbody d3. destruct (_ && _); eexists _, _; (split; [reflexivity|]); [now apply half_invalidate|exact H3].
Qed.

Lemma trigger_safe d n t : dsafe d -> pulse_ok c d n t -> exists d' fx, decoder_trigger c d n t = Ok (d', fx) /\ (turns c d' -> dsafe d').
Proof.
  intros S P. pose proof (counted_safe d n S) as S'. destruct (counted_same d n) as (K1 & K2 & K3 & K4 & K5 & _).
  destruct (decode_half (counted d n) n t S') as (d' & fx & E & H1 & H2 & H3 & H4 & H5); [unfold pulse_ok; rewrite K5, K3; exact P|].
  exists d', fx. split; [exact E|]. intros Tu.
  pose proof (decode_good c (counted d n) n t (do_supported c C) (ds_inv _ S')) as G. rewrite E in G. cbn [good fst] in G.
  split; auto; [eapply decode_cycle; [apply (do_supported c C)|apply (do_wheel c C)|apply (ds_inv _ S')|apply (ds_angle _ S')|exact E]|].
  destruct (missing c) eqn:M; [apply (Tu M)|auto].
Qed.
End Dec.
