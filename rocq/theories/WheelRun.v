(** The missing-tooth decoder on a steadily turning wheel, tooth by tooth. *)
Require Import ZArith Reals List Bool Lia Lra.
From Flocq Require Import Core.
From Verif Require Import Res Word F32 F32Flocq TimeProofs TableProofs AngleProofs PulseProofs RelErr Arr Decoder DecoderProofs DecoderSafe DecoderRun DecoderMissing DecoderAngle DecoderLoss Wheel WheelProofs.
Import ListNotations.
Open Scope Z_scope.

(** One tooth while not synchronised. *)
Lemma update_waiting c d t : length (dd_times d) = 37%nat -> 0 <= dd_cur d <= 36 -> count_up 36 (dd_cur d) < dc_required c ->
  exists d1, missing_tooth_trigger_update c d t = Ok (d1, []) /\ dd_state d1 = dd_state d /\ dd_since d1 = dd_since d.
Proof.
  intros L C Q. unfold missing_tooth_trigger_update. cbv zeta.
  set (d1 := if dd_cur (push_time d t) <? MAX_TRIGGERS then _ else _).
  assert (D : dd_cur d1 = count_up 36 (dd_cur d) /\ dd_state d1 = dd_state d /\ dd_since d1 = dd_since d).
  { unfold d1, count_up, MAX_TRIGGERS. dsimp. destruct (dd_cur d <? 36); dsimp; auto. }
  clearbody d1. destruct D as (D1 & D2 & D3). rewrite D1. destruct (Z.ltb_spec (count_up 36 (dd_cur d)) (dc_required c)); [|lia]. exists d1. auto.
Qed.

Lemma update_searching c d t p q : supported c -> length (dd_times d) = 37%nat -> 0 <= dd_cur d <= 36 -> dc_required c <= count_up 36 (dd_cur d) -> dd_state d <> SYNC ->
  get (dd_times d) 0 = Ok p -> get (dd_times d) (dc_required c - 1) = Ok q ->
  let ratio := fdiv (f_of_Z (w32 (t - p))) (f_of_Z (w32 (p - q) / (dc_required c - 1))) in
  exists d1, missing_tooth_trigger_update c d t = Ok (d1, []) /\
    if near 2 ratio (dc_max_change c) then dd_state d1 = SYNC /\ dd_since d1 = 0 /\ dd_last_angle d1 = f_zero
    else dd_state d1 <> SYNC /\ dd_since d1 = dd_since d /\ dd_last_angle d1 = dd_last_angle d.
Proof.
  intros [Sr Sw Sn] L C Q Ns Gp Gq ratio. unfold missing_tooth_trigger_update. cbv zeta.
  set (d1 := if dd_cur (push_time d t) <? MAX_TRIGGERS then _ else _).
  assert (D : dd_cur d1 = count_up 36 (dd_cur d) /\ dd_state d1 = dd_state d /\ dd_since d1 = dd_since d /\ dd_times d1 = t :: removelast (dd_times d) /\ dd_last_angle d1 = dd_last_angle d).
  { unfold d1, count_up, MAX_TRIGGERS. dsimp. destruct (dd_cur d <? 36); dsimp; auto 10. }
  clearbody d1. destruct D as (D1 & D2 & D3 & D4 & D5). rewrite D1. destruct (Z.ltb_spec (count_up 36 (dd_cur d)) (dc_required c)); [lia|].
  set (d2 := if is_nosync (dd_state d1) then _ else _).
  assert (D : dd_state d2 = RPM /\ dd_since d2 = dd_since d /\ dd_times d2 = t :: removelast (dd_times d) /\ dd_last_angle d2 = dd_last_angle d).
  { unfold d2. rewrite D2. destruct (dd_state d) eqn:E; cbn [is_nosync]; dsimp; rewrite ?D2; auto. contradiction. }
  clearbody d2. destruct D as (E1 & E2 & E3 & E4).
  unfold missing_intervals. rewrite E3, E1. change (get (t :: removelast (dd_times d)) 0) with (Ok t). cbn [bind is_sync andb].
  rewrite (get_push _ _ 1), (get_push _ _ (dc_required c)) by (auto; lia). change (1 - 1) with 0. rewrite Gp, Gq. cbn [bind].
  assert (X1 : w32 (dc_required c - 1) = dc_required c - 1) by (unfold w32, W; apply Z.mod_small; lia). rewrite X1.
  unfold udiv. destruct (Z.eqb_spec (dc_required c - 1) 0); [lia|]. cbn [bind]. fold ratio. dsimp. rewrite E1.
  eexists. split; [reflexivity|]. destruct (near 2 ratio _); [dsimp; auto|]. destruct (near 1 ratio _); cbn [negb]; dsimp; rewrite ?E1; repeat split; auto; discriminate.
Qed.

(** One tooth while synchronised: no undefined behaviour. *)
Lemma update_synced c d t : supported c -> missing c = true -> dinv c d -> dd_state d = SYNC -> wheel c -> vf (dc_max_change c) -> fin (dc_max_change c) ->
  (0 <= R_ (dc_max_change c) <= 1)%R -> 1 <= dd_rpm d <= 2 ^ 24 -> exists d1 fx, missing_tooth_trigger_update c d t = Ok (d1, fx).
Proof.
  intros S M I St Wh Vm Fm Hm Hr. pose proof I as [L C N V Sy Ev Rp]. specialize (Sy St). rewrite M in *. destruct S as [Sr Sw Sn].
  unfold missing_tooth_trigger_update. cbv zeta.
  set (d1 := if dd_cur (push_time d t) <? MAX_TRIGGERS then _ else _).
  assert (D : dd_cur d1 = count_up 36 (dd_cur d) /\ dd_state d1 = SYNC /\ dd_since d1 = dd_since d /\ dd_times d1 = t :: removelast (dd_times d) /\ dd_rpm d1 = dd_rpm d).
  { unfold d1, count_up, MAX_TRIGGERS. dsimp. destruct (dd_cur d <? 36); dsimp; auto 10. }
  clearbody d1. destruct D as (D1 & D2 & D3 & D4 & D6).
  destruct (Z.ltb_spec (dd_cur d1) (dc_required c)) as [Q|Q]; [eauto|].
  rewrite D2. cbn [is_nosync]. unfold missing_intervals. rewrite D4, D2, D3. change (get (t :: removelast (dd_times d)) 0) with (Ok t). cbn [bind is_sync andb].
  rewrite (get_push _ _ 1), (get_push _ _ (dc_required c)) by (auto; lia). change (1 - 1) with 0.
  destruct (get_in_range (dd_times d) 0) as [p ->]; [rewrite L; cbn; lia|]. destruct (get_in_range (dd_times d) (dc_required c - 1)) as [q ->]; [rewrite L; cbn; lia|]. cbn [bind].
  assert (X1 : w32 (dc_required c - 1) = dc_required c - 1) by (unfold w32, W; apply Z.mod_small; lia). rewrite X1.
  assert (X2 : w32 (dc_required c - 1 + 1) = dc_required c) by (unfold w32, W; rewrite Z.mod_small; lia). rewrite X2.
  set (w := if dd_since d <? dc_required c - 1 then _ else _). unfold udiv. destruct (Z.eqb_spec w 0) as [Z|_]; [unfold w in Z; destruct (_ <? _); lia|]. cbn [bind]. dsimp. rewrite D2.
  set (ratio := fdiv _ _). set (d3 := if w32 (dd_since d1 + 1) =? _ then _ else _).
  assert (K : dd_rpm d3 = dd_rpm d /\ dd_times d3 = t :: removelast (dd_times d)).
  { unfold d3. destruct (_ =? _); [destruct (near 2 _ _)|destruct (near 1 _ _)]; cbn [negb]; dsimp; auto. }
  clearbody d3. destruct K as [K1 K2]. unfold missing_advance. cbv zeta. dsimp. rewrite K1, K2. set (k := if dd_since d3 =? _ then 2 else 1).
  destruct (expiry_time c (dd_rpm d) k) as (et & x & E1 & E2 & _); auto; [unfold k; destruct (dd_since d3 =? _); auto|].
  rewrite E1. cbn [bind]. change (get (t :: removelast (dd_times d)) 0) with (Ok t). cbn [bind]. rewrite E2. cbn [bind]. eauto.
Qed.

Ltac Zify.zify_post_hook ::= idtac.
Section run.
Variable c : dcfg.
Variable f : Z -> Z.
Variable s : Z.
Notation num := (dc_num c).
Notation r := (dc_required c).
Notation dpt := (R_ (dc_dpt c)).
Notation tol := (R_ (dc_max_change c)).
Notation T := (tooth_time (dc_num c) f).
Notation sl := (slot (dc_num c)).
Notation g := (first_gap (dc_num c) (dc_required c) s).
Hypothesis HS : supported c.
Hypothesis HW : wheel c.
Hypothesis HM : missing c = true.
Hypothesis Hrn : r <= num - 1.
Hypothesis Vm : vf (dc_max_change c).
Hypothesis Fm : fin (dc_max_change c).
Hypothesis Hm : (0 < tol <= 3 / 5)%R.
Hypothesis ST : steady num dpt tol f (sl s).
Hypothesis early : forall i, sl s <= i <= sl s + r + 1 -> 2 * r * (f (i + 1) - f i) <= T s.
Hypothesis nowrap : T (s + r) < W.

Let num3 : 3 <= num. Proof. destruct HS. lia. Qed.

(** The tooth times in memory after [n] teeth. *)
Definition times_ok (n : Z) (d : dec) : Prop := length (dd_times d) = 37%nat /\
  forall i, 0 <= i <= 36 -> get (dd_times d) i = Ok (if i <? n then w32 (T (s + n - 1 - i)) else 0).

Lemma times_push n d d' t : 0 <= n -> times_ok n d -> t = w32 (T (s + n)) -> dd_times d' = t :: removelast (dd_times d) -> times_ok (n + 1) d'.
Proof.
  intros Hn [L G] Et E. split.
  - rewrite E. cbn [length]. rewrite removelast_firstn_len, firstn_length, L. reflexivity.
  - intros i Hi. rewrite E. destruct (Z.eq_dec i 0) as [->|N].
    + destruct (Z.ltb_spec 0 (n + 1)); [|lia]. change (get (t :: removelast (dd_times d)) 0) with (Ok t). subst t. do 3 f_equal. ring.
    + rewrite get_push by (auto; lia). rewrite G by lia. destruct (Z.ltb_spec (i - 1) n), (Z.ltb_spec i (n + 1)); try lia; auto. do 3 f_equal. ring.
Qed.

Definition in_band (lo hi a b : Z) : Prop := band dpt tol a b /\ forall i, sl s <= i -> lo <= i < hi -> a <= f (i + 1) - f i <= b.

(** The speed after tooth [m] is that of the slots since the gap before the last. *)
Definition rpm_ok (m rpm : Z) : Prop := forall a b, in_band (num * (m / (num - 1)) - num) (sl m) a b -> rpm_in dpt rpm a b.

Record after (n : Z) (d : dec) : Prop := {
  af_n : 0 <= n;
  af_times : times_ok n d;
  af_cur : dd_cur d = Z.min n 36;
  af_search : s + n - 1 < g -> dd_state d <> SYNC /\ dd_since d = 0;
  af_sync : g <= s + n - 1 -> dd_state d = SYNC /\ dd_since d = (s + n - 1) mod (num - 1) /\ rpm_ok (s + n - 1) (dd_rpm d) }.

(** Between the tooth and the update of the speed. *)
Record between (n : Z) (d : dec) : Prop := {
  be_n : 1 <= n;
  be_times : times_ok n d;
  be_cur : dd_cur d = Z.min n 36;
  be_search : s + n - 1 < g -> dd_state d <> SYNC /\ dd_since d = 0 /\ (dd_state d <> NOSYNC -> r <= n);
  be_sync : g <= s + n - 1 -> dd_state d = SYNC /\ dd_since d = (s + n - 1) mod (num - 1) /\ ((s + n - 1) mod (num - 1) <> 0 -> rpm_ok (s + n - 2) (dd_rpm d)) }.

Lemma sl_ge m : s <= m -> sl s <= sl m.
Proof. intros H. replace m with (s + (m - s)) by ring. apply slot_mono; auto. lia. Qed.

Lemma span_teeth a b lo m k : in_band lo (sl m) a b -> s <= m - k -> 0 <= k <= num - 1 -> lo <= sl (m - k) ->
  let w := k + (if m mod (num - 1) <? k then 1 else 0) in w * a <= T m - T (m - k) <= w * b.
Proof.
  intros [_ B] Hs Hk Hl w. pose proof (slot_back num num3 m k Hk) as E. unfold tooth_time. fold w in E. pose proof (sl_ge (m - k) Hs).
  assert (0 <= w) by (unfold w; destruct (_ <? _); lia). replace (sl m) with (sl (m - k) + w) by lia. apply span; auto. intros i Hi. apply B; lia.
Qed.

Lemma bands m : exists a b, in_band (sl m - 2 * num) (sl m + 2) a b.
Proof. destruct (ST (sl m)) as (a & b & Bd & B). exists a, b. split; auto. intros i H1 H2. apply B; lia. Qed.
Lemma in_band_sub lo hi lo' hi' a b : in_band lo hi a b -> lo <= lo' -> hi' <= hi -> in_band lo' hi' a b.
Proof. intros [B1 B2] H1 H2. split; auto. intros i Hi Hj. apply B2; lia. Qed.
Lemma band_range a b lo hi : in_band lo hi a b -> 16 <= a <= b /\ b < 2 ^ 25.
Proof. intros [[B _ _ _] _]. exact B. Qed.

Let gap_spec := first_gap_spec num r s num3.

(** ** The speed *)
Lemma rpms_ok n d : between n d -> exists d', missing_update_rpms c d = Ok d' /\ after n d'.
Proof.
  intros [Bn [L G] Bc Bs By]. destruct HW as [Vd Fd Dd Nd]. specialize (Nd HM). destruct HS as [Sr Sw Sn]. set (m := s + n - 1) in *.
  assert (F1 : forall k, k = 1 \/ k = 2 -> frel 3 (fmul (dc_dpt c) (f_of_Z k)) (IZR k * dpt)).
  { intros k Hk. destruct (dpt_times c k HW Hk) as (V & F & E). split; auto. split; auto. rewrite E, Rmult_comm. apply rel_weaken with 0%R; [|lra].
    apply rel_refl. destruct Hk; subst k; lra. }
  (* the last interval *)
  assert (Tooth : 2 <= n -> forall k, k = (if m mod (num - 1) =? 0 then 2 else 1) -> forall kk, kk = 1 \/ kk = 2 ->
     exists rp, rpm_from_time_diff (w32 (w32 (T m) - w32 (T (m - 1)))) (fmul (dc_dpt c) (f_of_Z kk)) = Ok rp /\ 0 <= rp < W /\
       (kk = k -> forall a b, in_band (sl (m - 1)) (sl m) a b -> rpm_in dpt rp a b)).
  { intros Hn k Hk kk Hkk. pose proof (slot_succ num num3 (m - 1)) as SS. replace (m - 1 + 1) with m in SS by ring. rewrite <- Hk in SS.
    assert (K : k = 1 \/ k = 2) by (rewrite Hk; destruct (_ =? _); auto).
    destruct (bands m) as (a0 & b0 & B0). pose proof (band_range _ _ _ _ B0) as R0.
    assert (SP : forall a b, in_band (sl (m - 1)) (sl m) a b -> k * a <= T m - T (m - 1) <= k * b).
    { intros a b B. unfold tooth_time. replace (sl m) with (sl (m - 1) + k) by lia. apply span; [lia|]. intros i Hi. pose proof (sl_ge (m - 1) ltac:(lia)). apply B; lia. }
    assert (B1 : in_band (sl (m - 1)) (sl m) a0 b0) by (eapply in_band_sub; eauto; lia).
    pose proof (SP _ _ B1) as S0. rewrite w32_diff by (unfold W; nia).
    destruct (Z.eq_dec kk k) as [->|N].
    - destruct (rpm_span dpt tol k (T m - T (m - 1)) (fmul (dc_dpt c) (f_of_Z k)) a0 b0) as (rp & E & R1 & _); auto; try (destruct K; subst k; lia); try apply B0; try lra; try (destruct K as [K|K]; rewrite K; lra).
      exists rp. split; auto. split; auto. intros _ a b B.
      destruct (rpm_span dpt tol k (T m - T (m - 1)) (fmul (dc_dpt c) (f_of_Z k)) a b) as (rp' & E' & _ & R'); auto; try (destruct K; subst k; lia); try apply B; try lra; try (destruct K as [K|K]; rewrite K; lra). rewrite E in E'. injection E' as <-. exact R'.
    - destruct (rpm_accuracy (T m - T (m - 1)) (fmul (dc_dpt c) (f_of_Z kk)) (IZR kk * dpt) 3) as (rp & E & R1 & _);
        [nia|apply F1; auto|lra|destruct Hkk; subst kk; lra|]. exists rp. split; auto. split; auto. intros Q. contradiction. }
  (* the last turn *)
  assert (Turn : num <= 36 -> num <= n -> exists rp, rpm_from_time_diff (w32 (w32 (T m) - w32 (T (m - (num - 1))))) (fmul (f_of_Z num) (dc_dpt c)) = Ok rp /\ 0 <= rp < W /\
       (forall a b, in_band (sl m - num) (sl m) a b -> rpm_in dpt rp a b)).
  { intros N36 Hn. pose proof (slot_back num num3 m (num - 1) ltac:(lia)) as SB. pose proof (Z.mod_pos_bound m (num - 1) ltac:(lia)).
    destruct (Z.ltb_spec (m mod (num - 1)) (num - 1)); [|lia].
    assert (SP : forall a b, in_band (sl m - num) (sl m) a b -> num * a <= T m - T (m - (num - 1)) <= num * b).
    { intros a b B. unfold tooth_time. replace (sl m) with (sl (m - (num - 1)) + num) by lia. apply span; [lia|]. intros i Hi. pose proof (sl_ge (m - (num - 1)) ltac:(lia)). apply B; lia. }
    destruct (bands m) as (a0 & b0 & B0). pose proof (band_range _ _ _ _ B0) as R0.
    assert (B1 : in_band (sl m - num) (sl m) a0 b0) by (eapply in_band_sub; eauto; lia). pose proof (SP _ _ B1) as S0. rewrite w32_diff by (unfold W; nia).
    assert (N1 : (3 <= IZR num <= 36)%R) by (split; apply IZR_le; lia).
    assert (FN : frel 3 (fmul (f_of_Z num) (dc_dpt c)) (IZR num * dpt)).
    { replace 3%R with (0 + 0 + 3)%R by ring. apply frel_mul; try lra; [apply frel_small_Z; lia|apply frel_self; auto; lra| | |]; unfold sane_mag; try lra.
      split; [|lra]. apply Rle_trans with (3 * / 100)%R; [lra|apply Rmult_le_compat; lra]. }
    destruct (rpm_span dpt tol num (T m - T (m - (num - 1))) (fmul (f_of_Z num) (dc_dpt c)) a0 b0) as (rp & E & R1 & _); auto; try lia; try apply B1; try lra.
    exists rp. split; auto. split; auto. intros a b B.
    destruct (rpm_span dpt tol num (T m - T (m - (num - 1))) (fmul (f_of_Z num) (dc_dpt c)) a b) as (rp' & E' & _ & R'); auto; try lia; try apply B; try lra.
    rewrite E in E'. injection E' as <-. exact R'. }
  assert (T0 : get (dd_times d) 0 = Ok (w32 (T m))).
  { rewrite G by lia. destruct (Z.ltb_spec 0 n); [|lia]. do 3 f_equal. unfold m. ring. }
  assert (T1 : 2 <= n -> get (dd_times d) 1 = Ok (w32 (T (m - 1)))).
  { intros Hn. rewrite G by lia. destruct (Z.ltb_spec 1 n); [|lia]. do 3 f_equal. }
  assert (TN : num <= 36 -> num <= n -> get (dd_times d) (w32 (num - 1)) = Ok (w32 (T (m - (num - 1))))).
  { intros N36 Hn. assert (E : w32 (num - 1) = num - 1) by (unfold w32, W; apply Z.mod_small; lia). rewrite E, G by lia. destruct (Z.ltb_spec (num - 1) n); [|lia]. reflexivity. }
  (* tooth speed *)
  assert (A1 : exists d1, (if is_nosync (dd_state d) then Ok d else x <- missing_tooth_rpm c d ;; Ok (set_tooth_rpm d x)) = Ok d1 /\
     dd_times d1 = dd_times d /\ dd_cur d1 = dd_cur d /\ dd_state d1 = dd_state d /\ dd_since d1 = dd_since d /\ dd_rpm d1 = dd_rpm d /\
     (g <= m -> forall a b, in_band (sl (m - 1)) (sl m) a b -> rpm_in dpt (dd_tooth_rpm d1) a b)).
  { destruct (dd_state d) eqn:St; cbn [is_nosync].
    - exists d. rewrite St. split; auto. do 5 (split; [auto|]). intros Q. destruct (By Q). discriminate.
    - assert (Hn : 2 <= n). { destruct (Z.lt_ge_cases m g) as [Q|Q]; [|destruct (By Q); discriminate]. destruct (Bs Q) as (_ & _ & K). specialize (K ltac:(discriminate)). lia. }
      unfold missing_tooth_rpm. rewrite St. cbn [is_sync andb]. rewrite T0, T1 by auto. cbn [bind].
      destruct (Tooth Hn _ eq_refl 1 ltac:(auto)) as (rp & E & R1 & R2). rewrite E. cbn [bind]. eexists. split; [reflexivity|]. dsimp. rewrite St. do 5 (split; [auto|]).
      intros Q. destruct (By Q). discriminate.
    - assert (Q : g <= m) by (destruct (Z.lt_ge_cases m g) as [Q|Q]; auto; destruct (Bs Q); congruence).
      destruct (By Q) as (_ & Y2 & _). assert (Hn : 2 <= n) by (destruct gap_spec as (_ & K & _); lia).
      unfold missing_tooth_rpm. rewrite St. cbn [is_sync andb]. rewrite T0, T1 by auto. cbn [bind]. rewrite Y2.
      destruct (Tooth Hn _ eq_refl (if m mod (num - 1) =? 0 then 2 else 1) ltac:(destruct (_ =? _); auto)) as (rp & E & R1 & R2). rewrite E. cbn [bind]. eexists. split; [reflexivity|].
      dsimp. rewrite St. do 5 (split; [auto|]). intros _. apply R2. reflexivity. }
  destruct A1 as (d1 & E1 & K1 & K2 & K3 & K4 & K5 & K6). unfold missing_update_rpms. rewrite E1. cbn [bind].
  assert (A2 : exists rp, missing_tooth_average_rpm c d1 = Ok rp /\ (g <= m -> rpm_ok m rp)).
  { unfold missing_tooth_average_rpm. rewrite K1, K2, K4, Bc. destruct (Z.leb_spec num (Z.min n 36)) as [Q|Q].
    - destruct (Z.eqb_spec (dd_since d) 0) as [Z|Z].
      + rewrite T0, TN by lia. cbn [bind]. destruct (Turn ltac:(lia) ltac:(lia)) as (rp & E & _ & R). exists rp. split; auto. intros Hg a b B. apply R.
        eapply in_band_sub; [exact B| |lia]. destruct (By Hg) as (_ & Y2 & _). unfold slot. lia.
      + rewrite K5. eexists. split; auto. intros Hg. destruct (By Hg) as (_ & Y2 & Y3). rewrite Y2 in Z. specialize (Y3 Z). intros a b B. apply Y3.
        pose proof (Z.mod_pos_bound m (num - 1) ltac:(lia)). pose proof (Z.div_mod m (num - 1) ltac:(lia)) as DM.
        replace (s + n - 2) with (m - 1) by (unfold m; ring).
        destruct (Z.div_mod_unique (num - 1) ((m - 1) / (num - 1)) (m / (num - 1)) ((m - 1) mod (num - 1)) (m mod (num - 1) - 1)) as [D1 _];
          [left; apply Z.mod_pos_bound; lia|left; lia|rewrite <- Z.div_mod; lia|]. rewrite D1.
        eapply in_band_sub; [exact B|lia|]. pose proof (slot_mono num num3 (m - 1) 1 ltac:(lia)) as SM. replace (m - 1 + 1) with m in SM by ring. exact SM.
    - eexists. split; [reflexivity|]. intros Hg a b B. apply K6; auto. eapply in_band_sub; [exact B| |lia].
      pose proof (slot_succ num num3 (m - 1)) as SS. replace (m - 1 + 1) with m in SS by ring.
      unfold slot at 1 in SS. pose proof (Z.mod_pos_bound m (num - 1) ltac:(lia)). destruct (_ =? 0); lia. }
  destruct A2 as (rp & E2 & R2). rewrite E2. cbn [bind]. eexists. split; [reflexivity|]. split; dsimp; rewrite ?K1, ?K2, ?K3, ?K4; auto.
  - lia.
  - unfold times_ok. dsimp. rewrite K1. auto.
  - intros Q. destruct (Bs Q) as (? & ? & _). auto.
  - intros Q. destruct (By Q) as (? & ? & _). fold m. auto.
Qed.

(** ** One tooth *)
Definition step_angle (m : Z) (a : f32) : f32 := wrap720 (fadd a (fmul (dc_dpt c) (f_of_Z (if m mod (num - 1) =? 0 then 2 else 1)))).

Lemma tooth_ok n d : after n d -> dinv c d -> let m := s + n in exists d1 fx, missing_tooth_trigger_update c d (w32 (T m)) = Ok (d1, fx) /\ between (n + 1) d1 /\
  (m <= g -> fx = []) /\ (m = g -> dd_last_angle d1 = f_zero) /\
  (g < m -> dd_last_time d1 = w32 (T m) /\ dd_last_angle d1 = step_angle m (dd_last_angle d) /\ exists e, fx = [SetExpire (w32 e)] /\ T (m + 1) < e < T m + W).
Proof.
  intros [An At Ac As Ay] I m. pose proof At as [L G]. destruct HS as [Sr Sw Sn]. destruct gap_spec as (G1 & G2 & G3).
  assert (CU : count_up 36 (dd_cur d) = Z.min (n + 1) 36) by (unfold count_up; rewrite Ac; destruct (Z.ltb_spec (Z.min n 36) 36); lia).
  assert (KB : forall d1 fx, missing_tooth_trigger_update c d (w32 (T m)) = Ok (d1, fx) -> times_ok (n + 1) d1 /\ dd_cur d1 = Z.min (n + 1) 36 /\ dd_rpm d1 = dd_rpm d).
  { intros d1 fx E. destruct (missing_update_keeps _ _ _ _ _ E) as (_ & _ & _ & U4 & U5 & U6 & _). split; [eapply times_push; eauto|]. split; congruence. }
  destruct (Z.lt_ge_cases (s + n - 1) g) as [Q|Q].
  - (* searching *)
    destruct (As Q) as [St Si].
    destruct (Z.lt_ge_cases (n + 1) r) as [R|R].
    + destruct (update_waiting c d (w32 (T m))) as (d1 & E & E1 & E2); auto; [lia|lia|]. destruct (KB _ _ E) as (B1 & B2 & _). exists d1, []. split; auto. split.
      * split; auto; [lia| |intros; lia]. intros _. rewrite E1, E2. split; auto. split; auto. intros NN.
        exfalso. destruct (dd_state d) eqn:Sd; [now apply NN| |now apply St]. pose proof (di_rpm _ _ I Sd). lia.
      * split; auto. split; intros; lia.
    + assert (Hn : 1 <= n) by lia.
      assert (Gp : get (dd_times d) 0 = Ok (w32 (T (m - 1)))) by (rewrite G by lia; destruct (Z.ltb_spec 0 n); [|lia]; do 3 f_equal; unfold m; ring).
      destruct (bands m) as (a & b & B). pose proof (band_range _ _ _ _ B) as BR.
      assert (SS : sl m = sl (m - 1) + if m mod (num - 1) =? 0 then 2 else 1) by (pose proof (slot_succ num num3 (m - 1)) as SS; replace (m - 1 + 1) with m in SS by ring; exact SS).
      set (k := if m mod (num - 1) =? 0 then 2 else 1) in SS. assert (Hk : k = 1 \/ k = 2) by (unfold k; destruct (_ =? _); auto).
      assert (LAST : k * a <= T m - T (m - 1) <= k * b).
      { unfold tooth_time. replace (sl m) with (sl (m - 1) + k) by lia. apply span; [lia|]. intros i Hi. pose proof (sl_ge (m - 1) ltac:(unfold m; lia)). apply B; lia. }
      assert (LW : w32 (w32 (T m) - w32 (T (m - 1))) = T m - T (m - 1)) by (apply w32_diff; unfold W; nia).
      assert (BT : (IZR b <= IZR a * (13 / 10))%R).
      { destruct B as [[_ _ _ B4] _]. eapply Rle_trans; [exact B4|]. apply Rmult_le_compat_l; [apply IZR_le; lia|lra]. }
      destruct (Z.eq_dec (n + 1) r) as [Er|Nr].
      * (* the oldest time is not yet known *)
        assert (Gq : get (dd_times d) (r - 1) = Ok 0) by (rewrite G by lia; destruct (Z.ltb_spec (r - 1) n); [lia|reflexivity]).
        destruct (update_searching c d (w32 (T m)) _ _ HS L ltac:(lia) ltac:(lia) St Gp Gq) as (d1 & E & E1).
        assert (T0 : 0 <= T s <= T (m - 1) /\ T (m - 1) < W /\ 2 * r * (T m - T (m - 1)) <= 2 * T s).
        { pose proof (slot_back num num3 (m - 1) (m - 1 - s) ltac:(unfold m; lia)) as SB. replace (m - 1 - (m - 1 - s)) with s in SB by ring.
          pose proof (sl_ge (m - 1) ltac:(unfold m; lia)) as S1.
          assert (S2 : sl (m - 1) <= sl s + r) by (destruct (_ <? _) in SB; unfold m in *; lia).
          assert (P : forall i, sl s <= i <= sl m -> 0 <= f (i + 1) - f i).
          { intros i Hi. destruct B as [_ B]. assert (a <= f (i + 1) - f i) by (apply B; [lia|]; destruct Hk; lia). lia. }
          assert (P1 : 0 * 0 <= f (sl (m - 1)) - f (sl s)).
          { pose proof (span_between f 0 (2 ^ 32) (sl s) (sl (m - 1)) S1) as X. assert (Y : forall i, sl s <= i < sl (m - 1) -> 0 <= f (i + 1) - f i <= 2 ^ 32).
            { intros i Hi. split; [apply P; lia|]. destruct B as [_ B]. assert (f (i + 1) - f i <= b) by (apply B; [lia|]; destruct Hk; lia). lia. }
            specialize (X Y). lia. }
          assert (X1 : 2 * r * (f (sl (m - 1) + 1) - f (sl (m - 1))) <= T s) by (apply early; lia).
          assert (X0 : 0 <= T s) by (specialize (P (sl (m - 1)) ltac:(destruct Hk; lia)); nia).
          split; [split; [auto|unfold tooth_time in *; lia]|]. split.
          - replace (s + r) with (m + 1) in nowrap by (unfold m; lia). pose proof (slot_succ num num3 m) as SN.
            assert (X : T m <= T (m + 1)).
            { unfold tooth_time. pose proof (slot_mono num num3 m 1 ltac:(lia)).
              pose proof (span_between f a b (sl m) (sl (m + 1)) ltac:(lia)) as X. assert (Y : forall i, sl m <= i < sl (m + 1) -> a <= f (i + 1) - f i <= b).
              { intros i Hi. pose proof (sl_ge m ltac:(unfold m; lia)). apply B; [lia|]. destruct ((m + 1) mod (num - 1) =? 0); lia. }
              specialize (X Y). nia. }
            lia.
          - destruct Hk as [K|K]; rewrite K in SS; unfold tooth_time at 1 2; rewrite SS.
            + lia.
            + assert (X2 : 2 * r * (f (sl (m - 1) + 1 + 1) - f (sl (m - 1) + 1)) <= T s) by (apply early; lia).
              replace (sl (m - 1) + 2) with (sl (m - 1) + 1 + 1) by ring. lia. }
        assert (NG : near 2 (fdiv (f_of_Z (w32 (w32 (T m) - w32 (T (m - 1))))) (f_of_Z (w32 (w32 (T (m - 1)) - 0) / (r - 1)))) (dc_max_change c) = false).
        { rewrite LW, Z.sub_0_r. assert (W1 : w32 (w32 (T (m - 1))) = T (m - 1)) by (unfold w32; rewrite Zmod_mod; apply Z.mod_small; nia). rewrite W1.
          assert (D1 : T m - T (m - 1) <= T (m - 1) / (r - 1)) by (apply Z.div_le_lower_bound; [lia|]; nia).
          assert (D2 : T (m - 1) / (r - 1) < W). { apply Z.le_lt_trans with (T (m - 1)); [|lia]. apply Z.div_le_upper_bound; nia. }
          apply ratio_not_gap with 1%R; auto; try lra; [nia|unfold W; nia|]. rewrite Rmult_1_r. apply IZR_le. lia. }
        rewrite NG in E1. destruct E1 as (E1 & E2 & _). destruct (KB _ _ E) as (B1 & B2 & _). exists d1, []. split; auto. split.
        -- split; auto; [lia| |intros; lia]. intros _. rewrite E2. split; [auto|]. split; [auto|]. intros _. lia.
        -- split; auto. split; intros; unfold m in *; lia.
      * (* a full history *)
        assert (Gq : get (dd_times d) (r - 1) = Ok (w32 (T (m - 1 - (r - 1))))).
        { rewrite G by lia. destruct (Z.ltb_spec (r - 1) n); [|lia]. do 3 f_equal. }
        destruct (update_searching c d (w32 (T m)) _ _ HS L ltac:(lia) ltac:(lia) St Gp Gq) as (d1 & E & E1).
        pose proof (slot_back num num3 (m - 1) (r - 1) ltac:(lia)) as SB. set (w := r - 1 + _) in SB.
        assert (Hw : r - 1 <= w <= r) by (unfold w; destruct (_ <? _); lia).
        assert (SP : w * a <= T (m - 1) - T (m - 1 - (r - 1)) <= w * b).
        { unfold tooth_time. replace (sl (m - 1)) with (sl (m - 1 - (r - 1)) + w) by lia. apply span; [lia|]. intros i Hi. pose proof (sl_ge (m - 1 - (r - 1)) ltac:(unfold m; lia)).
          apply B; [lia|]. destruct Hk; lia. }
        assert (WW : w32 (w32 (T (m - 1)) - w32 (T (m - 1 - (r - 1)))) = T (m - 1) - T (m - 1 - (r - 1))) by (apply w32_diff; unfold W; nia).
        rewrite LW, WW in E1. set (avg := (T (m - 1) - T (m - 1 - (r - 1))) / (r - 1)) in E1.
        assert (AV : a <= avg) by (unfold avg; apply Z.div_le_lower_bound; nia).
        assert (AV2 : avg < W) by (unfold avg; apply Z.div_lt_upper_bound; unfold W; nia).
        destruct (KB _ _ E) as (B1 & B2 & _).
        destruct (Z.eq_dec m g) as [Eg|Ng].
        -- (* the first gap *)
           assert (M0 : m mod (num - 1) = 0) by (rewrite Eg; exact G1). assert (K2 : k = 2) by (unfold k; rewrite M0; reflexivity).
           assert (W1 : w = r - 1).
           { unfold w. pose proof (mod_succ num num3 (m - 1)) as MS. replace (m - 1 + 1) with m in MS by ring. rewrite M0 in MS.
             pose proof (Z.mod_pos_bound (m - 1) (num - 1) ltac:(lia)). destruct (Z.eqb_spec ((m - 1) mod (num - 1) + 1) (num - 1)); [|lia]. destruct (Z.ltb_spec ((m - 1) mod (num - 1)) (r - 1)); lia. }
           rewrite (ratio_near dpt (dc_max_change c) a b 2) in E1; auto; [|apply B|rewrite <- K2; exact LAST|split; [exact AV|unfold avg; apply Z.div_le_upper_bound; [lia|]; rewrite W1 in SP; lia]].
           destruct E1 as (E1 & E2 & E3). exists d1, []. split; auto. split.
           ++ split; auto; [lia|intros; unfold m in *; lia|]. intros _. replace (s + (n + 1) - 1) with m by (unfold m; ring). split; auto. split; [congruence|]. intros NN. contradiction.
           ++ split; auto. split; auto. intros; lia.
        -- (* a tooth before it *)
           assert (Lt : m < g) by (unfold m in *; lia). assert (M0 : m mod (num - 1) <> 0) by (intros M0; specialize (G3 m ltac:(unfold m; lia) M0); lia).
           assert (K1 : k = 1) by (unfold k; destruct (Z.eqb_spec (m mod (num - 1)) 0); [contradiction|reflexivity]).
           assert (A1 : 1 <= avg < W) by lia. assert (A2 : 0 <= T m - T (m - 1) < W) by (unfold W; nia).
           rewrite (ratio_not_gap (dc_max_change c) (T m - T (m - 1)) avg (13 / 10)) in E1; auto; try lra.
           2:{ apply Rle_trans with (IZR a * (13 / 10))%R; [eapply Rle_trans; [|exact BT]; apply IZR_le; lia|]. apply Rmult_le_compat_r; [lra|apply IZR_le; lia]. }
           destruct E1 as (E1 & E2 & _). exists d1, []. split; auto. split.
           ++ split; auto; [lia| |intros; unfold m in *; lia]. intros _. rewrite E2. split; [auto|]. split; [auto|]. intros _. lia.
           ++ split; auto. split; intros; lia.
  - (* synchronised *)
    destruct (Ay Q) as (St & Si & Ro). replace (s + n - 1) with (m - 1) in * by (unfold m; ring). assert (Hn : r < n) by (unfold m in *; lia).
    destruct (bands m) as (a & b & B). pose proof (band_range _ _ _ _ B) as BR.
    assert (SS : sl m = sl (m - 1) + if m mod (num - 1) =? 0 then 2 else 1) by (pose proof (slot_succ num num3 (m - 1)) as SS; replace (m - 1 + 1) with m in SS by ring; exact SS).
    pose proof (mod_succ num num3 (m - 1)) as MS. replace (m - 1 + 1) with m in MS by ring. pose proof (Z.mod_pos_bound (m - 1) (num - 1) ltac:(lia)) as MB.
    pose proof (mod_succ num num3 m) as MS2. pose proof (slot_succ num num3 m) as SS2.
    assert (RI : rpm_in dpt (dd_rpm d) a b).
    { assert (U : sl m <= num * ((m - 1) / (num - 1)) + num).
      { rewrite SS. unfold slot. rewrite MS. destruct (Z.eqb_spec ((m - 1) mod (num - 1) + 1) (num - 1)); [rewrite Z.eqb_refl; lia|].
        destruct (Z.eqb_spec ((m - 1) mod (num - 1) + 1) 0); lia. }
      apply Ro. eapply in_band_sub; [exact B|lia|]. destruct (_ =? _) in SS; lia. }
    pose proof (rpm_in_range _ _ _ _ _ (proj1 B) ltac:(apply HW) RI) as RR.
    destruct (update_synced c d (w32 (T m)) HS HM I St HW Vm Fm ltac:(lra) RR) as (d1 & fx & E). destruct (KB _ _ E) as (B1 & B2 & B3).
    destruct (missing_sync_step c d (w32 (T m)) d1 fx HS HM I St E) as (p & q & et & x & Gp & Gq & Sx & An1 & X1 & X2 & X3 & _ & X5).
    rewrite G in Gp, Gq by lia. destruct (Z.ltb_spec 0 n); [|lia]. destruct (Z.ltb_spec (r - 1) n); [|lia]. injection Gp as <-. injection Gq as <-.
    cbv zeta in Sx, An1. rewrite Z.sub_0_r in Sx, An1.
    set (k := if m mod (num - 1) =? 0 then 2 else 1) in *. assert (Hk : k = 1 \/ k = 2) by (unfold k; destruct (_ =? _); auto).
    assert (LAST : k * a <= T m - T (m - 1) <= k * b).
    { unfold tooth_time. rewrite SS. apply span; [lia|]. intros i Hi. pose proof (sl_ge (m - 1) ltac:(unfold m; lia)). apply B; lia. }
    assert (LW : w32 (w32 (T m) - w32 (T (m - 1))) = T m - T (m - 1)) by (apply w32_diff; unfold W; nia). rewrite LW in Sx, An1.
    pose proof (slot_back num num3 (m - 1) (r - 1) ltac:(lia)) as SB.
    assert (WC : window_count c d = sl (m - 1) - sl (m - 1 - (r - 1))) by (rewrite SB; unfold window_count; rewrite Si; destruct (_ <? _); lia).
    set (w := window_count c d) in *. assert (Hw : r - 1 <= w <= r) by (rewrite WC, SB; destruct (Z.ltb_spec ((m - 1) mod (num - 1)) (r - 1)); lia).
    assert (SP : w * a <= T (m - 1) - T (m - 1 - (r - 1)) <= w * b).
    { unfold tooth_time. replace (sl (m - 1)) with (sl (m - 1 - (r - 1)) + w) by lia. apply span; [lia|]. intros i Hi. pose proof (sl_ge (m - 1 - (r - 1)) ltac:(unfold m in *; lia)).
      apply B; [lia|]. destruct Hk; lia. }
    assert (WW : w32 (w32 (T (m - 1)) - w32 (T (m - 1 - (r - 1)))) = T (m - 1) - T (m - 1 - (r - 1))) by (apply w32_diff; unfold W; nia). rewrite WW in Sx, An1.
    set (avg := (T (m - 1) - T (m - 1 - (r - 1))) / w) in *. assert (AV : a <= avg <= b) by (unfold avg; split; [apply Z.div_le_lower_bound; nia|apply Z.div_le_upper_bound; nia]).
    assert (BT : (IZR b <= IZR a * (13 / 10))%R).
    { destruct B as [[_ _ _ B4] _]. eapply Rle_trans; [exact B4|]. apply Rmult_le_compat_l; [apply IZR_le; lia|lra]. }
    assert (NR : near k (fdiv (f_of_Z (T m - T (m - 1))) (f_of_Z avg)) (dc_max_change c) = true) by (apply (ratio_near dpt _ a b); auto; apply B).
    assert (GP : near 2 (fdiv (f_of_Z (T m - T (m - 1))) (f_of_Z avg)) (dc_max_change c) = (m mod (num - 1) =? 0)).
    { unfold k in NR. destruct (Z.eqb_spec (m mod (num - 1)) 0) as [Z0|Z0]; [exact NR|]. assert (K1 : k = 1) by (unfold k; destruct (Z.eqb_spec (m mod (num - 1)) 0); [contradiction|reflexivity]).
      apply ratio_not_gap with (13 / 10)%R; auto; try lra; try (unfold W; nia).
      apply Rle_trans with (IZR a * (13 / 10))%R; [eapply Rle_trans; [|exact BT]; apply IZR_le; lia|]. apply Rmult_le_compat_r; [lra|apply IZR_le; lia]. }
    rewrite GP in Sx, An1.
    assert (S1 : dd_state d1 = SYNC /\ dd_since d1 = m mod (num - 1)).
    { rewrite Si in Sx. rewrite MS in Sx |- *. unfold k in NR. rewrite MS in NR. destruct (Z.eqb_spec ((m - 1) mod (num - 1) + 1) (num - 1)) as [Z0|Z0].
      - rewrite Z.eqb_refl in Sx. exact Sx.
      - destruct (Z.eqb_spec ((m - 1) mod (num - 1) + 1) 0); [lia|]. rewrite NR in Sx. exact Sx. }
    destruct S1 as [S1 S2]. exists d1, fx. split; auto. split; [|split; [intros; lia|split; [intros; lia|]]].
    + split; auto; [lia|intros; unfold m in *; lia|]. intros _. replace (s + (n + 1) - 1) with m by (unfold m; ring). split; auto. split; auto. intros _.
      replace (s + (n + 1) - 2) with (m - 1) by (unfold m; ring). rewrite B3. exact Ro.
    + intros _. split; auto. split.
      { rewrite An1. unfold step_angle. fold k. destruct (m mod (num - 1) =? 0); reflexivity. }
      exists (T m + x). rewrite S2 in X1. assert (XE : w32 (w32 (T m) + x) = w32 (T m + x)) by (unfold w32; apply Zplus_mod_idemp_l). rewrite XE in X3. split; auto.
      assert (KE : (if m mod (num - 1) =? num - 2 then 2 else 1) = if (m + 1) mod (num - 1) =? 0 then 2 else 1).
      { rewrite MS2. pose proof (Z.mod_pos_bound m (num - 1) ltac:(lia)).
        destruct (Z.eqb_spec (m mod (num - 1)) (num - 2)), (Z.eqb_spec (m mod (num - 1) + 1) (num - 1)); try lia; [rewrite Z.eqb_refl; lia|].
        destruct (Z.eqb_spec (m mod (num - 1) + 1) 0); lia. }
      rewrite KE in X1. set (k2 := if (m + 1) mod (num - 1) =? 0 then 2 else 1) in *. assert (Hk2 : k2 = 1 \/ k2 = 2) by (unfold k2; destruct (Z.eqb_spec ((m + 1) mod (num - 1)) 0); auto).
      destruct (expiry_late c (dd_rpm d) k2 a b et x HW Vm Fm Hm (proj1 B) RI Hk2 X1 X2) as [Y1 Y2].
      assert (NX : T (m + 1) - T m <= k2 * b).
      { unfold tooth_time. rewrite SS2. apply span with (a := a); [lia|]. intros i Hi. pose proof (sl_ge m ltac:(unfold m; lia)). apply B; lia. }
      lia.
Qed.

Lemma after_same n d d' : dd_times d' = dd_times d -> dd_cur d' = dd_cur d -> dd_state d' = dd_state d -> dd_since d' = dd_since d -> dd_rpm d' = dd_rpm d ->
  after n d -> after n d'.
Proof. intros E1 E2 E3 E4 E5 [A B C D E]. unfold times_ok in B. split; unfold times_ok; rewrite ?E1, ?E2, ?E3, ?E4, ?E5; auto. Qed.

(** The reference angle [j] teeth after the first gap. *)
Fixpoint angle_after (j : nat) : f32 :=
  match j with O => f_zero | S j => step_angle (g + Z.of_nat (S j)) (angle_after j) end.

(** A tooth of the decoder without cam sync. *)
Record tracked (n : Z) (d : dec) : Prop := {
  tr_after : after n d;
  tr_inv : dinv c d;
  tr_valid : dd_valid d = if g <=? s + n - 1 then 1 else 0;
  tr_angle : g <= s + n - 1 -> dd_last_angle d = angle_after (Z.to_nat (s + n - 1 - g)) /\ dd_loss d = NO_LOSS;
  tr_time : g < s + n - 1 -> dd_last_time d = w32 (T (s + n - 1)) }.

Lemma first_le : s + r <= g.
Proof. destruct gap_spec as (_ & G2 & _). exact G2. Qed.

Lemma tracked_init : tracked 0 dec_init.
Proof.
  destruct HS as [Sr _ _]. pose proof first_le. split; try lia.
  - split; try lia.
    + split; [reflexivity|]. intros i Hi. destruct (Z.ltb_spec i 0); [lia|]. cbn [dec_init dd_times].
      unfold get. destruct (Z.ltb_spec i 0); [lia|]. assert (K : nth_error (repeat 0 37) (Z.to_nat i) = Some 0) by (apply nth_error_repeat; lia). rewrite K. reflexivity.
    + reflexivity.
    + intros _. split; [discriminate|reflexivity].
  - apply dec_init_dinv. auto.
  - destruct (Z.leb_spec g (s + 0 - 1)); [lia|reflexivity].
Qed.

Lemma tracked_step n d : dc_type c = MISSING_NOSYNC -> tracked n d -> exists d' fx, dstep c d (Trigger 0 (w32 (T (s + n)))) = Ok (d', fx) /\ tracked (n + 1) d' /\ (s + n <= g -> fx = []) /\ (g < s + n -> exists e, fx = [SetExpire (w32 e)] /\ T (s + n + 1) < e < T (s + n) + W).
Proof.
  intros HT [A I V An Ti]. rewrite trigger_decode. set (d0 := counted d 0).
  assert (A0 : after n d0) by (destruct (counted_same d 0) as (K1 & K2 & K3 & K4 & K5 & K6 & K7 & K8 & _); apply (after_same n d); auto).
  assert (I0 : dinv c d0) by (now apply counted_dinv).
  destruct (tooth_ok n d0 A0 I0) as (d1 & fx & E1 & B1 & F1 & F2 & F3). destruct (rpms_ok (n + 1) d1 B1) as (d2 & E2 & A2).
  pose proof (decode_good c d0 0 (w32 (T (s + n))) HS I0) as Gd.
  unfold decode in *. rewrite HT in *. unfold decode_missing_no_sync in *. cbv zeta in *. rewrite Z.eqb_refl in *. rewrite E1 in *. cbn [bind] in *. rewrite E2 in *. cbn [bind] in *.
  destruct (missing_update_keeps _ _ _ _ _ E1) as (M1 & _). destruct (missing_rpms_keeps _ _ _ E2) as (R1 & _ & _ & _ & _ & _ & R7 & R8 & R9 & _).
  destruct (counted_same d 0) as (K1 & K2 & K3 & K4 & K5 & K6 & K7 & K8 & _). fold d0 in K1, K2, K3, K4, K5, K6, K7, K8.
  pose proof first_le as FL. destruct HS as [Sr _ _].
  destruct (Z.le_gt_cases g (s + n)) as [Q|Q].
  - assert (Sy : dd_state d2 = SYNC) by (apply (af_sync _ _ A2); lia). rewrite Sy in *. cbn [is_sync] in *. eexists _, fx. split; [reflexivity|]. split; [|split; [exact F1|]].
    + split.
      * apply (after_same _ d2); auto.
      * exact Gd.
      * dsimp. destruct (Z.leb_spec g (s + (n + 1) - 1)); [reflexivity|lia].
      * intros _. dsimp. split; [|reflexivity]. rewrite R9. destruct (Z.eq_dec g (s + n)) as [Eg|Ng].
        -- replace (Z.to_nat (s + (n + 1) - 1 - g)) with O by lia. cbn [angle_after]. apply F2. lia.
        -- destruct (F3 ltac:(lia)) as (_ & F4 & _). rewrite F4. replace (Z.to_nat (s + (n + 1) - 1 - g)) with (S (Z.to_nat (s + n - 1 - g))) by lia. cbn [angle_after].
           replace (g + Z.of_nat (S (Z.to_nat (s + n - 1 - g)))) with (s + n) by lia. f_equal. rewrite K7. apply An. lia.
      * intros H. dsimp. rewrite R8. destruct (F3 ltac:(lia)) as (F4 & _). rewrite F4. do 2 f_equal. ring.
    + intros H. destruct (F3 ltac:(lia)) as (_ & _ & F5). exact F5.
  - assert (Sy : dd_state d2 <> SYNC) by (apply (af_search _ _ A2); lia). assert (Sy0 : dd_state d0 <> SYNC) by (apply (af_search _ _ A0); lia).
    assert (S2 : is_sync (dd_state d2) = false) by (destruct (dd_state d2); auto; congruence). assert (S0 : is_sync (dd_state d0) = false) by (destruct (dd_state d0); auto; congruence).
    rewrite S2, S0 in *. exists d2, fx. split; [reflexivity|]. split; [|split; [exact F1|intros; lia]].
    split; auto; try lia. rewrite R1, M1, K1, V. destruct (Z.leb_spec g (s + n - 1)), (Z.leb_spec g (s + (n + 1) - 1)); auto; lia.
Qed.

(** Teeth [m0], [m0 + 1], ... and the expiry times set at them. *)
Fixpoint expiries (m : Z) (es : list Z) : Prop :=
  match es with [] => True | e :: es => T (m + 1) < e < T m + W /\ expiries (m + 1) es end.
Lemma expiries_app m es e : expiries m es -> T (m + Z.of_nat (length es) + 1) < e < T (m + Z.of_nat (length es)) + W -> expiries m (es ++ [e]).
Proof.
  revert m. induction es as [|x es IH]; intros m H K; cbn [expiries app] in *.
  - cbn [length] in K. rewrite Z.add_0_r in K. auto.
  - destruct H as [H1 H2]. split; auto. apply IH; auto. cbn [length] in K. replace (m + 1 + Z.of_nat (length es)) with (m + Z.of_nat (S (length es))) by lia. exact K.
Qed.

Lemma wheel_teeth_snoc n : wheel_teeth num f s (S n) = wheel_teeth num f s n ++ [Trigger 0 (w32 (T (s + Z.of_nat n)))].
Proof. unfold wheel_teeth. rewrite seq_S, map_app. reflexivity. Qed.

Lemma wheel_run n : dc_type c = MISSING_NOSYNC -> exists d es, drun c dec_init (wheel_teeth num f s n) = Ok (d, map (fun e => SetExpire (w32 e)) es) /\ tracked (Z.of_nat n) d /\ Z.of_nat (length es) = Z.max 0 (s + Z.of_nat n - 1 - g) /\ expiries (g + 1) es.
Proof.
  intros HT. pose proof first_le as FL. destruct HS as [Sr _ _]. induction n as [|n (d & es & E & Tr & L & X)].
  - exists dec_init, []. split; [reflexivity|]. split; [exact tracked_init|]. split; [cbn [length]; lia|exact Logic.I].
  - destruct (tracked_step (Z.of_nat n) d HT Tr) as (d' & fx & E' & Tr' & F1 & F2). rewrite wheel_teeth_snoc, drun_app, E. cbn [bind drun]. rewrite E'. cbn [bind]. rewrite app_nil_r.
    replace (Z.of_nat (S n)) with (Z.of_nat n + 1) by lia. destruct (Z.le_gt_cases (s + Z.of_nat n) g) as [Q|Q].
    + rewrite (F1 Q), app_nil_r. exists d', es. split; [reflexivity|]. split; [exact Tr'|]. split; [lia|exact X].
    + destruct (F2 ltac:(lia)) as (e & -> & He). exists d', (es ++ [e]). split; [rewrite map_app; reflexivity|]. split; [exact Tr'|].
      split; [rewrite app_length; cbn [length]; lia|]. apply expiries_app; auto. replace (g + 1 + Z.of_nat (length es)) with (s + Z.of_nat n) by lia. exact He.
Qed.
End run.
