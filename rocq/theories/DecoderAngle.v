(** The decoder's reference angle stays in one engine cycle; the estimate of the current angle. *)
Require Import ZArith Reals List Bool Lia Lra.
From Flocq Require Import Core Mult_error.
From Verif Require Import Res Word F32 F32Flocq TimeProofs TableProofs AngleProofs PulseProofs RelErr Arr Decoder DecoderProofs DecoderSafe DecoderRun DecoderMissing.
Import ListNotations.
Open Scope Z_scope.

Definition in_cycle (a : f32) : Prop := vf a /\ fin a /\ (0 <= R_ a < 720)%R.

Lemma wrap_in_cycle a g : in_cycle a -> vf g -> fin g -> (0 <= R_ g <= 719)%R -> in_cycle (wrap720 (fadd a g)).
Proof.
  intros (Va & Fa & Ha) Vg Fg Hg. destruct f720 as (V7 & F7 & R7).
  destruct (fadd_ok a g 11) as [E F]; auto; [lia|simpl; rewrite Rabs_pos_eq; lra|].
  assert (B : (0 <= rnd (R_ a + R_ g) <= 1439)%R).
  { split; [apply round_ge_generic; try typeclasses eauto; [apply generic_format_0; typeclasses eauto|lra]|].
    apply round_le_generic; try typeclasses eauto; [|lra]. apply (generic_Z 1439). lia. }
  unfold wrap720. destruct (fge (fadd a g) (f_of_Z 720)) eqn:G.
  - unfold fge in G. apply fle_iff in G; auto with vf. rewrite R7, E in G.
    destruct (fsub_ok (fadd a g) (f_of_Z 720) 11) as [E2 F2]; auto with vf; [lia|rewrite E, R7; simpl; rewrite Rabs_pos_eq; lra|].
    split; [auto with vf|]. split; auto. rewrite E2, E, R7. split.
    + apply round_ge_generic; try typeclasses eauto; [apply generic_format_0; typeclasses eauto|lra].
    + apply Rle_lt_trans with 719%R; [|lra]. apply round_le_generic; try typeclasses eauto; [|lra]. apply (generic_Z 719). lia.
  - split; [auto with vf|]. split; auto. rewrite E. split; [lra|].
    unfold fge in G. apply fle_false_iff in G; auto with vf. rewrite R7, E in G. lra.
Qed.

(** Wheels whose teeth are between 0.01 and 359 degrees apart and that, if a tooth is missing, have at most
    half a tooth too many per revolution. *)
Record wheel (c : dcfg) : Prop := {
  wh_vf : vf (dc_dpt c);
  wh_fin : fin (dc_dpt c);
  wh_dpt : (/ 100 <= R_ (dc_dpt c) <= 359)%R;
  wh_num : missing c = true -> (IZR (dc_num c) * R_ (dc_dpt c) <= 360 + R_ (dc_dpt c) / 2)%R }.

Lemma dpt_times c k : wheel c -> k = 1 \/ k = 2 -> vf (fmul (dc_dpt c) (f_of_Z k)) /\ fin (fmul (dc_dpt c) (f_of_Z k)) /\
  R_ (fmul (dc_dpt c) (f_of_Z k)) = (R_ (dc_dpt c) * IZR k)%R.
Proof.
  intros [V F B _] K. destruct (f_of_Z_exact k) as [E Fk]; [destruct K; subst; cbn; lia|].
  destruct (fmul_ok (dc_dpt c) (f_of_Z k) 10) as [E2 F2]; auto using vf_of_Z; [lia| |].
  { rewrite E. destruct K; subst k; simpl; rewrite Rabs_pos_eq; lra. }
  split; [auto using vf_of_Z with vf|]. split; auto. rewrite E2, E. apply round_generic; [typeclasses eauto|].
  destruct K; subst k.
  - rewrite Rmult_1_r. now apply generic_R.
  - pose proof (generic_R _ V F) as G. change fexp32 with (FLT_exp (-149) 24) in *.
    replace (R_ (dc_dpt c) * 2)%R with (R_ (dc_dpt c) * bpow radix2 1)%R by (simpl; lra). apply mult_bpow_exact_FLT; auto.
    assert (Hm : mag_val _ _ (mag radix2 (R_ (dc_dpt c))) >= -6).
    { assert (-7 < mag_val _ _ (mag radix2 (R_ (dc_dpt c)))); [|lia]. apply mag_gt_bpow. simpl. rewrite Rabs_pos_eq; lra. }
    change (mag_val radix2 _ (mag radix2 (R_ (dc_dpt c)))) with (mag radix2 (R_ (dc_dpt c)) : Z) in Hm. lia.
Qed.

Lemma even_update_angle c d t d' fx : even_tooth_trigger_update c d t = Ok (d', fx) ->
  dd_last_angle d' = if is_sync (dd_state d) then wrap720 (fadd (dd_last_angle d) (dc_dpt c)) else dd_last_angle d.
Proof.
  unfold even_tooth_trigger_update. cbv zeta. intros H.
  set (d1 := if dd_cur _ <? _ then _ else _) in H.
  assert (D : dd_state d1 = dd_state d /\ dd_last_angle d1 = dd_last_angle d) by (unfold d1; destruct (_ <? _); dsimp; auto).
  clearbody d1. destruct D as [D1 D2].
  set (d2 := if is_nosync (dd_state d1) && _ then _ else _) in H.
  assert (D : is_sync (dd_state d2) = is_sync (dd_state d) /\ dd_last_angle d2 = dd_last_angle d).
  { unfold d2. rewrite <- D1. destruct (dd_state d1) eqn:E; cbn [is_nosync andb]; try destruct (_ <=? _); dsimp; rewrite ?E; auto. }
  clearbody d2. destruct D as [D3 D4]. rewrite D3 in H.
  set (d3 := if is_sync (dd_state d) then _ else d2) in H.
  assert (D : dd_last_angle d3 = if is_sync (dd_state d) then wrap720 (fadd (dd_last_angle d) (dc_dpt c)) else dd_last_angle d).
  { unfold d3. destruct (is_sync (dd_state d)); dsimp; rewrite ?D4; auto. }
  clearbody d3. rewrite <- D. destruct (is_nosync _); [injection H as <- <-; auto|]. now apply even_rpm_keeps in H as (_ & _ & _ & _ & _ & K & _).
Qed.

Lemma sync_update_angle c d : dd_last_angle (even_tooth_sync_update c d) = dd_last_angle d \/ dd_last_angle (even_tooth_sync_update c d) = f_zero.
Proof. unfold even_tooth_sync_update. destruct (dd_state d); dsimp; auto. destruct (_ =? _); dsimp; auto. Qed.

Lemma missing_update_angle c d t d' fx : supported c -> missing c = true -> dinv c d -> missing_tooth_trigger_update c d t = Ok (d', fx) ->
  dd_last_angle d' = dd_last_angle d \/ dd_last_angle d' = f_zero \/
  exists k, (k = 1 \/ k = 2) /\ dd_last_angle d' = wrap720 (fadd (dd_last_angle d) (fmul (dc_dpt c) (f_of_Z k))).
Proof.
  intros S M I H. destruct (dd_state d) eqn:St.
  3:{ destruct (missing_sync_step _ _ _ _ _ S M I St H) as (p & q & et & x & _ & _ & _ & K & _). right. right.
      match type of K with _ = wrap720 (fadd _ (fmul _ (f_of_Z (if ?b then _ else _)))) => exists (if b then 2 else 1); split; [destruct b; auto|exact K] end. }
  all: unfold missing_tooth_trigger_update in H; cbv zeta in H;
    (set (d1 := if dd_cur (push_time d t) <? MAX_TRIGGERS then _ else _) in H);
    (assert (D : dd_state d1 = dd_state d /\ dd_last_angle d1 = dd_last_angle d) by (unfold d1; destruct (_ <? _); dsimp; auto));
    clearbody d1; destruct D as [D1 D2]; rewrite St in D1;
    (destruct (dd_cur d1 <? dc_required c); [injection H as <- <-; auto|]); rewrite D1 in H; cbn [is_nosync] in H;
    apply bind_ok in H; destruct H as ((last & avg) & _ & H); dsimp; rewrite ?D1 in H;
    (destruct (near 2 _ _); [|destruct (near 1 _ _)]); cbn [negb] in H; injection H as <- <-; dsimp; auto.
Qed.

Lemma in_cycle_zero : in_cycle f_zero.
Proof. split; [auto with vf|]. split; [reflexivity|]. rewrite R_f_zero. lra. Qed.

Lemma missing_cycle c d t d' fx : supported c -> missing c = true -> dinv c d -> wheel c -> in_cycle (dd_last_angle d) ->
  missing_tooth_trigger_update c d t = Ok (d', fx) -> in_cycle (dd_last_angle d').
Proof.
  intros S M I Wh A H. destruct (missing_update_angle _ _ _ _ _ S M I H) as [K|[K|(k & K & E)]]; [congruence|rewrite K; apply in_cycle_zero|].
  rewrite E. destruct (dpt_times c k Wh K) as (V & F & R). destruct Wh as [_ _ B _]. apply wrap_in_cycle; auto. rewrite R. destruct K; subst k; lra.
Qed.

(** The angle assigned when the cam pulse resolves the two revolutions. *)
Lemma cam_angle_cycle c s b : supported c -> missing c = true -> wheel c -> 0 <= s <= dc_num c - 2 ->
  in_cycle (fadd (fmul (dc_dpt c) (f_of_Z s)) (f_of_Z (if b : bool then 0 else 360))).
Proof.
  intros S M [V F B N] Hs. specialize (N M). destruct S as [_ _ Sn].
  assert (Hs' : (0 <= IZR s)%R) by (apply IZR_le; lia).
  assert (Hn : (IZR s <= IZR (dc_num c) - 2)%R) by (rewrite <- minus_IZR; apply IZR_le; lia).
  assert (P : (0 <= R_ (dc_dpt c) * IZR s <= 360 - R_ (dc_dpt c) * (3 / 2))%R).
  { split; [apply Rmult_le_pos; lra|]. apply Rle_trans with (R_ (dc_dpt c) * (IZR (dc_num c) - 2))%R; [apply Rmult_le_compat_l; lra|lra]. }
  assert (Sb : (IZR s <= 36100)%R).
  { apply Rmult_le_reg_l with (R_ (dc_dpt c)); [lra|]. apply Rle_trans with 360%R; [lra|]. apply Rle_trans with (/ 100 * 36100)%R; [lra|]. apply Rmult_le_compat_r; lra. }
  assert (Sz : s <= 36100) by (apply le_IZR; exact Sb).
  destruct (f_of_Z_exact s) as [Es Fs]; [rewrite Z.abs_eq; lia|].
  destruct (fmul_ok (dc_dpt c) (f_of_Z s) 10) as [E2 F2]; auto using vf_of_Z; [lia|rewrite Es; simpl; rewrite Rabs_pos_eq; lra|]. rewrite Es in E2.
  assert (Q : (0 <= R_ (fmul (dc_dpt c) (f_of_Z s)) <= 360 - R_ (dc_dpt c) * (3 / 2) + 400 * ur)%R).
  { rewrite E2. pose proof (rnd_nonneg_upper _ (proj1 P)) as U. pose proof (round_ge_generic radix2 fexp32 ZnearestE 0 _ ltac:(apply generic_format_0) (proj1 P)).
    assert (b2 (-150) < / 100000000)%R by (unfold b2; simpl; lra). split; [assumption|]. unfold ur in *. lra. }
  assert (Z3 : (R_ (f_of_Z (if b then 0 else 360)) = if b then 0 else 360)%R /\ fin (f_of_Z (if b then 0 else 360))).
  { destruct b; apply f_of_Z_exact; cbn; lia. }
  destruct Z3 as [Z3 Z4]. destruct (fadd_ok (fmul (dc_dpt c) (f_of_Z s)) (f_of_Z (if b then 0 else 360)) 10) as [E3 F3]; auto using vf_of_Z with vf; [lia|rewrite Z3; simpl; unfold ur in *; destruct b; rewrite Rabs_pos_eq; lra|].
  split; [auto using vf_of_Z with vf|]. split; auto. rewrite E3, Z3.
  assert (G : (0 <= R_ (fmul (dc_dpt c) (f_of_Z s)) + (if b then 0 else 360) <= 720 - / 100)%R) by (unfold ur in *; destruct b; lra).
  split; [apply round_ge_generic; try typeclasses eauto; [apply generic_format_0; typeclasses eauto|lra]|].
  set (y := (R_ (fmul (dc_dpt c) (f_of_Z s)) + (if b then 0 else 360))%R) in *.
  assert (K : (Rabs (rnd y - y) <= / 4000)%R) by (apply rnd_small; rewrite Rabs_pos_eq; lra).
  apply Rabs_le_inv in K. lra.
Qed.

Lemma decode_cycle c d n t d' fx : supported c -> wheel c -> dinv c d -> in_cycle (dd_last_angle d) -> decode c d n t = Ok (d', fx) -> in_cycle (dd_last_angle d').
Proof.
  intros S Wh I A H. assert (EV : in_cycle (wrap720 (fadd (dd_last_angle d) (dc_dpt c)))) by (destruct Wh as [V F B _]; apply wrap_in_cycle; auto; lra).
  unfold decode in H. destruct (dc_type c) eqn:T.
  - unfold decode_even_no_sync in H. cbv zeta in H. apply bind_ok in H. destruct H as ((d1 & fx1) & E & H).
    assert (K : in_cycle (dd_last_angle d1)) by (rewrite (even_update_angle _ _ _ _ _ E); destruct (is_sync (dd_state d)); auto).
    destruct (negb _); [injection H as <- <-; exact K|]. destruct (is_sync _); injection H as <- <-; exact K.
  - unfold decode_even_with_camsync in H. cbv zeta in H. apply bind_ok in H. destruct H as ((d1 & fx1) & E & H).
    assert (K : in_cycle (dd_last_angle d1)).
    { destruct (n =? 0); [rewrite (even_update_angle _ _ _ _ _ E); destruct (is_sync (dd_state d)); auto|].
      destruct (n =? 1); injection E as <- <-; auto. destruct (sync_update_angle c d) as [-> | ->]; auto. apply in_cycle_zero. }
    destruct (is_sync _); [injection H as <- <-; exact K|]. destruct (is_sync _); injection H as <- <-; exact K.
  - assert (M : missing c = true) by (unfold missing; now rewrite T).
    unfold decode_missing_no_sync in H. cbv zeta in H. apply bind_ok in H. destruct H as ((d1 & fx1) & E & H).
    assert (K : in_cycle (dd_last_angle d1)) by (destruct (n =? 0); [eapply missing_cycle; eauto|injection E as <- <-; auto]).
    apply bind_ok in H. destruct H as (d2 & E2 & H). apply missing_rpms_keeps in E2. destruct E2 as (_ & _ & _ & _ & _ & _ & _ & _ & K2 & _). rewrite <- K2 in K.
    destruct (is_sync _); [injection H as <- <-; exact K|]. destruct (is_sync _); injection H as <- <-; exact K.
  - assert (M : missing c = true) by (unfold missing; now rewrite T).
    unfold decode_missing_with_camsync in H. cbv zeta in H. apply bind_ok in H. destruct H as ((d1 & fx1) & E & H).
    assert (K : in_cycle (dd_last_angle d1) /\ (dd_state d1 = SYNC -> 0 <= dd_since d1 <= dc_num c - 2)).
    { destruct I as [L C N V Sy Ev Rp]. rewrite M in *. destruct (n =? 0).
      - apply bind_ok in E. destruct E as ((d0 & fx0) & E0 & E).
        pose proof (missing_update_good c d t S M ltac:(split; rewrite ?M; auto)) as G. rewrite E0 in G. destruct G as (_ & _ & G3 & G4 & _). cbn [fst] in *.
        assert (K : in_cycle (dd_last_angle d0)) by (eapply (missing_cycle c d); eauto; split; rewrite ?M; auto).
        injection E as <- <-. destruct (_ && _); [destruct (_ && _)|]; dsimp; split; auto; intros Q; specialize (G4 Q); lia.
      - destruct (n =? 1); injection E as <- <-; [destruct (is_sync _); [destruct (_ || _)|]|]; dsimp; split; auto; intros Q; specialize (Sy Q); lia. }
    destruct K as [K1 K2]. apply bind_ok in H. destruct H as (d2 & E2 & H). apply missing_rpms_keeps in E2.
    destruct E2 as (_ & _ & R3 & _ & _ & _ & R7 & _ & R9 & _). rewrite <- R9 in K1. rewrite <- R3, <- R7 in K2.
    match type of H with (if _ then Ok (invalidate_decoder ?x, _) else _) = _ => set (d3 := x) in H; assert (K3 : in_cycle (dd_last_angle d3)) end.
    { unfold d3. destruct (is_sync (dd_state d2)) eqn:Q; cbn [negb]; [|exact K1]. destruct (_ && _); [|exact K1]. dsimp.
      apply cam_angle_cycle; auto. apply K2. destruct (dd_state d2); auto; discriminate. }
    clearbody d3. destruct (_ && _); injection H as <- <-; exact K3.
Qed.

Lemma drun_cycle c es d d' fx : supported c -> wheel c -> dinv c d -> in_cycle (dd_last_angle d) -> drun c d es = Ok (d', fx) -> in_cycle (dd_last_angle d').
Proof.
  intros S Wh. revert d fx. induction es as [|e es IH]; intros d fx I A H; cbn [drun] in H; [injection H as <- <-; auto|].
  apply bind_ok in H. destruct H as ((d1 & f1) & E & H). apply bind_ok in H. destruct H as ((d2 & f2) & E2 & H). injection H as <- <-.
  pose proof (dstep_good c d e S I) as G. rewrite E in G. cbn [good fst] in G.
  eapply IH; [exact G| |exact E2]. destruct e as [n t| |w].
  - rewrite trigger_decode in E. refine (decode_cycle c (counted d n) n t d1 f1 S Wh (counted_dinv c d n I) _ E). destruct (counted_same d n) as (_ & _ & _ & _ & _ & _ & K & _). rewrite K. exact A.
  - injection E as <- <-. exact A.
  - injection E as <- <-. exact A.
Qed.

(** ** current_angle *)
Lemma degrees_mono rpm a b : 0 <= a <= b -> b < W -> 1 <= rpm <= 2 ^ 24 -> (R_ (degrees_from_time_diff a rpm) <= R_ (degrees_from_time_diff b rpm))%R.
Proof.
  intros Hab Hb H. destruct (tpd_spec rpm H) as (Vq & Fq & Bq). unfold degrees_from_time_diff. set (q := fdiv tick_degree_rpm_ratio (f_of_Z rpm)) in *.
  assert (H1 : (1 <= IZR rpm <= 16777216)%R) by (split; apply IZR_le; lia).
  assert (I1 : (/ 16777216 <= / IZR rpm <= 1)%R). { split; [apply Rinv_le; lra|]. rewrite <- Rinv_1. apply Rinv_le; lra. }
  assert (Q0 : (/ 100 <= R_ q)%R).
  { destruct Bq as [Bq _]. eapply Rle_trans; [|exact Bq]. unfold ur. unfold Rdiv at 1 in Bq. unfold Rdiv. 
    apply Rle_trans with ((2000000 * / 3 * / 16777216) * (1 - 2 * / 16777216))%R; [lra|]. apply Rmult_le_compat; try lra; try (apply Rmult_le_pos; lra); apply Rmult_le_compat_l; lra. }
  assert (Hz : forall z, 0 <= z < W -> R_ (f_of_Z z) = rnd (IZR z) /\ fin (f_of_Z z) /\ (0 <= R_ (f_of_Z z) <= 4300000000)%R).
  { intros z Hz. destruct (f_of_Z_u32 z) as [E F]; [unfold W in Hz; rewrite Z.abs_eq; lia|]. split; auto. split; auto. rewrite E.
    assert (B : (0 <= IZR z <= 4294967296)%R) by (split; apply IZR_le; unfold W in Hz; lia).
    split; [apply round_ge_generic; try typeclasses eauto; [apply generic_format_0; typeclasses eauto|lra]|].
    pose proof (rnd_nonneg_upper _ (proj1 B)) as U. assert (b2 (-150) < / 100000000)%R by (unfold b2; simpl; lra). unfold ur in *. lra. }
  assert (Ra : 0 <= a < W) by lia. assert (Rb : 0 <= b < W) by lia.
  destruct (Hz a Ra) as (Ea & Fa & Ba). destruct (Hz b Rb) as (Eb & Fb & Bb).
  assert (Iq : (0 < / R_ q <= 100)%R). { split; [apply Rinv_0_lt_compat; lra|]. replace 100%R with (/ / 100)%R by lra. apply Rinv_le; lra. }
  assert (Bd : forall x, (0 <= x <= 4300000000)%R -> (Rabs (x / R_ q) <= bpow radix2 40)%R).
  { intros x Hx. unfold Rdiv. rewrite Rabs_pos_eq by (apply Rmult_le_pos; lra). apply Rle_trans with (4300000000 * 100)%R; [apply Rmult_le_compat; lra|simpl; lra]. }
  destruct (fdiv_ok (f_of_Z a) q 40) as [Ga _]; auto using vf_of_Z; [lia|lra|].
  destruct (fdiv_ok (f_of_Z b) q 40) as [Gb _]; auto using vf_of_Z; [lia|lra|].
  rewrite Ga, Gb. apply round_le; try typeclasses eauto. unfold Rdiv. apply Rmult_le_compat_r; [lra|]. rewrite Ea, Eb.
  apply round_le; try typeclasses eauto. apply IZR_le. lia.
Qed.
