(** Wheels with a missing tooth: the decoder never calculates a speed of 0 while the teeth keep coming. *)
Require Import ZArith Reals List Bool Lia Lra.
From Flocq Require Import Core.
From Verif Require Import Res Word F32 F32Flocq Arr TimeProofs AngleProofs Interval Outputs PulseProofs Decoder DecoderProofs DecoderSafe DecoderRun DecoderAngle Calc CalcSpec System SafeSpec SafeDec PaceSpec.
Import ListNotations.
Open Scope Z_scope.
Ltac Zify.zify_post_hook ::= idtac.

(** A time of at most 620000 ticks per degree is at least 1 RPM. *)
Lemma rpm_pos t deg r : 1 <= t < 2 ^ 32 -> iv deg (/ 128) 3600 -> (IZR t <= 620000 * R_ deg)%R -> rpm_from_time_diff t deg = Ok r -> 1 <= r.
Proof.
  intros H D B E. unfold rpm_from_time_diff in E. cbv zeta in E. destruct D as (Vd & Fd & Bd). destruct (f_of_Z_u32 t) as [A F]; [lia|].
  assert (T1 : (1 <= IZR t)%R) by (apply (IZR_le 1); lia).
  destruct (rnd_pos_bounds (IZR t)) as [U1 U2]; [lra|]. unfold ur in U1, U2.
  assert (I : iv (f_of_Z t) (1 / 2) (R_ (f_of_Z t))) by (split; [auto with vf|split; [exact F|rewrite A; split; [|lra]]]; apply Rle_trans with (IZR t * (1 - / 16777216))%R; [|exact U1]; lra).
  assert (Q : iv (fdiv (f_of_Z t) deg) (/ 8192) 640000).
  { eapply (iv_divc _ _ _ _ (R_ deg)); [exact I|split; [exact Vd|split; [exact Fd|lra]]|apply (rep_n 13); lia|apply (rep_Z 640000); lia|lra|lra|]. rewrite A. lra. }
  assert (X : iv (fdiv tick_degree_rpm_ratio (fdiv (f_of_Z t) deg)) 1 8589934592).
  { eapply iv_div; [exact iv_ratio|exact Q|apply (rep_Z 1); lia|apply (rep_p 1 33); lia|lra|lra|lra|lra|lra]. }
  destruct X as (Vx & Fx & Bx). unfold f_to_u32 in E. rewrite (f_to_range_fin _ _ _ Fx) in E. destruct (_ && _); [|discriminate]. assert (Ztrunc (R_ (fdiv tick_degree_rpm_ratio (fdiv (f_of_Z t) deg))) = r) by congruence. subst r.
  rewrite Ztrunc_floor by lra. apply Zfloor_lub. apply Bx.
Qed.

Section Pace.
Variable c : dcfg.
Hypothesis C : dec_ok c.
Hypothesis M : missing c = true.

(** [v], then [u]: neighbouring teeth. *)
Definition close (u v : Z) : Prop := 1 <= w32 (u - v) /\ (IZR (w32 (u - v)) <= 600000 * R_ (dc_dpt c))%R.
(** The teeth counted so far are close to each other. *)
Definition steady (d : dec) : Prop := forall k u v, 0 <= k -> k + 1 < dd_cur d -> get (dd_times d) k = Ok u -> get (dd_times d) (k + 1) = Ok v -> close u v.

Lemma steady_span d u : steady d -> length (dd_times d) = 37%nat -> dd_cur d <= 36 -> get (dd_times d) 0 = Ok u -> forall k, (0 <= k)%nat -> Z.of_nat k < dd_cur d -> (IZR (Z.of_nat k) * R_ (dc_dpt c) <= 720)%R ->
  forall v, get (dd_times d) (Z.of_nat k) = Ok v -> Z.of_nat k <= w32 (u - v) /\ (IZR (w32 (u - v)) <= IZR (Z.of_nat k) * (600000 * R_ (dc_dpt c)))%R.
Proof.
  intros S L Cu Gu. destruct (dpt_iv c C) as [_ Dp]. induction k as [|k IH]; intros _ Hk Hd v Gv.
  - assert (v = u) by (change (Z.of_nat 0) with 0 in Gv; congruence). subst v. rewrite Z.sub_diag. change (w32 0) with 0. split; [lia|]. simpl. lra.
  - destruct (get_in_range (dd_times d) (Z.of_nat k)) as [x Gx]; [rewrite L; lia|].
    assert (Hk1 : (IZR (Z.of_nat k) <= IZR (Z.of_nat (Datatypes.S k)))%R) by (apply IZR_le; lia). assert (Es : IZR (Z.of_nat (Datatypes.S k)) = (IZR (Z.of_nat k) + 1)%R) by (rewrite <- plus_IZR; f_equal; lia).
    assert (K0 : (0 <= IZR (Z.of_nat k))%R) by (apply (IZR_le 0); lia).
    destruct (IH ltac:(lia) ltac:(lia)) with (v := x) as [I1 I2]; [|exact Gx|].
    { apply Rle_trans with (IZR (Z.of_nat (Datatypes.S k)) * R_ (dc_dpt c))%R; [|exact Hd]. apply Rmult_le_compat_r; lra. }
    replace (Z.of_nat (Datatypes.S k)) with (Z.of_nat k + 1) in Gv by lia. destruct (S (Z.of_nat k) x v ltac:(lia) ltac:(lia) Gx Gv) as [C1 C2].
    assert (B1 : (IZR (w32 (u - x)) + IZR (w32 (x - v)) <= IZR (Z.of_nat (Datatypes.S k)) * (600000 * R_ (dc_dpt c)))%R) by (rewrite Es; lra).
    assert (B2 : (IZR (w32 (u - x) + w32 (x - v)) <= 432000000)%R) by (rewrite plus_IZR; lra). apply (le_IZR _ 432000000) in B2.
    assert (E : w32 (u - v) = w32 (u - x) + w32 (x - v)).
    { unfold w32, W in *. replace (u - v) with ((u - x) + (x - v)) by lia. rewrite Z.add_mod by lia. apply Z.mod_small. lia. }
    rewrite E, plus_IZR. split; [lia|exact B1].
Qed.

(** A tooth is added. *)
Lemma steady_push d t d' : steady d -> length (dd_times d) = 37%nat -> 0 <= dd_cur d <= 36 -> words d -> 0 <= t < 2 ^ 32 -> ~ In t (dd_times d) ->
  (0 < dd_cur d -> forall u, get (dd_times d) 0 = Ok u -> (IZR ((t - u) mod 2 ^ 32) <= 600000 * R_ (dc_dpt c))%R) ->
  dd_times d' = t :: removelast (dd_times d) -> dd_cur d' = count_up 36 (dd_cur d) -> steady d'.
Proof.
  intros S L Cu Wd T N P Et Ec k u v Hk Hc Gu Gv. rewrite Et in Gu, Gv. assert (Hc' : k < dd_cur d /\ k + 1 <= 36) by (rewrite Ec in Hc; unfold count_up in Hc; destruct (Z.ltb_spec (dd_cur d) 36); lia).
  rewrite get_push in Gv by (auto; lia). replace (k + 1 - 1) with k in Gv by lia. destruct (Z.eq_dec k 0) as [->|K].
  - change (get (t :: removelast (dd_times d)) 0) with (Ok t) in Gu. assert (u = t) by congruence. subst u. split.
    + apply diff_ok; [exact T|apply Wd; eapply get_in; eassumption|]. intros <-. apply N. eapply get_in; eassumption.
    + apply P; [lia|exact Gv].
  - rewrite get_push in Gu by (auto; lia). apply (S (k - 1)); [lia|lia|exact Gu|]. replace (k - 1 + 1) with k by lia. exact Gv.
Qed.

(** Between the tooth and the calculation of the speeds. *)
Record ready (d : dec) : Prop := {
  rd_steady : steady d;
  rd_len : length (dd_times d) = 37%nat;
  rd_cur : 0 <= dd_cur d <= 36;
  rd_words : words d;
  rd_new : 0 < dd_cur d -> newest_new d;
  rd_known : dd_state d <> NOSYNC -> 2 <= dd_cur d;
  rd_sync : dd_state d = SYNC -> dd_since d = 0 \/ 1 <= dd_rpm d }.

Lemma rpms_pos d d' : ready d -> missing_update_rpms c d = Ok d' ->
  (dd_state d' <> NOSYNC -> 1 <= dd_tooth_rpm d') /\ (dd_state d' = SYNC -> 1 <= dd_rpm d') /\
  (1 <= dd_tooth_rpm d -> 1 <= dd_rpm d -> 1 <= dd_tooth_rpm d' /\ 1 <= dd_rpm d').
Proof.
  intros [S L Cu Wd Nw Kn Sy] E. pose proof (missing_rpms_keeps _ _ _ E) as (_ & _ & _ & _ & _ & _ & K & _). rewrite K. clear K. unfold missing_update_rpms in E. destruct (dpt_iv c C) as [Id Dp]. destruct (do_wheel c C) as [Vd Fd _ Wn]. specialize (Wn M).
  pose proof (su_num c (do_supported c C)) as Nm.
  apply bind_ok in E. destruct E as (d1 & E1 & E). apply bind_ok in E. destruct E as (r & E2 & E). assert (d' = set_rpm d1 r) by congruence. subst d'. clear E. dsimp.
  assert (T1 : dd_state d1 = dd_state d /\ dd_rpm d1 = dd_rpm d /\ dd_cur d1 = dd_cur d /\ dd_since d1 = dd_since d /\ dd_times d1 = dd_times d /\
    (dd_state d <> NOSYNC -> 1 <= dd_tooth_rpm d1) /\ (dd_state d = NOSYNC -> dd_tooth_rpm d1 = dd_tooth_rpm d)).
  { destruct (is_nosync (dd_state d)) eqn:Q.
    - assert (d1 = d) by congruence. subst d1. assert (dd_state d = NOSYNC) by (destruct (dd_state d); auto; discriminate). repeat split; auto. congruence.
    - assert (Q' : dd_state d <> NOSYNC) by (intros X; rewrite X in Q; discriminate). apply bind_ok in E1. destruct E1 as (p & Ep & E1). assert (d1 = set_tooth_rpm d p) by congruence. subst d1. dsimp. repeat split; auto; [|congruence]. intros _.
      specialize (Kn Q'). unfold missing_tooth_rpm in Ep. cbv zeta in Ep. apply bind_ok in Ep. destruct Ep as (u & Gu & Ep). apply bind_ok in Ep. destruct Ep as (v & Gv & Ep).
      destruct (S 0 u v ltac:(lia) ltac:(lia) Gu Gv) as [C1 C2]. pose proof (w32_range (u - v)).
      match goal with H : rpm_from_time_diff _ (fmul _ (f_of_Z ?k)) = _ |- _ => set (kk := k) in H; assert (Kk : kk = 1 \/ kk = 2) by (unfold kk; destruct (_ && _); auto); clearbody kk end.
      destruct (dpt_times c kk (do_wheel c C) Kk) as (_ & _ & Ed). eapply (rpm_pos (w32 (u - v))); [lia|eapply iv_weak; [apply (dpt_small c C); exact Kk|lra|lra]| |exact Ep].
      rewrite Ed. assert (IZR kk = 1 \/ IZR kk = 2)%R by (destruct Kk; subst; auto). nra. }
  destruct T1 as (T1 & T2 & T3 & T4 & T5 & T6 & T7).
  assert (R1 : (dc_num c <= dd_cur d -> dd_since d = 0 -> 1 <= r) /\ (dc_num c <= dd_cur d -> dd_since d <> 0 -> r = dd_rpm d) /\ (dd_cur d < dc_num c -> r = dd_tooth_rpm d1)).
  { unfold missing_tooth_average_rpm in E2. rewrite T3, T4, T5 in E2. destruct (Z.leb_spec (dc_num c) (dd_cur d)) as [Q|Q]; [|repeat split; [lia|lia|congruence]]. destruct (Z.eqb_spec (dd_since d) 0) as [Z0|Z0]; [|repeat split; [lia|congruence|lia]].
    repeat split; [|lia|lia]. intros _ _. apply bind_ok in E2. destruct E2 as (u & Gu & E2). apply bind_ok in E2. destruct E2 as (v & Gv & E2).
    replace (w32 (dc_num c - 1)) with (dc_num c - 1) in Gv by (unfold w32, W; rewrite Z.mod_small; lia).
    assert (N2 : (2 <= IZR (dc_num c) <= 36)%R) by (split; [apply (IZR_le 2)|apply (IZR_le _ 36)]; lia).
    assert (Ik : IZR (Z.of_nat (Z.to_nat (dc_num c - 1))) = (IZR (dc_num c) - 1)%R) by (rewrite Z2Nat.id by lia; apply minus_IZR).
    destruct (steady_span d u S L ltac:(lia) Gu (Z.to_nat (dc_num c - 1)) ltac:(lia) ltac:(lia)) with (v := v) as [C1 C2]; [rewrite Ik; nra|rewrite Z2Nat.id by lia; exact Gv|]. pose proof (w32_range (u - v)).
    eapply (rpm_pos (w32 (u - v))); [lia| | |exact E2].
    { eapply (iv_mul _ _ (IZR (dc_num c)) (IZR (dc_num c)) (R_ (dc_dpt c)) (R_ (dc_dpt c))); [apply iv_Z; lia|exact Id|apply (rep_n 7); lia|apply (rep_Z 3600); lia|lra|lra|nra|nra]. }
    destruct (fmul_correct (f_of_Z (dc_num c)) (dc_dpt c)) as [Em _]; [auto with vf|exact Vd|apply f_of_Z_exact; lia|exact Fd| |].
    { destruct (f_of_Z_exact (dc_num c)) as [-> _]; [lia|]. apply (rnd_abs_lt_max _ 12); [lia|]. rewrite Rabs_pos_eq; [|nra]. simpl. nra. }
    destruct (f_of_Z_exact (dc_num c)) as [En _]; [lia|]. rewrite Em, En. destruct (rnd_pos_bounds (IZR (dc_num c) * R_ (dc_dpt c))) as [U _]; [nra|]. unfold ur in U.
    rewrite Ik in C2. apply Rle_trans with (620000 * (IZR (dc_num c) * R_ (dc_dpt c) * (1 - / 16777216)))%R; [|lra]. nra. }
  destruct R1 as (R1 & R2 & R3). split; [exact T6|]. split.
  - intros Sc. assert (Sn : dd_state d <> NOSYNC) by congruence. specialize (T6 Sn). destruct (Z.lt_ge_cases (dd_cur d) (dc_num c)) as [Q|Q]; [rewrite (R3 Q); exact T6|].
    destruct (Z.eq_dec (dd_since d) 0) as [Z0|Z0]; [auto|]. rewrite (R2 Q Z0). destruct (Sy Sc); [lia|assumption].
  - intros A B. assert (Ht : 1 <= dd_tooth_rpm d1) by (destruct (dd_state d) eqn:Q; [rewrite T7 by reflexivity; exact A|apply T6; congruence|apply T6; congruence]). split; [exact Ht|].
    destruct (Z.lt_ge_cases (dd_cur d) (dc_num c)) as [Q|Q]; [rewrite (R3 Q); exact Ht|]. destruct (Z.eq_dec (dd_since d) 0) as [Z0|Z0]; [auto|]. now rewrite (R2 Q Z0).
Qed.

(** A tooth makes the decoder ready for the calculation of the speeds. *)
Lemma update_sync d t d' fx : missing_tooth_trigger_update c d t = Ok (d', fx) -> dd_state d' = SYNC -> dd_state d = SYNC \/ dd_since d' = 0.
Proof.
  unfold missing_tooth_trigger_update. cbv zeta. dsimp. intros H Sc. set (d1 := if dd_cur d <? MAX_TRIGGERS then _ else _) in H.
  assert (K : dd_state d1 = dd_state d) by (unfold d1; destruct (_ <? _); dsimp; reflexivity). clearbody d1. destruct (dd_state d) eqn:Q; [..|auto]; right.
  - destruct (dd_cur d1 <? dc_required c); [congruence|]. rewrite K in H. cbn [is_nosync] in H. apply bind_ok in H. destruct H as ((la & av) & _ & H). dsimp.
    set (ratio := fdiv _ _) in H. destruct (near 2 ratio _); [|destruct (near 1 ratio _)]; cbn [negb] in H; match type of H with Ok (?x, _) = _ => assert (d' = x) by congruence; subst d' end; dsimp; try reflexivity; discriminate.
  - destruct (dd_cur d1 <? dc_required c); [congruence|]. rewrite K in H. cbn [is_nosync] in H. apply bind_ok in H. destruct H as ((la & av) & _ & H). dsimp. rewrite K in H.
    set (ratio := fdiv _ _) in H. destruct (near 2 ratio _); [|destruct (near 1 ratio _)]; cbn [negb] in H; match type of H with Ok (?x, _) = _ => assert (d' = x) by congruence; subst d' end; dsimp; try reflexivity; congruence.
Qed.

Lemma pulse_ready d n t d1 fx : dsafe c d -> steady d -> pulse_ok c d n t -> paced c d n t ->
  (if n =? 0 then missing_tooth_trigger_update c d t else Ok (d, [])) = Ok (d1, fx) -> ready d1 /\ dd_rpm d1 = dd_rpm d /\ dd_tooth_rpm d1 = dd_tooth_rpm d.
Proof.
  intros D S (T & N & _) P E. destruct (missing_half c C d n t M D T) as (d1' & fx' & E' & H & L & Cu & _).
  { intros ->. apply N. reflexivity. } rewrite E in E'. assert (d1' = d1) by congruence. subst d1'. clear E' fx'. destruct H as (H1 & H2 & _).
  pose proof (ds_inv _ _ D) as I. pose proof (di_cur _ _ I) as Cd. rewrite M in Cd. pose proof (ds_turns _ _ D) as Tu. rewrite M in Tu. pose proof (su_required c (do_supported c C)) as Rq.
  destruct (Z.eqb_spec n 0) as [->|Hn].
  - specialize (N eq_refl). specialize (P eq_refl). destruct (missing_update_keeps _ _ _ _ _ E) as (K1 & K2 & K3 & K4 & K5 & K6 & _). destruct (missing_ok c C d t M D T N) as (d2 & fx2 & E2 & K7). assert (d2 = d1) by congruence. subst d2.
    pose proof (missing_update_good c d t (do_supported c C) M I) as G. rewrite E in G. cbn [good fst] in G. destruct G as (_ & _ & _ & G4 & G5).
    split; [|auto]. split; auto.
    + eapply steady_push; eauto; [apply (di_len _ _ I)|apply (ds_words _ _ D)].
    + destruct (dd_state d1); [congruence|intros _; specialize (G5 eq_refl); lia|intros _; specialize (G4 eq_refl); lia].
    + intros Sc. rewrite K6. destruct (update_sync d t d1 fx E Sc) as [Q|Q]; [right; apply Tu; exact Q|now left].
  - assert (d1 = d) by congruence. subst d1. split; [|auto]. split; auto; [|intros Sc; right; apply Tu; exact Sc].
    destruct (dd_state d) eqn:Q; [congruence|intros _; pose proof (di_rpm _ _ I Q); lia|intros _; pose proof (di_sync _ _ I Q); lia].
Qed.

Lemma steady_same d d' : steady d -> dd_times d' = dd_times d -> dd_cur d' = dd_cur d -> steady d'.
Proof. intros S A B k u v. rewrite A, B. apply S. Qed.
Lemma steady_none d : dd_cur d = 0 -> steady d.
Proof. intros E k u v Hk Hc. lia. Qed.
Lemma ready_same d d' : ready d -> dd_times d' = dd_times d -> dd_cur d' = dd_cur d -> dd_state d' = dd_state d -> dd_since d' = dd_since d -> dd_rpm d' = dd_rpm d -> ready d'.
Proof.
  intros [S L Cu Wd Nw Kn Sy] A B E F G. split; rewrite ?A, ?B, ?E, ?F, ?G; auto; [eapply steady_same; eauto|unfold words; now rewrite A|unfold newest_new; now rewrite A].
Qed.

(** One pulse. *)
Definition speeds (d d' : dec) : Prop := steady d' /\ turns c d' /\ (1 <= dd_tooth_rpm d -> 1 <= dd_rpm d -> 1 <= dd_tooth_rpm d' /\ 1 <= dd_rpm d').
Lemma decode_paced d n t d' fx : dsafe c d -> steady d -> pulse_ok c d n t -> paced c d n t -> decode c d n t = Ok (d', fx) -> speeds d d'.
Proof.
  intros D S P Q E. unfold decode in E. destruct (dc_type c) eqn:Ty; [unfold missing in M; rewrite Ty in M; discriminate..| |].
  - unfold decode_missing_no_sync in E. cbv zeta in E. apply bind_ok in E. destruct E as ((d1 & fx1) & E1 & E). destruct (pulse_ready d n t d1 fx1 D S P Q E1) as (R1 & K1 & K2). apply bind_ok in E. destruct E as (d2 & E2 & E).
    destruct (rpms_pos d1 d2 R1 E2) as (A1 & A2 & A3). rewrite K1, K2 in A3. pose proof (missing_rpms_keeps _ _ _ E2) as (_ & B1 & _ & B2 & _). assert (S2 : steady d2) by (eapply steady_same; [apply (rd_steady _ R1)|exact B2|exact B1]).
    destruct (is_sync (dd_state d2)) eqn:Sc; [|destruct (is_sync (dd_state d))]; match type of E with Ok (?x, _) = _ => assert (d' = x) by congruence; subst d' end; unfold invalidate_decoder; split; try (split; [intros _ Sd|exact A3]); dsimp; auto.
    + split; [auto|apply A1; congruence].
    + now apply steady_none.
    + discriminate.
    + rewrite Sd in Sc. discriminate.
  - unfold decode_missing_with_camsync in E. cbv zeta in E. apply bind_ok in E. destruct E as ((d1 & fx1) & E1 & E).
    assert (R1 : ready d1 /\ dd_rpm d1 = dd_rpm d /\ dd_tooth_rpm d1 = dd_tooth_rpm d).
    { assert (X : exists d0 fx0, (if n =? 0 then missing_tooth_trigger_update c d t else Ok (d, [])) = Ok (d0, fx0) /\ dd_times d1 = dd_times d0 /\ dd_cur d1 = dd_cur d0 /\ dd_state d1 = dd_state d0 /\ dd_since d1 = dd_since d0 /\ dd_rpm d1 = dd_rpm d0 /\ dd_tooth_rpm d1 = dd_tooth_rpm d0).
      { destruct (n =? 0).
        - apply bind_ok in E1. destruct E1 as ((d0 & fx0) & E0 & E1). exists d0, fx0. split; [exact E0|]. match type of E1 with Ok (?x, _) = _ => assert (d1 = x) by congruence; subst d1 end.
          destruct (_ && _); [|auto 10]. destruct (_ && _); dsimp; auto 10.
        - exists d, []. split; [reflexivity|]. destruct (n =? 1); match type of E1 with Ok (?x, _) = _ => assert (d1 = x) by congruence; subst d1 end; [|auto 10]. destruct (is_sync _); [|auto 10]. destruct (_ || _); dsimp; auto 10. }
      destruct X as (d0 & fx0 & E0 & X1 & X2 & X3 & X4 & X5 & X6). destruct (pulse_ready d n t d0 fx0 D S P Q E0) as (R0 & K1 & K2). split; [eapply ready_same; eauto|]. split; congruence. }
    destruct R1 as (R1 & K1 & K2). apply bind_ok in E. destruct E as (d2 & E2 & E). destruct (rpms_pos d1 d2 R1 E2) as (A1 & A2 & A3). rewrite K1, K2 in A3.
    pose proof (missing_rpms_keeps _ _ _ E2) as (_ & B1 & _ & B2 & _). assert (S2 : steady d2) by (eapply steady_same; [apply (rd_steady _ R1)|exact B2|exact B1]).
    set (d3 := if negb (is_sync (dd_state d2)) then _ else _) in E.
    assert (H3 : dd_times d3 = dd_times d2 /\ dd_cur d3 = dd_cur d2 /\ dd_state d3 = dd_state d2 /\ dd_rpm d3 = dd_rpm d2 /\ dd_tooth_rpm d3 = dd_tooth_rpm d2).
    { unfold d3. destruct (is_sync (dd_state d2)); cbn [negb]; [destruct (_ && _); [|auto 10]|]; dsimp; auto 10. }
    clearbody d3. destruct H3 as (H1 & H2 & H3 & H4 & H5).
    destruct (_ && _); match type of E with Ok (?x, _) = _ => assert (d' = x) by congruence; subst d' end; unfold invalidate_decoder; split; try (split; [intros _ Sd|]); dsimp; rewrite ?H4, ?H5; auto.
    + now apply steady_none.
    + discriminate.
    + eapply steady_same; eauto.
    + rewrite H3 in Sd. split; [auto|apply A1; congruence].
Qed.
Lemma trigger_paced d n t d' fx : dsafe c d -> steady d -> pulse_ok c d n t -> paced c d n t -> decoder_trigger c d n t = Ok (d', fx) -> speeds d d'.
Proof.
  intros D S P Q E. destruct (counted_same d n) as (K1 & K2 & K3 & K4 & K5 & K6 & K7 & K8 & K9 & _). change (decoder_trigger c d n t) with (decode c (counted d n) n t) in E.
  assert (Z : speeds (counted d n) d').
  { eapply decode_paced; [apply (counted_safe c d n D)|eapply steady_same; eauto|unfold pulse_ok; rewrite K3, K5; exact P|unfold paced; rewrite K3, K5; exact Q|exact E]. }
  destruct Z as (Z1 & Z2 & Z3). rewrite K8, K9 in Z3. split; auto.
Qed.
End Pace.
