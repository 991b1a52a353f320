(** What makes a synchronised decoder lose synchronisation. *)
Require Import ZArith Reals List Bool Lia Lra.
From Flocq Require Import Core.
From Verif Require Import Res Word F32 F32Flocq TimeProofs TableProofs AngleProofs RelErr Arr Decoder DecoderProofs DecoderSafe DecoderRun DecoderMissing.
Import ListNotations.
Open Scope Z_scope.

(** ** Even teeth *)
Lemma even_rpm_loss c d d' fx : even_tooth_trigger_update_rpm c d = Ok (d', fx) ->
  if dc_num c <? dd_since d then dd_state d' = NOSYNC /\ dd_loss d' = COUNT_HIGH
  else dd_state d' = dd_state d \/ (dd_state d' = NOSYNC /\ dd_loss d' = VARIATION).
Proof.
  unfold even_tooth_trigger_update_rpm. intros H.
  apply bind_ok in H. destruct H as (t0 & E0 & H). apply bind_ok in H. destruct H as (t1 & E1 & H). cbv zeta in H.
  apply bind_ok in H. destruct H as (tooth & E2 & H).
  apply bind_ok in H. destruct H as (d1 & E3 & H). apply bind_ok in H. destruct H as (x & E4 & H).
  assert (K : dd_since d1 = dd_since d /\ dd_state d1 = dd_state d).
  { destruct (1 <? _); [|injection E3 as <-; dsimp; auto 10].
    apply bind_ok in E3. destruct E3 as (tw & _ & E3). apply bind_ok in E3. destruct E3 as (r & _ & E3).
    injection E3 as <-. destruct (r =? 0); dsimp; auto 10. }
  destruct K as (K1 & K2). injection H as <- <-. clear E0 E1 E2 E3 E4. dsimp.
  set (b := _ || _). destruct b; dsimp; rewrite K1; destruct (dc_num c <? dd_since d); dsimp; auto.
Qed.

Lemma even_update_loss c d t d' fx : even_tooth_trigger_update c d t = Ok (d', fx) -> dd_state d = SYNC ->
  if dc_num c <? w32 (dd_since d + 1) then dd_state d' = NOSYNC /\ dd_loss d' = COUNT_HIGH
  else dd_state d' = SYNC \/ (dd_state d' = NOSYNC /\ dd_loss d' = VARIATION).
Proof.
  unfold even_tooth_trigger_update. cbv zeta. intros H S.
  set (d1 := if dd_cur _ <? _ then _ else _) in H.
  assert (D : dd_state d1 = SYNC /\ dd_since d1 = w32 (dd_since d + 1)) by (unfold d1; destruct (_ <? _); dsimp; auto).
  clearbody d1. destruct D as [D1 D2]. rewrite D1 in H. cbn [is_nosync andb] in H. rewrite D1 in H. cbn [is_sync] in H. dsimp. rewrite D1 in H. cbn [is_nosync] in H.
  apply even_rpm_loss in H. dsimp. rewrite D2, D1 in H. exact H.
Qed.

Lemma even_tooth_outcome c d t d' fx : dc_type c = EVEN_CAMSYNC -> dd_state d = SYNC -> dstep c d (Trigger 0 t) = Ok (d', fx) ->
  if dc_num c <? w32 (dd_since d + 1) then lost d' fx /\ dd_loss d' = COUNT_HIGH
  else (dd_valid d' = 1 /\ dd_state d' = SYNC /\ dd_since d' = w32 (dd_since d + 1)) \/ (lost d' fx /\ dd_loss d' = VARIATION).
Proof.
  intros T S H. rewrite trigger_decode in H. destruct (counted_same d 0) as (_ & K2 & _ & K4 & _). set (dc := counted d 0) in *. clearbody dc.
  unfold decode in H. rewrite T in H. unfold decode_even_with_camsync in H. cbv zeta in H. change (0 =? 0) with true in H. cbv iota in H.
  apply bind_ok in H. destruct H as ((d1 & fx1) & E & H). rewrite S in K2.
  pose proof (even_update_loss _ _ _ _ _ E K2) as L. rewrite K4 in L. rewrite K2 in H. cbn [is_sync] in H.
  destruct (even_update_keeps _ _ _ _ _ E) as (_ & _ & _ & _ & Q & _). rewrite K4 in Q.
  destruct (dc_num c <? _).
  - destruct L as [L1 L2]. rewrite L1 in H. cbn [is_sync] in H. injection H as <- <-. split; [apply invalidate_lost|exact L2].
  - destruct L as [L1|[L1 L2]]; rewrite L1 in H; cbn [is_sync] in H; injection H as <- <-; [left|right]; dsimp; [auto|]. split; [apply invalidate_lost|exact L2].
Qed.

Lemma even_cam_outcome c d t d' fx : dc_type c = EVEN_CAMSYNC -> dstep c d (Trigger 1 t) = Ok (d', fx) ->
  match dd_state d with
  | NOSYNC => dd_valid d' = dd_valid d /\ dd_state d' = NOSYNC
  | RPM => dd_valid d' = 1 /\ dd_state d' = SYNC /\ dd_since d' = 0 /\ dd_last_angle d' = f_zero
  | SYNC => if dd_since d =? dc_num c then dd_valid d' = 1 /\ dd_state d' = SYNC /\ dd_since d' = 0 /\ dd_last_angle d' = f_zero
            else lost d' fx /\ dd_loss d' = COUNT_LOW
  end.
Proof.
  intros T H. rewrite trigger_decode in H. destruct (counted_same d 1) as (K1 & K2 & _ & K4 & _). set (dc := counted d 1) in *. clearbody dc.
  unfold decode in H. rewrite T in H. unfold decode_even_with_camsync in H. cbv zeta in H. change (1 =? 0) with false in H. change (1 =? 1) with true in H. cbv iota in H. cbn [bind] in H.
  unfold even_tooth_sync_update in H. rewrite <- K2, <- K4, <- K1. destruct (dd_state dc) eqn:S.
  - cbv zeta in H. dsimp. rewrite S in H. cbn [is_sync] in H. injection H as <- <-. dsimp. auto.
  - cbv zeta in H. dsimp. cbn [is_sync] in H. injection H as <- <-. dsimp. auto.
  - destruct (dd_since dc =? dc_num c); cbv zeta in H; dsimp; rewrite ?S in H; cbn [is_sync] in H; injection H as <- <-; dsimp; auto.
    split; [|reflexivity]. pose proof (invalidate_lost (set_since (set_loss (set_state dc NOSYNC) COUNT_LOW) 0) []) as L. exact L.
Qed.

(** ** Missing tooth *)
Lemma missing_outcome c d t d' fx : missing c = true -> dd_valid d <> 0 -> dd_state d = SYNC -> dstep c d (Trigger 0 t) = Ok (d', fx) ->
  exists d1 fx1, missing_tooth_trigger_update c (counted d 0) t = Ok (d1, fx1) /\
    (dd_state d1 = NOSYNC -> lost d' fx /\ dd_loss d' = dd_loss d1) /\
    (dd_state d1 = SYNC -> dc_type c = MISSING_NOSYNC \/ dd_since d1 <> 0 \/ dd_this d = true \/ dd_prev d = true ->
       dd_valid d' <> 0 /\ dd_state d' = SYNC /\ dd_since d' = dd_since d1 /\ dd_last_angle d' = dd_last_angle d1 /\ dd_last_time d' = dd_last_time d1 /\ fx = fx1) /\
    (dd_state d1 = SYNC -> dc_type c = MISSING_CAMSYNC -> dd_since d1 = 0 -> dd_this d = false -> dd_prev d = false -> lost d' fx).
Proof.
  intros M V S H. rewrite trigger_decode in H. destruct (counted_same d 0) as (K1 & K2 & _ & _ & _ & _ & _ & _ & _ & K10 & K11 & _).
  set (dc := counted d 0) in *. clearbody dc. rewrite <- K1, <- K2 in *. rewrite <- K10, <- K11.
  unfold decode in H. unfold missing in M. destruct (dc_type c) eqn:T; try discriminate.
  - unfold decode_missing_no_sync in H. cbv zeta in H. change (0 =? 0) with true in H. cbv iota in H.
    apply bind_ok in H. destruct H as ((d1 & fx1) & E & H). exists d1, fx1. split; [exact E|].
    apply bind_ok in H. destruct H as (d2 & E2 & H). pose proof (missing_rpms_keeps _ _ _ E2) as (R1 & R2 & R3 & R4 & R5 & R6 & R7 & R8 & R9 & _). rewrite R7, S in H. cbn [is_sync] in H.
    assert (RL : dd_loss d2 = dd_loss d1).
    { clear H. unfold missing_update_rpms in E2. apply bind_ok in E2. destruct E2 as (d3 & E3 & E2). apply bind_ok in E2. destruct E2 as (r & _ & E2). injection E2 as <-. dsimp.
      destruct (is_nosync _); [injection E3 as <-; auto|]. apply bind_ok in E3. destruct E3 as (r' & _ & E3). injection E3 as <-. auto. }
    split; [|split; [|discriminate]].
    + intros Q. rewrite Q in H. cbn [is_sync] in H. injection H as <- <-. split; [apply invalidate_lost|exact RL].
    + intros Q _. rewrite Q in H. cbn [is_sync] in H. injection H as <- <-. dsimp. repeat split; auto; congruence.
  - unfold decode_missing_with_camsync in H. cbv zeta in H. change (0 =? 0) with true in H. cbv iota in H.
    apply bind_ok in H. destruct H as ((d2 & fx2) & E & H). apply bind_ok in E. destruct E as ((d1 & fx1) & E & E2). exists d1, fx1. split; [exact E|].
    pose proof (missing_update_keeps _ _ _ _ _ E) as (U1 & U2 & U3 & _). injection E2 as E2 <-.
    apply bind_ok in H. destruct H as (d3 & E3 & H). pose proof (missing_rpms_keeps _ _ _ E3) as (R1 & R2 & R3 & R4 & R5 & R6 & R7 & R8 & R9 & _).
    assert (RL : dd_loss d3 = dd_loss d2).
    { clear H. unfold missing_update_rpms in E3. apply bind_ok in E3. destruct E3 as (d4 & E4 & E3). apply bind_ok in E3. destruct E3 as (r & _ & E3). injection E3 as <-. dsimp.
      destruct (is_nosync _); [injection E4 as <-; auto|]. apply bind_ok in E4. destruct E4 as (r' & _ & E4). injection E4 as <-. auto. }
    destruct (Z.eqb_spec (dd_valid dc) 0) as [Z0|_]; [contradiction|]. cbn [negb andb] in H.
    split; [|split].
    + intros Q. rewrite Q in E2. cbn [is_sync andb] in E2. subst d2. rewrite R7, Q in H. cbn [is_sync negb] in H. dsimp.
      change (0 =? 0) with true in H. cbv iota in H. injection H as <- <-. split; [apply invalidate_lost|exact RL].
    + intros Q C. rewrite Q in E2. cbn [is_sync andb] in E2.
      assert (D2 : dd_valid d2 = dd_valid dc /\ dd_state d2 = SYNC /\ dd_since d2 = dd_since d1 /\ dd_last_angle d2 = dd_last_angle d1 /\ dd_last_time d2 = dd_last_time d1).
      { destruct (Z.eqb_spec (dd_since d1) 0) as [Z|Z]; [|subst d2; auto]. rewrite U2, U3 in E2.
        assert (B : negb (dd_this dc) && negb (dd_prev dc) = false) by (destruct C as [C|[C|[C|C]]]; try congruence; rewrite C; auto using andb_false_r).
        rewrite B in E2. subst d2. dsimp. auto. }
      destruct D2 as (D1 & D2 & D3 & D4 & D5). rewrite R7, D2 in H. cbn [is_sync negb] in H.
      destruct (Z.eqb_spec (dd_valid d3) 0) as [Z|Z]; [congruence|]. injection H as <- <-. repeat split; auto; congruence.
    + intros Q _ Z Ft Fp. rewrite Q in E2. cbn [is_sync andb] in E2. rewrite Z in E2. change (0 =? 0) with true in E2. cbv iota in E2. rewrite U2, U3, Ft, Fp in E2. cbn [negb andb] in E2.
      subst d2. rewrite R7 in H. dsimp. rewrite Q in H. cbn [is_sync negb] in H. rewrite R1 in H. change (0 =? 0) with true in H. cbv iota in H. injection H as <- <-. apply invalidate_lost.
Qed.

(** ** Degenerate ratios *)
Lemma f_of_Z_pos a : 1 <= a < 2 ^ 33 -> exists m e, f_of_Z a = SpecFloat.S754_finite false m e.
Proof.
  intros Ha. destruct (rel_of_Z a Ha) as (V & F & R). pose proof (rel_pos _ _ _ R) as P.
  destruct (f_of_Z a) as [s|s| |s m1 e1]; try discriminate F; [exfalso; unfold R_ in P; cbn in P; lra|].
  destruct s; [|eauto]. exfalso. revert P. apply Rle_not_lt. unfold R_. cbn. apply F2R_le_0. cbn. lia.
Qed.
Lemma near_zero_avg n a m : n = 1 \/ n = 2 -> 0 <= a < W -> vf m -> fin m -> (0 <= R_ m <= 1)%R -> near n (fdiv (f_of_Z a) (f_of_Z 0)) m = false.
Proof.
  intros Hn Ha Vm Fm Hm.
  assert (G : fin (fadd (f_of_Z n) m)).
  { destruct (f_of_Z_exact n) as [E F]; [destruct Hn; subst; cbn; lia|]. apply (fadd_ok (f_of_Z n) m 3); auto using vf_of_Z; [lia|].
    rewrite E. destruct Hn; subst n; simpl; rewrite Rabs_pos_eq; lra. }
  unfold near. change (f_of_Z 0) with (SpecFloat.S754_zero false).
  destruct (Z.eq_dec a 0) as [->|Na].
  - change (fdiv (f_of_Z 0) (SpecFloat.S754_zero false)) with SpecFloat.S754_nan. unfold fge. destruct (fsub _ _) as [[]|[]| |[] ? ?]; reflexivity.
  - destruct (f_of_Z_pos a) as (m1 & e1 & ->); [unfold W in Ha; lia|].
    change (fdiv (SpecFloat.S754_finite false m1 e1) (SpecFloat.S754_zero false)) with (SpecFloat.S754_infinity false).
    apply andb_false_iff. right. destruct (fadd (f_of_Z n) m) as [[]|[]| |[] ? ?]; try discriminate G; reflexivity.
Qed.
Lemma near_zero_last n b m : n = 1 \/ n = 2 -> 1 <= b < W -> vf m -> fin m -> (0 <= R_ m <= 1 - margin)%R -> near n (fdiv (f_of_Z 0) (f_of_Z b)) m = false.
Proof.
  intros Hn Hb Vm Fm Hm. destruct (f_of_Z_pos b) as (m1 & e1 & ->); [unfold W in Hb; lia|].
  change (fdiv (f_of_Z 0) (SpecFloat.S754_finite false m1 e1)) with f_zero.
  assert (G : R_ (fsub (f_of_Z n) m) = rnd (IZR n - R_ m) /\ fin (fsub (f_of_Z n) m)).
  { destruct (f_of_Z_exact n) as [E F]; [destruct Hn; subst; cbn; lia|]. rewrite <- E at 1. apply (fsub_ok (f_of_Z n) m 3); auto using vf_of_Z; [lia|].
    rewrite E. unfold margin in Hm. destruct Hn; subst n; simpl; rewrite Rabs_pos_eq; lra. }
  unfold near. apply andb_false_iff. left. unfold fge. apply fle_false_iff; auto using vf_of_Z with vf; [tauto|].
  rewrite R_f_zero, (proj1 G). apply Rlt_le_trans with margin; [unfold margin; lra|].
  apply round_ge_generic; try typeclasses eauto.
  - unfold margin. replace (/ 262144)%R with (bpow radix2 (-18)) by (simpl; lra). apply generic_format_bpow. cbn. lia.
  - destruct Hn; subst n; lra.
Qed.

(** The classification of an interval in exact arithmetic. *)
Lemma near_exact n a b m : n = 1 \/ n = 2 -> 0 <= a < W -> 1 <= b < W -> vf m -> fin m -> (0 <= R_ m <= 1 - margin)%R ->
  ((Rabs (IZR a / IZR b - IZR n) <= R_ m - margin)%R -> near n (fdiv (f_of_Z a) (f_of_Z b)) m = true) /\
  ((Rabs (IZR a / IZR b - IZR n) >= R_ m + margin)%R -> near n (fdiv (f_of_Z a) (f_of_Z b)) m = false).
Proof.
  intros Hn Ha Hb Vm Fm Hm. destruct (Z.eq_dec a 0) as [->|Na].
  - split; intros H; [exfalso|apply near_zero_last; auto]. unfold Rdiv in H. rewrite Rmult_0_l in H. unfold margin in *.
    destruct Hn; subst n; unfold Rabs in H; destruct (Rcase_abs _); lra.
  - apply near_of_frel; auto; [|unfold margin in *; lra]. unfold W in *. apply interval_ratio; lia.
Qed.

(** No ratio is near both 1 and 2. *)
Lemma near_disjoint f m : vf f -> vf m -> fin m -> (0 <= R_ m <= / 2 - margin)%R -> near 1 f m = true -> near 2 f m = true -> False.
Proof.
  intros Vf Vm Fm Hm H1 H2. unfold near in *. apply andb_true_iff in H1, H2. destruct H1 as [_ H1], H2 as [H2 _].
  destruct (f_of_Z_exact 1) as [E1 F1]; [cbn; lia|]. destruct (f_of_Z_exact 2) as [E2 F2]; [cbn; lia|].
  unfold margin in Hm.
  destruct (fadd_ok (f_of_Z 1) m 3) as [A1 A2]; auto using vf_of_Z; [lia|rewrite E1; simpl; rewrite Rabs_pos_eq; lra|].
  destruct (fsub_ok (f_of_Z 2) m 3) as [B1 B2]; auto using vf_of_Z; [lia|rewrite E2; simpl; rewrite Rabs_pos_eq; lra|].
  rewrite E1 in A1. rewrite E2 in B1.
  assert (Ff : fin f).
  { unfold fge in H2. clear - H1 H2 A2 B2. destruct f as [|s| |]; try reflexivity; [|discriminate H1].
    destruct s; [destruct (fsub (f_of_Z 2) m) as [[]|[]| |[] ? ?]; discriminate|destruct (fadd (f_of_Z 1) m) as [[]|[]| |[] ? ?]; discriminate]. }
  unfold fge in H2. apply fle_iff in H1; auto using vf_of_Z with vf. apply fle_iff in H2; auto using vf_of_Z with vf.
  rewrite A1 in H1. rewrite B1 in H2.
  assert (U : (rnd (1 + R_ m) <= 1 + / 2 - / 262144)%R).
  { apply round_le_generic; try typeclasses eauto; [|lra]. replace (1 + / 2 - / 262144)%R with (IZR 393215 * bpow radix2 (-18))%R by (simpl; lra). apply generic_grid; lia. }
  assert (Lo : (1 + / 2 + / 262144 <= rnd (2 - R_ m))%R).
  { apply round_ge_generic; try typeclasses eauto; [|lra]. replace (1 + / 2 + / 262144)%R with (IZR 393217 * bpow radix2 (-18))%R by (simpl; lra). apply generic_grid; lia. }
  lra.
Qed.

(** ** Teeth that keep the decoder valid *)
Lemma tooth_tracked c d n t d' fx : supported c -> dinv c d -> dd_valid d <> 0 -> tooth_of c (Trigger n t) = [t] -> dstep c d (Trigger n t) = Ok (d', fx) ->
  dd_valid d' <> 0 -> dd_last_time d' = t /\ exists e, fx = [SetExpire e] /\ dd_expiration d' = e.
Proof.
  intros S I V T H V'. pose proof (proj2 (di_valid _ _ I) V) as St. pose proof (proj1 (di_sync _ _ I St)) as Rq. pose proof (di_cur _ _ I) as Cu.
  unfold tooth_of in T. rewrite trigger_decode in H.
  pose proof (counted_dinv c d n I) as I2. destruct (counted_same d n) as (K1 & K2 & K3 & _). set (dc := counted d n) in *. clearbody dc.
  rewrite <- K1 in V. rewrite <- K2 in St. rewrite <- K3 in Rq, Cu.
  assert (UP : forall lim, dd_cur dc <= count_up lim (dd_cur dc)) by (intros lim; unfold count_up; destruct (_ <? _); lia).
  unfold decode in H. destruct (dc_type c) eqn:Ty.
  - unfold decode_even_no_sync in H. cbv zeta in H. apply bind_ok in H. destruct H as ((d1 & fx1) & E & H).
    destruct (even_update_keeps _ _ _ _ _ E) as (_ & _ & _ & _ & _ & _ & _ & _ & KF & _).
    destruct (dd_state d1) eqn:S1; cbn [is_nosync negb] in H; [rewrite St in H; cbn [is_sync] in H; injection H as <- <-; exfalso; apply V'; reflexivity| |];
      injection H as <- <-; dsimp; (split; [reflexivity|]); apply KF; discriminate.
  - destruct (Z.eqb_spec n 0) as [->|]; [|discriminate]. unfold decode_even_with_camsync in H. cbv zeta in H. change (0 =? 0) with true in H. cbv iota in H. apply bind_ok in H. destruct H as ((d1 & fx1) & E & H).
    destruct (even_update_keeps _ _ _ _ _ E) as (_ & _ & _ & _ & _ & _ & KS & _ & KF & _). rewrite St in H.
    destruct (dd_state d1) eqn:S1; cbn [is_sync] in H; injection H as <- <-; try (exfalso; apply V'; reflexivity).
    dsimp. split; [apply KS; auto|apply KF; congruence].
  - assert (M : missing c = true) by (unfold missing; now rewrite Ty). destruct (Z.eqb_spec n 0) as [->|]; [|discriminate]. unfold decode_missing_no_sync in H. cbv zeta in H. change (0 =? 0) with true in H. cbv iota in H. apply bind_ok in H. destruct H as ((d1 & fx1) & E & H).
    destruct (missing_update_keeps _ _ _ _ _ E) as (_ & _ & _ & KC & _ & _ & _ & KF & _). destruct (KF St) as [KT KE]; [rewrite KC; specialize (UP 36); lia|].
    apply bind_ok in H. destruct H as (d2 & E2 & H). apply missing_rpms_keeps in E2. destruct E2 as (R1 & R2 & R3 & R4 & R5 & R6 & R7 & R8 & R9 & R10). rewrite St in H.
    destruct (is_sync (dd_state d2)) eqn:S1; cbn [is_sync] in H; injection H as <- <-; try (exfalso; apply V'; reflexivity). dsimp. split; [congruence|]. rewrite R10. exact KE.
  - assert (M : missing c = true) by (unfold missing; now rewrite Ty). destruct (Z.eqb_spec n 0) as [->|]; [|discriminate]. unfold decode_missing_with_camsync in H. cbv zeta in H. change (0 =? 0) with true in H. cbv iota in H. apply bind_ok in H. destruct H as ((d2 & fx2) & E & H).
    apply bind_ok in E. destruct E as ((d1 & fx1) & E & E2).
    destruct (missing_update_keeps _ _ _ _ _ E) as (_ & _ & _ & KC & _ & _ & _ & KF & _). destruct (KF St) as [KT KE]; [rewrite KC; specialize (UP 36); lia|].
    injection E2 as E2 <-. assert (D2 : dd_last_time d2 = dd_last_time d1 /\ dd_expiration d2 = dd_expiration d1) by (subst d2; destruct (_ && _); [destruct (_ && _)|]; dsimp; auto). clear E2. destruct D2 as [D1 D2].
    apply bind_ok in H. destruct H as (d3 & E3 & H). apply missing_rpms_keeps in E3. destruct E3 as (R1 & R2 & R3 & R4 & R5 & R6 & R7 & R8 & R9 & R10).
    destruct (Z.eqb_spec (dd_valid dc) 0) as [|_]; [contradiction|]. cbn [negb andb] in H.
    destruct (is_sync (dd_state d3)); cbn [negb] in H; [|dsimp; change (0 =? 0) with true in H; cbv iota in H; injection H as <- <-; exfalso; apply V'; reflexivity].
    destruct (Z.eqb_spec (dd_valid d3) 0); injection H as <- <-; [exfalso; apply V'; reflexivity|]. split; [congruence|]. rewrite R10, D2. exact KE.
Qed.

Lemma even_nosync_tracked c d n t d' fx : dc_type c = EVEN_NOSYNC -> dstep c d (Trigger n t) = Ok (d', fx) -> dd_valid d' <> 0 -> vinv d ->
  dd_last_time d' = t /\ exists e, fx = [SetExpire e] /\ dd_expiration d' = e.
Proof.
  intros Ty H V' V. rewrite trigger_decode in H. pose proof (counted_vinv d n V) as I2. set (dc := counted d n) in *. clearbody dc.
  unfold decode in H. rewrite Ty in H. unfold decode_even_no_sync in H. cbv zeta in H. apply bind_ok in H. destruct H as ((d1 & fx1) & E & H).
  destruct (even_update_keeps _ _ _ _ _ E) as (KV & _ & _ & _ & _ & _ & _ & _ & KF & _).
  destruct (dd_state d1) eqn:S1; cbn [is_nosync negb] in H.
  - exfalso. apply V'. destruct (dd_state dc) eqn:S0; cbn [is_sync] in H; injection H as <- <-; try reflexivity;
      destruct (Z.eq_dec (dd_valid dc) 0); try congruence; pose proof (proj2 I2 n0); congruence.
  - injection H as <- <-; dsimp; split; [reflexivity|]. apply KF; discriminate.
  - injection H as <- <-; dsimp; split; [reflexivity|]. apply KF; discriminate.
Qed.

(** The value of the expiry: one and a half intervals for even teeth. *)
Lemma even_rpm_expiry c d d' fx t0 t1 : get (dd_times d) 0 = Ok t0 -> get (dd_times d) 1 = Ok t1 -> even_tooth_trigger_update_rpm c d = Ok (d', fx) ->
  exists x, f_to_u32 (fmul (f_of_Z (w32 (t0 - t1))) (flit 3 2)) = Ok x /\ fx = [SetExpire (w32 (t0 + x))].
Proof.
  intros E0 E1 H. unfold even_tooth_trigger_update_rpm in H. rewrite E0, E1 in H. cbn [bind] in H. cbv zeta in H.
  apply bind_ok in H. destruct H as (tooth & E2 & H). apply bind_ok in H. destruct H as (d1 & E3 & H). apply bind_ok in H. destruct H as (x & E4 & H).
  injection H as <- <-. eauto.
Qed.
Lemma even_update_expiry c d t d' fx p : length (dd_times d) = 37%nat -> get (dd_times d) 0 = Ok p -> even_tooth_trigger_update c d t = Ok (d', fx) -> fx <> [] ->
  exists x, f_to_u32 (fmul (f_of_Z (w32 (t - p))) (flit 3 2)) = Ok x /\ fx = [SetExpire (w32 (t + x))].
Proof.
  intros L G H N. unfold even_tooth_trigger_update in H. cbv zeta in H.
  set (d1 := if dd_cur _ <? _ then _ else _) in H.
  assert (D : dd_times d1 = t :: removelast (dd_times d)) by (unfold d1; destruct (_ <? _); dsimp; auto). clearbody d1.
  set (d2 := if is_nosync (dd_state d1) && _ then _ else _) in H.
  assert (D2 : dd_times d2 = dd_times d1) by (unfold d2; destruct (_ && _); auto). clearbody d2.
  set (d3 := if is_sync (dd_state d2) then _ else d2) in H.
  assert (D3 : dd_times d3 = dd_times d2) by (unfold d3; destruct (is_sync _); auto). clearbody d3.
  destruct (is_nosync _); [injection H as <- <-; congruence|]. eapply even_rpm_expiry; [| |exact H]; rewrite D3, D2, D; [reflexivity|].
  rewrite (get_push _ _ 1) by (auto; lia). exact G.
Qed.
Lemma half_again t : 1 <= t <= 2000000000 -> exists x, f_to_u32 (fmul (f_of_Z t) (flit 3 2)) = Ok x /\ 0 <= x < W /\
  (3 / 2 * IZR t * (1 - 8 * ur) - 1 <= IZR x <= 3 / 2 * IZR t * (1 + 8 * ur))%R.
Proof.
  intros Ht. assert (B : (1 <= IZR t <= 2000000000)%R) by (split; apply IZR_le; lia).
  assert (F : frel 0 (flit 3 2) (3 / 2)).
  { assert (E : R_ (flit 3 2) = (3 / 2)%R) by (replace (flit 3 2) with (SpecFloat.S754_finite false 12582912 (-23)) by (vm_compute; reflexivity); unfold R_; cbn; unfold F2R; simpl; lra).
    rewrite <- E. apply frel_self; [reflexivity|reflexivity|rewrite E; lra]. }
  destruct (frel_u32 5 (fmul (f_of_Z t) (flit 3 2)) (IZR t * (3 / 2))) as (x & E1 & E2 & E3).
  - replace 5%R with (2 + 0 + 3)%R by ring. apply frel_mul; auto; try lra; try (unfold sane_mag; lra); [apply frel_of_Z; lia].
  - lra.
  - exists x. split; auto. split; auto. unfold ur in *. lra.
Qed.
