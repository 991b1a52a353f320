(** The decoder's bookkeeping stays in range; the only undefined behaviour left with a supported
    configuration is an out-of-range float conversion. *)
Require Import ZArith List Bool Lia.
From Verif Require Import Res Word F32 Arr Decoder DecoderProofs.
Import ListNotations.
Open Scope Z_scope.

(** Wheel configurations the code can handle. *)
Record supported (c : dcfg) : Prop := {
  su_required : 2 <= dc_required c <= 36;
  su_window : 0 <= dc_window c <= 36;
  su_num : 2 <= dc_num c < 2 ^ 32 }.

Definition missing (c : dcfg) : bool := match dc_type c with MISSING_NOSYNC | MISSING_CAMSYNC => true | _ => false end.

Record dinv (c : dcfg) (d : dec) : Prop := {
  di_len : length (dd_times d) = 37%nat;
  di_cur : 0 <= dd_cur d <= if missing c then 36 else 37;
  di_since : 0 <= dd_since d < 2 ^ 32;
  di_valid : vinv d;
  di_sync : dd_state d = SYNC -> dc_required c <= dd_cur d /\ dd_since d <= (if missing c then dc_num c - 2 else dc_num c);
  di_even_nosync : dc_type c = EVEN_NOSYNC -> dd_state d <> NOSYNC -> dd_since d = 0;
  di_rpm : dd_state d = RPM -> dc_required c <= dd_cur d }.

Lemma w32_range x : 0 <= w32 x < 2 ^ 32.
Proof. unfold w32, W. apply Z.mod_pos_bound. lia. Qed.

Definition good {A} (r : res A) (P : A -> Prop) : Prop := match r with Ok a => P a | Err e => e = FloatToInt end.
Lemma good_bind {A B} (r : res A) (f : A -> res B) P Q : good r P -> (forall a, r = Ok a -> P a -> good (f a) Q) -> good (bind r f) Q.
Proof. destruct r; simpl; auto. Qed.
Lemma good_weaken {A} (r : res A) (P Q : A -> Prop) : good r P -> (forall a, r = Ok a -> P a -> Q a) -> good r Q.
Proof. destruct r; simpl; auto. Qed.
Lemma good_get {A} (l : list A) i : 0 <= i < Z.of_nat (length l) -> good (get l i) (fun _ => True).
Proof. intros H. destruct (get_in_range l i H) as [a E]. now rewrite E. Qed.
Lemma good_u32 x : good (f_to_u32 x) (fun z => 0 <= z < 2 ^ 32).
Proof.
  unfold f_to_u32, f_to_range. destruct (f_trunc x) as [z|]; [|reflexivity].
  destruct (Z.leb_spec 0 z), (Z.leb_spec z (W - 1)); cbn [andb good]; auto. unfold W in *. lia.
Qed.
Lemma good_rpm_diff t x : good (rpm_from_time_diff t x) (fun z => 0 <= z < 2 ^ 32).
Proof. apply good_u32. Qed.
Lemma good_time_diff t x : good (time_from_rpm_diff t x) (fun z => 0 <= z < 2 ^ 32).
Proof. apply good_u32. Qed.

Lemma even_rpm_good c d : supported c -> length (dd_times d) = 37%nat -> 0 <= dd_cur d ->
  good (even_tooth_trigger_update_rpm c d) (fun r => dd_state (fst r) = SYNC -> dd_since (fst r) <= dc_num c).
Proof.
  intros S L C. unfold even_tooth_trigger_update_rpm.
  apply (good_bind _ _ (fun _ => True)); [apply good_get; rewrite L; simpl; lia|]. intros t0 _ _.
  apply (good_bind _ _ (fun _ => True)); [apply good_get; rewrite L; simpl; lia|]. intros t1 _ _. cbv zeta.
  apply (good_bind _ _ _ _ (good_rpm_diff _ _)). intros tooth _ _. dsimp.
  apply (good_bind _ _ (fun d1 => dd_since d1 = dd_since d)).
  - destruct (1 <? _) eqn:W; [|reflexivity]. apply (good_bind _ _ (fun _ => True)).
    { apply good_get. rewrite L. apply Z.ltb_lt in W. unfold even_tooth_rpm_window_size in *. destruct S as [_ [? ?] _].
      destruct (Z.ltb_spec (dd_cur d) (dc_window c)); simpl; lia. }
    intros tw _ _. apply (good_bind _ _ _ _ (good_rpm_diff _ _)). intros r _ _. simpl. destruct (r =? 0); reflexivity.
  - intros d1 _ E1. apply (good_bind _ _ _ _ (good_u32 _)). intros x _ _. simpl.
    set (d2 := if _ || _ then _ else d1). assert (E2 : dd_since d2 = dd_since d1) by (unfold d2; destruct (_ || _); reflexivity).
    clearbody d2. intros Q. destruct (Z.ltb_spec (dc_num c) (dd_since d2)); [simpl in Q; discriminate|]. lia.
Qed.

Lemma even_update_good c d t : supported c -> missing c = false -> dinv c d ->
  good (even_tooth_trigger_update c d t) (fun r => length (dd_times (fst r)) = 37%nat /\ 0 <= dd_cur (fst r) <= 37 /\ 0 <= dd_since (fst r) < 2 ^ 32 /\
    (dd_state (fst r) = SYNC -> dc_required c <= dd_cur (fst r) /\ dd_since (fst r) <= dc_num c) /\ (dd_state (fst r) = RPM -> dc_required c <= dd_cur (fst r))).
Proof.
  intros S M [L C N V Sy Ev Rp]. rewrite M in *.
  assert (G : good (even_tooth_trigger_update c d t) (fun r => dd_state (fst r) = SYNC -> dd_since (fst r) <= dc_num c)).
  { unfold even_tooth_trigger_update. cbv zeta. set (d3 := if is_sync _ then _ else _).
    destruct (is_nosync (dd_state d3)) eqn:E; [simpl; intros Q; rewrite Q in E; discriminate|].
    apply even_rpm_good; auto.
    - unfold d3. destruct (is_sync _); dsimp; destruct (_ && _); dsimp; destruct (_ <? _); dsimp; destruct (dd_times d) as [|h q] eqn:Ed; try discriminate;
      rewrite <- Ed in *; cbn [length]; rewrite removelast_firstn_len, firstn_length, L; reflexivity.
    - unfold d3. destruct (is_sync _); dsimp; destruct (_ && _); dsimp; destruct (_ <? _); dsimp; lia. }
  destruct (even_tooth_trigger_update c d t) as [[d' fx]|e] eqn:E; simpl in *; auto.
  destruct (even_update_keeps _ _ _ _ _ E) as (K1 & _ & _ & K4 & K5 & K6 & K7 & K8 & _). rewrite K4, K5, K6.
  assert (CU : 0 <= count_up 37 (dd_cur d) <= 37 /\ dd_cur d <= count_up 37 (dd_cur d)) by (unfold count_up; destruct (Z.ltb_spec (dd_cur d) 37); lia).
  split; [cbn [length]; rewrite removelast_firstn_len, firstn_length, L; reflexivity|]. split; [lia|]. split; [apply w32_range|]. split.
  - intros Q. specialize (G Q). rewrite K5 in G. destruct (K7 Q) as [Q1 _]. specialize (Sy Q1). lia.
  - intros Q. unfold even_tooth_trigger_update in E. cbv zeta in E. set (d1 := if dd_cur (set_since (push_time d t) (w32 (dd_since (push_time d t) + 1))) <? _ then _ else _) in E.
    assert (D1 : dd_cur d1 = count_up 37 (dd_cur d) /\ dd_state d1 = dd_state d).
    { unfold d1, count_up, MAX_TRIGGERS. dsimp. change (36 + 1) with 37. destruct (dd_cur d <? 37); dsimp; auto. }
    clearbody d1. destruct D1 as [D1 D2].
    destruct (dd_state d) eqn:St.
    + rewrite D2 in E. cbn [is_nosync andb] in E. destruct (Z.leb_spec (dc_required c) (dd_cur d1)); [lia|].
      cbn [is_sync] in E. rewrite D2 in E. cbn [is_sync is_nosync] in E. rewrite D2 in E. cbn [is_nosync] in E. injection E as <- <-. congruence.
    + specialize (Rp eq_refl). lia.
    + specialize (Sy eq_refl). lia.
Qed.

Lemma missing_update_good c d t : supported c -> missing c = true -> dinv c d ->
  good (missing_tooth_trigger_update c d t) (fun r => length (dd_times (fst r)) = 37%nat /\ 0 <= dd_cur (fst r) <= 36 /\ 0 <= dd_since (fst r) < 2 ^ 32 /\
    (dd_state (fst r) = SYNC -> dc_required c <= dd_cur (fst r) /\ dd_since (fst r) <= dc_num c - 2) /\ (dd_state (fst r) = RPM -> dc_required c <= dd_cur (fst r))).
Proof.
  intros S M [L C N V Sy Ev Rp]. rewrite M in *. unfold missing_tooth_trigger_update. cbv zeta.
  set (d1 := if dd_cur (push_time d t) <? MAX_TRIGGERS then _ else _).
  assert (D1 : dd_cur d1 = count_up 36 (dd_cur d) /\ dd_state d1 = dd_state d /\ dd_since d1 = dd_since d /\ length (dd_times d1) = 37%nat).
  { unfold d1, count_up, MAX_TRIGGERS. dsimp. destruct (dd_cur d <? 36); dsimp; repeat split; cbn [length]; rewrite removelast_firstn_len, firstn_length, L; reflexivity. }
  clearbody d1. destruct D1 as (D1 & D2 & D3 & D4).
  assert (CU : 0 <= count_up 36 (dd_cur d) <= 36 /\ dd_cur d <= count_up 36 (dd_cur d)) by (unfold count_up; destruct (Z.ltb_spec (dd_cur d) 36); lia).
  destruct (Z.ltb_spec (dd_cur d1) (dc_required c)) as [Q|Q].
  { cbn [good fst]. rewrite D1, D2, D3. split; [auto|]. split; [lia|]. split; [lia|]. split; intros X; [specialize (Sy X)|specialize (Rp X)]; lia. }
  set (d2 := if is_nosync (dd_state d1) then _ else _).
  assert (D5 : dd_cur d2 = dd_cur d1 /\ dd_since d2 = dd_since d1 /\ dd_times d2 = dd_times d1 /\ dd_state d2 <> NOSYNC /\ (dd_state d2 = SYNC -> dd_state d = SYNC)).
  { unfold d2. rewrite <- D2. destruct (dd_state d1) eqn:E; simpl; dsimp; rewrite ?E; repeat split; auto; discriminate. }
  clearbody d2. destruct D5 as (D5 & D6 & D7 & D8 & D9).
  apply (good_bind _ _ (fun _ => True)).
  { unfold missing_intervals. destruct S as [Sr _ _].
    apply (good_bind _ _ (fun _ => True)); [apply good_get; rewrite D7, D4; simpl; lia|]. intros t0 _ _.
    apply (good_bind _ _ (fun _ => True)); [apply good_get; rewrite D7, D4; simpl; lia|]. intros t1 _ _.
    apply (good_bind _ _ (fun _ => True)); [apply good_get; rewrite D7, D4; simpl; lia|]. intros tr _ _. cbv zeta.
    apply (good_bind _ _ (fun _ => True)); [|simpl; auto]. unfold udiv.
    assert (X : w32 (dc_required c - 1) = dc_required c - 1) by (unfold w32, W; apply Z.mod_small; lia). rewrite X.
    assert (Y : w32 (dc_required c - 1 + 1) = dc_required c) by (unfold w32, W; rewrite Z.mod_small; lia). rewrite Y.
    destruct (_ && _); [destruct (Z.eqb_spec (dc_required c) 0)|destruct (Z.eqb_spec (dc_required c - 1) 0)]; cbn [good]; auto; lia. }
  intros (last & avg) _ _. dsimp. destruct (dd_state d2) eqn:St; [congruence| |].
  - simpl. destruct (near 2 _ _); [|destruct (near 1 _ _)]; simpl; dsimp; rewrite ?D5, ?D6, ?D7, ?D1, ?D3, ?D4; repeat split; auto; try lia; try (intros X; discriminate X || lia); destruct S; try lia; congruence.
  - set (d3 := if _ =? _ then _ else _). specialize (Sy (D9 eq_refl)).
    assert (D10 : dd_cur d3 = dd_cur d2 /\ dd_times d3 = dd_times d2 /\ dd_state d3 <> RPM /\ 0 <= dd_since d3 < 2 ^ 32 /\ (dd_state d3 = SYNC -> dd_since d3 <= dc_num c - 2)).
    { destruct S as [Sr Sw Sn]. assert (Xn : w32 (dc_num c - 1) = dc_num c - 1) by (unfold w32, W; apply Z.mod_small; lia).
      assert (Xs : w32 (dd_since d2 + 1) = dd_since d2 + 1) by (unfold w32, W; apply Z.mod_small; lia).
      unfold d3. rewrite Xn, Xs. destruct (Z.eqb_spec (dd_since d2 + 1) (dc_num c - 1)).
      - destruct (near 2 _ _); dsimp; rewrite ?St; repeat split; auto; try discriminate; try lia.
      - destruct (near 1 _ _); simpl; dsimp; rewrite ?St; repeat split; auto; try discriminate; try lia. }
    clearbody d3. destruct D10 as (D10 & D11 & D12 & D13 & D14). unfold missing_advance. cbv zeta. dsimp.
    apply (good_bind _ _ _ _ (good_time_diff _ _)). intros x _ _.
    apply (good_bind _ _ (fun _ => True)); [apply good_get; rewrite D11, D7, D4; simpl; lia|]. intros t0 _ _.
    apply (good_bind _ _ _ _ (good_u32 _)). intros y _ _. simpl. rewrite D10, D11, D7, D5, D1, D4. repeat split; auto; try lia; congruence.
Qed.

Lemma missing_rpms_good c d : supported c -> length (dd_times d) = 37%nat -> 0 <= dd_cur d <= 36 -> good (missing_update_rpms c d) (fun _ => True).
Proof.
  intros S L C. unfold missing_update_rpms.
  apply (good_bind _ _ (fun d1 => dd_times d1 = dd_times d /\ dd_cur d1 = dd_cur d)).
  - destruct (is_nosync _); [simpl; auto|]. apply (good_bind _ _ (fun _ => True)); [|simpl; auto]. unfold missing_tooth_rpm. cbv zeta.
    apply (good_bind _ _ (fun _ => True)); [apply good_get; rewrite L; simpl; lia|]. intros t0 _ _.
    apply (good_bind _ _ (fun _ => True)); [apply good_get; rewrite L; simpl; lia|]. intros t1 _ _.
    eapply good_weaken; [apply good_rpm_diff|auto].
  - intros d1 _ [E1 E2]. apply (good_bind _ _ (fun _ => True)); [|simpl; auto]. unfold missing_tooth_average_rpm. rewrite E1, E2.
    destruct (Z.leb_spec (dc_num c) (dd_cur d)); [|simpl; auto]. destruct (_ =? _); [|simpl; auto].
    apply (good_bind _ _ (fun _ => True)); [apply good_get; rewrite L; simpl; lia|]. intros t0 _ _.
    destruct S as [_ _ Sn]. assert (X : w32 (dc_num c - 1) = dc_num c - 1) by (unfold w32, W; apply Z.mod_small; lia). rewrite X.
    apply (good_bind _ _ (fun _ => True)); [apply good_get; rewrite L; simpl; lia|]. intros t1 _ _.
    eapply good_weaken; [apply good_rpm_diff|auto].
Qed.

Lemma invalidate_inv c d : supported c -> length (dd_times d) = 37%nat -> dinv c (invalidate_decoder d).
Proof.
  intros S L. unfold invalidate_decoder. split; dsimp; auto; try lia; try discriminate.
  - destruct (missing c); lia.
  - split; dsimp; auto. congruence.
Qed.

Lemma decode_good c d n t : supported c -> dinv c d -> good (decode c d n t) (fun r => dinv c (fst r)).
Proof.
  intros S I. pose proof I as [L C N V Sy Ev Rp].
  assert (VI : forall d' fx, decode c d n t = Ok (d', fx) -> vinv d') by (intros d' fx H; exact (proj1 (decode_step _ _ _ _ _ _ V H))).
  unfold decode in *. destruct (dc_type c) eqn:T.
  - assert (M : missing c = false) by (unfold missing; now rewrite T). rewrite M in *.
    unfold decode_even_no_sync in *. cbv zeta in *.
    destruct (even_tooth_trigger_update c d t) as [[d1 fx1]|e] eqn:E; cbn [bind] in *.
    2:{ pose proof (even_update_good c d t S M I) as G. rewrite E in G. exact G. }
    pose proof (even_update_good c d t S M I) as G. rewrite E in G. destruct G as (G1 & G2 & G3 & G4 & G5). dsimp.
    destruct (dd_state d1) eqn:St; cbn [is_nosync is_sync negb] in *.
    + destruct (is_sync (dd_state d)); cbn [good fst]; [now apply invalidate_inv|]. split; auto; try rewrite M; auto; try congruence. eapply VI; eauto.
    + cbn [good fst]. split; dsimp; try rewrite M; auto; try congruence; try lia. eapply VI; eauto. intros _. split; [auto|]. destruct S; lia.
    + cbn [good fst]. split; dsimp; try rewrite M; auto; try congruence; try lia. eapply VI; eauto. intros _. split; [apply G4; auto|]. destruct S; lia.
  - assert (M : missing c = false) by (unfold missing; now rewrite T). rewrite M in *.
    unfold decode_even_with_camsync in *. cbv zeta in *.
    assert (G : good (if n =? 0 then even_tooth_trigger_update c d t else if n =? 1 then Ok (even_tooth_sync_update c d, []) else Ok (d, []))
      (fun r => length (dd_times (fst r)) = 37%nat /\ 0 <= dd_cur (fst r) <= 37 /\ 0 <= dd_since (fst r) < 2 ^ 32 /\
        (dd_state (fst r) = SYNC -> dc_required c <= dd_cur (fst r) /\ dd_since (fst r) <= dc_num c) /\ (dd_state (fst r) = RPM -> dc_required c <= dd_cur (fst r)))).
    { destruct (n =? 0); [now apply even_update_good|]. destruct (n =? 1); cbn [good fst].
      - destruct (sync_update_keeps c d) as (K1 & K2 & K3 & K4 & K5 & K6 & _). rewrite K2, K3, K4, K6. destruct S as [S1 S2 S3].
        split; [auto|]. split; [lia|]. split; [lia|]. destruct (dd_state d) eqn:Q.
        + split; discriminate.
        + specialize (Rp eq_refl). split; [lia|discriminate].
        + specialize (Sy eq_refl). destruct (_ =? _); split; try discriminate; lia.
      - split; [auto|]; split; [lia|]; split; [lia|]; split; intros Q; [apply Sy|]; auto. }
    destruct (if n =? 0 then _ else _) as [[d1 fx1]|e]; cbn [bind good] in *; auto. destruct G as (G1 & G2 & G3 & G4 & G5). dsimp.
    destruct (is_sync (dd_state d1)) eqn:St; cbn [good fst].
    + assert (Q : dd_state d1 = SYNC) by (destruct (dd_state d1); auto; discriminate). split; dsimp; try rewrite M; auto; try congruence. eapply VI; eauto.
    + destruct (is_sync (dd_state d)); cbn [good fst]; [now apply invalidate_inv|]. split; auto; try rewrite M; auto; try congruence. eapply VI; eauto.
  - assert (M : missing c = true) by (unfold missing; now rewrite T). rewrite M in *.
    unfold decode_missing_no_sync in *. cbv zeta in *.
    assert (G : good (if n =? 0 then missing_tooth_trigger_update c d t else Ok (d, []))
      (fun r => length (dd_times (fst r)) = 37%nat /\ 0 <= dd_cur (fst r) <= 36 /\ 0 <= dd_since (fst r) < 2 ^ 32 /\
        (dd_state (fst r) = SYNC -> dc_required c <= dd_cur (fst r) /\ dd_since (fst r) <= dc_num c - 2) /\ (dd_state (fst r) = RPM -> dc_required c <= dd_cur (fst r)))).
    { destruct (n =? 0); [now apply missing_update_good|]. cbn [good fst]. split; [auto|]; split; [lia|]; split; [lia|]; split; intros Q; [apply Sy|]; auto. }
    destruct (if n =? 0 then _ else _) as [[d1 fx1]|e]; cbn [bind good] in *; auto. destruct G as (G1 & G2 & G3 & G4 & G5). dsimp.
    pose proof (missing_rpms_good c d1 S G1 G2) as R. destruct (missing_update_rpms c d1) as [d2|e] eqn:E2; cbn [bind good] in *; auto.
    apply missing_rpms_keeps in E2. destruct E2 as (R1 & R2 & R3 & R4 & R5 & R6 & R7 & _).
    destruct (is_sync (dd_state d2)) eqn:St; cbn [good fst].
    + assert (Q : dd_state d2 = SYNC) by (destruct (dd_state d2); auto; discriminate). split; dsimp; try rewrite M; rewrite ?R2, ?R3, ?R4; auto; try congruence. eapply VI; eauto. rewrite R7. auto.
    + destruct (is_sync (dd_state d)); cbn [good fst]; [apply invalidate_inv; congruence|]. split; auto; try rewrite M; rewrite ?R2, ?R3, ?R4, ?R7; auto; try congruence. eapply VI; eauto.
  - assert (M : missing c = true) by (unfold missing; now rewrite T). rewrite M in *.
    unfold decode_missing_with_camsync in *. cbv zeta in *.
    match goal with |- good (bind ?x _) _ => assert (G : good x
      (fun r => length (dd_times (fst r)) = 37%nat /\ 0 <= dd_cur (fst r) <= 36 /\ 0 <= dd_since (fst r) < 2 ^ 32 /\
        (dd_state (fst r) = SYNC -> dc_required c <= dd_cur (fst r) /\ dd_since (fst r) <= dc_num c - 2) /\ (dd_state (fst r) = RPM -> dc_required c <= dd_cur (fst r)))) end.
    { destruct (n =? 0).
      - eapply good_bind; [apply missing_update_good; auto|]. intros (d1 & fx1) _ (G1 & G2 & G3 & G4 & G5). dsimp. cbn [good fst].
        destruct (_ && _); [|auto]. destruct (_ && _); dsimp; auto.
      - assert (B : length (dd_times d) = 37%nat /\ 0 <= dd_cur d <= 36 /\ 0 <= dd_since d < 2 ^ 32 /\
          (dd_state d = SYNC -> dc_required c <= dd_cur d /\ dd_since d <= dc_num c - 2) /\ (dd_state d = RPM -> dc_required c <= dd_cur d)).
        { split; [auto|]; split; [lia|]; split; [lia|]; split; intros Q; [apply Sy|]; auto. }
        destruct (n =? 1); cbn [good fst]; auto. destruct (is_sync _); auto. destruct (_ || _); dsimp; auto. }
    match goal with |- good (bind ?x _) _ => destruct x as [[d1 fx1]|e] end; cbn [bind good] in *; auto. destruct G as (G1 & G2 & G3 & G4 & G5). dsimp.
    pose proof (missing_rpms_good c d1 S G1 G2) as R. destruct (missing_update_rpms c d1) as [d2|e] eqn:E2; cbn [bind good] in *; auto.
    apply missing_rpms_keeps in E2. destruct E2 as (R1 & R2 & R3 & R4 & R5 & R6 & R7 & _).
    set (d3 := if negb (is_sync _) then _ else _) in *.
    assert (D3 : dd_cur d3 = dd_cur d2 /\ dd_since d3 = dd_since d2 /\ dd_times d3 = dd_times d2 /\ dd_state d3 = dd_state d2).
    { unfold d3. destruct (negb _); dsimp; auto. destruct (_ && _); dsimp; auto. }
    clearbody d3. destruct D3 as (D3 & D4 & D5 & D6).
    destruct (_ && _) eqn:Q; cbn [good fst]; [apply invalidate_inv; congruence|].
    split; try rewrite M; rewrite ?D3, ?D4, ?D5, ?D6, ?R2, ?R3, ?R4, ?R7; auto; try congruence. eapply VI; eauto.
Qed.
