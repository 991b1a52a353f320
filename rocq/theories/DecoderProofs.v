(** Basic facts about the decoder model. *)
Require Import ZArith List Bool Lia.
From Verif Require Import Res Word F32 Arr Decoder.
Import ListNotations.
Open Scope Z_scope.

Ltac dsimp := cbn [set_valid set_rpm set_tooth_rpm set_last_time set_last_angle set_expiration set_change set_t0 set_t1 set_loss
  set_state set_cur set_since set_times set_this set_prev push_time
  dd_valid dd_rpm dd_tooth_rpm dd_last_time dd_last_angle dd_expiration dd_change dd_t0 dd_t1 dd_loss
  dd_state dd_cur dd_since dd_times dd_this dd_prev bind fst snd] in *.

Lemma bind_ok {A B} (r : res A) (f : A -> res B) b : bind r f = Ok b -> exists a, r = Ok a /\ f a = Ok b.
Proof. destruct r; simpl; intros; [eauto|discriminate]. Qed.

Ltac inv H := injection H as <- <- || injection H as <-.

(** ** The fields a function leaves alone *)
Lemma even_rpm_keeps c d d' fx : even_tooth_trigger_update_rpm c d = Ok (d', fx) ->
  dd_valid d' = dd_valid d /\ dd_cur d' = dd_cur d /\ dd_since d' = dd_since d /\ dd_times d' = dd_times d /\
  dd_last_time d' = dd_last_time d /\ dd_last_angle d' = dd_last_angle d /\ dd_this d' = dd_this d /\ dd_prev d' = dd_prev d /\
  (dd_state d' = dd_state d \/ dd_state d' = NOSYNC) /\ (exists e, fx = [SetExpire e] /\ dd_expiration d' = e).
Proof.
  unfold even_tooth_trigger_update_rpm. intros H.
  apply bind_ok in H. destruct H as (t0 & E0 & H). apply bind_ok in H. destruct H as (t1 & E1 & H). cbv zeta in H.
  apply bind_ok in H. destruct H as (tooth & E2 & H).
  apply bind_ok in H. destruct H as (d1 & E3 & H). apply bind_ok in H. destruct H as (x & E4 & H).
  assert (K : dd_valid d1 = dd_valid d /\ dd_cur d1 = dd_cur d /\ dd_since d1 = dd_since d /\ dd_times d1 = dd_times d /\
    dd_last_time d1 = dd_last_time d /\ dd_last_angle d1 = dd_last_angle d /\ dd_this d1 = dd_this d /\ dd_prev d1 = dd_prev d /\ dd_state d1 = dd_state d).
  { destruct (1 <? _); [|injection E3 as <-; dsimp; auto 10].
    apply bind_ok in E3. destruct E3 as (tw & _ & E3). apply bind_ok in E3. destruct E3 as (r & _ & E3).
    injection E3 as <-. destruct (r =? 0); dsimp; auto 10. }
  destruct K as (K1 & K2 & K3 & K4 & K5 & K6 & K7 & K8 & K9). injection H as <- <-.
  clear E0 E1 E2 E3 E4. destruct (_ || _), (dc_num c <? _); dsimp; rewrite ?K1, ?K2, ?K3, ?K4, ?K5, ?K6, ?K7, ?K8, ?K9; repeat split; eauto.
Qed.

Definition count_up (lim cur : Z) : Z := if cur <? lim then cur + 1 else cur.

Lemma even_update_keeps c d t d' fx : even_tooth_trigger_update c d t = Ok (d', fx) ->
  dd_valid d' = dd_valid d /\ dd_this d' = dd_this d /\ dd_prev d' = dd_prev d /\
  dd_cur d' = count_up 37 (dd_cur d) /\ dd_since d' = w32 (dd_since d + 1) /\ dd_times d' = t :: removelast (dd_times d) /\
  (dd_state d' = SYNC -> dd_state d = SYNC /\ dd_last_time d' = t) /\
  (dd_state d' = NOSYNC -> dc_required c <= dd_cur d' -> exists e, fx = [SetExpire e]) /\
  (dd_state d' <> NOSYNC -> exists e, fx = [SetExpire e] /\ dd_expiration d' = e) /\ ~ In CancelOutputs fx.
Proof.
  unfold even_tooth_trigger_update. cbv zeta. dsimp. intros H.
  set (d1 := if _ <? _ then _ else _) in H. assert (K1 : dd_cur d1 = count_up 37 (dd_cur d) /\ dd_valid d1 = dd_valid d /\ dd_since d1 = w32 (dd_since d + 1) /\
    dd_times d1 = t :: removelast (dd_times d) /\ dd_state d1 = dd_state d /\ dd_this d1 = dd_this d /\ dd_prev d1 = dd_prev d).
  { unfold d1, count_up, MAX_TRIGGERS. change (36 + 1) with 37. destruct (dd_cur d <? 37); dsimp; auto 10. }
  clearbody d1. destruct K1 as (K1 & K2 & K3 & K4 & K5 & K6 & K7).
  set (d2 := if is_nosync _ && _ then _ else _) in H. assert (L : dd_cur d2 = dd_cur d1 /\ dd_valid d2 = dd_valid d1 /\ dd_since d2 = dd_since d1 /\ dd_times d2 = dd_times d1 /\
     dd_this d2 = dd_this d1 /\ dd_prev d2 = dd_prev d1 /\
     dd_state d2 = (if is_nosync (dd_state d) then if dc_required c <=? dd_cur d1 then RPM else NOSYNC else dd_state d)).
  { unfold d2. rewrite <- K5. destruct (dd_state d1) eqn:E, (dc_required c <=? dd_cur d1); simpl; dsimp; rewrite ?E; auto 10. }
  clearbody d2. destruct L as (L1 & L2 & L3 & L4 & L5 & L6 & L7).
  set (d3 := if is_sync _ then _ else _) in H. assert (M : dd_cur d3 = dd_cur d2 /\ dd_valid d3 = dd_valid d2 /\ dd_since d3 = dd_since d2 /\ dd_times d3 = dd_times d2 /\
     dd_this d3 = dd_this d2 /\ dd_prev d3 = dd_prev d2 /\ dd_state d3 = dd_state d2 /\ (dd_state d2 = SYNC -> dd_last_time d3 = t)).
  { unfold d3. destruct (dd_state d2) eqn:E; simpl; dsimp; rewrite ?E; repeat split; auto; discriminate. }
  clearbody d3. destruct M as (M1 & M2 & M3 & M4 & M5 & M6 & M7 & M8).
  destruct (is_nosync (dd_state d3)) eqn:N.
  - injection H as <- <-. do 6 (split; [congruence|]). split; [|split; [|split]].
    + intros S. rewrite S in N. discriminate.
    + intros S R. exfalso. rewrite M7, L7 in S. destruct (dd_state d); simpl in S; try discriminate.
      rewrite M1, L1 in R. apply Z.leb_le in R. rewrite R in S. discriminate.
    + intros S. destruct (dd_state d3); simpl in N; congruence.
    + intros [].
  - destruct (even_rpm_keeps _ _ _ _ H) as (Q1 & Q2 & Q3 & Q4 & Q5 & Q6 & Q7 & Q8 & Q9 & e & Q10 & Q11). do 6 (split; [congruence|]). split; [|split; [|split]].
    + intros S. split; [destruct Q9 as [Q9|Q9]; [|congruence]; rewrite S, M7, L7 in Q9; destruct (dd_state d); simpl in Q9; auto; destruct (_ <=? _); discriminate|]. rewrite Q5. apply M8. destruct Q9 as [Q9|Q9]; congruence.
    + intros _ _. eauto.
    + intros _. eauto.
    + rewrite Q10. intros [I|[]]. discriminate.
Qed.

Lemma sync_update_keeps c d : let d' := even_tooth_sync_update c d in
  dd_valid d' = dd_valid d /\ dd_since d' = 0 /\ dd_cur d' = dd_cur d /\ dd_times d' = dd_times d /\ dd_last_time d' = dd_last_time d /\
  dd_state d' = match dd_state d with NOSYNC => NOSYNC | RPM => SYNC | SYNC => if dd_since d =? dc_num c then SYNC else NOSYNC end /\
  (dd_state d' = SYNC -> dd_last_angle d' = f_zero).
Proof.
  cbv zeta. unfold even_tooth_sync_update. destruct (dd_state d) eqn:E; dsimp; rewrite ?E; repeat split; auto; try discriminate;
    destruct (_ =? _); dsimp; auto; discriminate.
Qed.

Lemma missing_advance_keeps c d t gap d' fx : missing_advance c d t gap = Ok (d', fx) ->
  dd_valid d' = dd_valid d /\ dd_cur d' = dd_cur d /\ dd_since d' = dd_since d /\ dd_times d' = dd_times d /\ dd_this d' = dd_this d /\ dd_prev d' = dd_prev d /\
  dd_state d' = dd_state d /\ dd_rpm d' = dd_rpm d /\ dd_last_time d' = t /\ (exists e, fx = [SetExpire e] /\ dd_expiration d' = e).
Proof.
  unfold missing_advance. cbv zeta. dsimp. intros H.
  apply bind_ok in H. destruct H as (x & _ & H). apply bind_ok in H. destruct H as (t0 & _ & H). apply bind_ok in H. destruct H as (y & _ & H).
  injection H as <- <-. dsimp. repeat split; eauto.
Qed.

Lemma missing_update_keeps c d t d' fx : missing_tooth_trigger_update c d t = Ok (d', fx) ->
  dd_valid d' = dd_valid d /\ dd_this d' = dd_this d /\ dd_prev d' = dd_prev d /\ dd_cur d' = count_up 36 (dd_cur d) /\
  dd_times d' = t :: removelast (dd_times d) /\ dd_rpm d' = dd_rpm d /\ ~ In CancelOutputs fx /\
  (dd_state d = SYNC -> dc_required c <= dd_cur d' -> dd_last_time d' = t /\ exists e, fx = [SetExpire e] /\ dd_expiration d' = e) /\
  (dd_state d <> SYNC -> fx = [] /\ dd_last_time d' = dd_last_time d).
Proof.
  unfold missing_tooth_trigger_update. cbv zeta. dsimp. intros H.
  set (d1 := if dd_cur d <? MAX_TRIGGERS then _ else _) in H. assert (K : dd_cur d1 = count_up 36 (dd_cur d) /\ dd_valid d1 = dd_valid d /\ dd_rpm d1 = dd_rpm d /\ dd_last_time d1 = dd_last_time d /\
    dd_times d1 = t :: removelast (dd_times d) /\ dd_state d1 = dd_state d /\ dd_this d1 = dd_this d /\ dd_prev d1 = dd_prev d).
  { unfold d1, count_up, MAX_TRIGGERS. destruct (dd_cur d <? 36); dsimp; auto 10. }
  clearbody d1. destruct K as (K1 & K2 & K3 & K4 & K5 & K6 & K7 & K8).
  destruct (Z.ltb_spec (dd_cur d1) (dc_required c)) as [L|L].
  { injection H as <- <-. do 6 (split; [congruence|]). split; [intros []|]. split; [lia|auto]. }
  set (d2 := if is_nosync (dd_state d1) then _ else _) in H. assert (M : dd_cur d2 = dd_cur d1 /\ dd_valid d2 = dd_valid d1 /\ dd_rpm d2 = dd_rpm d1 /\ dd_last_time d2 = dd_last_time d1 /\ dd_times d2 = dd_times d1 /\
     dd_this d2 = dd_this d1 /\ dd_prev d2 = dd_prev d1 /\ dd_state d2 = (if is_nosync (dd_state d) then RPM else dd_state d)).
  { unfold d2. rewrite <- K6. destruct (dd_state d1) eqn:E; simpl; dsimp; rewrite ?E; auto 10. }
  clearbody d2. destruct M as (M1 & M2 & M3 & M4 & M5 & M6 & M7 & M8).
  apply bind_ok in H. destruct H as ((last & avg) & _ & H). dsimp.
  destruct (dd_state d2) eqn:E.
  - injection H as <- <-. destruct (dd_state d); discriminate.
  - assert (NS : dd_state d <> SYNC) by (intros Q; rewrite Q in M8; discriminate).
    injection H as <- <-. destruct (near 2 _ _); [|destruct (near 1 _ _)]; simpl; dsimp; (do 6 (split; [congruence|])); (split; [intros []|]); (split; [congruence|]); intros _; split; congruence.
  - assert (S : dd_state d = SYNC) by (destruct (dd_state d); simpl in M8; congruence).
    destruct (missing_advance_keeps _ _ _ _ _ _ H) as (Q1 & Q2 & Q3 & Q4 & Q5 & Q6 & Q7 & Q8 & Q9 & e & Q10 & Q11).
    assert (X : forall A (f : dec -> A), (forall d b, f (set_loss d b) = f d) -> (forall d b, f (set_state d b) = f d) -> (forall d b, f (set_since d b) = f d) -> (forall d b, f (set_change d b) = f d) ->
      f (let d4 := set_since (set_change d2 (if flt (fdiv (f_of_Z last) (f_of_Z avg)) (f_of_Z 1) then fsub (f_of_Z 1) (fdiv (f_of_Z last) (f_of_Z avg)) else fsub (fdiv (f_of_Z last) (f_of_Z avg)) (f_of_Z 1))) (w32 (dd_since d2 + 1)) in
         if w32 (dd_since d2 + 1) =? w32 (dc_num c - 1) then if near 2 (fdiv (f_of_Z last) (f_of_Z avg)) (dc_max_change c) then set_since d4 0 else set_loss (set_state d4 NOSYNC) COUNT_HIGH
         else if negb (near 1 (fdiv (f_of_Z last) (f_of_Z avg)) (dc_max_change c)) then set_loss (set_state d4 NOSYNC) COUNT_LOW else d4) = f d2).
    { intros A f F1 F2 F3 F4. cbv zeta. destruct (_ =? _); [destruct (near 2 _ _)|destruct (near 1 _ _)]; simpl; rewrite ?F1, ?F2, ?F3, ?F4; auto. }
    cbv zeta in X. rewrite (X _ dd_valid) in Q1 by reflexivity. rewrite (X _ dd_cur) in Q2 by reflexivity.
    rewrite (X _ dd_times) in Q4 by reflexivity. rewrite (X _ dd_this) in Q5 by reflexivity. rewrite (X _ dd_prev) in Q6 by reflexivity.
    rewrite (X _ dd_rpm) in Q8 by reflexivity.
    do 6 (split; [congruence|]). split; [rewrite Q10; intros [I|[]]; discriminate|]. split; [|congruence]. intros _ _. split; [congruence|eauto].
Qed.

Lemma missing_rpms_keeps c d d' : missing_update_rpms c d = Ok d' ->
  dd_valid d' = dd_valid d /\ dd_cur d' = dd_cur d /\ dd_since d' = dd_since d /\ dd_times d' = dd_times d /\ dd_this d' = dd_this d /\ dd_prev d' = dd_prev d /\
  dd_state d' = dd_state d /\ dd_last_time d' = dd_last_time d /\ dd_last_angle d' = dd_last_angle d /\ dd_expiration d' = dd_expiration d.
Proof.
  unfold missing_update_rpms. intros H. apply bind_ok in H. destruct H as (d1 & E & H). apply bind_ok in H. destruct H as (r & _ & H). injection H as <-.
  assert (K : exists r', d1 = d \/ d1 = set_tooth_rpm d r').
  { destruct (is_nosync _); [injection E as <-; exists 0; auto|]. apply bind_ok in E. destruct E as (r' & _ & E). injection E as <-. eauto. }
  destruct K as (r' & [-> | ->]); dsimp; auto 20.
Qed.

(** ** The invariant: a valid position means the synchronised state *)
Definition vinv (d : dec) : Prop := (dd_valid d = 0 \/ dd_valid d = 1) /\ (dd_valid d <> 0 -> dd_state d = SYNC).

Definition lost (d' : dec) (fx : list effect) : Prop :=
  dd_valid d' = 0 /\ dd_state d' = NOSYNC /\ dd_cur d' = 0 /\ dd_since d' = 0 /\ In CancelOutputs fx.

Lemma invalidate_lost d fx : lost (invalidate_decoder d) (fx ++ [CancelOutputs]).
Proof. unfold lost, invalidate_decoder. dsimp. repeat split; auto. apply in_or_app. right. simpl. auto. Qed.

Lemma decode_step c d n t d' fx : vinv d -> decode c d n t = Ok (d', fx) ->
  vinv d' /\ (dd_valid d <> 0 -> (dd_valid d' <> 0 /\ ~ In CancelOutputs fx) \/ lost d' fx) /\
  (dd_valid d = 0 -> dc_type c = MISSING_CAMSYNC \/ dd_state d <> SYNC -> ~ In CancelOutputs fx) /\
  (dc_type c <> MISSING_CAMSYNC -> dd_state d' = SYNC -> dd_valid d' = 1).
Proof.
  intros [V1 V2] H. unfold decode in H. destruct (dc_type c) eqn:T.
  - unfold decode_even_no_sync in H. cbv zeta in H. apply bind_ok in H. destruct H as ((d1 & fx1) & E & H).
    destruct (even_update_keeps _ _ _ _ _ E) as (K1 & _ & _ & _ & _ & _ & KS & _ & _ & K5).
    destruct (dd_state d1) eqn:S; simpl in H.
    + destruct (dd_state d) eqn:S0; simpl in H; injection H as <- <-; unfold vinv; try (rewrite K1, S; repeat split; auto; intuition congruence).
      pose proof (invalidate_lost d1 fx1) as L. destruct L as (L1 & L2 & L3 & L4 & L5). repeat split; auto; try congruence; try tauto; unfold lost; try tauto; intuition congruence.
    + injection H as <- <-. unfold vinv. dsimp. repeat split; auto. left. split; [discriminate|auto].
    + injection H as <- <-. unfold vinv. dsimp. repeat split; auto. left. split; [discriminate|auto].
  - unfold decode_even_with_camsync in H. cbv zeta in H. apply bind_ok in H. destruct H as ((d1 & fx1) & E & H).
    assert (K : dd_valid d1 = dd_valid d /\ ~ In CancelOutputs fx1).
    { destruct (n =? 0); [destruct (even_update_keeps _ _ _ _ _ E) as (K1 & _ & _ & _ & _ & _ & KS & _ & _ & K5); auto|].
      destruct (n =? 1); injection E as <- <-; [split; [apply (proj1 (sync_update_keeps c d))|intros []]|split; [auto|intros []]]. }
    destruct K as [K1 K5]. destruct (is_sync (dd_state d1)) eqn:S; simpl in H.
    + assert (S' : dd_state d1 = SYNC) by (destruct (dd_state d1); auto; discriminate). injection H as <- <-. unfold vinv. dsimp. repeat split; auto. left. split; [discriminate|auto].
    + assert (S' : dd_state d1 <> SYNC) by (destruct (dd_state d1); discriminate).
      destruct (dd_state d) eqn:S0; simpl in H; injection H as <- <-; unfold vinv; try (rewrite K1; repeat split; auto; intuition congruence).
      pose proof (invalidate_lost d1 fx1) as L. destruct L as (L1 & L2 & L3 & L4 & L5). repeat split; auto; try congruence; try tauto; unfold lost; try tauto; intuition congruence.
  - unfold decode_missing_no_sync in H. cbv zeta in H. apply bind_ok in H. destruct H as ((d1 & fx1) & E & H).
    assert (K : dd_valid d1 = dd_valid d /\ ~ In CancelOutputs fx1).
    { destruct (n =? 0); [destruct (missing_update_keeps _ _ _ _ _ E) as (K1 & _ & _ & _ & _ & _ & K5 & _); auto|].
      injection E as <- <-; split; [auto|intros []]. }
    apply bind_ok in H. destruct H as (d2 & E2 & H). apply missing_rpms_keeps in E2. destruct E2 as (R1 & _ & _ & _ & _ & _ & R7 & _). rewrite R7 in H.
    destruct K as [K1 K5]. destruct (is_sync (dd_state d1)) eqn:S; simpl in H.
    + assert (S' : dd_state d1 = SYNC) by (destruct (dd_state d1); auto; discriminate). injection H as <- <-. unfold vinv. dsimp. rewrite R7. repeat split; auto. left. split; [discriminate|auto].
    + assert (S' : dd_state d1 <> SYNC) by (destruct (dd_state d1); discriminate).
      destruct (dd_state d) eqn:S0; simpl in H; injection H as <- <-; unfold vinv; try (rewrite R1, K1, R7; repeat split; auto; intuition congruence).
      pose proof (invalidate_lost d2 fx1) as L. destruct L as (L1 & L2 & L3 & L4 & L5). repeat split; auto; try congruence; try tauto; unfold lost; try tauto; intuition congruence.
  - unfold decode_missing_with_camsync in H. cbv zeta in H. apply bind_ok in H. destruct H as ((d1 & fx1) & E & H).
    assert (K : (dd_valid d1 = dd_valid d \/ dd_valid d1 = 0) /\ ~ In CancelOutputs fx1).
    { destruct (n =? 0).
      - apply bind_ok in E. destruct E as ((d0 & fx0) & E0 & E). destruct (missing_update_keeps _ _ _ _ _ E0) as (K1 & _ & _ & _ & _ & _ & K5 & _).
        injection E as <- <-. split; auto. destruct (_ && _); auto. destruct (_ && _); dsimp; auto.
      - destruct (n =? 1); injection E as <- <-; (split; [|intros []]); auto. destruct (is_sync _); auto. destruct (_ || _); dsimp; auto. }
    apply bind_ok in H. destruct H as (d2 & E2 & H). apply missing_rpms_keeps in E2. destruct E2 as (R1 & _ & _ & _ & _ & _ & R7 & _).
    rewrite R7 in H. destruct K as [K1 K5].
    destruct (is_sync (dd_state d1)) eqn:S; simpl in H.
    + assert (S' : dd_state d1 = SYNC) by (destruct (dd_state d1); auto; discriminate).
      destruct (Z.eqb_spec (dd_valid d) 0) as [Z0|Z0]; simpl in H.
      * destruct (dd_this d2 || dd_prev d2); simpl in H; injection H as <- <-; unfold vinv; dsimp; rewrite ?R7, ?R1; repeat split; auto; try congruence; try lia; tauto.
      * destruct (Z.eqb_spec (dd_valid d2) 0) as [Z2|Z2]; simpl in H; injection H as <- <-.
        { pose proof (invalidate_lost d2 fx1) as L. destruct L as (L1 & L2 & L3 & L4 & L5). unfold vinv. repeat split; auto; try congruence; try tauto; unfold lost; try tauto; intuition congruence. }
        { unfold vinv. rewrite R1, R7. repeat split; auto; try tauto; try lia. left. split; auto. lia. }
    + assert (S' : dd_state d1 <> SYNC) by (destruct (dd_state d1); discriminate).
      destruct (Z.eqb_spec (dd_valid d) 0) as [Z0|Z0]; simpl in H; injection H as <- <-; dsimp.
      * unfold vinv. dsimp. rewrite R7. repeat split; auto; try congruence; try tauto.
      * pose proof (invalidate_lost (set_valid d2 0) fx1) as L. destruct L as (L1 & L2 & L3 & L4 & L5). unfold vinv. repeat split; auto; try congruence; try tauto; unfold lost; try tauto; intuition congruence.
Qed.
