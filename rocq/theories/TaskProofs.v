(** Proofs about the tasks. *)
Require Import ZArith List Bool Lia.
From Verif Require Import Res Word F32 DecoderProofs Tasks TaskSpec.
Import ListNotations.
Open Scope Z_scope.
Ltac Zify.zify_post_hook ::= idtac.

Lemma us_1s : time_from_us 1000000 = Ok 4000000. Proof. vm_compute. reflexivity. Qed.
Lemma us_3s : time_from_us 3000000 = Ok 12000000. Proof. vm_compute. reflexivity. Qed.
Lemma us_4s : time_from_us 4000000 = Ok 16000000. Proof. vm_compute. reflexivity. Qed.
Lemma us_5s : time_from_us 5000000 = Ok 20000000. Proof. vm_compute. reflexivity. Qed.
Lemma us_500ms : time_from_us 500000 = Ok 2000000. Proof. vm_compute. reflexivity. Qed.
Lemma us_200ms : time_from_us 200000 = Ok 800000. Proof. vm_compute. reflexivity. Qed.

Lemma w32_small z : 0 <= z < W -> w32 z = z. Proof. intros. unfold w32. apply Z.mod_small. auto. Qed.
Lemma w32_sub a b : w32 (w32 a - w32 b) = w32 (a - b). Proof. unfold w32. now rewrite <- Zminus_mod. Qed.
Lemma w32_add_l a b : w32 (w32 a + b) = w32 (a + b). Proof. unfold w32. now rewrite Zplus_mod_idemp_l. Qed.
Lemma w32_sub_l a b : w32 (w32 a - b) = w32 (a - b). Proof. unfold w32. now rewrite Zminus_mod_idemp_l. Qed.

Lemma in_range_true a x k : 0 <= k < W -> 0 <= a - x < W -> time_in_range (w32 a) (w32 x) (w32 (w32 x + k)) = (a - x <=? k).
Proof.
  intros Hk Ha. unfold time_in_range. rewrite w32_sub, (w32_add_l x k), w32_sub. replace (x + k - x) with k by lia. now rewrite !w32_small by auto.
Qed.
Lemma diff_true a x : 0 <= a - x < W -> time_diff (w32 a) (w32 x) = a - x.
Proof. intros H. unfold time_diff. rewrite w32_sub. now apply w32_small. Qed.

(** One run with the remembered time [L]. *)
Lemma pump_step r L : 0 <= p_a r - p_tooth r < W -> p_a r <= p_b r <= p_c r -> 0 <= p_b r - L < W ->
  handle_fuel_pump (w32 (p_a r)) (w32 (p_b r)) (w32 (p_c r)) (w32 (p_tooth r)) (w32 L) =
  Ok (if turningb r then (1, w32 (p_b r)) else if p_b r - L <? 16000000 then (1, w32 L) else (0, w32 (p_c r - 20000000))).
Proof.
  intros H1 H2 H3. unfold handle_fuel_pump, turningb, second. rewrite us_1s. cbn [bind]. rewrite (in_range_true (p_a r) (p_tooth r) 4000000) by (unfold W in *; lia).
  destruct (p_a r - p_tooth r <=? 4000000); auto. rewrite us_4s. cbn [bind]. rewrite (diff_true (p_b r) L) by auto. destruct (p_b r - L <? 16000000); auto.
  rewrite us_5s. cbn [bind]. now rewrite w32_sub_l.
Qed.

(** Runs come at least once in 17 minutes, and at most that long after the last tooth. *)
Definition MAXGAP : Z := W - 50000000.
Fixpoint regular (h : list prun) : Prop :=
  match h with
  | [] => True
  | r :: h => p_a r - p_tooth r < W /\ match h with [] => p_b r < MAXGAP | q :: _ => p_b r - p_b q < MAXGAP /\ p_c q - p_b q <= second end /\ regular h
  end.

Lemma last_turning_le h : in_order h -> match h with [] => last_turning h = 0 | r :: _ => last_turning h <= p_b r end /\ 0 <= last_turning h.
Proof.
  induction h as [|r h IH]; intros O; cbn [last_turning]; [lia|]. destruct O as (O1 & O2 & O3 & O4). destruct (IH O4) as [A B].
  destruct (turningb r); [lia|]. split; auto. destruct h as [|q h]; [rewrite A; lia|]. cbn [in_order] in O4. lia.
Qed.

(** What is remembered after a history. *)
Lemma pump_inv h : in_order h -> regular h -> exists v L, pump_history h = Ok (v, w32 L) /\
  match h with
  | [] => L = 0
  | r :: h' => (v = 1 <-> turning r \/ p_b r - last_turning h' < 4 * second) /\ (v = 0 \/ v = 1) /\
      ((v = 1 /\ L = last_turning h) \/ (v = 0 /\ L = p_c r - 20000000 /\ 4 * second <= p_b r - last_turning h))
  end.
Proof.
  induction h as [|r h IH]; intros O G.
  - exists 0, 0. auto.
  - cbn [pump_history]. destruct O as (O1 & O2 & O3 & O4). destruct G as (G1 & G2 & G3). destruct (IH O4 G3) as (v & L & E & K). rewrite E. cbn [bind].
    pose proof (last_turning_le h O4) as [T1 T2].
    assert (HL : 0 <= p_b r - L < W /\ (p_b r - L < 16000000 <-> p_b r - last_turning h < 4 * second)).
    { unfold MAXGAP, W, second in *. destruct h as [|q h']; [subst L; cbn [last_turning] in *; lia|]. destruct K as (K1 & K2 & K3).
      destruct K3 as [[-> KL]|[-> [-> KL]]].
      - subst L. split; [|lia]. assert (p_b q - last_turning (q :: h') < 16000000).
        { cbn [last_turning]. destruct (turningb q) eqn:Tq; [lia|]. destruct (proj1 K1 eq_refl) as [X|X]; [|lia]. unfold turning, turningb, second in *. apply Z.leb_gt in Tq. lia. }
        cbn [in_order] in O4. lia.
      - cbn [in_order] in O4. lia. }
    destruct HL as [HL1 HL2]. rewrite pump_step by (auto; lia). unfold turning, turningb in *. cbn [last_turning]. unfold turningb.
    destruct (Z.leb_spec (p_a r - p_tooth r) second) as [Ht|Ht].
    + exists 1, (p_b r). split; auto. split; [tauto|]. split; auto.
    + destruct (Z.ltb_spec (p_b r - L) 16000000) as [Hl|Hl].
      * exists 1, L. split; auto. split; [tauto|]. split; auto. left. split; auto.
        destruct h as [|q h']; [auto|]. destruct K as (_ & _ & [[_ KL]|[_ [KL KM]]]); auto. exfalso. cbn [in_order] in O4. unfold second in *. lia.
      * exists 0, (p_c r - 20000000). split; auto. split; [split; [discriminate|intros [|]; lia]|]. split; auto. right. split; auto. split; auto. lia.
Qed.

(** ** The light *)
Lemma blink_spec h dt : 0 < h -> exists k r, dt = (2 * k + dt / h mod 2) * h + r /\ 0 <= r < h /\ (dt / h mod 2 = 0 \/ dt / h mod 2 = 1).
Proof.
  intros H. exists (dt / h / 2), (dt mod h). pose proof (Z.div_mod dt h ltac:(lia)). pose proof (Z.div_mod (dt / h) 2 ltac:(lia)). pose proof (Z.mod_pos_bound dt h H). pose proof (Z.mod_pos_bound (dt / h) 2 ltac:(lia)).
  split; [|split]; auto; [|lia]. rewrite <- H1. lia.
Qed.

Lemma light_step r s t v st : l_a r <= l_b r <= l_c r -> l_c r - l_a r <= second -> t <= l_a r -> (s = CEL_NONE \/ l_a r - t < W) ->
  handle_check_engine_light (l_cond r) (w32 (l_a r)) (w32 (l_b r)) (w32 (l_c r)) (s, w32 t) = Ok (v, st) ->
  exists s' t', st = (s', w32 t') /\ t' <= l_b r /\ (s' = CEL_NONE \/ l_a r - t' <= 12000000) /\ light s' (l_c r - t') v /\
    ((s' = l_cond r /\ t' = l_b r /\ (cel_level s < cel_level s' \/ (12000000 < l_a r - t /\ s' <> CEL_NONE))) \/
     (s' = s /\ t' = t /\ cel_level (l_cond r) <= cel_level s') \/
     (s' = CEL_NONE /\ l_cond r = CEL_NONE /\ t' = t /\ 12000000 < l_a r - t)).
Proof.
  intros O D Ht Hs H. unfold handle_check_engine_light in H. rewrite us_3s in H. cbn [bind] in H.
  assert (X : exists s1, (if 12000000 <? time_diff (w32 (l_a r)) (w32 t) then CEL_NONE else s) = s1 /\ (s1 = CEL_NONE \/ l_a r - t <= 12000000) /\ (s1 = s \/ (s1 = CEL_NONE /\ 12000000 < l_a r - t))).
  { eexists. split; [reflexivity|]. destruct Hs as [->|Hs].
    - destruct (12000000 <? _); auto.
    - rewrite diff_true by lia. destruct (Z.ltb_spec 12000000 (l_a r - t)); auto. }
  destruct X as (s1 & X0 & X1 & X2). rewrite X0 in H.
  assert (P : forall s' t', t' <= l_b r -> (s' = CEL_NONE \/ l_a r - t' <= 12000000) -> determine_cel_pin_state s' (w32 (l_c r)) (w32 t') = Ok v -> light s' (l_c r - t') v).
  { intros s' t' T1 T2 E. unfold determine_cel_pin_state in E. destruct s'; cbn [light].
    - now injection E as <-.
    - now injection E as <-.
    - destruct T2 as [|T2]; [discriminate|]. rewrite us_500ms in E. cbn [bind] in E. injection E as <-. rewrite w32_sub, w32_small by (unfold W, second in *; lia). apply blink_spec. reflexivity.
    - destruct T2 as [|T2]; [discriminate|]. rewrite us_200ms in E. cbn [bind] in E. injection E as <-. rewrite w32_sub, w32_small by (unfold W, second in *; lia). apply blink_spec. reflexivity. }
  destruct (Z.ltb_spec (cel_level s1) (cel_level (l_cond r))) as [L|L].
  - apply bind_ok in H. destruct H as (v' & E & H). assert (v' = v) by congruence. subst v'. assert (st = (l_cond r, w32 (l_b r))) as -> by congruence.
    exists (l_cond r), (l_b r). split; auto. split; [lia|]. split; [right; lia|]. split; [apply P; auto; [lia|right; lia]|]. left. split; auto. split; auto.
    destruct X2 as [->|[-> X2]]; [left; auto|right]. split; auto. intros Z. rewrite Z in L. cbn in L. lia.
  - apply bind_ok in H. destruct H as (v' & E & H). assert (v' = v) by congruence. subst v'. assert (st = (s1, w32 t)) as -> by congruence.
    exists s1, t. split; auto. split; [lia|]. split; auto. split; [apply P; auto; lia|]. destruct X2 as [->|[-> X2]]; [right; left; auto|].
    right. right. split; auto. split; auto. destruct (l_cond r); cbn in L; auto; lia.
Qed.

(** Runs take less than a second and come often enough. *)
Fixpoint light_regular (h : list crun) : Prop :=
  match h with
  | [] => True
  | r :: h => l_c r - l_a r <= second /\ match h with [] => l_a r < W | q :: _ => l_a r - l_c q < MAXGAP end /\ light_regular h
  end.

Definition since (h : list crun) (s : cel) (t : Z) : Prop := exists v, light_history h = Ok (v, (s, w32 t)) /\
  match h with
  | [] => s = CEL_NONE /\ t = 0
  | r :: _ => t <= l_b r /\ (s = CEL_NONE \/ l_a r - t <= 12000000) /\ light s (l_c r - t) v
  end.

Lemma light_total next a b c st : exists v st', handle_check_engine_light next a b c st = Ok (v, st').
Proof.
  unfold handle_check_engine_light. destruct st as [s last]. rewrite us_3s. cbn [bind]. destruct (cel_level _ <? cel_level next);
  match goal with |- context [determine_cel_pin_state ?x _ _] => destruct x end; unfold determine_cel_pin_state; rewrite ?us_500ms, ?us_200ms; cbn [bind]; eauto.
Qed.

Lemma since_step r h s t : light_order (r :: h) -> light_regular (r :: h) -> since h s t -> exists s' t', since (r :: h) s' t' /\
    ((s' = l_cond r /\ t' = l_b r /\ (cel_level s < cel_level s' \/ (12000000 < l_a r - t /\ s' <> CEL_NONE))) \/
     (s' = s /\ t' = t /\ cel_level (l_cond r) <= cel_level s') \/
     (s' = CEL_NONE /\ l_cond r = CEL_NONE /\ t' = t /\ 12000000 < l_a r - t)).
Proof.
  intros (O1 & O2 & O3) (G1 & G2 & G3) (v & E & K). destruct (light_total (l_cond r) (w32 (l_a r)) (w32 (l_b r)) (w32 (l_c r)) (s, w32 t)) as (v' & st & E').
  assert (T : t <= l_a r /\ (s = CEL_NONE \/ l_a r - t < W)).
  { destruct h as [|q h]; [destruct K as [-> ->]; split; auto|]. destruct K as (K1 & K2 & _). cbn [light_order] in O3. cbn [light_regular] in G3. split; [lia|]. destruct K2; auto. right. unfold MAXGAP, W, second in *. lia. }
  destruct T as [T1 T2]. destruct (light_step _ _ _ _ _ O1 G1 T1 T2 E') as (s' & t' & -> & A & B & C & D). exists s', t'. split; auto.
  exists v'. split; auto. cbn [light_history]. rewrite E. exact E'.
Qed.
Lemma since_all h : light_order h -> light_regular h -> exists s t, since h s t.
Proof.
  induction h as [|r h IH]; intros O G; [exists CEL_NONE, 0, 0; auto|]. destruct (IH (proj2 (proj2 O)) (proj2 (proj2 G))) as (s & t & S). destruct (since_step r h s t O G S) as (s' & t' & S' & _). eauto.
Qed.
