Require Import ZArith List Bool Lia.
From Verif Require Import Res Word Arr TimeProofs Outputs Buffers OutputSpec OutputRun OutputProofs BufferProofs.
Import ListNotations.
Open Scope Z_scope.
Ltac Zify.zify_post_hook ::= Z.to_euclidean_division_equations.

(** ** Non-swap steps keep the bits *)
Definition same_submitted (e e' : entry) : Prop :=
  (e_state e = SUBMITTED -> e' = e) /\ (e_state e' = SUBMITTED -> e' = e).

Lemma upd_split {A} (l : list A) i a b : nth_error l i = Some a -> exists l1 l2, l = l1 ++ a :: l2 /\ upd_nat l i b = l1 ++ b :: l2 /\ length l1 = i.
Proof.
  intros E. apply nth_error_split in E. destruct E as (l1 & l2 & -> & <-). exists l1, l2. repeat split; auto.
  replace (length l1) with (length l1 + 0)%nat by lia. now rewrite upd_nat_app_r.
Qed.

Lemma entries_app a b : entries (a ++ b) = entries a ++ entries b.
Proof. apply flat_map_app. Qed.

Lemma bits_ok_upd n d os i o o' : bits_ok n d os -> nth_error os i = Some o ->
  same_submitted (o_start o) (o_start o') -> same_submitted (o_stop o) (o_stop o') ->
  0 <= e_pin (o_start o') < 32 -> 0 <= e_pin (o_stop o') < 32 ->
  0 <= e_time (o_start o') < W -> 0 <= e_time (o_stop o') < W ->
  bits_ok n d (upd_nat os i o').
Proof.
  intros B E [S1 S2] [S3 S4] P1 P2 T1 T2. destruct (upd_split os i o o' E) as (l1 & l2 & -> & -> & L).
  assert (IE : forall x e, In e (entries (l1 ++ x :: l2)) <-> In e (entries l1) \/ e = o_start x \/ e = o_stop x \/ In e (entries l2)).
  { intros x e. rewrite entries_app, in_app_iff. simpl. intuition. }
  assert (AT : forall t p v, (exists e, In e (entries (l1 ++ o :: l2)) /\ edge_at t p v e) <-> (exists e, In e (entries (l1 ++ o' :: l2)) /\ edge_at t p v e)).
  { intros t p v. split; intros (e & I & A); pose proof A as (As & _); apply IE in I; destruct I as [I|[->|[->|I]]];
      try (exists e; split; [apply IE; tauto|auto]).
    - exists (o_start o'). split; [apply IE; tauto|]. now rewrite S1.
    - exists (o_stop o'). split; [apply IE; tauto|]. now rewrite S3.
    - exists (o_start o). split; [apply IE; tauto|]. now rewrite <- S2.
    - exists (o_stop o). split; [apply IE; tauto|]. now rewrite <- S4. }
  destruct B. constructor; auto.
  - intros e I. apply IE in I. destruct I as [I|[->|[->|I]]]; auto; apply bo_pins; apply IE; tauto.
  - intros e I Es. apply IE in I. destruct I as [I|[->|[->|I]]].
    + apply bo_sub; auto. apply IE; tauto.
    + rewrite (S2 Es). apply bo_sub; [apply IE; tauto|]. now rewrite <- (S2 Es).
    + rewrite (S4 Es). apply bo_sub; [apply IE; tauto|]. now rewrite <- (S4 Es).
    + apply bo_sub; auto. apply IE; tauto.
  - intros e I. apply IE in I. destruct I as [I|[->|[->|I]]]; auto; apply bo_times; apply IE; tauto.
  - intros. rewrite <- AT. auto.
  - intros. rewrite <- AT. auto.
Qed.

Lemma enable_same E e t : same_submitted e (snd (sched_entry_enable E e t)).
Proof.
  unfold sched_entry_enable. destruct (sstate_eqb_spec (e_state e) SUBMITTED); simpl; [split; auto|].
  destruct (sstate_eqb_spec (e_state e) FIRED); simpl; [split; auto|].
  destruct (time_before t E); simpl; split; auto; try congruence. discriminate.
Qed.
Lemma same_refl e : same_submitted e e. Proof. split; auto. Qed.
Lemma enable_keeps E e t : e_pin (snd (sched_entry_enable E e t)) = e_pin e /\ e_val (snd (sched_entry_enable E e t)) = e_val e /\
  (e_time (snd (sched_entry_enable E e t)) = e_time e \/ e_time (snd (sched_entry_enable E e t)) = t).
Proof. unfold sched_entry_enable. destruct (_ || _); simpl; auto. destruct (time_before t E); simpl; auto. Qed.

Lemma commit_shape E o on off : exists t, (t = off \/ exists x, t = w32 x) /\
  o_start (commit_times E o on off) = snd (sched_entry_enable E (o_start o) on) /\
  (o_stop (commit_times E o on off) = o_stop o \/ o_stop (commit_times E o on off) = snd (sched_entry_enable E (o_stop o) t)) /\
  o_type (commit_times E o on off) = o_type o /\ o_pin (commit_times E o on off) = o_pin o /\
  o_inv (commit_times E o on off) = o_inv o /\ o_angle (commit_times E o on off) = o_angle o.
Proof.
  unfold commit_times. destruct (event_is_unscheduled o).
  - destruct (sched_entry_enable E (o_start o) on) as [[] a].
    + exists off. destruct (sched_entry_enable E (o_stop o) off). simpl. auto 10.
    + exists off. simpl. auto 10.
  - destruct (sched_entry_enable E (o_start o) on) as [ok a].
    set (t := if _ && _ then _ else _). exists t. split; [unfold t; destruct (_ && _); eauto|].
    destruct (sched_entry_enable E (o_stop o) t). simpl. auto 10.
Qed.

(** ** The invariant of all runs *)
Definition pinned_inv (o : output) : Prop :=
  0 <= o_pin o mod 256 < 32 /\
  (e_state (o_start o) = SCHEDULED \/ e_state (o_start o) = SUBMITTED -> start_pinned o) /\
  (e_state (o_stop o) = SCHEDULED \/ e_state (o_stop o) = SUBMITTED -> stop_pinned o).
Definition sys_ok (y : sys) : Prop := bits_ok (y_n y) (y_dma y) (y_outs y) /\ Forall pinned_inv (y_outs y).

Lemma Forall_upd {A} (P : A -> Prop) l i a : Forall P l -> P a -> Forall P (upd_nat l i a).
Proof. revert i. induction l; intros i F Pa; simpl; auto. inversion F; subst. destruct i; constructor; auto. Qed.

Lemma upd_output_inv os i f os' : upd_output os i f = Ok os' -> exists o o', nth_error os i = Some o /\ f o = Ok o' /\ os' = upd_nat os i o'.
Proof.
  unfold upd_output. destruct (nth_error os i) as [o|]; [|discriminate]. destruct (f o) as [o'|] eqn:E; [|discriminate].
  cbn [bind]. intros [= <-]. eauto.
Qed.

Lemma in_entries os i o : nth_error os i = Some o -> In (o_start o) (entries os) /\ In (o_stop o) (entries os).
Proof.
  intros E. apply nth_error_In in E. unfold entries. split; apply in_flat_map; exists o; simpl; auto.
Qed.

Lemma disable_inv nd e ok e' : sched_entry_disable nd e = Ok (ok, e') ->
  (ok = true /\ e_state e = SCHEDULED /\ e' = with_state e UNSCHEDULED) \/ (ok = false /\ e' = e /\ e_state e <> SCHEDULED).
Proof.
  unfold sched_entry_disable. destruct (c_assert nd _); [|discriminate]. cbn [bind].
  destruct (sstate_eqb_spec (e_state e) SCHEDULED); simpl; intros [= <- <-]; auto.
Qed.

Lemma deschedule_inv nd o o' : deschedule_event nd o = Ok o' ->
  (e_state (o_start o) = SCHEDULED /\ o' = with_entries o (with_state (o_start o) UNSCHEDULED)
      (match e_state (o_stop o) with SCHEDULED => with_state (o_stop o) UNSCHEDULED | _ => o_stop o end)) \/
  (e_state (o_start o) <> SCHEDULED /\ o' = with_entries o (o_start o) (o_stop o)).
Proof.
  unfold deschedule_event. destruct (sched_entry_disable nd (o_start o)) as [[ok a]|] eqn:E; [|discriminate].
  cbn [bind]. apply disable_inv in E. destruct E as [(-> & S & ->)|(-> & -> & S)].
  - destruct (sched_entry_disable nd (o_stop o)) as [[ok2 b]|] eqn:E2; [|discriminate]. cbn [bind]. intros [= <-].
    apply disable_inv in E2. left. split; auto. destruct E2 as [(_ & S2 & ->)|(_ & -> & S2)].
    + now rewrite S2.
    + destruct (e_state (o_stop o)); auto. congruence.
  - intros [= <-]. right. auto.
Qed.

Lemma set_pins_same o : pinned_inv o ->
  same_submitted (o_start o) (o_start (set_pins o)) /\ same_submitted (o_stop o) (o_stop (set_pins o)).
Proof.
  intros (Hp & Hs & Ht). unfold set_pins, same_submitted. cbn [o_start o_stop with_entries e_state].
  split; (split; intros S).
  1,2: destruct (Hs (or_intror S)) as [E1 E2]; rewrite <- E1, <- E2; now destruct (o_start o).
  all: destruct (Ht (or_intror S)) as [E1 E2]; rewrite <- E1, <- E2; now destruct (o_stop o).
Qed.

Lemma bits_ok_upd' n d os i o o' : bits_ok n d os -> nth_error os i = Some o ->
  same_submitted (o_start o) (o_start o') -> same_submitted (o_stop o) (o_stop o') ->
  (e_pin (o_start o') = e_pin (o_start o) \/ 0 <= e_pin (o_start o') < 32) ->
  (e_pin (o_stop o') = e_pin (o_stop o) \/ 0 <= e_pin (o_stop o') < 32) ->
  (e_time (o_start o') = e_time (o_start o) \/ 0 <= e_time (o_start o') < W) ->
  (e_time (o_stop o') = e_time (o_stop o) \/ 0 <= e_time (o_stop o') < W) ->
  bits_ok n d (upd_nat os i o').
Proof.
  intros B E S1 S2 P1 P2 T1 T2. destruct (in_entries _ _ _ E) as [I1 I2].
  pose proof (bo_times _ _ _ B _ I1). pose proof (bo_times _ _ _ B _ I2).
  pose proof (bo_pins _ _ _ B _ I1). pose proof (bo_pins _ _ _ B _ I2).
  apply (bits_ok_upd n d os i o o' B E); auto; intuition congruence.
Qed.

Lemma w32_range z : 0 <= w32 z < W.
Proof. apply Z.mod_pos_bound. reflexivity. Qed.

Lemma commit_pinned E o on off : start_pinned o /\ stop_pinned o -> 0 <= o_pin o mod 256 < 32 -> pinned_inv (commit_times E o on off).
Proof.
  intros [[A1 A2] [B1 B2]] Hp. destruct (commit_shape E o on off) as (t & _ & Es & Et & _ & Ep & Ei & _).
  pose proof (enable_keeps E (o_start o) on) as (K1 & K2 & _). pose proof (enable_keeps E (o_stop o) t) as (K3 & K4 & _).
  unfold pinned_inv, start_pinned, stop_pinned. rewrite Ep, Ei, Es. split; auto. split; intros _.
  - split; congruence.
  - destruct Et as [-> | ->]; split; congruence.
Qed.

Lemma step_ok nd y a y' : sys_ok y -> legal y a -> step nd y a = Ok y' -> sys_ok y'.
Proof.
  intros (B & F) (Ot & Vi & Pn) E. destruct a as [i|i on off|i|i|now]; cbn [step] in E.
  - destruct (upd_output _ _ _) as [os|] eqn:U; [|discriminate]. cbn [bind] in E. injection E as <-.
    apply upd_output_inv in U. destruct U as (o & o' & Eo & [= <-] & ->).
    pose proof (proj1 (Forall_forall _ _) F o (nth_error_In _ _ Eo)) as PI. pose proof PI as (Hp & _).
    destruct (set_pins_same o PI) as [S1 S2].
    split; cbn [y_n y_dma y_outs].
    + apply (bits_ok_upd' _ _ _ i o); auto; simpl; auto.
    + apply Forall_upd; auto. unfold pinned_inv, start_pinned, stop_pinned. simpl. auto.
  - destruct (upd_output _ _ _) as [os|] eqn:U; [|discriminate]. cbn [bind] in E. injection E as <-.
    apply upd_output_inv in U. destruct U as (o & o' & Eo & [= <-] & ->).
    pose proof (proj1 (Forall_forall _ _) F o (nth_error_In _ _ Eo)) as PI. pose proof PI as (Hp & _).
    specialize (Pn o Eo).
    split; cbn [y_n y_dma y_outs].
    + destruct (commit_shape (earliest_schedulable (y_dma y)) o (w32 on) (w32 off)) as (t & Wt & Es & Et & _).
      set (E := earliest_schedulable (y_dma y)) in *.
      assert (0 <= t < W). { destruct Wt as [->|[x ->]]; apply w32_range. }
      pose proof (enable_keeps E (o_start o) (w32 on)) as (K1 & _ & K2).
      pose proof (enable_keeps E (o_stop o) t) as (K3 & _ & K4).
      pose proof (w32_range on).
      apply (bits_ok_upd' _ _ _ i o); auto.
      * rewrite Es. apply enable_same.
      * destruct Et as [-> | ->]; [apply same_refl|apply enable_same].
      * rewrite Es. auto.
      * destruct Et as [-> | ->]; auto.
      * rewrite Es. destruct K2 as [->| ->]; auto.
      * destruct Et as [-> | ->]; auto. destruct K4 as [->| ->]; auto.
    + apply Forall_upd; auto. now apply commit_pinned.
  - destruct (upd_output _ _ _) as [os|] eqn:U; [|discriminate]. cbn [bind] in E. injection E as <-.
    apply upd_output_inv in U. destruct U as (o & o' & Eo & E & ->).
    pose proof (proj1 (Forall_forall _ _) F o (nth_error_In _ _ Eo)) as PI.
    unfold event_has_fired in E.
    destruct (sstate_eqb_spec (e_state (o_start o)) FIRED) as [S1|S1]; cbn [andb] in E.
    2:{ injection E as <-. split; cbn [y_n y_dma y_outs]; [|now apply Forall_upd].
        apply (bits_ok_upd' _ _ _ i o); auto; apply same_refl. }
    destruct (sstate_eqb_spec (e_state (o_stop o)) FIRED) as [S2|S2]; cbn [andb] in E.
    2:{ injection E as <-. split; cbn [y_n y_dma y_outs]; [|now apply Forall_upd].
        apply (bits_ok_upd' _ _ _ i o); auto; apply same_refl. }
    unfold reset_fired_event in E. destruct (c_assert nd _); [|discriminate]. cbn [bind] in E.
    destruct (c_assert nd _); [|discriminate]. cbn [bind] in E. injection E as <-.
    split; cbn [y_n y_dma y_outs].
    + apply (bits_ok_upd' _ _ _ i o); auto; simpl; auto; unfold same_submitted; rewrite ?S1, ?S2; simpl; split; discriminate.
    + apply Forall_upd; auto. destruct PI as (Hp & _). split; auto. simpl. split; intros [|]; discriminate.
  - destruct (upd_output _ _ _) as [os|] eqn:U; [|discriminate]. cbn [bind] in E. injection E as <-.
    apply upd_output_inv in U. destruct U as (o & o' & Eo & E & ->).
    pose proof (proj1 (Forall_forall _ _) F o (nth_error_In _ _ Eo)) as PI. pose proof PI as (Hp & Hs & Ht).
    destruct (sstate_eqb (e_state (o_start o)) UNSCHEDULED).
    { injection E as <-. split; cbn [y_n y_dma y_outs]; [|now apply Forall_upd].
      apply (bits_ok_upd' _ _ _ i o); auto; apply same_refl. }
    apply deschedule_inv in E. destruct E as [(S & ->)|(S & ->)].
    + split; cbn [y_n y_dma y_outs].
      * apply (bits_ok_upd' _ _ _ i o); auto; simpl; auto; try (unfold same_submitted; rewrite ?S; simpl; split; discriminate).
        -- destruct (e_state (o_stop o)) eqn:S2; try apply same_refl. unfold same_submitted; rewrite ?S2; simpl; split; discriminate.
        -- destruct (e_state (o_stop o)); auto.
        -- destruct (e_state (o_stop o)); auto.
      * apply Forall_upd; auto. split; auto. simpl. split; [intros [|]; discriminate|].
        unfold stop_pinned in *. simpl. destruct (e_state (o_stop o)) eqn:S2; simpl; rewrite ?S2; try (intros [|]; discriminate); auto.
    + split; cbn [y_n y_dma y_outs].
      * apply (bits_ok_upd' _ _ _ i o); auto; simpl; auto; apply same_refl.
      * apply Forall_upd; auto. 
  - simpl in Ot. destruct (swap_spec now _ _ _ Ot B) as (d' & E2 & B').
    rewrite E2 in E. cbn [bind] in E. injection E as <-. split; cbn [y_n y_dma y_outs]; auto.
    rewrite map_map. apply Forall_forall. intros o I. apply in_map_iff in I. destruct I as (x & <- & I).
    pose proof (proj1 (Forall_forall _ _) F x I) as (Hp & Hs & Ht).
    split; [exact Hp|]. unfold start_pinned, stop_pinned in *. simpl.
    assert (ST : forall b b' e, e_state (move SCHEDULED SUBMITTED b (move SUBMITTED FIRED b' e)) = SCHEDULED \/
        e_state (move SCHEDULED SUBMITTED b (move SUBMITTED FIRED b' e)) = SUBMITTED -> e_state e = SCHEDULED \/ e_state e = SUBMITTED).
    { intros b b' e. unfold move. destruct (e_state e) eqn:Ee; cbn [sstate_eqb andb]; rewrite ?Ee; cbn [sstate_eqb andb]; rewrite ?Ee; auto. }
    assert (VM : forall s s' b e, e_val (move s s' b e) = e_val e) by (intros; unfold move; destruct (_ && _); reflexivity).
    split; intros H; apply ST in H; rewrite !move_pin, !VM; auto.
Qed.

Lemma run_ok nd y l y' : run nd y l y' -> sys_ok y -> sys_ok y'.
Proof. induction 1; auto. intros Hy. apply IHrun. eapply step_ok; eauto. Qed.

Lemma start_ok n os : Forall fresh os -> Forall (fun o => 0 <= o_pin o mod 256 < 32) os -> sys_ok (start_sys n os).
Proof.
  intros F P. assert (EE : forall e, In e (entries os) -> e_state e = UNSCHEDULED /\ 0 <= e_time e < W /\ 0 <= e_pin e < 32).
  { intros e I. apply in_flat_map in I. destruct I as (o & Io & Ie). rewrite Forall_forall in F. specialize (F o Io).
    unfold fresh in F. simpl in Ie. intuition (subst; auto). }
  assert (Z0 : forall f j p v, slot_bit (empty_buffer f) j p v = false).
  { intros f j p v. unfold slot_bit. destruct (get (b_slots (empty_buffer f)) j) as [s|] eqn:G; auto.
    apply get_ok in G. destruct G as [_ G]. apply nth_error_In in G. apply repeat_spec in G. subst s. destruct v; apply Z.testbit_0_l. }
  split.
  - constructor; simpl y_dma; cbn [d_cur d_next].
    + split; reflexivity.
    + split; reflexivity.
    + intros e I. apply EE in I. tauto.
    + intros e I S. apply EE in I. destruct I; congruence.
    + intros e I. apply EE in I. tauto.
    + intros j p v _ _. rewrite Z0. split; [discriminate|]. intros (e & I & A & _). apply EE in I. destruct I; congruence.
    + intros j p v _ _. rewrite Z0. split; [discriminate|]. intros (e & I & A & _). apply EE in I. destruct I; congruence.
  - simpl. rewrite Forall_forall in *. intros o I. specialize (F o I). specialize (P o I). destruct F as (S1 & S2 & _).
    split; auto. rewrite S1, S2. split; intros [|]; discriminate.
Qed.

(** ** Refinement of the specification *)
Definition sim (y : sys) (n : Z) (ps : list pulse) : Prop :=
  y_n y = n /\ Forall2 match_out (y_outs y) ps /\ Forall (fun p => edge_ok n (p_on p) /\ edge_ok n (p_off p)) ps.

Lemma Forall2_upd {A B} (R : A -> B -> Prop) l m i a b : Forall2 R l m -> R a b -> Forall2 R (upd_nat l i a) (upd_nat m i b).
Proof. intros F. revert i. induction F; intros i Rab; simpl; auto. destruct i; constructor; auto. Qed.
Lemma Forall2_nth {A B} (R : A -> B -> Prop) l m i a : Forall2 R l m -> nth_error l i = Some a -> exists b, nth_error m i = Some b /\ R a b.
Proof. intros F. revert i. induction F; intros [|i] E; simpl in *; try discriminate; eauto. injection E as ->. eauto. Qed.
Lemma Forall2_nth' {A B} (R : A -> B -> Prop) l m i b : Forall2 R l m -> nth_error m i = Some b -> exists a, nth_error l i = Some a /\ R a b.
Proof. intros F. revert i. induction F; intros [|i] E; simpl in *; try discriminate; eauto. injection E as ->. eauto. Qed.

Lemma earliest_open n d os : bits_ok n d os -> earliest_schedulable d = w32 (open_from n).
Proof. intros B. unfold earliest_schedulable. rewrite (proj2 (bo_cur _ _ _ B)). unfold NUM_SLOTS. apply open_mod. Qed.

Lemma move_match n d e g : b_first (d_cur d) = w32 (128 * n) -> match_entry e g -> edge_ok n g ->
  match_entry (move SCHEDULED SUBMITTED (empty_buffer (w32 (128 * (n + 2)))) (move SUBMITTED FIRED (d_cur d) e)) (tick_edge n g).
Proof.
  intros Fc [Es Et] Hg. unfold move at 2, offset. rewrite Fc, Es, Et. unfold NUM_SLOTS.
  assert (O1 : w32 (g_time g mod W - w32 (128 * n)) = w32 (g_time g - 128 * n)).
  { unfold w32. now rewrite Zminus_mod_idemp_l, Zminus_mod_idemp_r. }
  rewrite O1. unfold tick_edge, edge_ok, open_from in *. destruct (g_state g) eqn:Eg; cbn [sstate_eqb andb].
  - unfold move. rewrite Es. split; [now rewrite Eg|exact Et].
  - unfold move, offset. rewrite Es. cbn [sstate_eqb andb empty_buffer b_first]. rewrite Et.
    assert (O2 : w32 (g_time g mod W - w32 (128 * (n + 2))) = g_time g - 128 * (n + 2)).
    { unfold w32. rewrite Zminus_mod_idemp_l, Zminus_mod_idemp_r. apply Z.mod_small. unfold W. lia. }
    rewrite O2. unfold NUM_SLOTS.
    destruct (Z.ltb_spec (g_time g - 128 * (n + 2)) 128), (Z.eqb_spec (g_time g / 128) (n + 2)); try lia; split; simpl; congruence.
  - assert (O3 : w32 (g_time g - 128 * n) = g_time g - 128 * n).
    { apply Z.mod_small. unfold W. lia. }
    rewrite O3. destruct (Z.ltb_spec (g_time g - 128 * n) 128), (Z.eqb_spec (g_time g / 128) n); try lia.
    + split; simpl; congruence.
    + unfold move. rewrite Es. simpl. split; congruence.
  - unfold move. rewrite Es. simpl. split; congruence.
Qed.

Lemma sim_step nd y n ps a : sys_ok y -> sim y n ps -> legal y a -> act_orderly n ps a ->
  (nd = true \/ Forall pulse_safe ps) ->
  exists y', step nd y a = Ok y' /\ let '(n', ps') := spec_step n ps a in sim y' n' ps'.
Proof.
  intros (B & F) (Hn & M & EO) (Ot & Vi & Pn) O Hd. subst n.
  destruct a as [i|i on off|i|i|now]; cbn [step spec_step]; simpl in Vi.
  - destruct (nth_error (y_outs y) i) as [o|] eqn:Eo; [|apply nth_error_None in Eo; lia].
    destruct (Forall2_nth _ _ _ _ _ M Eo) as (p & Ep & Mo).
    unfold upd_output. rewrite Eo. cbn [bind]. eexists. split; [reflexivity|]. split; [reflexivity|]. split; auto.
    cbn [y_outs]. replace ps with (upd_nat ps i p).
    + apply Forall2_upd; auto.
    + clear -Ep. revert i Ep. induction ps; intros [|i] Ep; simpl in *; try discriminate; try congruence. f_equal. auto.
  - destruct O as (p & Ep & Wi & Oi). destruct (Forall2_nth' _ _ _ _ _ M Ep) as (o & Eo & Mo).
    unfold upd_output. rewrite Eo, Ep. cbn [bind]. eexists. split; [reflexivity|]. split; [reflexivity|]. cbn [y_outs].
    rewrite (earliest_open _ _ _ B). pose proof (proj1 (Forall_forall _ _) EO p (nth_error_In _ _ Ep)) as [E1 E2]. split.
    + apply Forall2_upd; auto. now apply commit_match.
    + apply Forall_upd; auto. now apply request_ok.
  - destruct (nth_error (y_outs y) i) as [o|] eqn:Eo; [|apply nth_error_None in Eo; lia].
    destruct (Forall2_nth _ _ _ _ _ M Eo) as (p & Ep & Mo). unfold upd_output. rewrite Eo, Ep.
    rewrite (has_fired_match o p Mo). pose proof (proj1 (Forall_forall _ _) EO p (nth_error_In _ _ Ep)) as [E1 E2].
    assert (exists o', (if sstate_eqb (g_state (p_on p)) FIRED && sstate_eqb (g_state (p_off p)) FIRED then reset_fired_event nd o else Ok o) = Ok o' /\
      match_out o' (match g_state (p_on p), g_state (p_off p) with FIRED, FIRED => forget p | _, _ => p end)) as (o' & -> & M').
    { destruct (g_state (p_on p)) eqn:Ea, (g_state (p_off p)) eqn:Eb; cbn [sstate_eqb andb]; eauto. now apply reset_match. }
    cbn [bind]. eexists. split; [reflexivity|]. split; [reflexivity|]. cbn [y_outs]. split.
    + apply Forall2_upd; auto.
    + apply Forall_upd; auto. destruct (g_state (p_on p)) eqn:Ea, (g_state (p_off p)) eqn:Eb; auto; split; exact I.
  - destruct (nth_error (y_outs y) i) as [o|] eqn:Eo; [|apply nth_error_None in Eo; lia].
    destruct (Forall2_nth _ _ _ _ _ M Eo) as (p & Ep & Mo). unfold upd_output. rewrite Eo, Ep.
    pose proof (proj1 (Forall_forall _ _) EO p (nth_error_In _ _ Ep)) as [E1 E2].
    pose proof Mo as (_ & [Sa _] & _). rewrite Sa.
    destruct (sstate_eqb_spec (g_state (p_on p)) UNSCHEDULED) as [Hu|Hu].
    + cbn [bind]. eexists. split; [reflexivity|]. split; [reflexivity|]. cbn [y_outs].
      assert (C : cancel p = p) by (unfold cancel; now rewrite Hu). rewrite C.
      split; [apply Forall2_upd; auto|apply Forall_upd; auto].
    + destruct (deschedule_match nd o p Mo) as (o' & -> & M'); auto.
      { destruct Hd as [->|S]; auto. right. pose proof (proj1 (Forall_forall _ _) S p (nth_error_In _ _ Ep)) as Sp.
        intros Hs. unfold pulse_safe in Sp. rewrite Hs in Sp. destruct Sp; congruence. }
      cbn [bind]. eexists. split; [reflexivity|]. split; [reflexivity|]. cbn [y_outs].
      split; [apply Forall2_upd; auto|apply Forall_upd; auto; now apply cancel_ok].
  - simpl in Ot. destruct (swap_spec now _ _ _ Ot B) as (d' & -> & B'). cbn [bind].
    eexists. split; [reflexivity|]. split; [reflexivity|]. cbn [y_outs]. rewrite map_map.
    pose proof (proj2 (bo_cur _ _ _ B)) as Fc. split.
    + clear -M EO Fc. induction M as [|o p os ps Mo M IH]; simpl; auto. inversion EO as [|? ? [E1 E2] EO']. subst.
      constructor; auto. destruct Mo as (Hf & Ha & Hb). split; [exact Hf|]. split; simpl; now apply move_match.
    + rewrite Forall_forall in *. intros q I. apply in_map_iff in I. destruct I as (p & <- & I). destruct (EO p I).
      split; simpl; now apply tick_edge_ok.
Qed.

Lemma safe_step n ps a : Forall (fun p => edge_ok n (p_on p) /\ edge_ok n (p_off p)) ps -> Forall pulse_safe ps -> act_orderly n ps a ->
  Forall pulse_safe (snd (spec_step n ps a)).
Proof.
  intros EO S O. destruct a as [i|i on off|i|i|now]; cbn [spec_step snd]; auto.
  - destruct O as (p & Ep & Wi & Oi). rewrite Ep. apply Forall_upd; auto.
    destruct (proj1 (Forall_forall _ _) EO p (nth_error_In _ _ Ep)) as [E1 E2].
    apply request_safe; auto. apply (proj1 (Forall_forall _ _) S p (nth_error_In _ _ Ep)).
  - destruct (nth_error ps i) as [p|] eqn:Ep; auto. apply Forall_upd; auto.
    pose proof (proj1 (Forall_forall _ _) S p (nth_error_In _ _ Ep)).
    destruct (g_state (p_on p)) eqn:?, (g_state (p_off p)) eqn:?; auto. reflexivity.
  - destruct (nth_error ps i) as [p|] eqn:Ep; auto. apply Forall_upd; auto.
    apply cancel_safe, (proj1 (Forall_forall _ _) S p (nth_error_In _ _ Ep)).
  - rewrite Forall_forall in *. intros q I. apply in_map_iff in I. destruct I as (p & <- & I). destruct (EO p I).
    apply tick_safe; auto.
Qed.

Lemma run_sim nd y l y' : run nd y l y' -> forall n ps, sys_ok y -> sim y n ps -> Forall pulse_safe ps -> orderly n ps l ->
  exists n' ps', spec_steps n ps l = (n', ps') /\ sim y' n' ps' /\ Forall pulse_safe ps' /\ sys_ok y'.
Proof.
  induction 1 as [y|y a y1 l y2 L E R IH]; intros n ps Y S P O.
  - exists n, ps. auto.
  - destruct O as [Oa Ol]. destruct (sim_step nd y n ps a Y S L Oa ltac:(auto)) as (y1' & E' & S').
    rewrite E in E'. injection E' as <-.
    pose proof (safe_step n ps a (proj2 (proj2 S)) P Oa) as P'.
    cbn [spec_steps]. destruct (spec_step n ps a) as [n1 ps1]. simpl in P'.
    apply IH; auto. eapply step_ok; eauto.
Qed.

(** ** Following one edge *)
Definition touches (i : nat) (a : act) : bool :=
  match a with Commit j _ _ | Reset j | Deschedule j => Nat.eqb i j | _ => false end.

(** State of an edge planned for true time [t] while block [n] plays, if nobody touches it. *)
Definition due_state (n t : Z) : sstate :=
  if n + 2 <=? t / 128 then SCHEDULED else if n <=? t / 128 then SUBMITTED else FIRED.

Lemma move_due n d e t : b_first (d_cur d) = w32 (128 * n) -> e_time e = w32 t -> t < 128 * (n + 2) + 2 ^ 31 ->
  e_state e = due_state n t -> (* a fired edge stays fired *)
  e_state (move SCHEDULED SUBMITTED (empty_buffer (w32 (128 * (n + 2)))) (move SUBMITTED FIRED (d_cur d) e)) = due_state (n + 1) t.
Proof.
  intros Fc Et Ht Es.
  assert (M : match_entry e (Edge (due_state n t) t)) by (split; auto).
  destruct (move_match n d e (Edge (due_state n t) t) Fc M) as [H _].
  - unfold edge_ok, due_state. cbn [g_state g_time]. destruct (Z.leb_spec (n + 2) (t / 128)); [unfold open_from; lia|].
    destruct (Z.leb_spec n (t / 128)); lia.
  - rewrite H. unfold tick_edge, due_state. cbn [g_state g_time].
    destruct (Z.leb_spec (n + 2) (t / 128)).
    + destruct (Z.eqb_spec (t / 128) (n + 2)); cbn [g_state];
      destruct (Z.leb_spec (n + 1 + 2) (t / 128)); try lia; auto. destruct (Z.leb_spec (n + 1) (t / 128)); auto; lia.
    + destruct (Z.leb_spec (n + 1 + 2) (t / 128)); try lia.
      destruct (Z.leb_spec n (t / 128)).
      * destruct (Z.eqb_spec (t / 128) n); cbn [g_state]; destruct (Z.leb_spec (n + 1) (t / 128)); auto; lia.
      * destruct (Z.leb_spec (n + 1) (t / 128)); auto; lia.
Qed.

Lemma upd_other {A} (l : list A) i j a : i <> j -> nth_error (upd_nat l i a) j = nth_error l j.
Proof. revert i j. induction l; intros [|i] [|j] N; simpl; auto; try congruence. Qed.
Lemma upd_same {A} (l : list A) i a b : nth_error l i = Some b -> nth_error (upd_nat l i a) i = Some a.
Proof. revert i. induction l; intros [|i] E; simpl in *; try discriminate; eauto. Qed.

(** Which of the two edges of an output. *)
Definition which (s : bool) (o : output) : entry := if s then o_start o else o_stop o.

Lemma follow nd y l y' i s o t : run nd y l y' -> sys_ok y -> forallb (fun a => negb (touches i a)) l = true ->
  nth_error (y_outs y) i = Some o -> e_time (which s o) = w32 t -> t < open_from (y_n y) + 2 ^ 31 ->
  e_state (which s o) = due_state (y_n y) t ->
  exists o', nth_error (y_outs y') i = Some o' /\ e_time (which s o') = w32 t /\ e_state (which s o') = due_state (y_n y') t /\
    y_n y <= y_n y' /\ o_pin o' = o_pin o /\ o_inv o' = o_inv o.
Proof.
  intros R. revert o. induction R as [y|y a y1 l y2 L E R IH]; intros o Y T Eo Et Ht Es.
  - exists o. repeat split; auto. lia.
  - cbn [forallb] in T. apply andb_true_iff in T. destruct T as [Ta Tl].
    assert (Y1 := step_ok nd y a y1 Y L E).
    assert (exists o1, nth_error (y_outs y1) i = Some o1 /\ e_time (which s o1) = w32 t /\ e_state (which s o1) = due_state (y_n y1) t /\
      (y_n y1 = y_n y \/ y_n y1 = y_n y + 1) /\ o_pin o1 = o_pin o /\ o_inv o1 = o_inv o) as (o1 & A1 & A2 & A3 & A4 & A5 & A6).
    { clear IH. destruct a as [k|k on off|k|k|now]; cbn [step touches] in *.
      - destruct (upd_output _ _ _) as [os|] eqn:U; [|discriminate]. cbn [bind] in E. injection E as <-.
        apply upd_output_inv in U. destruct U as (x & x' & Ex & [= <-] & ->). cbn [y_outs y_n].
        destruct (Nat.eq_dec k i) as [->|N].
        + rewrite Eo in Ex. injection Ex as <-. rewrite (upd_same _ _ _ _ Eo). eexists. split; [reflexivity|].
          destruct s; simpl in *; auto 10.
        + rewrite upd_other by auto. exists o. auto 10.
      - destruct (upd_output _ _ _) as [os|] eqn:U; [|discriminate]. cbn [bind] in E. injection E as <-.
        apply upd_output_inv in U. destruct U as (x & x' & Ex & _ & ->). cbn [y_outs y_n].
        rewrite upd_other by (intros ->; now rewrite Nat.eqb_refl in Ta). exists o. auto 10.
      - destruct (upd_output _ _ _) as [os|] eqn:U; [|discriminate]. cbn [bind] in E. injection E as <-.
        apply upd_output_inv in U. destruct U as (x & x' & Ex & _ & ->). cbn [y_outs y_n].
        rewrite upd_other by (intros ->; now rewrite Nat.eqb_refl in Ta). exists o. auto 10.
      - destruct (upd_output _ _ _) as [os|] eqn:U; [|discriminate]. cbn [bind] in E. injection E as <-.
        apply upd_output_inv in U. destruct U as (x & x' & Ex & _ & ->). cbn [y_outs y_n].
        rewrite upd_other by (intros ->; now rewrite Nat.eqb_refl in Ta). exists o. auto 10.
      - destruct Y as [B F]. destruct L as [Ot _]. simpl in Ot. destruct (swap_spec now _ _ _ Ot B) as (d' & E2 & _).
        rewrite E2 in E. cbn [bind] in E. injection E as <-. cbn [y_outs y_n]. rewrite map_map, nth_error_map, Eo.
        exists (move_out SCHEDULED SUBMITTED (empty_buffer (w32 (128 * (y_n y + 2)))) (move_out SUBMITTED FIRED (d_cur (y_dma y)) o)).
        split; [reflexivity|].
        assert (W1 : which s (move_out SCHEDULED SUBMITTED (empty_buffer (w32 (128 * (y_n y + 2)))) (move_out SUBMITTED FIRED (d_cur (y_dma y)) o)) =
          move SCHEDULED SUBMITTED (empty_buffer (w32 (128 * (y_n y + 2)))) (move SUBMITTED FIRED (d_cur (y_dma y)) (which s o))) by (destruct s; reflexivity).
        cbv beta. rewrite W1. split; [unfold move; repeat destruct (_ && _); exact Et|].
        split; [apply move_due; auto; apply (bo_cur _ _ _ B)|]. auto. }
    destruct (IH o1 Y1 Tl A1 A2) as (o2 & B1 & B2 & B3 & B4 & B5 & B6); auto.
    { unfold open_from in *. destruct A4; lia. }
    exists o2. repeat split; auto; try congruence. destruct A4; lia.
Qed.

Lemma legalb_ok y a : legalb y a = true -> legal y a.
Proof.
  destruct a as [i|i on off|i|i|now]; simpl; intros H; unfold legal; simpl.
  - apply Nat.ltb_lt in H. auto.
  - destruct (nth_error (y_outs y) i) as [o|] eqn:E; [|discriminate].
    rewrite !andb_true_iff, !Z.eqb_eq, !eqb_true_iff in H. destruct H as (((H1 & H2) & H3) & H4).
    split; auto. split; [apply nth_error_Some; congruence|]. intros o' [= <-]. split; split; auto.
  - apply Nat.ltb_lt in H. auto.
  - apply Nat.ltb_lt in H. auto.
  - apply Z.eqb_eq in H. auto.
Qed.

Lemma run_check_ok nd l : forall y y', run_check nd y l = Some y' -> run nd y l y'.
Proof.
  induction l as [|a l IH]; simpl; intros y y' H.
  - injection H as <-. constructor.
  - destruct (legalb y a) eqn:L; [|discriminate]. destruct (step nd y a) as [y1|] eqn:E; [|discriminate].
    econstructor; eauto. now apply legalb_ok.
Qed.

(** ** What a step does to submitted and fired edges *)
Lemma enable_final E e t : e_state e = SUBMITTED \/ e_state e = FIRED -> sched_entry_enable E e t = (false, e).
Proof. unfold sched_entry_enable. intros [-> | ->]; reflexivity. Qed.

Lemma commit_final E o on off s : e_state (which s o) = SUBMITTED \/ e_state (which s o) = FIRED ->
  which s (commit_times E o on off) = which s o.
Proof.
  intros H. destruct (commit_shape E o on off) as (t & _ & Es & Et & _). destruct s; simpl in *.
  - rewrite Es, enable_final; auto.
  - destruct Et as [-> | ->]; auto. rewrite enable_final; auto.
Qed.

Lemma final_step nd y a y' i o s : sys_ok y -> legal y a -> step nd y a = Ok y' -> (forall now, a <> Swap now) ->
  nth_error (y_outs y) i = Some o -> e_state (which s o) = SUBMITTED \/ e_state (which s o) = FIRED ->
  exists o', nth_error (y_outs y') i = Some o' /\
    ((e_state (which s o') = e_state (which s o) /\ e_time (which s o') = e_time (which s o) /\
      (e_state (which s o) = SUBMITTED -> which s o' = which s o)) \/
     (a = Reset i /\ e_state (o_start o) = FIRED /\ e_state (o_stop o) = FIRED)).
Proof.
  intros (B & F) L E NS Eo H. destruct a as [k|k on off|k|k|now]; cbn [step] in E; [| | | |now elim (NS now)].
  - destruct (upd_output _ _ _) as [os|] eqn:U; [|discriminate]. cbn [bind] in E. injection E as <-.
    apply upd_output_inv in U. destruct U as (x & x' & Ex & [= <-] & ->). cbn [y_outs].
    destruct (Nat.eq_dec k i) as [->|N]; [|rewrite upd_other by auto; exists o; auto].
    rewrite Eo in Ex. injection Ex as <-. rewrite (upd_same _ _ _ _ Eo). eexists. split; [reflexivity|].
    left. destruct (set_pins_same o (proj1 (Forall_forall _ _) F o (nth_error_In _ _ Eo))) as [[S1 _] [S2 _]].
    destruct s; simpl in *; auto.
  - destruct (upd_output _ _ _) as [os|] eqn:U; [|discriminate]. cbn [bind] in E. injection E as <-.
    apply upd_output_inv in U. destruct U as (x & x' & Ex & [= <-] & ->). cbn [y_outs].
    destruct (Nat.eq_dec k i) as [->|N]; [|rewrite upd_other by auto; exists o; auto].
    rewrite Eo in Ex. injection Ex as <-. rewrite (upd_same _ _ _ _ Eo). eexists. split; [reflexivity|].
    left. rewrite commit_final by auto. auto.
  - destruct (upd_output _ _ _) as [os|] eqn:U; [|discriminate]. cbn [bind] in E. injection E as <-.
    apply upd_output_inv in U. destruct U as (x & x' & Ex & E & ->). cbn [y_outs].
    destruct (Nat.eq_dec k i) as [->|N]; [|rewrite upd_other by auto; exists o; auto].
    rewrite Eo in Ex. injection Ex as <-. rewrite (upd_same _ _ _ _ Eo). eexists. split; [reflexivity|].
    unfold event_has_fired in E.
    destruct (sstate_eqb_spec (e_state (o_start o)) FIRED), (sstate_eqb_spec (e_state (o_stop o)) FIRED); cbn [andb] in E;
      try (injection E as <-; auto). right. auto.
  - destruct (upd_output _ _ _) as [os|] eqn:U; [|discriminate]. cbn [bind] in E. injection E as <-.
    apply upd_output_inv in U. destruct U as (x & x' & Ex & E & ->). cbn [y_outs].
    destruct (Nat.eq_dec k i) as [->|N]; [|rewrite upd_other by auto; exists o; auto].
    rewrite Eo in Ex. injection Ex as <-. rewrite (upd_same _ _ _ _ Eo). eexists. split; [reflexivity|]. left.
    destruct (sstate_eqb (e_state (o_start o)) UNSCHEDULED); [injection E as <-; auto|].
    apply deschedule_inv in E. destruct E as [(S & ->)|(S & ->)]; [|destruct s; simpl; auto].
    destruct s; simpl in *; [destruct H; congruence|]. destruct H as [H|H]; rewrite H; auto.
Qed.
