(** The firmware of System.v drives the outputs only by the atomic steps of OutputRun.v. *)
Require Import ZArith List Bool Lia.
From Verif Require Import Res Word F32 Arr TimeProofs Outputs Buffers OutputSpec OutputRun OutputProofs BufferProofs RunProofs Callbacks Decoder DecoderProofs Calc System.
Import ListNotations.
Open Scope Z_scope.
Ltac Zify.zify_post_hook ::= idtac.

(** ** On-time swap interrupts *)
(** The number of swap interrupts taken before point [k]. *)
Fixpoint swaps_before (env : nat -> Z * list Z) (k : nat) : Z :=
  match k with O => 0 | S j => swaps_before env j + Z.of_nat (length (snd (env j))) end.

(** Every swap interrupt comes while the next block plays: the first one during block [m] (true ticks
    128 m to 128 m + 127), and each further one during the block after the previous one's. *)
Definition punctual (env : nat -> Z * list Z) (m : Z) : Prop :=
  forall k i t, nth_error (snd (env k)) i = Some t -> exists T, t = w32 T /\ T / 128 = m + swaps_before env k + Z.of_nat i.

(** The block that plays in state [w]. *)
Definition block_of (env : nat -> Z * list Z) (m : Z) (w : fw) : Z := m + swaps_before env (w_k w) - 1.

(** ** Runs *)
Lemma run_app nd y l y1 l' y2 : run nd y l y1 -> run nd y1 l' y2 -> run nd y (l ++ l') y2.
Proof. induction 1; simpl; auto. intros. econstructor; eauto. Qed.
Lemma run_one nd y a y1 : legal y a -> step nd y a = Ok y1 -> run nd y [a] y1.
Proof. intros. econstructor; eauto. constructor. Qed.

Lemma swap_pinned now d os d' os' : stm32_buffer_swap now d os = Ok (d', os') ->
  length os' = length os /\ forall j o', nth_error os' j = Some o' -> exists o, nth_error os j = Some o /\ o_pin o' = o_pin o /\ o_inv o' = o_inv o /\ o_type o' = o_type o /\
    (forall s, e_pin (which s o') = e_pin (which s o) /\ e_val (which s o') = e_val (which s o) /\ e_time (which s o') = e_time (which s o)).
Proof.
  assert (K : forall f, (forall b e b' e', f b e = Ok (b', e') -> e_pin e' = e_pin e /\ e_val e' = e_val e /\ e_time e' = e_time e) ->
    forall os b b' os', each_output f b os = Ok (b', os') -> length os' = length os /\ forall j o', nth_error os' j = Some o' -> exists o, nth_error os j = Some o /\
    o_pin o' = o_pin o /\ o_inv o' = o_inv o /\ o_type o' = o_type o /\
    (forall s, e_pin (which s o') = e_pin (which s o) /\ e_val (which s o') = e_val (which s o) /\ e_time (which s o') = e_time (which s o))).
  { intros f F. induction os0 as [|o os0 IH]; intros b b' os0' H; cbn [each_output] in H.
    - injection H as _ <-. split; auto. intros [|j] o' E; discriminate.
    - apply bind_ok in H. destruct H as ([b1 s] & E1 & H). apply bind_ok in H. destruct H as ([b2 t] & E2 & H).
      apply bind_ok in H. destruct H as ([b3 r] & E3 & H). injection H as _ <-. destruct (IH _ _ _ E3) as [L K].
      split; [simpl; congruence|]. intros [|j] o' E; simpl in E.
      + injection E as <-. exists o. split; [reflexivity|]. split; [reflexivity|]. split; [reflexivity|]. split; [reflexivity|].
        intros [|]; simpl; eauto.
      + apply K in E. exact E. }
  unfold stm32_buffer_swap. intros H. apply bind_ok in H. destruct H as ([b1 o1] & E1 & H). apply bind_ok in H. destruct H as ([b2 o2] & E2 & H).
  injection H as _ <-. unfold retire_output_buffer, populate_output_buffer in *. apply K in E1; [apply K in E2|].
  - destruct E1 as [L1 K1], E2 as [L2 K2]. split; [congruence|]. intros j o' E. destruct (K2 j o' E) as (o & Eo & P1 & P2 & P3 & P4).
    destruct (K1 j o Eo) as (o0 & E0 & Q1 & Q2 & Q3 & Q4). exists o0. split; auto. split; [congruence|]. split; [congruence|]. split; [congruence|].
    intros s. destruct (P4 s) as (? & ? & ?), (Q4 s) as (? & ? & ?). split; [congruence|]. split; congruence.
  - intros b e b' e'. unfold populate_entry. destruct (_ && _); [|intros [= <- <-]; auto]. intros X. apply bind_ok in X. destruct X as (x & _ & X).
    injection X as _ <-. auto.
  - intros b e b' e'. unfold retire_entry. destruct (_ && _); [|intros [= <- <-]; auto]. intros X. apply bind_ok in X. destruct X as (x & _ & X).
    injection X as _ <-. auto.
Qed.

Lemma swaps_pinned l : forall d os d' os', swaps l d os = Ok (d', os') ->
  length os' = length os /\ forall j o', nth_error os' j = Some o' -> exists o, nth_error os j = Some o /\ o_pin o' = o_pin o /\ o_inv o' = o_inv o /\ o_type o' = o_type o /\
    (forall s, e_pin (which s o') = e_pin (which s o) /\ e_val (which s o') = e_val (which s o) /\ e_time (which s o') = e_time (which s o)).
Proof.
  induction l as [|now l IH]; intros d os d' os' H; cbn [swaps] in H; [injection H as _ <-; split; auto; intros; eauto 10|].
  apply bind_ok in H. destruct H as ([d1 o1] & E & H). destruct (swap_pinned _ _ _ _ _ E) as [L1 K1]. destruct (IH _ _ _ _ H) as [L2 K2].
  split; [congruence|]. intros j o' Ej. destruct (K2 j o' Ej) as (o & Eo & P1 & P2 & P3 & P4).
  destruct (K1 j o Eo) as (o0 & E0 & Q1 & Q2 & Q3 & Q4). exists o0. split; auto. split; [congruence|]. split; [congruence|]. split; [congruence|].
  intros s. destruct (P4 s) as (? & ? & ?), (Q4 s) as (? & ? & ?). split; [congruence|]. split; congruence.
Qed.

Section Env.
Variable env : nat -> Z * list Z.
Variable nd : bool.
Variable m : Z.
Hypothesis ON : punctual env m.

Definition osys (w : fw) : sys := Sys (block_of env m w) (w_dma w) (w_outs w).
Definition refines (w w' : fw) : Prop := exists l, run nd (osys w) l (osys w').

Lemma refines_refl w w' : w_dma w' = w_dma w -> w_outs w' = w_outs w -> w_k w' = w_k w -> refines w w'.
Proof. intros A B C. exists []. unfold osys, block_of. rewrite A, B, C. constructor. Qed.
Lemma refines_trans a b c : refines a b -> refines b c -> refines a c.
Proof. intros [l A] [l' B]. exists (l ++ l'). eapply run_app; eauto. Qed.

Lemma swaps_run l : forall n d os d' os', swaps l d os = Ok (d', os') ->
  (forall i t, nth_error l i = Some t -> exists T, t = w32 T /\ T / 128 = n + 1 + Z.of_nat i) ->
  exists acts, run nd (Sys n d os) acts (Sys (n + Z.of_nat (length l)) d' os').
Proof.
  induction l as [|now l IH]; intros n d os d' os' H T; cbn [swaps] in H.
  - injection H as <- <-. exists []. simpl. rewrite Z.add_0_r. constructor.
  - apply bind_ok in H. destruct H as ([d1 o1] & E & H). destruct (T 0%nat now eq_refl) as (x & -> & Tx).
    destruct (IH (n + 1) d1 o1 d' os' H) as [acts R].
    { intros i t E1. destruct (T (S i) t E1) as (y & Ey & Ty). exists y. split; auto. lia. }
    exists (Swap x :: acts). eapply Run_cons with (y1 := Sys (n + 1) d1 o1).
    + split; [simpl; lia|]. split; [exact I|exact I].
    + cbn [step y_dma y_outs y_n]. rewrite E. reflexivity.
    + replace (n + Z.of_nat (length (w32 x :: l))) with (n + 1 + Z.of_nat (length l)) by (simpl length; lia). exact R.
Qed.

Lemma point_refines w now w' : point env w = Ok (now, w') -> refines w w' /\ w_k w' = S (w_k w) /\ now = fst (env (w_k w)).
Proof.
  unfold point. pose proof (ON (w_k w)) as T. destruct (env (w_k w)) as [t l] eqn:Ee. intros H. apply bind_ok in H. destruct H as ([d os] & E & H). injection H as <- <-.
  split; [|split; auto]. destruct (swaps_run l (block_of env m w) _ _ _ _ E) as [acts R].
  { intros i x Ex. destruct (T i x Ex) as (y & Ey & Ty). exists y. split; auto. unfold block_of. lia. }
  exists acts. unfold osys at 2. unfold block_of at 1. cbn [w_k swaps_before w_dma w_outs]. rewrite Ee. cbn [snd].
  replace (m + (swaps_before env (w_k w) + Z.of_nat (length l)) - 1) with (block_of env m w + Z.of_nat (length l)) by (unfold block_of; lia). exact R.
Qed.

(** One atomic step on output [i]. *)
Lemma put_step w i o o' w' a : get (w_outs w) i = Ok o -> put_out w i o' = Ok w' -> legal (osys w) a ->
  step nd (osys w) a = Ok (Sys (block_of env m w) (w_dma w) (upd_nat (w_outs w) (Z.to_nat i) o')) -> refines w w'.
Proof.
  intros G P L S. unfold put_out in P. apply bind_ok in P. destruct P as (os & P & H). injection H as <-.
  rewrite put_ok in P by (eapply get_range; eauto). injection P as <-. exists [a]. apply run_one; auto.
Qed.
Lemma put_same w i o w' : get (w_outs w) i = Ok o -> put_out w i o = Ok w' -> refines w w'.
Proof.
  intros G P. unfold put_out in P. apply bind_ok in P. destruct P as (os & P & H). injection H as <-.
  rewrite put_ok in P by (eapply get_range; eauto). injection P as <-. apply refines_refl; auto. simpl.
  apply get_ok in G. destruct G as [_ G]. generalize (Z.to_nat i) G. clear. induction (w_outs w) as [|x l IH]; intros [|n] E; simpl in *; try discriminate.
  - now injection E as ->.
  - now rewrite IH.
Qed.

Lemma index_ok (w : fw) i o : get (w_outs w) i = Ok o -> nth_error (w_outs w) (Z.to_nat i) = Some o /\ (Z.to_nat i < length (w_outs w))%nat.
Proof. intros G. apply get_ok in G. destruct G as [_ G]. split; auto. apply nth_error_Some. congruence. Qed.

Lemma cancel_refines n : forall i w w', cancel_from env nd n i w = Ok w' -> refines w w'.
Proof.
  induction n as [|n IH]; intros i w w' H; cbn [cancel_from] in H; [injection H as <-; apply refines_refl; auto|].
  apply bind_ok in H. destruct H as ([x w1] & E1 & H). apply bind_ok in H. destruct H as (o & E2 & H).
  apply bind_ok in H. destruct H as (o1 & E3 & H). apply bind_ok in H. destruct H as (w2 & E4 & H).
  eapply refines_trans; [eapply point_refines; eauto|]. eapply refines_trans; [|eapply IH; eauto].
  destruct (index_ok _ _ _ E2) as [Ei Li]. unfold invalidate_one in E3.
  destruct (sstate_eqb (e_state (o_start o)) UNSCHEDULED) eqn:S; [injection E3 as <-; eapply put_same; eauto|].
  destruct (o_type o); [injection E3 as <-; eapply put_same; eauto| |];
    (apply (put_step w1 i o o1 w2 (Deschedule (Z.to_nat i))); auto;
     [split; [exact I|split; [exact Li|exact I]]|cbn [step osys y_outs y_n y_dma]; unfold upd_output; rewrite Ei, S, E3; reflexivity]).
Qed.

(** The recycling of a fired pulse by the two planning functions. *)
Lemma recycle_reset d o t r : recycle nd d o t = Ok r -> r = None \/ r = Some o \/ (exists o1, r = Some o1 /\ event_has_fired o = true /\ reset_fired_event nd o = Ok o1).
Proof.
  unfold recycle. destruct (event_has_fired o); [|intros [= <-]; auto]. intros H. apply bind_ok in H. destruct H as (x & _ & H).
  destruct (_ <? _); [injection H as <-; auto|]. apply bind_ok in H. destruct H as (o' & E & H). injection H as <-. eauto 10.
Qed.
Definition recycled (o o1 : output) : Prop := o1 = o \/ (event_has_fired o = true /\ reset_fired_event nd o = Ok o1).
Definition word (x : Z) : Prop := exists y, x = w32 y.
Lemma ignition_plan_shape d mf o adv dw o1 p : ignition_plan nd d mf o adv dw = Ok (o1, p) ->
  recycled o o1 /\ match p with None => True | Some (a, b) => word a /\ word b end.
Proof.
  unfold ignition_plan. destruct (_ || _); [intros [= <- <-]; split; [now left|auto]|]. intros H. apply bind_ok in H. destruct H as (? & _ & H).
  apply bind_ok in H. destruct H as (? & _ & H). apply bind_ok in H. destruct H as (? & _ & H). apply bind_ok in H. destruct H as (r & Er & H).
  apply recycle_reset in Er. destruct r as [o2|].
  - assert (R : recycled o o2). { destruct Er as [|[[= ->]|(o3 & [= ->] & A & B)]]; [discriminate|now left|right; auto]. }
    apply bind_ok in H. destruct H as ([|] & _ & H); [injection H as <- <-; auto|].
    apply bind_ok in H. destruct H as (? & _ & H). destruct (_ <? _); injection H as <- <-; auto. split; auto. split; eexists; reflexivity.
  - injection H as <- <-. split; [now left|auto].
Qed.
Lemma fuel_plan_shape d o pw o1 p : fuel_plan nd d o pw = Ok (o1, p) ->
  recycled o o1 /\ match p with None => True | Some (a, b) => word a /\ word b end.
Proof.
  unfold fuel_plan. destruct (_ || _); [intros [= <- <-]; split; [now left|auto]|]. intros H. apply bind_ok in H. destruct H as (? & _ & H).
  apply bind_ok in H. destruct H as (? & _ & H). apply bind_ok in H. destruct H as (r & Er & H).
  apply recycle_reset in Er. destruct r as [o2|].
  - assert (R : recycled o o2). { destruct Er as [|[[= ->]|(o3 & [= ->] & A & B)]]; [discriminate|now left|right; auto]. }
    apply bind_ok in H. destruct H as ([|] & _ & H); injection H as <- <-; auto. split; auto. split; eexists; reflexivity.
  - injection H as <- <-. split; [now left|auto].
Qed.

Lemma recycled_refines w i o o1 w' : get (w_outs w) i = Ok o -> recycled o o1 -> put_out w i o1 = Ok w' -> refines w w'.
Proof.
  intros G [->|[F R]] P; [eapply put_same; eauto|]. destruct (index_ok _ _ _ G) as [Ei Li].
  apply (put_step w i o o1 w' (Reset (Z.to_nat i))); auto; [split; [exact I|split; [exact Li|exact I]]|].
  cbn [step osys y_outs y_n y_dma]. unfold upd_output. rewrite Ei, F, R. reflexivity.
Qed.

Lemma w32_word x : word x -> w32 x = x.
Proof. intros [y ->]. unfold w32. apply Z.mod_small, Z.mod_pos_bound. reflexivity. Qed.

Lemma commit_refines w i a b w' : commit_output env w i a b = Ok w' -> word a -> word b -> refines w w'.
Proof.
  unfold commit_output. intros H Wa Wb. apply bind_ok in H. destruct H as ([x w1] & E1 & H). apply bind_ok in H. destruct H as (o & E2 & H).
  apply bind_ok in H. destruct H as (w2 & E3 & H). apply bind_ok in H. destruct H as ([y w3] & E4 & H). apply bind_ok in H. destruct H as (o2 & E5 & H).
  eapply refines_trans; [eapply point_refines; eauto|]. eapply refines_trans; [|eapply refines_trans; [eapply point_refines; eauto|]].
  - destruct (index_ok _ _ _ E2) as [Ei Li]. apply (put_step w1 i o (set_pins o) w2 (Pins (Z.to_nat i))); auto; [split; [exact I|split; [exact Li|exact I]]|].
    cbn [step osys y_outs y_n y_dma]. unfold upd_output. rewrite Ei. reflexivity.
  - destruct (index_ok _ _ _ E5) as [Ei Li].
    apply (put_step w3 i o2 (commit_times (earliest_schedulable (w_dma w3)) o2 a b) w' (Commit (Z.to_nat i) a b)); auto.
    + split; [exact I|split; [exact Li|]]. cbn [osys y_outs]. intros o3 E6. rewrite Ei in E6. injection E6 as <-.
      assert (O2 : nth_error (w_outs w2) (Z.to_nat i) = Some (set_pins o)).
      { unfold put_out in E3. apply bind_ok in E3. destruct E3 as (os & P & X). injection X as <-. rewrite put_ok in P by (eapply get_range; eauto). injection P as <-.
        simpl. eapply upd_same. apply (index_ok _ _ _ E2). }
      unfold point in E4. destruct (env (w_k w2)) as [t l]. apply bind_ok in E4. destruct E4 as ([d os] & Es & X). injection X as _ <-. cbn [w_outs] in Ei.
      destruct (swaps_pinned _ _ _ _ _ Es) as [_ K]. destruct (K _ _ Ei) as (p & Ep & P1 & P2 & _ & P4). rewrite O2 in Ep. injection Ep as <-.
      destruct (P4 true) as (A1 & A2 & _), (P4 false) as (B1 & B2 & _). simpl in A1, A2, B1, B2, P1, P2.
      unfold start_pinned, stop_pinned. rewrite A1, A2, B1, B2, P1, P2. auto.
    + cbn [step osys y_outs y_n y_dma]. unfold upd_output. rewrite Ei, (w32_word a Wa), (w32_word b Wb). reflexivity.
Qed.

Lemma ignition_refines w i w' : schedule_ignition env nd w i = Ok w' -> refines w w'.
Proof.
  unfold schedule_ignition. intros H. apply bind_ok in H. destruct H as ([x w1] & E1 & H). apply bind_ok in H. destruct H as (o & E2 & H).
  apply bind_ok in H. destruct H as ([o1 p] & E3 & H). apply bind_ok in H. destruct H as (w2 & E4 & H).
  apply ignition_plan_shape in E3. destruct E3 as [R Wp].
  eapply refines_trans; [eapply point_refines; eauto|]. eapply refines_trans; [eapply recycled_refines; eauto|].
  destruct p as [[a b]|]; [eapply commit_refines; eauto; apply Wp|injection H as <-; apply refines_refl; auto].
Qed.
Lemma fuel_refines w i w' : schedule_fuel env nd w i = Ok w' -> refines w w'.
Proof.
  unfold schedule_fuel. intros H. apply bind_ok in H. destruct H as ([x w1] & E1 & H). apply bind_ok in H. destruct H as (o & E2 & H).
  apply bind_ok in H. destruct H as ([o1 p] & E3 & H). apply bind_ok in H. destruct H as (w2 & E4 & H).
  apply fuel_plan_shape in E3. destruct E3 as [R Wp].
  eapply refines_trans; [eapply point_refines; eauto|]. eapply refines_trans; [eapply recycled_refines; eauto|].
  destruct p as [[a b]|]; [|injection H as <-; apply refines_refl; auto].
  apply bind_ok in H. destruct H as (w3 & E5 & H). apply bind_ok in H. destruct H as ([now w4] & E6 & H). apply bind_ok in H. destruct H as (o2 & E7 & H).
  eapply refines_trans; [eapply commit_refines; eauto; apply Wp|]. eapply refines_trans; [eapply point_refines; eauto|].
  destruct (_ && _); [apply bind_ok in H; destruct H as (c & _ & H)|]; injection H as <-; apply refines_refl; auto.
Qed.

Lemma event_refines w i w' : schedule_event env nd w i = Ok w' -> refines w w'.
Proof.
  unfold schedule_event. intros H. apply bind_ok in H. destruct H as (o & E & H). destruct (o_type o); [injection H as <-; apply refines_refl; auto| |];
    apply bind_ok in H; destruct H as ([cut v] & _ & H); (eapply refines_trans; [apply (refines_refl w (set_vals w v (w_tip w))); auto|]);
    (destruct (_ || _); [eapply cancel_refines; exact H|]); [eapply fuel_refines; eauto|eapply ignition_refines; eauto].
Qed.
Lemma from_refines n : forall i w w', schedule_from env nd n i w = Ok w' -> refines w w'.
Proof.
  induction n as [|n IH]; intros i w w' H; cbn [schedule_from] in H; [injection H as <-; apply refines_refl; auto|].
  apply bind_ok in H. destruct H as (w1 & E & H). eapply refines_trans; [eapply event_refines; eauto|eauto].
Qed.
Lemma effects_refines fx : forall w w', effects env nd fx w = Ok w' -> refines w w'.
Proof.
  induction fx as [|[t|] fx IH]; intros w w' H; cbn [effects] in H; [injection H as <-; apply refines_refl; auto| |].
  - apply bind_ok in H. destruct H as (c & _ & H). eapply refines_trans; [apply (refines_refl w (set_cbs w c)); auto|eauto].
  - apply bind_ok in H. destruct H as (w1 & E & H). eapply refines_trans; [eapply cancel_refines; eauto|eauto].
Qed.
Lemma trigger_refines w n t w' : decoder_update_scheduling env nd w n t = Ok w' -> refines w w'.
Proof.
  unfold decoder_update_scheduling. intros H. apply bind_ok in H. destruct H as ([d fx] & _ & H). apply bind_ok in H. destruct H as (w1 & E1 & H).
  apply effects_refines in E1. assert (R1 : refines w w1) by (eapply refines_trans; [apply (refines_refl w (set_dec w d)); auto|exact E1]).
  destruct (_ =? 0); [injection H as <-; auto|].
  apply bind_ok in H. destruct H as (v & _ & H). apply bind_ok in H. destruct H as ([now w2] & E2 & H). apply bind_ok in H. destruct H as ([v2 c] & _ & H).
  eapply refines_trans; [exact R1|]. eapply refines_trans; [eapply point_refines; eauto|].
  eapply refines_trans; [apply (refines_refl w2 (set_vals w2 v2 c)); auto|eapply from_refines; eauto].
Qed.
Lemma lose_refines w d w' : lose_position env nd w d = Ok w' -> refines w w'.
Proof. unfold lose_position. intros H. eapply refines_trans; [apply (refines_refl w (set_dec w d)); auto|eapply cancel_refines; exact H]. Qed.
Lemma callback_refines w cb w' : callback env nd w cb = Ok w' -> refines w w'.
Proof.
  unfold callback. intros H. destruct (_ =? _); [eapply lose_refines; eauto|]. destruct (_ =? _); [|eapply event_refines; eauto].
  unfold execute_test_trigger in H. destruct (_ =? 0); [injection H as <-; apply refines_refl; auto|].
  apply bind_ok in H. destruct H as (t & _ & H). destruct (test_wheel_next _ _) as [[deg tr] tooth].
  apply bind_ok in H. destruct H as (w1 & E & H). apply bind_ok in H. destruct H as (dl & _ & H). apply bind_ok in H. destruct H as (c & _ & H). injection H as <-.
  eapply refines_trans; [apply (refines_refl w (set_sim w (w_simrpm w) tooth)); auto|]. eapply refines_trans; [eapply trigger_refines; eauto|apply refines_refl; auto].
Qed.
Lemma timer_refines w w' : timer_interrupt env nd w = Ok w' -> refines w w'.
Proof.
  unfold timer_interrupt. intros H. apply bind_ok in H. destruct H as (u & _ & H). apply bind_ok in H. destruct H as (cb & _ & H).
  apply bind_ok in H. destruct H as ([now w1] & E & H). apply bind_ok in H. destruct H as (u2 & _ & H). apply bind_ok in H. destruct H as (c & _ & H).
  apply bind_ok in H. destruct H as (w2 & E2 & H). eapply refines_trans; [eapply point_refines; eauto|].
  eapply refines_trans; [apply (refines_refl w1 (set_cbs w1 c)); auto|]. eapply refines_trans; [eapply callback_refines; eauto|].
  destruct (_ <? _); [apply bind_ok in H; destruct H as (c2 & _ & H)|]; injection H as <-; apply refines_refl; auto.
Qed.

(** The console does not change an output's settings. *)
Definition no_reconfig (e : fev) : Prop := match e with FOutputConfig _ _ _ _ _ => False | _ => True end.

Lemma fstep_refines w e w' : fstep env nd w e = Ok w' -> no_reconfig e -> refines w w'.
Proof.
  intros H N. destruct e; cbn [fstep] in H; try (injection H as <-; apply refines_refl; auto; fail).
  - eapply trigger_refines; eauto.
  - eapply timer_refines; eauto.
  - eapply lose_refines; eauto.
  - apply bind_ok in H. destruct H as ([now w1] & E & H). injection H as <-. eapply point_refines; eauto.
  - destruct N.
  - apply bind_ok in H. destruct H as ([now w1] & E & H). apply bind_ok in H. destruct H as (c & _ & H). injection H as <-.
    eapply refines_trans; [eapply point_refines; eauto|apply refines_refl; auto].
  - eapply cancel_refines; eauto.
Qed.
Lemma frun_refines l : forall w w', frun env nd w l = Ok w' -> Forall no_reconfig l -> refines w w'.
Proof.
  induction l as [|e l IH]; intros w w' H F; cbn [frun] in H; [injection H as <-; apply refines_refl; auto|].
  apply bind_ok in H. destruct H as (w1 & E & H). inversion F; subst. eapply refines_trans; [eapply fstep_refines; eauto|eauto].
Qed.
End Env.

(** ** No planned edge is ever overtaken *)
Definition timely (y : sys) : Prop := forall e, In e (entries (y_outs y)) -> e_state e = SCHEDULED -> w32 (e_time e - 128 * (y_n y + 2)) < 2 ^ 31.

Lemma w32_sub a b : w32 (a - w32 b) = w32 (a - b).
Proof. unfold w32. apply Zminus_mod_idemp_r. Qed.

Lemma enable_timely E e t : (e_state e = SCHEDULED -> w32 (e_time e - E) < 2 ^ 31) ->
  e_state (snd (sched_entry_enable E e t)) = SCHEDULED -> w32 (e_time (snd (sched_entry_enable E e t)) - E) < 2 ^ 31.
Proof.
  unfold sched_entry_enable. destruct (_ || _); [auto|]. destruct (time_before t E) eqn:B; [auto|]. intros _ _. cbn [snd e_time].
  unfold time_before, time_diff, s32 in B. fold (w32 (t - E)) in B. 
  destruct (Z.ltb_spec (w32 (t - E)) HALF); [unfold HALF in *; lia|]. pose proof (w32_range (t - E)). unfold W, HALF in *. apply Z.ltb_ge in B. lia.
Qed.

Lemma in_upd os k o o' e : nth_error os k = Some o -> In e (entries (upd_nat os k o')) -> e = o_start o' \/ e = o_stop o' \/ In e (entries os).
Proof.
  intros Ek I. apply in_flat_map in I. destruct I as (x & Ix & Ie). apply In_nth_error in Ix. destruct Ix as [j Ej].
  destruct (Nat.eq_dec k j) as [<-|N].
  - rewrite (upd_same _ _ _ _ Ek) in Ej. injection Ej as <-. simpl in Ie. intuition.
  - rewrite upd_other in Ej by auto. right. right. apply in_flat_map. exists x. split; auto. now apply nth_error_In in Ej.
Qed.

Lemma timely_step nd y a y' : sys_ok y -> legal y a -> step nd y a = Ok y' -> timely y -> timely y'.
Proof.
  intros (B & F) (Ot & Vi & Pn) E T. destruct a as [k|k on off|k|k|now]; cbn [step] in E.
  5:{ simpl in Ot. destruct (swap_spec now _ _ _ Ot B) as (d' & E2 & _). rewrite E2 in E. cbn [bind] in E. injection E as <-. intros e I S. cbn [y_outs y_n] in *.
      rewrite map_map in I. apply in_flat_map in I. destruct I as (x & Ix & Ie). apply in_map_iff in Ix. destruct Ix as (o & <- & Io).
      assert (K : exists e0, In e0 (entries (y_outs y)) /\ e = move SCHEDULED SUBMITTED (empty_buffer (w32 (128 * (y_n y + 2)))) (move SUBMITTED FIRED (d_cur (y_dma y)) e0)).
      { simpl in Ie. destruct Ie as [<-|[<-|[]]]; [exists (o_start o)|exists (o_stop o)]; (split; [|reflexivity]); apply in_flat_map; exists o; split; auto; simpl; auto. }
      destruct K as (e0 & I0 & ->). clear Ie.
      assert (S0 : e_state e0 = SCHEDULED).
      { revert S. unfold move. destruct (e_state e0) eqn:Ee; cbn [sstate_eqb andb]; rewrite ?Ee; cbn [sstate_eqb andb]; rewrite ?Ee; auto; try discriminate.
        destruct (_ <? _); cbn [with_state e_state sstate_eqb andb]; rewrite ?Ee; cbn [sstate_eqb andb]; rewrite ?Ee; discriminate. }
      specialize (T e0 I0 S0). revert S. unfold move. rewrite S0. cbn [sstate_eqb andb]. rewrite S0. cbn [sstate_eqb andb].
      unfold offset. cbn [b_first empty_buffer]. rewrite w32_sub. destruct (Z.ltb_spec (w32 (e_time e0 - 128 * (y_n y + 2))) NUM_SLOTS) as [Hl|Hl]; [discriminate|].
      intros _. unfold NUM_SLOTS in Hl. replace (e_time e0 - 128 * (y_n y + 1 + 2)) with (e_time e0 - 128 * (y_n y + 2) - 128) by lia.
      rewrite w32_down by lia. lia. }
  all: destruct (upd_output _ _ _) as [os|] eqn:U; [|discriminate]; cbn [bind] in E; injection E as <-;
    apply upd_output_inv in U; destruct U as (o & o' & Eo & E & ->); intros e I S; cbn [y_outs y_n] in *;
    destruct (in_entries _ _ _ Eo) as [I1 I2];
    destruct (in_upd _ _ _ _ _ Eo I) as [->|[->|I0]]; [| |apply T; auto].
  - injection E as <-. exact (T _ I1 S).
  - injection E as <-. exact (T _ I2 S).
  - injection E as <-. destruct (commit_shape (earliest_schedulable (y_dma y)) o (w32 on) (w32 off)) as (t & _ & Es & _).
    rewrite Es in *. rewrite (earliest_open _ _ _ B) in *. unfold open_from in *.
    rewrite <- w32_sub. apply enable_timely; auto. intros S2. rewrite w32_sub. exact (T _ I1 S2).
  - injection E as <-. destruct (commit_shape (earliest_schedulable (y_dma y)) o (w32 on) (w32 off)) as (t & _ & _ & Et & _).
    rewrite (earliest_open _ _ _ B) in *. unfold open_from in *. destruct Et as [Et|Et]; rewrite Et in *; [exact (T _ I2 S)|].
    rewrite <- w32_sub. apply enable_timely; auto. intros S2. rewrite w32_sub. exact (T _ I2 S2).
  - destruct (event_has_fired o); [|injection E as <-; exact (T _ I1 S)]. unfold reset_fired_event in E.
    apply bind_ok in E. destruct E as (? & _ & E). apply bind_ok in E. destruct E as (? & _ & E). injection E as <-. discriminate.
  - destruct (event_has_fired o); [|injection E as <-; exact (T _ I2 S)]. unfold reset_fired_event in E.
    apply bind_ok in E. destruct E as (? & _ & E). apply bind_ok in E. destruct E as (? & _ & E). injection E as <-. discriminate.
  - destruct (sstate_eqb _ _); [injection E as <-; exact (T _ I1 S)|]. apply deschedule_inv in E. destruct E as [(S2 & ->)|(S2 & ->)]; [discriminate|exact (T _ I1 S)].
  - destruct (sstate_eqb _ _); [injection E as <-; exact (T _ I2 S)|]. apply deschedule_inv in E. destruct E as [(S2 & ->)|(S2 & ->)]; [|exact (T _ I2 S)].
    simpl in *. destruct (e_state (o_stop o)) eqn:S3; simpl in S; rewrite ?S3 in S; try discriminate; exact (T _ I2 S3).
Qed.

Lemma timely_run nd y l y' : run nd y l y' -> sys_ok y -> timely y -> timely y'.
Proof. induction 1; auto. intros Y T. apply IHrun; [eapply step_ok; eauto|eapply timely_step; eauto]. Qed.
Lemma timely_start n os : Forall fresh os -> timely (start_sys n os).
Proof.
  intros F e I S. apply in_flat_map in I. destruct I as (o & Io & Ie). rewrite Forall_forall in F. destruct (F o Io) as (S1 & S2 & _).
  simpl in Ie. destruct Ie as [<-|[<-|[]]]; congruence.
Qed.

Lemma run_blocks nd y l y' : run nd y l y' -> y_n y <= y_n y'.
Proof.
  induction 1; [lia|]. assert (y_n y <= y_n y1); [|lia]. clear - H0. destruct a; cbn [step] in H0;
    try (destruct (upd_output _ _ _); [|discriminate]; cbn [bind] in H0; injection H0 as <-; simpl; lia).
  destruct (stm32_buffer_swap _ _ _) as [[d os]|]; [|discriminate]. cbn [bind] in H0. injection H0 as <-. simpl. lia.
Qed.

(** ** A submitted edge stays as it is until its block has been played *)
Lemma committed_run nd y l y' i o s t : run nd y l y' -> sys_ok y -> nth_error (y_outs y) i = Some o -> e_state (which s o) = SUBMITTED ->
  e_time (which s o) = t mod 2 ^ 32 -> y_n y <= t / 128 <= y_n y + 1 -> y_n y' <= t / 128 ->
  exists o', nth_error (y_outs y') i = Some o' /\ which s o' = which s o.
Proof.
  intros R. revert o. induction R as [y|y a y1 l y2 L E R IH]; intros o Y Eo Es Et Hb Hn; [eauto|].
  pose proof (step_ok nd y a y1 Y L E) as Y1. pose proof (run_blocks _ _ _ _ R) as Mo.
  destruct a as [k|k on off|k|k|now].
  5:{ destruct Y as [B F]. pose proof L as [Ot _]. simpl in Ot. cbn [step] in E. destruct (swap_spec now _ _ _ Ot B) as (d' & E2 & _).
      rewrite E2 in E. cbn [bind] in E. injection E as <-. cbn [y_outs y_n] in *.
      assert (Hd : t / 128 = y_n y + 1) by lia.
      assert (Of : offset (d_cur (y_dma y)) (which s o) = t - 128 * y_n y).
      { unfold offset. rewrite (proj2 (bo_cur _ _ _ B)), Et, w32_sub. unfold w32, W. rewrite Zminus_mod_idemp_l. apply Z.mod_small.
        pose proof (Z.div_mod t 128 ltac:(lia)). pose proof (Z.mod_pos_bound t 128 ltac:(lia)). lia. }
      assert (Mv : move SCHEDULED SUBMITTED (empty_buffer (w32 (128 * (y_n y + 2)))) (move SUBMITTED FIRED (d_cur (y_dma y)) (which s o)) = which s o).
      { assert (M1 : move SUBMITTED FIRED (d_cur (y_dma y)) (which s o) = which s o).
        { unfold move. rewrite Es, Of. pose proof (Z.div_mod t 128 ltac:(lia)). pose proof (Z.mod_pos_bound t 128 ltac:(lia)).
          destruct (Z.ltb_spec (t - 128 * y_n y) NUM_SLOTS) as [Hs|_]; [unfold NUM_SLOTS in Hs; lia|reflexivity]. }
        rewrite M1. unfold move. rewrite Es. reflexivity. }
      eapply IH with (o := move_out SCHEDULED SUBMITTED (empty_buffer (w32 (128 * (y_n y + 2)))) (move_out SUBMITTED FIRED (d_cur (y_dma y)) o)) in Y1.
      - destruct Y1 as (o' & A & Bq). exists o'. split; auto. rewrite Bq. destruct s; exact Mv.
      - rewrite map_map, nth_error_map, Eo. reflexivity.
      - destruct s; simpl in *; rewrite Mv; auto.
      - destruct s; simpl in *; rewrite Mv; auto.
      - lia.
      - lia. }
  all: assert (Ny : y_n y1 = y_n y) by (cbn [step] in E; destruct (upd_output _ _ _); [|discriminate]; cbn [bind] in E; injection E as <-; reflexivity).
  all: destruct (final_step nd y _ y1 i o s Y L E ltac:(discriminate) Eo (or_introl Es)) as (o1 & E1 & [(_ & _ & K)|(_ & A1 & A2)]).
  all: try (exfalso; destruct s; simpl in Es; congruence).
  all: specialize (K Es); destruct (IH o1 Y1 E1) as (o2 & E3 & K3); try (rewrite K; auto; fail); try (rewrite ?Ny; auto; fail); exists o2; split; auto; congruence.
Qed.
