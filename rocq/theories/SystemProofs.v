(** Lemmas about the whole-firmware model. *)
Require Import ZArith List Bool Lia.
From Verif Require Import Res Word F32 Arr Outputs Buffers Callbacks Decoder DecoderProofs DecoderRun Calc System.
Import ListNotations.
Open Scope Z_scope.
Ltac Zify.zify_post_hook ::= idtac.

(** ** The plan of System.v followed by an undisturbed commit is the function of Outputs.v *)
Lemma ignition_plan_ok nd E mf d o adv dwell :
  schedule_ignition_event nd E mf d o adv dwell =
  ( ' (o1, plan) <- ignition_plan nd d mf o adv dwell ;;
    match plan with None => Ok (0, o1) | Some (a, b) => Ok (1, schedule_output_event_safely E o1 a b) end).
Proof.
  unfold schedule_ignition_event, ignition_plan. destruct (_ || _); [reflexivity|].
  destruct (clamp_angle _ _); [|reflexivity]. cbn [bind]. destruct (time_from_rpm_diff _ _); [|reflexivity]. cbn [bind].
  destruct (time_from_us dwell); [|reflexivity]. cbn [bind]. destruct (recycle _ _ _ _) as [[o1|]|]; [| |reflexivity]; cbn [bind]; [|reflexivity].
  destruct (moves_too_far _ _ _) as [[|]|]; [reflexivity| |reflexivity]. cbn [bind]. destruct (time_from_us mf); [|reflexivity]. cbn [bind].
  destruct (_ <? _); reflexivity.
Qed.

Lemma fuel_plan_ok nd E now d o pw :
  schedule_fuel_event nd E now d o pw =
  ( ' (o1, plan) <- fuel_plan nd d o pw ;;
    match plan with
    | None => Ok (0, o1, None)
    | Some (a, b) =>
      let o2 := schedule_output_event_safely E o1 a b in
      Ok (1, o2, if sstate_eqb (e_state (o_stop o2)) SCHEDULED && negb (time_before (e_time (o_stop o2)) now)
                 then Some (e_time (o_stop o2)) else None)
    end).
Proof.
  unfold schedule_fuel_event, fuel_plan. destruct (_ || _); [reflexivity|].
  destruct (clamp_angle _ _); [|reflexivity]. cbn [bind]. destruct (time_from_rpm_diff _ _); [|reflexivity]. cbn [bind].
  destruct (recycle _ _ _ _) as [[o1|]|]; [| |reflexivity]; cbn [bind]; [|reflexivity].
  destruct (moves_too_far _ _ _) as [[|]|]; reflexivity.
Qed.

(** ** Which outputs may get a newly scheduled start edge *)
Definition waiting (o : output) : Prop := e_state (o_start o) = SCHEDULED.
Definition calm (os : list output) : Prop := forall o, In o os -> ~ waiting o.
Definition tame (os : list output) : Prop := forall o, In o os -> o_type o = DISABLED_EVENT -> ~ waiting o.

(** [os'] has the types of [os], and only the outputs in [P] may be waiting without having waited in [os]. *)
Definition leq (P : nat -> Prop) (os os' : list output) : Prop :=
  length os' = length os /\
  forall j o', nth_error os' j = Some o' -> exists o, nth_error os j = Some o /\ o_type o' = o_type o /\ (waiting o' -> waiting o \/ P j).
Definition nobody (_ : nat) : Prop := False.

Lemma leq_refl P os : leq P os os.
Proof. split; auto. eauto. Qed.
Lemma leq_trans P a b c : leq P a b -> leq P b c -> leq P a c.
Proof.
  intros [L1 H1] [L2 H2]. split; [congruence|]. intros j o' E. destruct (H2 j o' E) as (o & E1 & T & K).
  destruct (H1 j o E1) as (o0 & E0 & T0 & K0). exists o0. split; auto. split; [congruence|]. intros V. destruct (K V); auto.
Qed.
Lemma leq_weaken (P Q : nat -> Prop) a b : (forall j, P j -> Q j) -> leq P a b -> leq Q a b.
Proof. intros PQ [L H]. split; auto. intros j o' E. destruct (H j o' E) as (o & E1 & T & K). exists o. repeat split; auto. intros V. destruct (K V); auto. Qed.
Lemma leq_nobody Q a b : leq nobody a b -> leq Q a b.
Proof. apply leq_weaken. intros j []. Qed.
Lemma leq_calm a b : leq nobody a b -> calm a -> calm b.
Proof.
  intros [_ H] C o I V. apply In_nth_error in I. destruct I as [j E]. destruct (H j o E) as (o0 & E0 & _ & K).
  destruct (K V) as [V0|[]]. apply (C o0); auto. now apply nth_error_In in E0.
Qed.
Lemma leq_tame (P : nat -> Prop) a b : (forall j o, P j -> nth_error a j = Some o -> o_type o <> DISABLED_EVENT) -> leq P a b -> tame a -> tame b.
Proof.
  intros HP [_ H] C o I Ty V. apply In_nth_error in I. destruct I as [j E]. destruct (H j o E) as (o0 & E0 & T & K).
  destruct (K V) as [V0|Pj]; [|apply (HP j o0); auto; congruence]. apply (C o0); auto; [now apply nth_error_In in E0|congruence].
Qed.
Lemma leq_upd (P : nat -> Prop) os j o o' : nth_error os j = Some o -> o_type o' = o_type o -> (waiting o' -> waiting o \/ P j) -> leq P os (upd_nat os j o').
Proof.
  intros E T K. assert (L : (j < length os)%nat) by (apply nth_error_Some; congruence).
  split; [apply upd_nat_length|]. intros i p Ei. rewrite nth_error_upd in Ei by auto. destruct (Nat.eqb_spec j i) as [->|N].
  - injection Ei as <-. eauto.
  - exists p. auto.
Qed.
Lemma leq_type P a b j o o' : leq P a b -> nth_error a j = Some o -> nth_error b j = Some o' -> o_type o' = o_type o.
Proof. intros [_ H] E E'. destruct (H j o' E') as (x & Ex & T & _). congruence. Qed.

(** ** Swaps *)
Lemma retire_entry_wait b e b' e' : retire_entry b e = Ok (b', e') -> e_state e' = SCHEDULED -> e_state e = SCHEDULED.
Proof.
  unfold retire_entry. destruct (_ && _); [|intros [= <- <-]; auto]. intros H. apply bind_ok in H. destruct H as (x & _ & H).
  injection H as _ <-. discriminate.
Qed.
Lemma populate_entry_wait b e b' e' : populate_entry b e = Ok (b', e') -> e_state e' = SCHEDULED -> e_state e = SCHEDULED.
Proof.
  unfold populate_entry. destruct (_ && _); [|intros [= <- <-]; auto]. intros H. apply bind_ok in H. destruct H as (x & _ & H).
  injection H as _ <-. discriminate.
Qed.
Lemma each_output_leq f os : (forall b e b' e', f b e = Ok (b', e') -> e_state e' = SCHEDULED -> e_state e = SCHEDULED) ->
  forall b b' os', each_output f b os = Ok (b', os') -> leq nobody os os'.
Proof.
  intros F. induction os as [|o os IH]; intros b b' os' H; cbn [each_output] in H.
  - injection H as _ <-. apply leq_refl.
  - apply bind_ok in H. destruct H as ([b1 s] & E1 & H). apply bind_ok in H. destruct H as ([b2 t] & E2 & H).
    apply bind_ok in H. destruct H as ([b3 r] & E3 & H). injection H as _ <-. destruct (IH _ _ _ E3) as [L K].
    split; [simpl; congruence|]. intros [|j] o' E; simpl in E.
    + injection E as <-. exists o. simpl. repeat split; auto. unfold waiting. simpl. eauto.
    + apply K in E. exact E.
Qed.
Lemma swap_leq now d os d' os' : stm32_buffer_swap now d os = Ok (d', os') -> leq nobody os os'.
Proof.
  unfold stm32_buffer_swap. intros H. apply bind_ok in H. destruct H as ([b1 o1] & E1 & H). apply bind_ok in H. destruct H as ([b2 o2] & E2 & H).
  injection H as _ <-. eapply leq_trans; eapply each_output_leq; try eassumption; [apply retire_entry_wait|apply populate_entry_wait].
Qed.
Lemma swaps_leq l : forall d os d' os', swaps l d os = Ok (d', os') -> leq nobody os os'.
Proof.
  induction l as [|now l IH]; intros d os d' os' H; cbn [swaps] in H; [injection H as _ <-; apply leq_refl|].
  apply bind_ok in H. destruct H as ([d1 o1] & E & H). eapply leq_trans; [eapply swap_leq; eauto|eauto].
Qed.

(** ** Frames *)
Section Env.
Variable env : nat -> Z * list Z.
Variable nd : bool.

(** Everything but outputs, buffers, callbacks, calculated values and the point counter. *)
Definition same (w w' : fw) : Prop :=
  w_dc w' = w_dc w /\ w_dec w' = w_dec w /\ w_cc w' = w_cc w /\ w_sens w' = w_sens w /\ w_tip w' = w_tip w /\
  w_simrpm w' = w_simrpm w /\ w_tooth w' = w_tooth w.
Lemma same_refl w : same w w. Proof. unfold same. auto 10. Qed.
Lemma same_trans a b c : same a b -> same b c -> same a c.
Proof. unfold same. intros (A1 & A2 & A3 & A4 & A5 & A6 & A7) (B1 & B2 & B3 & B4 & B5 & B6 & B7). rewrite B1, B2, B3, B4, B5, B6, B7. auto 10. Qed.

(** A frame: [same], the outputs related, and the calculated values and callbacks too. *)
Definition quiet (w w' : fw) : Prop := same w w' /\ leq nobody (w_outs w) (w_outs w') /\ w_vals w' = w_vals w /\ w_cbs w' = w_cbs w.
Lemma quiet_refl w : quiet w w.
Proof. split; [apply same_refl|]. split; [apply leq_refl|]. auto. Qed.
Lemma quiet_trans a b c : quiet a b -> quiet b c -> quiet a c.
Proof.
  intros (A1 & A2 & A3 & A4) (B1 & B2 & B3 & B4). split; [eapply same_trans; eauto|]. split; [eapply leq_trans; eauto|]. split; congruence.
Qed.

Lemma point_quiet w now w' : point env w = Ok (now, w') -> quiet w w'.
Proof.
  unfold point. destruct (env (w_k w)) as [t l]. intros H. apply bind_ok in H. destruct H as ([d os] & E & H). injection H as _ <-.
  split; [unfold same; simpl; auto 10|]. split; [simpl; eapply swaps_leq; eauto|]. auto.
Qed.

Lemma put_out_leq (P : nat -> Prop) w i o w' : put_out w i o = Ok w' ->
  (forall o0, get (w_outs w) i = Ok o0 -> o_type o = o_type o0 /\ (waiting o -> waiting o0 \/ P (Z.to_nat i))) ->
  0 <= i < Z.of_nat (length (w_outs w)) /\ same w w' /\ leq P (w_outs w) (w_outs w') /\ w_vals w' = w_vals w /\ w_cbs w' = w_cbs w /\
  w_outs w' = upd_nat (w_outs w) (Z.to_nat i) o.
Proof.
  unfold put_out. intros H K. apply bind_ok in H. destruct H as (os & E & H). injection H as <-. simpl.
  unfold put in E. destruct (Z.ltb_spec i 0); simpl in E; [discriminate|]. destruct (Z.leb_spec (Z.of_nat (length (w_outs w))) i); [discriminate|].
  injection E as <-. destruct (get_in_range (w_outs w) i ltac:(lia)) as [o0 G]. destruct (K o0 G) as [T V]. apply get_ok in G.
  split; [lia|]. split; [unfold same; simpl; auto 10|]. split; [|auto]. apply leq_upd with (o := o0); tauto.
Qed.

Lemma put_out_quiet w i o w' : put_out w i o = Ok w' ->
  (forall o0, get (w_outs w) i = Ok o0 -> o_type o = o_type o0 /\ (waiting o -> waiting o0)) -> quiet w w'.
Proof.
  intros H K. destruct (put_out_leq nobody w i o w' H) as (R & S & L & V & C & _).
  { intros o0 G. destruct (K o0 G). auto. }
  split; auto.
Qed.

(** ** Cancelling *)
Lemma invalidate_one_spec o o' : invalidate_one nd o = Ok o' ->
  o_type o' = o_type o /\ (waiting o' -> waiting o) /\ (o_type o <> DISABLED_EVENT -> ~ waiting o').
Proof.
  unfold invalidate_one, waiting. destruct (e_state (o_start o)) eqn:S; simpl; intros H;
    try (injection H as <-; rewrite S; repeat split; auto; discriminate).
  all: assert (D : forall H : deschedule_event nd o = Ok o', o_type o' = o_type o /\
      (e_state (o_start o') = SCHEDULED -> e_state (o_start o) = SCHEDULED) /\ e_state (o_start o') <> SCHEDULED);
    [clear H; unfold deschedule_event, sched_entry_disable; rewrite S; simpl; destruct nd; simpl; intros H;
     try (injection H as <-; simpl; rewrite ?S; repeat split; auto; discriminate);
     apply bind_ok in H; destruct H as ([? ?] & _ & H); injection H as <-; simpl; repeat split; auto; discriminate|].
  all: destruct (o_type o) eqn:T; try (destruct (D H) as (D1 & D2 & D3); rewrite ?S in *; repeat split; auto; congruence).
  all: injection H as <-; rewrite S; repeat split; auto; try congruence.
Qed.

Lemma cancel_from_spec n : forall i w w', cancel_from env nd n i w = Ok w' -> 0 <= i ->
  quiet w w' /\ forall j o', i <= Z.of_nat j < i + Z.of_nat n -> nth_error (w_outs w') j = Some o' -> o_type o' <> DISABLED_EVENT -> ~ waiting o'.
Proof.
  induction n as [|n IH]; intros i w w' H Hi; cbn [cancel_from] in H.
  - injection H as <-. split; [apply quiet_refl|]. intros j o' Hj. lia.
  - apply bind_ok in H. destruct H as ([x w1] & E1 & H). apply bind_ok in H. destruct H as (o & E2 & H).
    apply bind_ok in H. destruct H as (o1 & E3 & H). apply bind_ok in H. destruct H as (w2 & E4 & H).
    destruct (invalidate_one_spec _ _ E3) as (T & V & D).
    apply point_quiet in E1.
    destruct (put_out_leq nobody w1 i o1 w2 E4) as (R & S & L & Va & C & U).
    { intros o0 G. rewrite E2 in G. injection G as <-. auto. }
    destruct (IH _ _ _ H ltac:(lia)) as [Q K].
    split; [apply (quiet_trans w w1 w' E1); apply (quiet_trans w1 w2 w'); [split; auto|exact Q]|].
    intros j o' Hj Ej Tj. destruct (Z.eq_dec (Z.of_nat j) i) as [<-|N]; [|apply (K j o'); auto; lia].
    destruct Q as (_ & Lq & _). destruct Lq as [_ Lq]. destruct (Lq j o' Ej) as (o2 & E5 & T5 & V5).
    intros W. destruct (V5 W) as [W2|[]]. rewrite U, Nat2Z.id in E5. rewrite nth_error_upd in E5 by lia. rewrite Nat.eqb_refl in E5. injection E5 as <-.
    apply D; auto. congruence.
Qed.

Lemma cancel_quiet w w' : cancel_outputs env nd w = Ok w' -> quiet w w'.
Proof. intros H. apply (proj1 (cancel_from_spec _ _ _ _ H ltac:(lia))). Qed.

Lemma quiet_tame w w' : quiet w w' -> tame (w_outs w) -> tame (w_outs w').
Proof. intros (_ & L & _). apply leq_tame with (P := nobody); [intros j o []|exact L]. Qed.

Lemma cancel_calm w w' : cancel_outputs env nd w = Ok w' -> length (w_outs w) = MAX_EVENTS -> tame (w_outs w) -> calm (w_outs w').
Proof.
  intros H L T. destruct (cancel_from_spec _ _ _ _ H ltac:(lia)) as [Q K]. pose proof (quiet_tame _ _ Q T) as T'.
  intros o I V. destruct (o_type o) eqn:Ty; [exact (T' o I Ty V)| |];
    (apply In_nth_error in I; destruct I as [j E]; apply (K j o); auto; [|congruence];
     destruct Q as (_ & [L' _] & _); assert (j < length (w_outs w'))%nat by (apply nth_error_Some; congruence); unfold MAX_EVENTS in *; lia).
Qed.

(** ** Scheduling one output *)
Definition only (i : Z) (j : nat) : Prop := Z.of_nat j = i.

Lemma recycle_type d o t o1 : recycle nd d o t = Ok (Some o1) -> o_type o1 = o_type o /\ (waiting o1 -> waiting o).
Proof.
  unfold recycle. destruct (event_has_fired o); [|intros [= <-]; auto]. intros H. apply bind_ok in H. destruct H as (x & _ & H).
  destruct (_ <? _); [discriminate|]. apply bind_ok in H. destruct H as (o' & E & H). injection H as <-.
  unfold reset_fired_event in E. apply bind_ok in E. destruct E as (? & _ & E). apply bind_ok in E. destruct E as (? & _ & E). injection E as <-.
  split; auto. discriminate.
Qed.

Lemma ignition_plan_type d mf o adv dw o1 p : ignition_plan nd d mf o adv dw = Ok (o1, p) -> o_type o1 = o_type o /\ (waiting o1 -> waiting o).
Proof.
  unfold ignition_plan. destruct (_ || _); [intros [= <- _]; auto|]. intros H. apply bind_ok in H. destruct H as (? & _ & H).
  apply bind_ok in H. destruct H as (? & _ & H). apply bind_ok in H. destruct H as (? & _ & H). apply bind_ok in H. destruct H as ([o2|] & Er & H).
  - apply recycle_type in Er. apply bind_ok in H. destruct H as ([|] & _ & H); [injection H as <- _; auto|].
    apply bind_ok in H. destruct H as (? & _ & H). destruct (_ <? _); injection H as <- _; auto.
  - injection H as <- _. auto.
Qed.
Lemma fuel_plan_type d o pw o1 p : fuel_plan nd d o pw = Ok (o1, p) -> o_type o1 = o_type o /\ (waiting o1 -> waiting o).
Proof.
  unfold fuel_plan. destruct (_ || _); [intros [= <- _]; auto|]. intros H. apply bind_ok in H. destruct H as (? & _ & H).
  apply bind_ok in H. destruct H as (? & _ & H). apply bind_ok in H. destruct H as ([o2|] & Er & H).
  - apply recycle_type in Er. apply bind_ok in H. destruct H as ([|] & _ & H); injection H as <- _; auto.
  - injection H as <- _. auto.
Qed.
Lemma commit_type E o a b : o_type (commit_times E o a b) = o_type o.
Proof. unfold commit_times. destruct (event_is_unscheduled o); destruct (sched_entry_enable E (o_start o) a) as [[|] x]; simpl; try reflexivity;
  match goal with |- context [sched_entry_enable E (o_stop o) ?t] => destruct (sched_entry_enable E (o_stop o) t) end; reflexivity. Qed.

(** What [commit_output] and the two schedulers may do. *)
Definition one (i : Z) (w w' : fw) : Prop :=
  same w w' /\ leq (only i) (w_outs w) (w_outs w') /\ w_vals w' = w_vals w.
Lemma one_trans i a b c : one i a b -> one i b c -> one i a c.
Proof. intros (A1 & A2 & A3) (B1 & B2 & B3). split; [eapply same_trans; eauto|]. split; [eapply leq_trans; eauto|congruence]. Qed.
Lemma quiet_one i w w' : quiet w w' -> one i w w'.
Proof. intros (A & B & C & _). split; auto. split; auto. now apply leq_nobody. Qed.

Lemma commit_output_one w i a b w' : commit_output env w i a b = Ok w' -> one i w w' /\ w_cbs w' = w_cbs w.
Proof.
  unfold commit_output. intros H. apply bind_ok in H. destruct H as ([x w1] & E1 & H). apply bind_ok in H. destruct H as (o & E2 & H).
  apply bind_ok in H. destruct H as (w2 & E3 & H). apply bind_ok in H. destruct H as ([y w3] & E4 & H). apply bind_ok in H. destruct H as (o2 & E5 & H).
  apply point_quiet in E1, E4. assert (Q2 : quiet w1 w2).
  { eapply put_out_quiet; [exact E3|]. intros o0 G. rewrite E2 in G. injection G as <-. split; auto. }
  destruct (put_out_leq (only i) w3 i _ w' H) as (R & S & L & V & C & _).
  { intros o0 G. rewrite E5 in G. injection G as <-. rewrite commit_type. split; auto. intros _. right. unfold only.
    apply get_range in E5. lia. }
  split.
  - apply (one_trans i w w3 w'); [|split; auto]. apply quiet_one. eapply quiet_trans; [exact E1|]. eapply quiet_trans; eauto.
  - destruct E1 as (_ & _ & _ & A1), Q2 as (_ & _ & _ & A2), E4 as (_ & _ & _ & A3). congruence.
Qed.

Lemma schedule_ignition_one w i w' : schedule_ignition env nd w i = Ok w' -> one i w w' /\ w_cbs w' = w_cbs w.
Proof.
  unfold schedule_ignition. intros H. apply bind_ok in H. destruct H as ([x w1] & E1 & H). apply bind_ok in H. destruct H as (o & E2 & H).
  apply bind_ok in H. destruct H as ([o1 p] & E3 & H). apply bind_ok in H. destruct H as (w2 & E4 & H).
  apply point_quiet in E1. apply ignition_plan_type in E3. assert (Q2 : quiet w1 w2).
  { eapply put_out_quiet; [exact E4|]. intros o0 G. rewrite E2 in G. injection G as <-. auto. }
  pose proof (quiet_trans _ _ _ E1 Q2) as Q. destruct p as [[a b]|].
  - destruct (commit_output_one _ _ _ _ _ H) as [K1 K2]. split; [|destruct Q as (_ & _ & _ & C); congruence].
    apply (one_trans i w w2 w'); auto. now apply quiet_one.
  - injection H as <-. split; [now apply quiet_one|apply Q].
Qed.

(** The callbacks a scheduler call may have added: only output [i]'s own. *)
Definition cb_by (i : Z) (c c' : cbs) : Prop := c' = c \/ exists t, schedule_callback nd c i t = Ok c'.

Lemma schedule_fuel_one w i w' : schedule_fuel env nd w i = Ok w' -> one i w w' /\ cb_by i (w_cbs w) (w_cbs w').
Proof.
  unfold schedule_fuel. intros H. apply bind_ok in H. destruct H as ([x w1] & E1 & H). apply bind_ok in H. destruct H as (o & E2 & H).
  apply bind_ok in H. destruct H as ([o1 p] & E3 & H). apply bind_ok in H. destruct H as (w2 & E4 & H).
  apply point_quiet in E1. apply fuel_plan_type in E3. assert (Q2 : quiet w1 w2).
  { eapply put_out_quiet; [exact E4|]. intros o0 G. rewrite E2 in G. injection G as <-. auto. }
  pose proof (quiet_trans _ _ _ E1 Q2) as Q. assert (C2 : w_cbs w2 = w_cbs w) by apply Q. destruct p as [[a b]|].
  - apply bind_ok in H. destruct H as (w3 & E5 & H). apply bind_ok in H. destruct H as ([now w4] & E6 & H). apply bind_ok in H. destruct H as (o2 & E7 & H).
    destruct (commit_output_one _ _ _ _ _ E5) as [K1 K2]. apply point_quiet in E6. assert (C4 : w_cbs w4 = w_cbs w) by (destruct E6 as (_ & _ & _ & ?); congruence).
    assert (K : one i w w4). { apply (one_trans i w w3 w4); [|now apply quiet_one]. apply (one_trans i w w2 w3); [now apply quiet_one|auto]. }
    destruct (_ && _).
    + apply bind_ok in H. destruct H as (c & E8 & H). injection H as <-. rewrite C4 in E8. split; [exact K|]. right. eexists. exact E8.
    + injection H as <-. split; auto. left. auto.
  - injection H as <-. split; [now apply quiet_one|left; auto].
Qed.

(** ** Cuts *)
(** Only the three flags of the calculated values change. *)
Definition cuts_only (v v' : cvals) : Prop := exists r b o, v' = set_cuts v r b o.
Lemma cuts_refl v : cuts_only v v.
Proof. exists (cv_rpm_cut v), (cv_boost_cut v), (cv_over_cut v). destruct v. reflexivity. Qed.
Lemma cuts_trans a b c : cuts_only a b -> cuts_only b c -> cuts_only a c.
Proof. intros (r & x & o & ->) (r' & x' & o' & ->). exists r', x', o'. reflexivity. Qed.

Lemma ignition_cut_cuts k rpm s v b v' : ignition_cut k rpm s v = Ok (b, v') -> cuts_only v v'.
Proof.
  unfold ignition_cut, rpm_cut. destruct (negb _); [intros [= _ <-]; unfold cuts_only; eauto|]. intros H. apply bind_ok in H. destruct H as ([o v1] & E & H).
  unfold fuel_overduty in E. apply bind_ok in E. destruct E as (? & _ & E). apply bind_ok in E. destruct E as (? & _ & E). apply bind_ok in E. destruct E as (? & _ & E).
  injection E as _ <-. destruct o; unfold boost_cut in H; injection H as _ <-; do 3 eexists; reflexivity.
Qed.

(** ** One call of schedule_event *)
Definition ev (i : Z) (w w' : fw) : Prop :=
  same w w' /\ leq (only i) (w_outs w) (w_outs w') /\ cuts_only (w_vals w) (w_vals w') /\ cb_by i (w_cbs w) (w_cbs w').

Lemma schedule_event_spec w i w' : schedule_event env nd w i = Ok w' ->
  exists o, get (w_outs w) i = Ok o /\ ev i w w' /\
    match o_type o with
    | DISABLED_EVENT => w' = w
    | _ => exists cut v, ignition_cut (w_cc w) (dd_rpm (w_dec w)) (w_sens w) (w_vals w) = Ok (cut, v) /\ w_vals w' = v /\
           if cut || (dd_valid (w_dec w) =? 0) then cancel_outputs env nd (set_vals w v (w_tip w)) = Ok w'
           else True
    end.
Proof.
  unfold schedule_event. intros H. apply bind_ok in H. destruct H as (o & E & H). exists o. split; auto.
  destruct (o_type o).
  - injection H as <-. split; auto. split; [apply same_refl|]. split; [apply leq_refl|]. split; [apply cuts_refl|now left].
  - apply bind_ok in H. destruct H as ([cut v] & C & H). pose proof (ignition_cut_cuts _ _ _ _ _ _ C) as Cu.
    destruct (cut || _) eqn:Eb.
    + pose proof (cancel_quiet _ _ H) as (S & L & V & B). split.
      * split; [exact S|]. split; [now apply leq_nobody|]. split; [now rewrite V|now left].
      * exists cut, v. simpl in Eb. rewrite Eb. auto.
    + destruct (schedule_fuel_one _ _ _ H) as ((S & L & V) & B). split.
      * split; [exact S|]. split; [exact L|]. split; [now rewrite V|exact B].
      * exists cut, v. simpl in Eb. rewrite Eb. auto.
  - apply bind_ok in H. destruct H as ([cut v] & C & H). pose proof (ignition_cut_cuts _ _ _ _ _ _ C) as Cu.
    destruct (cut || _) eqn:Eb.
    + pose proof (cancel_quiet _ _ H) as (S & L & V & B). split.
      * split; [exact S|]. split; [now apply leq_nobody|]. split; [now rewrite V|now left].
      * exists cut, v. simpl in Eb. rewrite Eb. auto.
    + destruct (schedule_ignition_one _ _ _ H) as ((S & L & V) & B). split.
      * split; [exact S|]. split; [exact L|]. split; [now rewrite V|now left].
      * exists cut, v. simpl in Eb. rewrite Eb. auto.
Qed.

Lemma schedule_event_tame w i w' : schedule_event env nd w i = Ok w' -> tame (w_outs w) -> tame (w_outs w').
Proof.
  intros H T. destruct (schedule_event_spec _ _ _ H) as (o & G & (S & L & _) & M). destruct (o_type o) eqn:Ty; [subst; auto| |];
    (apply (leq_tame (only i) (w_outs w)); auto; intros j p J E; apply get_ok in G; destruct G as [G1 G2];
     unfold only in J; subst i; rewrite Nat2Z.id in G2; congruence).
Qed.
End Env.
