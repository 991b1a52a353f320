(** Executions of the whole firmware and their invariant. *)
Require Import ZArith List Bool Lia.
From Verif Require Import Res Word F32 Arr Outputs Buffers Callbacks CallbackProofs CallbackSafe Decoder DecoderProofs DecoderRun Calc System SystemProofs.
Import ListNotations.
Open Scope Z_scope.
Ltac Zify.zify_post_hook ::= idtac.

(** The console may switch an output off only while it has no pulse waiting (the condition under which
    C54 holds; refuted without it). *)
Definition gentle (w : fw) (e : fev) : Prop :=
  match e with
  | FOutputConfig i DISABLED_EVENT _ _ _ => forall o, get (w_outs w) i = Ok o -> e_state (o_start o) <> SCHEDULED
  | _ => True
  end.

(** Executions from power-on. *)
Inductive freach (env : nat -> Z * list Z) (nd : bool) : fw -> Prop :=
| freach_init dc cc s os : length os = MAX_EVENTS -> (forall o, In o os -> e_state (o_start o) = UNSCHEDULED) ->
    freach env nd (fw_init dc cc s os)
| freach_step w e w' : freach env nd w -> gentle w e -> fstep env nd w e = Ok w' -> freach env nd w'.

Record finv (w : fw) : Prop := {
  fi_len : length (w_outs w) = MAX_EVENTS;
  fi_dec : vinv (w_dec w);
  fi_tame : tame (w_outs w);
  fi_calm : dd_valid (w_dec w) = 0 -> calm (w_outs w);
  fi_cbs : exists ids, cwf 18 (w_cbs w) ids }.

Lemma finv_init dc cc s os : length os = MAX_EVENTS -> (forall o, In o os -> e_state (o_start o) = UNSCHEDULED) -> finv (fw_init dc cc s os).
Proof.
  intros L U. constructor; simpl; auto.
  - split; simpl; auto. congruence.
  - intros o I _ V. unfold waiting in V. rewrite (U o I) in V. discriminate.
  - intros _ o I V. unfold waiting in V. rewrite (U o I) in V. discriminate.
  - exists []. exact (cwf_init 18 ltac:(lia)).
Qed.

(** A change that keeps the invariant: the decoder untouched, no new waiting outputs but enabled ones
    while the position is valid. *)
Lemma cb_by_cwf nd i c c' ids : 0 <= i < 18 -> cwf 18 c ids -> cb_by nd i c c' -> exists ids', cwf 18 c' ids' /\ (forall j, In j ids' -> j = i \/ In j ids) /\
  (forall j, In j ids -> In j ids') /\ (forall j, 0 <= j < 18 -> j <> i -> get (cb_time c') j = get (cb_time c) j).
Proof.
  intros Hi C [->|(t & E)].
  - exists ids. auto.
  - destruct (cwf_schedule nd 18 c ids i t ltac:(lia) C Hi) as (c1 & l & E1 & C1 & M & T). rewrite E1 in E. injection E as <-.
    exists l. split; auto. split; [apply M|]. split; [intros j J; apply M; auto|]. intros j Hj N. rewrite T by auto. destruct (Z.eqb_spec i j); [congruence|auto].
Qed.

Section Env.
Variable env : nat -> Z * list Z.
Variable nd : bool.

Lemma quiet_finv w w' : quiet w w' -> finv w -> finv w'.
Proof.
  intros Q I. pose proof Q as ((S1 & S2 & _) & L & V & C). constructor.
  - destruct L as [L _]. rewrite L. apply (fi_len _ I).
  - rewrite S2. apply (fi_dec _ I).
  - eapply quiet_tame; [exact Q|apply (fi_tame _ I)].
  - rewrite S2. intros Z. eapply leq_calm; [exact L|apply (fi_calm _ I Z)].
  - rewrite C. apply (fi_cbs _ I).
Qed.

Lemma cancel_finv w w' : cancel_outputs env nd w = Ok w' -> length (w_outs w) = MAX_EVENTS -> vinv (w_dec w) -> tame (w_outs w) ->
  (exists ids, cwf 18 (w_cbs w) ids) -> finv w' /\ calm (w_outs w').
Proof.
  intros H L V T C. pose proof (cancel_calm env nd w w' H L T) as K. pose proof (cancel_quiet env nd w w' H) as Q.
  pose proof Q as ((S1 & S2 & _) & Lq & _ & C'). split; auto. constructor; auto.
  - destruct Lq as [Lq _]. congruence.
  - now rewrite S2.
  - eapply quiet_tame; eauto.
  - rewrite C'. exact C.
Qed.

Lemma schedule_event_finv w i w' : schedule_event env nd w i = Ok w' -> finv w -> finv w'.
Proof.
  intros H I. pose proof (schedule_event_tame env nd w i w' H (fi_tame _ I)) as T.
  destruct (schedule_event_spec env nd w i w' H) as (o & G & ((S1 & S2 & _) & L & _ & C) & M).
  pose proof (get_range _ _ _ G) as R. rewrite (fi_len _ I) in R. unfold MAX_EVENTS in R.
  assert (L' : length (w_outs w') = MAX_EVENTS) by (destruct L as [L _]; rewrite L; apply (fi_len _ I)).
  constructor; auto.
  - rewrite S2. apply (fi_dec _ I).
  - rewrite S2. intros Z. destruct (o_type o); [subst; apply (fi_calm _ I Z)| |].
    all: destruct M as (cut & v & _ & _ & M); rewrite Z in M; cbn in M; rewrite orb_true_r in M.
    all: destruct (cancel_finv _ _ M) as [_ K]; auto; simpl; [apply (fi_len _ I)|apply (fi_dec _ I)|apply (fi_tame _ I)|apply (fi_cbs _ I)].
  - destruct (fi_cbs _ I) as (ids & C0). destruct (cb_by_cwf nd i _ _ ids ltac:(lia) C0 C) as (l & C1 & _). eauto.
Qed.

Lemma schedule_event_frame w i w' : schedule_event env nd w i = Ok w' -> finv w ->
  same w w' /\ cuts_only (w_vals w) (w_vals w') /\ cb_by nd i (w_cbs w) (w_cbs w') /\ 0 <= i < 16.
Proof.
  intros H I. destruct (schedule_event_spec env nd w i w' H) as (o & G & (S & L & V & C) & _).
  pose proof (get_range _ _ _ G) as R. rewrite (fi_len _ I) in R. auto.
Qed.

(** Callback objects from 16 on keep their deadline and stay pending. *)
Definition keeps_high (c c' : cbs) : Prop :=
  forall ids, cwf 18 c ids -> exists ids', cwf 18 c' ids' /\ forall j, 16 <= j < 18 -> (In j ids' <-> In j ids) /\ get (cb_time c') j = get (cb_time c) j.
Lemma keeps_high_refl c : keeps_high c c.
Proof. intros ids C. exists ids. split; auto. tauto. Qed.
Lemma keeps_high_trans a b c : keeps_high a b -> keeps_high b c -> keeps_high a c.
Proof.
  intros A B ids C. destruct (A ids C) as (i1 & C1 & K1). destruct (B i1 C1) as (i2 & C2 & K2). exists i2. split; auto.
  intros j Hj. destruct (K1 j Hj), (K2 j Hj). split; [tauto|congruence].
Qed.
Lemma cb_by_high i c c' : 0 <= i < 16 -> cb_by nd i c c' -> keeps_high c c'.
Proof.
  intros Hi B ids C. destruct (cb_by_cwf nd i c c' ids ltac:(lia) C B) as (l & C1 & M1 & M2 & T). exists l. split; auto.
  intros j Hj. split; [split; auto; intros J; destruct (M1 j J); [lia|auto]|apply T; lia].
Qed.

Lemma schedule_from_finv n : forall i w w', schedule_from env nd n i w = Ok w' -> finv w ->
  finv w' /\ same w w' /\ cuts_only (w_vals w) (w_vals w') /\ keeps_high (w_cbs w) (w_cbs w').
Proof.
  induction n as [|n IH]; intros i w w' H I; cbn [schedule_from] in H.
  - injection H as <-. split; auto. split; [apply same_refl|]. split; [apply cuts_refl|apply keeps_high_refl].
  - apply bind_ok in H. destruct H as (w1 & E & H). destruct (schedule_event_frame _ _ _ E I) as (S & V & B & R).
    destruct (IH _ _ _ H (schedule_event_finv _ _ _ E I)) as (F & S' & V' & K). split; auto. split; [eapply same_trans; eauto|].
    split; [eapply cuts_trans; eauto|]. eapply keeps_high_trans; [|exact K]. eapply cb_by_high; eauto.
Qed.

(** ** The decoder's effects *)
Lemma effects_spec fx : forall w w', effects env nd fx w = Ok w' -> length (w_outs w) = MAX_EVENTS -> tame (w_outs w) -> (exists ids, cwf 18 (w_cbs w) ids) ->
  same w w' /\ leq nobody (w_outs w) (w_outs w') /\ w_vals w' = w_vals w /\ (In CancelOutputs fx -> calm (w_outs w')) /\
  (exists ids, cwf 18 (w_cbs w') ids /\ forall e, fx = [SetExpire e] -> In EXPIRE_CB ids /\ get (cb_time (w_cbs w')) EXPIRE_CB = Ok e).
Proof.
  induction fx as [|[t|] fx IH]; intros w w' H L T (ids & C); cbn [effects] in H.
  - injection H as <-. split; [apply same_refl|]. split; [apply leq_refl|]. split; auto. split; [intros []|]. exists ids. split; auto. discriminate.
  - destruct (cwf_schedule nd 18 (w_cbs w) ids EXPIRE_CB t ltac:(lia) C ltac:(unfold EXPIRE_CB; lia)) as (c & l & E & C1 & M & Tm).
    rewrite E in H. cbn [bind] in H.
    destruct (IH (set_cbs w c) w' H L T (ex_intro _ l C1)) as (S & Lq & V & K & l2 & C2 & P).
    split; [exact S|]. split; [exact Lq|]. split; [exact V|]. split; [intros [|J]; [discriminate|auto]|].
    exists l2. split; [exact C2|]. intros e [= -> ->]. cbn [effects] in H. injection H as <-. cbn [set_cbs w_cbs] in *.
    rewrite Tm by (unfold EXPIRE_CB; lia). rewrite Z.eqb_refl. split; auto.
    destruct (in_dec Z.eq_dec EXPIRE_CB l2) as [|N]; auto. exfalso. pose proof (cw_flag _ _ _ C2 EXPIRE_CB ltac:(unfold EXPIRE_CB; lia)) as F2.
    pose proof (cw_flag _ _ _ C1 EXPIRE_CB ltac:(unfold EXPIRE_CB; lia)) as F1.
    destruct (in_dec Z.eq_dec EXPIRE_CB l2); [tauto|]. destruct (in_dec Z.eq_dec EXPIRE_CB l) as [|N2]; [rewrite F1 in F2; discriminate|].
    apply N2, M. auto.
  - apply bind_ok in H. destruct H as (w1 & E & H). pose proof (cancel_quiet env nd _ _ E) as Q. pose proof (cancel_calm env nd _ _ E L T) as K.
    pose proof Q as (S1 & L1 & V1 & C1).
    destruct (IH w1 w' H) as (S & Lq & V & Ka & l2 & C2 & P).
    + destruct L1 as [L1 _]. congruence.
    + eapply quiet_tame; eauto.
    + rewrite C1. eauto.
    + split; [eapply same_trans; eauto|]. split; [eapply leq_trans; eauto|]. split; [congruence|]. split; [intros _; eapply leq_calm; eauto|].
      exists l2. split; auto. discriminate.
Qed.

(** ** One trigger *)
Lemma trigger_finv w n t w' : decoder_update_scheduling env nd w n t = Ok w' -> finv w ->
  finv w' /\ exists d fx, decoder_trigger (w_dc w) (w_dec w) n t = Ok (d, fx) /\ w_dec w' = d /\ w_dc w' = w_dc w /\ w_cc w' = w_cc w /\ w_sens w' = w_sens w /\
    w_simrpm w' = w_simrpm w /\
    forall e, fx = [SetExpire e] -> exists ids, cwf 18 (w_cbs w') ids /\ In EXPIRE_CB ids /\ get (cb_time (w_cbs w')) EXPIRE_CB = Ok e.
Proof.
  unfold decoder_update_scheduling. intros H I. apply bind_ok in H. destruct H as ([d fx] & E & H). apply bind_ok in H. destruct H as (w1 & E1 & H).
  assert (De : vinv d /\ (dd_valid d = 0 -> dd_valid (w_dec w) = 0 \/ In CancelOutputs fx)).
  { change (dstep (w_dc w) (w_dec w) (Trigger n t) = Ok (d, fx)) in E. split; [eapply dstep_vinv; [apply (fi_dec _ I)|exact E]|].
    rewrite trigger_decode in E. destruct (decode_step _ _ _ _ _ _ (counted_vinv _ n (fi_dec _ I)) E) as (_ & K & _).
    destruct (counted_same (w_dec w) n) as (K1 & _). rewrite K1 in K. intros Z. destruct (Z.eq_dec (dd_valid (w_dec w)) 0) as [|N]; auto. right.
    destruct (K N) as [[K2 _]|K2]; [congruence|apply K2]. }
  destruct De as [Vd Cd].
  destruct (effects_spec fx (set_dec w d) w1 E1 (fi_len _ I) (fi_tame _ I) (fi_cbs _ I)) as ((S1 & S2 & S3 & S4 & S5 & S6 & S7) & L & V & K & ids & C & P).
  simpl in S1, S2, S3, S4, S5, S6, S7, L, V.
  assert (I1 : finv w1).
  { constructor.
    - destruct L as [L _]. rewrite L. apply (fi_len _ I).
    - now rewrite S2.
    - apply (leq_tame nobody (w_outs w)); [intros j o []|exact L|apply (fi_tame _ I)].
    - rewrite S2. intros Z. destruct (Cd Z) as [Z0|Z0]; [eapply leq_calm; [exact L|apply (fi_calm _ I Z0)]|auto].
    - exists ids. exact C. }
  destruct (dd_valid (w_dec w1) =? 0) eqn:Ev.
  - injection H as <-. split; auto. exists d, fx. split; [exact E|]. split; [exact S2|]. split; [exact S1|]. split; [exact S3|]. split; [exact S4|]. split; [exact S6|].
    intros e Fe. exists ids. destruct (P e Fe). auto.
  - apply bind_ok in H. destruct H as (v & _ & H). apply bind_ok in H. destruct H as ([now w2] & E2 & H). apply bind_ok in H. destruct H as ([v2 c2] & _ & H).
    apply point_quiet in E2. pose proof (quiet_finv _ _ E2 I1) as I2. destruct E2 as ((R1 & R2 & R3 & R4 & R5 & R6 & R7) & L2 & V2 & C2).
    assert (I3 : finv (set_vals w2 v2 c2)). { destruct I2. constructor; auto. }
    destruct (schedule_from_finv _ _ _ _ H I3) as (F & (T1 & T2 & T3 & T4 & T5 & T6 & T7) & _ & KH). simpl in T1, T2, T3, T4, T5, T6, T7, KH.
    split; auto. exists d, fx. split; auto. split; [congruence|]. split; [congruence|]. split; [congruence|]. split; [congruence|]. split; [congruence|].
    intros e Fe. destruct (P e Fe) as [P1 P2]. rewrite C2 in KH. destruct (KH ids C) as (l & Cl & Kl). exists l. split; auto.
    destruct (Kl EXPIRE_CB ltac:(unfold EXPIRE_CB; lia)) as [K1 K2]. split; [tauto|congruence].
Qed.

Lemma lose_finv w d w' : lose_position env nd w d = Ok w' -> vinv d -> finv w -> finv w' /\ w_dec w' = d /\ calm (w_outs w').
Proof.
  unfold lose_position. intros H V I. destruct (cancel_finv _ _ H) as [F K]; simpl; auto; [apply (fi_len _ I)|apply (fi_tame _ I)|apply (fi_cbs _ I)|].
  split; auto. split; auto. pose proof (cancel_quiet env nd _ _ H) as ((_ & S & _) & _). exact S.
Qed.

Lemma invalidate_vinv d : vinv (invalidate_decoder d).
Proof. split; simpl; auto. congruence. Qed.

Lemma set_cbs_finv w c ids : finv w -> cwf 18 c ids -> finv (set_cbs w c).
Proof. intros [A B C D E] K. constructor; simpl; auto. eauto. Qed.

Lemma test_finv w w' : execute_test_trigger env nd w = Ok w' -> finv w -> finv w'.
Proof.
  unfold execute_test_trigger. intros H I. destruct (w_simrpm w =? 0); [injection H as <-; auto|].
  apply bind_ok in H. destruct H as (t & _ & H). destruct (test_wheel_next _ _) as [[deg tr] tooth].
  apply bind_ok in H. destruct H as (w1 & E & H). apply bind_ok in H. destruct H as (dl & _ & H). apply bind_ok in H. destruct H as (c & Ec & H). injection H as <-.
  assert (I0 : finv (set_sim w (w_simrpm w) tooth)) by (destruct I; constructor; auto).
  destruct (trigger_finv _ _ _ _ E I0) as [I1 _]. destruct (fi_cbs _ I1) as (ids & C).
  destruct (cwf_schedule nd 18 _ ids TEST_CB (w32 (t + dl)) ltac:(lia) C ltac:(unfold TEST_CB; lia)) as (c1 & l & E1 & C1 & _). rewrite E1 in Ec. injection Ec as <-.
  eapply set_cbs_finv; eauto.
Qed.

Lemma callback_finv w cb w' : callback env nd w cb = Ok w' -> finv w -> finv w'.
Proof.
  unfold callback. intros H I. destruct (cb =? EXPIRE_CB).
  - apply (lose_finv _ _ _ H); auto. apply invalidate_vinv.
  - destruct (cb =? TEST_CB); [eapply test_finv|eapply schedule_event_finv]; eauto.
Qed.

Lemma head_pending k s ids cb : cwf k s ids -> 0 < cb_n s -> get (cb_arr s) 0 = Ok cb -> In cb ids.
Proof.
  intros C N G. destruct (cw_arr _ _ _ C) as (rest & Ea & _). rewrite (cw_n _ _ _ C) in N. destruct ids as [|x ids]; [simpl in N; lia|].
  rewrite Ea in G. injection G as ->. now left.
Qed.

(** With nothing pending the interrupt handler does not survive (C55), so a completed interrupt had something to run. *)
Lemma empty_interrupt w : (exists ids, cwf 18 (w_cbs w) ids) -> cb_n (w_cbs w) <= 0 -> forall w', timer_interrupt env nd w <> Ok w'.
Proof.
  intros (ids & C) N w' H. unfold timer_interrupt in H. apply bind_ok in H. destruct H as ([] & A & H). apply bind_ok in H. destruct H as (cb & G & H).
  apply bind_ok in H. destruct H as ([now w1] & E & H). apply bind_ok in H. destruct H as (u & _ & H). apply bind_ok in H. destruct H as (c & R & H).
  apply point_quiet in E. destruct E as (_ & _ & _ & C1). rewrite C1 in R. pose proof (cwf_count _ _ _ C). assert (Z : cb_n (w_cbs w) = 0) by lia.
  unfold callback_remove in R. rewrite Z in R. cbn [Z.to_nat find_ptr shift_down] in R. change (0 <? 0) with false in R. cbn [bind] in R.
  apply bind_ok in R. destruct R as (u1 & _ & R). change (0 <? 0 - 1) with false in R. cbn [bind] in R.
  unfold put at 1 in R. change (0 - 1 <? 0) with true in R. cbn [orb bind] in R. discriminate.
Qed.

Lemma timer_finv w w' : timer_interrupt env nd w = Ok w' -> finv w -> finv w' /\
  exists cb c w1 now, get (cb_arr (w_cbs w)) 0 = Ok cb /\ point env w = Ok (now, w1) /\ callback_remove nd (w_cbs w1) cb = Ok c /\
    exists w2, callback env nd (set_cbs w1 c) cb = Ok w2 /\ same w2 w' /\ w_outs w' = w_outs w2 /\ w_vals w' = w_vals w2 /\ finv (set_cbs w1 c).
Proof.
  intros H I. assert (N : 0 < cb_n (w_cbs w)).
  { destruct (Z.lt_ge_cases 0 (cb_n (w_cbs w))) as [|N]; auto. exfalso. exact (empty_interrupt w (fi_cbs _ I) N w' H). }
  unfold timer_interrupt in H. apply bind_ok in H. destruct H as ([] & A & H). apply bind_ok in H. destruct H as (cb & G & H).
  apply bind_ok in H. destruct H as ([now w1] & E & H). apply bind_ok in H. destruct H as (u & _ & H). apply bind_ok in H. destruct H as (c & R & H).
  apply bind_ok in H. destruct H as (w2 & E2 & H).
  pose proof (quiet_finv _ _ (point_quiet _ _ _ _ E) I) as I1. pose proof (point_quiet _ _ _ _ E) as (_ & _ & _ & C1).
  destruct (fi_cbs _ I1) as (ids & C). rewrite <- C1 in N, G. pose proof (head_pending _ _ _ _ C N G) as Hh.
  destruct (cwf_remove nd 18 _ ids cb C Hh) as (c1 & l1 & l2 & R1 & Ei & Cr & _). rewrite R1 in R. injection R as <-.
  assert (Ic : finv (set_cbs w1 c1)) by (eapply set_cbs_finv; eauto).
  pose proof (callback_finv _ _ _ E2 Ic) as I2.
  assert (K : same w2 w' /\ w_outs w' = w_outs w2 /\ w_vals w' = w_vals w2 /\ finv w').
  { destruct (Z.ltb_spec 0 (cb_n (w_cbs w2))) as [N2|N2].
    - apply bind_ok in H. destruct H as (c3 & Ea & H). injection H as <-. split; [unfold same; simpl; auto 10|]. split; auto. split; auto.
      destruct (fi_cbs _ I2) as (ids2 & Cb). destruct (cwf_arm 18 _ ids2 Cb) as (c4 & E4 & C4 & _).
      { intros ->. rewrite (cw_n _ _ _ Cb) in N2. simpl in N2. lia. }
      rewrite E4 in Ea. injection Ea as <-. eapply set_cbs_finv; eauto.
    - injection H as <-. split; [apply same_refl|]. auto. }
  destruct K as (K1 & K2 & K3 & K4). split; auto. rewrite C1 in G. exists cb, c1, w1, now. split; auto. split; auto. split; auto. exists w2. auto 10.
Qed.

(** ** Every step *)
Lemma fstep_finv w e w' : fstep env nd w e = Ok w' -> gentle w e -> finv w -> finv w'.
Proof.
  intros H G I. destruct e; cbn [fstep] in H.
  - exact (proj1 (trigger_finv _ _ _ _ H I)).
  - exact (proj1 (timer_finv _ _ H I)).
  - apply (lose_finv _ _ _ H); auto. apply invalidate_vinv.
  - apply bind_ok in H. destruct H as ([now w1] & E & H). injection H as <-. eapply quiet_finv; [eapply point_quiet; eauto|auto].
  - injection H as <-. destruct I; constructor; auto.
  - injection H as <-. destruct I; constructor; auto.
  - injection H as <-. destruct I; constructor; auto.
  - apply bind_ok in H. destruct H as (o & Eo & H). unfold put_out in H. apply bind_ok in H. destruct H as (os & Ep & H). injection H as <-.
    pose proof (get_range _ _ _ Eo) as R. rewrite put_ok in Ep by auto. injection Ep as <-. apply get_ok in Eo as Eo'. destruct Eo' as [_ Eo'].
    assert (NW : forall p, In p (upd_nat (w_outs w) (Z.to_nat i) (Output ty angle pin inv (o_start o) (o_stop o))) ->
       In p (w_outs w) \/ (o_type p = ty /\ o_start p = o_start o)).
    { intros p J. apply In_nth_error in J. destruct J as [j J]. rewrite nth_error_upd in J by lia. destruct (Nat.eqb (Z.to_nat i) j); [injection J as <-; auto|].
      left. now apply nth_error_In in J. }
    assert (IO : In o (w_outs w)) by (now apply nth_error_In in Eo').
    constructor; simpl; [rewrite upd_nat_length; apply (fi_len _ I)|apply (fi_dec _ I)| | |apply (fi_cbs _ I)].
    + intros p J T V. destruct (NW p J) as [K|[K1 K2]]; [exact (fi_tame _ I p K T V)|]. subst ty. unfold waiting in V. rewrite K2 in V.
      rewrite T in G. simpl in G. exact (G o Eo V).
    + intros Z p J V. destruct (NW p J) as [K|[K1 K2]]; [exact (fi_calm _ I Z p K V)|]. unfold waiting in V. rewrite K2 in V. exact (fi_calm _ I Z o IO V).
  - apply bind_ok in H. destruct H as ([now w1] & E & H). apply bind_ok in H. destruct H as (c & Ec & H). injection H as <-.
    pose proof (quiet_finv _ _ (point_quiet _ _ _ _ E) I) as I1. destruct (fi_cbs _ I1) as (ids & C).
    destruct (cwf_schedule nd 18 _ ids TEST_CB (w32 (now + 10000)) ltac:(lia) C ltac:(unfold TEST_CB; lia)) as (c1 & l & E1 & C1 & _). rewrite E1 in Ec. injection Ec as <-.
    pose proof (set_cbs_finv w1 c1 l I1 C1) as I2. destruct I2. constructor; auto.
  - destruct (cancel_finv _ _ H); auto; [apply (fi_len _ I)|apply (fi_dec _ I)|apply (fi_tame _ I)|apply (fi_cbs _ I)].
Qed.

Lemma freach_finv w : freach env nd w -> finv w.
Proof. induction 1; [now apply finv_init|eapply fstep_finv; eauto]. Qed.
End Env.
