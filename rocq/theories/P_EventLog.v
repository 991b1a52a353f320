(** C43: the event log is a loss-aware FIFO. *)
Require Import ZArith List Bool Lia.
From Verif Require Import Res Word Arr EventLog EventLogSpec EventLogProofs DecoderProofs.
Import ListNotations.
Open Scope Z_scope.
Ltac Zify.zify_post_hook ::= idtac.

Lemma log_run_happened acts : forall p l p' l' h, log_run acts p l = Ok (p', l', h) -> happened h = events_of acts.
Proof.
  induction acts as [|[ev| |b] acts IH]; intros p l p' l' h; cbn [log_run events_of].
  - intros H. injection H as <- <- <-. reflexivity.
  - intros H. apply bind_ok in H as (l1 & E1 & H). apply bind_ok in H as ([[q1 l2] os] & E2 & H).
    injection H as <- <- <-. cbn [happened]. f_equal. eauto.
  - intros H. apply bind_ok in H as ([p1 l1] & E1 & H). apply bind_ok in H as ([[q1 l2] os] & E2 & H).
    injection H as <- <- <-. destruct p; cbn [happened]; eauto.
  - intros H. apply bind_ok in H as ([[q1 l2] os] & E2 & H).
    injection H as <- <- <-. destruct p; cbn [happened]; eauto.
Qed.

(** Whatever the schedule of the interrupt handlers and of the main loop's
    individual memory accesses, nothing goes wrong, every event is accounted
    for, and the host receives the kept events: in the order they were
    recorded, none twice, none torn, none missing except the at most 31 last
    ones still pending. *)
Theorem C43_order : forall acts, exists p l h,
  log_run acts RIdle elog_init = Ok (p, l, h) /\
  happened h = events_of acts /\
  exists pending, map numbered (kept true 0 0 h) = received h ++ pending /\ (length pending <= CAPACITY)%nat.
Proof.
  intros acts. destruct (run_spec acts true RIdle elog_init 0 [] 0 log_inv_init I) as (p & l & h & E & rest & Heq & r' & Hl & Hp).
  exists p, l, h. split; [exact E|]. split; [eapply log_run_happened; eauto|]. exists rest. split; [exact Heq|].
  destruct Hl as (_ & _ & _ & _ & Hq & _). exact Hq.
Qed.
Print Assumptions C43_order.

Lemma kept_lower h : forall on n p i e, In (i, e) (kept on n p h) -> (n <= i)%nat.
Proof.
  induction h as [|[ev|ev|b] h IH]; intros on n p i e; cbn [kept]; [contradiction| |eauto|eauto].
  destruct on; [|eauto]. destruct (Nat.eqb p CAPACITY); [intros H; apply IH in H; lia|].
  intros [H|H]; [injection H as <- <-; lia|]. apply IH in H. lia.
Qed.

Lemma dropped_lower h : forall on n p i, In i (dropped on n p h) -> (n <= i)%nat.
Proof.
  induction h as [|[ev|ev|b] h IH]; intros on n p i; cbn [dropped]; [contradiction| |eauto|eauto].
  destruct on; [|eauto]. destruct (Nat.eqb p CAPACITY); [|intros H; apply IH in H; lia].
  intros [<-|H]; [lia|]. apply IH in H. lia.
Qed.

Lemma kept_or_dropped h : forall on n p i, (n <= i < n + length (recorded on h))%nat ->
  (In i (map fst (kept on n p h)) /\ ~ In i (dropped on n p h)) \/ (In i (dropped on n p h) /\ ~ In i (map fst (kept on n p h))).
Proof.
  induction h as [|[ev|ev|b] h IH]; intros on n p i Hi; cbn [recorded kept dropped] in *; [cbn in Hi; lia| |apply IH; exact Hi|apply IH; exact Hi].
  destruct on; [|apply IH; exact Hi]. cbn [length] in Hi.
  destruct (Nat.eqb p CAPACITY) eqn:Ep; cbn [map fst In].
  - destruct (Nat.eq_dec n i) as [<-|Hne].
    + right. split; [auto|]. intros H. apply in_map_iff in H as ([j e] & Hj & H). cbn in Hj. subst j. apply kept_lower in H. lia.
    + destruct (IH true (S n) p i ltac:(lia)) as [[A B]|[A B]]; [left|right]; split; auto. intros [H|H]; [congruence|auto].
  - destruct (Nat.eq_dec n i) as [<-|Hne].
    + left. split; [auto|]. intros H. apply dropped_lower in H. lia.
    + destruct (IH true (S n) (S p) i ltac:(lia)) as [[A B]|[A B]]; [left|right]; split; auto. intros [H|H]; [congruence|auto].
Qed.

Lemma kept_is_recorded h : forall on n p i e, In (i, e) (kept on n p h) -> nth_error (recorded on h) (i - n) = Some e.
Proof.
  induction h as [|[ev|ev|b] h IH]; intros on n p i e; cbn [kept recorded]; [contradiction| |apply IH|apply IH].
  destruct on; [|apply IH]. destruct (Nat.eqb p CAPACITY).
  - intros H. pose proof (kept_lower _ _ _ _ _ _ H). apply IH in H. replace (i - n)%nat with (S (i - S n)) by lia. exact H.
  - intros [H|H].
    + injection H as <- <-. now rewrite Nat.sub_diag.
    + pose proof (kept_lower _ _ _ _ _ _ H). apply IH in H. replace (i - n)%nat with (S (i - S n)) by lia. exact H.
Qed.

(** The list of kept numbers is increasing. *)
Fixpoint increasing (l : list nat) : Prop :=
  match l with
  | [] => True
  | i :: l => (forall j, In j l -> (i < j)%nat) /\ increasing l
  end.

Lemma kept_increasing h : forall on n p, increasing (map fst (kept on n p h)).
Proof.
  induction h as [|[ev|ev|b] h IH]; intros on n p; cbn [kept]; [exact I| |auto|auto].
  destruct on; [|auto]. destruct (Nat.eqb p CAPACITY); [auto|]. cbn [map fst increasing]. split; [|auto].
  intros j H. apply in_map_iff in H as ([k e] & Hk & H). cbn in Hk. subst k. apply kept_lower in H. lia.
Qed.

(** Sequence numbers count the events that happen while logging is on: those of
    two received events, earlier and later, differ by one plus the number of such events between
    them, and the events between two consecutive received ones are exactly the
    ones dropped because 31 were pending. *)
Theorem C43_gaps : forall acts p l h, log_run acts RIdle elog_init = Ok (p, l, h) ->
  exists numbers : list nat,
    increasing numbers /\
    map lg_seq (received h) = map (fun i => Z.of_nat i mod 2 ^ 32) numbers /\
    (forall k i x, nth_error numbers k = Some i -> nth_error (received h) k = Some x ->
       exists ev, nth_error (recorded true h) i = Some ev /\
         lg_time x = lg_time ev /\ lg_type x = lg_type ev /\ lg_value x = lg_value ev) /\
    (forall k a b, nth_error numbers k = Some a -> nth_error numbers (S k) = Some b ->
       forall i, (a < i < b)%nat -> In i (dropped true 0 0 h)) /\
    (forall i, In i numbers -> ~ In i (dropped true 0 0 h)).
Proof.
  intros acts p l h E.
  destruct (C43_order acts) as (p0 & l0 & h0 & E0 & _ & pend & Heq & _).
  rewrite E in E0. injection E0 as <- <- <-.
  set (K := kept true 0 0 h) in *.
  assert (Hsplit : exists K1 K2, K = K1 ++ K2 /\ map numbered K1 = received h).
  { exists (firstn (length (received h)) K), (skipn (length (received h)) K). split; [symmetry; apply firstn_skipn|].
    rewrite <- firstn_map, Heq. rewrite firstn_app, Nat.sub_diag, firstn_O, app_nil_r. apply firstn_all. }
  destruct Hsplit as (K1 & K2 & HK & HK1).
  assert (Hinc : increasing (map fst K1 ++ map fst K2)) by (rewrite <- map_app, <- HK; apply kept_increasing).
  assert (Hinc1 : forall A B, increasing (A ++ B) -> increasing A).
  { induction A as [|x A IH]; intros B H; [exact I|]. cbn in *. destruct H as [H1 H2]. split; [|eauto]. intros j Hj. apply H1, in_app_iff; auto. }
  exists (map fst K1). split; [exact (Hinc1 _ _ Hinc)|]. split.
  { rewrite <- HK1, !map_map. apply map_ext. intros [i e]. reflexivity. }
  split.
  { intros k i x Hk Hx. rewrite <- HK1 in Hx. rewrite nth_error_map in Hk, Hx.
    destruct (nth_error K1 k) as [[i' e]|] eqn:Ek; [|discriminate]. cbn in Hk, Hx. injection Hk as <-. injection Hx as <-.
    exists e. split; [|cbn; auto]. rewrite <- (Nat.sub_0_r i'). apply kept_is_recorded with (p := 0%nat).
    change (kept true 0 0 h) with K. rewrite HK. apply in_app_iff. left. eapply nth_error_In; eauto. }
  split.
  { intros k a b Ha Hb i Hi.
    assert (Hlen : (b < length (recorded true h))%nat).
    { apply nth_error_In in Hb. apply in_map_iff in Hb as ([b' e] & <- & Hb). cbn.
      assert (In (b', e) K) by (rewrite HK; apply in_app_iff; auto). apply kept_is_recorded in H. rewrite Nat.sub_0_r in H.
      apply nth_error_Some. congruence. }
    destruct (kept_or_dropped h true 0 0 i ltac:(lia)) as [[A _]|[A _]]; [|exact A]. exfalso.
    change (kept true 0 0 h) with K in A. rewrite HK, map_app in A.
    clear - Ha Hb Hi A Hinc. revert k Ha Hb. induction (map fst K1) as [|x L IH]; intros k Ha Hb; [destruct k; discriminate|].
    cbn [app increasing] in Hinc. destruct Hinc as [H1 H2]. destruct k as [|k]; cbn [nth_error] in Ha, Hb.
    - injection Ha as ->. destruct L as [|y L]; [discriminate|]. cbn [nth_error] in Hb. injection Hb as ->.
      cbn [app In] in A. destruct A as [A|[A|A]]; [lia|lia|]. cbn [app increasing] in H2. destruct H2 as [H2 _]. apply H2 in A. lia.
    - cbn [app In] in A. destruct A as [A|A]; [|eauto]. subst x.
      assert (i < a)%nat by (apply H1, in_app_iff; left; eapply nth_error_In; eauto). lia. }
  intros i Hi Hd. apply in_map_iff in Hi as ([i' e] & <- & Hi). cbn in Hd.
  assert (Hin : In (i', e) K) by (rewrite HK; apply in_app_iff; auto).
  pose proof (kept_is_recorded _ _ _ _ _ _ Hin) as Hn. rewrite Nat.sub_0_r in Hn.
  assert (i' < length (recorded true h))%nat by (apply nth_error_Some; congruence).
  destruct (kept_or_dropped h true 0 0 i' ltac:(lia)) as [[_ B]|[_ B]]; [auto|]. apply B. change (kept true 0 0 h) with K. apply in_map_iff. exists (i', e). auto.
Qed.
Print Assumptions C43_gaps.

(** How many more steps the reader needs to receive the oldest pending event. *)
Definition steps_left (p : rpc) : nat :=
  match p with
  | RIdle => 9 | RReadPos _ => 8 | RWritePos _ _ => 7 | RTest _ _ => 6 | RCopy0 _ => 5
  | RCopy1 _ _ => 4 | RCopy2 _ _ _ => 3 | RCopy3 _ _ _ _ => 2 | RCopy4 _ _ => 1 | RRet _ => 10
  end.
Definition will_see (p : rpc) : Prop := match p with RWritePos r w | RTest r w => r <> w | _ => True end.

Lemma delivers acts : forall p l n q r e q', log_inv true l n q r -> reader_inv p q r -> q = e :: q' -> will_see p -> no_switch acts ->
  reads_of acts = steps_left p -> forall p' l' h, log_run acts p l = Ok (p', l', h) -> received h = [e].
Proof.
  induction acts as [|[ev| |b] acts IH]; intros p l n q r e q' Hl Hp Hq Hs Hns Hn p' l' h H; cbn [log_run reads_of no_switch] in *.
  - destruct p; discriminate.
  - apply bind_ok in H as (l1 & E1 & H). apply bind_ok in H as ([[p2 l2] os] & E2 & H). injection H as <- <- <-. cbn [received].
    destruct (record_step ev l n q r Hl) as (l1' & E1' & Hl1). rewrite E1 in E1'. injection E1' as <-. subst q.
    destruct (Nat.eqb (length (e :: q')) 31).
    + eapply IH; eauto.
    + eapply IH; [exact Hl1|apply reader_grow; exact Hp|reflexivity|exact Hs|exact Hns|exact Hn|exact E2].
  - apply bind_ok in H as ([p1 l1] & E1 & H). apply bind_ok in H as ([[p2 l2] os] & E2 & H). injection H as <- <- <-.
    destruct (read_step true p l n q r Hl Hp) as (p1' & l1' & E1' & H1). rewrite E1 in E1'. injection E1' as <- <-.
    destruct p; cbn [steps_left reader_step] in *; try (destruct H1 as [-> H1]).
    + injection E1 as <-. injection Hn as Hn. eapply IH; [exact Hl|exact H1|exact Hq|exact I|exact Hns|exact Hn|exact E2].
    + injection E1 as <-. injection Hn as Hn. eapply IH; [exact Hl|exact H1|exact Hq| |exact Hns|exact Hn|exact E2].
      cbn. cbn in Hp. destruct Hl as (_ & Hr & _ & Hw & Hlen & _). rewrite Hw, Hp. subst q. cbn [length] in *.
      rewrite nxs_add by lia. destruct (Nat.leb_spec 32 (r + S (length q'))); lia.
    + injection E1 as <-. destruct Hl as (He & Hl). rewrite He in *. injection Hn as Hn.
      eapply IH; [exact (conj He Hl)|exact H1|exact Hq|exact Hs|exact Hns|exact Hn|exact E2].
    + injection E1 as <-. cbn in Hs. destruct (Z.eqb_spec r0 w); [contradiction|]. injection Hn as Hn.
      eapply IH; [exact Hl|exact H1|exact Hq|exact I|exact Hns|exact Hn|exact E2].
    + apply bind_ok in E1 as (x & Ex & E1). injection E1 as <-. injection Hn as Hn. eapply IH; [exact Hl|exact H1|exact Hq|exact I|exact Hns|exact Hn|exact E2].
    + apply bind_ok in E1 as (x & Ex & E1). injection E1 as <-. injection Hn as Hn. eapply IH; [exact Hl|exact H1|exact Hq|exact I|exact Hns|exact Hn|exact E2].
    + apply bind_ok in E1 as (x & Ex & E1). injection E1 as <-. injection Hn as Hn. eapply IH; [exact Hl|exact H1|exact Hq|exact I|exact Hns|exact Hn|exact E2].
    + apply bind_ok in E1 as (x & Ex & E1). injection E1 as <-. injection Hn as Hn. eapply IH; [exact Hl|exact H1|exact Hq|exact I|exact Hns|exact Hn|exact E2].
    + destruct H1 as (q2 & Hq2 & _). rewrite Hq in Hq2. injection Hq2 as <- <-. injection Hn as Hn. cbn [received].
      f_equal. clear - Hn Hns E2. revert p1 l1 p2 l2 os E2. induction acts as [|[ev| |b] acts IH]; intros; cbn [log_run reads_of no_switch] in *.
      * injection E2 as <- <- <-. reflexivity.
      * apply bind_ok in E2 as (x & Ex & H). apply bind_ok in H as ([[? ?] ?] & E & H). injection H as <- <- <-. cbn [received]. eauto.
      * discriminate.
      * contradiction.
    + injection E1 as <-. injection Hn as Hn. eapply IH; [exact Hl|exact H1|exact Hq|exact I|exact Hns|exact Hn|exact E2].
  - contradiction.
Qed.

(** While logging is on, an event that is pending when the main loop asks for
    one is delivered: the
    oldest pending event is received during that call, however the call is
    interrupted. *)
Theorem C43_delivery : forall acts l h acts' p' l' h' next,
  log_run acts RIdle elog_init = Ok (RIdle, l, h) ->
  nth_error (map numbered (kept true 0 0 h)) (length (received h)) = Some next ->
  logging true h = true -> no_switch acts' ->
  reads_of acts' = 9%nat ->
  log_run acts' RIdle l = Ok (p', l', h') ->
  received h' = [next].
Proof.
  intros acts l h acts' p' l' h' next E Hn Hon Hns Hr E'.
  destruct (run_spec acts true RIdle elog_init 0 [] 0 log_inv_init I) as (p1 & l1 & h1 & E1 & rest & Heq & r' & Hl & Hp).
  rewrite E in E1. injection E1 as <- <- <-. cbn [app] in Heq. cbn [length] in Heq. rewrite Heq in Hn.
  rewrite nth_error_app2, Nat.sub_diag in Hn by lia. destruct rest as [|e q']; [discriminate|]. cbn in Hn. injection Hn as ->.
  eapply delivers; [rewrite Hon in Hl; exact Hl|exact Hp|reflexivity|exact I|exact Hns|exact Hr|exact E'].
Qed.
Print Assumptions C43_delivery.

(** A burst of 33 events: numbers 31 and 32 are dropped; after the host has
    received one and logging was off during one event, the next event gets
    number 33. *)
Definition burst : list lact :=
  map (fun i => Record (Logged (Z.of_nat i) 0 EVENT_TRIGGER 0)) (seq 0 33) ++ repeat Read 10 ++
  [Switch false; Record (Logged 98 0 EVENT_TRIGGER 0); Switch true; Record (Logged 99 0 EVENT_TRIGGER 1)].

Example C43_example : exists p l h, log_run burst RIdle elog_init = Ok (p, l, h) /\
  received h = [Logged 0 0 EVENT_TRIGGER 0] /\ dropped true 0 0 h = [31; 32]%nat /\
  map fst (kept true 0 0 h) = seq 0 31 ++ [33]%nat.
Proof. eexists _, _, _. split; [vm_compute; reflexivity|]. split; [reflexivity|]. split; reflexivity. Qed.
