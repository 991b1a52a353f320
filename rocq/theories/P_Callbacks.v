(** Properties C08-C11 and C55: the timer callback facility (src/scheduler.c 266-335). *)
Require Import ZArith List Bool Lia Sorting.Sorted.
From Verif Require Import Res Word Arr TimeProofs Callbacks CallbackSpec CallbackRun CallbackProofs.
Import ListNotations.
Open Scope Z_scope.

Lemma listing_rep s q : rep s q -> listing s = map fst q.
Proof.
  intros R. destruct (rp_arr _ _ R) as (rest & E & _). unfold listing. rewrite E, (rp_n _ _ R), Nat2Z.id.
  rewrite <- (map_length fst q). rewrite firstn_app, Nat.sub_diag, firstn_all, firstn_O, app_nil_r. reflexivity.
Qed.

(** C08: after any history, the table lists exactly the pending callbacks, each once,
    and their (unbounded) deadlines are in non-decreasing order. *)
Theorem C08_ordered : forall nd k h s, (k <= 32)%nat -> reach nd k h s ->
  NoDup (listing s) /\
  exists deadlines, length deadlines = length (listing s) /\ StronglySorted Z.le deadlines /\
    (forall i id, nth_error (listing s) i = Some id ->
       exists d, nth_error deadlines i = Some d /\ pending h id = Some d) /\
    (forall id d, pending h id = Some d -> In id (listing s)).
Proof.
  intros nd k h s Hk R. destruct (reach_inv _ _ _ _ Hk R) as (q & Re & L & P & A & RO).
  rewrite (listing_rep _ _ Re). split; [apply (rp_nodup _ _ Re)|].
  exists (map snd q). split; [now rewrite !map_length|]. split.
  { pose proof (rp_sorted _ _ Re) as So. apply Sorted_StronglySorted in So; [|intros x y z; lia].
    clear -So. induction So as [|e q S IH F]; simpl; constructor; auto. rewrite Forall_forall in *.
    intros d I. apply in_map_iff in I. destruct I as (x & <- & I). apply (F _ I). }
  split.
  - intros i id E. rewrite nth_error_map in E. destruct (nth_error q i) as [[j d]|] eqn:Ei; [|discriminate].
    simpl in E. injection E as ->. exists d. rewrite nth_error_map, Ei. split; auto. apply P. now apply nth_error_In in Ei.
  - intros id d E. apply P in E. apply in_map_iff. now exists (id, d).
Qed.
Print Assumptions C08_ordered.

(** C09, first part: nothing fails.  A scheduling request for one of the [k] objects and a
    timer interrupt taken when the armed time is reached always complete, in builds with
    and without assertions. *)
Theorem C09_schedule_completes : forall nd k h s id t, (k <= 32)%nat -> reach nd k h s ->
  0 <= id < Z.of_nat k -> (forall j u, j <> id -> pending h j = Some u -> close t u) ->
  exists s', schedule_callback nd s id (w32 t) = Ok s'.
Proof.
  intros nd k h s id t Hk R Hid Hc. destruct (reach_inv _ _ _ _ Hk R) as (q & I).
  destruct (sched_inv nd k h s q id t Hk I Hid Hc) as (s' & E & _). eauto.
Qed.
Print Assumptions C09_schedule_completes.

Theorem C09_interrupt_completes : forall nd k h s now c b, (k <= 32)%nat -> reach nd k h s ->
  (exists j u, pending h j = Some u) -> cb_armed s = Some c -> time_before_or_equal c (w32 now) = true ->
  (forall j u, pending h j = Some u -> close u now) -> (forall i, body_ok k (Ran i now :: h) b) ->
  exists id s', timer_execute nd (w32 now) (fun _ => run_body nd b) s = Ok (id, s').
Proof.
  intros nd k h s now c b Hk R Hp Hc Ht Hw Hb. destruct (reach_inv _ _ _ _ Hk R) as (q & I).
  destruct (exec_inv nd k h s q now c b Hk I Hp Hc Ht Hw Hb) as (id & s' & q' & E & _). eauto.
Qed.
Print Assumptions C09_interrupt_completes.

(** C09, second part: every run is of a pending callback (so once per request), not
    before its deadline, and nothing else was due earlier. *)
Theorem C09_runs : forall nd k h s, (k <= 32)%nat -> reach nd k h s -> runs_ok h.
Proof. intros nd k h s Hk R. destruct (reach_inv _ _ _ _ Hk R) as (q & Re & L & P & A & RO). exact RO. Qed.
Print Assumptions C09_runs.

(** C09, third part: a request is remembered, with its latest deadline, until it runs. *)
Theorem C09_not_lost : forall nd k h s id d, (k <= 32)%nat -> reach nd k h s -> pending h id = Some d ->
  In id (listing s) /\ get (cb_time s) id = Ok (d mod 2 ^ 32) /\ get (cb_sched s) id = Ok true.
Proof.
  intros nd k h s id d Hk R E. destruct (reach_inv _ _ _ _ Hk R) as (q & Re & L & P & A & RO).
  rewrite (listing_rep _ _ Re). apply P in E.
  assert (I : In id (map fst q)) by (apply in_map_iff; now exists (id, d)).
  split; auto. split; [apply (rp_time _ _ Re _ _ E)|].
  rewrite (rp_flag _ _ Re) by (eapply rep_range; eauto). destruct (in_dec _ _ _); tauto.
Qed.
Print Assumptions C09_not_lost.

(** C10: whenever something is pending, the timer is armed for the earliest deadline;
    in particular, when a pending callback is overdue the armed time has passed, so
    (by the contract of schedule_event_timer) the interrupt is pending again. *)
Theorem C10_armed : forall nd k h s id d, (k <= 32)%nat -> reach nd k h s -> pending h id = Some d ->
  exists first e, pending h first = Some e /\ (forall j u, pending h j = Some u -> e <= u) /\
    cb_armed s = Some (e mod 2 ^ 32).
Proof.
  intros nd k h s id d Hk R E. destruct (reach_inv _ _ _ _ Hk R) as (q & Re & L & P & A & RO).
  destruct q as [|[i e] q]; [apply P in E; destruct E|]. exists i, e. split; [apply P; left; auto|]. split; [|exact A].
  intros j u Hj. apply P in Hj.
  pose proof (rp_sorted _ _ Re) as So. apply Sorted_StronglySorted in So; [|intros x y z; lia].
  inversion So as [|? ? _ F]. subst. destruct Hj as [[= <- <-]|Hj]; [lia|]. rewrite Forall_forall in F. apply (F _ Hj).
Qed.
Print Assumptions C10_armed.

Theorem C10_overdue : forall nd k h s id d now, (k <= 32)%nat -> reach nd k h s -> pending h id = Some d ->
  d <= now -> (forall j u, pending h j = Some u -> close u now) ->
  exists c, cb_armed s = Some c /\ time_before_or_equal c (w32 now) = true.
Proof.
  intros nd k h s id d now Hk R E Hd Hw. destruct (C10_armed nd k h s id d Hk R E) as (i & e & Pi & Mn & A).
  exists (e mod 2 ^ 32). split; auto. change (2 ^ 32) with W. unfold w32. rewrite time_before_or_equal_spec by apply (Hw i e Pi).
  apply Z.leb_le. specialize (Mn _ _ E). lia.
Qed.
Print Assumptions C10_overdue.

(** C11: with k objects at most k are pending; with 33 and all 32 slots taken, one more
    request writes past the table. *)
Theorem C11_bound : forall nd k h s, (k <= 32)%nat -> reach nd k h s -> 0 <= cb_n s <= Z.of_nat k.
Proof.
  intros nd k h s Hk R. destruct (reach_inv _ _ _ _ Hk R) as (q & I). pose proof (inv_count _ _ _ _ I).
  destruct I as (Re & _). rewrite (rp_n _ _ Re). lia.
Qed.
Print Assumptions C11_bound.

Fixpoint fill (n : nat) : list (Z * Z) :=
  match n with O => [] | S m => fill m ++ [(Z.of_nat m, 1000 * Z.of_nat m)] end.

Theorem C11_overflow_refuted : exists s, run_body true (fill 32) (cbs_init 33) = Ok s /\
  forall t, 31000 <= t < 2 ^ 31 -> schedule_callback true s 32 (w32 t) = Err OutOfBounds.
Proof.
  assert (exists s, run_body true (fill 32) (cbs_init 33) = Ok s /\
    rep s (fill 32)) as (s & E & R).
  { eexists. split; [vm_compute; reflexivity|]. constructor; try reflexivity.
    - exists []. split; reflexivity.
    - apply (NoDup_nth _ 0). intros i j Hi Hj. change (length (map fst (fill 32))) with 32%nat in *.
      do 32 (destruct i as [|i]; [do 32 (destruct j as [|j]; [vm_compute; (reflexivity || discriminate)|]); lia|]); lia.
    - intros id t I. vm_compute in I. repeat (destruct I as [I|I]; [injection I as <- <-; reflexivity|]). destruct I.
    - intros id Hid. simpl in Hid.
      assert (id = 0 \/ 1 <= id <= 32) as [->|Hid'] by lia; [reflexivity|].
      do 31 (match type of Hid' with ?a <= id <= 32 =>
        let b := eval vm_compute in (a + 1) in assert (id = a \/ b <= id <= 32) as Hd by lia end;
        clear Hid'; destruct Hd as [-> | Hid']; [reflexivity|]).
      assert (id = 32) as -> by lia. reflexivity.
    - unfold in_order. repeat (constructor; [|]); try constructor; simpl; try lia. }
  exists s. split; [exact E|]. intros t Ht. apply schedule_callback_full with (q := fill 32); auto.
  - assert (L : length (cb_time s) = 33%nat) by (vm_compute in E; injection E as <-; reflexivity). rewrite L. lia.
  - vm_compute. intuition discriminate.
  - intros j u I. vm_compute in I.
    repeat (destruct I as [I|I]; [injection I as <- <-; unfold near; lia|]). destruct I.
Qed.
Print Assumptions C11_overflow_refuted.

(** C55: nothing disarms the event timer when the last callback has run, so a later match
    of the same compare value (one counter period later on the microcontrollers)
    enters the handler with nothing pending, which indexes the table at -1 or
    fails an assertion. *)
Theorem C55_stray_interrupt_refuted : forall nd k h s now body, (k <= 32)%nat -> reach nd k h s ->
  (forall id, pending h id = None) ->
  timer_execute nd now body s = Err (if nd then OutOfBounds else AssertFailed).
Proof.
  intros nd k h s now body Hk R N. destruct (reach_inv _ _ _ _ Hk R) as (q & Re & L & P & A & RO).
  assert (q = []) as ->. { destruct q as [|[i d] q]; auto. assert (In (i, d) ((i, d) :: q)) by (left; auto). apply P in H. now rewrite N in H. }
  destruct (rp_arr _ _ Re) as (rest & Ea & La). pose proof (rp_n _ _ Re) as Hn. simpl in Hn, Ea.
  unfold timer_execute. rewrite Hn. change (0 <? 0) with false.
  destruct nd; [|reflexivity]. cbn [c_assert bind].
  destruct (get_in_range (cb_arr s) 0) as [a G]; [rewrite La; lia|]. rewrite G. cbn [bind].
  unfold callback_remove. rewrite Hn. cbn. reflexivity.
Qed.
Print Assumptions C55_stray_interrupt_refuted.

(** ... and the timer really stays armed: for every deadline [d], after a callback due at
    [d] has been scheduled and run, the compare register still holds [d], which the
    free-running counter shows again at [d + 2^32]. *)
Theorem C55_still_armed_refuted : forall (nd : bool) (d : Z), exists h s,
  reach nd 1 h s /\ (forall id, pending h id = None) /\ cb_armed s = Some (w32 d) /\ w32 (d + 2 ^ 32) = w32 d.
Proof.
  intros nd d.
  assert (R0 : reach nd 1 [] (cbs_init 1)) by constructor.
  destruct (C09_schedule_completes nd 1 [] _ 0 d ltac:(lia) R0 ltac:(simpl; lia)) as (s1 & E1); [simpl; discriminate|].
  assert (R1 : reach nd 1 [Requested 0 d] s1).
  { eapply R_sched; eauto; simpl; try lia; discriminate. }
  destruct (C10_armed nd 1 _ s1 0 d ltac:(lia) R1 eq_refl) as (i & e & Pi & Mn & A).
  assert (e = d). { cbn [pending] in Pi. destruct (0 =? i); congruence. } subst e.
  assert (Hd : time_before_or_equal (d mod 2 ^ 32) (w32 d) = true).
  { unfold w32. change (2 ^ 32) with W. rewrite time_before_or_equal_spec; [apply Z.leb_refl|rewrite Z.sub_diag; split; easy]. }
  assert (Hw : forall j u, pending [Requested 0 d] j = Some u -> close u d).
  { intros j u. cbn [pending]. destruct (0 =? j); [|discriminate]. intros [= <-]. unfold close. lia. }
  destruct (C09_interrupt_completes nd 1 _ s1 d _ [] ltac:(lia) R1 ltac:(eauto) A Hd Hw ltac:(simpl; auto)) as (id & s2 & E2).
  assert (R2 : reach nd 1 (Ran id d :: [Requested 0 d]) s2).
  { change (Ran id d :: [Requested 0 d]) with (rev (map request []) ++ Ran id d :: [Requested 0 d]).
    eapply R_exec; eauto. simpl; auto. }
  pose proof (C09_runs nd 1 _ _ ltac:(lia) R2) as (_ & x & Px & _). cbn [pending] in Px.
  destruct (Z.eqb_spec 0 id) as [<-|]; [|discriminate].
  exists (Ran 0 d :: [Requested 0 d]), s2. split; auto. split.
  { intros j. cbn [pending]. destruct (0 =? j); auto. }
  split.
  - revert E1 E2. clear. generalize (w32 d). intros c E1 E2.
    cbn -[time_before_or_equal] in E1. injection E1 as <-. unfold timer_execute in E2.
    destruct nd.
    + cbn -[time_before_or_equal] in E2. injection E2 as <-. reflexivity.
    + cbn -[time_before_or_equal] in E2. destruct (time_before_or_equal _ _); [|discriminate].
      cbn -[time_before_or_equal] in E2. injection E2 as <-. reflexivity.
  - unfold w32. change (2 ^ 32) with (1 * W). now rewrite Z_mod_plus_full.
Qed.
Print Assumptions C55_still_armed_refuted.

(** The hosted platform matches again on the very next 128-tick step when the deadline is
    a multiple of 128: both ends of the range are included. *)
Theorem C55_hosted_double_match_refuted : forall t, 0 <= t < 2 ^ 32 -> t mod 128 = 0 ->
  let armed := hosted_arm (HTimer (w32 (t - 128)) false 0 false) t in
  let '(p1, h1) := hosted_tick armed in
  let '(p2, _) := hosted_tick (hosted_take h1) in
  p1 = true /\ p2 = true.
Proof.
  intros t Ht _. cbn -[w32 time_in_range time_before_or_equal Z.sub Z.add].
  assert (Wr : w32 (w32 (t - 128) + 128) = t).
  { unfold w32. rewrite Zplus_mod_idemp_l. replace (t - 128 + 128) with t by lia. apply Z.mod_small. exact Ht. }
  assert (T0 : time_before_or_equal t (w32 (t - 128)) = false).
  { rewrite <- (Z.mod_small t W) at 1 by exact Ht. unfold w32. rewrite time_before_or_equal_spec by (replace (t - (t - 128)) with 128 by ring; split; easy).
    apply Z.leb_gt. lia. }
  rewrite Wr, T0.
  assert (T1 : time_in_range t (w32 (t - 128)) t = true).
  { unfold time_in_range, w32. rewrite !Zminus_mod_idemp_r. apply Z.leb_le. lia. }
  assert (T2 : time_in_range t t (w32 (t + 128)) = true).
  { unfold time_in_range. apply Z.leb_le. rewrite Z.sub_diag. change (w32 0) with 0. unfold w32. apply Z.mod_pos_bound. unfold W. lia. }
  rewrite T1, T2. auto.
Qed.
Print Assumptions C55_hosted_double_match_refuted.

Ltac window := cbn [pending]; repeat match goal with |- context [?a =? ?b] => destruct (Z.eqb_spec a b) end;
  let E := fresh in intros E; first [discriminate E | (injection E as <-; unfold close, W; split; easy) | (subst; congruence)].

(** The hypotheses are met: three callbacks across a counter wrap, the last rescheduled
    to the front, then a timer interrupt whose callback schedules itself again. *)
Example callbacks_history : exists s,
  reach false 3 [Requested 2 (W + 900); Ran 2 (W - 95); Requested 2 (W - 100); Requested 2 (W + 700); Requested 1 (W - 50); Requested 0 (W + 20)] s /\
  listing s = [1; 0; 2] /\ cb_armed s = Some (W - 50).
Proof.
  assert (R0 := R_init false 3).
  eassert (R1 : reach false 3 [Requested 0 (W + 20)] _).
  { refine (R_sched _ _ _ _ 0 _ _ R0 _ _ _); [simpl; lia|discriminate|vm_compute; reflexivity]. }
  eassert (R2 : reach false 3 [Requested 1 (W - 50); Requested 0 (W + 20)] _).
  { refine (R_sched _ _ _ _ 1 _ _ R1 _ _ _); [simpl; lia| |vm_compute; reflexivity].
    intros j u N; window. }
  eassert (R3 : reach false 3 [Requested 2 (W + 700); Requested 1 (W - 50); Requested 0 (W + 20)] _).
  { refine (R_sched _ _ _ _ 2 _ _ R2 _ _ _); [simpl; lia| |vm_compute; reflexivity].
    intros j u N; window. }
  eassert (R4 : reach false 3 [Requested 2 (W - 100); Requested 2 (W + 700); Requested 1 (W - 50); Requested 0 (W + 20)] _).
  { refine (R_sched _ _ _ _ 2 _ _ R3 _ _ _); [simpl; lia| |vm_compute; reflexivity].
    intros j u N; window. }
  eassert (R5 : reach false 3 (rev (map request [(2, W + 900)]) ++ Ran 2 (W - 95) :: [Requested 2 (W - 100); Requested 2 (W + 700); Requested 1 (W - 50); Requested 0 (W + 20)]) _).
  { refine (R_exec _ _ _ _ (W - 95) _ [(2, W + 900)] _ _ R4 _ _ _ _ _ _).
    - exists 0, (W + 20). reflexivity.
    - reflexivity.
    - reflexivity.
    - intros j u; window.
    - intros i. cbn [body_ok]. split; [simpl; lia|]. split; [|exact I].
      intros j u N; window.
    - vm_compute; reflexivity. }
  eexists. split; [exact R5|]. split; reflexivity.
Qed.
