(** C22: the simulator's output windows. *)
Require Import ZArith List Bool Lia Sorted.
From Verif Require Import Res Word F32 Arr TimeProofs Outputs Buffers OutputRun OutputProofs BufferProofs RunProofs
  P_Outputs Hosted HostedSpec HostedProofs.
Import ListNotations.
Open Scope Z_scope.
Ltac Zify.zify_post_hook ::= idtac.

(** The simulator starts at a multiple of 128 ticks (the code: 0) with idle outputs;
    the firmware has 16, and up to 32 are allowed here. *)
Definition hstart (N : Z) (cur : Z) (os : list output) : hsys := HSys (w32 (128 * N)) cur os.
Definition startable (os : list output) : Prop := idle_outputs os /\ (length os <= 32)%nat.

Lemma start_good N cur os : startable os -> hgood N (hstart N cur os).
Proof.
  intros [[F1 F2] L]. split; [reflexivity|]. split; [exact L|]. cbn [hstart h_outs].
  apply Forall_forall. intros o Ho. rewrite Forall_forall in F1, F2.
  destruct (F1 o Ho) as (Sa & Sb & Ta & Tb & Pa & Pb).
  split; [|split; [|apply F2; exact Ho]].
  - split; [split; assumption|]. rewrite Sa. discriminate.
  - split; [split; assumption|]. rewrite Sb. discriminate.
Qed.

(** Any history of scheduling and of turns of the time base, then one turn: the edges
    reported are exactly the scheduled edges whose time lies in the 128 ticks that
    begin now, tick by tick in ascending order, and each report shows the pins after
    all edges up to that tick; the edges taken are marked submitted, the ones taken in
    the previous turn fired, and no others change. *)
Theorem C22_window q nd N cur os l h r : sorts q -> startable os ->
  hsteps q nd (hstart N cur os) l = Ok (h, r) ->
  exists h' reps, hosted_tick q h = Ok (h', reps) /\
    h_time h' = w32 (h_time h + 128) /\
    (forall t, In t (map fst reps) <->
       exists e, In e (edges (h_outs h)) /\ due (h_time h') e /\ e_time e = t) /\
    StronglySorted (fun a b => ticks_from (h_time h') a < ticks_from (h_time h') b) (map fst reps) /\
    (forall t out p, In (t, out) reps -> 0 <= p < 16 ->
       level (h_time h') (h_cur h) (h_outs h) p (ticks_from (h_time h') t) (Z.testbit out p)) /\
    (forall p, 0 <= p < 16 -> level (h_time h') (h_cur h) (h_outs h) p 127 (Z.testbit (h_cur h') p)) /\
    Forall2 (fun e e' => e' = with_state e (match e_state e with
        | SUBMITTED => FIRED
        | SCHEDULED => if ticks_from (h_time h') (e_time e) <? 128 then SUBMITTED else SCHEDULED
        | s => s end)) (edges (h_outs h)) (edges (h_outs h')).
Proof.
  intros Hq Hs E. pose proof (hsteps_good nd q l N _ _ _ Hq (start_good N cur os Hs) E) as (Ht & Hl & HF).
  unfold hosted_tick. set (M := N + all_ticks l) in *. clearbody M.
  assert (Ha : w32 (h_time h + 128) = w32 (128 * (M + 1))).
  { rewrite Ht. unfold w32. rewrite Zplus_mod_idemp_l. f_equal. lia. }
  rewrite Ha.
  destruct (window_spec q (w32 (128 * (M + 1))) (h_cur h) (h_outs h) Hq Hl (good_edges M _ HF))
    as (cur' & reps & Ew & H1 & H2 & H3 & H4).
  rewrite Ew. cbn [bind]. eexists _, reps. split; [reflexivity|]. cbn [h_time h_cur h_outs].
  split; [reflexivity|]. split; [exact H1|]. split; [exact H2|]. split; [exact H3|]. split; [exact H4|].
  clear. induction (h_outs h) as [|o os IH]; [constructor|].
  unfold edges. cbn [map flat_map app]. fold (edges os). fold (edges (map (swap_output (w32 (128 * (M + 1)))) os)).
  assert (K : forall e, swap_entry (w32 (128 * (M + 1))) e = with_state e (match e_state e with
        | SUBMITTED => FIRED
        | SCHEDULED => if ticks_from (w32 (128 * (M + 1))) (e_time e) <? 128 then SUBMITTED else SCHEDULED
        | s => s end)).
  { intros e. unfold swap_entry, dueb. destruct e as [t p v s]. cbn [e_state e_time].
    destruct s; cbn [sstate_eqb andb]; try reflexivity.
    destruct (ticks_from (w32 (128 * (M + 1))) t <? 128); reflexivity. }
  constructor; [apply K|]. constructor; [apply K|]. exact IH.
Qed.
Print Assumptions C22_window.

(** The reported level is unique unless two edges want different levels on one pin in
    the same tick. *)
Theorem C22_level_unique q nd N cur os l h r p k b b' : sorts q -> startable os ->
  hsteps q nd (hstart N cur os) l = Ok (h, r) -> no_clash (w32 (h_time h + 128)) (h_outs h) ->
  level (w32 (h_time h + 128)) (h_cur h) (h_outs h) p k b ->
  level (w32 (h_time h + 128)) (h_cur h) (h_outs h) p k b' -> b = b'.
Proof.
  intros Hq Hs E NC. pose proof (hsteps_good nd q l N _ _ _ Hq (start_good N cur os Hs) E) as (Ht & Hl & HF).
  apply level_unique; [exact NC|]. apply (good_edges _ _ HF).
Qed.
Print Assumptions C22_level_unique.

(** The state of an edge planned [d] ticks after the next window begins, [k] windows later. *)
Definition state_after (d k : Z) : sstate :=
  if d <? 128 * k then if d <? 128 * (k - 1) then FIRED else SUBMITTED else SCHEDULED.

Lemma follow_edge nd q l : forall N k h h' r i s o e d, sorts q -> hgood (N + k) h -> 0 <= k ->
  forallb (fun a => negb (htouches i a)) l = true ->
  hsteps q nd h l = Ok (h', r) -> nth_error (h_outs h) i = Some o ->
  d = ticks_from (w32 (128 * (N + 1))) (e_time e) ->
  which s o = with_state e (state_after d k) ->
  exists o', nth_error (h_outs h') i = Some o' /\ which s o' = with_state e (state_after d (k + all_ticks l)).
Proof.
  induction l as [|a l IH]; intros N k h h' r i s o e d Hq G Hk Hu E Ho Hd He; cbn [hsteps] in E.
  - injection E as <- _. exists o. cbn. rewrite Z.add_0_r. auto.
  - cbn [forallb] in Hu. apply andb_true_iff in Hu. destruct Hu as [Ha Hu]. apply negb_true_iff in Ha.
    destruct (hstep q nd h a) as [[h1 r1]|] eqn:E1; [|discriminate]. cbn [bind] in E.
    destruct (hsteps q nd h1 l) as [[h2 r2]|] eqn:E2; [|discriminate]. cbn [bind] in E. injection E as <- _.
    pose proof (hstep_good _ _ _ _ _ _ _ Hq G E1) as G1.
    pose proof (hstep_untouched _ _ _ _ _ _ _ _ Hq G Ha E1) as Hn.
    cbn [all_ticks fold_right]. fold (all_ticks l). rewrite Z.add_assoc.
    assert (Hna : forall o1, nth_error (h_outs h1) i = Some o1 ->
       which s o1 = with_state e (state_after d (k + ticks_of a)) ->
       exists o', nth_error (h_outs h2) i = Some o' /\ which s o' = with_state e (state_after d (k + ticks_of a + all_ticks l))).
    { intros o1 Ho1 He1. apply (IH N (k + ticks_of a) h1 h2 r2 i s o1 e d); auto.
      - rewrite Z.add_assoc. exact G1.
      - destruct a; cbn [ticks_of]; lia. }
    destruct a as [j|j on off|j|j|]; cbn [ticks_of] in *;
      try (apply (Hna o); [rewrite Hn; exact Ho|rewrite Z.add_0_r; exact He]).
    rewrite Ho in Hn. cbn [option_map] in Hn. apply (Hna _ Hn).
    assert (Hw : which s (swap_output (w32 (128 * (N + k + 1))) o) = swap_entry (w32 (128 * (N + k + 1))) (which s o)).
    { destruct s; reflexivity. }
    rewrite Hw, He. clear - Hd Hk. unfold swap_entry, dueb, state_after. cbn [with_state e_state e_time].
    pose proof (ticks_range (w32 (128 * (N + 1))) (e_time e)) as R. rewrite <- Hd in R.
    replace (k + 1 - 1) with k by lia.
    destruct (Z.ltb_spec d (128 * k)) as [L|L].
    + destruct (Z.ltb_spec d (128 * (k + 1))); [|lia].
      destruct (Z.ltb_spec d (128 * (k - 1))); cbn [sstate_eqb andb]; reflexivity.
    + cbn [sstate_eqb andb].
      assert (T : ticks_from (w32 (128 * (N + k + 1))) (e_time e) = d - 128 * k).
      { replace (w32 (128 * (N + k + 1))) with (w32 (w32 (128 * (N + 1)) + 128 * k)).
        - rewrite ticks_shift by lia. lia.
        - unfold w32. rewrite Zplus_mod_idemp_l. f_equal. lia. }
      rewrite T. destruct (Z.ltb_spec (d - 128 * k) 128), (Z.ltb_spec d (128 * (k + 1))); try lia; reflexivity.
Qed.

(** A scheduled edge is never missed: while it waits, its time is less than 2^31 ticks
    ahead of the next window; and as long as it is not rescheduled or cancelled it is
    submitted in exactly the one window that contains its time. *)
Theorem C22_one_window q nd N cur os l h r i s o l' h' r' : sorts q -> startable os ->
  hsteps q nd (hstart N cur os) l = Ok (h, r) ->
  nth_error (h_outs h) i = Some o -> e_state (which s o) = SCHEDULED ->
  forallb (fun a => negb (htouches i a)) l' = true -> hsteps q nd h l' = Ok (h', r') ->
  let d := ticks_from (w32 (h_time h + 128)) (e_time (which s o)) in
  d < 2 ^ 31 /\
  exists o', nth_error (h_outs h') i = Some o' /\ which s o' = with_state (which s o) (state_after d (all_ticks l')).
Proof.
  intros Hq Hs E Ho He Hu E' d.
  pose proof (hsteps_good nd q l N _ _ _ Hq (start_good N cur os Hs) E) as G.
  pose proof G as (Ht & Hl & HF). set (M := N + all_ticks l) in *. clearbody M.
  assert (Ha : w32 (h_time h + 128) = w32 (128 * (M + 1))).
  { rewrite Ht. unfold w32. rewrite Zplus_mod_idemp_l. f_equal. lia. }
  assert (Hd : d < 2 ^ 31).
  { unfold d. rewrite Ha. rewrite Forall_forall in HF. destruct (HF o (nth_error_In _ _ Ho)) as ([_ Ga] & [_ Gb] & _).
    destruct s; cbn [which] in *; auto. }
  split; [exact Hd|].
  pose proof (ticks_range (w32 (h_time h + 128)) (e_time (which s o))) as R. fold d in R.
  apply (follow_edge nd q l' M 0 h h' r' i s o (which s o) d Hq); auto.
  - rewrite Z.add_0_r. exact G.
  - lia.
  - unfold d. rewrite Ha. reflexivity.
  - unfold state_after. destruct (Z.ltb_spec d (128 * 0)); [lia|].
    destruct (which s o) as [t p v st]. cbn [e_state] in He. subst st. reflexivity.
Qed.
Print Assumptions C22_one_window.

(** ... and it is played there: the turn of the time base that begins its window
    reports its tick with the pin at its level. *)
Theorem C22_edge_plays q nd N cur os l h r i s o l' h' r' h'' reps : sorts q -> startable os ->
  hsteps q nd (hstart N cur os) l = Ok (h, r) ->
  nth_error (h_outs h) i = Some o -> e_state (which s o) = SCHEDULED -> 0 <= e_pin (which s o) < 16 ->
  forallb (fun a => negb (htouches i a)) l' = true -> hsteps q nd h l' = Ok (h', r') ->
  all_ticks l' = ticks_from (w32 (h_time h + 128)) (e_time (which s o)) / 128 ->
  no_clash (w32 (h_time h' + 128)) (h_outs h') ->
  hosted_tick q h' = Ok (h'', reps) ->
  exists out, In (e_time (which s o), out) reps /\ Z.testbit out (e_pin (which s o)) = e_val (which s o).
Proof.
  intros Hq Hs E Ho He Hp Hu E' Hk NC Et.
  pose proof (C22_one_window q nd N cur os l h r i s o l' h' r' Hq Hs E Ho He Hu E') as H.
  cbn zeta in H. destruct H as (Hd & o' & Ho' & Hw).
  set (d := ticks_from (w32 (h_time h + 128)) (e_time (which s o))) in *.
  pose proof (ticks_range (w32 (h_time h + 128)) (e_time (which s o))) as R. fold d in R.
  pose proof (Z.div_mod d 128 ltac:(lia)) as Dm. pose proof (Z.mod_pos_bound d 128 ltac:(lia)) as Db.
  assert (Happ : hsteps q nd (hstart N cur os) (l ++ l') = Ok (h', r ++ r')).
  { clear - E E'. revert E. generalize (hstart N cur os). revert r. induction l as [|a l IH]; intros r h0 E; cbn [hsteps app] in *.
    - injection E as -> <-. exact E'.
    - destruct (hstep q nd h0 a) as [[h1 r1]|]; [|discriminate]. cbn [bind] in *.
      destruct (hsteps q nd h1 l) as [[h2 r2]|] eqn:E2; [|discriminate]. cbn [bind] in E. injection E as -> <-.
      rewrite (IH _ _ E2). cbn [bind]. rewrite app_assoc. reflexivity. }
  assert (Hst : e_state (which s o') = SCHEDULED /\ e_time (which s o') = e_time (which s o)
     /\ e_pin (which s o') = e_pin (which s o) /\ e_val (which s o') = e_val (which s o)).
  { rewrite Hw. cbn [with_state e_state e_time e_pin e_val]. unfold state_after. rewrite Hk.
    destruct (Z.ltb_spec d (128 * (d / 128))); [lia|]. auto. }
  destruct Hst as (S' & T' & P' & V').
  pose proof (hsteps_good nd q l N _ _ _ Hq (start_good N cur os Hs) E) as (Ht & _ & _).
  pose proof (hsteps_good nd q (l ++ l') N _ _ _ Hq (start_good N cur os Hs) Happ) as (Ht' & _ & HF').
  assert (Hall : all_ticks (l ++ l') = all_ticks l + all_ticks l').
  { clear. induction l as [|a l IH]; cbn [all_ticks fold_right app]; [reflexivity|].
    fold (all_ticks (l ++ l')). fold (all_ticks l). rewrite IH. lia. }
  assert (Hdue : due (w32 (h_time h' + 128)) (which s o')).
  { split; [exact S'|]. rewrite T', Ht', Hall.
    assert (X : w32 (w32 (128 * (N + (all_ticks l + all_ticks l'))) + 128)
      = w32 (w32 (h_time h + 128) + 128 * all_ticks l')).
    { rewrite Ht. unfold w32. repeat rewrite Zplus_mod_idemp_l. rewrite <- (Z.add_assoc (_ mod _)).
      rewrite Zplus_mod_idemp_l. f_equal. lia. }
    rewrite X, ticks_shift; fold d; lia. }
  assert (Hin : In (which s o') (edges (h_outs h'))).
  { apply edges_in. exists o'. split; [apply (nth_error_In _ _ Ho')|]. destruct s; cbn [which]; auto. }
  destruct (C22_window q nd N cur os (l ++ l') h' (r ++ r') Hq Hs Happ)
    as (h2 & reps2 & Et2 & Htime & Hiff & _ & Hlev & _).
  rewrite Et in Et2. injection Et2 as <- <-. rewrite Htime in *.
  assert (Hmem : In (e_time (which s o)) (map fst reps)).
  { apply Hiff. exists (which s o'). auto. }
  apply in_map_iff in Hmem. destruct Hmem as ([t out] & Ht2 & Hmem). cbn [fst] in Ht2. subst t.
  exists out. split; [exact Hmem|].
  specialize (Hlev _ _ (e_pin (which s o)) Hmem Hp). rewrite <- V', <- P'. rewrite <- P' in Hlev.
  rewrite <- T' in Hlev.
  apply (level_unique (w32 (h_time h' + 128)) (h_cur h') (h_outs h') (e_pin (which s o'))
           (ticks_from (w32 (h_time h' + 128)) (e_time (which s o')))); [exact NC|apply (good_edges _ _ HF')|exact Hlev|].
  left. exists (which s o'). split; [exact Hin|]. split; [exact Hdue|]. split; [reflexivity|]. split; [lia|].
  split; [reflexivity|]. intros e' _ _ _ L. exact L.
Qed.
Print Assumptions C22_edge_plays.

(** At most 32 edges can be due: output_events[64] never overflows, and no step of the
    simulator's time base fails. *)
Theorem C22_safe q nd N cur os l h r : sorts q -> startable os ->
  hsteps q nd (hstart N cur os) l = Ok (h, r) -> exists h' reps, hosted_tick q h = Ok (h', reps).
Proof.
  intros Hq Hs E. destruct (C22_window q nd N cur os l h r Hq Hs E) as (h' & reps & Et & _). eauto.
Qed.
Print Assumptions C22_safe.

(** Sorting functions as required exist. *)
Theorem C22_sorting : sorts insertion_sort.
Proof. exact insertion_sorts. Qed.
Print Assumptions C22_sorting.

(** A coil pulse from 300 to 520 and an injector pulse from 300 to 400, across the
    windows 256-383, 384-511 and 512-639. *)
Example C22_example :
  startable [coil; injector] /\
  exists h, hsteps insertion_sort false (hstart 0 0 [coil; injector])
    [HPins 0; HCommit 0 300 520; HPins 1; HCommit 1 300 400; HTick; HTick; HTick; HTick; HTick]
  = Ok (h, [(300, 40); (400, 8); (520, 0)]) /\ h_time h = 640.
Proof.
  split.
  - split; [exact y0_idle|cbn; lia].
  - eexists. split; [vm_compute; reflexivity|reflexivity].
Qed.
