(** Properties C68 and C69: the outputs under the whole firmware. *)
Require Import ZArith List Bool Lia.
From Verif Require Import Res Word F32 Arr TimeProofs Outputs Buffers OutputSpec OutputRun OutputProofs BufferProofs RunProofs P_Outputs P_Pulses
  Callbacks CallbackSafe Decoder DecoderProofs Calc System SystemProofs SystemRun P_System SystemOutputs.
Import ListNotations.
Open Scope Z_scope.
Ltac Zify.zify_post_hook ::= idtac.

(** ** C68: no edge is missed, whatever the firmware does *)
(** An execution from power-on: the first two swap interrupts come before anything is scheduled (as on the
    hardware, where they are 32 and 64 microseconds after the output timer is started), and afterwards
    anything may happen in any order, with on-time swap interrupts at any point inside it.  [m] is
    the block of the first swap interrupt.  The outputs' own settings are not changed (refuted otherwise:
    C21_reconfigure_refuted). *)
Definition execution (env : nat -> Z * list Z) (m : Z) (nd : bool) (os : list output) (l : list fev) (w : fw) : Prop :=
  punctual env m /\ length (snd (env 0%nat)) = 2%nat /\ idle_outputs os /\ Forall no_reconfig l /\
  exists dc cc s, frun env nd (fw_init dc cc s os) (FIdle :: l) = Ok w.

Lemma execution_start env m dc cc s os w : punctual env m -> length (snd (env 0%nat)) = 2%nat -> idle_outputs os ->
  point env (fw_init dc cc s os) = Ok (fst (env 0%nat), w) -> osys env m w = start_sys (m + 1) os.
Proof.
  intros P L I H. unfold point in H.
  assert (Ei : w_k (fw_init dc cc s os) = 0%nat /\ w_dma (fw_init dc cc s os) = dma_init /\ w_outs (fw_init dc cc s os) = os) by (unfold fw_init; destruct (decoder_init dc dec_init); auto).
  destruct Ei as (E1 & E2 & E3). rewrite E1, E2, E3 in H. pose proof (P 0%nat) as T. destruct (env 0%nat) as [now sw] eqn:Ee. simpl in L, T.
  destruct sw as [|a [|b [|]]]; try discriminate. destruct (T 0%nat a eq_refl) as (A & -> & TA). destruct (T 1%nat b eq_refl) as (B & -> & TB).
  destruct (C20_startup (m + 1) os A B (proj1 I) ltac:(lia) ltac:(lia)) as (d1 & S1 & S2).
  cbn [swaps] in H. rewrite S1 in H. cbn [bind] in H. rewrite S2 in H. cbn [bind] in H. injection H as <-.
  unfold osys, block_of. cbn [w_k w_dma w_outs swaps_before]. rewrite Ee. cbn [snd length]. unfold start_sys. cbn [y_dma]. f_equal. lia.
Qed.

Lemma execution_run env m nd os l w : execution env m nd os l w -> exists acts, run nd (start_sys (m + 1) os) acts (osys env m w).
Proof.
  intros (P & L & I & N & dc & cc & s & H). cbn [frun] in H. apply bind_ok in H. destruct H as (w1 & E & H). cbn [fstep] in E.
  apply bind_ok in E. destruct E as ([now w2] & E & X). injection X as <-.
  assert (En : now = fst (env 0%nat)). { unfold point in E. replace (w_k (fw_init dc cc s os)) with 0%nat in E by (unfold fw_init; destruct (decoder_init dc dec_init); auto).
    destruct (env 0%nat). apply bind_ok in E. destruct E as ([? ?] & _ & E). now injection E as <- _. }
  rewrite En in E. pose proof (execution_start env m dc cc s os w2 P L I E) as S. destruct (frun_refines env nd m P l w2 w H N) as [acts R]. rewrite S in R. eauto.
Qed.

(** The outputs of the firmware only ever change by the atomic steps of OutputRun.v, so everything proved for
    those histories (C12-C17, C20, C21, C57) holds for the firmware. *)
Theorem C68_refines : forall env m nd os l w, execution env m nd os l w ->
  exists acts, run nd (start_sys (m + 1) os) acts (Sys (block_of env m w) (w_dma w) (w_outs w)).
Proof. exact execution_run. Qed.
Print Assumptions C68_refines.

(** Every planned edge can still be honoured: its time is in a block that has not been filled yet. *)
Theorem C68_never_missed : forall env m nd os l w i o s, execution env m nd os l w -> nth_error (w_outs w) i = Some o -> e_state (which s o) = SCHEDULED ->
  exists t, e_time (which s o) = t mod 2 ^ 32 /\ 128 * (block_of env m w + 2) <= t < 128 * (block_of env m w + 2) + 2 ^ 31.
Proof.
  intros env m nd os l w i o s X Eo S. pose proof X as (_ & _ & [I1 I2] & _). destruct (execution_run _ _ _ _ _ _ X) as [acts R].
  pose proof (start_ok (m + 1) os I1 I2) as Y0. pose proof (timely_run _ _ _ _ R Y0 (timely_start _ _ I1)) as T. pose proof (run_ok _ _ _ _ R Y0) as [B _].
  destruct (in_entries _ _ _ Eo) as [J1 J2]. assert (J : In (which s o) (entries (w_outs w))) by (destruct s; auto).
  specialize (T _ J S). pose proof (bo_times _ _ _ B _ J) as Ht. cbn [osys y_n y_outs] in T, Ht.
  exists (128 * (block_of env m w + 2) + w32 (e_time (which s o) - 128 * (block_of env m w + 2))). split.
  - unfold w32. change (2 ^ 32) with W. rewrite Zplus_mod_idemp_r. replace (128 * (block_of env m w + 2) + (e_time (which s o) - 128 * (block_of env m w + 2))) with (e_time (which s o)) by lia.
    symmetry. apply Z.mod_small. exact Ht.
  - pose proof (w32_range (e_time (which s o) - 128 * (block_of env m w + 2))). lia.
Qed.
Print Assumptions C68_never_missed.

(** Every edge handed to the hardware belongs to the block that plays or to the next one, and nothing the
    firmware does afterwards changes it before its block has been played: until then the bit of its pin is set
    in the slot of its own tick. *)
Theorem C68_committed_edge_plays : forall env m nd os l w i o s, execution env m nd os l w -> nth_error (w_outs w) i = Some o -> e_state (which s o) = SUBMITTED ->
  exists t, e_time (which s o) = t mod 2 ^ 32 /\ block_of env m w <= t / 128 <= block_of env m w + 1 /\
    forall l' w', frun env nd w l' = Ok w' -> Forall no_reconfig l' -> block_of env m w' <= t / 128 ->
    exists o', nth_error (w_outs w') i = Some o' /\ which s o' = which s o /\
      (o_pin o mod 256 < 16 ->
       slot_bit (if t / 128 =? block_of env m w' then d_cur (w_dma w') else d_next (w_dma w')) (t mod 128) (o_pin o mod 256) (if s then negb (o_inv o) else o_inv o) = true).
Proof.
  intros env m nd os l w i o s X Eo S. pose proof X as (P & _ & [I1 I2] & _). destruct (execution_run _ _ _ _ _ _ X) as [acts R].
  pose proof (start_ok (m + 1) os I1 I2) as Y0. pose proof (run_ok _ _ _ _ R Y0) as Y. pose proof Y as [B F].
  destruct (in_entries _ _ _ Eo) as [J1 J2]. assert (J : In (which s o) (entries (w_outs w))) by (destruct s; auto).
  pose proof (bo_sub _ _ _ B _ J S) as Hs. pose proof (bo_times _ _ _ B _ J) as Ht. cbn [osys y_n y_outs] in Hs, Ht.
  set (n := block_of env m w) in *. set (x := w32 (e_time (which s o) - 128 * n)) in *. assert (X0 : 0 <= x < 256) by (pose proof (w32_range (e_time (which s o) - 128 * n)); fold x in H; lia).
  assert (Et : e_time (which s o) = (128 * n + x) mod 2 ^ 32).
  { unfold x, w32. change (2 ^ 32) with W. rewrite Zplus_mod_idemp_r. replace (128 * n + (e_time (which s o) - 128 * n)) with (e_time (which s o)) by lia. symmetry. apply Z.mod_small. exact Ht. }
  assert (Db : (128 * n + x) / 128 = n + x / 128) by (rewrite Z.mul_comm; apply Z.div_add_l; lia).
  assert (Hx : 0 <= x / 128 < 2) by (split; [apply Z.div_pos; lia|apply Z.div_lt_upper_bound; lia]).
  exists (128 * n + x). split; [exact Et|]. split; [rewrite Db; lia|]. intros l' w' H N Hb.
  destruct (frun_refines env nd m P l' w w' H N) as [acts' R'].
  destruct (committed_run _ _ _ _ i o s (128 * n + x) R' Y Eo S Et ltac:(rewrite Db; cbn [osys y_n]; fold n; lia) Hb) as (o' & Eo' & Ew).
  exists o'. split; [exact Eo'|]. split; [exact Ew|]. intros Hp.
  pose proof (run_blocks _ _ _ _ R') as Mo. cbn [osys y_n] in Mo. fold n in Mo.
  pose proof (run_ok _ _ _ _ R' Y) as [B' _]. destruct (in_entries _ _ _ Eo') as [K1 K2].
  assert (K : In (which s o') (entries (w_outs w'))) by (destruct s; auto).
  assert (Pv : e_pin (which s o) = o_pin o mod 256 /\ e_val (which s o) = if s then negb (o_inv o) else o_inv o).
  { pose proof (proj1 (Forall_forall _ _) F o (nth_error_In _ _ Eo)) as (_ & Q1 & Q2). destruct s; [apply Q1|apply Q2]; auto. }
  destruct Pv as [Pp Pv]. assert (P0 : 0 <= o_pin o mod 256) by (apply Z.mod_pos_bound; lia). pose proof (Z.mod_pos_bound (128 * n + x) 128 ltac:(lia)).
  pose proof (Z.div_mod (128 * n + x) 128 ltac:(lia)) as Dm.
  assert (Ed : forall b, (128 * n + x) / 128 = b -> edge_at (128 * b + (128 * n + x) mod 128) (o_pin o mod 256) (if s then negb (o_inv o) else o_inv o) (which s o')).
  { intros b Hd. rewrite Ew. split; [exact S|]. split; [|auto]. rewrite Et. replace (128 * b + (128 * n + x) mod 128) with (128 * n + x) by lia. reflexivity. }
  destruct (Z.eqb_spec ((128 * n + x) / 128) (block_of env m w')) as [Eb|Nb].
  - apply (bo_bits_cur _ _ _ B'); [lia|lia|]. exists (which s o'). split; [exact K|]. apply Ed. exact Eb.
  - apply (bo_bits_next _ _ _ B'); [lia|lia|]. exists (which s o'). split; [exact K|]. apply Ed. cbn [osys y_n]. lia.
Qed.
Print Assumptions C68_committed_edge_plays.

(** And nothing else is in the buffers: each set bit is an edge handed to the hardware for exactly that tick. *)
Theorem C68_nothing_else_plays : forall env m nd os l w, execution env m nd os l w ->
  forall j p v, 0 <= j < 128 -> 0 <= p < 16 ->
  (slot_bit (d_cur (w_dma w)) j p v = true <-> exists i o s, nth_error (w_outs w) i = Some o /\ e_state (which s o) = SUBMITTED /\
     e_time (which s o) = (128 * block_of env m w + j) mod 2 ^ 32 /\ e_pin (which s o) = p /\ e_val (which s o) = v) /\
  (slot_bit (d_next (w_dma w)) j p v = true <-> exists i o s, nth_error (w_outs w) i = Some o /\ e_state (which s o) = SUBMITTED /\
     e_time (which s o) = (128 * (block_of env m w + 1) + j) mod 2 ^ 32 /\ e_pin (which s o) = p /\ e_val (which s o) = v).
Proof.
  intros env m nd os l w X. pose proof X as (_ & _ & I & _). destruct (execution_run _ _ _ _ _ _ X) as [acts R].
  exact (C21_exact nd (m + 1) os acts _ I R).
Qed.
Print Assumptions C68_nothing_else_plays.

(* Example: the injection of C54_example is planned for tick 325093, in block 2539; a swap interrupt after the
   last trigger (point 9) hands it to the hardware, and a lost capture afterwards does not take it back. *)
Definition sw_env (k : nat) : Z * list Z := (324800, match k with O => [324613; 324741] | 9%nat => [324869] | _ => [] end).
Lemma sw_punctual : punctual sw_env 2536.
Proof.
  intros k i t E. destruct k as [|k].
  - destruct i as [|[|[|i]]]; simpl in E; try discriminate; injection E as <-; [exists 324613|exists 324741]; split; reflexivity.
  - do 8 (destruct k as [|k]; [destruct i; discriminate|]). destruct k as [|k]; [|destruct i; discriminate].
    destruct i as [|i]; [|destruct i; discriminate]. injection E as <-. exists 324869. split; reflexivity.
Qed.
Example C68_example : exists w w' o o', execution sw_env 2536 false ex_outs ex_start w /\ nth_error (w_outs w) 1 = Some o /\ e_state (o_start o) = SCHEDULED /\
  execution sw_env 2536 false ex_outs (ex_start ++ [FIdle; FOverflow]) w' /\ nth_error (w_outs w') 1 = Some o' /\ e_state (o_start o') = SUBMITTED /\
  e_time (o_start o') = 325093 /\ block_of sw_env 2536 w' = 2538 /\ dd_valid (w_dec w') = 0 /\ slot_bit (d_next (w_dma w')) (325093 mod 128) 8 true = true.
Proof.
  assert (X : forall l w, frun sw_env false ex_fw (FIdle :: l) = Ok w -> Forall no_reconfig l -> execution sw_env 2536 false ex_outs l w).
  { intros l w H N. split; [exact sw_punctual|]. split; [reflexivity|]. split; [|split; [exact N|eexists _, _, _; exact H]].
    split; apply Forall_forall; intros o I; cbn [ex_outs app repeat In] in I; repeat (destruct I as [<-|I]; [cbv; intuition congruence|]); destruct I. }
  assert (N : Forall no_reconfig ex_start) by (repeat constructor).
  assert (H : exists w w' o o', frun sw_env false ex_fw (FIdle :: ex_start) = Ok w /\ nth_error (w_outs w) 1 = Some o /\ e_state (o_start o) = SCHEDULED /\
    frun sw_env false ex_fw (FIdle :: ex_start ++ [FIdle; FOverflow]) = Ok w' /\ nth_error (w_outs w') 1 = Some o' /\ e_state (o_start o') = SUBMITTED /\
    e_time (o_start o') = 325093 /\ block_of sw_env 2536 w' = 2538 /\ dd_valid (w_dec w') = 0 /\ slot_bit (d_next (w_dma w')) (325093 mod 128) 8 true = true).
  { do 4 eexists. split; [vm_compute; reflexivity|]. split; [reflexivity|]. split; [reflexivity|]. split; [vm_compute; reflexivity|]. repeat split; vm_compute; reflexivity. }
  destruct H as (w & w' & o & o' & H1 & H2 & H3 & H4 & H5). exists w, w', o, o'. split; [apply X; auto|]. split; auto. split; auto. split; [|exact H5].
  apply X; auto. apply Forall_app. split; [exact N|repeat constructor].
Qed.

(** ** C69: the end-of-injection callback *)
(** Calling the scheduler for a fuel output leaves the callbacks as they are, or leaves the output's own callback
    pending for the turn-off time of the injection just planned, which is not before the clock reading taken
    then (the last point of the call). *)
Definition pending_at (c : cbs) (id t : Z) : Prop := get (cb_sched c) id = Ok true /\ get (cb_time c) id = Ok t.
Definition last_clock (env : nat -> Z * list Z) (w' : fw) : Z := fst (env (pred (w_k w'))).

Lemma scheduled_pending nd k c ids id t c' : k <= 32 -> cwf k c ids -> 0 <= id < k -> schedule_callback nd c id t = Ok c' -> pending_at c' id t.
Proof.
  intros Hk C Hi H. destruct (cwf_schedule nd k c ids id t Hk C Hi) as (c1 & l & E & C1 & M & T). rewrite E in H. injection H as <-. split.
  - rewrite (cw_flag _ _ _ C1 id Hi). destruct (in_dec Z.eq_dec id l) as [|N]; auto. exfalso. apply N, M. auto.
  - rewrite T by auto. now rewrite Z.eqb_refl.
Qed.

Lemma point_last env w now w' : point env w = Ok (now, w') -> now = last_clock env w' /\ w_cbs w' = w_cbs w /\ w_k w' = S (w_k w).
Proof.
  unfold point, last_clock. destruct (env (w_k w)) as [t l] eqn:E. intros H. apply bind_ok in H. destruct H as ([d os] & _ & H). injection H as <- <-. simpl. rewrite E. auto.
Qed.
Lemma put_out_k w i o w' : put_out w i o = Ok w' -> w_k w' = w_k w /\ w_cbs w' = w_cbs w.
Proof. unfold put_out. intros H. apply bind_ok in H. destruct H as (os & _ & H). injection H as <-. auto. Qed.

Lemma fuel_callback env nd w i w' ids : schedule_fuel env nd w i = Ok w' -> cwf 18 (w_cbs w) ids -> 0 <= i < 18 ->
  w_cbs w' = w_cbs w \/ exists o', get (w_outs w') i = Ok o' /\ e_state (o_stop o') = SCHEDULED /\
    pending_at (w_cbs w') i (e_time (o_stop o')) /\ time_before (e_time (o_stop o')) (last_clock env w') = false.
Proof.
  intros H C Hi. unfold schedule_fuel in H. apply bind_ok in H. destruct H as ([x w1] & E1 & H). apply bind_ok in H. destruct H as (o & E2 & H).
  apply bind_ok in H. destruct H as ([o1 p] & E3 & H). apply bind_ok in H. destruct H as (w2 & E4 & H).
  assert (C2 : w_cbs w2 = w_cbs w) by (apply point_last in E1; apply put_out_k in E4; intuition congruence).
  destruct p as [[a b]|]; [|injection H as <-; auto].
  apply bind_ok in H. destruct H as (w3 & E5 & H). apply bind_ok in H. destruct H as ([now w4] & E6 & H). apply bind_ok in H. destruct H as (o2 & E7 & H).
  assert (C3 : w_cbs w3 = w_cbs w) by (destruct (commit_output_one _ _ _ _ _ _ E5) as [_ K]; congruence).
  destruct (point_last _ _ _ _ E6) as (N & C4 & _). destruct (sstate_eqb_spec (e_state (o_stop o2)) SCHEDULED) as [S|S]; cbn [andb] in H; [|injection H as <-; left; congruence].
  destruct (time_before _ now) eqn:Tb; cbn [negb] in H; [injection H as <-; left; congruence|].
  apply bind_ok in H. destruct H as (c & Ec & H). injection H as <-. right. exists o2. split; auto. split; auto. split; [|unfold last_clock in *; simpl; now rewrite <- N].
  cbn [set_cbs w_cbs]. rewrite C4, C3 in Ec. eapply scheduled_pending; eauto. lia.
Qed.

Theorem C69_callback_is_turn_off : forall env nd w i o w', freach env nd w -> schedule_event env nd w i = Ok w' -> get (w_outs w) i = Ok o -> o_type o = FUEL_EVENT ->
  w_cbs w' = w_cbs w \/ exists o', get (w_outs w') i = Ok o' /\ e_state (o_stop o') = SCHEDULED /\
    pending_at (w_cbs w') i (e_time (o_stop o')) /\ time_before (e_time (o_stop o')) (last_clock env w') = false.
Proof.
  intros env nd w i o w' R H G T. pose proof (freach_finv _ _ _ R) as I. destruct (fi_cbs _ I) as (ids & C).
  pose proof (get_range _ _ _ G) as Hr. rewrite (fi_len _ I) in Hr. unfold MAX_EVENTS in Hr.
  unfold schedule_event in H. rewrite G in H. cbn [bind] in H. rewrite T in H. apply bind_ok in H. destruct H as ([cut v] & _ & H).
  destruct (_ || _); [left; destruct (cancel_quiet env nd _ _ H) as (_ & _ & _ & K); exact K|].
  exact (fuel_callback env nd (set_vals w v (w_tip w)) i w' ids H C ltac:(lia)).
Qed.
Print Assumptions C69_callback_is_turn_off.

(** An ignition output never touches the callbacks. *)
Theorem C69_ignition_has_none : forall env nd w i o w', schedule_event env nd w i = Ok w' -> get (w_outs w) i = Ok o -> o_type o <> FUEL_EVENT -> w_cbs w' = w_cbs w.
Proof.
  intros env nd w i o w' H G T. unfold schedule_event in H. rewrite G in H. cbn [bind] in H. destruct (o_type o); [injection H as <-; auto|congruence|].
  apply bind_ok in H. destruct H as ([cut v] & _ & H). destruct (_ || _); [destruct (cancel_quiet env nd _ _ H) as (_ & _ & _ & K); exact K|].
  destruct (schedule_ignition_one env nd _ _ _ H) as [_ K]. exact K.
Qed.
Print Assumptions C69_ignition_has_none.

(** Conversely, when the call has moved the turn-off and it is still planned and not in the past, the callback is pending
    for it: an injection is always followed by the planning of the next one, also without another trigger. *)
Lemma point_out env w now w' i o' : point env w = Ok (now, w') -> get (w_outs w') i = Ok o' -> exists o, get (w_outs w) i = Ok o /\ o_type o' = o_type o /\
  forall s, e_time (which s o') = e_time (which s o).
Proof.
  unfold point. destruct (env (w_k w)) as [t l]. intros H G. apply bind_ok in H. destruct H as ([d os] & E & H). injection H as _ <-. cbn [w_outs] in G.
  destruct (swaps_pinned _ _ _ _ _ E) as [L K]. pose proof (get_range _ _ _ G) as Hr. apply get_ok in G. destruct G as [G0 G]. destruct (K _ _ G) as (o & Eo & _ & _ & T & P).
  exists o. split; [apply get_ok; auto|]. split; auto. intros s. apply (P s).
Qed.

Lemma put_out_get w i o w' j : put_out w i o = Ok w' -> 0 <= j -> get (w_outs w') j = if i =? j then Ok o else get (w_outs w) j.
Proof.
  unfold put_out. intros H Hi. apply bind_ok in H. destruct H as (os & P & H). injection H as <-. cbn [set_outs w_outs].
  pose proof P as P2. unfold put in P2. destruct (Z.ltb_spec i 0); simpl in P2; [discriminate|]. destruct (Z.leb_spec (Z.of_nat (length (w_outs w))) i); [discriminate|].
  injection P2 as <-. apply get_upd; lia.
Qed.

Theorem C69_callback_is_armed : forall env nd w i o o' w', freach env nd w -> schedule_event env nd w i = Ok w' -> get (w_outs w) i = Ok o -> o_type o = FUEL_EVENT ->
  get (w_outs w') i = Ok o' -> e_time (o_stop o') <> e_time (o_stop o) -> e_state (o_stop o') = SCHEDULED -> time_before (e_time (o_stop o')) (last_clock env w') = false ->
  pending_at (w_cbs w') i (e_time (o_stop o')).
Proof.
  intros env nd w i o o' w' R H G T G' Ne S Tb. pose proof (freach_finv _ _ _ R) as I. destruct (fi_cbs _ I) as (ids & C).
  pose proof (get_range _ _ _ G) as Hr. rewrite (fi_len _ I) in Hr. unfold MAX_EVENTS in Hr.
  unfold schedule_event in H. rewrite G in H. cbn [bind] in H. rewrite T in H. apply bind_ok in H. destruct H as ([cut v] & _ & H).
  destruct (_ || _).
  { exfalso. apply Ne. clear - H G G'. change (w_outs w) with (w_outs (set_vals w v (w_tip w))) in G.
    revert H o G. unfold cancel_outputs. generalize 0. generalize (set_vals w v (w_tip w)). induction MAX_EVENTS as [|n IH]; intros w0 k H o G; cbn [cancel_from] in H.
    - injection H as <-. congruence.
    - apply bind_ok in H. destruct H as ([x w1] & E1 & H). apply bind_ok in H. destruct H as (a & E2 & H).
      apply bind_ok in H. destruct H as (a1 & E3 & H). apply bind_ok in H. destruct H as (w2 & E4 & H).
      pose proof (get_range _ _ _ E2) as Hk. pose proof (put_out_get _ _ _ _ i E4 ltac:(pose proof (get_range _ _ _ G'); lia)) as G2.
      assert (K : forall q, get (w_outs w1) i = Ok q -> e_time (o_stop q) = e_time (o_stop o)).
      { intros q Gq. destruct (point_out _ _ _ _ _ _ E1 Gq) as (p & Gp & _ & Tp). rewrite G in Gp. injection Gp as <-. exact (Tp false). }
      destruct (Z.eqb_spec k i) as [->|N].
      + rewrite (IH _ _ H _ G2). rewrite <- (K _ E2). clear - E3. unfold invalidate_one in E3.
        destruct (sstate_eqb _ _); [injection E3 as <-; auto|]. destruct (o_type a); [injection E3 as <-; auto| |];
        (apply deschedule_inv in E3; destruct E3 as [(_ & ->)|(_ & ->)]; simpl; auto; destruct (e_state (o_stop a)); reflexivity).
      + destruct (get_in_range (w_outs w1) i) as [q Gq].
        { assert (L : length (w_outs w1) = length (w_outs w0)).
          { unfold point in E1. destruct (env (w_k w0)). apply bind_ok in E1. destruct E1 as ([d os] & Es & X). injection X as _ <-. apply (swaps_pinned _ _ _ _ _ Es). }
          rewrite L. exact (get_range _ _ _ G). }
        rewrite <- (K q Gq). apply (IH _ _ H). now rewrite G2. }
  unfold schedule_fuel in H. apply bind_ok in H. destruct H as ([x w1] & E1 & H). apply bind_ok in H. destruct H as (q & E2 & H).
  apply bind_ok in H. destruct H as ([o1 p] & E3 & H). apply bind_ok in H. destruct H as (w2 & E4 & H).
  destruct (point_out _ _ _ _ _ _ E1 E2) as (q0 & G0 & _ & T0). cbn [set_vals w_outs] in G0. rewrite G in G0. injection G0 as <-. specialize (T0 false). simpl in T0.
  assert (C2 : w_cbs w2 = w_cbs w) by (apply point_last in E1; apply put_out_k in E4; simpl in *; intuition congruence).
  destruct p as [[a b]|].
  - apply bind_ok in H. destruct H as (w3 & E5 & H). apply bind_ok in H. destruct H as ([now w4] & E6 & H). apply bind_ok in H. destruct H as (o2 & E7 & H).
    assert (C3 : w_cbs w3 = w_cbs w) by (destruct (commit_output_one _ _ _ _ _ _ E5) as [_ K]; congruence).
    destruct (point_last _ _ _ _ E6) as (N & C4 & _).
    assert (Ow : w_outs w' = w_outs w4 /\ w_k w' = w_k w4) by (destruct (_ && _); [apply bind_ok in H; destruct H as (c & _ & H)|]; injection H as <-; auto).
    destruct Ow as [Ow Kw]. rewrite Ow, E7 in G'. injection G' as <-. unfold last_clock in *. rewrite Kw, <- N in Tb. rewrite S, Tb in H. cbn [sstate_eqb andb negb] in H.
    apply bind_ok in H. destruct H as (c & Ec & H). injection H as <-. cbn [set_cbs w_cbs]. rewrite C4, C3 in Ec. eapply scheduled_pending; eauto; lia.
  - exfalso. injection H as <-. apply Ne. rewrite (put_out_get _ _ _ _ i E4 ltac:(lia)), Z.eqb_refl in G'. injection G' as <-.
    apply fuel_plan_shape in E3. destruct E3 as [[->|[_ Rs]] _]; [exact T0|]. unfold reset_fired_event in Rs.
    apply bind_ok in Rs. destruct Rs as (? & _ & Rs). apply bind_ok in Rs. destruct Rs as (? & _ & Rs). injection Rs as <-. exact T0.
Qed.
Print Assumptions C69_callback_is_armed.

Example C69_example : exists w o, frun ex_env false ex_fw ex_start = Ok w /\ get (w_outs w) 1 = Ok o /\ o_type o = FUEL_EVENT /\
  e_time (o_stop o) = 333333 /\ e_state (o_stop o) = SCHEDULED /\ pending_at (w_cbs w) 1 333333 /\ time_before 333333 310000 = false.
Proof. do 2 eexists. split; [vm_compute; reflexivity|]. repeat split; vm_compute; reflexivity. Qed.
