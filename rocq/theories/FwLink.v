(** Runs of the whole firmware (System.v) are runs of one output (Spark.v). *)
Require Import ZArith List Bool Lia.
From Verif Require Import Res Word F32 Arr TimeProofs Outputs Buffers OutputSpec OutputRun OutputProofs BufferProofs RunProofs Callbacks CallbackSafe Decoder DecoderProofs Calc System SystemProofs SystemRun SystemOutputs P_System Spark FwSpec.
Import ListNotations.
Open Scope Z_scope.
Ltac Zify.zify_post_hook ::= idtac.

Lemma swaps_before_le env a b : (a <= b)%nat -> swaps_before env a <= swaps_before env b.
Proof. induction 1; [lia|]. cbn [swaps_before]. lia. Qed.
Lemma writes_app n l l' p : writes_from n (l ++ l') p = writes_from n l p ++ writes_from (n + Z.of_nat (length l)) l' p.
Proof.
  revert n. induction l as [|b l IH]; intros n; cbn [app writes_from length].
  - now rewrite Z.add_0_r.
  - rewrite IH, <- app_assoc. do 3 f_equal. lia.
Qed.
Lemma played_length l : forall d os d' os', swaps l d os = Ok (d', os') -> length (played l d os) = length l.
Proof.
  induction l as [|now l IH]; intros d os d' os' H; [reflexivity|]. cbn [swaps] in H. apply bind_ok in H. destruct H as ([d1 o1] & E & H).
  cbn [played length]. rewrite E. f_equal. eauto.
Qed.

Section Link.
Variable env : nat -> Z * list Z.
Variable nd : bool.
Variable m : Z.
Hypothesis ON : punctual env m.
Variables (i : nat) (pin late : Z) (tt : Z -> Z).
Variable dec : Z -> dview -> output -> res (output * option (Z * Z)).
Variable vw : Z -> dview.
Hypothesis Mono : forall k, 0 <= k -> tt k <= tt (k + 1).

Notation Exec := (exec nd dec vw tt i pin late).
Lemma exec_app s l s1 l' s2 : Exec s l s1 -> Exec s1 l' s2 -> Exec s (l ++ l') s2.
Proof. induction 1; simpl; auto. intros. econstructor; eauto. Qed.
Lemma exec_one s e s1 : may tt i late s e -> go nd dec vw i pin s e = Ok s1 -> Exec s [e] s1.
Proof. intros. econstructor; eauto. constructor. Qed.

(** The state of the output's run that goes with a state of the firmware. *)
Definition stw (w : fw) (r : option (Z * Z)) (k : Z) (ph : phase) : st := St (osys env m w) r k ph (pin_log m w pin).
Definition in_step (w : fw) : Prop := Z.of_nat (length (w_played w)) = swaps_before env (w_k w).

Definition linked (w : fw) (r : option (Z * Z)) (k : Z) (ph : phase) (w' : fw) (r' : option (Z * Z)) (k' : Z) (ph' : phase) : Prop :=
  (w_k w <= w_k w')%nat /\ tt k <= tt k' /\
  (in_step w -> open_from (block_of env m w') <= tt k + late -> in_step w' /\ exists l, Exec (stw w r k ph) l (stw w' r' k' ph')).

Lemma block_le w w' : (w_k w <= w_k w')%nat -> block_of env m w <= block_of env m w'.
Proof. intros H. pose proof (swaps_before_le env _ _ H). unfold block_of. lia. Qed.
Lemma open_le a b : a <= b -> open_from a <= open_from b.
Proof. unfold open_from. lia. Qed.

Lemma linked_trans w1 r1 k1 p1 w2 r2 k2 p2 w3 r3 k3 p3 : linked w1 r1 k1 p1 w2 r2 k2 p2 -> linked w2 r2 k2 p2 w3 r3 k3 p3 -> linked w1 r1 k1 p1 w3 r3 k3 p3.
Proof.
  intros (A1 & A2 & A3) (B1 & B2 & B3). split; [lia|]. split; [lia|]. intros C O. pose proof (open_le _ _ (block_le _ _ B1)).
  destruct A3 as (C2 & l & X); [exact C|lia|]. destruct B3 as (C3 & l' & Y); [exact C2|lia|]. split; [exact C3|]. exists (l ++ l'). eapply exec_app; eauto.
Qed.
Lemma linked_refl w r k ph w' : w_dma w' = w_dma w -> w_outs w' = w_outs w -> w_k w' = w_k w -> w_played w' = w_played w -> linked w r k ph w' r k ph.
Proof.
  intros A B C D. split; [lia|]. split; [lia|]. intros H _. split; [unfold in_step in *; now rewrite C, D|]. exists [].
  replace (stw w' r k ph) with (stw w r k ph); [constructor|]. unfold stw, osys, block_of, pin_log. now rewrite A, B, C, D.
Qed.

Lemma swaps_exec l : forall n d os d' os' r k ph log, swaps l d os = Ok (d', os') ->
  (forall j t, nth_error l j = Some t -> exists T, t = w32 T /\ T / 128 = n + 1 + Z.of_nat j) ->
  open_from (n + Z.of_nat (length l)) <= tt k + late ->
  exists acts, Exec (St (Sys n d os) r k ph log) acts (St (Sys (n + Z.of_nat (length l)) d' os') r k ph (log ++ writes_from n (played l d os) pin)).
Proof.
  induction l as [|now l IH]; intros n d os d' os' r k ph log H T O; cbn [swaps] in H.
  - injection H as <- <-. exists []. cbn [length played writes_from]. rewrite app_nil_r, Z.add_0_r. constructor.
  - apply bind_ok in H. destruct H as ([d1 o1] & E & H). destruct (T 0%nat now eq_refl) as (x & -> & Tx).
    destruct (IH (n + 1) d1 o1 d' os' r k ph (log ++ pin_writes (d_cur d) n pin) H) as [acts R].
    { intros j t E1. destruct (T (S j) t E1) as (y & Ey & Ty). exists y. split; auto. lia. }
    { cbn [length] in O. replace (n + 1 + Z.of_nat (length l)) with (n + Z.of_nat (S (length l))) by lia. exact O. }
    exists (SwapIrq x :: acts). eapply Exec_cons with (s1 := St (Sys (n + 1) d1 o1) r k ph (log ++ pin_writes (d_cur d) n pin)).
    + cbn [may st_sys y_n st_next]. split; [lia|]. cbn [length] in O. pose proof (open_le (n + 1) (n + Z.of_nat (S (length l)))). lia.
    + cbn [go st_sys st_req st_next st_phase st_log y_dma y_n step y_outs]. rewrite E. reflexivity.
    + cbn [length played writes_from]. rewrite E, app_assoc. replace (n + Z.of_nat (S (length l))) with (n + 1 + Z.of_nat (length l)) by lia. exact R.
Qed.

Lemma point_linked w now w' r k ph : point env w = Ok (now, w') -> linked w r k ph w' r k ph.
Proof.
  unfold point. pose proof (ON (w_k w)) as T. destruct (env (w_k w)) as [t l] eqn:Ee. intros H. apply bind_ok in H. destruct H as ([d os] & E & H). injection H as <- <-.
  split; [cbn [w_k]; lia|]. split; [lia|]. intros C O. assert (Eb : block_of env m w + Z.of_nat (length l) = m + (swaps_before env (w_k w) + Z.of_nat (length l)) - 1) by (unfold block_of; lia).
  split.
  - unfold in_step in *. cbn [w_played w_k swaps_before]. rewrite app_length, (played_length _ _ _ _ _ E), Ee. cbn [snd]. lia.
  - destruct (swaps_exec l (block_of env m w) _ _ _ _ r k ph (pin_log m w pin) E) as [acts R].
    { intros j x Ex. destruct (T j x Ex) as (y & Ey & Ty). exists y. split; auto. unfold block_of. lia. }
    { unfold block_of at 1 in O. cbn [w_k swaps_before] in O. rewrite Ee in O. cbn [snd] in O. rewrite Eb. exact O. }
    exists acts. unfold stw. unfold osys at 2. unfold block_of. cbn [w_k w_dma w_outs swaps_before]. rewrite Ee. cbn [snd]. rewrite <- Eb.
    unfold pin_log at 2. cbn [w_played]. rewrite writes_app, C. replace (m - 1 + swaps_before env (w_k w)) with (block_of env m w) by (unfold block_of; lia). exact R.
Qed.

(** One atomic step on another output. *)
Lemma put_other w j o o' w' a r k ph : get (w_outs w) j = Ok o -> put_out w j o' = Ok w' -> legal (osys env m w) a -> Z.to_nat j <> i ->
  match a with Pins x | Commit x _ _ | Reset x | Deschedule x => x = Z.to_nat j | Swap _ => False end ->
  step nd (osys env m w) a = Ok (Sys (block_of env m w) (w_dma w) (upd_nat (w_outs w) (Z.to_nat j) o')) -> linked w r k ph w' r k ph.
Proof.
  intros G P L N Ax S. unfold put_out in P. apply bind_ok in P. destruct P as (os & P & H). injection H as <-.
  rewrite put_ok in P by (eapply get_range; eauto). injection P as <-. split; [cbn [set_outs w_k]; lia|]. split; [lia|]. intros C _. split; [exact C|].
  exists [Other a]. apply exec_one.
  - cbn [may stw st_sys]. split; [exact L|]. destruct a; try contradiction; congruence.
  - cbn [go stw st_sys st_req st_next st_phase st_log]. rewrite S. reflexivity.
Qed.
Lemma put_same' w j o w' r k ph : get (w_outs w) j = Ok o -> put_out w j o = Ok w' -> linked w r k ph w' r k ph.
Proof.
  intros G P. unfold put_out in P. apply bind_ok in P. destruct P as (os & P & H). injection H as <-.
  rewrite put_ok in P by (eapply get_range; eauto). injection P as <-. apply linked_refl; auto. simpl.
  apply get_ok in G. destruct G as [_ G]. generalize (Z.to_nat j) G. clear. induction (w_outs w) as [|x l IH]; intros [|n] E; simpl in *; try discriminate.
  - now injection E as ->.
  - now rewrite IH.
Qed.

Lemma recycled_linked w j o o1 w' r k ph : get (w_outs w) j = Ok o -> recycled nd o o1 -> put_out w j o1 = Ok w' -> Z.to_nat j <> i -> linked w r k ph w' r k ph.
Proof.
  intros G [->|[F R]] P N; [eapply put_same'; eauto|]. destruct (index_ok _ _ _ G) as [Ei Li].
  apply (put_other w j o o1 w' (Reset (Z.to_nat j))); auto; [split; [exact I|split; [exact Li|exact I]]|].
  cbn [step osys y_outs y_n y_dma]. unfold upd_output. rewrite Ei, F, R. reflexivity.
Qed.

(** The pins set by a call are still set when it gets to its critical section. *)
Lemma pins_kept w2 j o y w3 o2 w1 : get (w_outs w1) j = Ok o -> put_out w1 j (set_pins o) = Ok w2 -> point env w2 = Ok (y, w3) -> get (w_outs w3) j = Ok o2 ->
  start_pinned o2 /\ stop_pinned o2.
Proof.
  intros E2 E3 E4 E5. destruct (index_ok _ _ _ E5) as [Ei Li].
  assert (O2 : nth_error (w_outs w2) (Z.to_nat j) = Some (set_pins o)).
  { unfold put_out in E3. apply bind_ok in E3. destruct E3 as (os & P & X). injection X as <-. rewrite put_ok in P by (eapply get_range; eauto). injection P as <-.
    simpl. eapply upd_same. apply (index_ok _ _ _ E2). }
  unfold point in E4. destruct (env (w_k w2)) as [t l]. apply bind_ok in E4. destruct E4 as ([d os] & Es & X). injection X as _ <-. cbn [w_outs] in Ei.
  destruct (swaps_pinned _ _ _ _ _ Es) as [_ K]. destruct (K _ _ Ei) as (p & Ep & P1 & P2 & _ & P4). rewrite O2 in Ep. injection Ep as <-.
  destruct (P4 true) as (A1 & A2 & _), (P4 false) as (B1 & B2 & _). simpl in A1, A2, B1, B2, P1, P2.
  unfold start_pinned, stop_pinned. rewrite A1, A2, B1, B2, P1, P2. auto.
Qed.

Lemma commit_linked w j a b w' r k ph : commit_output env w j a b = Ok w' -> word a -> word b -> Z.to_nat j <> i -> linked w r k ph w' r k ph.
Proof.
  unfold commit_output. intros H Wa Wb N. apply bind_ok in H. destruct H as ([x w1] & E1 & H). apply bind_ok in H. destruct H as (o & E2 & H).
  apply bind_ok in H. destruct H as (w2 & E3 & H). apply bind_ok in H. destruct H as ([y w3] & E4 & H). apply bind_ok in H. destruct H as (o2 & E5 & H).
  eapply linked_trans; [eapply point_linked; eauto|]. eapply linked_trans; [|eapply linked_trans; [eapply point_linked; eauto|]].
  - destruct (index_ok _ _ _ E2) as [Ei Li]. apply (put_other w1 j o (set_pins o) w2 (Pins (Z.to_nat j))); auto; [split; [exact I|split; [exact Li|exact I]]|].
    cbn [step osys y_outs y_n y_dma]. unfold upd_output. rewrite Ei. reflexivity.
  - destruct (index_ok _ _ _ E5) as [Ei Li].
    apply (put_other w3 j o2 (commit_times (earliest_schedulable (w_dma w3)) o2 a b) w' (Commit (Z.to_nat j) a b)); auto.
    + split; [exact I|split; [exact Li|]]. cbn [osys y_outs]. intros o3 E6. rewrite Ei in E6. injection E6 as <-. exact (pins_kept _ _ _ _ _ _ _ E2 E3 E4 E5).
    + cbn [step osys y_outs y_n y_dma]. unfold upd_output. rewrite Ei, (w32_word a Wa), (w32_word b Wb). reflexivity.
Qed.

Lemma ignition_linked w j w' r k ph : schedule_ignition env nd w j = Ok w' -> Z.to_nat j <> i -> linked w r k ph w' r k ph.
Proof.
  unfold schedule_ignition. intros H N. apply bind_ok in H. destruct H as ([x w1] & E1 & H). apply bind_ok in H. destruct H as (o & E2 & H).
  apply bind_ok in H. destruct H as ([o1 p] & E3 & H). apply bind_ok in H. destruct H as (w2 & E4 & H).
  apply ignition_plan_shape in E3. destruct E3 as [R Wp].
  eapply linked_trans; [eapply point_linked; eauto|]. eapply linked_trans; [eapply recycled_linked; eauto|].
  destruct p as [[a b]|]; [eapply commit_linked; eauto; apply Wp|injection H as <-; apply linked_refl; auto].
Qed.
Lemma fuel_linked w j w' r k ph : schedule_fuel env nd w j = Ok w' -> Z.to_nat j <> i -> linked w r k ph w' r k ph.
Proof.
  unfold schedule_fuel. intros H N. apply bind_ok in H. destruct H as ([x w1] & E1 & H). apply bind_ok in H. destruct H as (o & E2 & H).
  apply bind_ok in H. destruct H as ([o1 p] & E3 & H). apply bind_ok in H. destruct H as (w2 & E4 & H).
  apply fuel_plan_shape in E3. destruct E3 as [R Wp].
  eapply linked_trans; [eapply point_linked; eauto|]. eapply linked_trans; [eapply recycled_linked; eauto|].
  destruct p as [[a b]|]; [|injection H as <-; apply linked_refl; auto].
  apply bind_ok in H. destruct H as (w3 & E5 & H). apply bind_ok in H. destruct H as ([now w4] & E6 & H). apply bind_ok in H. destruct H as (o2 & E7 & H).
  eapply linked_trans; [eapply commit_linked; eauto; apply Wp|]. eapply linked_trans; [eapply point_linked; eauto|].
  destruct (_ && _); [apply bind_ok in H; destruct H as (c & _ & H)|]; injection H as <-; apply linked_refl; auto.
Qed.

(** ** The output's own call *)
Lemma put_own w w' o' : put_out w (Z.of_nat i) o' = Ok w' -> osys env m w' = Sys (block_of env m w) (w_dma w) (upd_nat (w_outs w) i o') /\ w_k w' = w_k w /\ w_played w' = w_played w.
Proof.
  unfold put_out. intros P. apply bind_ok in P. destruct P as (os & P & H). injection H as <-. unfold put in P.
  destruct (_ || _) in P; [discriminate|]. injection P as <-. rewrite Nat2Z.id. auto.
Qed.
Lemma own_index (w : fw) o : get (w_outs w) (Z.of_nat i) = Ok o -> nth_error (w_outs w) i = Some o /\ (i < length (w_outs w))%nat.
Proof. intros G. apply index_ok in G. rewrite Nat2Z.id in G. exact G. Qed.

Lemma own_ask w o o1 p w' k : get (w_outs w) (Z.of_nat i) = Ok o -> dec k (vw k) o = Ok (o1, p) -> put_out w (Z.of_nat i) o1 = Ok w' -> tt k < open_from (block_of env m w) ->
  linked w None k Waiting w' p k Asked.
Proof.
  intros G D P T. destruct (own_index _ _ G) as [Eo Li]. destruct (put_own _ _ _ P) as (Es & Ek & Ep). split; [lia|]. split; [lia|]. intros C _.
  split; [unfold in_step in *; now rewrite Ek, Ep|]. exists [Ask]. apply exec_one.
  - cbn [may stw st_phase st_next st_sys]. split; [reflexivity|]. exact T.
  - cbn [go stw st_next st_sys st_log osys y_outs y_n y_dma]. rewrite Eo, D. cbn [bind]. unfold stw, pin_log. now rewrite Es, Ep.
Qed.
Lemma own_none w k : 0 <= k -> linked w None k Asked w None (k + 1) Waiting.
Proof.
  intros Hk. split; [lia|]. split; [apply Mono; lia|]. intros C _. split; [exact C|]. exists [SetPins; Write]. econstructor; [reflexivity|reflexivity|]. apply exec_one; reflexivity.
Qed.
Lemma own_commit w a b w' k : 0 <= k -> commit_output env w (Z.of_nat i) a b = Ok w' -> word a -> word b -> linked w (Some (a, b)) k Asked w' None (k + 1) Waiting.
Proof.
  unfold commit_output. intros Hk H Wa Wb. apply bind_ok in H. destruct H as ([x w1] & E1 & H). apply bind_ok in H. destruct H as (o & E2 & H).
  apply bind_ok in H. destruct H as (w2 & E3 & H). apply bind_ok in H. destruct H as ([y w3] & E4 & H). apply bind_ok in H. destruct H as (o2 & E5 & H).
  eapply linked_trans; [eapply point_linked; eauto|]. apply linked_trans with (w2 := w2) (r2 := Some (a, b)) (k2 := k) (p2 := Pinned); [|eapply linked_trans; [eapply point_linked; eauto|]].
  - destruct (own_index _ _ E2) as [Eo Li]. destruct (put_own _ _ _ E3) as (Es & Ek & Ep). split; [lia|]. split; [lia|]. intros C _.
    split; [unfold in_step in *; now rewrite Ek, Ep|]. exists [SetPins]. apply exec_one; [reflexivity|].
    cbn [go stw st_req st_sys st_next st_log step osys y_outs y_n y_dma]. unfold upd_output. rewrite Eo. cbn [bind]. unfold stw, pin_log. now rewrite Es, Ep.
  - destruct (own_index _ _ E5) as [Eo Li]. destruct (put_own _ _ _ H) as (Es & Ek & Ep). split; [lia|]. split; [apply Mono; lia|]. intros C _.
    split; [unfold in_step in *; now rewrite Ek, Ep|]. exists [Write]. apply exec_one; [reflexivity|].
    cbn [go stw st_req st_sys st_next st_log step osys y_outs y_n y_dma]. unfold upd_output. rewrite Eo, (w32_word a Wa), (w32_word b Wb). cbn [bind]. unfold stw, pin_log. now rewrite Es, Ep.
Qed.

Lemma own_ignition w w' k : 0 <= k -> schedule_ignition env nd w (Z.of_nat i) = Ok w' -> tt k < open_from (block_of env m w) -> vw k = view w ->
  (forall d o, dec k d o = decide nd (k_min_fire (w_cc w)) d o (cv_advance (w_vals w)) (cv_dwell (w_vals w))) -> linked w None k Waiting w' None (k + 1) Waiting.
Proof.
  unfold schedule_ignition. intros Hk H T V D. apply bind_ok in H. destruct H as ([x w1] & E1 & H). apply bind_ok in H. destruct H as (o & E2 & H).
  apply bind_ok in H. destruct H as ([o1 p] & E3 & H). apply bind_ok in H. destruct H as (w2 & E4 & H). pose proof E3 as E3'. apply ignition_plan_shape in E3'. destruct E3' as [_ Wp].
  pose proof (point_quiet _ _ _ _ E1) as ((S1 & S2 & S3 & _) & _ & Sv & _). pose proof (point_linked _ _ _ None k Waiting E1) as P1. pose proof (open_le _ _ (block_le _ _ (proj1 P1))) as Ob.
  eapply linked_trans; [exact P1|]. eapply linked_trans.
  - apply (own_ask w1 o o1 p w2 k); auto; [|lia]. rewrite D, V. replace (view w) with (view w1) by (unfold view; now rewrite S1, S2). rewrite <- S3, <- Sv. exact E3.
  - destruct p as [[a b]|]; [eapply own_commit; eauto; apply Wp|injection H as <-; apply own_none; auto].
Qed.
Lemma own_fuel w w' k : 0 <= k -> schedule_fuel env nd w (Z.of_nat i) = Ok w' -> tt k < open_from (block_of env m w) -> vw k = view w ->
  (forall d o, dec k d o = decide_fuel nd d o (cv_fueling (w_vals w))) -> linked w None k Waiting w' None (k + 1) Waiting.
Proof.
  unfold schedule_fuel. intros Hk H T V D. apply bind_ok in H. destruct H as ([x w1] & E1 & H). apply bind_ok in H. destruct H as (o & E2 & H).
  apply bind_ok in H. destruct H as ([o1 p] & E3 & H). apply bind_ok in H. destruct H as (w2 & E4 & H). pose proof E3 as E3'. apply fuel_plan_shape in E3'. destruct E3' as [_ Wp].
  pose proof (point_quiet _ _ _ _ E1) as ((S1 & S2 & S3 & _) & _ & Sv & _). pose proof (point_linked _ _ _ None k Waiting E1) as P1. pose proof (open_le _ _ (block_le _ _ (proj1 P1))) as Ob.
  eapply linked_trans; [exact P1|]. eapply linked_trans.
  - apply (own_ask w1 o o1 p w2 k); auto; [|lia]. rewrite D, V. replace (view w) with (view w1) by (unfold view; now rewrite S1, S2). rewrite <- Sv. exact E3.
  - destruct p as [[a b]|]; [|injection H as <-; apply own_none; auto].
    apply bind_ok in H. destruct H as (w3 & E5 & H). apply bind_ok in H. destruct H as ([now w4] & E6 & H). apply bind_ok in H. destruct H as (o2 & E7 & H).
    eapply linked_trans; [eapply own_commit; eauto; apply Wp|]. eapply linked_trans; [eapply point_linked; eauto|].
    destruct (_ && _); [apply bind_ok in H; destruct H as (c & _ & H)|]; injection H as <-; apply linked_refl; auto.
Qed.

(** ** schedule_event *)
(** The decision of a call for an output of type [ty], with the calculated values [v]. *)
Definition told (ty : etype) (rest : Z) (v : cvals) (d : dview) (o : output) : res (output * option (Z * Z)) :=
  match ty with
  | IGNITION_EVENT => decide nd rest d o (cv_advance v) (cv_dwell v)
  | FUEL_EVENT => decide_fuel nd d o (cv_fueling v)
  | DISABLED_EVENT => Ok (o, None)
  end.
Lemma told_cuts ty rest v v' : cuts_only v v' -> told ty rest v' = told ty rest v.
Proof. intros (a & b & c & ->). reflexivity. Qed.

Lemma cut_true k rpm s v v' : ignition_cut k rpm s v = Ok (true, v') -> must_cut k rpm (cv_rpm_cut v') s (cv_fueling v') /\ ~ no_cut v'.
Proof.
  unfold ignition_cut, rpm_cut. set (c := if rpm <? k_rpm_start k then 0 else if k_rpm_stop k <=? rpm then 1 else cv_rpm_cut v). intros H.
  destruct (Z.eqb_spec c 0) as [C|C]; cbn [negb] in H.
  - apply bind_ok in H. destruct H as ([o v1] & E & H). unfold fuel_overduty in E. apply bind_ok in E. destruct E as (cyc & E1 & E).
    apply bind_ok in E. destruct E as (mx & E2 & E). apply bind_ok in E. destruct E as (pw & E3 & E). injection E as <- <-.
    cbn [set_cuts cv_fueling cv_rpm_cut] in *. destruct (Z.leb_spec mx pw) as [Le|Lt].
    + injection H as <-. cbn [set_cuts cv_fueling cv_rpm_cut]. split; [|unfold no_cut; cbn; intros (_ & _ & ?); discriminate].
      right. right. exists cyc, pw. destruct (Z.eqb_spec (fu_inj (k_fuel k)) 0); [discriminate|]. injection E2 as <-. auto.
    + unfold boost_cut in H. injection H as B <-. cbn [set_cuts cv_fueling cv_rpm_cut]. split; [right; left; exact B|]. unfold no_cut. cbn. rewrite B. intros (_ & ? & _). discriminate.
  - injection H as <-. cbn [set_cuts cv_fueling cv_rpm_cut]. split; [|unfold no_cut; cbn; tauto].
    left. unfold rev_limited. unfold c in *. clear c. destruct (Z.ltb_spec rpm (k_rpm_start k)); [lia|]. destruct (Z.leb_spec (k_rpm_stop k) rpm); split; auto; lia.
Qed.

(** A cut during a round of calls still shows at the end of it. *)
Definition cutting (w : fw) : Prop := must_cut (w_cc w) (dd_rpm (w_dec w)) (cv_rpm_cut (w_vals w)) (w_sens w) (cv_fueling (w_vals w)) /\ ~ no_cut (w_vals w).
Lemma event_cutting w j w' : schedule_event env nd w j = Ok w' -> cutting w -> cutting w'.
Proof.
  intros H [M N]. destruct (schedule_event_spec _ _ _ _ _ H) as (o & G & (S & _) & T). destruct S as (_ & S2 & S3 & S4 & _).
  assert (K : w' = w \/ exists cut v, ignition_cut (w_cc w) (dd_rpm (w_dec w)) (w_sens w) (w_vals w) = Ok (cut, v) /\ w_vals w' = v) by (destruct (o_type o); [auto| |]; destruct T as (cut & v & C & V & _); eauto).
  destruct K as [->|(cut & v & C & V)]; [split; auto|]. destruct (cut_again _ _ _ _ _ _ M C) as [-> _]. destruct (cut_true _ _ _ _ _ C) as [M' N'].
  unfold cutting. rewrite S2, S3, S4, V. auto.
Qed.
Lemma from_cutting n : forall j w w', schedule_from env nd n j w = Ok w' -> cutting w -> cutting w'.
Proof.
  induction n as [|n IH]; intros j w w' H C; cbn [schedule_from] in H; [now injection H as <-|].
  apply bind_ok in H. destruct H as (w1 & E & H). eauto using event_cutting.
Qed.

(** What a call that is not cut does. *)
Lemma event_cases w j w' : schedule_event env nd w j = Ok w' -> dd_valid (w_dec w) <> 0 -> no_cut (w_vals w') \/ ~ cutting w' ->
  exists o, get (w_outs w) j = Ok o /\ match o_type o with
  | DISABLED_EVENT => w' = w
  | IGNITION_EVENT => exists v, cuts_only (w_vals w) v /\ schedule_ignition env nd (set_vals w v (w_tip w)) j = Ok w'
  | FUEL_EVENT => exists v, cuts_only (w_vals w) v /\ schedule_fuel env nd (set_vals w v (w_tip w)) j = Ok w' end.
Proof.
  intros H V NC. destruct (schedule_event_spec _ _ _ _ _ H) as (o' & G' & (S & _) & T). unfold schedule_event in H. apply bind_ok in H. destruct H as (o & G & H). rewrite G in G'. injection G' as <-.
  exists o. split; [exact G|]. destruct S as (_ & S2 & S3 & S4 & _).
  assert (K : forall cut v, ignition_cut (w_cc w) (dd_rpm (w_dec w)) (w_sens w) (w_vals w) = Ok (cut, v) -> w_vals w' = v -> cut = false).
  { intros [|] v C E; [|reflexivity]. exfalso. destruct (cut_true _ _ _ _ _ C) as [M N]. destruct NC as [NC|NC]; [rewrite E in NC; auto|]. apply NC. unfold cutting. rewrite S2, S3, S4, E. auto. }
  assert (Vb : (dd_valid (w_dec w) =? 0) = false) by now apply Z.eqb_neq.
  destruct (o_type o); [now injection H| |]; (apply bind_ok in H; destruct H as ([cut v] & C & H); destruct T as (cut' & v' & C' & E & _);
    unfold fuel_cut in C; rewrite C' in C; injection C as -> ->; rewrite (K cut v C' E) in H; cbn [orb set_vals w_dec] in H; rewrite Vb in H;
    exists v; split; [exact (ignition_cut_cuts _ _ _ _ _ _ C')|exact H]).
Qed.

Lemma event_other w j w' r k ph : schedule_event env nd w j = Ok w' -> dd_valid (w_dec w) <> 0 -> no_cut (w_vals w') \/ ~ cutting w' -> Z.to_nat j <> i -> linked w r k ph w' r k ph.
Proof.
  intros H V NC N. destruct (event_cases _ _ _ H V NC) as (o & _ & T). destruct (o_type o).
  - subst. apply linked_refl; reflexivity.
  - destruct T as (v & _ & T). eapply linked_trans; [|eapply fuel_linked; eauto]. apply linked_refl; reflexivity.
  - destruct T as (v & _ & T). eapply linked_trans; [|eapply ignition_linked; eauto]. apply linked_refl; reflexivity.
Qed.

Definition typed (ty : etype) (w : fw) : Prop := exists o, nth_error (w_outs w) i = Some o /\ o_type o = ty.
Lemma leq_typed ty P w w' : leq P (w_outs w) (w_outs w') -> typed ty w -> typed ty w'.
Proof.
  intros L (o & E & T). assert (X : (i < length (w_outs w'))%nat) by (destruct L as [-> _]; apply nth_error_Some; congruence).
  apply nth_error_Some in X. destruct (nth_error (w_outs w') i) as [o'|] eqn:E'; [|tauto]. exists o'. split; auto. rewrite <- T. eapply leq_type; eauto.
Qed.

Lemma event_own ty w w' k : 0 <= k -> schedule_event env nd w (Z.of_nat i) = Ok w' -> dd_valid (w_dec w) <> 0 -> no_cut (w_vals w') \/ ~ cutting w' -> typed ty w -> ty <> DISABLED_EVENT ->
  tt k < open_from (block_of env m w) -> vw k = view w -> (forall d o, dec k d o = told ty (k_min_fire (w_cc w)) (w_vals w) d o) -> linked w None k Waiting w' None (k + 1) Waiting.
Proof.
  intros Hk H V NC (o & Eo & To) Nd T Vw De. destruct (event_cases _ _ _ H V NC) as (o' & G & K). apply index_ok in G. rewrite Nat2Z.id in G. destruct G as [G _]. assert (o' = o) by congruence. subst o'. rewrite To in K.
  destruct ty; [congruence| |]; destruct K as (v & Cu & K); destruct Cu as (a & b & c & Ev).
  - eapply linked_trans; [|eapply own_fuel; [exact Hk|exact K| | |]]; [apply linked_refl; reflexivity|exact T|exact Vw|]. intros d o0. rewrite De, Ev. reflexivity.
  - eapply linked_trans; [|eapply own_ignition; [exact Hk|exact K| | |]]; [apply linked_refl; reflexivity|exact T|exact Vw|]. intros d o0. rewrite De, Ev. reflexivity.
Qed.

(** ** A round of calls *)
Lemma from_not_cutting n j w w' : schedule_from env nd n j w = Ok w' -> no_cut (w_vals w') -> ~ cutting w.
Proof. intros H N C. destruct (from_cutting _ _ _ _ H C). auto. Qed.
Lemma from_other n : forall j w w' r k ph, schedule_from env nd n j w = Ok w' -> 0 <= j -> dd_valid (w_dec w) <> 0 -> no_cut (w_vals w') -> (Z.of_nat i < j \/ j + Z.of_nat n <= Z.of_nat i) ->
  linked w r k ph w' r k ph.
Proof.
  induction n as [|n IH]; intros j w w' r k ph H Hj V NC N; cbn [schedule_from] in H; [injection H as <-; apply linked_refl; reflexivity|].
  apply bind_ok in H. destruct H as (w1 & E & H). pose proof (from_not_cutting _ _ _ _ H NC) as C1. destruct (schedule_event_spec _ _ _ _ _ E) as (o & _ & ((_ & S2 & _) & _) & _).
  eapply linked_trans; [eapply event_other; eauto; lia|]. apply (IH (j + 1) w1 w'); auto; [lia|now rewrite S2|lia].
Qed.
Lemma from_own ty n : forall j w w' k, 0 <= k -> schedule_from env nd n j w = Ok w' -> 0 <= j -> dd_valid (w_dec w) <> 0 -> no_cut (w_vals w') -> j <= Z.of_nat i < j + Z.of_nat n ->
  typed ty w -> ty <> DISABLED_EVENT -> tt k < open_from (block_of env m w) -> vw k = view w -> (forall d o, dec k d o = told ty (k_min_fire (w_cc w)) (w_vals w) d o) ->
  linked w None k Waiting w' None (k + 1) Waiting.
Proof.
  induction n as [|n IH]; intros j w w' k Hk H Hj V NC N Ty Nd T Vw De; cbn [schedule_from] in H; [lia|].
  apply bind_ok in H. destruct H as (w1 & E & H). pose proof (from_not_cutting _ _ _ _ H NC) as C1. destruct (schedule_event_spec _ _ _ _ _ E) as (o & _ & ((S1 & S2 & S3 & _) & L & Cu & _) & _).
  destruct (Z.eq_dec j (Z.of_nat i)) as [->|Nj].
  - eapply linked_trans; [eapply event_own; eauto|]. apply (from_other n (Z.of_nat i + 1) w1 w'); auto; [lia|now rewrite S2|lia].
  - assert (Lo : linked w None k Waiting w1 None k Waiting) by (eapply event_other; eauto; lia). pose proof (open_le _ _ (block_le _ _ (proj1 Lo))).
    eapply linked_trans; [exact Lo|]. apply (IH (j + 1) w1 w'); auto; [lia|now rewrite S2|lia|eapply leq_typed; eauto|lia|rewrite Vw; unfold view; now rewrite S1, S2|].
    intros d o0. rewrite De, S3, (told_cuts _ _ _ _ Cu). reflexivity.
Qed.

(** ** Triggers *)
Lemma effects_linked fx : forall w w' r k ph, effects env nd fx w = Ok w' -> ~ In CancelOutputs fx -> same w w' /\ w_vals w' = w_vals w /\ w_outs w' = w_outs w /\ linked w r k ph w' r k ph.
Proof.
  induction fx as [|[t|] fx IH]; intros w w' r k ph H N; cbn [effects] in H.
  - injection H as <-. split; [apply same_refl|]. split; [auto|]. split; [auto|]. apply linked_refl; reflexivity.
  - apply bind_ok in H. destruct H as (c & _ & H). destruct (IH (set_cbs w c) w' r k ph H) as (S & V & O & L); [intros J; apply N; now right|].
    split; [exact S|]. split; [exact V|]. split; [exact O|]. eapply linked_trans; [|exact L]. apply linked_refl; reflexivity.
  - exfalso. apply N. now left.
Qed.

Lemma trigger_linked ty w n t w' k : 0 <= k -> decoder_update_scheduling env nd w n t = Ok w' -> no_cut (w_vals w') -> typed ty w -> ty <> DISABLED_EVENT -> (i < 16)%nat ->
  (forall d fx, decoder_trigger (w_dc w) (w_dec w) n t = Ok (d, fx) -> ~ In CancelOutputs fx) ->
  (dd_valid (w_dec w') <> 0 -> tt k < open_from (block_of env m w) /\ vw k = view w' /\ (forall d o, dec k d o = told ty (k_min_fire (w_cc w)) (w_vals w') d o)) ->
  typed ty w' /\ linked w None k Waiting w' None (if negb (dd_valid (w_dec w') =? 0) then k + 1 else k) Waiting.
Proof.
  unfold decoder_update_scheduling. intros Hk H NC Ty Nd Hi NF K. apply bind_ok in H. destruct H as ([d fx] & E & H). specialize (NF d fx E). apply bind_ok in H. destruct H as (w1 & E1 & H).
  destruct (effects_linked fx (set_dec w d) w1 None k Waiting E1 NF) as ((S1 & S2 & S3 & _) & V1 & O1 & L1). cbn [set_dec w_dc w_dec w_cc w_outs w_vals] in *.
  assert (L1' : linked w None k Waiting w1 None k Waiting) by (eapply linked_trans; [|exact L1]; apply linked_refl; reflexivity). clear L1.
  assert (Ty1 : typed ty w1) by (unfold typed in *; now rewrite O1).
  destruct (Z.eqb_spec (dd_valid (w_dec w1)) 0) as [Z0|Z0].
  - injection H as <-. rewrite Z0. cbn [Z.eqb negb]. auto.
  - apply bind_ok in H. destruct H as (v & _ & H). apply bind_ok in H. destruct H as ([now w2] & E2 & H). apply bind_ok in H. destruct H as ([v2 c2] & _ & H).
    pose proof (point_linked _ _ _ None k Waiting E2) as L2. pose proof (point_quiet _ _ _ _ E2) as ((R1 & R2 & R3 & _) & Q2 & _).
    set (w3 := set_vals w2 v2 c2) in *. assert (Ty3 : typed ty w3) by (apply (leq_typed ty nobody w1); auto).
    assert (F : forall nn j a b, schedule_from env nd nn j a = Ok b -> same a b /\ cuts_only (w_vals a) (w_vals b) /\ (typed ty a -> typed ty b)).
    { clear H. induction nn as [|nn IH]; intros j a b H; cbn [schedule_from] in H; [injection H as <-; split; [apply same_refl|]; split; [apply cuts_refl|auto]|].
      apply bind_ok in H. destruct H as (a1 & Ea & H). destruct (schedule_event_spec _ _ _ _ _ Ea) as (o & _ & (S & L & Cu & _) & _). destruct (IH _ _ _ H) as (S' & Cu' & T').
      split; [eapply same_trans; eauto|]. split; [eapply cuts_trans; eauto|]. intros T. apply T'. eapply leq_typed; eauto. }
    destruct (F _ _ _ _ H) as ((X1 & X2 & X3 & _) & Cu & Tf). split; [auto|]. cbn [w3 set_vals w_dc w_dec w_cc w_vals] in X1, X2, X3, Cu.
    assert (Ev : dd_valid (w_dec w') <> 0) by congruence. destruct (Z.eqb_spec (dd_valid (w_dec w')) 0); [congruence|]. cbn [negb].
    destruct (K Ev) as (K1 & K2 & K3). assert (L3 : linked w None k Waiting w3 None k Waiting) by (eapply linked_trans; [exact L1'|]; eapply linked_trans; [exact L2|]; apply linked_refl; reflexivity).
    pose proof (open_le _ _ (block_le _ _ (proj1 L3))). eapply linked_trans; [exact L3|].
    apply (from_own ty MAX_EVENTS 0 w3 w' k); auto; [lia|cbn [w3 set_vals w_dec]; congruence|unfold MAX_EVENTS; lia|lia| |].
    + rewrite K2. unfold view. cbn [w3 set_vals w_dec w_dc]. now rewrite X1, X2.
    + intros d0 o0. rewrite K3. cbn [w3 set_vals w_cc w_vals]. rewrite (told_cuts _ _ _ _ Cu). congruence.
Qed.

(** ** The timer interrupt *)
Lemma timer_linked ty w w' k : 0 <= k -> timer_interrupt env nd w = Ok w' -> w_simrpm w = 0 -> no_cut (w_vals w') -> typed ty w -> ty <> DISABLED_EVENT -> (i < 16)%nat -> dd_valid (w_dec w) <> 0 ->
  get (cb_arr (w_cbs w)) 0 <> Ok EXPIRE_CB ->
  let own := match get (cb_arr (w_cbs w)) 0 with Ok cb => cb =? Z.of_nat i | Err _ => false end in
  (own = true -> tt k < open_from (block_of env m w) /\ vw k = view w' /\ (forall d o, dec k d o = told ty (k_min_fire (w_cc w)) (w_vals w') d o)) ->
  same w w' /\ cuts_only (w_vals w) (w_vals w') /\ typed ty w' /\ linked w None k Waiting w' None (if own then k + 1 else k) Waiting.
Proof.
  intros Hk H Si NC Ty Nd Hi V NE own K. unfold timer_interrupt in H. apply bind_ok in H. destruct H as (u & _ & H). apply bind_ok in H. destruct H as (cb & G & H). apply bind_ok in H. destruct H as ([now w1] & E & H).
  apply bind_ok in H. destruct H as (u' & _ & H). apply bind_ok in H. destruct H as (c & _ & H). apply bind_ok in H. destruct H as (w2 & E2 & H).
  unfold own in *. clear own. rewrite G in *. pose proof (point_linked _ _ _ None k Waiting E) as L1. pose proof (point_quiet _ _ _ _ E) as (S1 & Q1 & V1 & _). set (w0 := set_cbs w1 c) in *.
  assert (L0 : linked w None k Waiting w0 None k Waiting) by (eapply linked_trans; [exact L1|]; apply linked_refl; reflexivity).
  assert (S0 : same w w0) by (destruct S1 as (? & ? & ? & ? & ? & ? & ?); unfold same; cbn [w0 set_cbs w_dc w_dec w_cc w_sens w_tip w_simrpm w_tooth]; auto 10).
  assert (T0 : typed ty w0) by (apply (leq_typed ty nobody w); auto).
  assert (V0 : w_vals w0 = w_vals w) by exact V1.
  assert (X : same w2 w' /\ w_vals w' = w_vals w2 /\ (typed ty w2 -> typed ty w') /\ (forall k, linked w2 None k Waiting w' None k Waiting)).
  { destruct (0 <? cb_n (w_cbs w2)); [apply bind_ok in H; destruct H as (c3 & _ & H)|]; injection H as <-.
    - split; [unfold same; cbn; auto 10|]. split; [auto|]. split; [auto|]. intros. apply linked_refl; reflexivity.
    - split; [apply same_refl|]. split; [auto|]. split; [auto|]. intros. apply linked_refl; reflexivity. }
  destruct X as (X1 & X2 & X3 & X4). clear H. unfold callback in E2. destruct (Z.eqb_spec cb EXPIRE_CB) as [->|N1]; [congruence|].
  destruct (Z.eqb_spec cb TEST_CB) as [->|N2].
  - unfold execute_test_trigger in E2. replace (w_simrpm w0) with 0 in E2 by (destruct S0 as (_ & _ & _ & _ & _ & R & _); congruence). cbn in E2. injection E2 as <-.
    destruct (Z.eqb_spec TEST_CB (Z.of_nat i)); [unfold TEST_CB in *; lia|]. split; [eapply same_trans; eauto|]. rewrite X2, V0. split; [apply cuts_refl|]. split; [auto|]. eapply linked_trans; eauto.
  - destruct (schedule_event_spec _ _ _ _ _ E2) as (o & _ & (S2 & L2 & Cu & _) & _). assert (NC2 : no_cut (w_vals w2)) by now rewrite <- X2. assert (V2 : dd_valid (w_dec w0) <> 0) by (destruct S0 as (_ & -> & _); auto).
    split; [eapply same_trans; [exact S0|eapply same_trans; eauto]|]. split; [rewrite X2, <- V0; auto|]. split; [apply X3; eapply leq_typed; eauto|].
    eapply linked_trans; [exact L0|]. eapply linked_trans; [|apply X4]. destruct (Z.eqb_spec cb (Z.of_nat i)) as [->|N3].
    + destruct (K eq_refl) as (K1 & K2 & K3). pose proof (open_le _ _ (block_le _ _ (proj1 L0))). destruct S0 as (S01 & S02 & S03 & _), S2 as (S21 & S22 & S23 & _), X1 as (X11 & X12 & X13 & _).
      apply (event_own ty); auto; [lia|rewrite K2; unfold view; congruence|]. intros d o0. rewrite K3, X2, S03, (told_cuts _ _ _ _ Cu). reflexivity.
    + assert (Z.to_nat cb <> i). { intros <-. destruct (schedule_event_spec _ _ _ _ _ E2) as (? & G2 & _). apply get_range in G2. lia. } eapply event_other; eauto.
Qed.
End Link.
