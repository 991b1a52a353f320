(** Properties of the trigger decoder: C23, C24, C27-C30, C59. *)
Require Import ZArith Reals List Bool Lia Lra.
From Flocq Require Import Core.
From Verif Require Import Res Word F32 F32Flocq TimeProofs TableProofs AngleProofs PulseProofs RelErr Arr Decoder DecoderProofs DecoderSafe DecoderRun
  DecoderMissing DecoderAngle DecoderLoss.
Import ListNotations.
Open Scope Z_scope.

(** The default wheel (config.c 198-206): 36 minus 1 teeth, here without the cam pulse. *)
Definition wheel36 (ty : dtype) : dcfg := DCfg ty f_zero (flit 7 20) 80 4 36 (f_of_Z 10) 0.
(** A 12-tooth even wheel over 720 degrees (60 degrees per tooth), window of 3. *)
Definition wheel12 (ty : dtype) : dcfg := DCfg ty f_zero (flit 7 20) 80 4 12 (f_of_Z 60) 3.
(** [k] teeth, one every [p] ticks, the first at [t]. *)
Fixpoint even_teeth (t p : Z) (k : nat) : list dev :=
  match k with O => [] | S k => Trigger 0 t :: even_teeth (t + p) p k end.

Lemma wheel36_supported ty : supported (wheel36 ty).
Proof. split; cbn; lia. Qed.
Lemma wheel12_supported ty : supported (wheel12 ty).
Proof. split; cbn; lia. Qed.

(** What a history that reaches a result looks like. *)
Definition outcome {A} (r : res A) (P : A -> Prop) : Prop := exists a, r = Ok a /\ P a.

(** ** C23: valid means synchronised; every loss clears everything *)
(** Whatever the configurations and events: a valid position means state SYNC. *)
Theorem C23_valid_is_sync : forall h d fx, hrun dec_init h = Ok (d, fx) -> dd_valid d <> 0 -> dd_state d = SYNC.
Proof. intros h d fx H. exact (proj2 (hrun_vinv h dec_init d fx dec_init_vinv H)). Qed.
Print Assumptions C23_valid_is_sync.

(** From a valid position, the next event (under any configuration) either leaves the position valid and
    cancels nothing, or makes it invalid, goes back to NOSYNC, forgets the accumulated teeth and
    cancels the pending outputs. *)
Theorem C23_loss : forall h d fx c e d' fx', hrun dec_init h = Ok (d, fx) -> dd_valid d <> 0 -> dstep c d e = Ok (d', fx') ->
  (dd_valid d' <> 0 /\ dd_state d' = SYNC /\ ~ In CancelOutputs fx') \/
  (dd_valid d' = 0 /\ dd_state d' = NOSYNC /\ dd_cur d' = 0 /\ dd_since d' = 0 /\ In CancelOutputs fx').
Proof.
  intros h d fx c e d' fx' H V E. pose proof (hrun_vinv _ _ _ _ dec_init_vinv H) as I.
  pose proof (dstep_vinv _ _ _ _ _ I E) as I'. destruct e as [n t| |w].
  - rewrite trigger_decode in E. destruct (decode_step _ _ _ _ _ _ (counted_vinv d n I) E) as (_ & K & _).
    destruct (counted_same d n) as (K1 & _). rewrite K1 in K. destruct (K V) as [[K2 K3]|K2]; [left|right; exact K2].
    split; auto. split; auto. now apply (proj2 I').
  - right. injection E as <- <-. cbn. auto 10.
  - right. injection E as <- <-. cbn. auto 10.
Qed.
Print Assumptions C23_loss.

(** Expiry and capture overflow always lose the position, and say why. *)
Theorem C23_expiry_overflow : forall c d e d' fx, dstep c d e = Ok (d', fx) -> match e with
  | Expire => dd_valid d' = 0 /\ dd_state d' = NOSYNC /\ dd_loss d' = EXPIRED /\ fx = [CancelOutputs]
  | Desync why => dd_valid d' = 0 /\ dd_state d' = NOSYNC /\ dd_loss d' = why /\ fx = [CancelOutputs]
  | Trigger _ _ => True end.
Proof. intros c d [n t| |w] d' fx E; auto; injection E as <- <-; auto. Qed.
Print Assumptions C23_expiry_overflow.

(** Conversely, except for the missing-tooth decoder with cam sync (which needs the cam pulse as
    well), being synchronised after a trigger means being valid. *)
Theorem C23_sync_is_valid : forall h d fx c n t d' fx', hrun dec_init h = Ok (d, fx) -> dstep c d (Trigger n t) = Ok (d', fx') ->
  dc_type c <> MISSING_CAMSYNC -> dd_state d' = SYNC -> dd_valid d' = 1.
Proof.
  intros h d fx c n t d' fx' H E T S. pose proof (hrun_vinv _ _ _ _ dec_init_vinv H) as I. rewrite trigger_decode in E.
  exact (proj2 (proj2 (proj2 (decode_step _ _ _ _ _ _ (counted_vinv d n I) E))) T S).
Qed.
Print Assumptions C23_sync_is_valid.

(* A history that becomes valid, and loses it on an expiry. *)
Definition even_start : list dev := even_teeth 100000 40000 6 ++ [Trigger 1 310000].
Example C23_example : outcome (hrun dec_init (map (pair (wheel12 EVEN_CAMSYNC)) even_start)) (fun r => dd_valid (fst r) = 1 /\ dd_state (fst r) = SYNC /\ dd_rpm (fst r) = 1000) /\
  outcome (hrun dec_init (map (pair (wheel12 EVEN_CAMSYNC)) (even_start ++ [Expire]))) (fun r => dd_valid (fst r) = 0 /\ dd_cur (fst r) = 0 /\ In CancelOutputs (snd r)).
Proof. split; eexists; (split; [vm_compute; reflexivity|]); vm_compute; auto 20. Qed.

(** ** C24: bookkeeping stays in range *)
(** For every supported configuration and every history: the only possible failure is an
    out-of-range float to integer conversion; otherwise the tooth counters are within the time
    array and within the wheel. *)
Theorem C24_in_range : forall c es, supported c ->
  match drun c dec_init es with
  | Err e => e = FloatToInt
  | Ok (d, _) => length (dd_times d) = 37%nat /\ 0 <= dd_cur d <= 37 /\ (missing c = true -> dd_cur d <= 36) /\ 0 <= dd_since d < W /\
      (dd_valid d <> 0 -> dc_required c <= dd_cur d /\ dd_since d <= dc_num c /\ (missing c = true -> dd_since d <= dc_num c - 2)) /\
      dd_times d = firstn 37 (teeth_of c es ++ repeat 0 37)
  end.
Proof.
  intros c es S. pose proof (drun_good c es dec_init S (dec_init_dinv c S)) as G. destruct (drun c dec_init es) as [[d fx]|e] eqn:E; [|exact G].
  cbn [good fst] in G. destruct G as [L C N V Sy Ev Rp]. split; [auto|]. split; [destruct (missing c); lia|]. split; [intros M; rewrite M in *; lia|]. split; [exact N|].
  split; [|eapply drun_times_init; eauto]. intros Vd. specialize (Sy (proj2 V Vd)). destruct (missing c); split; try lia; split; try lia; discriminate.
Qed.
Print Assumptions C24_in_range.

(* Configurations the console accepts, outside the supported ones. *)
Theorem C24_one_required_refuted : exists es, drun (DCfg MISSING_NOSYNC f_zero (flit 7 20) 80 1 36 (f_of_Z 10) 0) dec_init es = Err DivByZero.
Proof. exists [Trigger 0 1000]. vm_compute. reflexivity. Qed.
Print Assumptions C24_one_required_refuted.
Theorem C24_window_refuted : exists es, drun (DCfg EVEN_NOSYNC f_zero (f_of_Z 1000) 0 37 12 (f_of_Z 60) 37) dec_init es = Err OutOfBounds.
Proof. exists (even_teeth 0 40000 37). vm_compute. reflexivity. Qed.
Print Assumptions C24_window_refuted.
Theorem C24_no_teeth_refuted : exists es, drun (DCfg MISSING_NOSYNC f_zero (flit 7 20) 80 4 0 (f_of_Z 10) 0) dec_init es = Err OutOfBounds.
Proof.
  assert (G0 : forall (l : list Z) i, Z.of_nat (length l) <= i -> get l i = Err OutOfBounds).
  { intros l i L. destruct (get l i) as [z|e] eqn:E; [apply get_range in E; lia|]. unfold get in E. destruct (i <? 0); [congruence|]. destruct (nth_error l (Z.to_nat i)); congruence. }
  assert (G : forall l : list Z, length l = 37%nat -> get l 4294967295 = Err OutOfBounds) by (intros l L; apply G0; rewrite L; discriminate).
  exists [Trigger 0 1000]. cbn [drun]. rewrite trigger_decode. set (c := DCfg _ _ _ _ _ _ _ _). unfold decode. change (dc_type c) with MISSING_NOSYNC. cbv iota.
  unfold decode_missing_no_sync. change (0 =? 0) with true. cbv iota zeta.
  destruct (missing_tooth_trigger_update c (counted dec_init 0) 1000) as [[d1 fx1]|] eqn:E; [|vm_compute in E; discriminate E].
  assert (K : dd_state d1 = NOSYNC /\ dd_cur d1 = 1 /\ dd_since d1 = 0 /\ length (dd_times d1) = 37%nat) by (vm_compute in E; injection E as <- <-; auto).
  destruct K as (K1 & K2 & K3 & K4). cbn [bind]. unfold missing_update_rpms. rewrite K1. cbn [is_nosync bind]. unfold missing_tooth_average_rpm. rewrite K2, K3.
  change (dc_num c <=? 1) with true. change (0 =? 0) with true. cbv iota. assert (X : w32 (dc_num c - 1) = 4294967295) by (vm_compute; reflexivity). rewrite X, (G _ K4). destruct (get (dd_times d1) 0) as [t0|e] eqn:E0; [reflexivity|].
  apply get_err in E0. rewrite K4 in E0. lia.
Qed.
Print Assumptions C24_no_teeth_refuted.
(* With a supported configuration: two teeth captured in the same tick convert an infinite RPM. *)
Theorem C24_same_tick_refuted : supported (wheel12 EVEN_NOSYNC) /\
  exists es, drun (wheel12 EVEN_NOSYNC) dec_init es = Err FloatToInt.
Proof. split; [apply wheel12_supported|]. exists (even_teeth 1000 0 4). vm_compute. reflexivity. Qed.
Print Assumptions C24_same_tick_refuted.
Example C24_example : outcome (drun (wheel12 EVEN_CAMSYNC) dec_init (even_start ++ even_teeth 340000 40000 12)) (fun r => dd_cur (fst r) = 18 /\ dd_since (fst r) = 12 /\ dd_valid (fst r) = 1).
Proof. eexists. split; [vm_compute; reflexivity|]. vm_compute. auto. Qed.

(** ** C27: even teeth with cam sync: wrong tooth counts are detected *)
(** After a cam pulse that leaves the position valid, [teeth] further teeth that leave it valid.
    There are at most as many as configured, and the next cam pulse keeps the position valid
    exactly if there were as many as configured; otherwise the loss reason is "too few". *)
Theorem C27_count : forall c es d0 fx0 tc d1 fx1 teeth d2 fx2, supported c -> dc_type c = EVEN_CAMSYNC -> dc_num c < W - 1 ->
  drun c dec_init es = Ok (d0, fx0) -> dstep c d0 (Trigger 1 tc) = Ok (d1, fx1) -> dd_valid d1 <> 0 ->
  drun c d1 (map (Trigger 0) teeth) = Ok (d2, fx2) -> dd_valid d2 <> 0 ->
  Z.of_nat (length teeth) <= dc_num c /\
  (forall t d3 fx3, dstep c d2 (Trigger 1 t) = Ok (d3, fx3) ->
     if Z.of_nat (length teeth) =? dc_num c then dd_valid d3 = 1 /\ dd_last_angle d3 = f_zero
     else dd_valid d3 = 0 /\ dd_state d3 = NOSYNC /\ In CancelOutputs fx3 /\ dd_loss d3 = COUNT_LOW) /\
  (forall t d3 fx3, dstep c d2 (Trigger 0 t) = Ok (d3, fx3) ->
     (Z.of_nat (length teeth) = dc_num c -> dd_valid d3 = 0 /\ dd_state d3 = NOSYNC /\ In CancelOutputs fx3 /\ dd_loss d3 = COUNT_HIGH) /\
     (Z.of_nat (length teeth) < dc_num c -> dd_valid d3 = 0 -> dd_loss d3 = VARIATION)).
Proof.
  intros c es d0 fx0 tc d1 fx1 teeth d2 fx2 S T NW H0 H1 V1 H2 V2.
  assert (I0 : dinv c d0) by (pose proof (drun_good c es dec_init S (dec_init_dinv c S)) as G; rewrite H0 in G; exact G).
  assert (I1 : dinv c d1) by (pose proof (dstep_good c d0 (Trigger 1 tc) S I0) as G; rewrite H1 in G; exact G).
  assert (Z1 : dd_since d1 = 0 /\ dd_state d1 = SYNC).
  { pose proof (even_cam_outcome _ _ _ _ _ T H1) as K. destruct (dd_state d0).
    - destruct K as [K1 K2]. exfalso. pose proof (proj2 (di_valid _ _ I1) V1). congruence.
    - tauto.
    - destruct (_ =? _); [tauto|]. destruct K as [[K _] _]. contradiction. }
  destruct Z1 as [Z1 S1].
  (* the count *)
  assert (C : dd_since d2 = Z.of_nat (length teeth) /\ dd_state d2 = SYNC /\ Z.of_nat (length teeth) <= dc_num c /\ dinv c d2).
  { assert (NV : forall ts d d' fx, vinv d -> dd_valid d = 0 -> dd_state d <> SYNC -> drun c d (map (Trigger 0) ts) = Ok (d', fx) -> dd_valid d' = 0).
    { clear - T. induction ts as [|t ts IH]; intros d d' fx Vi Z N H; cbn [map drun] in H; [injection H as <- <-; auto|].
      apply bind_ok in H. destruct H as ((e1 & g1) & E & H). apply bind_ok in H. destruct H as ((e2 & g2) & E2 & H). injection H as <- <-.
      pose proof (dstep_vinv _ _ _ _ _ Vi E) as Vi'.
      assert (Q : dd_state e1 <> SYNC).
      { rewrite trigger_decode in E. destruct (counted_same d 0) as (_ & K2 & _). rewrite <- K2 in N. set (dc := counted d 0) in *. clearbody dc.
        unfold decode in E. rewrite T in E. unfold decode_even_with_camsync in E. cbv zeta in E. change (0 =? 0) with true in E. cbv iota in E.
        apply bind_ok in E. destruct E as ((a & b) & E & F). destruct (even_update_keeps _ _ _ _ _ E) as (_ & _ & _ & _ & _ & _ & KS & _).
        destruct (dd_state a) eqn:Sa; cbn [is_sync] in F; try (exfalso; apply N; apply KS; reflexivity); destruct (dd_state dc); cbn [is_sync] in F; injection F as <- <-; dsimp; congruence || discriminate. }
      eapply IH; [exact Vi'| |exact Q|exact E2]. destruct (Z.eq_dec (dd_valid e1) 0); auto. exfalso. apply Q. now apply (proj2 Vi'). }
    assert (N : 2 <= dc_num c < 2 ^ 32) by (destruct S; auto).
    assert (G : forall ts d d' fx, dinv c d -> dd_state d = SYNC -> 0 <= dd_since d <= dc_num c -> drun c d (map (Trigger 0) ts) = Ok (d', fx) -> dd_valid d' <> 0 ->
       dd_since d' = dd_since d + Z.of_nat (length ts) /\ dd_state d' = SYNC /\ dd_since d' <= dc_num c /\ dinv c d').
    { induction ts as [|t ts IH]; intros d d' fx I Sd B H V; cbn [map drun] in H.
      - injection H as <- <-. cbn [length]. split; [lia|]. split; auto. split; auto. lia.
      - apply bind_ok in H. destruct H as ((e1 & g1) & E & H). apply bind_ok in H. destruct H as ((e2 & g2) & E2 & H). injection H as <- <-.
        assert (J : dinv c e1) by (pose proof (dstep_good c d (Trigger 0 t) S I) as K; rewrite E in K; exact K).
        pose proof (even_tooth_outcome _ _ _ _ _ T Sd E) as K. assert (X : w32 (dd_since d + 1) = dd_since d + 1) by (unfold w32, W in *; apply Z.mod_small; lia). rewrite X in K.
        assert (LK : lost e1 g1 -> False) by (intros (L1 & L2 & _); apply V; refine (NV ts e1 e2 g2 (di_valid _ _ J) L1 _ E2); rewrite L2; discriminate).
        destruct (Z.ltb_spec (dc_num c) (dd_since d + 1)); [exfalso; apply LK; tauto|]. destruct K as [(K1 & K2 & K3)|K]; [|exfalso; apply LK; tauto].
        destruct (IH e1 e2 g2 J K2 ltac:(lia) E2 V) as (Q1 & Q2 & Q3 & Q4). cbn [length]. split; [lia|]. auto. }
    destruct (G teeth d1 d2 fx2 I1 S1 ltac:(lia) H2 V2) as (Q1 & Q2 & Q3 & Q4). split; [lia|]. split; auto. split; [lia|auto]. }
  destruct C as (C1 & C2 & C3 & C4). split; [exact C3|]. split.
  - intros t d3 fx3 E. pose proof (even_cam_outcome _ _ _ _ _ T E) as K. rewrite C2, C1 in K. destruct (_ =? _); [tauto|].
    destruct K as [(K1 & K2 & _ & _ & K3) K4]. auto.
  - intros t d3 fx3 E. pose proof (even_tooth_outcome _ _ _ _ _ T C2 E) as K. assert (N : 2 <= dc_num c < 2 ^ 32) by (destruct S; auto).
    assert (X : w32 (dd_since d2 + 1) = Z.of_nat (length teeth) + 1) by (rewrite C1; unfold w32, W in *; apply Z.mod_small; lia). rewrite X in K.
    split; intros Q.
    + destruct (Z.ltb_spec (dc_num c) (Z.of_nat (length teeth) + 1)) as [|Le]; [destruct K as [(K1 & K2 & _ & _ & K3) K4]; auto|lia].
    + intros V3. destruct (Z.ltb_spec (dc_num c) (Z.of_nat (length teeth) + 1)); [lia|]. destruct K as [(K1 & _)|[_ K]]; [congruence|exact K].
Qed.
Print Assumptions C27_count.

(* Twelve teeth between cam pulses keep the position; eleven or thirteen lose it. *)
Definition even_rev (k : nat) (last : dev) : list dev := even_start ++ even_teeth 340000 40000 k ++ [last].
Example C27_example :
  outcome (drun (wheel12 EVEN_CAMSYNC) dec_init (even_rev 12 (Trigger 1 800000))) (fun r => dd_valid (fst r) = 1) /\
  outcome (drun (wheel12 EVEN_CAMSYNC) dec_init (even_rev 11 (Trigger 1 760000))) (fun r => dd_valid (fst r) = 0 /\ dd_loss (fst r) = COUNT_LOW) /\
  outcome (drun (wheel12 EVEN_CAMSYNC) dec_init (even_rev 12 (Trigger 0 820000))) (fun r => dd_valid (fst r) = 0 /\ dd_loss (fst r) = COUNT_HIGH).
Proof. split; [|split]; eexists; (split; [vm_compute; reflexivity|]); vm_compute; auto. Qed.

(** ** C28: missing tooth: every interval is checked *)
Section missing_tooth.
Open Scope R_scope.
(** The interval that ends at the new tooth, and the decoder's average of the intervals before it:
    over the last [dc_required] teeth, counting the gap twice when it is among them.
    [teeth] are the times of the previous teeth, most recent first; [since] is the number of
    teeth since the gap. *)
Definition last_interval (teeth : list Z) (t : Z) : Z := (w32 (t - nth 0 teeth 0))%Z.
Definition mean_interval (c : dcfg) (teeth : list Z) (since : Z) : Z :=
  (w32 (nth 0 teeth 0 - nth (Z.to_nat (dc_required c - 1)) teeth 0) / (if since <? dc_required c - 1 then dc_required c else dc_required c - 1))%Z.

Lemma get_nth (l : list Z) i x : get l i = Ok x -> nth (Z.to_nat i) l 0%Z = x.
Proof. intros H. apply get_ok in H. destruct H as [_ H]. now apply nth_error_nth. Qed.
Lemma nth_recent (l : list Z) k : (k < 37)%nat -> nth k (firstn 37 (l ++ repeat 0%Z 37)) 0%Z = nth k l 0%Z.
Proof.
  intros H. transitivity (nth k (l ++ repeat 0%Z 37) 0%Z).
  - rewrite <- (firstn_skipn 37 (l ++ repeat 0%Z 37)) at 2. rewrite app_nth1; auto. rewrite firstn_length, app_length, repeat_length. lia.
  - destruct (Nat.lt_ge_cases k (length l)) as [L|L]; [now rewrite app_nth1|]. rewrite app_nth2, nth_repeat, nth_overflow; auto.
Qed.

(** In every history of a supported missing-tooth wheel, the next tooth from a valid position is
    judged by the ratio of its interval to the mean interval: around 2 when the gap is due (the
    wheel has num - 1 teeth), around 1 otherwise, with the configured tolerance (up to 2^-18
    for float rounding).  Outside, the decoder loses sync with the reason given.  Inside, the decoder
    without cam sync stays valid. *)
Theorem C28_intervals : forall c es d fx t d' fx', supported c -> missing c = true ->
  vf (dc_max_change c) -> fin (dc_max_change c) -> 0 <= R_ (dc_max_change c) <= 1 - / 262144 ->
  drun c dec_init es = Ok (d, fx) -> dd_valid d <> 0%Z -> dstep c d (Trigger 0 t) = Ok (d', fx') ->
  let a := last_interval (teeth_of c es) t in
  let b := mean_interval c (teeth_of c es) (dd_since d) in
  let tol := R_ (dc_max_change c) in
  let lost why := dd_valid d' = 0%Z /\ dd_state d' = NOSYNC /\ In CancelOutputs fx' /\ dd_loss d' = why in
  ((dd_since d + 1 = dc_num c - 1)%Z ->
     (b = 0%Z \/ Rabs (IZR a / IZR b - 2) >= tol + / 262144 -> lost COUNT_HIGH) /\
     ((1 <= b)%Z -> Rabs (IZR a / IZR b - 2) <= tol - / 262144 -> dc_type c = MISSING_NOSYNC -> dd_valid d' <> 0%Z /\ dd_since d' = 0%Z)) /\
  ((dd_since d + 1 <> dc_num c - 1)%Z ->
     (b = 0%Z \/ Rabs (IZR a / IZR b - 1) >= tol + / 262144 -> lost COUNT_LOW) /\
     ((1 <= b)%Z -> Rabs (IZR a / IZR b - 1) <= tol - / 262144 -> dd_valid d' <> 0%Z /\ dd_since d' = (dd_since d + 1)%Z)).
Proof.
  intros c es d fx t d' fx' S M Vm Fm Hm H V E a b tol.
  assert (I : dinv c d) by (pose proof (drun_good c es dec_init S (dec_init_dinv c S)) as G; rewrite H in G; exact G).
  pose proof (proj2 (di_valid _ _ I) V) as St. pose proof (drun_times_init _ _ _ _ H) as Tm.
  destruct (missing_outcome c d t d' fx' M V St E) as (d1 & fx1 & U & O1 & O2 & _).
  destruct (counted_same d 0) as (_ & K2 & _ & K4 & K5 & _).
  destruct (missing_sync_step c (counted d 0) t d1 fx1 S M (counted_dinv c d 0 I) ltac:(congruence) U) as (p & q & et & x & Gp & Gq & Sx & _).
  cbv zeta in Sx. unfold window_count in Sx. rewrite K4 in Sx. rewrite K5, Tm in Gp, Gq. destruct S as [S1 S2 S3].
  apply get_nth in Gp. apply get_nth in Gq. rewrite nth_recent in Gp, Gq by lia. change (Z.to_nat 0) with 0%nat in Gp.
  assert (Ea : w32 (t - p) = a) by (unfold a, last_interval; now rewrite Gp).
  assert (Eb : (w32 (p - q) / (if dd_since d <? dc_required c - 1 then dc_required c else dc_required c - 1))%Z = b) by (unfold b, mean_interval; now rewrite Gp, Gq).
  rewrite Ea, Eb in Sx.
  assert (Ra : (0 <= a < W)%Z) by (rewrite <- Ea; apply w32_range).
  assert (Rb : (0 <= b < W)%Z).
  { rewrite <- Eb. pose proof (w32_range (p - q)). unfold W. set (k := (if dd_since d <? dc_required c - 1 then _ else _)%Z).
    assert (1 <= k)%Z by (unfold k; destruct (_ <? _)%Z; lia). split; [apply Z.div_pos; lia|]. apply Z.le_lt_trans with (w32 (p - q)); [|lia]. apply Z.div_le_upper_bound; nia. }
  assert (NF : forall n, (n = 1 \/ n = 2)%Z -> b = 0%Z \/ Rabs (IZR a / IZR b - IZR n) >= tol + / 262144 -> near n (fdiv (f_of_Z a) (f_of_Z b)) (dc_max_change c) = false).
  { intros n Hn Q. destruct (Z.eq_dec b 0) as [Zb|Nb]; [rewrite Zb; apply near_zero_avg; auto; lra|].
    destruct Q as [Q|Q]; [contradiction|]. apply (near_exact n a b); auto. lia. }
  assert (NT : forall n, (n = 1 \/ n = 2)%Z -> (1 <= b)%Z -> Rabs (IZR a / IZR b - IZR n) <= tol - / 262144 -> near n (fdiv (f_of_Z a) (f_of_Z b)) (dc_max_change c) = true).
  { intros n Hn B Q. apply (near_exact n a b); auto. lia. }
  assert (LS : forall why, dd_state d1 = NOSYNC /\ dd_loss d1 = why -> dd_valid d' = 0%Z /\ dd_state d' = NOSYNC /\ In CancelOutputs fx' /\ dd_loss d' = why).
  { intros why [Q1 Q2]. destruct (O1 Q1) as [(L1 & L2 & _ & _ & L5) L6]. rewrite L6. auto. }
  split; intros Due.
  - rewrite (proj2 (Z.eqb_eq _ _) Due) in Sx. split.
    + intros Q. apply (NF 2%Z) in Q; auto. rewrite Q in Sx. now apply LS.
    + intros B Q Ty. rewrite (NT 2%Z) in Sx by auto. destruct Sx as [Sx1 Sx2]. destruct (O2 Sx1 (or_introl Ty)) as (Q1 & _ & Q3 & _). split; auto. congruence.
  - destruct (Z.eqb_spec (dd_since d + 1) (dc_num c - 1)); [contradiction|]. split.
    + intros Q. apply (NF 1%Z) in Q; auto. rewrite Q in Sx. now apply LS.
    + intros B Q. rewrite (NT 1%Z) in Sx by auto. destruct Sx as [Sx1 Sx2].
      pose proof (di_since _ _ I). destruct (O2 Sx1 ltac:(right; left; lia)) as (Q1 & _ & Q3 & _). split; auto. congruence.
Qed.
Print Assumptions C28_intervals.

(** The gap count: [k] teeth that keep the position valid advance it by [k], modulo the num - 1
    teeth of the wheel. *)
Inductive stays_valid (c : dcfg) : dec -> list Z -> dec -> Prop :=
| stays_nil d : stays_valid c d [] d
| stays_cons d t d1 fx ts d2 : dstep c d (Trigger 0 t) = Ok (d1, fx) -> dd_valid d1 <> 0%Z -> stays_valid c d1 ts d2 -> stays_valid c d (t :: ts) d2.
Theorem C28_count : forall c es d fx ts d', supported c -> missing c = true -> drun c dec_init es = Ok (d, fx) -> dd_valid d <> 0%Z ->
  stays_valid c d ts d' -> dd_since d' = ((dd_since d + Z.of_nat (length ts)) mod (dc_num c - 1))%Z.
Proof.
  intros c es d fx ts d' S M H V R.
  assert (I : dinv c d) by (pose proof (drun_good c es dec_init S (dec_init_dinv c S)) as G; rewrite H in G; exact G). clear H es fx.
  assert (N : (2 <= dc_num c)%Z) by (destruct S; lia). revert I V. induction R as [d|d t d1 fx ts d2 E V1 R IH]; intros I V.
  - pose proof (di_sync _ _ I (proj2 (di_valid _ _ I) V)) as B. rewrite M in B. pose proof (di_since _ _ I). cbn [length]. rewrite Z.mod_small; lia.
  - assert (J : dinv c d1) by (pose proof (dstep_good c d (Trigger 0 t) S I) as G; rewrite E in G; exact G).
    pose proof (proj2 (di_valid _ _ I) V) as St. rewrite (IH J V1).
    pose proof (di_sync _ _ I St) as B. rewrite M in B. pose proof (di_since _ _ I) as B0.
    assert (Q : dd_since d1 = (dd_since d + 1)%Z \/ dd_since d1 = 0%Z /\ (dd_since d + 1 = dc_num c - 1)%Z).
    { destruct (missing_outcome c d t d1 fx M V St E) as (e1 & g1 & U & O1 & O2 & O3).
      destruct (counted_same d 0) as (_ & K2 & _ & K4 & K5 & _).
      destruct (missing_sync_step c (counted d 0) t e1 g1 S M (counted_dinv c d 0 I) ltac:(congruence) U) as (p & q & et & x & Gp & Gq & Sx & _).
      cbv zeta in Sx. rewrite K4 in Sx.
      assert (NL : ~ lost d1 fx) by (intros [L _]; contradiction).
      destruct (Z.eqb_spec (dd_since d + 1) (dc_num c - 1)) as [Q|Q].
      - destruct (near 2 _ _); destruct Sx as [Sx1 Sx2]; [right; split; auto|exfalso; apply NL; now apply O1].
        destruct (dd_this d) eqn:Et; [rewrite <- Sx2; apply O2; auto|]. destruct (dd_prev d) eqn:Ep; [rewrite <- Sx2; apply O2; auto|].
        unfold missing in M. destruct (dc_type c) eqn:Ty; try discriminate; [rewrite <- Sx2; apply O2; auto|exfalso; apply NL; apply O3; auto].
      - destruct (near 1 _ _); destruct Sx as [Sx1 Sx2]; [left|exfalso; apply NL; now apply O1]. rewrite <- Sx2. apply O2; auto. right. left. lia. }
    cbn [length]. rewrite Nat2Z.inj_succ. destruct Q as [->|[-> Q]].
    + f_equal. lia.
    + replace (dd_since d + Z.succ (Z.of_nat (length ts)))%Z with (Z.of_nat (length ts) + 1 * (dc_num c - 1))%Z by lia. rewrite Z_mod_plus_full. f_equal.
Qed.
Print Assumptions C28_count.

(** No interval counts both as normal and as the gap when the tolerance is below one half... *)
Theorem C28_disjoint : forall a b m, (0 <= a < W)%Z -> (1 <= b < W)%Z -> vf m -> fin m -> 0 <= R_ m <= / 2 - / 262144 ->
  near 1 (fdiv (f_of_Z a) (f_of_Z b)) m = true -> near 2 (fdiv (f_of_Z a) (f_of_Z b)) m = true -> False.
Proof. intros a b m Ha Hb Vm Fm Hm. apply near_disjoint; auto using vf_of_Z with vf. Qed.
Print Assumptions C28_disjoint.
(* ... but at exactly one half, which decoder_init installs for a tolerance of zero, an interval of
   one and a half teeth counts as both. *)
Theorem C28_half_refuted : dc_max_change (fst (decoder_init (DCfg MISSING_NOSYNC f_zero f_zero 80 4 36 (f_of_Z 10) 0) dec_init)) = flit 1 2 /\
  near 1 (fdiv (f_of_Z 3000) (f_of_Z 2000)) (flit 1 2) = true /\ near 2 (fdiv (f_of_Z 3000) (f_of_Z 2000)) (flit 1 2) = true.
Proof. vm_compute. auto. Qed.
Print Assumptions C28_half_refuted.

(* Eight teeth, the gap, then 35 teeth and the gap again at the wrong or the right place. *)
Open Scope Z_scope.
Definition missing_start : list dev := even_teeth 100000 6000 8 ++ [Trigger 0 154000].
Definition missing_rev (k : nat) (next : Z) : list dev := missing_start ++ even_teeth 160000 6000 k ++ [Trigger 0 (154000 + 6000 * Z.of_nat k + next)].
Example C28_example :
  outcome (drun (wheel36 MISSING_NOSYNC) dec_init (missing_rev 34 12000)) (fun r => dd_valid (fst r) = 1 /\ dd_since (fst r) = 0) /\
  outcome (drun (wheel36 MISSING_NOSYNC) dec_init (missing_rev 33 12000)) (fun r => dd_valid (fst r) = 0 /\ dd_loss (fst r) = COUNT_LOW) /\
  outcome (drun (wheel36 MISSING_NOSYNC) dec_init (missing_rev 34 6000)) (fun r => dd_valid (fst r) = 0 /\ dd_loss (fst r) = COUNT_HIGH) /\
  outcome (drun (wheel36 MISSING_NOSYNC) dec_init (missing_rev 10 9000)) (fun r => dd_valid (fst r) = 0 /\ dd_loss (fst r) = COUNT_LOW).
Proof. split; [|split; [|split]]; eexists; (split; [vm_compute; reflexivity|]); vm_compute; auto. Qed.
End missing_tooth.

(** ** C29: a stall is detected *)
(** Every tooth that keeps a valid position sets the expiry... *)
Theorem C29_armed : forall c es d fx n t d' fx', supported c -> drun c dec_init es = Ok (d, fx) -> dd_valid d <> 0 ->
  tooth_of c (Trigger n t) = [t] -> dstep c d (Trigger n t) = Ok (d', fx') -> dd_valid d' <> 0 ->
  exists e, fx' = [SetExpire e] /\ dd_expiration d' = e.
Proof.
  intros c es d fx n t d' fx' S H V T E V'.
  assert (I : dinv c d) by (pose proof (drun_good c es dec_init S (dec_init_dinv c S)) as G; rewrite H in G; exact G).
  exact (proj2 (tooth_tracked c d n t d' fx' S I V T E V')).
Qed.
Print Assumptions C29_armed.

(** ... for even teeth, one and a half tooth intervals after the tooth, so after it... *)
Theorem C29_even_time : forall c es d fx n t d' fx', supported c -> missing c = false -> drun c dec_init es = Ok (d, fx) -> dd_valid d <> 0 ->
  tooth_of c (Trigger n t) = [t] -> dstep c d (Trigger n t) = Ok (d', fx') -> dd_valid d' <> 0 ->
  let a := w32 (t - nth 0 (teeth_of c es) 0) in 1 <= a <= 2000000000 ->
  exists x, fx' = [SetExpire (w32 (t + x))] /\ 0 <= x /\ (3 / 2 * IZR a * (1 - / 1000000) - 1 <= IZR x <= 3 / 2 * IZR a * (1 + / 1000000))%R.
Proof.
  intros c es d fx n t d' fx' S M H V T E V' a Ha.
  assert (I : dinv c d) by (pose proof (drun_good c es dec_init S (dec_init_dinv c S)) as G; rewrite H in G; exact G).
  destruct (tooth_tracked c d n t d' fx' S I V T E V') as (_ & e & Fe & _).
  pose proof (drun_times_init _ _ _ _ H) as Tm. destruct (get_in_range (dd_times d) 0) as [p Gp]; [rewrite (di_len _ _ I); cbn; lia|].
  assert (Ep : nth 0 (teeth_of c es) 0 = p) by (pose proof Gp as Gp'; rewrite Tm in Gp'; apply get_nth in Gp'; rewrite nth_recent in Gp' by (cbn; lia); exact Gp').
  assert (U : exists d1, even_tooth_trigger_update c (counted d n) t = Ok (d1, fx')).
  { rewrite trigger_decode in E. unfold tooth_of in T. unfold decode in E. unfold missing in M. destruct (dc_type c); try discriminate.
    - unfold decode_even_no_sync in E. cbv zeta in E. apply bind_ok in E. destruct E as ((d1 & f1) & E1 & E). exists d1. rewrite E1. repeat f_equal.
      destruct (negb _); [injection E as _ <-; auto|]. destruct (is_sync _); injection E as <- <-; auto. exfalso. apply V'. reflexivity.
    - unfold decode_even_with_camsync in E. cbv zeta in E. destruct (n =? 0); [|discriminate]. apply bind_ok in E. destruct E as ((d1 & f1) & E1 & E). exists d1. rewrite E1. repeat f_equal.
      destruct (is_sync _); [injection E as _ <-; auto|]. destruct (is_sync _); injection E as <- <-; auto. exfalso. apply V'. reflexivity. }
  destruct U as [d1 U]. destruct (counted_same d n) as (_ & _ & _ & _ & K5 & _).
  destruct (even_update_expiry c (counted d n) t d1 fx' p) as (x & X1 & X2); auto; [rewrite K5; apply (di_len _ _ I)|rewrite K5; auto|rewrite Fe; discriminate|].
  destruct (half_again a Ha) as (y & Y1 & Y2 & Y3). unfold a in Y1. rewrite Ep, X1 in Y1. injection Y1 as <-. exists x. split; auto. split; [lia|].
  assert (1 <= IZR a)%R by (apply IZR_le; lia). unfold ur in Y3. lra.
Qed.
Print Assumptions C29_even_time.

(** ... and for the missing-tooth wheel, at the time the next tooth is expected at the last
    known speed, lengthened by the tolerance. *)
Theorem C29_missing_time : forall c es d fx t d' fx', supported c -> wheel c -> missing c = true ->
  vf (dc_max_change c) -> fin (dc_max_change c) -> (0 <= R_ (dc_max_change c) <= 1)%R -> 1 <= dd_rpm d <= 2 ^ 24 ->
  drun c dec_init es = Ok (d, fx) -> dd_valid d <> 0 -> dstep c d (Trigger 0 t) = Ok (d', fx') -> dd_valid d' <> 0 ->
  exists x, fx' = [SetExpire (w32 (t + x))] /\ 0 <= x /\
    let teeth := if dd_since d' =? dc_num c - 2 then 2%R else 1%R in
    let ideal := (2000000 / 3 * (teeth * R_ (dc_dpt c)) / IZR (dd_rpm d) * (1 + R_ (dc_max_change c)))%R in
    (Rabs (IZR x - ideal) <= 4 + ideal / 1000000)%R.
Proof.
  intros c es d fx t d' fx' S Wh M Vm Fm Hm Hr H V E V'.
  assert (I : dinv c d) by (pose proof (drun_good c es dec_init S (dec_init_dinv c S)) as G; rewrite H in G; exact G).
  pose proof (proj2 (di_valid _ _ I) V) as St.
  destruct (missing_outcome c d t d' fx' M V St E) as (d1 & fx1 & U & O1 & O2 & O3).
  destruct (counted_same d 0) as (_ & K2 & _ & K4 & K5 & _ & _ & K8 & _).
  destruct (missing_sync_step c (counted d 0) t d1 fx1 S M (counted_dinv c d 0 I) ltac:(congruence) U) as (p & q & et & x & Gp & Gq & Sx & _ & X1 & X2 & X3 & _).
  cbv zeta in Sx. assert (NL : ~ lost d' fx') by (intros [L _]; contradiction).
  assert (St1 : dd_state d1 = SYNC).
  { destruct (_ =? _) in Sx; [destruct (near 2 _ _)|destruct (near 1 _ _)]; destruct Sx as [Sx1 _]; auto; exfalso; apply NL; now apply O1. }
  assert (Q : dd_since d' = dd_since d1 /\ fx' = fx1).
  { enough (Q : dc_type c = MISSING_NOSYNC \/ dd_since d1 <> 0 \/ dd_this d = true \/ dd_prev d = true) by (specialize (O2 St1 Q); tauto).
    destruct (dd_this d) eqn:Et; auto. destruct (dd_prev d) eqn:Ep; auto. destruct (Z.eq_dec (dd_since d1) 0) as [Z|Z]; auto.
    unfold missing in M. destruct (dc_type c) eqn:Ty; try discriminate; auto. exfalso. apply NL, O3; auto. }
  destruct Q as [Q1 Q2]. rewrite Q1. exists x. rewrite Q2. split; [auto|].
  rewrite K8 in X1. set (k := if dd_since d1 =? dc_num c - 2 then 2 else 1) in X1.
  assert (Hk : k = 1 \/ k = 2) by (unfold k; destruct (dd_since d1 =? dc_num c - 2); [right|left]; reflexivity). destruct (dpt_times c k Wh Hk) as (Vd & Fd & Rd).
  destruct Wh as [_ _ B _].
  assert (Kb : (R_ (dc_dpt c) * 1 <= R_ (dc_dpt c) * IZR k <= 718)%R) by (destruct Hk; subst k; rewrite H0; lra).
  destruct (time_from_rpm_accuracy (dd_rpm d) (fmul (dc_dpt c) (f_of_Z k))) as (et' & A1 & A2 & A3); auto; [rewrite Rd; lra|].
  rewrite X1 in A1. injection A1 as <-. cbv zeta in A3. rewrite Rd in A3.
  set (y := (2000000 / 3 * (R_ (dc_dpt c) * IZR k) / IZR (dd_rpm d))%R) in A3.
  assert (Hr' : (1 <= IZR (dd_rpm d) <= 16777216)%R) by (split; apply IZR_le; lia).
  assert (Ir : (0 < / IZR (dd_rpm d) <= 1)%R) by (split; [apply Rinv_0_lt_compat; lra|rewrite <- Rinv_1; apply Rinv_le; lra]).
  assert (Y : (0 <= y <= 480000000)%R).
  { unfold y, Rdiv at 1. split; [apply Rmult_le_pos; lra|]. apply Rle_trans with (480000000 * 1)%R; [apply Rmult_le_compat; lra|lra]. }
  assert (ET : (0 <= IZR et <= 480000200)%R) by (split; apply IZR_le; lia).
  destruct (f_of_Z_exact 1) as [E1 F1]; [cbn; lia|].
  destruct (fadd_ok (f_of_Z 1) (dc_max_change c) 2) as [E2 F2]; auto using vf_of_Z; [lia|rewrite E1; simpl; rewrite Rabs_pos_eq; lra|]. rewrite E1 in E2.
  assert (RE : (Rabs (rnd (1 + R_ (dc_max_change c)) - (1 + R_ (dc_max_change c))) <= ur * (1 + R_ (dc_max_change c)))%R).
  { replace (ur * (1 + R_ (dc_max_change c)))%R with (ur * Rabs (1 + R_ (dc_max_change c)))%R by (rewrite (Rabs_pos_eq (1 + _)); lra). apply rnd_rel. rewrite Rabs_pos_eq; lra. }
  rewrite <- E2 in RE. set (f := fadd (f_of_Z 1) (dc_max_change c)) in *. apply Rabs_le_inv in RE.
  destruct (f_of_Z_u32 et) as [E3 F3]; [lia|].
  assert (RZ : (IZR et * (1 - ur) <= R_ (f_of_Z et) <= IZR et * (1 + ur))%R).
  { destruct (Z.eq_dec et 0) as [->|Ne]; [change (f_of_Z 0) with f_zero; rewrite R_f_zero; lra|]. rewrite E3. apply rnd_pos_bounds.
    assert (1 <= IZR et)%R by (apply IZR_le; lia). lra. }
  set (g := f_of_Z et) in *. set (m1 := (1 + R_ (dc_max_change c))%R) in *. assert (M1 : (1 <= m1 <= 2)%R) by (unfold m1; lra).
  assert (P : (IZR et * m1 * (1 - 3 * ur) <= R_ g * R_ f <= IZR et * m1 * (1 + 3 * ur))%R).
  { unfold ur in *. split.
    - apply Rle_trans with ((IZR et * (1 - / 16777216)) * (m1 * (1 - / 16777216)))%R; [|apply Rmult_le_compat; try lra; apply Rmult_le_pos; lra].
      assert (0 <= IZR et * m1)%R by (apply Rmult_le_pos; lra). lra.
    - apply Rle_trans with ((IZR et * (1 + / 16777216)) * (m1 * (1 + / 16777216)))%R; [apply Rmult_le_compat; lra|].
      assert (0 <= IZR et * m1)%R by (apply Rmult_le_pos; lra). lra. }
  assert (EM : (0 <= IZR et * m1 <= 960000400)%R) by (split; [apply Rmult_le_pos; lra|apply Rle_trans with (480000200 * 2)%R; [apply Rmult_le_compat; lra|lra]]).
  assert (PP : (0 <= R_ g * R_ f)%R) by (unfold ur in P; lra).
  destruct (fmul_ok g f 40) as [E4 F4]; auto using vf_of_Z with vf; [lia|apply vf_of_Z|unfold f; auto using vf_of_Z with vf|rewrite Rabs_pos_eq by lra; simpl; unfold ur in P; lra|].
  unfold f_to_u32 in X2. rewrite f_to_range_fin in X2 by (auto; unfold g, f; auto using vf_of_Z with vf).
  destruct ((0 <=? _) && _) in X2; [|discriminate]. injection X2 as <-.
  assert (B4 : (0 <= R_ (fmul g f))%R) by (rewrite E4; apply round_ge_generic; try typeclasses eauto; [apply generic_format_0; typeclasses eauto|lra]).
  pose proof (Ztrunc_pos_bounds _ B4) as [T1 T2]. split; [match goal with |- 0 <= ?z => assert (-1 < z) by (apply lt_IZR; lra); lia end|]. cbv zeta.
  pose proof (rnd_err (R_ g * R_ f)) as RR. rewrite <- E4, ur_b2, (Rabs_pos_eq (R_ g * R_ f)) in RR by lra. apply Rabs_le_inv in RR.
  assert (b2 (-150) < / 100000000)%R by (unfold b2; simpl; lra).
  assert (Ei : (2000000 / 3 * ((if dd_since d1 =? dc_num c - 2 then 2 else 1) * R_ (dc_dpt c)) / IZR (dd_rpm d) * m1)%R = (y * m1)%R).
  { unfold y, m1, k. destruct (dd_since d1 =? dc_num c - 2); field; lra. }
  rewrite Ei. apply Rabs_le_inv in A3. 
  assert (YM : (0 <= y * m1)%R) by (apply Rmult_le_pos; lra).
  assert (D1 : (- (2 + y * m1 / 4194304) <= IZR et * m1 - y * m1 <= 2 + y * m1 / 4194304)%R).
  { replace (IZR et * m1 - y * m1)%R with ((IZR et - y) * m1)%R by ring. split.
    - apply Rle_trans with ((- (1 + y / 4194304)) * m1)%R; [lra|apply Rmult_le_compat_r; lra].
    - apply Rle_trans with ((1 + y / 4194304) * m1)%R; [apply Rmult_le_compat_r; lra|lra]. }
  apply Rabs_le. unfold ur in *. lra.
Qed.
Print Assumptions C29_missing_time.

(** At the expiry the position becomes invalid and the outputs are cancelled. *)
Theorem C29_expires : forall c d, exists d' , dstep c d Expire = Ok (d', [CancelOutputs]) /\ dd_valid d' = 0 /\ dd_state d' = NOSYNC /\ dd_loss d' = EXPIRED.
Proof. intros c d. eexists. split; [reflexivity|]. auto. Qed.
Print Assumptions C29_expires.

(* At the tooth where the missing-tooth decoder gains sync, no expiry has been set, here or
   ever before: if the engine stops right there, the position stays valid for ever. *)
Theorem C29_first_tooth_refuted : exists d, drun (wheel36 MISSING_NOSYNC) dec_init missing_start = Ok (d, []) /\ dd_valid d = 1 /\ dd_rpm d = 1111.
Proof. eexists. split; [vm_compute; reflexivity|]. vm_compute. auto. Qed.
Print Assumptions C29_first_tooth_refuted.
Example C29_example : exists d e, drun (wheel36 MISSING_NOSYNC) dec_init (missing_start ++ [Trigger 0 160000]) = Ok (d, [SetExpire e]) /\ dd_valid d = 1 /\ 166000 < e < 169000.
Proof. do 2 eexists. split; [vm_compute; reflexivity|]. vm_compute. auto. Qed.
Lemma wheel36_wheel ty : wheel (wheel36 ty).
Proof.
  destruct (f_of_Z_exact 10) as [E F]; [cbn; lia|]. split; cbn [wheel36 dc_dpt dc_num]; auto using vf_of_Z; rewrite E; lra.
Qed.

(** ** C30: the estimated angle *)
(** For every history of a supported wheel: the reference angle is within the cycle and so is every
    estimate; with no speed the estimate is the reference angle. *)
Theorem C30_range : forall c es d fx now a, supported c -> wheel c -> drun c dec_init es = Ok (d, fx) -> 0 <= dd_rpm d <= 2 ^ 24 -> current_angle d now = Ok a ->
  fin (dd_last_angle d) /\ (0 <= R_ (dd_last_angle d) < 720)%R /\ fin a /\ (0 <= R_ a < 720)%R /\ (dd_rpm d = 0 -> a = dd_last_angle d).
Proof.
  intros c es d fx now a S Wh H Rm A. destruct (drun_cycle c es dec_init d fx S Wh (dec_init_dinv c S) in_cycle_zero H) as (V & F & B).
  split; [auto|]. split; [auto|]. unfold current_angle in A. destruct (Z.eqb_spec (dd_rpm d) 0) as [Z|Z].
  - injection A as <-. auto.
  - destruct (degrees_accuracy (w32 (now - dd_last_time d)) (dd_rpm d)) as (Vg & Fg & Bg); [apply w32_range|lia|]. cbv zeta in Bg.
    set (g := degrees_from_time_diff _ _) in *.
    assert (Hr' : (1 <= IZR (dd_rpm d) <= 16777216)%R) by (split; apply IZR_le; lia).
    pose proof (w32_range (now - dd_last_time d)) as Wr. assert (Wr' : (0 <= IZR (w32 (now - dd_last_time d)) <= 4294967296)%R) by (split; apply IZR_le; lia).
    assert (P : (0 <= IZR (w32 (now - dd_last_time d)) * IZR (dd_rpm d) <= 4294967296 * 16777216)%R) by (split; [apply Rmult_le_pos; lra|apply Rmult_le_compat; lra]).
    unfold ur in Bg. destruct (fadd_ok (dd_last_angle d) g 60) as [E2 F2]; auto; [lia|simpl; rewrite Rabs_pos_eq; lra|].
    destruct f720 as (V7 & F7 & R7).
    destruct (clamp_angle_range (fadd (dd_last_angle d) g) (f_of_Z 720) a) as (Va & Fa & G1 & G2); auto with vf.
    split; auto. unfold fge in G1. apply fle_iff in G1; auto with vf. apply flt_iff in G2; auto with vf. rewrite R_f_zero in G1. rewrite R7 in G2. split; [lra|]. intros Q. contradiction.
Qed.
Print Assumptions C30_range.

(** Up to two and a half cycles after the last tooth the estimate exists and is the reference
    angle plus the rotation at the last known speed, modulo 720, within 0.01 degrees. *)
Theorem C30_accuracy : forall c es d fx now, supported c -> wheel c -> drun c dec_init es = Ok (d, fx) -> 1 <= dd_rpm d <= 2 ^ 24 ->
  let turned := (3 / 2000000 * IZR (w32 (now - dd_last_time d)) * IZR (dd_rpm d))%R in (turned <= 1800)%R ->
  exists a k, current_angle d now = Ok a /\ (Rabs (R_ a - (R_ (dd_last_angle d) + turned + 720 * IZR k)) <= / 100)%R.
Proof.
  intros c es d fx now S Wh H Rm turned Ht. destruct (drun_cycle c es dec_init d fx S Wh (dec_init_dinv c S) in_cycle_zero H) as (V & F & B).
  destruct (degrees_accuracy (w32 (now - dd_last_time d)) (dd_rpm d)) as (Vg & Fg & Bg); [apply w32_range|lia|]. cbv zeta in Bg. fold turned in Bg.
  unfold current_angle. destruct (Z.eqb_spec (dd_rpm d) 0) as [|_]; [lia|]. set (g := degrees_from_time_diff _ _) in *.
  assert (T0 : (0 <= turned)%R).
  { unfold turned. pose proof (w32_range (now - dd_last_time d)) as Wr. apply Rmult_le_pos; [apply Rmult_le_pos; [lra|]|]; apply IZR_le; lia. }
  unfold ur in Bg. destruct (add_small (dd_last_angle d) g 720 1801) as (V2 & F2 & E2 & B2); auto; try (rewrite Rabs_pos_eq; lra); [lra|].
  destruct (clamp_approx (fadd (dd_last_angle d) g)) as (r & k & E3 & _ & _ & _ & A3); auto; [lra|].
  exists r, k. split; auto. apply Rabs_le_inv in A3. apply Rabs_le_inv in E2. apply Rabs_le. lra.
Qed.
Print Assumptions C30_accuracy.

(** Until the cycle wraps, the estimate is never behind the last tooth and never goes back. *)
Theorem C30_monotone : forall c es d fx now1 now2, supported c -> wheel c -> drun c dec_init es = Ok (d, fx) -> 0 <= dd_rpm d <= 2 ^ 24 ->
  w32 (now1 - dd_last_time d) <= w32 (now2 - dd_last_time d) ->
  (R_ (dd_last_angle d) + 3 / 2000000 * IZR (w32 (now2 - dd_last_time d)) * IZR (dd_rpm d) <= 719)%R ->
  exists a1 a2, current_angle d now1 = Ok a1 /\ current_angle d now2 = Ok a2 /\ (R_ (dd_last_angle d) <= R_ a1 <= R_ a2)%R.
Proof.
  intros c es d fx now1 now2 S Wh H Rm Ho Ht. destruct (drun_cycle c es dec_init d fx S Wh (dec_init_dinv c S) in_cycle_zero H) as (V & F & B).
  unfold current_angle. destruct (Z.eqb_spec (dd_rpm d) 0) as [|N]; [exists (dd_last_angle d), (dd_last_angle d); repeat split; auto; lra|].
  pose proof (w32_range (now1 - dd_last_time d)) as W1. pose proof (w32_range (now2 - dd_last_time d)) as W2.
  set (e1 := w32 (now1 - dd_last_time d)) in *. set (e2 := w32 (now2 - dd_last_time d)) in *. clearbody e1 e2.
  pose proof (degrees_mono (dd_rpm d) e1 e2 ltac:(lia) ltac:(unfold W; lia) ltac:(lia)) as Mo.
  assert (Z0 : R_ (degrees_from_time_diff 0 (dd_rpm d)) = 0%R).
  { destruct (degrees_accuracy 0 (dd_rpm d)) as (_ & _ & K); [unfold W; lia|lia|]. cbv zeta in K. lra. }
  pose proof (degrees_mono (dd_rpm d) 0 e1 ltac:(lia) ltac:(unfold W; lia) ltac:(lia)) as Mo0. rewrite Z0 in Mo0.
  destruct (degrees_accuracy e1 (dd_rpm d)) as (Vg1 & Fg1 & _); [unfold W; lia|lia|]. destruct (degrees_accuracy e2 (dd_rpm d)) as (Vg2 & Fg2 & K2); [unfold W; lia|lia|]. cbv zeta in K2.
  set (g1 := degrees_from_time_diff e1 _) in *. set (g2 := degrees_from_time_diff e2 _) in *. clearbody g1 g2.
  assert (G2 : (R_ (dd_last_angle d) + R_ g2 <= 719 + / 100)%R).
  { assert (0 <= 3 / 2000000 * IZR e2 * IZR (dd_rpm d))%R by (apply Rmult_le_pos; [apply Rmult_le_pos; [lra|]|]; apply IZR_le; lia). unfold ur in K2. lra. }
  destruct (fadd_ok (dd_last_angle d) g1 12) as [E1 F1]; auto; [lia|simpl; rewrite Rabs_pos_eq; lra|].
  destruct (fadd_ok (dd_last_angle d) g2 12) as [E2 F2]; auto; [lia|simpl; rewrite Rabs_pos_eq; lra|].
  assert (O0 : (R_ (dd_last_angle d) <= rnd (R_ (dd_last_angle d) + R_ g1))%R) by (apply round_ge_generic; try typeclasses eauto; [now apply generic_R|lra]).
  assert (O1 : (rnd (R_ (dd_last_angle d) + R_ g1) <= rnd (R_ (dd_last_angle d) + R_ g2))%R) by (apply round_le; try typeclasses eauto; lra).
  assert (O2 : (rnd (R_ (dd_last_angle d) + R_ g2) < 720)%R).
  { pose proof (rnd_small (R_ (dd_last_angle d) + R_ g2) ltac:(rewrite Rabs_pos_eq; lra)) as K. apply Rabs_le_inv in K. lra. }
  destruct f720 as (V7 & F7 & R7).
  exists (fadd (dd_last_angle d) g1), (fadd (dd_last_angle d) g2). split; [|split].
  - apply clamp_angle_id; [unfold fge; apply fle_iff; auto with vf; rewrite R_f_zero, E1; lra|apply flt_iff; auto with vf; rewrite R7, E1; lra].
  - apply clamp_angle_id; [unfold fge; apply fle_iff; auto with vf; rewrite R_f_zero, E2; lra|apply flt_iff; auto with vf; rewrite R7, E2; lra].
  - rewrite E1, E2. lra.
Qed.
Print Assumptions C30_monotone.

(* The default wheel, 3000 ticks (half a tooth) after a tooth at 60 degrees: 65 degrees. *)
Example C30_example : exists d fx a, drun (wheel36 MISSING_NOSYNC) dec_init (missing_start ++ even_teeth 160000 6000 6) = Ok (d, fx) /\
  dd_last_angle d = f_of_Z 60 /\ dd_rpm d = 1111 /\ current_angle d 193000 = Ok a /\ f_trunc (fmul a (f_of_Z 1000)) = Some 64999.
Proof. do 3 eexists. split; [vm_compute; reflexivity|]. vm_compute. auto. Qed.

(* A wheel with evenly spaced teeth and a cam, 12 teeth of 60 degrees to a cycle. *)
Example C30_even_example : supported (wheel12 EVEN_CAMSYNC) /\ wheel (wheel12 EVEN_CAMSYNC).
Proof.
  split; [split; cbn [wheel12 dc_required dc_window dc_num]; lia|]. destruct (f_of_Z_exact 60) as [E F]; [cbn; lia|].
  split; cbn [wheel12 dc_dpt dc_num]; auto using vf_of_Z; [rewrite E; lra|discriminate].
Qed.

(* At an absurd speed (noise with 2 ticks between teeth, then the engine stops at the tooth that
   gained sync) the estimate does not return once the rotation exceeds 2^34 degrees. *)
Theorem C30_noise_refuted : exists d, drun (wheel36 MISSING_NOSYNC) dec_init (even_teeth 100000 2 8 ++ [Trigger 0 100018]) = Ok (d, []) /\
  dd_valid d = 1 /\ dd_rpm d = 3333333 /\ current_angle d 4294967290 = Err Diverges.
Proof. eexists. split; [vm_compute; reflexivity|]. split; [reflexivity|]. split; [reflexivity|]. vm_compute. reflexivity. Qed.
Print Assumptions C30_noise_refuted.

(** ** C59: the reference belongs to the most recent tooth *)
(** Every tooth that keeps the position valid becomes the reference, and the reference angle is then for
    that tooth's time. *)
Theorem C59_reference : forall c es d fx n t d' fx', supported c -> drun c dec_init es = Ok (d, fx) -> dd_valid d <> 0 ->
  tooth_of c (Trigger n t) = [t] -> dstep c d (Trigger n t) = Ok (d', fx') -> dd_valid d' <> 0 -> dd_last_time d' = t.
Proof.
  intros c es d fx n t d' fx' S H V T E V'.
  assert (I : dinv c d) by (pose proof (drun_good c es dec_init S (dec_init_dinv c S)) as G; rewrite H in G; exact G).
  exact (proj1 (tooth_tracked c d n t d' fx' S I V T E V')).
Qed.
Print Assumptions C59_reference.
(** Without cam or gap, this also holds for the tooth that makes the position valid. *)
Theorem C59_even_nosync : forall h d fx c n t d' fx', hrun dec_init h = Ok (d, fx) -> dc_type c = EVEN_NOSYNC ->
  dstep c d (Trigger n t) = Ok (d', fx') -> dd_valid d' <> 0 -> dd_last_time d' = t.
Proof. intros h d fx c n t d' fx' H T E V. exact (proj1 (even_nosync_tracked c d n t d' fx' T E V (hrun_vinv _ _ _ _ dec_init_vinv H))). Qed.
Print Assumptions C59_even_nosync.
(* But the tooth (or cam pulse) at which a decoder gains sync is not recorded: the position is
   reported valid with angle 0 at time 0, although the last tooth was at tick 154000 (300000). *)
Theorem C59_gain_refuted :
  (exists d, drun (wheel36 MISSING_NOSYNC) dec_init missing_start = Ok (d, []) /\ dd_valid d = 1 /\ nth 0 (dd_times d) 0 = 154000 /\ dd_last_time d = 0 /\ dd_last_angle d = f_zero) /\
  (exists d fx, drun (wheel12 EVEN_CAMSYNC) dec_init even_start = Ok (d, fx) /\ dd_valid d = 1 /\ nth 0 (dd_times d) 0 = 300000 /\ dd_last_time d = 0 /\ dd_last_angle d = f_zero).
Proof. split; [eexists|do 2 eexists]; (split; [vm_compute; reflexivity|]); vm_compute; auto. Qed.
Print Assumptions C59_gain_refuted.
