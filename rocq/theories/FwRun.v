(** Whole runs of the firmware as runs of one output, for any wheel the decoder follows without losing its position. *)
Require Import ZArith List Bool Lia.
From Verif Require Import Res Word F32 Arr TimeProofs Outputs Buffers OutputSpec OutputRun OutputProofs BufferProofs RunProofs Callbacks CallbackSafe Decoder DecoderProofs DecoderRun Calc System SystemProofs SystemRun SystemOutputs P_System Spark FwSpec FwLink.
Import ListNotations.
Open Scope Z_scope.
Ltac Zify.zify_post_hook ::= idtac.

(** How many crank teeth are among these pulses. *)
Fixpoint teeth_in (h : list dev) : Z :=
  match h with [] => 0 | e :: r => match e with Trigger a _ => if a =? 0 then 1 else 0 | _ => 0 end + teeth_in r end.
Lemma teeth_in_app h h' : teeth_in (h ++ h') = teeth_in h + teeth_in h'.
Proof. induction h as [|e h IH]; cbn [app teeth_in]; lia. Qed.
Lemma teeth_of_pulse e : teeth_of e = teeth_in (pulse_of e).
Proof. destruct e; try reflexivity. cbn [teeth_of pulse_of teeth_in]. lia. Qed.

Section Run.
Variable env : nat -> Z * list Z.
Variable nd : bool.
Variable c : dcfg.
Variable rest : Z.

(** The firmware after the pulses [h], none of which has cost it the position. *)
Record good (h : list dev) (w : fw) : Prop := {
  gd_inv : finv w;
  gd_dc : w_dc w = c;
  gd_dec : exists fx, drun c dec_init h = Ok (w_dec w, fx) /\ ~ In CancelOutputs fx;
  gd_sim : w_simrpm w = 0;
  gd_rest : k_min_fire (w_cc w) = rest;
  gd_pend : dd_valid (w_dec w) = 0 -> exists ids, cwf 18 (w_cbs w) ids /\ forall j, In j ids -> j = EXPIRE_CB }.

Lemma effects_pend fx : forall w w' ids, effects env nd fx w = Ok w' -> ~ In CancelOutputs fx -> cwf 18 (w_cbs w) ids -> (forall j, In j ids -> j = EXPIRE_CB) ->
  exists ids', cwf 18 (w_cbs w') ids' /\ forall j, In j ids' -> j = EXPIRE_CB.
Proof.
  induction fx as [|[t|] fx IH]; intros w w' ids H N C P; cbn [effects] in H.
  - injection H as <-. eauto.
  - destruct (cwf_schedule nd 18 (w_cbs w) ids EXPIRE_CB t ltac:(lia) C ltac:(unfold EXPIRE_CB; lia)) as (c1 & l & E & C1 & M & _). rewrite E in H. cbn [bind] in H.
    apply (IH (set_cbs w c1) w' l); auto; [intros J; apply N; now right|]. intros j J. apply M in J. destruct J; auto.
  - exfalso. apply N. now left.
Qed.

(** One trigger of the run, seen by the decoder alone. *)
Lemma drun_step h d fx n t d' fx' : drun c dec_init h = Ok (d, fx) -> ~ In CancelOutputs fx -> drun c dec_init (h ++ [Trigger n t]) = Ok (d', fx') -> ~ In CancelOutputs fx' ->
  exists fx1, decoder_trigger c d n t = Ok (d', fx1) /\ ~ In CancelOutputs fx1.
Proof.
  intros E N E' N'. rewrite drun_app, E in E'. cbn [bind drun] in E'. apply bind_ok in E'. destruct E' as ([d1 f1] & E1 & E'). apply bind_ok in E1. destruct E1 as ([d2 f2] & E2 & E1). injection E1 as <- <-. injection E' as <- <-.
  exists f2. split; [exact E2|]. intros J. apply N'. apply in_or_app. right. now rewrite app_nil_r.
Qed.

Lemma step_good h w e w' : good h w -> fstep env nd w e = Ok w' -> plain rest w e -> (exists d fx, drun c dec_init (h ++ pulse_of e) = Ok (d, fx) /\ ~ In CancelOutputs fx) ->
  good (h ++ pulse_of e) w' /\ (e = FTimer -> dd_valid (w_dec w) <> 0).
Proof.
  intros G H P (d & fx & E & N). pose proof G as [I Dc (fx0 & D0 & N0) Si Re Pe]. assert (Q0 : dd_valid (w_dec w) = 0 -> forall w', timer_interrupt env nd w = Ok w' -> get (cb_arr (w_cbs w)) 0 = Ok EXPIRE_CB).
  { intros V w0 H0. destruct (Pe V) as (ids & C & J). destruct (Z.lt_ge_cases 0 (cb_n (w_cbs w))) as [Nn|Nn]; [|exfalso; exact (empty_interrupt env nd w (fi_cbs _ I) Nn w0 H0)].
    unfold timer_interrupt in H0. apply bind_ok in H0. destruct H0 as (u & _ & H0). apply bind_ok in H0. destruct H0 as (cb & Gc & _). rewrite Gc. f_equal. apply J. eapply head_pending; eauto. }
  destruct e; cbn [plain] in P; try contradiction; cbn [pulse_of] in E |- *; cbn [fstep] in H.
  - split; [|discriminate]. destruct (drun_step h (w_dec w) fx0 n t d fx D0 N0 E N) as (fx1 & E1 & N1). destruct (trigger_finv env nd w n t w' H I) as (I' & d' & fx' & E' & Ed & Edc & Ecc & _ & Es & _).
    rewrite Dc in E'. rewrite E1 in E'. injection E' as <- <-. split; auto; try congruence.
    + exists fx. rewrite Ed. auto.
    + rewrite Ed. intros V. assert (V0 : dd_valid (w_dec w) = 0).
      { change (dstep c (w_dec w) (Trigger n t) = Ok (d, fx1)) in E1. rewrite trigger_decode in E1. destruct (decode_step _ _ _ _ _ _ (counted_vinv _ n (fi_dec _ I)) E1) as (_ & K & _).
        destruct (counted_same (w_dec w) n) as (K1 & _). rewrite K1 in K. destruct (Z.eq_dec (dd_valid (w_dec w)) 0) as [|Nz]; auto. destruct (K Nz) as [[K2 _]|(_ & _ & _ & _ & K2)]; [congruence|tauto]. }
      destruct (Pe V0) as (ids & C & J). unfold decoder_update_scheduling in H. rewrite Dc, E1 in H. cbn [bind] in H. apply bind_ok in H. destruct H as (w1 & E2 & H).
      assert (Ed1 : w_dec w1 = d) by (destruct (effects_spec env nd fx1 (set_dec w d) w1 E2 (fi_len _ I) (fi_tame _ I) (fi_cbs _ I)) as ((_ & X & _) & _); exact X).
      rewrite Ed1 in H. replace (dd_valid d =? 0) with true in H by (symmetry; now apply Z.eqb_eq). injection H as <-. eapply effects_pend; eauto.
  - assert (V : dd_valid (w_dec w) <> 0) by (intros V; apply P; eauto). split; [|auto]. rewrite app_nil_r in *. destruct (timer_finv env nd w w' H I) as (I' & cb & c1 & w1 & now & Gc & Pt & _ & w2 & Ec & Sm & _ & _ & _).
    assert (S2 : same w w2).
    { pose proof (point_quiet _ _ _ _ Pt) as (S1 & _). unfold callback in Ec. destruct (Z.eqb_spec cb EXPIRE_CB) as [->|_]; [congruence|]. destruct (cb =? TEST_CB).
      - unfold execute_test_trigger in Ec. replace (w_simrpm (set_cbs w1 c1)) with 0 in Ec by (destruct S1 as (_ & _ & _ & _ & _ & R & _); cbn; congruence). cbn in Ec. injection Ec as <-. exact S1.
      - destruct (schedule_event_spec _ _ _ _ _ Ec) as (o & _ & (S & _) & _). eapply same_trans; [exact S1|exact S]. }
    pose proof (same_trans _ _ _ S2 Sm) as (A1 & A2 & A3 & A4 & A5 & A6 & A7). split; auto; try congruence.
    exists fx0. rewrite A2. auto.
  - split; [|discriminate]. rewrite app_nil_r in *. apply bind_ok in H. destruct H as ([now w1] & Ep & H). injection H as <-. pose proof (point_quiet _ _ _ _ Ep) as Q. pose proof (quiet_finv _ _ Q I). destruct Q as ((A1 & A2 & A3 & A4 & A5 & A6 & A7) & _ & _ & Cb).
    split; auto; try congruence; rewrite ?A2, ?Cb; eauto.
  - split; [|discriminate]. rewrite app_nil_r in *. injection H as <-. pose proof I as [? ? ? ? ?]. split; [constructor; auto|..]; eauto.
  - split; [|discriminate]. rewrite app_nil_r in *. injection H as <-. pose proof I as [? ? ? ? ?]. split; [constructor; auto|..]; eauto.
Qed.

(** Nothing in [h] costs the position, however much of it has come. *)
Definition keeps (h : list dev) : Prop := forall h1 h2, h = h1 ++ h2 -> exists d fx, drun c dec_init h1 = Ok (d, fx) /\ ~ In CancelOutputs fx.

Variables (m : Z) (i : nat) (tt : Z -> Z) (late : Z).
Hypothesis Hi : (i < 16)%nat.

(** A call is made with the position known, after some of the pulses. *)
Lemma calls_good l : forall w h k T w' j T1 v, good h w -> frun env nd w l = Ok w' -> keeps (h ++ pulses_of l) -> smooth env nd m (Z.of_nat i) tt late rest k w l ->
  nth_error (calls env nd (Z.of_nat i) T w l) j = Some (T1, v) -> exists h1 h2, pulses_of l = h1 ++ h2 /\ T1 = T + teeth_in h1 /\ good (h ++ h1) v /\ dd_valid (w_dec v) <> 0.
Proof.
  induction l as [|e l IH]; intros w h k T w' j T1 v G H K S J; cbn [calls] in J; [destruct j; discriminate|].
  cbn [frun smooth] in *. destruct (fstep env nd w e) as [w1|] eqn:E; cbn [bind] in H; [|discriminate]. destruct S as (P & _ & _ & _ & S).
  destruct (step_good h w e w1 G E P) as [G1 Tm]; [apply (K (h ++ pulse_of e) (pulses_of l)); now rewrite <- app_assoc|].
  assert (Rec : forall j, nth_error (calls env nd (Z.of_nat i) (T + teeth_of e) w1 l) j = Some (T1, v) -> exists h1 h2, pulses_of (e :: l) = h1 ++ h2 /\ T1 = T + teeth_in h1 /\ good (h ++ h1) v /\ dd_valid (w_dec v) <> 0).
  { intros j' J'. assert (K1 : keeps ((h ++ pulse_of e) ++ pulses_of l)) by now rewrite <- app_assoc. destruct (IH w1 (h ++ pulse_of e) _ _ w' j' T1 v G1 H K1 S J') as (h1 & h2 & A & B & C & D).
    exists (pulse_of e ++ h1), h2. split; [unfold pulses_of in *; cbn [flat_map]; rewrite A; now rewrite app_assoc|]. split; [rewrite teeth_in_app, <- teeth_of_pulse; lia|]. split; [now rewrite app_assoc|exact D]. }
  destruct (call_made (Z.of_nat i) w e w1) eqn:Cm; [|exact (Rec j J)]. destruct j as [|j]; cbn [app nth_error] in J; [|exact (Rec j J)]. injection J as <- <-.
  exists (pulse_of e), (pulses_of l). split; [reflexivity|]. split; [now rewrite teeth_of_pulse|]. split; [exact G1|].
  destruct e; cbn [call_made] in Cm; try discriminate.
  - intros V. rewrite V in Cm. discriminate.
  - specialize (Tm eq_refl). cbn [pulse_of] in G1. rewrite app_nil_r in G1. destruct (gd_dec _ _ G) as (f0 & D0 & _), (gd_dec _ _ G1) as (f1 & D1 & _). congruence.
Qed.

Hypothesis ON : punctual env m.
Variables (pin : Z) (ty : etype).
Hypothesis Enabled : ty <> DISABLED_EVENT.
Variable dec : Z -> dview -> output -> res (output * option (Z * Z)).
Variable vw : Z -> dview.
Hypothesis Mono : forall k, 0 <= k -> tt k <= tt (k + 1).
Notation Linked := (linked env nd m i pin late tt dec vw).

Lemma step_linked h w e w' k : good h w -> typed i ty w -> fstep env nd w e = Ok w' -> plain rest w e -> no_cut (w_vals w') -> (exists d fx, drun c dec_init (h ++ pulse_of e) = Ok (d, fx) /\ ~ In CancelOutputs fx) -> 0 <= k ->
  let made := call_made (Z.of_nat i) w e w' in
  (made = true -> tt k < open_from (block_of env m w) /\ vw k = view w' /\ forall d o, dec k d o = told nd ty rest (w_vals w') d o) ->
  typed i ty w' /\ Linked w None k Waiting w' None (if made then k + 1 else k) Waiting.
Proof.
  intros G Ty H P NC D Hk made K. destruct (step_good h w e w' G H P D) as [G' Tm]. pose proof G as [I Dc (fx0 & D0 & N0) Si Re Pe]. unfold made in *. clear made. destruct e; cbn [plain] in P; try contradiction; cbn [call_made] in *; cbn [fstep] in H.
  - apply trigger_linked with n t; auto.
    + destruct D as (d & fx & D & N). cbn [pulse_of] in D. rewrite Dc. destruct (drun_step h (w_dec w) fx0 n t d fx D0 N0 D N) as (fx1 & E1 & N1). intros d' fx' E'. rewrite E1 in E'. injection E' as <- <-. exact N1.
    + intros V. rewrite Re. apply K. apply negb_true_iff. now apply Z.eqb_neq.
  - pose proof (timer_linked env nd m ON i pin late tt dec vw Mono ty w w' k Hk H Si NC Ty Enabled Hi (Tm eq_refl) P) as X. cbn zeta in X. rewrite Re in X. destruct (X K) as (_ & _ & X3 & X4). auto.
  - apply bind_ok in H. destruct H as ([now w1] & Ep & H). injection H as <-. split; [|eapply point_linked; eauto]. eapply leq_typed; [..|exact Ty]; eauto. apply (point_quiet _ _ _ _ Ep).
  - injection H as <-. split; [exact Ty|]. apply linked_refl; reflexivity.
  - injection H as <-. split; [exact Ty|]. apply linked_refl; reflexivity.
Qed.

Lemma run_linked l : forall w h k T w', good h w -> typed i ty w -> frun env nd w l = Ok w' -> keeps (h ++ pulses_of l) -> 0 <= k -> smooth env nd m (Z.of_nat i) tt late rest k w l ->
  (forall j T1 v, nth_error (calls env nd (Z.of_nat i) T w l) j = Some (T1, v) -> vw (k + Z.of_nat j) = view v /\ forall d o, dec (k + Z.of_nat j) d o = told nd ty rest (w_vals v) d o) ->
  in_step env w -> in_step env w' /\ exists acts k', exec nd dec vw tt i pin late (stw env m pin w None k Waiting) acts (stw env m pin w' None k' Waiting).
Proof.
  induction l as [|e l IH]; intros w h k T w' G Ty H K Hk S C I; cbn [frun] in H.
  - injection H as <-. split; [exact I|]. exists [], k. constructor.
  - cbn [smooth calls] in *. destruct (fstep env nd w e) as [w1|] eqn:E; cbn [bind] in H; [|discriminate]. destruct S as (P & NC & O & B & S).
    assert (D : exists d fx, drun c dec_init (h ++ pulse_of e) = Ok (d, fx) /\ ~ In CancelOutputs fx) by (apply (K (h ++ pulse_of e) (pulses_of l)); now rewrite <- app_assoc).
    destruct (step_good h w e w1 G E P D) as [G1 _]. destruct (step_linked h w e w1 k G Ty E P NC D Hk) as [Ty1 L].
    { intros M. split; [exact (B M)|]. specialize (C 0%nat (T + teeth_of e) w1). rewrite M in C. cbn [app nth_error] in C. specialize (C eq_refl). change (Z.of_nat 0) with 0 in C. rewrite Z.add_0_r in C. exact C. }
    destruct (proj2 (proj2 L) I O) as (I1 & a1 & X1).
    destruct (IH w1 (h ++ pulse_of e) (if call_made (Z.of_nat i) w e w1 then k + 1 else k) (T + teeth_of e) w' G1 Ty1 H) as (I2 & a2 & k2 & X2); auto.
    + now rewrite <- app_assoc.
    + destruct (call_made _ _ _ _); lia.
    + intros j T1 v J. destruct (call_made (Z.of_nat i) w e w1).
      * specialize (C (Datatypes.S j) T1 v J). replace (k + 1 + Z.of_nat j) with (k + Z.of_nat (Datatypes.S j)) by lia. exact C.
      * exact (C j T1 v J).
    + split; [exact I2|]. exists (a1 ++ a2), k2. eapply exec_app; eauto.
Qed.
End Run.
