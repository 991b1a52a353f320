(** C91: as long as the teeth of a wheel with a gap keep coming, the running firmware executes nothing undefined. *)
Require Import ZArith Reals List Bool Lia Lra.
Require Import Coq.Floats.SpecFloat.
From Verif Require Import Res Word F32 F32Flocq Arr Interval Outputs Buffers BufferProofs OutputRun PulseProofs Callbacks CallbackSafe Decoder DecoderProofs DecoderSafe DecoderAngle Calc CalcSpec FuelProofs DefaultConfig P_Calc
  System SystemProofs SystemRun SafeSpec SafeDec FwSafe P_Safe PaceSpec Pace.
Import ListNotations.
Open Scope Z_scope.
Ltac Zify.zify_post_hook ::= idtac.

Section Run.
Variable env : nat -> Z * list Z.
Variable c : dcfg.
Hypothesis C : dec_ok c.
Hypothesis M : missing c = true.
Variable sm : Z.
Hypothesis Hsm : 0 <= sm < 2 ^ 32.

(** No output waits for its callback, or both speeds are known. *)
Definition no_outputs (s : cbs) : Prop := exists ids, cwf 18 s ids /\ forall i, In i ids -> 16 <= i.
Definition moving (d : dec) : Prop := 1 <= dd_tooth_rpm d /\ 1 <= dd_rpm d.
Record pw (w : fw) : Prop := {
  pw_safe : fsafe c sm w;
  pw_steady : steady c (w_dec w);
  pw_speed : no_outputs (w_cbs w) \/ moving (w_dec w) }.

Lemma pulse_of w n t : pw w -> pulse_paced w n t -> pulse_may w n t.
Proof.
  intros [I S Sp] [P Q]. split; [exact P|]. intros d fx E. rewrite (fs_dc _ _ _ I) in *. apply (trigger_paced c C M (w_dec w) n t d fx (fs_dec _ _ _ I) S P Q E).
Qed.
Lemma may_of w e : pw w -> may_paced w e -> may w e.
Proof.
  intros Pw H. destruct e; cbn [may_paced may] in *; auto.
  - now apply pulse_of.
  - destruct H as [N T]. split; [exact N|]. split.
    + destruct Pw as [I S Sp]. intros i G Hi. destruct Sp as [(ids & K & A)|[_ R]]; [|exact R]. pose proof (A i (head_pending _ _ _ _ K N G)). lia.
    + intros G R. destruct (T G R) as [Nu P]. split; [exact Nu|]. intros t Gt. apply pulse_of; auto.
  - apply H.
Qed.

Lemma effects_cbs fx : forall w w', fsafe c sm w -> effects env true fx w = Ok w' -> no_outputs (w_cbs w) -> no_outputs (w_cbs w').
Proof.
  induction fx as [|[t|] fx IH]; intros w w' I E N; cbn [effects] in E; [congruence|..].
  - destruct N as (ids & K & N). destruct (cwf_schedule true 18 _ ids EXPIRE_CB t ltac:(lia) K ltac:(unfold EXPIRE_CB; lia)) as (k & l & E1 & K' & L & _). rewrite E1 in E. cbn [bind] in E.
    apply (IH (set_cbs w k) w'); [eapply set_cbs_ok; eauto|exact E|]. cbn [set_cbs w_cbs]. exists l. split; [exact K'|]. intros i Hi. apply L in Hi. destruct Hi as [->|Hi]; [unfold EXPIRE_CB; lia|auto].
  - destruct (cancel_ok env c sm w I) as (w1 & E1 & I1 & _). rewrite E1 in E. cbn [bind] in E. apply (IH w1 w' I1 E). apply cancel_quiet in E1. destruct E1 as (_ & _ & _ & ->). exact N.
Qed.

Lemma trigger_pw w n t w' : pw w -> pulse_paced w n t -> decoder_update_scheduling env true w n t = Ok w' -> steady c (w_dec w') /\ (no_outputs (w_cbs w') \/ moving (w_dec w')).
Proof.
  intros Pw H E. pose proof (pulse_of w _ _ Pw H) as [_ Tu]. destruct Pw as [I S Sp]. destruct H as [P Q]. unfold decoder_update_scheduling in E. rewrite (fs_dc _ _ _ I) in *.
  destruct (trigger_safe c C (w_dec w) n t (fs_dec _ _ _ I) P) as (d & fx & E1 & D). specialize (D (Tu _ _ E1)). rewrite E1 in E. cbn [bind] in E.
  destruct (trigger_paced c C M (w_dec w) n t d fx (fs_dec _ _ _ I) S P Q E1) as (S1 & T1 & Sp1).
  pose proof (set_dec_ok c sm w d I D) as I0. destruct (effects_ok env c sm fx _ I0) as (w1 & E2 & I1 & D1). rewrite E2 in E. cbn [bind] in E. cbn [set_dec w_dec] in D1.
  destruct (Z.eqb_spec (dd_valid (w_dec w1)) 0) as [V|V].
  - assert (w1 = w') by congruence. subst w'. rewrite D1. split; [exact S1|]. destruct Sp as [N|[R1 R2]]; [left|right; now apply Sp1]. eapply effects_cbs; [exact I0|exact E2|exact N].
  - destruct (alive c sm w1 I1 V) as [R1 R2]. apply bind_ok in E. destruct E as (v & E3 & E). apply bind_ok in E. destruct E as ((now & w2) & E4 & E). apply bind_ok in E. destruct E as ((v2 & tp) & E5 & E).
    destruct (ignition_any true (w_cc w1) (dd_rpm (w_dec w1)) (w_sens w1) (w_vals w1) (fs_cc _ _ _ I1) (fs_sens _ _ _ I1) R1) as (v' & Ev & F1 & F2 & F3). assert (v' = v) by congruence. subst v'.
    destruct (point_ok env c sm w1 I1) as (now' & w2' & Ep & I2 & D2 & _). assert (w2' = w2) by congruence. subst w2'.
    assert (I3 : fsafe c sm (set_vals w2 v2 tp)).
    { destruct (fueling_range true (w_cc w2) now (dd_rpm (w_dec w2)) (w_sens w2) v (w_tip w2) (co_range _ (fs_cc _ _ _ I2)) (fs_sens _ _ _ I2) (ds_rpm _ _ (fs_dec _ _ _ I2)) (fs_tip _ _ _ I2)) as (v2' & t2 & Ef & T2 & B2).
      assert (v2' = v2) by congruence. assert (t2 = tp) by congruence. subst v2' t2. destruct (fueling_keeps _ _ _ _ _ _ _ _ _ E5) as [A1 A2].
      destruct I2. split; auto; cbn [set_vals w_vals w_tip]; [rewrite A1; exact F2|rewrite A2; exact F3]. }
    destruct (from_ok env c C sm MAX_EVENTS 0 (set_vals w2 v2 tp) I3) as (w3 & E6 & _ & D3); [lia|unfold MAX_EVENTS; lia|cbn [set_vals w_dec]; rewrite D2; lia|].
    assert (w3 = w') by congruence. subst w3. cbn [set_vals w_dec] in D3. rewrite D3, D2, D1. split; [exact S1|]. right. unfold moving. rewrite <- D1. lia.
Qed.

Lemma lose_pw w l w' : fsafe c sm w -> (no_outputs (w_cbs w) \/ moving (w_dec w)) -> lose_position env true w (invalidate_decoder (set_loss (w_dec w) l)) = Ok w' ->
  steady c (w_dec w') /\ (no_outputs (w_cbs w') \/ moving (w_dec w')).
Proof.
  intros I Sp E. unfold lose_position in E. apply cancel_quiet in E. destruct E as ((_ & Ed & _) & _ & _ & Ec). cbn [set_dec w_dec w_cbs] in Ed, Ec. rewrite Ed, Ec. split; [now apply steady_none|exact Sp].
Qed.

Lemma test_pw w w' : pw w -> (w_simrpm w <> 0 -> dc_num c <= 36000 /\ forall t, get (cb_time (w_cbs w)) TEST_CB = Ok t -> pulse_paced w (test_input w) t) -> execute_test_trigger env true w = Ok w' -> pw w'.
Proof.
  intros Pw P E. destruct (test_ok env c C sm Hsm w (pw_safe _ Pw)) as (w1 & E1 & I1).
  { intros R. destruct (P R) as [Nu Q]. split; [exact Nu|]. intros t G. apply pulse_of; auto. }
  assert (w1 = w') by congruence. subst w1. clear E1. unfold execute_test_trigger in E. destruct (Z.eqb_spec (w_simrpm w) 0) as [R0|R0]; [assert (w = w') by congruence; subst w'; exact Pw|].
  destruct (P R0) as [_ Q]. clear P. apply bind_ok in E. destruct E as (t & G & E). specialize (Q t G). unfold test_input in Q. destruct (test_wheel_next _ _) as [[deg tr] tooth]. cbn [fst snd] in Q.
  apply bind_ok in E. destruct E as (w2 & E2 & E). apply bind_ok in E. destruct E as (dl & _ & E). apply bind_ok in E. destruct E as (k & Ek & E). assert (set_cbs w2 k = w') by congruence. subst w'. clear E.
  assert (Pw0 : pw (set_sim w (w_simrpm w) tooth)) by (destruct Pw as [[] S Sp]; split; auto; split; auto).
  destruct (trigger_pw _ _ _ _ Pw0 Q E2) as [S2 Sp2]. split; [exact I1|exact S2|]. cbn [set_cbs w_cbs w_dec]. destruct Sp2 as [(ids & K & A)|Sp2]; [left|now right].
  destruct (cwf_schedule true 18 _ ids TEST_CB (w32 (t + dl)) ltac:(lia) K ltac:(unfold TEST_CB; lia)) as (k' & l & E1 & K' & L & _). assert (k' = k) by congruence. subst k'. exists l. split; [exact K'|].
  intros i Hi. apply L in Hi. destruct Hi as [->|Hi]; [unfold TEST_CB; lia|auto].
Qed.

Lemma timer_pw w w' : pw w -> may_paced w FTimer -> timer_interrupt env true w = Ok w' -> steady c (w_dec w') /\ (no_outputs (w_cbs w') \/ moving (w_dec w')).
Proof.
  intros [I S Sp] [N T] E. unfold timer_interrupt in E. cbn [c_assert bind] in E. apply bind_ok in E. destruct E as (cb & G & E). apply bind_ok in E. destruct E as ((now & w1) & E1 & E).
  destruct (point_ok env c sm w I) as (now' & w1' & Ep & I1 & D1 & C1 & _). assert (w1' = w1) by congruence. subst w1'. cbn [bind] in E. apply bind_ok in E. destruct E as (k & E2 & E). apply bind_ok in E. destruct E as (w3 & E3 & E).
  assert (X : fsafe c sm (set_cbs w1 k) /\ cb_time k = cb_time (w_cbs w) /\ (no_outputs k \/ moving (w_dec w))).
  { rewrite C1 in E2. destruct Sp as [(ids & K & A)|Sp].
    - destruct (cwf_remove true 18 _ ids cb K (head_pending _ _ _ _ K N G)) as (k' & l1 & l2 & Ek & El & K1 & Kt & _). assert (k' = k) by congruence. subst k'. split; [eapply set_cbs_ok; eauto|]. split; [exact Kt|]. left. exists (l1 ++ l2). split; [exact K1|].
      intros i Hi. apply A. rewrite El. apply in_app_iff in Hi. apply in_app_iff. cbn [In]. tauto.
    - destruct (fs_cbs _ _ _ I) as [ids K]. destruct (cwf_remove true 18 _ ids cb K (head_pending _ _ _ _ K N G)) as (k' & l1 & l2 & Ek & El & K1 & Kt & _). assert (k' = k) by congruence. subst k'. split; [eapply set_cbs_ok; eauto|]. split; [exact Kt|now right]. }
  destruct X as (I2 & Kt & Sp2).
  assert (Y : fsafe c sm w3 /\ steady c (w_dec w3) /\ (no_outputs (w_cbs w3) \/ moving (w_dec w3))).
  { assert (Sp2' : no_outputs (w_cbs (set_cbs w1 k)) \/ moving (w_dec (set_cbs w1 k))) by (cbn [set_cbs w_cbs w_dec]; rewrite D1; exact Sp2).
    unfold callback in E3. destruct (Z.eqb_spec cb EXPIRE_CB) as [->|N1].
    - destruct (lose_ok env c sm _ _ I2 (lost_safe c C _ EXPIRED (fs_dec _ _ _ I2))) as (w3' & E3' & I3). change (invalidate_decoder (set_loss (w_dec (set_cbs w1 k)) EXPIRED)) with (handle_decoder_expire (w_dec (set_cbs w1 k))) in E3'. assert (w3' = w3) by congruence. subst w3'. split; [exact I3|].
      exact (lose_pw (set_cbs w1 k) EXPIRED w3 I2 Sp2' E3).
    - destruct (Z.eqb_spec cb TEST_CB) as [->|N2].
      + assert (Pw2 : pw w3); [|destruct Pw2; auto]. eapply test_pw; [|intros R0|exact E3]; [split; [exact I2|cbn [set_cbs w_dec]; rewrite D1; exact S|exact Sp2']|].
        cbn [set_cbs w_simrpm] in R0. rewrite (fs_sim _ _ _ I1), <- (fs_sim _ _ _ I) in R0. destruct (T G R0) as [Nu P]. rewrite (fs_dc _ _ _ I) in Nu. split; [exact Nu|].
        unfold pulse_paced, test_input in *. cbn [set_cbs w_cbs w_dc w_dec w_tooth]. rewrite D1, (point_tooth _ _ _ _ E1), (fs_dc _ _ _ I1), Kt. rewrite (fs_dc _ _ _ I) in P. exact P.
      + destruct (fs_cbs _ _ _ I) as [ids K]. pose proof (cw_range _ _ _ K _ (head_pending _ _ _ _ K N G)) as Rc. unfold EXPIRE_CB, TEST_CB in N1, N2.
        assert (Mv : moving (w_dec w)). { destruct Sp as [(ids' & K' & A)|Sp]; [|exact Sp]. pose proof (A cb (head_pending _ _ _ _ K' N G)). lia. }
        destruct (event_ok env c C sm (set_cbs w1 k) cb I2) as (w3' & E3' & I3 & D3); [lia|cbn [set_cbs w_dec]; rewrite D1; apply Mv|]. assert (w3' = w3) by congruence. subst w3'. split; [exact I3|]. rewrite D3. cbn [set_cbs w_dec]. rewrite D1. auto. }
  destruct Y as (I3 & S3 & Sp3). destruct (Z.ltb_spec 0 (cb_n (w_cbs w3))) as [N3|N3]; [|assert (w3 = w') by congruence; subst w3; auto].
  apply bind_ok in E. destruct E as (k4 & E4 & E). assert (set_cbs w3 k4 = w') by congruence. subst w'. cbn [set_cbs w_dec w_cbs]. split; [exact S3|]. destruct Sp3 as [(ids3 & K3 & A3)|Sp3]; [left|now right].
  destruct (cwf_arm 18 _ ids3 K3) as (k' & E4' & K4 & _); [intros ->; rewrite (cw_n _ _ _ K3) in N3; simpl in N3; lia|]. assert (k' = k4) by congruence. subst k'. exists ids3. auto.
Qed.

End Run.

(** Sensible settings with a gap in the wheel, in a sensible state. *)
Definition going (w : fw) : Prop := exists c r, dec_ok c /\ missing c = true /\ 0 <= r < 2 ^ 32 /\ pw c r w.
Lemma going_may w e : going w -> may_paced w e -> may w e.
Proof. intros (c & r & C & M & R & Pw). now apply (may_of c C M r). Qed.
Lemma steady_new c c' d : steady c d -> dc_dpt c' = dc_dpt c \/ dd_cur d = 0 -> steady c' d.
Proof. intros S [E|Z0]; [|now apply steady_none]. unfold steady, close in *. now rewrite E. Qed.
Lemma step_going env w e w' : going w -> may_paced w e -> fstep env true w e = Ok w' -> going w'.
Proof.
  intros G H E. pose proof (going_may w e G H) as H'. destruct G as (c & r & C & M & R & Pw). assert (K : forall v, pw c r v -> going v) by (intros v Pv; exists c, r; auto). pose proof Pw as [I S Sp].
  destruct e; cbn [fstep] in E.
  - destruct (trigger_ok env c C r w n t I H') as (w1 & E1 & I1). assert (w1 = w') by congruence. subst w1. apply K. destruct (trigger_pw env c C M r _ _ _ _ Pw H E). split; auto.
  - destruct (timer_ok env c C r R w I H') as (w1 & E1 & I1). assert (w1 = w') by congruence. subst w1. apply K. destruct (timer_pw env c C M r R _ _ Pw H E). split; auto.
  - destruct (lose_ok env c r w (invalidate_decoder (set_loss (w_dec w) OVERFLOW)) I) as (w1 & E1 & I1); [apply lost_safe; [exact C|apply (fs_dec _ _ _ I)]|]. change (lose_position env true w (invalidate_decoder (set_loss (w_dec w) OVERFLOW)) = Ok w') in E.
    assert (w1 = w') by congruence. subst w1. apply K. destruct (lose_pw env c r w OVERFLOW w' I Sp E). split; auto.
  - destruct (point_ok env c r w I) as (now & w1 & Ep & I1 & D1 & C1 & _). rewrite Ep in E. cbn [bind] in E. assert (w1 = w') by congruence. subst w1. apply K. split; [exact I1|now rewrite D1|now rewrite D1, C1].
  - match type of E with Ok ?x = _ => assert (x = w') by congruence; subst w' end. cbn [may] in H'. apply K. split; auto. destruct I. split; auto.
  - match type of E with Ok ?x = _ => assert (x = w') by congruence; subst w' end. destruct H as (_ & M' & Dp). cbn [may] in H'. destruct H' as [C' Nw]. exists c0, r. split; [exact C'|]. split; [exact M'|]. split; [exact R|]. rewrite (fs_dc _ _ _ I) in Dp, Nw.
    split; [|cbn [w_dec]; eapply steady_new; eauto|exact Sp]. destruct I. split; auto. cbn [w_dec]. apply (new_wheel c); auto.
  - match type of E with Ok ?x = _ => assert (x = w') by congruence; subst w' end. cbn [may] in H'. apply K. split; auto. destruct I. split; auto.
  - cbn [may] in H'. destruct H' as (Hi & Ha & Hp). destruct (get_ok_out c r w i I Hi) as (o & Go & Ho). rewrite Go in E. cbn [bind] in E.
    destruct (put_ok c r w i (Output ty angle pin inv (o_start o) (o_stop o)) I Hi) as (w1 & E1 & I1 & D1 & C1 & _); [destruct Ho as (_ & P & Q); split; [split; auto|auto]|]. assert (w1 = w') by congruence. subst w1. apply K. split; [exact I1|now rewrite D1|now rewrite D1, C1].
  - cbn [may] in H'. destruct (point_ok env c r w I) as (now & w1 & Ep & I1 & D1 & C1 & _). rewrite Ep in E. cbn [bind] in E. apply bind_ok in E. destruct E as (k & Ek & E). match type of E with Ok ?x = _ => assert (x = w') by congruence; subst w' end. clear E.
    destruct (callback_ok c r w1 TEST_CB (w32 (now + 10000)) I1 ltac:(unfold TEST_CB; lia)) as (k' & E1 & Ik). assert (k' = k) by congruence. subst k'. exists c, rpm. split; [exact C|]. split; [exact M|]. split; [exact H'|]. split.
    + destruct Ik. split; auto.
    + cbn [set_sim set_cbs w_dec]. now rewrite D1.
    + cbn [set_sim set_cbs w_dec w_cbs]. rewrite D1. destruct Sp as [(ids & Kc & A)|Sp]; [left|now right]. rewrite <- C1 in Kc.
      destruct (cwf_schedule true 18 _ ids TEST_CB (w32 (now + 10000)) ltac:(lia) Kc ltac:(unfold TEST_CB; lia)) as (k' & l & E2 & K' & L & _). assert (k' = k) by congruence. subst k'. exists l. split; [exact K'|].
      intros j Hj. apply L in Hj. destruct Hj as [->|Hj]; [unfold TEST_CB; lia|auto].
  - destruct (cancel_ok env c r w I) as (w1 & E1 & I1 & D1). assert (w1 = w') by congruence. subst w1. apply K. apply cancel_quiet in E. destruct E as ((_ & Ed & _) & _ & _ & Ec). split; [exact I1|now rewrite Ed|now rewrite Ed, Ec].
Qed.
Lemma sound_of env l : forall w, going w -> sound_paced env true w l -> sound env true w l.
Proof.
  induction l as [|e l IH]; intros w G H; [exact Logic.I|]. cbn [sound_paced sound] in *. destruct H as [H1 H2]. split; [now apply going_may|]. destruct (fstep env true w e) as [w'|] eqn:E; [|exact Logic.I]. apply IH; [eapply step_going; eauto|exact H2].
Qed.

Lemma start_going dc cc s os : dec_ok dc -> missing dc = true -> calc_ok cc -> sens_in_range s -> length os = 16%nat -> Forall output_ok os -> Forall fresh os -> going (fw_init dc cc s os).
Proof.
  intros D M K S L O F. exists (fst (decoder_init dc dec_init)), 0. split; [now apply init_ok|]. split; [exact M|]. split; [lia|]. split; [now apply start_ok|now apply steady_none|]. left. exists []. split; [exact (cwf_init 18 ltac:(lia))|intros i []].
Qed.

(** The pulses alone decide: no word about the speeds the firmware calculates. *)
Theorem C91_defined : forall env dc cc s os l, dec_ok dc -> missing dc = true -> calc_ok cc -> sens_in_range s -> length os = 16%nat -> Forall output_ok os -> Forall fresh os ->
  sound_paced env true (fw_init dc cc s os) l -> exists w, frun env true (fw_init dc cc s os) l = Ok w.
Proof.
  intros env dc cc s os l D M K S L O F Sn. eapply C90_defined; eauto. apply sound_of; [now apply start_going|exact Sn].
Qed.
Print Assumptions C91_defined.
(** And the firmware sees the engine turn: whenever the position is known or an output waits for its callback, the speed is not 0. *)
Theorem C91_speed : forall env dc cc s os l w, dec_ok dc -> missing dc = true -> calc_ok cc -> sens_in_range s -> length os = 16%nat -> Forall output_ok os -> Forall fresh os ->
  sound_paced env true (fw_init dc cc s os) l -> frun env true (fw_init dc cc s os) l = Ok w ->
  dd_valid (w_dec w) <> 0 \/ (exists i k, get (cb_arr (w_cbs w)) k = Ok i /\ 0 <= k < cb_n (w_cbs w) /\ 0 <= i < 16) -> 1 <= dd_rpm (w_dec w) /\ 1 <= dd_tooth_rpm (w_dec w).
Proof.
  intros env dc cc s os l w D M K S L O F. generalize (start_going dc cc s os D M K S L O F). generalize (fw_init dc cc s os).
  induction l as [|e l IH]; intros w0 Gw Sn E H; cbn [frun sound_paced] in *.
  - assert (w0 = w) by congruence. subst w0. destruct Gw as (c & r & _ & _ & _ & [I _ Sp]). destruct H as [V|(i & k & G & Hk & Hi)]; [destruct (alive c r w I V); lia|]. destruct Sp as [(ids & Kc & N)|[A B]]; [|auto]. exfalso.
    assert (In i ids); [|specialize (N i H); lia]. destruct (cw_arr _ _ _ Kc) as (rest & Ea & _). rewrite (cw_n _ _ _ Kc) in Hk. rewrite Ea in G. apply get_ok in G. destruct G as [_ G]. rewrite nth_error_app1 in G by lia. eapply nth_error_In; eauto.
  - destruct Sn as [H1 H2]. destruct (fstep env true w0 e) as [w1|] eqn:E1; [|discriminate]. cbn [bind] in E. apply (IH w1); auto. eapply step_going; eauto.
Qed.
Print Assumptions C91_speed.

(* Checks [sound_paced], for teeth 90 degrees apart. *)
Definition is90 (x : f32) : bool := match x, f_of_Z 90 with S754_finite s m e, S754_finite s' m' e' => Bool.eqb s s' && Pos.eqb m m' && (e =? e') | _, _ => false end.
Definition pacedb (w : fw) (n t : Z) : bool :=
  pulseb (w_dc w) (w_dec w) n t && is90 (dc_dpt (w_dc w)) && (negb (is_tooth (w_dc w) n) || negb (0 <? dd_cur (w_dec w)) || match get (dd_times (w_dec w)) 0 with Ok u => (t - u) mod 2 ^ 32 <=? 600000 * 90 | Err _ => true end).
Definition may_pacedb (w : fw) (e : fev) : bool :=
  match e with
  | FTrigger n t => pacedb w n t
  | FTimer => (0 <? cb_n (w_cbs w)) && testb (pacedb w) w
  | FDecoderConfig c => new_wheelb w c && missing c && is90 (dc_dpt c) && is90 (dc_dpt (w_dc w))
  | FTestRpm rpm => (0 <=? rpm) && (rpm <? 2 ^ 32)
  | _ => true
  end.
Fixpoint sound_pacedb (env : nat -> Z * list Z) (w : fw) (l : list fev) : bool :=
  match l with [] => true | e :: r => may_pacedb w e && match fstep env true w e with Ok w' => sound_pacedb env w' r | Err _ => true end end.
Lemma is90_ok x : is90 x = true -> x = f_of_Z 90.
Proof.
  unfold is90. intros B. destruct x; try discriminate B. destruct (f_of_Z 90); try discriminate B. apply andb_prop in B. destruct B as [B B3]. apply andb_prop in B. destruct B as [B1 B2]. apply eqb_prop in B1. apply Pos.eqb_eq in B2. apply Z.eqb_eq in B3. congruence.
Qed.
Lemma pacedb_ok w n t : pacedb w n t = true -> pulse_paced w n t.
Proof.
  intros B. apply andb_prop in B. destruct B as [B T]. apply andb_prop in B. destruct B as [P N]. split; [now apply pulseb_ok|]. apply is90_ok in N.
  intros Y K u G. rewrite Y, G in T. apply Z.ltb_lt in K. rewrite K in T. cbn [negb orb] in T. apply Z.leb_le in T. rewrite N. destruct (f_of_Z_exact 90) as [-> _]; [cbn; lia|]. rewrite <- (mult_IZR 600000 90). now apply IZR_le.
Qed.
Lemma sound_pacedb_ok env l : forall w, Forall side l -> sound_pacedb env w l = true -> sound_paced env true w l.
Proof.
  induction l as [|e l IH]; intros w F B; [exact Logic.I|]. cbn [sound_pacedb] in B. apply andb_prop in B. destruct B as [B1 B2]. inversion F as [|? ? F1 F2]. subst. cbn [sound_paced].
  split; [|destruct (fstep env true w e); [now apply IH|exact Logic.I]]. destruct e; cbn [may_pacedb may_paced may side] in *; auto.
  - now apply pacedb_ok.
  - apply andb_prop in B1. destruct B1 as [P T]. apply Z.ltb_lt in P. split; [exact P|]. apply (testb_ok (pacedb w)); [|exact T]. intros n t. apply pacedb_ok.
  - apply andb_prop in B1. destruct B1 as [B1 D2]. apply andb_prop in B1. destruct B1 as [B1 D1]. apply andb_prop in B1. destruct B1 as [B1 M]. split; [split; [exact F1|now apply new_wheelb_ok]|]. split; [exact M|]. left. apply is90_ok in D1, D2. congruence.
  - apply andb_prop in B1. destruct B1 as [P Q]. apply Z.leb_le in P. apply Z.ltb_lt in Q. lia.
Qed.
Lemma long_paced : sound_pacedb world_s (start_s MISSING_NOSYNC) long = true.
Proof. vm_cast_no_check (eq_refl true). Qed.
(* The history of C90's example; and an engine at 6000 RPM that stands still for 13.5 s before its position is found. *)
Definition restart (p : Z) : list fev := slots_s 1000000 10000 [2; 4; p; p + 1; p + 3].
Lemma restart_seen : seen (frun still true (start_s MISSING_NOSYNC) (restart 5400)) = Some (1, 4, 1, 5234).
Proof. vm_cast_no_check (eq_refl (Some (1, 4, 1, 5234))). Qed.
Lemma restart_paced : sound_pacedb still (start_s MISSING_NOSYNC) (restart 5400) = true.
Proof. vm_cast_no_check (eq_refl true). Qed.
Example C91_example : dec_ok (wheel_s MISSING_NOSYNC) /\ missing (wheel_s MISSING_NOSYNC) = true /\ sound_paced world_s true (start_s MISSING_NOSYNC) long /\
  sound_paced still true (start_s MISSING_NOSYNC) (restart 5400) /\ exists w, frun still true (start_s MISSING_NOSYNC) (restart 5400) = Ok w /\ dd_valid (w_dec w) = 1 /\ dd_rpm (w_dec w) = 4.
Proof.
  split; [apply wheel_s_ok|]. split; [reflexivity|]. split; [|split].
  - apply sound_pacedb_ok; [|exact long_paced]. unfold long, spun, slots_s. cbn [map app]. repeat apply Forall_cons; try exact Logic.I; try apply Forall_nil; cbn [side].
    + apply C34_ex_sens.
    + apply default_ok.
    + split; [lia|]. destruct (f_of_Z_exact 420) as [E F]; [lia|]. split; [|cbn; lia]. split; [apply vf_of_Z|]. split; [exact F|]. rewrite E. apply Rabs_le. lra.
  - apply sound_pacedb_ok; [|exact restart_paced]. unfold restart, slots_s. cbn [map]. repeat apply Forall_cons; try exact Logic.I; apply Forall_nil.
  - assert (X := restart_seen). destruct (frun still true (start_s MISSING_NOSYNC) (restart 5400)) as [w|]; [|discriminate X]. exists w. cbn [seen] in X. split; [reflexivity|]. split; congruence.
Qed.

(** ** An engine that stands still for longer before its position is found *)
(* 6000 RPM before and after a pause of 75 s: the speed calculated at the gap spans the pause and is reported as 0 while the
   position is reported as known, and a division by that speed is converted to an integer. *)
Theorem C91_pause_refuted : frun still true (start_s MISSING_NOSYNC) (slots_s 1000000 10000 [2; 4; 30000; 30001; 30003]) = Err FloatToInt.
Proof. vm_compute. reflexivity. Qed.
Print Assumptions C91_pause_refuted.
