Require Import ZArith List Bool Lia.
From Verif Require Import Res Word Arr TimeProofs Outputs Buffers OutputSpec OutputRun.
Import ListNotations.
Open Scope Z_scope.
Ltac Zify.zify_post_hook ::= Z.to_euclidean_division_equations.

Definition match_entry (e : entry) (g : edge) : Prop := e_state e = g_state g /\ e_time e = g_time g mod W.
Definition is_fuel (t : etype) : bool := match t with FUEL_EVENT => true | _ => false end.
Definition match_out (o : output) (p : pulse) : Prop :=
  is_fuel (o_type o) = p_fuel p /\ match_entry (o_start o) (p_on p) /\ match_entry (o_stop o) (p_off p).

Lemma match_out_types o p : match_out o p -> is_fuel (o_type o) = p_fuel p.
Proof. intros H; apply H. Qed.

Lemma enable_match n e g t : match_entry e g -> in_window n t ->
  fst (sched_entry_enable (w32 (open_from n)) e (w32 t)) = fst (plan n g t) /\
  match_entry (snd (sched_entry_enable (w32 (open_from n)) e (w32 t))) (snd (plan n g t)).
Proof.
  intros [Hs Ht] Hw. unfold sched_entry_enable, plan, final. rewrite Hs.
  destruct (g_state g) eqn:E; cbn [sstate_eqb orb]; try (simpl; split; [reflexivity|split; [congruence|exact Ht]]).
  all: unfold w32; rewrite time_before_spec by (unfold in_window in Hw; unfold HALF; lia);
       destruct (t <? open_from n); simpl; (split; [reflexivity|split; [congruence||reflexivity|auto]]).
Qed.

Lemma enable_false E e t : fst (sched_entry_enable E e t) = false -> snd (sched_entry_enable E e t) = e.
Proof.
  unfold sched_entry_enable. destruct (sstate_eqb (e_state e) SUBMITTED || sstate_eqb (e_state e) FIRED); auto.
  destruct (time_before t E); auto. discriminate.
Qed.

Lemma shift_mod a b c : w32 (w32 a + w32 (b mod W - w32 c)) = w32 (a + (b - c)).
Proof.
  unfold w32. rewrite Zplus_mod_idemp_l, Zplus_mod_idemp_r. rewrite <- Zplus_mod_idemp_r.
  rewrite Zminus_mod_idemp_l, Zminus_mod_idemp_r. now rewrite Zplus_mod_idemp_r.
Qed.

Lemma commit_match n o p on off : match_out o p -> request_in_window n p on off ->
  match_out (commit_times (w32 (open_from n)) o (w32 on) (w32 off)) (request n p on off).
Proof.
  intros (Hf & Ha & Hb) (W1 & W2 & W3). unfold commit_times, request, event_is_unscheduled.
  destruct Ha as [Sa Ta], Hb as [Sb Tb]. rewrite Sa, Sb.
  assert (Ha : match_entry (o_start o) (p_on p)) by (split; auto).
  assert (Hb : match_entry (o_stop o) (p_off p)) by (split; auto).
  pose proof (enable_match n _ _ on Ha W1) as [Ea Ma].
  pose proof (enable_false (w32 (open_from n)) (o_start o) (w32 on)) as Ef.
  destruct (sched_entry_enable (w32 (open_from n)) (o_start o) (w32 on)) as [ok a].
  destruct (plan n (p_on p) on) as [ok' a']. simpl in Ea, Ma. subst ok'.
  assert (Gen : g_state (p_on p) <> UNSCHEDULED \/ g_state (p_off p) <> UNSCHEDULED -> match_out
     (let newstop' := if negb ok && is_fuel (o_type o) then w32 (w32 off + w32 (e_time (o_start o) - w32 on)) else w32 off in
      let '(_, b) := sched_entry_enable (w32 (open_from n)) (o_stop o) newstop' in with_entries o a b)
     (let off' := if negb ok && p_fuel p then g_time (p_on p) + (off - on) else off in
      Pulse (p_fuel p) a' (snd (plan n (p_off p) off')))).
  { intros Pl. rewrite Hf, Ta. cbv zeta.
    assert (E : (if negb ok && p_fuel p then w32 (w32 off + w32 (g_time (p_on p) mod W - w32 on)) else w32 off) =
      w32 (if negb ok && p_fuel p then g_time (p_on p) + (off - on) else off)).
    { destruct (negb ok && p_fuel p); auto. rewrite shift_mod. f_equal. lia. }
    rewrite E. set (off' := if negb ok && p_fuel p then _ else _).
    assert (Wo : in_window n off'). { unfold off'. destruct (negb ok) eqn:?, (p_fuel p) eqn:?; simpl; auto. }
    pose proof (enable_match n _ _ off' Hb Wo) as [_ Mb].
    destruct (sched_entry_enable (w32 (open_from n)) (o_stop o) (w32 off')) as [okb b]. simpl in Mb.
    split; [exact Hf|]. split; [exact Ma|exact Mb]. }
  destruct (g_state (p_on p)) eqn:Eon; [destruct (g_state (p_off p)) eqn:Eoff|..]; try (apply Gen; first [left; discriminate|right; discriminate]).
  cbn [sstate_eqb andb]. destruct ok.
  - pose proof (enable_match n _ _ off Hb W2) as [_ Mb].
    destruct (sched_entry_enable (w32 (open_from n)) (o_stop o) (w32 off)) as [okb b]. simpl in Mb.
    split; [exact Hf|]. split; [exact Ma|exact Mb].
  - split; [exact Hf|]. split; [|exact Hb]. cbn [o_start with_entries]. simpl in Ef. now rewrite Ef.
Qed.

Lemma deschedule_match nd o p : match_out o p ->
  (nd = true \/ (g_state (p_on p) = SCHEDULED -> g_state (p_off p) <> UNSCHEDULED)) -> g_state (p_on p) <> UNSCHEDULED ->
  exists o', deschedule_event nd o = Ok o' /\ match_out o' (cancel p).
Proof.
  intros (Hf & [Sa Ta] & [Sb Tb]) Hn Hu. unfold deschedule_event, sched_entry_disable, cancel, unplan. rewrite Sa.
  assert (A1 : c_assert nd (negb (sstate_eqb (g_state (p_on p)) UNSCHEDULED)) = Ok tt).
  { unfold c_assert. destruct nd; auto. destruct (g_state (p_on p)); auto. congruence. }
  rewrite A1. cbn [bind].
  destruct (g_state (p_on p)) eqn:Eon; cbn [sstate_eqb negb bind]; try congruence;
    try (eexists; split; [reflexivity|]; split; [exact Hf|]; split; split; simpl; congruence).
  rewrite Sb.
  assert (A2 : c_assert nd (negb (sstate_eqb (g_state (p_off p)) UNSCHEDULED)) = Ok tt).
  { unfold c_assert. destruct nd; auto. destruct Hn as [|Hn]; [discriminate|]. specialize (Hn eq_refl).
    destruct (g_state (p_off p)); auto. congruence. }
  rewrite A2. cbn [bind].
  destruct (g_state (p_off p)) eqn:Eoff; cbn [sstate_eqb negb bind];
    (eexists; split; [reflexivity|]; split; [exact Hf|]; split; split; simpl; congruence).
Qed.

Lemma reset_match nd o p : match_out o p -> g_state (p_on p) = FIRED -> g_state (p_off p) = FIRED ->
  exists o', reset_fired_event nd o = Ok o' /\ match_out o' (forget p).
Proof.
  intros (Hf & [Sa Ta] & [Sb Tb]) Ha Hb. unfold reset_fired_event. rewrite Sa, Sb, Ha, Hb.
  assert (A : c_assert nd (sstate_eqb FIRED FIRED) = Ok tt) by (unfold c_assert; destruct nd; reflexivity).
  rewrite A. cbn [bind]. eexists. split; [reflexivity|]. split; [exact Hf|]. split; split; simpl; auto.
Qed.

Lemma has_fired_match o p : match_out o p ->
  event_has_fired o = sstate_eqb (g_state (p_on p)) FIRED && sstate_eqb (g_state (p_off p)) FIRED.
Proof. intros (_ & [Sa _] & [Sb _]). unfold event_has_fired. now rewrite Sa, Sb. Qed.

Lemma set_pins_match o p : match_out o p -> match_out (set_pins o) p.
Proof. intros (Hf & [Sa Ta] & [Sb Tb]). split; [exact Hf|]. split; split; simpl; auto. Qed.

(** ** The specification keeps edges in place and pulses safe *)
Lemma plan_ok n g t : edge_ok n g -> t < open_from n + 2 ^ 31 -> edge_ok n (snd (plan n g t)).
Proof.
  intros Hg Ht. unfold plan. destruct (final g); auto. destruct (Z.ltb_spec t (open_from n)); auto.
  unfold edge_ok. simpl. lia.
Qed.

Lemma request_ok n p on off : edge_ok n (p_on p) -> edge_ok n (p_off p) -> request_in_window n p on off ->
  edge_ok n (p_on (request n p on off)) /\ edge_ok n (p_off (request n p on off)).
Proof.
  intros Ha Hb (W1 & W2 & W3). unfold in_window in *. unfold request.
  pose proof (plan_ok n (p_on p) on Ha ltac:(lia)) as Pa.
  destruct (plan n (p_on p) on) as [ok a] eqn:E. simpl in Pa.
  assert (Gen : g_state (p_on p) <> UNSCHEDULED \/ g_state (p_off p) <> UNSCHEDULED -> edge_ok n (snd (plan n (p_off p) (if negb ok && p_fuel p then g_time (p_on p) + (off - on) else off)))).
  { intros Pl. apply plan_ok; auto. destruct (negb ok), (p_fuel p); simpl; lia. }
  destruct (g_state (p_on p)) eqn:E1; [destruct (g_state (p_off p)) eqn:E2|..]; simpl; try (split; [exact Pa|]; apply Gen; first [left; discriminate|right; discriminate]).
  destruct ok; simpl; split; auto; apply plan_ok; auto; lia.
Qed.

Lemma request_safe n p on off : edge_ok n (p_on p) -> edge_ok n (p_off p) -> pulse_safe p -> request_in_order n p on off ->
  pulse_safe (request n p on off).
Proof.
  intros Ha Hb Hp (Ho & Hi). unfold request, pulse_safe, plan, final, edge_ok, on_is_fixed, final in *.
  destruct p as [fuel [s1 t1] [s2 t2]]. simpl in *.
  destruct s1, s2; simpl in *; try (now destruct Hp); try discriminate;
    repeat (match goal with |- context [?a <? ?b] => destruct (Z.ltb_spec a b) end; simpl);
    destruct fuel; simpl in *;
    repeat (match goal with |- context [?a <? ?b] => destruct (Z.ltb_spec a b) end; simpl);
    try (intuition (try lia; try discriminate; auto); fail).
Qed.

Lemma cancel_ok n p : edge_ok n (p_on p) -> edge_ok n (p_off p) -> edge_ok n (p_on (cancel p)) /\ edge_ok n (p_off (cancel p)).
Proof.
  destruct p as [f [s1 t1] [s2 t2]]. unfold cancel, unplan, edge_ok. simpl. destruct s1, s2; simpl; auto.
Qed.

Lemma cancel_safe p : pulse_safe p -> pulse_safe (cancel p).
Proof.
  destruct p as [f [s1 t1] [s2 t2]]. unfold cancel, unplan, pulse_safe. simpl. destruct s1, s2; simpl; intuition discriminate.
Qed.

Lemma tick_edge_ok n g : edge_ok n g -> edge_ok (n + 1) (tick_edge n g).
Proof.
  unfold tick_edge, edge_ok, open_from. destruct g as [s t]. cbn [g_state g_time]. destruct s; cbn [g_state g_time]; auto; intros H.
  - destruct (Z.eqb_spec (t / 128) (n + 2)) as [E|E]; cbn [g_state g_time]; [lia|].
    lia.
  - destruct (Z.eqb_spec (t / 128) n); cbn [g_state g_time]; lia.
  - lia.
Qed.

Lemma tick_safe n p : edge_ok n (p_on p) -> edge_ok n (p_off p) -> pulse_safe p -> pulse_safe (tick_pulse n p).
Proof.
  unfold tick_pulse, tick_edge, edge_ok, pulse_safe, open_from. destruct p as [f [s1 t1] [s2 t2]]. simpl.
  assert (M : t1 <= t2 -> t1 / 128 <= t2 / 128) by (intros; apply Z.div_le_mono; lia).
  assert (D1 : 128 * (n + 2) <= t1 -> n + 2 <= t1 / 128) by (intros; apply Z.div_le_lower_bound; lia).
  assert (D2 : 128 * (n + 2) <= t2 -> n + 2 <= t2 / 128) by (intros; apply Z.div_le_lower_bound; lia).
  destruct s1, s2; simpl; try (intuition discriminate);
    repeat (match goal with |- context [?a =? ?b] => destruct (Z.eqb_spec a b) end; simpl);
    intuition (try discriminate; try lia).
Qed.

Lemma open_mod n : w32 (w32 (128 * n) + 128 * 2) = w32 (open_from n).
Proof. unfold w32, open_from. rewrite Zplus_mod_idemp_l. f_equal. lia. Qed.
