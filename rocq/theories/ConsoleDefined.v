(** Which requests are carried out: all that do not write a knock frequency (C64). *)
Require Import ZArith List Bool String Lia.
From Verif Require Import Res Word F32 Sensors Cbor Console ConsoleSpec DecoderProofs ConsoleProofs ConsoleSafe.
Import ListNotations.
Open Scope Z_scope.
Ltac Zify.zify_post_hook ::= idtac.

Section DEFINED.
Context (rate : Z).

(** The frequencies in force can be converted. *)
Definition ksafe (m : mem) : Prop := forall b, settable rate (m_f m (F_KnockFreq b)).
Definition no_reach (base : list pelem) (path : list cbor) (v : cvalue) : Prop := forall b, ~ reach base path v (CF (F_KnockFreq b)).

Definition good_obj (o : obj) (base : list pelem) : Prop := forall c s,
  c_type c = SET -> c_completed c = false -> c_filtered c = nonempty (s_path s) -> tables_fit (s_mem s) -> ksafe (s_mem s) ->
  no_reach base (s_path s) (c_value c) -> exists s', o c s = Ok s'.
Definition good_stmt (f : stmt) (base : list pelem) : Prop := forall c s,
  c_type c = SET -> (c_completed c = false -> c_filtered c = nonempty (s_path s)) -> tables_fit (s_mem s) -> ksafe (s_mem s) ->
  (c_completed c = false -> no_reach base (s_path s) (c_value c)) -> exists r, f c s = Ok r.

Definition never (e : err) (t : rtype) : Prop := False.
Lemma total_stmt f base : safe_stmt never f -> good_stmt f base.
Proof. intros H c s _ _ Hf _ _. specialize (H c s Hf). destruct (f c s); [eauto|destruct H]. Qed.
Lemma total_obj o base : safe_obj never o -> good_obj o base.
Proof. intros H c s _ _ _ Hf _ _. specialize (H c s Hf). destruct (o c s); [eauto|destruct H]. Qed.

Lemma ksafe_changes m m' base path v : changes m m' (reach base path v) -> no_reach base path v -> ksafe m -> ksafe m'.
Proof. intros H Hn Hk b. specialize (H _ (Hn b)). cbn [read] in H. assert (m_f m' (F_KnockFreq b) = m_f m (F_KnockFreq b)) as -> by congruence. apply Hk. Qed.

Lemma good_run base : forall body, Forall (fun f => good_stmt f base) body -> Forall (fun f => within_stmt f base) body -> Forall (safe_stmt knock_only) body ->
  good_stmt (run body) base.
Proof.
  induction body as [|f body IH]; intros G Wi Sa c s Ht Hf Hm Hk Hn; cbn [run]; [eauto|].
  inversion G as [|? ? G1 G2]; subst. inversion Wi as [|? ? W1 W2]; subst. inversion Sa as [|? ? S1 S2]; subst.
  destruct (G1 c s Ht Hf Hm Hk Hn) as ([c1 s1] & E). rewrite E. cbn [bind].
  destruct (W1 c s c1 s1 Ht Hf E) as [[Ht1 Hv1] K]. specialize (S1 c s Hm). rewrite E in S1. destruct S1 as [_ Hm1].
  apply IH; auto.
  - intros Hc. destruct (c_completed c); [destruct K; congruence|]. destruct K as (_ & _ & K). destruct (K Hc) as [-> ->]. auto.
  - destruct (c_completed c); [destruct K as (_ & -> & _); exact Hk|]. destruct K as (K & _). eapply ksafe_changes; eauto.
  - intros Hc. destruct (c_completed c); [destruct K; congruence|]. destruct K as (_ & _ & K). destruct (K Hc) as [-> _]. rewrite Hv1. auto.
Qed.

Lemma good_container k body base : good_stmt (run body) base -> good_obj (render_container k body) base.
Proof.
  intros G c s Ht Hc Hf Hm Hk Hn. unfold render_container. set (inner := if negb (c_filtered c) then St (s_mem s) (s_path s) [] (s_effs s) else s).
  assert (Hi : s_mem inner = s_mem s /\ s_path inner = s_path s) by (unfold inner; destruct (negb (c_filtered c)); auto). destruct Hi as [I1 I2].
  assert (E : exists r, run body c inner = Ok r) by (apply G; rewrite ?I1, ?I2; auto). destruct E as ([c1 s1] & E).
  rewrite E. cbn [bind]. eauto.
Qed.

Lemma good_map_field id o base : good_obj o (base ++ [PN id]) -> good_stmt (map_field id o) base.
Proof.
  intros Ho c s Ht Hok Hm Hk Hn. unfold map_field, descend_map_field. rewrite Ht.
  destruct (c_completed c) eqn:Ec; [eauto|]. specialize (Hok eq_refl). specialize (Hn eq_refl). destruct (c_filtered c) eqn:Ef; cbn [negb].
  - destruct (s_path s) as [|q qs] eqn:Ep; [discriminate|]. unfold console_path_match_str. cbn [hd_error tl].
    destruct (text_equals (Some q) id) eqn:Et; cbn [negb]; [|eauto].
    match goal with |- context[o ?d ?t] => destruct (Ho d t) as (s2 & E) end; auto; try (cbn; destruct qs; reflexivity).
    + cbn [s_path c_value]. intros b Hr. apply (Hn b). eapply reach_step; [apply text_equals_denotes, Et|exact Hr].
    + rewrite E. cbn [bind]. eauto.
  - destruct (s_path s) as [|q qs] eqn:Ep; [|discriminate]. destruct (negb (is_map (c_value c))); [eauto|].
    match goal with |- context[o ?d ?t] => destruct (Ho d t) as (s2 & E) end; auto; try (cbn; rewrite ?Ep; reflexivity).
    + cbn [s_path c_value emit]. rewrite Ep. intros b Hr. apply (Hn b). apply reach_key in Hr. exact Hr.
    + rewrite E. cbn [bind]. eauto.
Qed.

Lemma knock_defined m b : ksafe m -> knock_check rate m b = Ok tt.
Proof.
  intros H. destruct (H b) as (k & E). unfold knock_check. revert E. unfold Sensors.knock_configure. cbv zeta. cbn [q_frequency].
  destruct (f_to_u32 _); [reflexivity|discriminate].
Qed.

Lemma good_knock b : Forall (fun f => good_stmt f (knock_path b)) (render_knock_object rate b).
Proof.
  unfold render_knock_object, float_map_field. apply Forall_cons; [|apply Forall_cons; [|apply Forall_cons; [|apply Forall_nil]]].
  - apply total_stmt. safe_all.
  - apply total_stmt. safe_all.
  - intros c s Ht _ _ Hk _. rewrite Ht, !(knock_defined _ _ Hk). cbn [bind]. eauto.
Qed.

Lemma good_sensors : Forall (fun f => good_stmt f [PN "sensors"%string]) (render_sensors rate).
Proof.
  unfold render_sensors, map_map_field, render_map_object. apply Forall_app. split.
  - apply Forall_forall. intros f Hf. apply in_map_iff in Hf as (x & <- & _). apply total_stmt. safe_all. apply safe_sensor.
  - apply Forall_cons; [|apply Forall_cons; [|apply Forall_nil]]; apply good_map_field, good_container; cbn [List.app];
      match goal with |- good_stmt (run (render_knock_object rate ?b)) _ => exact (good_run (knock_path b) _ (good_knock b) (within_knock_all rate b) (safe_knock rate b)) end.
Qed.

Lemma good_toplevel v : Forall (fun f => good_stmt f []) (console_toplevel_request rate v).
Proof.
  unfold console_toplevel_request, map_map_field, array_map_field, render_array_object, render_map_object.
  repeat (apply Forall_cons || apply Forall_nil);
    first [apply total_stmt; safe_all;
             first [apply safe_decoder|apply safe_outputs|apply safe_fueling|apply safe_ignition|apply safe_tables|
                    apply safe_boost|apply safe_cel|apply safe_freq|apply safe_test|apply safe_info]
          |apply good_map_field, good_container; cbn [List.app]; exact (good_run _ _ good_sensors (within_sensors_all rate) (safe_sensors rate))].
Qed.
End DEFINED.
