(** Memory safety of the renderers, and what a SET may change. *)
Require Import ZArith List Bool String Lia.
From Verif Require Import Res Word F32 Sensors Cbor Console ConsoleSpec DecoderProofs ConsoleProofs.
Import ListNotations.
Open Scope Z_scope.
Ltac Zify.zify_post_hook ::= idtac.

(** *** Table sizes and storage *)

(** What may go wrong is given by [bad]: the error and the kind of request. *)
Definition safe_obj (bad : err -> rtype -> Prop) (o : obj) : Prop := forall c s, tables_fit (s_mem s) ->
  match o c s with Ok s' => tables_fit (s_mem s') | Err e => bad e (c_type c) end.
Definition safe_stmt (bad : err -> rtype -> Prop) (f : stmt) : Prop := forall c s, tables_fit (s_mem s) ->
  match f c s with Ok (c', s') => c_type c' = c_type c /\ tables_fit (s_mem s') | Err e => bad e (c_type c) end.
(** Only the conversion of the knock frequency, in a SET. *)
Definition knock_only (e : err) (t : rtype) : Prop := e = FloatToInt /\ t = SET.

Lemma safe_run {bad} body : Forall (safe_stmt bad) body -> safe_stmt bad (run body).
Proof.
  intros H. induction H as [|f body Hf Hb IH]; intros c s Hs; cbn [run]; [auto|].
  specialize (Hf c s Hs). destruct (f c s) as [[c1 s1]|e]; cbn [bind]; [|exact Hf]. destruct Hf as [Hf1 Hf2].
  specialize (IH c1 s1 Hf2). destruct (run body c1 s1) as [[c2 s2]|e]; rewrite <- Hf1; exact IH.
Qed.

Lemma safe_map_field {bad} id o : safe_obj bad o -> safe_stmt bad (map_field id o).
Proof.
  intros Ho c s Hs. unfold map_field. destruct (descend_map_field c id s) as [[[go c1] d] s1] eqn:E.
  destruct (descend_map_cases _ _ _ _ _ _ _ E) as ([A _] & B & C). rewrite <- A in Hs.
  destruct go; [|auto]. specialize (Ho d s1 Hs). rewrite C in Ho. destruct (o d s1); cbn [bind]; auto.
Qed.

Lemma safe_array_field {bad} i o : safe_obj bad o -> safe_stmt bad (array_field i o).
Proof.
  intros Ho c s Hs. unfold array_field. destruct (descend_array_field c i s) as [[[go c1] d] s1] eqn:E.
  destruct (descend_array_cases _ _ _ _ _ _ _ E) as ([A _] & B & C). rewrite <- A in Hs.
  destruct go; [|auto]. specialize (Ho d s1 Hs). rewrite C in Ho. destruct (o d s1); cbn [bind]; auto.
Qed.

Lemma safe_container {bad} k body : Forall (safe_stmt bad) body -> safe_obj bad (render_container k body).
Proof.
  intros Hb c s Hs. unfold render_container.
  set (inner := if negb (c_filtered c) then St (s_mem s) (s_path s) [] (s_effs s) else s).
  assert (Hi : tables_fit (s_mem inner)) by (unfold inner; destruct (negb (c_filtered c)); exact Hs).
  pose proof (safe_run body Hb c inner Hi) as H. destruct (run body c inner) as [[c1 s1]|e]; cbn [bind]; [|exact H].
  destruct H as [_ H]. destruct (negb (c_filtered c)), (c_filtered c1 && negb (c_completed c1)); exact H.
Qed.

Lemma safe_leaf_uint {bad} d p : safe_obj bad (render_uint32_object d p).
Proof.
  intros c s Hs. unfold render_uint32_object. destruct (c_type c); try exact Hs.
  destruct (c_value c) as [[]|]; try exact Hs. destruct (int_checked z); exact Hs.
Qed.
Lemma safe_leaf_float {bad} d p : safe_obj bad (render_float_object d p).
Proof. intros c s Hs. unfold render_float_object. destruct (c_type c); try exact Hs. destruct (c_value c) as [[]|]; exact Hs. Qed.
Lemma safe_leaf_bool {bad} d p : safe_obj bad (render_bool_object d p).
Proof. intros c s Hs. unfold render_bool_object. destruct (c_type c); try exact Hs. destruct (c_value c) as [[]|]; exact Hs. Qed.
Lemma c_string_length s : (String.length (c_string s) <= String.length s)%nat.
Proof. induction s as [|a s IH]; cbn [c_string String.length]; [lia|]. destruct (Ascii.eqb a _); cbn [String.length]; lia. Qed.
Lemma safe_leaf_string {bad} d p : safe_obj bad (render_string_object d p).
Proof.
  intros c s Hs. unfold render_string_object. destruct (c_type c); try exact Hs. destruct (c_value c) as [[]|]; try exact Hs.
  unfold MAX_TABLE_TITLE_SIZE. destruct (Z.leb_spec (Z.of_nat (String.length s0)) 24) as [Hl|Hl]; [|exact Hs]. split; [apply Hs|].
  intros q. cbn. unfold upd. destruct (scell_eq q p); [|apply Hs]. pose proof (c_string_length s0). lia.
Qed.

Lemma enum_set_nums v p mp : forall m, m_n (fold_left (fun m (x : Z * string) => if text_equals v (snd x) then set_e m p (fst x) else m) mp m) = m_n m.
Proof. induction mp as [|x mp IH]; intros m; cbn [fold_left]; [reflexivity|]. rewrite IH. destruct (text_equals v (snd x)); reflexivity. Qed.
Lemma enum_set_strings v p mp : forall m, m_s (fold_left (fun m (x : Z * string) => if text_equals v (snd x) then set_e m p (fst x) else m) mp m) = m_s m.
Proof. induction mp as [|x mp IH]; intros m; cbn [fold_left]; [reflexivity|]. rewrite IH. destruct (text_equals v (snd x)); reflexivity. Qed.
Lemma safe_leaf_enum {bad} d mp p : safe_obj bad (render_enum_object d mp p).
Proof.
  intros c s Hs. unfold render_enum_object.
  assert (H : forall m, tables_fit m -> tables_fit (s_mem
    (match filter (fun x => m_e m p =? fst x) mp with [] => emit (with_mem s m) ENull
         | x :: l => fold_left (fun s x => emit s (EText (snd x))) (x :: l) (with_mem s m) end))).
  { intros m Hm. destruct (filter _ mp) as [|x l]; [exact Hm|].
    destruct (emit_all_quiet (x :: l) (with_mem s m)) as [-> _]. exact Hm. }
  destruct (c_type c); try exact Hs.
  - pose proof (H (s_mem s) Hs) as Hx. destruct (filter _ mp); exact Hx.
  - set (m := fold_left _ _ _). assert (Hm : tables_fit m) by (unfold tables_fit, m; rewrite enum_set_nums, enum_set_strings; exact Hs).
    pose proof (H m Hm) as Hx. destruct (filter _ mp); exact Hx.
Qed.

Lemma safe_float_elem {bad} i p : 0 <= i < 24 -> safe_obj bad (float_elem i p).
Proof.
  intros Hi c s Hs. unfold float_elem, MAX_AXIS_SIZE. destruct (Z.ltb_spec i 0), (Z.leb_spec 24 i); try lia. cbn [orb].
  apply safe_leaf_float. exact Hs.
Qed.
Lemma safe_describe_list {bad} t d : safe_obj bad (describe_list t d).
Proof. intros c s Hs. exact Hs. Qed.

Lemma safe_loop {bad} cond body : (forall m i, tables_fit m -> cond m i = true -> i < 24) ->
  (forall i, 0 <= i < 24 -> safe_stmt bad (body i)) ->
  forall n i, 0 <= i -> 24 - i <= Z.of_nat n -> safe_stmt bad (loop n i cond body).
Proof.
  intros Hc Hb. induction n as [|n IH]; intros i Hi Hn c s Hs; cbn [loop].
  - destruct (cond (s_mem s) i) eqn:E; [|cbn [negb]; auto]. exfalso. pose proof (Hc _ _ Hs E). lia.
  - destruct (cond (s_mem s) i) eqn:E; cbn [negb]; [|auto]. pose proof (Hc _ _ Hs E).
    pose proof (Hb i ltac:(lia) c s Hs) as H1. destruct (body i c s) as [[c1 s1]|e]; cbn [bind]; [|exact H1].
    destruct H1 as [H1 H2]. rewrite <- H1. apply IH; [lia|lia|exact H2].
Qed.

Lemma safe_switch {bad} (f g : stmt) : safe_stmt bad f -> safe_stmt bad g ->
  safe_stmt bad (fun c s => match c_type c with DESCRIBE => f c s | _ => g c s end).
Proof. intros Hf Hg c s Hs. specialize (Hf c s Hs). specialize (Hg c s Hs). destruct (c_type c); auto. Qed.

Lemma safe_unless {bad} t body : Forall (safe_stmt bad) body -> Forall (safe_stmt bad) (unless_structure t body).
Proof.
  intros Hb. apply Forall_cons; [|apply Forall_nil]. intros c s Hs.
  pose proof (safe_run body Hb c s Hs) as H. destruct (c_type c) eqn:E; try exact H. auto.
Qed.

Lemma safe_axis_values {bad} t a : Forall (safe_stmt bad) (render_table_axis_values t a).
Proof.
  apply Forall_cons; [|apply Forall_cons; [|apply Forall_nil]].
  - intros c s Hs. destruct (c_type c) eqn:E; auto. destruct (c_value c) as [[]|]; auto. split; [auto|].
    split; [|apply Hs]. intros t' a'. cbn. unfold upd. destruct (ncell_eq _ _); [|apply Hs].
    unfold MAX_AXIS_SIZE. set (len := if definite then _ else _).
    assert (Hl : 0 <= len) by (unfold len; destruct definite; [lia|apply Hs]).
    destruct (Z.ltb_spec 24 len); rewrite Z.mod_small by lia; lia.
  - apply safe_loop; try (cbn; lia).
    + intros m i _ H. apply andb_prop in H as [_ H]. apply Z.ltb_lt in H. exact H.
    + intros i Hi. apply safe_array_field, safe_float_elem. exact Hi.
Qed.

Ltac safe_all := repeat
  match goal with
  | |- Forall _ [] => apply Forall_nil
  | |- Forall _ (_ :: _) => apply Forall_cons
  | |- Forall _ (render_table_axis_values _ _) => apply safe_axis_values
  | |- Forall _ (unless_structure _ _) => apply safe_unless
  | |- safe_stmt _ (map_field _ _) => apply safe_map_field
  | |- safe_stmt _ (array_field _ _) => apply safe_array_field
  | |- safe_obj _ (render_container _ _) => apply safe_container
  | |- safe_obj _ (render_uint32_object _ _) => apply safe_leaf_uint
  | |- safe_obj _ (render_float_object _ _) => apply safe_leaf_float
  | |- safe_obj _ (render_bool_object _ _) => apply safe_leaf_bool
  | |- safe_obj _ (render_string_object _ _) => apply safe_leaf_string
  | |- safe_obj _ (render_enum_object _ _ _) => apply safe_leaf_enum
  | |- safe_obj _ (describe_list _ _) => apply safe_describe_list
  | |- safe_stmt _ (fun c s => match c_type c with DESCRIBE => _ | _ => _ end) => apply safe_switch
  end.

Lemma safe_axis {bad} t a : Forall (safe_stmt bad) (render_table_axis t a).
Proof. unfold render_table_axis, array_map_field, render_array_object. safe_all. Qed.

Lemma safe_row_loop {bad} t a (body : Z -> stmt) : (forall i, 0 <= i < 24 -> safe_stmt bad (body i)) ->
  safe_stmt bad (loop 256 0 (fun m i => i <? m_n m (N_Axis t a)) body).
Proof.
  intros Hb. apply safe_loop; try (cbn; lia); auto.
  intros m i Hm H. apply Z.ltb_lt in H. pose proof (proj1 Hm t a). lia.
Qed.

Lemma safe_second {bad} t r : safe_obj bad (render_array_object (render_table_second_axis_data t r)).
Proof.
  unfold render_array_object, render_table_second_axis_data. safe_all. apply safe_row_loop.
  intros i Hi. apply safe_array_field, safe_float_elem, Hi.
Qed.

Lemma safe_2d_data {bad} t : Forall (safe_stmt bad) (render_table_2d_data t).
Proof.
  unfold render_table_2d_data. safe_all. apply safe_row_loop. intros i Hi. apply safe_array_field.
  intros c s Hs. unfold MAX_AXIS_SIZE. destruct (Z.ltb_spec i 0), (Z.leb_spec 24 i); try lia. cbn [orb]. apply safe_second, Hs.
Qed.
Lemma safe_1d_data {bad} t : Forall (safe_stmt bad) (render_table_1d_data t).
Proof.
  unfold render_table_1d_data. safe_all. apply safe_row_loop.
  intros i Hi. apply safe_array_field, safe_float_elem, Hi.
Qed.

Lemma safe_table_2d {bad} t : Forall (safe_stmt bad) (render_table_2d_object t).
Proof.
  unfold render_table_2d_object, array_map_field, map_map_field, render_array_object, render_map_object. safe_all; try apply safe_axis.
  apply safe_2d_data.
Qed.
Lemma safe_table_1d {bad} t : Forall (safe_stmt bad) (render_table_1d_object t).
Proof.
  unfold render_table_1d_object, array_map_field, map_map_field, render_array_object, render_map_object. safe_all; try apply safe_axis.
  apply safe_1d_data.
Qed.

Lemma safe_sensor {bad} x : Forall (safe_stmt bad) (render_sensor_object x).
Proof. unfold render_sensor_object, uint32_map_field, float_map_field, enum_map_field. safe_all. Qed.

Lemma knock_check_err rate m b e : knock_check rate m b = Err e -> e = FloatToInt.
Proof.
  unfold knock_check, Sensors.knock_configure, f_to_u32, f_to_range. destruct (f_trunc _) as [z|]; [|intros [= <-]; reflexivity].
  destruct (_ && _); cbn [bind]; intros [= <-]. reflexivity.
Qed.

Lemma safe_knock rate b : Forall (safe_stmt knock_only) (render_knock_object rate b).
Proof.
  unfold render_knock_object, float_map_field. safe_all. intros c s Hs. destruct (c_type c) eqn:E; auto.
  destruct (knock_check rate (s_mem s) false) eqn:E1; cbn [bind]; [|split; [eapply knock_check_err; eauto|auto]].
  destruct (knock_check rate (s_mem s) true) eqn:E2; cbn [bind]; [|split; [eapply knock_check_err; eauto|auto]]. auto.
Qed.

Lemma safe_output {bad} i : Forall (safe_stmt bad) (output_console_renderer i).
Proof. unfold output_console_renderer, uint32_map_field, float_map_field, enum_map_field, bool_map_field. safe_all. Qed.

Lemma safe_decoder {bad} : Forall (safe_stmt bad) render_decoder.
Proof. unfold render_decoder, uint32_map_field, float_map_field, enum_map_field. safe_all. Qed.
Lemma safe_outputs {bad} : Forall (safe_stmt bad) render_outputs.
Proof.
  unfold render_outputs, map_array_field, render_map_object. apply Forall_forall. intros f Hf. apply in_map_iff in Hf as (i & <- & _). safe_all. apply safe_output.
Qed.
Lemma safe_fueling {bad} : Forall (safe_stmt bad) render_fueling.
Proof. unfold render_fueling, render_crank_enrich, uint32_map_field, float_map_field, map_map_field, render_map_object. safe_all. Qed.
Lemma safe_ignition {bad} : Forall (safe_stmt bad) render_ignition.
Proof. unfold render_ignition, uint32_map_field, float_map_field. safe_all. Qed.
Lemma safe_tables {bad} : Forall (safe_stmt bad) render_tables.
Proof. unfold render_tables, map_map_field, render_map_object. safe_all; first [apply safe_table_1d|apply safe_table_2d]. Qed.
Lemma safe_boost {bad} : Forall (safe_stmt bad) render_boost_control.
Proof. unfold render_boost_control, uint32_map_field, float_map_field, map_map_field, render_map_object. safe_all. apply safe_table_1d. Qed.
Lemma safe_cel {bad} : Forall (safe_stmt bad) render_cel.
Proof. unfold render_cel, uint32_map_field, float_map_field. safe_all. Qed.
Lemma safe_freq {bad} : Forall (safe_stmt bad) render_freq_list.
Proof.
  unfold render_freq_list, map_array_field, render_map_object, render_freq_object, enum_map_field. apply Forall_forall. intros f Hf. apply in_map_iff in Hf as (i & <- & _). safe_all.
Qed.
Lemma safe_test {bad} : Forall (safe_stmt bad) render_test.
Proof.
  unfold render_test, bool_map_field, uint32_map_field. safe_all.
  intros c s Hs.
  pose proof (safe_map_field (bad := bad) "test-trigger-rpm" _ (safe_leaf_uint "Test trigger output rpm (0 to disable)" U_TestRpm) c s Hs) as H.
  destruct (map_field "test-trigger-rpm" _ c s) as [[c1 s1]|e]; cbn [bind]; [|exact H].
  destruct (c_type c1) eqn:E; rewrite E; try exact H. destruct (negb _); exact H.
Qed.
Lemma safe_info {bad} v : Forall (safe_stmt bad) (render_info v).
Proof. unfold render_info. safe_all. intros c s Hs. unfold render_version. destruct (c_type c); exact Hs. Qed.
Lemma safe_sensors rate : Forall (safe_stmt knock_only) (render_sensors rate).
Proof. unfold render_sensors, map_map_field, render_map_object. cbn [map app]. safe_all; first [apply safe_sensor|apply safe_knock]. Qed.

Lemma safe_toplevel rate v : Forall (safe_stmt knock_only) (console_toplevel_request rate v).
Proof.
  unfold console_toplevel_request, map_map_field, array_map_field, render_array_object, render_map_object.
  safe_all; first [apply safe_decoder|apply safe_sensors|apply safe_outputs|apply safe_fueling|apply safe_ignition|apply safe_tables|
    apply safe_boost|apply safe_cel|apply safe_freq|apply safe_test|apply safe_info].
Qed.

Lemma safe_types {bad} : Forall (safe_stmt bad) console_toplevel_types.
Proof.
  unfold console_toplevel_types, map_map_field, render_map_object. safe_all;
    first [apply safe_sensor|apply safe_output|apply safe_table_1d|apply safe_table_2d].
Qed.

(** *** What a SET may change *)

Definition changes (m m' : mem) (P : cell -> Prop) : Prop := forall x, ~ P x -> read m' x = read m x.
Definition reach (base : list pelem) (path : list cbor) (value : cvalue) (x : cell) : Prop :=
  exists v rest, value = Some v /\ cell_path x = base ++ rest /\ targets path v rest.

Lemma changes_refl m P : changes m m P. Proof. intros x _. reflexivity. Qed.
Lemma changes_trans a b c P : changes a b P -> changes b c P -> changes a c P.
Proof. intros H1 H2 x Hx. rewrite (H2 x Hx). auto. Qed.
Lemma changes_weaken m m' (P Q : cell -> Prop) : changes m m' P -> (forall x, P x -> Q x) -> changes m m' Q.
Proof. intros H HPQ x Hx. apply H. auto. Qed.

Definition within_obj (o : obj) (base : list pelem) : Prop := forall c s s',
  c_type c = SET -> c_completed c = false -> c_filtered c = nonempty (s_path s) -> o c s = Ok s' ->
  changes (s_mem s) (s_mem s') (reach base (s_path s) (c_value c)) /\ (s_path s = [] -> s_path s' = []).

Definition within_body (b : list stmt) (base : list pelem) : Prop := forall c s c' s',
  c_type c = SET -> c_completed c = false -> c_filtered c = nonempty (s_path s) -> run b c s = Ok (c', s') ->
  changes (s_mem s) (s_mem s') (reach base (s_path s) (c_value c)) /\ (s_path s = [] -> s_path s' = []).

Definition within_stmt (f : stmt) (base : list pelem) : Prop := forall c s c' s',
  c_type c = SET -> (c_completed c = false -> c_filtered c = nonempty (s_path s)) -> f c s = Ok (c', s') ->
  (c_type c' = SET /\ c_value c' = c_value c) /\
  (if c_completed c then c_completed c' = true /\ s_mem s' = s_mem s /\ s_path s' = s_path s
   else changes (s_mem s) (s_mem s') (reach base (s_path s) (c_value c)) /\
        (s_path s = [] -> c_completed c' = false) /\
        (c_completed c' = false -> s_path s' = s_path s /\ c_filtered c' = c_filtered c)).

Lemma within_run_aux body base : Forall (fun f => within_stmt f base) body -> within_stmt (run body) base.
Proof.
  intros H. induction H as [|f body Hf Hb IH]; intros c s c' s' Ht Hok E; cbn [run] in E.
  - injection E as <- <-. split; [auto|]. destruct (c_completed c) eqn:Ec; auto.
    split; [apply changes_refl|]. auto.
  - apply bind_ok in E as ([c1 s1] & E1 & E2). destruct (Hf _ _ _ _ Ht Hok E1) as [[Ht1 Hv1] H1].
    destruct (c_completed c) eqn:Ec.
    + destruct H1 as (A & B & C). destruct (IH c1 s1 c' s' Ht1 ltac:(congruence) E2) as [[Ht2 Hv2] H2]. rewrite A in H2.
      split; [split; congruence|]. destruct H2 as (D & F & G). repeat split; congruence.
    + destruct H1 as (A & B & C). assert (Hok1 : c_completed c1 = false -> c_filtered c1 = nonempty (s_path s1)).
      { intros H1. destruct (C H1) as [-> ->]. auto. }
      destruct (IH c1 s1 c' s' Ht1 Hok1 E2) as [[Ht2 Hv2] H2]. split; [split; congruence|].
      destruct (c_completed c1) eqn:Ec1.
      * destruct H2 as (D & F & G). split; [|split].
        -- rewrite F. exact A.
        -- intros Hp. specialize (B Hp). discriminate.
        -- congruence.
      * destruct H2 as (D & F & G). destruct (C eq_refl) as [Cp Cf]. rewrite Cp in D, F, G. rewrite Hv1 in D. split; [|split].
        -- eapply changes_trans; eauto.
        -- exact F.
        -- intros Hx. destruct (G Hx). split; congruence.
Qed.

Lemma within_run body base : Forall (fun f => within_stmt f base) body -> within_body body base.
Proof.
  intros H c s c' s' Ht Hc Hf E. destruct (within_run_aux body base H c s c' s' Ht (fun _ => Hf) E) as [_ H1]. rewrite Hc in H1.
  destruct H1 as (A & B & C). split; [exact A|]. intros Hp. destruct (C (B Hp)). congruence.
Qed.

Lemma text_equals_denotes q s : text_equals (Some q) s = true -> denotes q (PN s).
Proof. cbn. destruct (untag q); try discriminate. intros H. apply String.eqb_eq in H. now subst. Qed.

Lemma path_int_denotes q l i : console_path_match_int (q :: l) i = true -> denotes q (PI i).
Proof.
  cbn. destruct q; try discriminate. unfold int_checked. destruct (_ && _); [|discriminate]. intros H. apply Z.eqb_eq in H. now subst.
Qed.

Lemma find_pair_in l id v : find_pair l id = Some v -> exists k, In (k, v) l /\ denotes k (PN id).
Proof.
  induction l as [|[k w] l IH]; cbn [find_pair]; [discriminate|]. destruct (text_equals (Some k) id) eqn:E.
  - intros [= ->]. exists k. split; [left; auto|]. apply text_equals_denotes, E.
  - intros H. destruct (IH H) as (k' & A & B). exists k'. split; [right; auto|auto].
Qed.
Lemma nth_cursor_nth l : forall n v, nth_cursor l n = Some (Some v) -> nth_error l n = Some v.
Proof. induction l as [|x l IH]; intros [|n] v; cbn; try discriminate; [intros [= ->]; reflexivity|apply IH]. Qed.

Lemma reach_step base e q qs v x : denotes q e -> reach (base ++ [e]) qs v x -> reach base (q :: qs) v x.
Proof.
  intros Hd (w & rest & Ew & E & L). exists w, (e :: rest). rewrite <- app_assoc in E. split; [exact Ew|split; [exact E|]]. constructor; auto.
Qed.
Lemma reach_key base id v x : reach (base ++ [PN id]) [] (map_find v id) x -> reach base [] v x.
Proof.
  intros (w & rest & Ew & E & L). unfold map_find in Ew. destruct v as [[]|]; try discriminate.
  apply find_pair_in in Ew as (k & A & B). exists (CMap l), (PN id :: rest). rewrite <- app_assoc in E. split; [auto|split; [exact E|]]. econstructor; eauto.
Qed.
Lemma reach_index base d l i v x : nth_cursor l (Z.to_nat i) = Some v -> reach (base ++ [PI i]) [] v x -> reach base [] (Some (CArray d l)) x.
Proof.
  intros Hn (w & rest & -> & E & L). apply nth_cursor_nth in Hn.
  exists (CArray d l), (PI i :: rest). rewrite <- app_assoc in E. split; [auto|split; [exact E|]]. econstructor; eauto.
Qed.

Lemma within_map_field id o base : within_obj o (base ++ [PN id]) -> within_stmt (map_field id o) base.
Proof.
  intros Ho c s c' s' Ht Hok. unfold map_field, descend_map_field. rewrite Ht.
  destruct (c_completed c) eqn:Ec.
  { intros [= <- <-]. rewrite Ec. auto. }
  specialize (Hok eq_refl). destruct (c_filtered c) eqn:Ef; cbn [negb].
  - destruct (s_path s) as [|q qs] eqn:Ep; [discriminate|]. unfold console_path_match_str. cbn [hd_error tl].
    destruct (text_equals (Some q) id) eqn:Et; cbn [negb].
    + intros H. apply bind_ok in H as (s2 & E2 & H). injection H as <- <-. cbn [c_type c_completed c_filtered].
      split; [auto|]. apply Ho in E2; try reflexivity; try (cbn; destruct qs; reflexivity). destruct E2 as [A B]. cbn [s_mem s_path c_value] in *.
      split; [|split; discriminate]. eapply changes_weaken; [exact A|]. intros x. apply reach_step, text_equals_denotes, Et.
    + intros [= <- <-]. split; [auto|]. rewrite Ec. split; [apply changes_refl|]. rewrite Ep. auto.
  - destruct (s_path s) as [|q qs] eqn:Ep; [|discriminate].
    destruct (negb (is_map (c_value c))).
    + intros [= <- <-]. split; [auto|]. rewrite Ec. split; [apply changes_refl|]. rewrite Ep. auto.
    + intros H. apply bind_ok in H as (s2 & E2 & H). injection H as <- <-.
      split; [auto|]. apply Ho in E2; try reflexivity; try exact Ec; try (cbn; rewrite Ep; reflexivity). destruct E2 as [A B]. cbn [s_mem s_path c_value emit] in A, B. rewrite Ep in A, B.
      split; [|split; auto]. eapply changes_weaken; [exact A|]. intros x. apply reach_key.
Qed.

Lemma within_array_field i o base : within_obj o (base ++ [PI i]) -> within_stmt (array_field i o) base.
Proof.
  intros Ho c s c' s' Ht Hok. unfold array_field, descend_array_field. rewrite Ht.
  destruct (c_completed c) eqn:Ec.
  { intros [= <- <-]. rewrite Ec. auto. }
  specialize (Hok eq_refl). destruct (c_filtered c) eqn:Ef; cbn [negb].
  - destruct (s_path s) as [|q qs] eqn:Ep; [discriminate|]. cbn [tl].
    destruct (console_path_match_int (q :: qs) i) eqn:Et; cbn [negb].
    + intros H. apply bind_ok in H as (s2 & E2 & H). injection H as <- <-. cbn [c_type c_completed c_filtered].
      split; [auto|]. apply Ho in E2; try reflexivity; try (cbn; destruct qs; reflexivity). destruct E2 as [A B]. cbn [s_mem s_path c_value] in *.
      split; [|split; discriminate]. eapply changes_weaken; [exact A|]. intros x. apply reach_step, (path_int_denotes q qs), Et.
    + intros [= <- <-]. split; [auto|]. rewrite Ec. split; [apply changes_refl|]. rewrite Ep. auto.
  - destruct (s_path s) as [|q qs] eqn:Ep; [|discriminate].
    assert (Hno : Ok (c, s) = Ok (c', s') -> (c_type c' = SET /\ c_value c' = c_value c) /\ (changes (s_mem s) (s_mem s') (reach base [] (c_value c)) /\
       ([] = [] :> list cbor -> c_completed c' = false) /\ (c_completed c' = false -> s_path s' = [] /\ c_filtered c' = false))).
    { intros [= <- <-]. split; [auto|]. split; [apply changes_refl|]. auto. }
    destruct (c_value c) as [[]|] eqn:Ev; try exact Hno. destruct (nth_cursor l (Z.to_nat i)) eqn:En; [|exact Hno].
    intros H. apply bind_ok in H as (s2 & E2 & H). injection H as <- <-.
    split; [auto|]. apply Ho in E2; try reflexivity; try exact Ec; try (cbn; rewrite Ep; reflexivity). destruct E2 as [A B]. cbn [c_value] in A. rewrite Ep in A, B.
    split; [|split; auto]. eapply changes_weaken; [exact A|]. intros x. apply reach_index, En.
Qed.

Lemma within_container k body base : within_body body base -> within_obj (render_container k body) base.
Proof.
  intros Hb c s s' Ht Hc Hf H. unfold render_container in H. apply bind_ok in H as ([c1 s1] & E & H). injection H as <-.
  destruct (c_filtered c) eqn:Ef; cbn [negb] in *.
  - apply Hb in E; auto; try congruence. destruct (c_filtered c1 && negb (c_completed c1)); exact E.
  - apply Hb in E; cbn [s_path]; auto; try congruence. cbn [s_mem s_path] in *. destruct (c_filtered c1 && negb (c_completed c1)); exact E.
Qed.

Lemma reach_leaf base path v x : cell_path x = base -> reach base path (Some v) x.
Proof. intros <-. exists v, []. rewrite app_nil_r. split; [reflexivity|split; [reflexivity|constructor]]. Qed.

Lemma change_u m p v base path w : cell_path (CU p) = base -> changes m (set_u m p v) (reach base path (Some w)).
Proof.
  intros H x Hx. destruct x; try reflexivity. cbn. unfold upd. destruct (ucell_eq c p) as [->|]; [|reflexivity].
  exfalso. apply Hx, reach_leaf, H.
Qed.
Lemma change_f m p v base path w : cell_path (CF p) = base -> changes m (set_f m p v) (reach base path (Some w)).
Proof.
  intros H x Hx. destruct x; try reflexivity. cbn. unfold upd. destruct (fcell_eq c p) as [->|]; [|reflexivity].
  exfalso. apply Hx, reach_leaf, H.
Qed.
Lemma change_b m p v base path w : cell_path (CB p) = base -> changes m (set_b m p v) (reach base path (Some w)).
Proof.
  intros H x Hx. destruct x; try reflexivity. cbn. unfold upd. destruct (bcell_eq c p) as [->|]; [|reflexivity].
  exfalso. apply Hx, reach_leaf, H.
Qed.
Lemma change_e m p v base path w : cell_path (CE p) = base -> changes m (set_e m p v) (reach base path (Some w)).
Proof.
  intros H x Hx. destruct x; try reflexivity. cbn. unfold upd. destruct (ecell_eq c p) as [->|]; [|reflexivity].
  exfalso. apply Hx, reach_leaf, H.
Qed.
Lemma change_s m p v base path w : cell_path (CS p) = base -> changes m (set_s m p v) (reach base path (Some w)).
Proof.
  intros H x Hx. destruct x; try reflexivity. cbn. unfold upd. destruct (scell_eq c p) as [->|]; [|reflexivity].
  exfalso. apply Hx, reach_leaf, H.
Qed.
Lemma change_n m p v base path w : cell_path (CN p) = base -> changes m (set_n m p v) (reach base path (Some w)).
Proof.
  intros H x Hx. destruct x; try reflexivity. cbn. unfold upd. destruct (ncell_eq c p) as [->|]; [|reflexivity].
  exfalso. apply Hx, reach_leaf, H.
Qed.

Lemma within_leaf_uint d p base : cell_path (CU p) = base -> within_obj (render_uint32_object d p) base.
Proof.
  intros Hb c s s' Ht _ _. unfold render_uint32_object. rewrite Ht. intros H. injection H as <-. cbn. split; [|auto].
  destruct (c_value c) as [[]|]; try apply changes_refl. destruct (int_checked z); [|apply changes_refl]. apply change_u, Hb.
Qed.
Lemma within_leaf_float d p base : cell_path (CF p) = base -> within_obj (render_float_object d p) base.
Proof.
  intros Hb c s s' Ht _ _. unfold render_float_object. rewrite Ht. intros H. injection H as <-. cbn. split; [|auto].
  destruct (c_value c) as [[]|]; try apply changes_refl; apply change_f, Hb.
Qed.
Lemma within_leaf_bool d p base : cell_path (CB p) = base -> within_obj (render_bool_object d p) base.
Proof.
  intros Hb c s s' Ht _ _. unfold render_bool_object. rewrite Ht. intros H. injection H as <-. cbn. split; [|auto].
  destruct (c_value c) as [[]|]; try apply changes_refl; apply change_b, Hb.
Qed.
Lemma within_leaf_string d p base : cell_path (CS p) = base -> within_obj (render_string_object d p) base.
Proof.
  intros Hb c s s' Ht _ _. unfold render_string_object. rewrite Ht. intros H. injection H as <-. cbn. split; [|auto].
  destruct (c_value c) as [[]|]; try apply changes_refl. destruct (_ <=? _); [|apply changes_refl]. apply change_s, Hb.
Qed.

Lemma emit_all_path l : forall s, s_path (fold_left (fun s (x : Z * string) => emit s (EText (snd x))) l s) = s_path s.
Proof. induction l as [|x l IH]; intros s; cbn [fold_left]; [reflexivity|]. rewrite IH. reflexivity. Qed.

Lemma within_leaf_enum d mp p base : cell_path (CE p) = base -> within_obj (render_enum_object d mp p) base.
Proof.
  intros Hb c s s' Ht _ _. unfold render_enum_object. rewrite Ht. set (m := fold_left _ _ _).
  assert (Hm : changes (s_mem s) m (reach base (s_path s) (c_value c))).
  { unfold m. clear m. generalize (s_mem s). induction mp as [|x mp IH]; intros m0; cbn [fold_left]; [apply changes_refl|].
    eapply changes_trans; [|apply IH]. destruct (c_value c) as [v|]; [|apply changes_refl].
    destruct (text_equals _ _); [apply change_e, Hb|apply changes_refl]. }
  intros H. injection H as <-. destruct (filter _ mp) as [|x l]; [split; [exact Hm|auto]|].
  destruct (emit_all_quiet (x :: l) (with_mem s m)) as [-> _]. rewrite emit_all_path. split; [exact Hm|auto].
Qed.

Lemma within_float_elem i p base : cell_path (CF p) = base -> within_obj (float_elem i p) base.
Proof. intros Hb c s s' Ht Hc Hf. unfold float_elem. destruct (_ || _); [discriminate|]. apply within_leaf_float; auto. Qed.

Lemma within_loop cond body base : (forall i, within_stmt (body i) base) -> forall n i, within_stmt (loop n i cond body) base.
Proof.
  intros Hb. induction n as [|n IH]; intros i c s c' s' Ht Hok H; cbn [loop] in H.
  - destruct (negb _); [|discriminate]. injection H as <- <-. split; [auto|]. destruct (c_completed c) eqn:Ec; auto. split; [apply changes_refl|auto].
  - destruct (negb _). { injection H as <- <-. split; [auto|]. destruct (c_completed c) eqn:Ec; auto. split; [apply changes_refl|auto]. }
    assert (H2 : run [body i; loop n (i + 1) cond body] c s = Ok (c', s')).
    { cbn [run]. destruct (body i c s) as [[c1 s1]|]; [|discriminate]. cbn [bind] in *. now rewrite H. }
    revert H2. apply within_run_aux; auto.
Qed.

Lemma within_switch (f g : stmt) base : within_stmt g base ->
  within_stmt (fun c s => match c_type c with DESCRIBE => f c s | _ => g c s end) base.
Proof. intros Hg c s c' s' Ht. rewrite Ht. apply Hg, Ht. Qed.

Lemma within_unless t body base : Forall (fun f => within_stmt f base) body -> Forall (fun f => within_stmt f base) (unless_structure t body).
Proof.
  intros Hb. apply Forall_cons; [|apply Forall_nil]. intros c s c' s' Ht. rewrite Ht. apply within_run_aux; auto.
Qed.

Lemma within_axis_values t a : within_body (render_table_axis_values t a) (axis_path t a ++ [PN "values"]).
Proof.
  intros c s c' s' Ht Hc Hf H. unfold render_table_axis_values in H.
  match type of H with run [?first; ?second] _ _ = _ => set (f1 := first) in *; set (f2 := second) in * end.
  assert (H2 : within_body [f2] (axis_path t a ++ [PN "values"])).
  { apply within_run. apply Forall_cons; [|apply Forall_nil]. apply within_loop. intros i. apply within_array_field, within_float_elem.
    cbn [cell_path]. now rewrite <- app_assoc. }
  change (run [f1; f2] c s) with ('(c, s) <- f1 c s ;; run [f2] c s) in H. apply bind_ok in H as ([c1 s1] & E1 & E2).
  assert (H1 : c1 = c /\ s_path s1 = s_path s /\ changes (s_mem s) (s_mem s1) (reach (axis_path t a ++ [PN "values"]) (s_path s) (c_value c))).
  { unfold f1 in E1. rewrite Ht in E1. destruct (c_value c) as [[]|] eqn:Ev; injection E1 as <- <-; cbn; auto using changes_refl.
    split; [auto|split; [auto|]]. apply change_n. reflexivity. }
  destruct H1 as (-> & Hp & Hch). rewrite <- Hp in Hf. destruct (H2 c s1 c' s' Ht Hc Hf E2) as [A B]. rewrite Hp in A, B.
  split; [eapply changes_trans; eauto|exact B].
Qed.

Ltac within_all := repeat
  match goal with
  | |- Forall _ [] => apply Forall_nil
  | |- Forall _ (_ :: _) => apply Forall_cons
  | |- Forall _ (unless_structure _ _) => apply within_unless
  | |- within_stmt (map_field _ _) _ => apply within_map_field
  | |- within_stmt (array_field _ _) _ => apply within_array_field
  | |- within_obj (render_container _ _) _ => apply within_container
  | |- within_obj (render_uint32_object _ _) _ => apply within_leaf_uint
  | |- within_obj (render_float_object _ _) _ => apply within_leaf_float
  | |- within_obj (render_bool_object _ _) _ => apply within_leaf_bool
  | |- within_obj (render_string_object _ _) _ => apply within_leaf_string
  | |- within_obj (render_enum_object _ _ _) _ => apply within_leaf_enum
  | |- within_obj (float_elem _ _) _ => apply within_float_elem
  | |- within_stmt (fun c s => match c_type c with DESCRIBE => _ | _ => _ end) _ => apply within_switch
  | |- cell_path _ = _ => cbn [cell_path]; unfold axis_path, sensor_path, output_path, freq_path, knock_path; rewrite <- ?app_assoc; reflexivity
  end.

Lemma within_axis t a : within_body (render_table_axis t a) (axis_path t a).
Proof. apply within_run. unfold render_table_axis, array_map_field, render_array_object. within_all. apply within_axis_values. Qed.

Lemma within_second t r : two_axes t = true -> within_obj (render_array_object (render_table_second_axis_data t r)) (table_path t ++ [PN "data"; PI r]).
Proof.
  intros H2. unfold render_array_object, render_table_second_axis_data. apply within_container, within_run. within_all.
  apply within_loop. intros i. within_all. cbn [cell_path]. rewrite H2, <- app_assoc. reflexivity.
Qed.

Lemma within_table_2d t : two_axes t = true -> within_body (render_table_2d_object t) (table_path t).
Proof.
  intros H2. apply within_run. unfold render_table_2d_object, array_map_field, map_map_field, render_array_object, render_map_object.
  within_all; try apply within_axis. apply within_run. unfold render_table_2d_data. within_all. apply within_loop. intros i. within_all.
  rewrite <- !app_assoc. intros c s s' Ht Hc Hf. destruct (_ || _); [discriminate|]. apply within_second; auto.
Qed.

Lemma within_table_1d t : two_axes t = false -> within_body (render_table_1d_object t) (table_path t).
Proof.
  intros H2. apply within_run. unfold render_table_1d_object, array_map_field, map_map_field, render_array_object, render_map_object.
  within_all; try apply within_axis. apply within_run. unfold render_table_1d_data. within_all. apply within_loop. intros i. within_all.
  cbn [cell_path]. rewrite H2. now rewrite <- !app_assoc.
Qed.

Lemma within_sensor x : within_body (render_sensor_object x) (sensor_path x).
Proof. apply within_run. unfold render_sensor_object, uint32_map_field, float_map_field, enum_map_field. within_all. Qed.

Lemma within_knock_all rate b : Forall (fun f => within_stmt f (knock_path b)) (render_knock_object rate b).
Proof.
  unfold render_knock_object, float_map_field. within_all.
  intros c s c' s' Ht Hok. rewrite Ht. intros H. apply bind_ok in H as ([] & _ & H). apply bind_ok in H as ([] & _ & H). injection H as <- <-.
  split; [auto|]. destruct (c_completed c) eqn:Ec; auto. split; [apply changes_refl|auto].
Qed.

Lemma within_knock rate b : within_body (render_knock_object rate b) (knock_path b).
Proof. apply within_run, within_knock_all. Qed.

Lemma within_sensors_all rate : Forall (fun f => within_stmt f [PN "sensors"]) (render_sensors rate).
Proof.
  unfold render_sensors, map_map_field, render_map_object. cbn [map List.app]. within_all; cbn [List.app];
    match goal with
    | |- within_body (render_sensor_object ?x) _ => exact (within_sensor x)
    | |- within_body (render_knock_object ?r ?b) _ => exact (within_knock r b)
    end.
Qed.

Lemma within_output i : within_body (output_console_renderer i) (output_path i).
Proof. apply within_run. unfold output_console_renderer, uint32_map_field, float_map_field, enum_map_field, bool_map_field. within_all. Qed.

Lemma within_toplevel_all rate v : Forall (fun f => within_stmt f []) (console_toplevel_request rate v).
Proof.
  unfold console_toplevel_request, map_map_field, array_map_field, render_array_object, render_map_object.
  within_all; cbn [app].
  - apply within_run. unfold render_decoder, uint32_map_field, float_map_field, enum_map_field. within_all.
  - apply within_run, within_sensors_all.
  - apply within_run. unfold render_outputs, map_array_field, render_map_object. apply Forall_forall. intros f Hf. apply in_map_iff in Hf as (i & <- & _). within_all. apply within_output.
  - apply within_run. unfold render_fueling, uint32_map_field, float_map_field, map_map_field, render_map_object. within_all.
    apply within_run. unfold render_crank_enrich, float_map_field. within_all.
  - apply within_run. unfold render_ignition, uint32_map_field, float_map_field. within_all.
  - apply within_run. unfold render_tables, map_map_field, render_map_object. within_all; cbn [List.app];
      match goal with
      | |- within_body (render_table_2d_object ?t) _ => exact (within_table_2d t eq_refl)
      | |- within_body (render_table_1d_object ?t) _ => exact (within_table_1d t eq_refl)
      end.
  - apply within_run. unfold render_boost_control, uint32_map_field, float_map_field, map_map_field, render_map_object. within_all.
    apply (within_table_1d T_BOOST). reflexivity.
  - apply within_run. unfold render_cel, uint32_map_field, float_map_field. within_all.
  - apply within_run. unfold render_freq_list, map_array_field, render_map_object. apply Forall_forall. intros f Hf. apply in_map_iff in Hf as (i & <- & _). within_all.
    apply within_run. unfold render_freq_object, enum_map_field. within_all.
  - apply within_run. unfold render_test, bool_map_field, uint32_map_field. within_all.
    intros c s c' s' Ht Hok H. apply bind_ok in H as ([c1 s1] & E & H).
    assert (Hw : within_stmt (map_field "test-trigger-rpm" (render_uint32_object "Test trigger output rpm (0 to disable)" U_TestRpm)) [PN "test"]) by within_all.
    destruct (Hw c s c1 s1 Ht Hok E) as [[Ht1 Hv1] H1]. rewrite Ht1 in H. injection H as <- <-. split; [auto|].
    destruct (negb _); exact H1.
  - apply within_run. unfold render_info. within_all. intros c s s' Ht _ _. unfold render_version. rewrite Ht. intros [= <-]. split; [apply changes_refl|auto].
Qed.

Lemma within_toplevel rate v : within_body (console_toplevel_request rate v) [].
Proof. apply within_run, within_toplevel_all. Qed.
