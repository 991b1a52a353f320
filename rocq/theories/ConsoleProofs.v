(** Compositional properties of the renderers. *)
Require Import ZArith List Bool String Lia.
From Verif Require Import Res Word F32 Sensors Cbor Console ConsoleSpec DecoderProofs.
Import ListNotations.
Open Scope Z_scope.
Ltac Zify.zify_post_hook ::= idtac.

(** *** Requests other than SET change nothing *)

Definition quiet (s s' : st) : Prop := s_mem s' = s_mem s /\ s_effs s' = s_effs s.
Definition quiet_obj (o : obj) : Prop := forall c s s', c_type c <> SET -> o c s = Ok s' -> quiet s s'.
Definition quiet_stmt (f : stmt) : Prop := forall c s c' s', c_type c <> SET -> f c s = Ok (c', s') -> quiet s s' /\ c_type c' = c_type c.

Lemma quiet_refl s : quiet s s. Proof. split; auto. Qed.
Lemma quiet_trans a b c : quiet a b -> quiet b c -> quiet a c.
Proof. intros [A B] [C D]. split; congruence. Qed.

Lemma quiet_run body : Forall quiet_stmt body -> quiet_stmt (run body).
Proof.
  intros H. induction H as [|f body Hf Hb IH]; intros c s c' s' Ht E; cbn [run] in E.
  - injection E as <- <-. auto using quiet_refl.
  - apply bind_ok in E as ([c1 s1] & E1 & E2). destruct (Hf _ _ _ _ Ht E1) as [A B].
    destruct (IH c1 s1 c' s' ltac:(congruence) E2) as [C D]. split; [eauto using quiet_trans|congruence].
Qed.

Lemma descend_map_cases c id s go c1 d s1 : descend_map_field c id s = (go, c1, d, s1) ->
  quiet s s1 /\ c_type c1 = c_type c /\ c_type d = c_type c.
Proof.
  unfold descend_map_field. destruct (c_completed c); [intros [= <- <- <- <-]; auto using quiet_refl|].
  destruct (c_type c) eqn:Et, (c_filtered c); cbn [negb];
    try destruct (negb (is_map (c_value c))); try destruct (negb (console_path_match_str (s_path s) id));
    intros [= <- <- <- <-]; cbn; rewrite ?Et; split; try split; auto.
Qed.

Lemma descend_array_cases c i s go c1 d s1 : descend_array_field c i s = (go, c1, d, s1) ->
  quiet s s1 /\ c_type c1 = c_type c /\ c_type d = c_type c.
Proof.
  unfold descend_array_field. destruct (c_completed c); [intros [= <- <- <- <-]; auto using quiet_refl|].
  destruct (c_type c) eqn:Et, (c_filtered c); cbn [negb];
    try destruct (c_value c) as [[]|]; try destruct (nth_cursor _ _); try destruct (negb (console_path_match_int (s_path s) i));
    intros [= <- <- <- <-]; cbn; rewrite ?Et; split; try split; auto.
Qed.

Lemma quiet_map_field id o : quiet_obj o -> quiet_stmt (map_field id o).
Proof.
  intros Ho c s c' s' Ht. unfold map_field. destruct (descend_map_field c id s) as [[[go c1] d] s1] eqn:E.
  destruct (descend_map_cases _ _ _ _ _ _ _ E) as (A & B & C).
  destruct go.
  - intros H. apply bind_ok in H as (s2 & E2 & H). injection H as <- <-.
    split; [|auto]. eapply quiet_trans; [exact A|]. apply (Ho d s1 s2); [congruence|auto].
  - intros H. injection H as <- <-. auto.
Qed.

Lemma quiet_array_field i o : quiet_obj o -> quiet_stmt (array_field i o).
Proof.
  intros Ho c s c' s' Ht. unfold array_field. destruct (descend_array_field c i s) as [[[go c1] d] s1] eqn:E.
  destruct (descend_array_cases _ _ _ _ _ _ _ E) as (A & B & C).
  destruct go.
  - intros H. apply bind_ok in H as (s2 & E2 & H). injection H as <- <-.
    split; [|auto]. eapply quiet_trans; [exact A|]. apply (Ho d s1 s2); [congruence|auto].
  - intros H. injection H as <- <-. auto.
Qed.

Lemma quiet_container k body : Forall quiet_stmt body -> quiet_obj (render_container k body).
Proof.
  intros Hb c s s' Ht H. unfold render_container in H. apply bind_ok in H as ([c1 s1] & E & H). injection H as <-.
  destruct (quiet_run body Hb c _ c1 s1 Ht E) as [[A B] C].
  destruct (c_filtered c); cbn [negb] in *; destruct (c_filtered c1 && negb (c_completed c1)); cbn; split; auto.
Qed.

Lemma quiet_leaf_uint d p : quiet_obj (render_uint32_object d p).
Proof. intros c s s' Ht. unfold render_uint32_object. destruct (c_type c); try congruence; intros [= <-]; split; auto. Qed.
Lemma quiet_leaf_float d p : quiet_obj (render_float_object d p).
Proof. intros c s s' Ht. unfold render_float_object. destruct (c_type c); try congruence; intros [= <-]; split; auto. Qed.
Lemma quiet_leaf_bool d p : quiet_obj (render_bool_object d p).
Proof. intros c s s' Ht. unfold render_bool_object. destruct (c_type c); try congruence; intros [= <-]; split; auto. Qed.
Lemma quiet_leaf_string d p : quiet_obj (render_string_object d p).
Proof. intros c s s' Ht. unfold render_string_object. destruct (c_type c); try congruence; intros [= <-]; split; auto. Qed.

Lemma emit_all_quiet l : forall s, quiet s (fold_left (fun s (x : Z * string) => emit s (EText (snd x))) l s).
Proof. induction l as [|x l IH]; intros s; cbn [fold_left]; [apply quiet_refl|]. eapply quiet_trans; [|apply IH]. split; auto. Qed.

Lemma quiet_leaf_enum d mp p : quiet_obj (render_enum_object d mp p).
Proof.
  intros c s s' Ht. unfold render_enum_object. destruct (c_type c); try congruence.
  2: intros [= <-]; split; auto. 2: intros [= <-]; split; auto.
  destruct (filter _ mp) as [|x l] eqn:El; intros H; injection H as <-; [split; auto|].
  eapply quiet_trans; [|apply (emit_all_quiet (x :: l))]. split; auto.
Qed.

Lemma quiet_loop n : forall i cond body, (forall i, quiet_stmt (body i)) -> quiet_stmt (loop n i cond body).
Proof.
  induction n as [|n IH]; intros i cond body Hb c s c' s' Ht H; cbn [loop] in H.
  - destruct (negb (cond (s_mem s) i)); [injection H as <- <-; auto using quiet_refl|discriminate].
  - destruct (negb (cond (s_mem s) i)); [injection H as <- <-; auto using quiet_refl|].
    apply bind_ok in H as ([c1 s1] & E1 & E2). destruct (Hb i _ _ _ _ Ht E1) as [A B].
    destruct (IH (i + 1) cond body Hb c1 s1 c' s' ltac:(congruence) E2) as [C D]. split; [eauto using quiet_trans|congruence].
Qed.

Lemma quiet_float_elem i p : quiet_obj (float_elem i p).
Proof. intros c s s' Ht. unfold float_elem. destruct (_ || _); [discriminate|]. apply quiet_leaf_float. auto. Qed.

Lemma quiet_describe_list t d : quiet_obj (describe_list t d).
Proof. intros c s s' Ht [= <-]. split; auto. Qed.

Global Hint Resolve quiet_map_field quiet_array_field quiet_container quiet_leaf_uint quiet_leaf_float quiet_leaf_bool
  quiet_leaf_string quiet_leaf_enum quiet_float_elem quiet_describe_list quiet_loop quiet_run : quiet.

Lemma quiet_axis_values t a : Forall quiet_stmt (render_table_axis_values t a).
Proof.
  apply Forall_cons; [|apply Forall_cons; [auto with quiet|apply Forall_nil]].
  intros c s c' s' Ht. destruct (c_type c) eqn:E; try congruence; destruct (c_value c) as [[]|]; intros [= <- <-]; auto using quiet_refl.
Qed.

Lemma quiet_switch (f g : stmt) : quiet_stmt f -> quiet_stmt g ->
  quiet_stmt (fun c s => match c_type c with DESCRIBE => f c s | _ => g c s end).
Proof. intros Hf Hg c s c' s' Ht. destruct (c_type c) eqn:E; intros H; rewrite <- E in *; eauto. Qed.

Lemma quiet_unless t body : Forall quiet_stmt body -> Forall quiet_stmt (unless_structure t body).
Proof.
  intros Hb. apply Forall_cons; [|apply Forall_nil]. intros c s c' s' Ht.
  destruct (c_type c) eqn:E; intros H; rewrite <- E in *; try (eapply quiet_run; eauto; fail).
  injection H as <- <-. split; [split; auto|auto].
Qed.

Ltac quiet_all := repeat
  match goal with
  | |- Forall _ [] => apply Forall_nil
  | |- Forall _ (_ :: _) => apply Forall_cons
  | |- Forall _ (render_table_axis_values _ _) => apply quiet_axis_values
  | |- Forall _ (unless_structure _ _) => apply quiet_unless
  | |- quiet_stmt (map_field _ _) => apply quiet_map_field
  | |- quiet_stmt (array_field _ _) => apply quiet_array_field
  | |- quiet_stmt (loop _ _ _ _) => apply quiet_loop; intro
  | |- quiet_obj (render_container _ _) => apply quiet_container
  | |- quiet_obj (render_uint32_object _ _) => apply quiet_leaf_uint
  | |- quiet_obj (render_float_object _ _) => apply quiet_leaf_float
  | |- quiet_obj (render_bool_object _ _) => apply quiet_leaf_bool
  | |- quiet_obj (render_string_object _ _) => apply quiet_leaf_string
  | |- quiet_obj (render_enum_object _ _ _) => apply quiet_leaf_enum
  | |- quiet_obj (float_elem _ _) => apply quiet_float_elem
  | |- quiet_obj (describe_list _ _) => apply quiet_describe_list
  | |- quiet_stmt (fun c s => match c_type c with DESCRIBE => _ | _ => _ end) => apply quiet_switch
  end.

Lemma quiet_axis t a : Forall quiet_stmt (render_table_axis t a).
Proof. unfold render_table_axis, array_map_field, render_array_object. quiet_all. Qed.

Lemma quiet_second t r : quiet_obj (render_array_object (render_table_second_axis_data t r)).
Proof. unfold render_array_object, render_table_second_axis_data. quiet_all. Qed.

Lemma quiet_2d_data t : Forall quiet_stmt (render_table_2d_data t).
Proof.
  unfold render_table_2d_data. apply Forall_cons; [|apply Forall_nil]. apply quiet_loop. intros i. apply quiet_array_field.
  intros c s s' Ht. destruct (_ || _); [discriminate|]. apply (quiet_second t i). auto.
Qed.

Lemma quiet_table_2d t : Forall quiet_stmt (render_table_2d_object t).
Proof.
  unfold render_table_2d_object, array_map_field, map_map_field, render_array_object, render_map_object. quiet_all; try apply quiet_axis.
  apply quiet_2d_data.
Qed.
Lemma quiet_table_1d t : Forall quiet_stmt (render_table_1d_object t).
Proof.
  unfold render_table_1d_object, array_map_field, map_map_field, render_array_object, render_map_object, render_table_1d_data. quiet_all; try apply quiet_axis.
Qed.

Lemma quiet_sensor x : Forall quiet_stmt (render_sensor_object x).
Proof. unfold render_sensor_object. unfold uint32_map_field, float_map_field, enum_map_field. quiet_all. Qed.

Lemma quiet_knock rate b : Forall quiet_stmt (render_knock_object rate b).
Proof.
  unfold render_knock_object, float_map_field. quiet_all.
  intros c s c' s' Ht. destruct (c_type c) eqn:E; try congruence; intros [= <- <-]; auto using quiet_refl.
Qed.

Lemma quiet_output i : Forall quiet_stmt (output_console_renderer i).
Proof. unfold output_console_renderer, uint32_map_field, float_map_field, enum_map_field, bool_map_field. quiet_all. Qed.

Lemma quiet_toplevel rate v : Forall quiet_stmt (console_toplevel_request rate v).
Proof.
  unfold console_toplevel_request, map_map_field, array_map_field, render_array_object, render_map_object.
  quiet_all.
  - unfold render_decoder, uint32_map_field, float_map_field, enum_map_field. quiet_all.
  - unfold render_sensors, map_map_field, render_map_object. cbn [map app]. quiet_all; first [apply quiet_sensor|apply quiet_knock].
  - unfold render_outputs, map_array_field, render_map_object. apply Forall_forall. intros f Hf. apply in_map_iff in Hf as (i & <- & _). quiet_all. apply quiet_output.
  - unfold render_fueling, render_crank_enrich, uint32_map_field, float_map_field, map_map_field, render_map_object. quiet_all.
  - unfold render_ignition, uint32_map_field, float_map_field. quiet_all.
  - unfold render_tables, map_map_field, render_map_object. quiet_all; first [apply quiet_table_1d|apply quiet_table_2d].
  - unfold render_boost_control, uint32_map_field, float_map_field, map_map_field, render_map_object. quiet_all. apply quiet_table_1d.
  - unfold render_cel, uint32_map_field, float_map_field. quiet_all.
  - unfold render_freq_list, map_array_field, render_map_object, render_freq_object, enum_map_field. apply Forall_forall. intros f Hf. apply in_map_iff in Hf as (i & <- & _). quiet_all.
  - unfold render_test, bool_map_field, uint32_map_field. quiet_all.
    intros c s c' s' Ht H. apply bind_ok in H as ([c1 s1] & E & H).
    destruct (quiet_map_field "test-trigger-rpm" _ (quiet_leaf_uint "Test trigger output rpm (0 to disable)" U_TestRpm) c s c1 s1 Ht E) as [A B].
    destruct (c_type c1) eqn:E1; try congruence; injection H as <- <-; split; auto; congruence.
  - unfold render_info. quiet_all. intros c s s' Ht. unfold render_version. destruct (c_type c); intros [= <-]; split; auto.
Qed.

Lemma quiet_types : Forall quiet_stmt console_toplevel_types.
Proof.
  unfold console_toplevel_types, map_map_field, render_map_object. quiet_all;
    first [apply quiet_sensor|apply quiet_output|apply quiet_table_1d|apply quiet_table_2d].
Qed.
