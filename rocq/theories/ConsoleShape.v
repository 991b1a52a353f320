(** The shape of what the renderers write. *)
Require Import ZArith List Bool String Lia.
From Verif Require Import Res Word F32 Sensors Cbor Console ConsoleSpec DecoderProofs ConsoleProofs ConsoleNav.
Import ListNotations.
Open Scope Z_scope.
Ltac Zify.zify_post_hook ::= idtac.

Definition getset (c : ctx) : Prop := c_type c = GET \/ c_type c = SET.
Definition okc (c : ctx) : Prop := (c_filtered c = true -> getset c) /\ (c_filtered c = false -> c_completed c = false).

Definition one_obj (o : obj) : Prop := forall c s s', c_completed c = false -> okc c -> o c s = Ok s' ->
  exists x, s_out s' = s_out s ++ [x] /\ wf x.

(** What the statements of a map ([true]) or of an array ([false]) add. *)
Definition items (k : bool) (l : list enc) : Prop := if k then pairs l else Forall wf l.

Definition adds (k : bool) (f : stmt) : Prop := forall c s c' s', okc c -> f c s = Ok (c', s') ->
  c_type c' = c_type c /\ c_filtered c' = c_filtered c /\
  (if c_completed c then c_completed c' = true /\ s_out s' = s_out s
   else if c_filtered c then
     (c_completed c' = false /\ s_out s' = s_out s) \/ (c_completed c' = true /\ exists x, s_out s' = s_out s ++ [x] /\ wf x)
   else c_completed c' = false /\ exists l, s_out s' = s_out s ++ l /\ items k l).

Lemma pairs_app a b : pairs a -> pairs b -> pairs (a ++ b).
Proof. intros Ha Hb. induction Ha as [|k x a Hx Ha IH] using pairs_ind; cbn [app]; auto. constructor; auto. Qed.
Lemma items_app k a b : items k a -> items k b -> items k (a ++ b).
Proof. destruct k; cbn; [apply pairs_app|]. intros. apply Forall_app. auto. Qed.
Lemma items_nil k : items k []. Proof. destruct k; constructor. Qed.

Lemma adds_none k c s : c_completed c = c_completed c -> okc c -> 
  (if c_completed c then c_completed c = true /\ s_out s = s_out s
   else if c_filtered c then
     (c_completed c = false /\ s_out s = s_out s) \/ (c_completed c = true /\ exists x, s_out s = s_out s ++ [x] /\ wf x)
   else c_completed c = false /\ exists l, s_out s = s_out s ++ l /\ items k l).
Proof.
  intros _ _. destruct (c_completed c); auto. destruct (c_filtered c); auto. split; auto. exists []. rewrite app_nil_r. split; [auto|apply items_nil].
Qed.

Lemma adds_run k body : Forall (adds k) body -> adds k (run body).
Proof.
  intros H. induction H as [|f body Hf Hb IH]; intros c s c' s' Hc E; cbn [run] in E.
  - injection E as <- <-. split; [auto|split; [auto|]]. apply adds_none; auto.
  - apply bind_ok in E as ([c1 s1] & E1 & E2). destruct (Hf _ _ _ _ Hc E1) as (A & B & C).
    assert (Hc1 : okc c1).
    { destruct Hc as [Hc Hc']. unfold okc, getset in *. rewrite A, B. split; [exact Hc|]. intros Hfl. specialize (Hc' Hfl). rewrite Hc', Hfl in C. apply C. }
    destruct (IH _ _ _ _ Hc1 E2) as (D & F & G). split; [congruence|split; [congruence|]].
    destruct (c_completed c).
    { destruct C as [C1 C2]. rewrite C1 in G. destruct G. split; congruence. }
    rewrite B in G. destruct (c_filtered c).
    + destruct C as [[C1 C2]|[C1 (x & C2 & C3)]]; rewrite C1 in G.
      * rewrite C2 in G. exact G.
      * destruct G as [G1 G2]. right. split; [exact G1|]. exists x. split; [congruence|exact C3].
    + destruct C as [C1 (l & C2 & C3)]. rewrite C1 in G. destruct G as [G1 (l' & G2 & G3)]. split; [exact G1|].
      exists (l ++ l'). rewrite G2, C2, <- app_assoc. split; [reflexivity|apply items_app; auto].
Qed.

Lemma adds_map_field id o : one_obj o -> adds true (map_field id o).
Proof.
  intros Ho c s c' s' Hc. unfold map_field, descend_map_field. destruct (c_completed c) eqn:Ec.
  { intros [= <- <-]. rewrite Ec. auto. }
  assert (Hnone : Ok (c, s) = Ok (c', s') -> c_type c' = c_type c /\ c_filtered c' = c_filtered c /\
    (if c_filtered c then (c_completed c' = false /\ s_out s' = s_out s) \/ (c_completed c' = true /\ exists x, s_out s' = s_out s ++ [x] /\ wf x)
     else c_completed c' = false /\ exists l, s_out s' = s_out s ++ l /\ items true l)).
  { intros [= <- <-]. split; [auto|split; [auto|]]. pose proof (adds_none true c s eq_refl Hc) as H. rewrite Ec in *. exact H. }
  assert (Hkey : forall w (ty : rtype), ty = c_type c -> c_filtered c = false ->
     (s2 <- o (Ctx ty w false false) (emit s (EText id));; Ok (c, s2)) = Ok (c', s') -> c_type c' = c_type c /\ c_filtered c' = false /\
     (c_completed c' = false /\ exists l, s_out s' = s_out s ++ l /\ items true l)).
  { intros w ty Ety Hf H. apply bind_ok in H as (s2 & E2 & H). injection H as <- <-. apply Ho in E2; [|reflexivity|split; [intros H; discriminate|reflexivity]].
    destruct E2 as (x & A & B). cbn [s_out emit] in A. split; [auto|split; [auto|split; [auto|]]]. exists [EText id; x].
    rewrite A, <- app_assoc. split; [reflexivity|]. constructor; [exact B|constructor]. }
  assert (Hkey' : c_filtered c = false ->
     (s2 <- o c (emit s (EText id));; Ok (c, s2)) = Ok (c', s') -> c_type c' = c_type c /\ c_filtered c' = false /\
     (c_completed c' = false /\ exists l, s_out s' = s_out s ++ l /\ items true l)).
  { intros Hf H. apply bind_ok in H as (s2 & E2 & H). injection H as <- <-. apply Ho in E2; [|auto|auto].
    destruct E2 as (x & A & B). cbn [s_out emit] in A. split; [auto|split; [auto|split; [auto|]]]. exists [EText id; x].
    rewrite A, <- app_assoc. split; [reflexivity|]. constructor; [exact B|constructor]. }
  assert (Hpath : forall w ty p, ty = c_type c -> getset c -> c_filtered c = true ->
     (s2 <- o (Ctx ty w (match p with [] => false | _ => true end) false) (St (s_mem s) p (s_out s) (s_effs s));; Ok (Ctx ty (c_value c) true true, s2)) = Ok (c', s') ->
     c_type c' = c_type c /\ c_filtered c' = true /\
     ((c_completed c' = false /\ s_out s' = s_out s) \/ (c_completed c' = true /\ exists x, s_out s' = s_out s ++ [x] /\ wf x))).
  { intros w ty p Ety Hg Hf H. apply bind_ok in H as (s2 & E2 & H). injection H as <- <-. apply Ho in E2; [|reflexivity|split; [intros _; unfold getset in *; cbn; congruence|reflexivity]].
    cbn [c_type c_filtered c_completed]. split; [auto|split; [auto|]]. right. split; [auto|]. exact E2. }
  destruct (c_type c) eqn:Et, (c_filtered c) eqn:Ef; cbn [negb]; try (exfalso; destruct (proj1 Hc Ef); congruence).
  - destruct (console_path_match_str (s_path s) id); cbn [negb]; [|exact Hnone]. apply Hpath; auto; unfold getset; rewrite Et; auto.
  - apply Hkey; auto.
  - destruct (console_path_match_str (s_path s) id); cbn [negb]; [|exact Hnone]. apply Hpath; auto; unfold getset; rewrite Et; auto.
  - destruct (is_map (c_value c)); cbn [negb]; [|exact Hnone]. apply Hkey; auto.
  - apply Hkey'; auto.
  - apply Hkey'; auto.
Qed.

Lemma adds_array_field i o : one_obj o -> adds false (array_field i o).
Proof.
  intros Ho c s c' s' Hc. unfold array_field, descend_array_field. destruct (c_completed c) eqn:Ec.
  { intros [= <- <-]. rewrite Ec. auto. }
  assert (Hnone : Ok (c, s) = Ok (c', s') -> c_type c' = c_type c /\ c_filtered c' = c_filtered c /\
    (if c_filtered c then (c_completed c' = false /\ s_out s' = s_out s) \/ (c_completed c' = true /\ exists x, s_out s' = s_out s ++ [x] /\ wf x)
     else c_completed c' = false /\ exists l, s_out s' = s_out s ++ l /\ items false l)).
  { intros [= <- <-]. split; [auto|split; [auto|]]. pose proof (adds_none false c s eq_refl Hc) as H. rewrite Ec in *. exact H. }
  assert (Hkey : forall d, c_completed d = false -> okc d -> c_filtered c = false ->
     (s2 <- o d s;; Ok (c, s2)) = Ok (c', s') -> c_type c' = c_type c /\ c_filtered c' = false /\
     (c_completed c' = false /\ exists l, s_out s' = s_out s ++ l /\ items false l)).
  { intros d Hd1 Hd2 Hf H. apply bind_ok in H as (s2 & E2 & H). injection H as <- <-. apply Ho in E2; auto.
    destruct E2 as (x & A & B). split; [auto|split; [auto|split; [auto|]]]. exists [x].
    split; [exact A|]. constructor; [exact B|constructor]. }
  assert (Hpath : forall w ty p, ty = c_type c -> getset c -> c_filtered c = true ->
     (s2 <- o (Ctx ty w (match p with [] => false | _ => true end) false) (St (s_mem s) p (s_out s) (s_effs s));; Ok (Ctx ty (c_value c) true true, s2)) = Ok (c', s') ->
     c_type c' = c_type c /\ c_filtered c' = true /\
     ((c_completed c' = false /\ s_out s' = s_out s) \/ (c_completed c' = true /\ exists x, s_out s' = s_out s ++ [x] /\ wf x))).
  { intros w ty p Ety Hg Hf H. apply bind_ok in H as (s2 & E2 & H). injection H as <- <-. apply Ho in E2; [|reflexivity|split; [intros _; unfold getset in *; cbn; congruence|reflexivity]].
    cbn [c_type c_filtered c_completed]. split; [auto|split; [auto|]]. right. split; [auto|]. exact E2. }
  destruct (c_type c) eqn:Et, (c_filtered c) eqn:Ef; cbn [negb]; try (exfalso; destruct (proj1 Hc Ef); congruence).
  - destruct (console_path_match_int (s_path s) i); cbn [negb]; [|exact Hnone]. apply Hpath; auto; unfold getset; rewrite Et; auto.
  - apply Hkey; auto. split; [intros H; discriminate|auto].
  - destruct (console_path_match_int (s_path s) i); cbn [negb]; [|exact Hnone]. apply Hpath; auto; unfold getset; rewrite Et; auto.
  - destruct (c_value c) as [[]|]; try exact Hnone. destruct (nth_cursor l (Z.to_nat i)); [|exact Hnone]. apply Hkey; auto. split; [intros H; discriminate|auto].
  - apply Hkey; auto.
  - apply Hkey; auto.
Qed.

Lemma one_container (k : bool) body : Forall (adds k) body -> one_obj (render_container (if k then EMap else EArr) body).
Proof.
  intros Hb c s s' Hc Hk H. unfold render_container in H. apply bind_ok in H as ([c1 s1] & E & H). injection H as <-.
  destruct (adds_run k body Hb _ _ _ _ Hk E) as (A & B & C). rewrite Hc in C. rewrite B. destruct (c_filtered c) eqn:Ef; cbn [negb andb] in *.
  - destruct C as [[C1 C2]|[C1 C2]]; rewrite C1; cbn [negb].
    + exists ENull. cbn. rewrite C2. split; [auto|constructor].
    + exact C2.
  - destruct C as [C1 (l & C2 & C3)]. cbn [s_out app] in C2. eexists. cbn [s_out]. split; [reflexivity|].
    rewrite C2. destruct k; constructor; exact C3.
Qed.
Lemma one_map body : Forall (adds true) body -> one_obj (render_map_object body).
Proof. apply (one_container true). Qed.
Lemma one_array body : Forall (adds false) body -> one_obj (render_array_object body).
Proof. apply (one_container false). Qed.

Lemma wf_describe type d : wf (EMapN 2 (render_type_field type ++ render_description_field d)).
Proof. constructor; [|reflexivity]. constructor; [constructor|]. constructor; constructor. Qed.

Lemma one_uint d p : one_obj (render_uint32_object d p).
Proof. unfold render_uint32_object. intros c s s' _ _. destruct (c_type c); intros [= <-]; (eexists; split; [reflexivity|]); first [apply wf_describe|constructor]. Qed.
Lemma one_float d p : one_obj (render_float_object d p).
Proof. unfold render_float_object. intros c s s' _ _. destruct (c_type c); intros [= <-]; (eexists; split; [reflexivity|]); first [apply wf_describe|constructor]. Qed.
Lemma one_bool d p : one_obj (render_bool_object d p).
Proof. unfold render_bool_object. intros c s s' _ _. destruct (c_type c); intros [= <-]; (eexists; split; [reflexivity|]); first [apply wf_describe|constructor]. Qed.
Lemma one_string d p : one_obj (render_string_object d p).
Proof. unfold render_string_object. intros c s s' _ _. destruct (c_type c); intros [= <-]; (eexists; split; [reflexivity|]); first [apply wf_describe|constructor]. Qed.

Lemma one_enum d p : one_obj (render_enum_object d (enum_names p) p).
Proof.
  unfold render_enum_object. intros c s s' _ _.
  assert (Hd : Ok (emit s (EMapN 3 (render_type_field "string" ++ render_description_field d ++
     [EText "choices"; EArr (map (fun x => EText (snd x)) (enum_names p))]))) = Ok s' -> exists x, s_out s' = s_out s ++ [x] /\ wf x).
  { intros [= <-]. eexists. split; [reflexivity|]. constructor; [|reflexivity]. cbn [render_type_field render_description_field app].
    repeat constructor. apply Forall_forall. intros y Hy. apply in_map_iff in Hy as (z & <- & _). constructor. }
  destruct (c_type c); auto; rewrite hits_one; intros [= <-]; (eexists; split; [reflexivity|]);
    match goal with |- wf (match ?f with Some _ => _ | None => _ end) => destruct f; constructor end.
Qed.

Lemma one_elem i p : one_obj (float_elem i p).
Proof. intros c s s' A B. unfold float_elem. destruct (_ || _); [discriminate|]. apply one_float; auto. Qed.
Lemma one_describe_list t d : one_obj (describe_list t d).
Proof. intros c s s' _ _ [= <-]. eexists. split; [reflexivity|]. constructor; [|reflexivity]. repeat constructor. Qed.

Lemma adds_loop k cond body : (forall i, adds k (body i)) -> forall n i, adds k (loop n i cond body).
Proof.
  intros Hb. induction n as [|n IH]; intros i c s c' s' Hc H; cbn [loop] in H.
  - destruct (negb _); [|discriminate]. injection H as <- <-. split; [auto|split; [auto|]]. apply adds_none; auto.
  - destruct (negb _). { injection H as <- <-. split; [auto|split; [auto|]]. apply adds_none; auto. }
    assert (H2 : run [body i; loop n (i + 1) cond body] c s = Ok (c', s')).
    { cbn [run]. destruct (body i c s) as [[c1 s1]|]; [|discriminate]. cbn [bind] in *. now rewrite H. }
    revert H2. apply adds_run; auto.
Qed.

Lemma adds_switch k (f g : stmt) : adds k f -> adds k g -> adds k (fun c s => match c_type c with DESCRIBE => f c s | _ => g c s end).
Proof. intros Hf Hg c s c' s' Hc. destruct (c_type c) eqn:E; rewrite <- E; auto. Qed.

Lemma adds_unless t body : Forall (adds true) body -> Forall (adds true) (unless_structure t body).
Proof.
  intros Hb. apply Forall_cons; [|apply Forall_nil]. intros c s c' s' Hc. destruct (c_type c) eqn:E; rewrite <- E; try (apply adds_run; auto; fail).
  destruct (c_filtered c) eqn:Ef; [destruct (proj1 Hc Ef); congruence|]. rewrite (proj2 Hc Ef). intros [= <- <-]. cbn [s_out].
  split; [auto|split; [auto|]]. split; [apply (proj2 Hc Ef)|]. eexists. split; [reflexivity|]. constructor; constructor.
Qed.

Lemma adds_quiet k (f : stmt) : (forall c s c' s', f c s = Ok (c', s') -> c' = c /\ s_out s' = s_out s) -> adds k f.
Proof.
  intros H c s c' s' Hc E. destruct (H _ _ _ _ E) as [-> Ho]. split; [auto|split; [auto|]]. rewrite Ho. apply adds_none; auto.
Qed.

Lemma adds_axis_values t a : Forall (adds false) (render_table_axis_values t a).
Proof.
  apply Forall_cons; [|apply Forall_cons; [|apply Forall_nil]].
  - apply adds_quiet. intros c s c' s'. destruct (c_type c); try (intros [= <- <-]; auto; fail). destruct (c_value c) as [[]|]; intros [= <- <-]; auto.
  - apply adds_loop. intros i. apply adds_array_field, one_elem.
Qed.

Ltac shape := repeat
  match goal with
  | |- Forall _ [] => apply Forall_nil
  | |- Forall _ (_ :: _) => apply Forall_cons
  | |- Forall _ (render_table_axis_values _ _) => apply adds_axis_values
  | |- Forall _ (unless_structure _ _) => apply adds_unless
  | |- adds _ (map_field _ _) => apply adds_map_field
  | |- adds _ (array_field _ _) => apply adds_array_field
  | |- adds _ (loop _ _ _ _) => apply adds_loop; intros ?
  | |- one_obj (render_map_object _) => apply one_map
  | |- one_obj (render_array_object _) => apply one_array
  | |- one_obj (render_uint32_object _ _) => apply one_uint
  | |- one_obj (render_float_object _ _) => apply one_float
  | |- one_obj (render_bool_object _ _) => apply one_bool
  | |- one_obj (render_string_object _ _) => apply one_string
  | |- one_obj (render_enum_object ?d _ ?p) => exact (one_enum d p)
  | |- one_obj (float_elem _ _) => apply one_elem
  | |- one_obj (describe_list _ _) => apply one_describe_list
  | |- adds _ (fun c s => match c_type c with DESCRIBE => _ | _ => _ end) => apply adds_switch
  end.
Ltac fields := unfold uint32_map_field, float_map_field, bool_map_field, enum_map_field, map_map_field, array_map_field, map_array_field.

Lemma shape_axis t a : Forall (adds true) (render_table_axis t a).
Proof. unfold render_table_axis. fields. shape. Qed.
Lemma shape_2d t : Forall (adds true) (render_table_2d_object t).
Proof.
  unfold render_table_2d_object. fields. shape; try apply shape_axis. unfold render_table_2d_data. shape.
  intros c s s' A B. destruct (_ || _); [discriminate|]. apply one_array; auto. unfold render_table_second_axis_data. shape.
Qed.
Lemma shape_1d t : Forall (adds true) (render_table_1d_object t).
Proof. unfold render_table_1d_object. fields. shape; try apply shape_axis. unfold render_table_1d_data. shape. Qed.
Lemma shape_sensor x : Forall (adds true) (render_sensor_object x).
Proof. unfold render_sensor_object. fields. shape. Qed.
Lemma shape_output i : Forall (adds true) (output_console_renderer i).
Proof. unfold output_console_renderer. fields. shape. Qed.
Lemma shape_knock rate b : Forall (adds true) (render_knock_object rate b).
Proof.
  unfold render_knock_object. fields. shape. apply adds_quiet. intros c s c' s'. destruct (c_type c); try (intros [= <- <-]; auto; fail).
  intros H. apply bind_ok in H as ([] & _ & H). apply bind_ok in H as ([] & _ & H). injection H as <- <-. auto.
Qed.

Lemma shape_toplevel rate v : Forall (adds true) (console_toplevel_request rate v).
Proof.
  unfold console_toplevel_request. fields. shape.
  - unfold render_decoder. fields. shape.
  - unfold render_sensors. cbn [map app]. fields. shape; match goal with
      | |- Forall _ (render_sensor_object ?x) => exact (shape_sensor x)
      | |- Forall _ (render_knock_object ?r ?b) => exact (shape_knock r b) end.
  - unfold render_outputs. fields. apply Forall_forall. intros f Hf. apply in_map_iff in Hf as (i & <- & _). shape. apply shape_output.
  - unfold render_fueling. fields. shape. unfold render_crank_enrich. fields. shape.
  - unfold render_ignition. fields. shape.
  - unfold render_tables. fields. shape; match goal with
      | |- Forall _ (render_table_2d_object ?x) => exact (shape_2d x)
      | |- Forall _ (render_table_1d_object ?x) => exact (shape_1d x) end.
  - unfold render_boost_control. fields. shape. apply shape_1d.
  - unfold render_cel. fields. shape.
  - unfold render_freq_list. fields. apply Forall_forall. intros f Hf. apply in_map_iff in Hf as (i & <- & _). shape. unfold render_freq_object. fields. shape.
  - unfold render_test. fields. shape. intros c s c' s' Hc H. apply bind_ok in H as ([c1 s1] & E & H).
    assert (Hw : adds true (map_field "test-trigger-rpm" (render_uint32_object "Test trigger output rpm (0 to disable)" U_TestRpm))) by shape.
    specialize (Hw c s c1 s1 Hc E). destruct (c_type c1) eqn:Et; injection H as <- <-; rewrite ?Et; auto.
    destruct (negb _); rewrite ?Et; exact Hw.
  - unfold render_info. fields. shape. intros c s s' _ _. unfold render_version. destruct (c_type c); intros [= <-]; (eexists; split; [reflexivity|]); first [apply wf_describe|constructor].
Qed.

Lemma shape_types : Forall (adds true) console_toplevel_types.
Proof.
  unfold console_toplevel_types. fields. shape; match goal with
      | |- Forall _ (render_table_2d_object ?x) => exact (shape_2d x)
      | |- Forall _ (render_table_1d_object ?x) => exact (shape_1d x)
      | |- Forall _ (render_sensor_object ?x) => exact (shape_sensor x)
      | |- Forall _ (output_console_renderer ?x) => exact (shape_output x) end.
Qed.
