(** Every number in a response is one the encoder can write, and the settings stay
    32-bit values and floats. *)
Require Import ZArith List Bool String Lia.
Require Import Coq.Floats.SpecFloat.
From Verif Require Import Res Word F32 F32Flocq Sensors Cbor Console ConsoleSpec DecoderProofs ConsoleProofs ConsoleNav ConsoleShape ConsoleSafe WireSpec WireProofs.
Import ListNotations.
Open Scope Z_scope.
Ltac Zify.zify_post_hook ::= idtac.

(** The settings are what their C types hold. *)
Definition settings_fit (m : mem) : Prop := (forall c, u32 (m_u m c)) /\ (forall c, a_float (m_f m c)).
(** The binary32 values of a request are binary32 values. *)
Fixpoint floats_fit (v : cbor) : Prop :=
  match v with
  | CFloat x => a_float x
  | CArray _ l => fold_right (fun x P => floats_fit x /\ P) True l
  | CMap l => fold_right (fun x P => floats_fit (snd x) /\ P) True l
  | CTag _ v => floats_fit v
  | _ => True
  end.
Definition value_fits (v : cvalue) : Prop := match v with Some v => floats_fit v | None => True end.

Lemma find_fits l id : fold_right (fun x P => floats_fit (snd x) /\ P) True l -> value_fits (find_pair l id).
Proof. induction l as [|[k v] l IH]; cbn [fold_right find_pair snd]; [auto|]. intros [A B]. destruct (text_equals (Some k) id); auto. Qed.
Lemma map_find_fits v id : value_fits v -> value_fits (map_find v id).
Proof. destruct v as [[]|]; cbn [map_find value_fits]; auto. apply find_fits. Qed.
Lemma nth_fits n : forall l v, fold_right (fun x P => floats_fit x /\ P) True l -> nth_cursor l n = Some v -> value_fits v.
Proof.
  induction n as [|n IH]; intros [|x l] v; cbn [nth_cursor fold_right].
  - intros _ [= <-]. exact I.
  - intros [A _] [= <-]. exact A.
  - discriminate.
  - intros [_ B]. apply IH. exact B.
Qed.

Definition neat (s : st) : Prop := settings_fit (s_mem s) /\ all_fine (s_out s).
Definition neat_obj (o : obj) : Prop := forall c s s', value_fits (c_value c) -> neat s -> o c s = Ok s' -> neat s'.
Definition neat_stmt (f : stmt) : Prop := forall c s c' s', value_fits (c_value c) -> neat s -> f c s = Ok (c', s') -> value_fits (c_value c') /\ neat s'.

Lemma neat_emit s e : neat s -> fine e -> neat (emit s e).
Proof. intros [A B] H. split; [exact A|]. apply Forall_app. split; [exact B|]. repeat constructor. exact H. Qed.
Lemma neat_mem s m : neat s -> settings_fit m -> neat (with_mem s m).
Proof. intros [A B] H. split; auto. Qed.

Lemma neat_run body : Forall neat_stmt body -> neat_stmt (run body).
Proof.
  induction 1 as [|f body Hf Hb IH]; intros c s c' s' Hv Hs E; cbn [run] in E.
  - injection E as <- <-. auto.
  - apply bind_ok in E as ([c1 s1] & E1 & E2). destruct (Hf _ _ _ _ Hv Hs E1). eapply IH; eauto.
Qed.

Lemma neat_map_field id o : neat_obj o -> neat_stmt (map_field id o).
Proof.
  intros Ho c s c' s' Hv Hs. unfold map_field.
  assert (D : forall go c1 d s1, descend_map_field c id s = (go, c1, d, s1) -> value_fits (c_value c1) /\ value_fits (c_value d) /\ neat s1).
  { intros go c1 d s1. unfold descend_map_field.
    assert (N : forall p, neat (St (s_mem s) p (s_out s) (s_effs s))) by (intros p; exact Hs).
    assert (N2 : neat (emit s (EText id))) by (apply neat_emit; [exact Hs|exact I]).
    pose proof (map_find_fits _ id Hv).
    destruct (c_completed c); [intros [= <- <- <- <-]; auto|].
    destruct (c_type c), (c_filtered c); cbn [negb];
      repeat match goal with |- context [if ?b then _ else _] => destruct b end; intros [= <- <- <- <-]; cbn [c_value]; auto. }
  destruct (descend_map_field c id s) as [[[go c1] d] s1]. destruct (D _ _ _ _ eq_refl) as (A & B & C).
  destruct go; [|intros [= <- <-]; auto]. intros H. apply bind_ok in H as (s2 & E & H). injection H as <- <-. split; [exact A|]. eapply Ho; eauto.
Qed.

Lemma neat_array_field i o : neat_obj o -> neat_stmt (array_field i o).
Proof.
  intros Ho c s c' s' Hv Hs. unfold array_field.
  assert (D : forall go c1 d s1, descend_array_field c i s = (go, c1, d, s1) -> value_fits (c_value c1) /\ value_fits (c_value d) /\ neat s1).
  { intros go c1 d s1. unfold descend_array_field.
    assert (N : forall p, neat (St (s_mem s) p (s_out s) (s_effs s))) by (intros p; exact Hs).
    destruct (c_completed c); [intros [= <- <- <- <-]; auto|].
    destruct (c_type c), (c_filtered c); cbn [negb];
      try (repeat match goal with |- context [if ?b then _ else _] => destruct b end; intros [= <- <- <- <-]; cbn [c_value]; auto; fail).
    destruct (c_value c) as [[]|] eqn:Ev; try (intros [= <- <- <- <-]; rewrite ?Ev; auto; fail).
    destruct (nth_cursor l (Z.to_nat i)) eqn:En; intros [= <- <- <- <-]; cbn [c_value]; rewrite Ev; auto.
    split; [exact Hv|split; [|exact Hs]]. eapply nth_fits; [exact Hv|exact En]. }
  destruct (descend_array_field c i s) as [[[go c1] d] s1]. destruct (D _ _ _ _ eq_refl) as (A & B & C).
  destruct go; [|intros [= <- <-]; auto]. intros H. apply bind_ok in H as (s2 & E & H). injection H as <- <-. split; [exact A|]. eapply Ho; eauto.
Qed.

Lemma neat_container k body : (forall l, all_fine l -> fine (k l)) -> Forall neat_stmt body -> neat_obj (render_container k body).
Proof.
  intros Hk Hb c s s' Hv Hs H. unfold render_container in H. apply bind_ok in H as ([c1 s1] & E & H). injection H as <-.
  assert (N : neat s1).
  { eapply neat_run in E; eauto; [apply E|]. destruct (negb (c_filtered c)); [split; [apply Hs|constructor]|exact Hs]. }
  assert (N' : neat (if c_filtered c1 && negb (c_completed c1) then emit s1 ENull else s1)).
  { destruct (_ && _); [|exact N]. apply neat_emit; [exact N|exact I]. }
  set (s2 := if c_filtered c1 && negb (c_completed c1) then emit s1 ENull else s1) in *.
  destruct (negb (c_filtered c)); [|exact N']. split; [apply N'|]. cbn [s_out]. apply Forall_app. split; [apply Hs|].
  repeat constructor. apply Hk. apply N'.
Qed.
Lemma neat_map body : Forall neat_stmt body -> neat_obj (render_map_object body).
Proof. apply neat_container. intros l H. cbn [fine]. now apply fine_list. Qed.
Lemma neat_array body : Forall neat_stmt body -> neat_obj (render_array_object body).
Proof. apply neat_container. intros l H. cbn [fine]. now apply fine_list. Qed.

Lemma neat_describe t d s : neat s -> neat (describe t d s).
Proof. intros H. apply neat_emit; [exact H|]. cbn. auto. Qed.

Lemma u32_fine z : u32 z -> fine (EInt z).
Proof. unfold u32. cbn [fine]. change (2 ^ 32) with 4294967296. change (2 ^ 63) with 9223372036854775808. lia. Qed.
Lemma w32_fits z : u32 (w32 z).
Proof. unfold u32, w32. apply Z.mod_pos_bound. reflexivity. Qed.
Lemma set_u_fits m p z : settings_fit m -> u32 z -> settings_fit (set_u m p z).
Proof. intros [A B] H. split; [|exact B]. intros c. cbn. unfold upd. destruct (ucell_eq c p); auto. Qed.
Lemma set_f_fits m p x : settings_fit m -> a_float x -> settings_fit (set_f m p x).
Proof. intros [A B] H. split; [exact A|]. intros c. cbn. unfold upd. destruct (fcell_eq c p); auto. Qed.

Lemma neat_uint d p : neat_obj (render_uint32_object d p).
Proof.
  intros c s s' Hv Hs. unfold render_uint32_object.
  assert (K : forall m, settings_fit m -> neat (emit (with_mem s m) (EInt (m_u m p)))).
  { intros m Hm. apply neat_emit; [apply neat_mem; auto|]. apply u32_fine, Hm. }
  destruct (c_type c); intros [= <-]; try (apply neat_describe; exact Hs); try (apply K, Hs).
  apply K. destruct (c_value c) as [[]|]; try apply Hs. destruct (int_checked z); [|apply Hs]. apply set_u_fits; [apply Hs|apply w32_fits].
Qed.

Lemma normalize_fits m e z : a_float (SpecFloat.binary_normalize fprec femax m e z).
Proof. unfold a_float. rewrite binary_normalize_equiv. apply vf_B2SF. Qed.
Lemma neg_fits x : a_float x -> a_float (fneg x).
Proof. destruct x; auto. Qed.
Lemma half_fits h : a_float (decode_half h).
Proof.
  unfold decode_half. set (v := if _ =? 0 then _ else _). assert (H : a_float v).
  { unfold v. repeat match goal with |- context [if ?b then _ else _] => destruct b end; try apply normalize_fits; reflexivity. }
  destruct (Z.testbit h 15); [apply neg_fits|]; exact H.
Qed.
Lemma double_fits x : a_float (f_of_double x).
Proof.
  destruct x as [| | |s m e]; try reflexivity. cbn [f_of_double].
  destruct s; [exact (normalize_fits (Z.neg m) e false)|exact (normalize_fits (Z.pos m) e false)].
Qed.

Lemma neat_float d p : neat_obj (render_float_object d p).
Proof.
  intros c s s' Hv Hs. unfold render_float_object.
  assert (K : forall m, settings_fit m -> neat (emit (with_mem s m) (EFloat (m_f m p)))).
  { intros m Hm. apply neat_emit; [apply neat_mem; auto|]. apply Hm. }
  destruct (c_type c); intros [= <-]; try (apply neat_describe; exact Hs); try (apply K, Hs).
  apply K. destruct (c_value c) as [[]|]; try apply Hs; (apply set_f_fits; [apply Hs|]).
  - apply normalize_fits.
  - apply half_fits.
  - exact Hv.
  - apply double_fits.
Qed.
Lemma neat_bool d p : neat_obj (render_bool_object d p).
Proof.
  intros c s s' Hv Hs. unfold render_bool_object.
  destruct (c_type c); intros [= <-]; try (apply neat_describe; exact Hs); (apply neat_emit; [apply neat_mem; [exact Hs|]|exact I]); try apply Hs.
  destruct (c_value c) as [[]|]; try apply Hs; exact (proj1 Hs).
Qed.
Lemma neat_string d p : neat_obj (render_string_object d p).
Proof.
  intros c s s' Hv Hs. unfold render_string_object.
  destruct (c_type c); intros [= <-]; try (apply neat_describe; exact Hs); (apply neat_emit; [apply neat_mem; [exact Hs|]|exact I]); try apply Hs.
  destruct (c_value c) as [[]|]; try apply Hs. destruct (_ <=? _); exact (proj1 Hs).
Qed.
Lemma neat_enum d mp p : neat_obj (render_enum_object d mp p).
Proof.
  intros c s s' Hv Hs. unfold render_enum_object.
  assert (K : forall m, settings_fit m -> neat (match filter (fun x => m_e m p =? fst x) mp with [] => emit (with_mem s m) ENull
         | x :: l => fold_left (fun s x => emit s (EText (snd x))) (x :: l) (with_mem s m) end)).
  { intros m Hm. destruct (filter _ mp) as [|x l]; [apply neat_emit; [apply neat_mem; auto|exact I]|].
    assert (L : forall l s, neat s -> neat (fold_left (fun s (x : Z * string) => emit s (EText (snd x))) l s)).
    { clear. induction l as [|x l IH]; intros s Hs; cbn [fold_left]; [exact Hs|]. apply IH, neat_emit; [exact Hs|exact I]. }
    apply L, neat_mem; auto. }
  assert (D : neat (emit s (EMapN 3 (render_type_field "string" ++ render_description_field d ++ [EText "choices"; EArr (map (fun x => EText (snd x)) mp)])))).
  { apply neat_emit; [exact Hs|]. cbn [fine render_type_field render_description_field app fold_right].
    repeat (split; [exact I|]). split; [|exact I]. apply fine_list. apply Forall_forall. intros y Hy. apply in_map_iff in Hy as (z & <- & _). exact I. }
  destruct (c_type c); try (intros [= <-]; exact D).
  - intros H. pose proof (K (s_mem s) (proj1 Hs)) as Hx. destruct (filter _ mp); injection H as <-; exact Hx.
  - set (m := fold_left _ _ _). assert (Hm : settings_fit m).
    { unfold m. clear K D. assert (L : forall l m, settings_fit m -> settings_fit (fold_left (fun m (x : Z * string) => if text_equals (c_value c) (snd x) then set_e m p (fst x) else m) l m)).
      { induction l as [|x l IH]; intros m0 H0; cbn [fold_left]; [exact H0|]. apply IH. destruct (text_equals _ _); exact H0. }
      apply L, Hs. }
    intros H. pose proof (K m Hm) as Hx. destruct (filter _ mp); injection H as <-; exact Hx.
Qed.

Lemma neat_elem i p : neat_obj (float_elem i p).
Proof. intros c s s' Hv Hs. unfold float_elem. destruct (_ || _); [discriminate|]. apply neat_float; auto. Qed.
Lemma neat_describe_list t d : neat_obj (describe_list t d).
Proof. intros c s s' Hv Hs [= <-]. apply neat_emit; [exact Hs|]. cbn. repeat split; auto; unfold MAX_AXIS_SIZE; lia. Qed.

Lemma neat_loop cond body : (forall i, neat_stmt (body i)) -> forall n i, neat_stmt (loop n i cond body).
Proof.
  intros Hb. induction n as [|n IH]; intros i c s c' s' Hv Hs H; cbn [loop] in H.
  - destruct (negb _); [|discriminate]. injection H as <- <-. auto.
  - destruct (negb _). { injection H as <- <-. auto. }
    apply bind_ok in H as ([c1 s1] & E & H). destruct (Hb _ _ _ _ _ Hv Hs E). eapply IH; eauto.
Qed.
Lemma neat_switch (f g : stmt) : neat_stmt f -> neat_stmt g -> neat_stmt (fun c s => match c_type c with DESCRIBE => f c s | _ => g c s end).
Proof. intros Hf Hg c s c' s' Hv Hs. destruct (c_type c); eauto. Qed.
Lemma neat_unless t body : Forall neat_stmt body -> Forall neat_stmt (unless_structure t body).
Proof.
  intros Hb. apply Forall_cons; [|apply Forall_nil]. intros c s c' s' Hv Hs. destruct (c_type c); try (apply neat_run; auto; fail).
  intros [= <- <-]. split; [exact Hv|]. split; [apply Hs|]. cbn [s_out]. apply Forall_app. split; [apply Hs|]. repeat constructor.
Qed.
Lemma neat_quiet (f : stmt) : (forall c s c' s', f c s = Ok (c', s') -> c' = c /\ s_out s' = s_out s /\ m_u (s_mem s') = m_u (s_mem s) /\ m_f (s_mem s') = m_f (s_mem s)) -> neat_stmt f.
Proof.
  intros H c s c' s' Hv [[S1 S2] S3] E. destruct (H _ _ _ _ E) as (-> & A & B & C). split; [exact Hv|]. unfold neat, settings_fit. rewrite A, B, C. auto.
Qed.

Lemma neat_axis_values t a : Forall neat_stmt (render_table_axis_values t a).
Proof.
  apply Forall_cons; [|apply Forall_cons; [|apply Forall_nil]].
  - apply neat_quiet. intros c s c' s'. destruct (c_type c); try (intros [= <- <-]; auto; fail). destruct (c_value c) as [[]|]; intros [= <- <-]; auto.
  - apply neat_loop. intros i. apply neat_array_field, neat_elem.
Qed.

Ltac neatly := repeat
  match goal with
  | |- Forall _ [] => apply Forall_nil
  | |- Forall _ (_ :: _) => apply Forall_cons
  | |- Forall _ (render_table_axis_values _ _) => apply neat_axis_values
  | |- Forall _ (unless_structure _ _) => apply neat_unless
  | |- neat_stmt (map_field _ _) => apply neat_map_field
  | |- neat_stmt (array_field _ _) => apply neat_array_field
  | |- neat_stmt (loop _ _ _ _) => apply neat_loop; intros ?
  | |- neat_obj (render_map_object _) => apply neat_map
  | |- neat_obj (render_array_object _) => apply neat_array
  | |- neat_obj (render_uint32_object _ _) => apply neat_uint
  | |- neat_obj (render_float_object _ _) => apply neat_float
  | |- neat_obj (render_bool_object _ _) => apply neat_bool
  | |- neat_obj (render_string_object _ _) => apply neat_string
  | |- neat_obj (render_enum_object _ _ _) => apply neat_enum
  | |- neat_obj (float_elem _ _) => apply neat_elem
  | |- neat_obj (describe_list _ _) => apply neat_describe_list
  | |- neat_stmt (fun c s => match c_type c with DESCRIBE => _ | _ => _ end) => apply neat_switch
  end.
Ltac fields := unfold uint32_map_field, float_map_field, bool_map_field, enum_map_field, map_map_field, array_map_field, map_array_field.

Lemma neat_axis t a : Forall neat_stmt (render_table_axis t a).
Proof. unfold render_table_axis. fields. neatly. Qed.
Lemma neat_2d t : Forall neat_stmt (render_table_2d_object t).
Proof.
  unfold render_table_2d_object. fields. neatly; try apply neat_axis. unfold render_table_2d_data. neatly.
  intros c s s' A B. destruct (_ || _); [discriminate|]. apply neat_array; auto. unfold render_table_second_axis_data. neatly.
Qed.
Lemma neat_1d t : Forall neat_stmt (render_table_1d_object t).
Proof. unfold render_table_1d_object. fields. neatly; try apply neat_axis. unfold render_table_1d_data. neatly. Qed.
Lemma neat_sensor x : Forall neat_stmt (render_sensor_object x).
Proof. unfold render_sensor_object. fields. neatly. Qed.
Lemma neat_output i : Forall neat_stmt (output_console_renderer i).
Proof. unfold output_console_renderer. fields. neatly. Qed.
Lemma neat_knock rate b : Forall neat_stmt (render_knock_object rate b).
Proof.
  unfold render_knock_object. fields. neatly. apply neat_quiet. intros c s c' s'. destruct (c_type c); try (intros [= <- <-]; auto; fail).
  intros H. apply bind_ok in H as ([] & _ & H). apply bind_ok in H as ([] & _ & H). injection H as <- <-. auto.
Qed.

Lemma neat_toplevel rate v : Forall neat_stmt (console_toplevel_request rate v).
Proof.
  unfold console_toplevel_request. fields. neatly.
  - unfold render_decoder. fields. neatly.
  - unfold render_sensors. cbn [map app]. fields. neatly; match goal with
      | |- Forall _ (render_sensor_object ?x) => exact (neat_sensor x)
      | |- Forall _ (render_knock_object ?r ?b) => exact (neat_knock r b) end.
  - unfold render_outputs. fields. apply Forall_forall. intros f Hf. apply in_map_iff in Hf as (i & <- & _). neatly. apply neat_output.
  - unfold render_fueling. fields. neatly. unfold render_crank_enrich. fields. neatly.
  - unfold render_ignition. fields. neatly.
  - unfold render_tables. fields. neatly; match goal with
      | |- Forall _ (render_table_2d_object ?x) => exact (neat_2d x)
      | |- Forall _ (render_table_1d_object ?x) => exact (neat_1d x) end.
  - unfold render_boost_control. fields. neatly. apply neat_1d.
  - unfold render_cel. fields. neatly.
  - unfold render_freq_list. fields. apply Forall_forall. intros f Hf. apply in_map_iff in Hf as (i & <- & _). neatly. unfold render_freq_object. fields. neatly.
  - unfold render_test. fields. neatly. intros c s c' s' Hv Hs H. apply bind_ok in H as ([c1 s1] & E & H).
    assert (Hw : neat_stmt (map_field "test-trigger-rpm" (render_uint32_object "Test trigger output rpm (0 to disable)" U_TestRpm))) by neatly.
    specialize (Hw c s c1 s1 Hv Hs E). destruct (c_type c1) eqn:Et; injection H as <- <-; auto.
    destruct (negb _); exact Hw.
  - unfold render_info. fields. neatly. intros c s s' Hv Hs. unfold render_version. destruct (c_type c); intros [= <-]; first [apply neat_describe; exact Hs|apply neat_emit; [exact Hs|exact I]].
Qed.

Lemma neat_types : Forall neat_stmt console_toplevel_types.
Proof.
  unfold console_toplevel_types. fields. neatly; match goal with
      | |- Forall _ (render_table_2d_object ?x) => exact (neat_2d x)
      | |- Forall _ (render_table_1d_object ?x) => exact (neat_1d x)
      | |- Forall _ (render_sensor_object ?x) => exact (neat_sensor x)
      | |- Forall _ (output_console_renderer ?x) => exact (neat_output x) end.
Qed.

(** ** Requests *)
Lemma to_int_range z : - HALF <= to_int z < HALF.
Proof. unfold to_int, W, HALF. pose proof (Z.mod_pos_bound z 4294967296 ltac:(lia)). destruct (Z.ltb_spec (z mod 4294967296) 2147483648); lia. Qed.
Lemma id_fine z : fine (EInt (int_truncated z)).
Proof.
  unfold int_truncated. cbn [fine]. change (2 ^ 63) with 9223372036854775808.
  destruct (0 <=? z); match goal with |- context [to_int ?a] => pose proof (to_int_range a) end; unfold HALF in *; lia.
Qed.

Lemma neat_success s b : neat s -> neat (report_success s b).
Proof. intros. apply neat_emit; [apply neat_emit; [assumption|exact I]|exact I]. Qed.
Lemma neat_error s m : neat s -> neat (report_parsing_error s m).
Proof. intros. apply neat_success, neat_emit; [apply neat_emit; [assumption|exact I]|exact I]. Qed.

Lemma neat_top rate version : neat_obj (render_map_object (console_toplevel_request rate version)).
Proof. apply neat_map, neat_toplevel. Qed.

Lemma neat_map_map id body : Forall neat_stmt body -> neat_stmt (map_map_field id body).
Proof. intros H. apply neat_map_field, neat_map, H. Qed.

Lemma structure_neat rate version s s' : neat s -> console_request_structure rate version s = Ok s' -> neat s'.
Proof.
  intros N2. unfold console_request_structure. intros H. apply bind_ok in H as ([c1 s3] & E1 & H). apply bind_ok in H as ([c2 s4] & E2 & H). injection H as <-.
  apply neat_success. 
  pose proof (neat_map_map "response" _ (neat_toplevel rate version) (Ctx STRUCTURE None false false) _ _ _ I N2 E1) as [_ N3].
  exact (proj2 (neat_map_map "types" _ neat_types (Ctx DESCRIBE None false false) _ _ _ I N3 E2)).
Qed.

Lemma neat_response s p : neat s -> neat (St (s_mem s) p (s_out s ++ [EText "response"]) (s_effs s)).
Proof. intros [A B]. split; [exact A|]. cbn [s_out]. apply Forall_app. split; [exact B|]. repeat constructor. Qed.

Lemma get_neat rate version p s s' : neat s -> console_request_get rate version p s = Ok s' -> neat s'.
Proof.
  intros N. unfold console_request_get. intros H. apply bind_ok in H as (s3 & E & H). injection H as <-. apply neat_success.
  eapply neat_top; [|apply neat_response; exact N|exact E]. exact I.
Qed.
Lemma set_neat rate version p v s s' : value_fits v -> neat s -> console_request_set rate version p v s = Ok s' -> neat s'.
Proof.
  intros Hv N. unfold console_request_set. intros H. apply bind_ok in H as (s3 & E & H). injection H as <-. apply neat_success.
  eapply neat_top; [|apply neat_response; exact N|exact E]. exact Hv.
Qed.

Lemma request_neat rate version request s s' : floats_fit request -> neat s ->
  console_process_request rate version request s = Ok s' -> neat s'.
Proof.
  intros Hr Hs. unfold console_process_request. cbv zeta.
  set (id := match map_find (Some request) "id" with Some (CInt z) => int_truncated z | _ => -1 end).
  assert (Hid : fine (EInt id)).
  { unfold id. destruct (map_find (Some request) "id") as [[]|]; try (cbn [fine]; lia). apply id_fine. }
  set (s2 := emit (emit (emit (emit s (EText "type")) (EText "response")) (EText "id")) (EInt id)).
  assert (N2 : neat s2).
  { unfold s2. apply neat_emit; [|exact Hid]. repeat (apply neat_emit; [|exact I]). exact Hs. }
  clearbody s2. clear Hid id Hs.
  pose proof (map_find_fits (Some request) "value" Hr) as Hv.
  destruct (map_find (Some request) "method") as [mt|]; [|intros [= <-]; apply neat_success, neat_error; exact N2].
  destruct (text_equals (Some mt) "ping"). { intros [= <-]. apply neat_success, neat_emit; [apply neat_emit; [exact N2|exact I]|exact I]. }
  destruct (text_equals (Some mt) "structure"). { apply structure_neat; exact N2. }
  destruct (text_equals (Some mt) "flash"). { intros [= <-]. apply neat_success. exact N2. }
  destruct (text_equals (Some mt) "bootloader"). { intros [= <-]. apply (neat_success s2 true) in N2. exact N2. }
  destruct (map_find (Some request) "path") as [[]|]; try (intros [= <-]; apply neat_error; exact N2).
  destruct (text_equals (Some mt) "get"). { apply get_neat; exact N2. }
  destruct (map_find (Some request) "value") as [v|]; [|intros [= <-]; apply neat_error; exact N2].
  destruct (text_equals (Some mt) "set"); [|intros [= <-]; exact N2].
  apply set_neat; [exact Hv|exact N2].
Qed.
