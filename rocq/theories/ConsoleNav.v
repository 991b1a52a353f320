(** Following a path to a single setting. *)
Require Import ZArith List Bool String Lia.
From Verif Require Import Res Word F32 Sensors Cbor Console ConsoleSpec DecoderProofs ConsoleProofs ConsoleSafe.
Import ListNotations.
Open Scope Z_scope.
Ltac Zify.zify_post_hook ::= idtac.

Section NAV.
(** A get or set with the item [v], from the settings [m] to [m1], showing [e]. *)
Variable t : rtype.
Variable v : cvalue.
Variable m m1 : mem.
Variable e : enc.
Hypothesis Ht : t = GET \/ t = SET.

Definition focus_obj (o : obj) (p : list pelem) : Prop := forall path out effs, Forall2 denotes path p ->
  exists effs', o (Ctx t v (nonempty path) false) (St m path out effs) = Ok (St m1 [] (out ++ [e]) effs').
Definition focus_body (b : list stmt) (p : list pelem) : Prop := forall path out effs, Forall2 denotes path p ->
  exists effs', run b (Ctx t v true false) (St m path out effs) = Ok (Ctx t v true true, St m1 [] (out ++ [e]) effs').
Definition inert (f : stmt) : Prop := forall out effs,
  exists effs', f (Ctx t v true true) (St m1 [] out effs) = Ok (Ctx t v true true, St m1 [] out effs').

Lemma inert_run b : Forall inert b -> inert (run b).
Proof.
  intros H. induction H as [|f b Hf Hb IH]; intros out effs; cbn [run].
  - eauto.
  - destruct (Hf out effs) as [effs1 ->]. cbn [bind]. apply IH.
Qed.
Lemma inert_map_field id o : inert (map_field id o).
Proof. intros out effs. exists effs. reflexivity. Qed.
Lemma inert_array_field i o : inert (array_field i o).
Proof. intros out effs. exists effs. reflexivity. Qed.
Lemma inert_switch (f g : stmt) : inert g -> inert (fun c s => match c_type c with DESCRIBE => f c s | _ => g c s end).
Proof. intros Hg out effs. destruct (Hg out effs) as [effs1 E]. exists effs1. cbn [c_type]. destruct Ht as [E' | E']; rewrite E' in *; exact E. Qed.
Lemma inert_loop cond body : (forall i, inert (body i)) -> (forall i, cond m1 i = true -> i < 24) ->
  forall n i, 24 - i <= Z.of_nat n -> 0 <= i -> inert (loop n i cond body).
Proof.
  intros Hb Hc. induction n as [|n IH]; intros i Hn Hi out effs; cbn [loop s_mem].
  - destruct (cond m1 i) eqn:E; [pose proof (Hc _ E); lia|]. cbn [negb]. eauto.
  - destruct (cond m1 i) eqn:E; cbn [negb]; [|eauto]. destruct (Hb i out effs) as [effs1 ->]. cbn [bind]. apply IH; lia.
Qed.

Lemma denotes_here q id : denotes q (PN id) -> text_equals (Some q) id = true.
Proof. cbn. intros ->. apply String.eqb_refl. Qed.
Lemma denotes_other q id id' : denotes q (PN id') -> String.eqb id' id = false -> text_equals (Some q) id = false.
Proof. cbn. intros ->. auto. Qed.
Lemma denotes_index_not_name q i id : denotes q (PI i) -> text_equals (Some q) id = false.
Proof. cbn. intros ->. reflexivity. Qed.

Lemma focus_here id o b p : focus_obj o p -> Forall inert b -> focus_body (map_field id o :: b) (PN id :: p).
Proof.
  intros Ho Hb path out effs Hp. inversion Hp as [|q ? path' ? Hq Hp']; subst. cbn [run]. unfold map_field, descend_map_field.
  cbn [c_completed c_type c_filtered s_path hd_error tl negb c_value s_mem s_out s_effs]. unfold console_path_match_str. cbn [hd_error]. rewrite (denotes_here _ _ Hq).
  destruct (Ho path' out effs Hp') as [effs1 Eo]. unfold nonempty in Eo. cbn [negb].
  destruct (inert_run b Hb (out ++ [e]) effs1) as [effs2 Er].
  exists effs2. destruct Ht as [E | E]; rewrite E in *; cbn [bind]; rewrite Eo; cbn [bind]; exact Er.
Qed.

Lemma focus_skip id o b id' p : String.eqb id' id = false -> focus_body b (PN id' :: p) -> focus_body (map_field id o :: b) (PN id' :: p).
Proof.
  intros Hne Hb path out effs Hp. destruct (Hb path out effs Hp) as [effs1 Er]. exists effs1. inversion Hp as [|q ? path' ? Hq Hp']; subst. cbn [run].
  unfold map_field, descend_map_field.
  cbn [c_completed c_type c_filtered s_path hd_error tl negb c_value s_mem s_out s_effs]. unfold console_path_match_str. cbn [hd_error]. rewrite (denotes_other _ _ _ Hq Hne).
  cbn [negb]. destruct Ht as [E | E]; rewrite E in *; cbn [bind]; exact Er.
Qed.

Lemma focus_switch_here (f g : stmt) b p : focus_body (g :: b) p ->
  focus_body ((fun c s => match c_type c with DESCRIBE => f c s | _ => g c s end) :: b) p.
Proof. intros H path out effs Hp. destruct (H path out effs Hp) as [effs1 E]. exists effs1. cbn [run] in *. cbn [c_type]. destruct Ht as [E' | E']; rewrite E' in *; exact E. Qed.

Lemma focus_unless type b p : focus_body b p -> focus_body (unless_structure type b) p.
Proof.
  intros H path out effs Hp. destruct (H path out effs Hp) as [effs1 E]. exists effs1. unfold unless_structure. cbn [run c_type].
  destruct Ht as [E' | E']; rewrite E' in *; rewrite E; reflexivity.
Qed.

Lemma focus_container k b p : p <> [] -> focus_body b p -> focus_obj (render_container k b) p.
Proof.
  intros Hn H path out effs Hp. destruct (H path out effs Hp) as [effs1 E]. exists effs1. unfold render_container.
  assert (Hpath : nonempty path = true) by (inversion Hp; subst; [congruence|reflexivity]). rewrite Hpath. cbn [c_filtered negb s_mem s_path s_effs].
  rewrite E. reflexivity.
Qed.

Lemma int_ok i : -2147483648 <= i < 2147483648 -> int_checked i = Some i.
Proof. intros H. unfold int_checked, HALF. change (- (2147483648)) with (-2147483648). destruct (Z.leb_spec (-2147483648) i), (Z.ltb_spec i 2147483648); try lia. reflexivity. Qed.

Lemma focus_index i o b p : -2147483648 <= i < 2147483648 -> focus_obj o p -> Forall inert b -> focus_body (array_field i o :: b) (PI i :: p).
Proof.
  intros Hi Ho Hb path out effs Hp. inversion Hp as [|q ? path' ? Hq Hp']; subst. cbn [denotes] in Hq. subst q. cbn [run]. unfold array_field, descend_array_field.
  cbn [c_completed c_type c_filtered s_path hd_error tl negb c_value s_mem s_out s_effs]. unfold console_path_match_int. rewrite (int_ok _ Hi), Z.eqb_refl.
  destruct (Ho path' out effs Hp') as [effs1 Eo]. unfold nonempty in Eo. cbn [negb].
  destruct (inert_run b Hb (out ++ [e]) effs1) as [effs2 Er].
  exists effs2. destruct Ht as [E | E]; rewrite E in *; cbn [bind]; rewrite Eo; cbn [bind]; exact Er.
Qed.

Lemma index_miss i j o path out effs : i <> j -> -2147483648 <= j < 2147483648 ->
  array_field i o (Ctx t v true false) (St m (CInt j :: path) out effs) = Ok (Ctx t v true false, St m (CInt j :: path) out effs).
Proof.
  intros Hne Hj. unfold array_field, descend_array_field. cbn [c_completed c_type c_filtered s_path negb]. unfold console_path_match_int.
  rewrite (int_ok _ Hj). destruct (Z.eqb_spec j i); [congruence|]. cbn [negb]. destruct Ht as [E | E]; rewrite E; reflexivity.
Qed.

Lemma focus_index_skip i j o b p : i <> j -> -2147483648 <= j < 2147483648 -> focus_body b (PI j :: p) -> focus_body (array_field i o :: b) (PI j :: p).
Proof.
  intros Hne Hj Hb path out effs Hp. destruct (Hb path out effs Hp) as [effs1 Er]. exists effs1. inversion Hp as [|q ? path' ? Hq Hp']; subst. cbn [denotes] in Hq. subst q.
  cbn [run]. rewrite index_miss by auto. cbn [bind]. exact Er.
Qed.

Lemma focus_loop cond (objs : Z -> obj) p j b : -2147483648 <= j < 2147483648 ->
  focus_obj (objs j) p -> (forall i, 0 <= i <= j -> cond m i = true) -> (forall i, cond m1 i = true -> i < 24) -> j < 24 -> Forall inert b ->
  forall n i, 24 - i <= Z.of_nat n -> 0 <= i <= j ->
  focus_body (loop n i cond (fun i => array_field i (objs i)) :: b) (PI j :: p).
Proof.
  intros Hj Ho Hc Hc1 Hj24 Hb. induction n as [|n IH]; intros i Hn Hi path out effs Hp; [lia|].
  inversion Hp as [|q ? path' ? Hq Hp']; subst. cbn [denotes] in Hq. subst q.
  cbn [run loop s_mem]. rewrite (Hc i Hi). cbn [negb].
  destruct (Z.eq_dec i j) as [->|Hne].
  - destruct (focus_index j (objs j) [loop n (j + 1) cond (fun i => array_field i (objs i)); run b] p Hj Ho) with (path := CInt j :: path') (out := out) (effs := effs) as [effs1 E].
    + apply Forall_cons; [|apply Forall_cons; [apply inert_run, Hb|apply Forall_nil]].
      apply inert_loop; [intros; apply inert_array_field|exact Hc1|lia|lia].
    + exact Hp.
    + exists effs1. cbn [run] in E. unfold array_field at 1 in E. unfold array_field at 1.
      destruct (descend_array_field _ j _) as [[[go c1] d] s1]. destruct go.
      * destruct (objs j d s1) as [s2|]; [|discriminate]. cbn [bind] in *. destruct (loop n (j + 1) cond _ c1 s2) as [[c3 s3]|]; [|discriminate]. cbn [bind] in *.
        destruct (run b c3 s3) as [[c4 s4]|]; [|discriminate]. exact E.
      * cbn [bind] in *. destruct (loop n (j + 1) cond _ c1 s1) as [[c3 s3]|]; [|discriminate]. cbn [bind] in *.
        destruct (run b c3 s3) as [[c4 s4]|]; [|discriminate]. exact E.
  - rewrite index_miss by auto. cbn [bind]. destruct (IH (i + 1) ltac:(lia) ltac:(lia) _ out effs Hp) as [effs1 E]. exists effs1. exact E.
Qed.

(** A list of indexed maps. *)
Lemma focus_list (bodies : Z -> list stmt) n : forall j p b, 0 <= j < Z.of_nat n -> Z.of_nat n < 1000 -> p <> [] -> focus_body (bodies j) p -> Forall inert b ->
  focus_body (map (fun i => map_array_field i (bodies i)) (upto n) ++ b) (PI j :: p).
Proof.
  induction n as [|n IH]; intros j p b Hj Hn Hp Hb Hi; [lia|]. cbn [upto]. rewrite map_app, <- app_assoc. cbn [map app].
  destruct (Z.eq_dec j (Z.of_nat n)) as [E|E].
  - assert (Hlast : focus_body (map_array_field (Z.of_nat n) (bodies (Z.of_nat n)) :: b) (PI j :: p)).
    { rewrite <- E. apply focus_index; [lia| |exact Hi]. apply focus_container; auto. }
    clear IH. assert (Hno : forall i, In i (upto n) -> i <> j).
    { clear - E. rewrite E. clear E. assert (H : forall k i, In i (upto k) -> 0 <= i < Z.of_nat k).
      { induction k as [|k IH]; cbn [upto]; [contradiction|]. intros i Hin. apply in_app_or in Hin as [Hin|[<-|[]]]; [apply IH in Hin|]; lia. }
      intros i Hin. apply H in Hin. lia. }
    revert Hno. induction (upto n) as [|i l IHl]; intros Hno; cbn [map app]; [exact Hlast|].
    apply focus_index_skip; [apply Hno; left; auto|lia|]. apply IHl. intros k Hk. apply Hno. right; auto.
  - apply IH; try lia; auto. apply Forall_cons; [apply inert_array_field|exact Hi].
Qed.

Lemma focus_test : focus_obj (render_uint32_object "Test trigger output rpm (0 to disable)" U_TestRpm) [] -> focus_body render_test [PN "test-trigger-rpm"].
Proof.
  intros Ho path out effs Hp.
  destruct (focus_here "test-trigger-rpm" _ [] [] Ho (Forall_nil _) path out effs Hp) as [effs1 E].
  inversion Hp as [|q ? path' ? Hq Hp']; subst. inversion Hp'; subst.
  unfold render_test. cbn [run]. unfold bool_map_field. unfold map_field at 1. unfold descend_map_field.
  cbn [c_completed c_type c_filtered s_path negb c_value s_mem s_out s_effs]. unfold console_path_match_str. cbn [hd_error].
  rewrite (denotes_other _ "event-logging" _ Hq) by reflexivity. cbn [negb].
  cbn [run] in E. unfold uint32_map_field in *.
  apply bind_ok in E as ([c2 s2] & E & E2). injection E2 as -> ->.
  destruct Ht as [E' | E']; rewrite E' in *; cbn [bind s_mem c_type run]; rewrite E; cbn [bind s_mem c_type run]; [eauto|]. destruct (negb _); [eexists; reflexivity|eauto].
Qed.

Lemma inert_test b : inert (fun c s =>
    let old := m_u (s_mem s) U_TestRpm in
    '(c, s) <- uint32_map_field "test-trigger-rpm" b U_TestRpm c s ;;
    let rpm := m_u (s_mem s) U_TestRpm in
    match c_type c with
    | SET => Ok (c, if negb (rpm =? old) then effect s (TestRpm rpm) else s)
    | _ => Ok (c, s)
    end).
Proof. intros out effs. cbn. destruct Ht as [E | E]; rewrite E; [eauto|]. rewrite Z.eqb_refl. cbn. eauto. Qed.

Lemma inert_knock rate : (t = SET -> knock_check rate m1 false = Ok tt /\ knock_check rate m1 true = Ok tt) ->
  inert (fun c s => match c_type c with
              | SET =>
                _ <- knock_check rate (s_mem s) false ;;
                _ <- knock_check rate (s_mem s) true ;;
                Ok (c, effect s ConfigureKnock)
              | _ => Ok (c, s)
              end).
Proof.
  intros H out effs. cbn [c_type s_mem]. destruct Ht as [E | E]; rewrite E in *; [eauto|]. destruct (H eq_refl) as [-> ->]. cbn [bind]. eexists. reflexivity.
Qed.

End NAV.

Ltac inert_all := repeat
  match goal with
  | |- Forall _ [] => apply Forall_nil
  | |- Forall _ (_ :: _) => apply Forall_cons
  | |- Forall _ (map _ _) => apply Forall_forall; let f := fresh in let H := fresh in intros f H; apply in_map_iff in H as (? & <- & _)
  | |- inert _ _ _ (map_field _ _) => apply inert_map_field
  | |- inert _ _ _ (array_field _ _) => apply inert_array_field
  | |- inert _ _ _ (fun c s => match c_type c with DESCRIBE => _ | _ => _ end) => apply inert_switch
  | |- inert _ _ _ (fun c s => _) => apply inert_test
  end.

Ltac nav := repeat
  match goal with
  | |- focus_body _ _ _ _ _ (map_field ?id _ :: _) (PN ?id :: _) => apply focus_here; [assumption| |inert_all; assumption]
  | |- focus_body _ _ _ _ _ (map_field _ _ :: _) (PN _ :: _) => apply focus_skip; [assumption|reflexivity|]
  | |- focus_body _ _ _ _ _ ((fun c s => match c_type c with DESCRIBE => _ | _ => _ end) :: _) _ => apply focus_switch_here; [assumption|]
  | |- focus_body _ _ _ _ _ (unless_structure _ _) _ => apply focus_unless; [assumption|]
  | |- focus_obj _ _ _ _ _ (render_container _ _) (_ :: _) => apply focus_container; [discriminate|]
  end.

(** *** Leaves *)

(** The settings after a leaf is rendered with this item. *)
Definition leaf_mem (t : rtype) (v : cvalue) (m : mem) (x : cell) : mem :=
  match t, x, v with
  | SET, CU p, Some (CInt z) => match int_checked z with Some z => set_u m p (w32 z) | None => m end
  | SET, CF p, Some (CFloat x) => set_f m p x
  | SET, CF p, Some (CHalf h) => set_f m p (decode_half h)
  | SET, CF p, Some (CDouble x) => set_f m p (f_of_double x)
  | SET, CF p, Some (CInt z) => set_f m p (f_of_Z (int_truncated z))
  | SET, CB p, Some (CBool b) => set_b m p b
  | SET, CE p, v => fold_left (fun m x => if text_equals v (snd x) then set_e m p (fst x) else m) (enum_names p) m
  | SET, CS p, Some (CText s) => if Z.of_nat (String.length s) <=? MAX_TABLE_TITLE_SIZE then set_s m p (c_string s) else m
  | _, _, _ => m
  end.

Lemma leaf_mem_get v m x : leaf_mem GET v m x = m.
Proof. reflexivity. Qed.
Lemma leaf_mem_n t v m x : m_n (leaf_mem t v m x) = m_n m.
Proof.
  unfold leaf_mem. destruct t; try reflexivity. destruct x; try (destruct v as [[]|]; try reflexivity).
  - destruct (int_checked z); reflexivity.
  - apply enum_set_nums.
  - apply enum_set_nums.
  - apply enum_set_nums.
  - apply enum_set_nums.
  - apply enum_set_nums.
  - apply enum_set_nums.
  - apply enum_set_nums.
  - apply enum_set_nums.
  - apply enum_set_nums.
  - apply enum_set_nums.
  - apply enum_set_nums.
  - apply enum_set_nums.
  - apply enum_set_nums.
  - apply enum_set_nums.
  - destruct (_ <=? _); reflexivity.
Qed.

Section LEAF.
Variable t : rtype.
Variable v : cvalue.
Variable m : mem.
Hypothesis Ht : t = GET \/ t = SET.

Definition focus_leaf (x : cell) (o : obj) : Prop :=
  focus_obj t v m (leaf_mem t v m x) (shown (leaf_mem t v m x) x) o [].

Lemma focus_uint d p : focus_leaf (CU p) (render_uint32_object d p).
Proof.
  intros path out effs Hp. inversion Hp; subst. exists effs. unfold render_uint32_object. cbn [nonempty c_type c_value s_mem].
  destruct Ht as [E | E]; rewrite E; [reflexivity|]. unfold leaf_mem. destruct v as [[]|]; reflexivity.
Qed.
Lemma focus_float d p : focus_leaf (CF p) (render_float_object d p).
Proof.
  intros path out effs Hp. inversion Hp; subst. exists effs. unfold render_float_object. cbn [nonempty c_type c_value s_mem].
  destruct Ht as [E | E]; rewrite E; [reflexivity|]. unfold leaf_mem. destruct v as [[]|]; reflexivity.
Qed.
Lemma focus_bool d p : focus_leaf (CB p) (render_bool_object d p).
Proof.
  intros path out effs Hp. inversion Hp; subst. exists effs. unfold render_bool_object. cbn [nonempty c_type c_value s_mem].
  destruct Ht as [E | E]; rewrite E; [reflexivity|]. unfold leaf_mem. destruct v as [[]|]; reflexivity.
Qed.
Lemma focus_string d p : focus_leaf (CS p) (render_string_object d p).
Proof.
  intros path out effs Hp. inversion Hp; subst. exists effs. unfold render_string_object. cbn [nonempty c_type c_value s_mem].
  destruct Ht as [E | E]; rewrite E; [reflexivity|]. unfold leaf_mem. destruct v as [[]|]; reflexivity.
Qed.

Lemma hits_one c k (s : st) : (match filter (fun x => k =? fst x) (enum_names c) with
  | [] => emit s ENull
  | _ => fold_left (fun s x => emit s (EText (snd x))) (filter (fun x => k =? fst x) (enum_names c)) s end) =
  emit s (match find (fun n => fst n =? k) (enum_names c) with Some n => EText (snd n) | None => ENull end).
Proof.
  destruct c; cbn [enum_names filter find fst snd]; rewrite ?(Z.eqb_sym k);
    repeat match goal with |- context[?a =? k] => destruct (Z.eqb_spec a k); [subst k; reflexivity|] end; reflexivity.
Qed.

Lemma focus_enum d p : focus_leaf (CE p) (render_enum_object d (enum_names p) p).
Proof.
  intros path out effs Hp. inversion Hp; subst. exists effs. unfold render_enum_object. cbn [nonempty c_type c_value s_mem].
  destruct Ht as [E | E]; rewrite E; rewrite hits_one; [reflexivity|]. unfold leaf_mem. destruct v as [[]|]; reflexivity.
Qed.

Lemma focus_elem i p : 0 <= i < 24 -> focus_leaf (CF p) (float_elem i p).
Proof.
  intros Hi path out effs Hp. unfold float_elem, MAX_AXIS_SIZE. destruct (Z.ltb_spec i 0), (Z.leb_spec 24 i); try lia. cbn [orb].
  apply focus_float. exact Hp.
Qed.
End LEAF.

(** *** The whole tree *)

Section TREE.
Variable rate : Z.
Variable version : string.
Variable t : rtype.
Variable v : cvalue.
Variable m : mem.
Hypothesis Ht : t = GET \/ t = SET.

Definition at_cell (x : cell) (b : list stmt) (p : list pelem) : Prop :=
  focus_body t v m (leaf_mem t v m x) (shown (leaf_mem t v m x) x) b p.

Ltac leaf := first [apply focus_uint | apply focus_float | apply focus_bool | apply focus_string
  | match goal with |- focus_obj _ _ _ _ (shown _ (CE ?c)) (render_enum_object ?d _ _) _ => exact (focus_enum t v m Ht d c) end]; assumption.
Ltac open_fields := unfold uint32_map_field, float_map_field, bool_map_field, enum_map_field, map_map_field, array_map_field, map_array_field, render_map_object, render_array_object.

Lemma in_sensors x c p : p <> [] -> at_cell c (render_sensor_object x) p -> at_cell c (console_toplevel_request rate version) (sensor_path x ++ p).
Proof.
  intros Hp H. unfold at_cell in *. destruct x; unfold sensor_path; cbn [app]; unfold console_toplevel_request; open_fields; nav;
    unfold render_sensors; cbn [map app sensor_name]; open_fields; nav; (apply focus_container; assumption).
Qed.

Lemma in_outputs i c p : 0 <= i < 16 -> p <> [] -> at_cell c (output_console_renderer i) p ->
  at_cell c (console_toplevel_request rate version) (output_path i ++ p).
Proof.
  intros Hi Hp H. unfold at_cell, output_path in *; cbn [app]; unfold console_toplevel_request; open_fields; nav.
  unfold render_outputs. rewrite <- (app_nil_r (map _ _)). apply focus_list; auto; cbn; lia.
Qed.

Lemma in_freq i c p : 0 <= i < 4 -> p <> [] -> at_cell c (render_freq_object i) p ->
  at_cell c (console_toplevel_request rate version) (freq_path i ++ p).
Proof.
  intros Hi Hp H. unfold at_cell, freq_path in *; cbn [app]; unfold console_toplevel_request; open_fields; nav.
  unfold render_freq_list. rewrite <- (app_nil_r (map _ _)). apply focus_list; auto; cbn; lia.
Qed.

Definition table_body (x : table) : list stmt := if two_axes x then render_table_2d_object x else render_table_1d_object x.
Lemma in_table x c p : p <> [] -> at_cell c (table_body x) p -> at_cell c (console_toplevel_request rate version) (table_path x ++ p).
Proof.
  intros Hp H. unfold at_cell in *. destruct x; unfold table_path; cbn [app]; unfold console_toplevel_request; open_fields; nav;
    unfold render_tables, render_boost_control; open_fields; nav; (apply focus_container; assumption).
Qed.

Lemma in_axis x a c p : (a = Rows -> two_axes x = true) -> p <> [] -> at_cell c (render_table_axis x a) p ->
  at_cell c (table_body x) (PN match a with Cols => "horizontal-axis" | Rows => "vertical-axis" end :: p).
Proof.
  intros Ha Hp H. unfold at_cell, table_body in *. destruct a.
  - destruct (two_axes x); [unfold render_table_2d_object | unfold render_table_1d_object]; open_fields; nav; (apply focus_container; assumption).
  - rewrite Ha by auto. unfold render_table_2d_object; open_fields; nav; (apply focus_container; assumption).
Qed.

Lemma at_axis_value x a i : tables_fit m -> (t = SET -> is_array v = false) -> 0 <= i < m_n m (N_Axis x a) ->
  at_cell (CF (F_AxisValue x a i)) (render_table_axis_values x a) [PI i].
Proof.
  intros Hf Hv Hi path out effs Hp. pose proof (proj1 Hf x a) as Hn. unfold render_table_axis_values.
  match goal with |- exists effs', run [?f; ?g] _ _ = _ => set (f1 := f); set (f2 := g) end.
  assert (H1 : forall s, f1 (Ctx t v true false) s = Ok (Ctx t v true false, s)).
  { intros s. unfold f1. cbn [c_type c_value]. destruct Ht as [E | E]; rewrite E; [reflexivity|]. specialize (Hv E).
    destruct v as [[]|]; try reflexivity. discriminate. }
  change (run [f1; f2]) with (fun c s => '(c, s) <- f1 c s ;; run [f2] c s). cbv beta. rewrite H1. cbn [bind].
  set (m1 := leaf_mem t v m (CF (F_AxisValue x a i))). assert (Hm1 : m_n m1 = m_n m) by apply leaf_mem_n.
  eapply (focus_loop t v m m1 _ Ht _ (fun i => float_elem i (F_AxisValue x a i)) [] i []); try lia; auto.
  - apply focus_elem; [exact Ht|lia].
  - intros k Hk. unfold MAX_AXIS_SIZE. destruct (Z.ltb_spec k (m_n m (N_Axis x a))), (Z.ltb_spec k 24); try lia; auto.
  - intros k Hk. apply andb_prop in Hk as [_ Hk]. apply Z.ltb_lt in Hk. exact Hk.
Qed.

Lemma at_row x r i : tables_fit m -> 0 <= i < m_n m (N_Axis x Cols) ->
  at_cell (CF (F_Data x r i)) (render_table_second_axis_data x r) [PI i].
Proof.
  intros Hf Hi. pose proof (proj1 Hf x Cols) as Hn. unfold at_cell, render_table_second_axis_data.
  set (m1 := leaf_mem t v m (CF (F_Data x r i))). assert (Hm1 : m_n m1 = m_n m) by apply leaf_mem_n.
  eapply (focus_loop t v m m1 _ Ht _ (fun i => float_elem i (F_Data x r i)) [] i []); try lia; auto.
  - apply focus_elem; [exact Ht|lia].
  - intros k Hk. rewrite Hm1 in Hk. apply Z.ltb_lt in Hk. lia.
Qed.

Lemma at_data x r i : tables_fit m -> exists_in m (CF (F_Data x r i)) ->
  at_cell (CF (F_Data x r i)) (table_body x) ([PN "data"] ++ (if two_axes x then [PI r; PI i] else [PI i])).
Proof.
  intros Hf Hx. unfold at_cell, table_body. cbn [exists_in] in Hx. destruct Hx as [Hr Hi]. pose proof (proj1 Hf x Cols) as Hn. pose proof (proj1 Hf x Rows) as Hn'.
  set (m1 := leaf_mem t v m (CF (F_Data x r i))). assert (Hm1 : m_n m1 = m_n m) by apply leaf_mem_n. destruct (two_axes x) eqn:E2; cbn [app].
  - unfold render_table_2d_object. open_fields. nav. unfold render_table_2d_data.
    eapply (focus_loop t v m m1 _ Ht _ (fun i c s => if (i <? 0) || (MAX_AXIS_SIZE <=? i) then Err OutOfBounds
       else render_array_object (render_table_second_axis_data x i) c s) [PI i] r []); try lia; auto.
    + intros path out effs Hp. unfold MAX_AXIS_SIZE. destruct (Z.ltb_spec r 0), (Z.leb_spec 24 r); try lia. cbn [orb].
      revert path out effs Hp. apply focus_container; [discriminate|]. apply at_row; auto.
    + intros k Hk. rewrite Hm1 in Hk. apply Z.ltb_lt in Hk. lia.
  - subst r. unfold render_table_1d_object. open_fields. nav. unfold render_table_1d_data.
    eapply (focus_loop t v m m1 _ Ht _ (fun i => float_elem i (F_Data x 0 i)) [] i []); try lia; auto.
    + apply focus_elem; [exact Ht|lia].
    + intros k Hk. rewrite Hm1 in Hk. apply Z.ltb_lt in Hk. lia.
Qed.

(** Setting a knock input's values reconfigures both inputs, which must be possible. *)
Definition knock_ok (m : mem) : Prop := knock_check rate m false = Ok tt /\ knock_check rate m true = Ok tt.

Ltac top := unfold at_cell, console_toplevel_request; open_fields; nav.

Lemma at_toplevel x : tables_fit m -> exists_in m x -> (t = SET -> knock_cell x = true -> knock_ok (leaf_mem t v m x)) ->
  (t = SET -> axis_cell x = true -> is_array v = false) ->
  at_cell x (console_toplevel_request rate version) (cell_path x).
Proof.
  intros Hf Hx Hk Ha. destruct x as [c|c|c|c|c|c].
  - destruct c; cbn [cell_path];
      try (apply in_outputs; [exact Hx|discriminate|]; unfold at_cell, output_console_renderer; open_fields; nav; leaf);
      try (apply in_sensors; [discriminate|]; unfold at_cell, render_sensor_object; open_fields; nav; leaf);
      top; try (apply focus_test; [assumption|leaf]); unfold render_decoder, render_fueling, render_ignition, render_boost_control, render_cel;
      open_fields; nav; leaf.
  - destruct c; cbn [cell_path];
      try (apply in_outputs; [exact Hx|discriminate|]; unfold at_cell, output_console_renderer; open_fields; nav; leaf);
      try (apply in_sensors; [discriminate|]; unfold at_cell, render_sensor_object; open_fields; nav; leaf);
      try (top; unfold render_decoder, render_fueling, render_ignition, render_boost_control, render_cel;
           open_fields; nav; try (unfold render_crank_enrich; open_fields; nav); leaf).
    + destruct second; unfold knock_path; cbn [app]; top; unfold render_sensors; cbn [map app sensor_name]; open_fields; nav;
        unfold render_knock_object; open_fields; (apply focus_here; [assumption|leaf|]; inert_all; apply inert_knock; [assumption|intros E; exact (Hk E eq_refl)]).
    + destruct second; unfold knock_path; cbn [app]; top; unfold render_sensors; cbn [map app sensor_name]; open_fields; nav;
        unfold render_knock_object; open_fields; (apply focus_skip; [assumption|reflexivity|]); (apply focus_here; [assumption|leaf|]; inert_all; apply inert_knock; [assumption|intros E; exact (Hk E eq_refl)]).
    + unfold axis_path. rewrite <- app_assoc. apply in_table; [discriminate|]. cbn [exists_in] in Hx. destruct Hx as [Hr Hi]. apply in_axis; [exact Hr|discriminate|].
      unfold at_cell, render_table_axis. open_fields. nav. apply at_axis_value; auto.
    + apply in_table; [discriminate|]. apply at_data; auto.
  - destruct c; cbn [cell_path].
    + apply in_outputs; [exact Hx|discriminate|]. unfold at_cell, output_console_renderer; open_fields; nav; leaf.
    + top. unfold render_test. open_fields. nav. leaf.
  - destruct c; cbn [cell_path].
    + top. unfold render_decoder. open_fields. nav. leaf.
    + apply in_outputs; [exact Hx|discriminate|]. unfold at_cell, output_console_renderer; open_fields; nav; leaf.
    + apply in_sensors; [discriminate|]. unfold at_cell, render_sensor_object; open_fields; nav; leaf.
    + apply in_sensors; [discriminate|]. unfold at_cell, render_sensor_object; open_fields; nav; leaf.
    + apply in_freq; [exact Hx|discriminate|]. unfold at_cell, render_freq_object; open_fields; nav; leaf.
    + apply in_freq; [exact Hx|discriminate|]. unfold at_cell, render_freq_object; open_fields; nav; leaf.
  - destruct c; cbn [cell_path].
    + apply in_table; [discriminate|]. unfold at_cell, table_body. destruct (two_axes t0); [unfold render_table_2d_object|unfold render_table_1d_object]; open_fields; nav; leaf.
    + unfold axis_path. rewrite <- app_assoc. apply in_table; [discriminate|]. cbn [exists_in] in Hx. apply in_axis; [exact Hx|discriminate|].
      unfold at_cell, render_table_axis. open_fields. nav. leaf.
  - contradiction.
Qed.
End TREE.
