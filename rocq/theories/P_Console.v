(** Properties of the console: C45-C49, C64. *)
Require Import ZArith List Bool String Lia.
From Verif Require Import Res Word F32 Sensors Cbor Console ConsoleSpec DecoderProofs ConsoleProofs ConsoleSafe ConsoleNav ConsoleLeaf ConsoleShape.
Import ListNotations.
Open Scope Z_scope.
Ltac Zify.zify_post_hook ::= idtac.

(** *** What a request does, by its method *)

Definition header (request : cbor) (m : mem) : st :=
  St m [] [EText "type"; EText "response"; EText "id";
           EInt (match map_find (Some request) "id" with Some (CInt z) => int_truncated z | _ => -1 end)] [].

Lemma texts_differ v a b : text_equals v a = true -> String.eqb a b = false -> text_equals v b = false.
Proof.
  unfold text_equals. destruct v as [v|]; [|discriminate]. destruct (untag v); try discriminate. intros H Hab.
  apply String.eqb_eq in H. subst s. exact Hab.
Qed.

Ltac wrong_method H := repeat match goal with
  |- context[text_equals (map_find (Some ?r) "method") ?b] => rewrite (texts_differ _ _ b H) by reflexivity end.

Lemma process_get rate version request m path : asks request "get" -> request_path request = Some path ->
  console_process_request rate version request (St m [] [] []) = console_request_get rate version path (header request m).
Proof.
  intros H Hp. unfold console_process_request, asks, request_path in *.
  destruct (map_find (Some request) "method") eqn:E; [|discriminate]. rewrite <- E in *. wrong_method H. rewrite H.
  destruct (map_find (Some request) "path") as [[]|]; try discriminate. injection Hp as ->. reflexivity.
Qed.

Lemma process_set rate version request m path v : asks request "set" -> request_path request = Some path -> request_value request = Some v ->
  console_process_request rate version request (St m [] [] []) = console_request_set rate version path (Some v) (header request m).
Proof.
  intros H Hp Hv. unfold console_process_request, asks, request_path, request_value in *.
  destruct (map_find (Some request) "method") eqn:E; [|discriminate]. rewrite <- E in *. wrong_method H. rewrite H.
  destruct (map_find (Some request) "path") as [[]|]; try discriminate. injection Hp as ->. rewrite Hv. reflexivity.
Qed.

Lemma int_truncated_small z : is_int32 z -> int_truncated z = z.
Proof.
  unfold is_int32, int_truncated, to_int, W, HALF. intros H. destruct (Z.leb_spec 0 z).
  - rewrite Z.mod_small by lia. destruct (Z.ltb_spec z 2147483648); lia.
  - rewrite (Z.mod_small (- z - 1)) by lia. destruct (Z.ltb_spec (- z - 1) 2147483648); [|lia].
    replace (- (- z - 1) - 1) with z by lia. rewrite <- (Z.mod_add z 1) by lia. rewrite Z.mod_small by lia.
    destruct (Z.ltb_spec (z + 1 * 4294967296) 2147483648); lia.
Qed.

Lemma header_id request m : is_int32 (request_id request) ->
  header request m = St m [] [EText "type"; EText "response"; EText "id"; EInt (request_id request)] [].
Proof.
  unfold header, request_id. intros H. f_equal. f_equal. f_equal. f_equal. f_equal.
  destruct (map_find (Some request) "id") as [[]|]; auto. rewrite int_truncated_small; auto.
Qed.

Lemma structure_quiet rate version s s' : console_request_structure rate version s = Ok s' -> quiet s s'.
Proof.
  unfold console_request_structure, map_map_field, render_map_object. intros E.
  apply bind_ok in E as ([c1 s1] & E1 & E). apply bind_ok in E as ([c2 s2] & E2 & E). injection E as <-.
  pose proof (quiet_map_field "response" _ (quiet_container EMap _ (quiet_toplevel rate version)) (Ctx STRUCTURE None false false) s c1 s1) as Q1.
  pose proof (quiet_map_field "types" _ (quiet_container EMap _ quiet_types) (Ctx DESCRIBE None false false) s1 c2 s2) as Q2.
  destruct Q1 as [[A1 B1] _]; [discriminate|exact E1|]. destruct Q2 as [[A2 B2] _]; [discriminate|exact E2|].
  split; cbn [report_success emit s_mem s_effs]; congruence.
Qed.
Lemma get_quiet rate version path s s' : console_request_get rate version path s = Ok s' -> quiet s s'.
Proof.
  unfold console_request_get, render_map_object. intros E. apply bind_ok in E as (s1 & E1 & E). injection E as <-.
  pose proof (quiet_container EMap _ (quiet_toplevel rate version) (Ctx GET None (nonempty path) false)
    (St (s_mem s) path (s_out s ++ [EText "response"]) (s_effs s)) s1) as Q.
  destruct Q as [A B]; [discriminate|exact E1|]. cbn [s_mem s_effs] in *. split; cbn [report_success emit s_mem s_effs]; congruence.
Qed.

(** *** C45: only set requests change the configuration *)

Theorem C45_only_set_changes rate version request m m' effs out :
  ~ asks request "set" ->
  console_process_request_raw rate version request m = Ok (m', effs, out) ->
  m' = m /\ (forall e, In e effs -> e = SaveConfig /\ asks request "flash" \/ e = Reset /\ asks request "bootloader").
Proof.
  intros Hns H. unfold console_process_request_raw in H. apply bind_ok in H as (s & E & H). injection H as <- <- _.
  assert (Hq : forall s1, quiet (header request m) s1 -> s_mem s1 = m /\ (forall e, In e (s_effs s1) ->
    e = SaveConfig /\ asks request "flash" \/ e = Reset /\ asks request "bootloader")).
  { intros s1 [A B]. split; [exact A|]. rewrite B. cbn. contradiction. }
  unfold console_process_request in E. cbv zeta in E. fold (asks request "set") in *.
  change (emit (emit (emit (emit (St m [] [] []) (EText "type")) (EText "response")) (EText "id"))
    (EInt match map_find (Some request) "id" with Some (CInt z) => int_truncated z | _ => -1 end)) with (header request m) in E.
  destruct (map_find (Some request) "method") eqn:Em; [|injection E as <-; apply Hq; split; reflexivity]. rewrite <- Em in *.
  destruct (text_equals (map_find (Some request) "method") "ping"); [injection E as <-; apply Hq; split; reflexivity|].
  destruct (text_equals (map_find (Some request) "method") "structure").
  { apply Hq, (structure_quiet rate version), E. }
  destruct (text_equals (map_find (Some request) "method") "flash") eqn:Ef.
  { injection E as <-. split; [reflexivity|]. intros e [<-|[]]. left. auto. }
  destruct (text_equals (map_find (Some request) "method") "bootloader") eqn:Eb.
  { injection E as <-. split; [reflexivity|]. intros e [<-|[]]. right. auto. }
  destruct (map_find (Some request) "path") as [[]|]; try (injection E as <-; apply Hq; split; reflexivity).
  destruct (text_equals (map_find (Some request) "method") "get") eqn:Eg.
  { apply Hq, (get_quiet rate version l), E. }
  destruct (map_find (Some request) "value"); [|injection E as <-; apply Hq; split; reflexivity].
  unfold asks in Hns. destruct (text_equals (map_find (Some request) "method") "set"); [congruence|]. injection E as <-. apply Hq; split; reflexivity.
Qed.

Theorem C45_get rate version request m m' effs out :
  asks request "get" -> console_process_request_raw rate version request m = Ok (m', effs, out) -> m' = m /\ effs = [].
Proof.
  intros Hg H. assert (Hns : ~ asks request "set"). { intros Hs. unfold asks in *. rewrite (texts_differ _ _ "set" Hg) in Hs by reflexivity. discriminate. }
  destruct (C45_only_set_changes _ _ _ _ _ _ _ Hns H) as [A B]. split; [exact A|].
  destruct effs as [|e effs]; [reflexivity|]. exfalso. destruct (B e (or_introl eq_refl)) as [[_ C]|[_ C]]; unfold asks in *;
    rewrite (texts_differ _ _ _ Hg) in C by reflexivity; discriminate.
Qed.

(** *** C46: a set request changes only what its path and value speak about *)

Theorem C46_set_confined rate version request m m' effs out path v :
  asks request "set" -> request_path request = Some path -> request_value request = Some v ->
  console_process_request_raw rate version request m = Ok (m', effs, out) ->
  forall x, ~ targets path v (cell_path x) -> read m' x = read m x.
Proof.
  intros Hs Hp Hv H x Hx. unfold console_process_request_raw in H. apply bind_ok in H as (s & E & H). injection H as <- _ _.
  rewrite (process_set _ _ _ _ _ _ Hs Hp Hv) in E. unfold console_request_set in E. apply bind_ok in E as (s1 & E1 & E). injection E as <-.
  apply (within_container EMap _ [] (within_toplevel rate version)) in E1; try reflexivity. destruct E1 as [A _].
  cbn [report_success emit s_mem s_path c_value header] in *. apply A. intros (w & rest & Ew & Er & T). injection Ew as <-. cbn [app] in Er. subst rest. auto.
Qed.

(** A path that leads nowhere changes nothing. *)
Theorem C46_nowhere rate version request m m' effs out path v :
  asks request "set" -> request_path request = Some path -> request_value request = Some v ->
  (forall x, ~ targets path v (cell_path x)) ->
  console_process_request_raw rate version request m = Ok (m', effs, out) -> forall x, read m' x = read m x.
Proof. intros Hs Hp Hv Hn H x. eapply C46_set_confined; eauto. Qed.

(** *** A concrete configuration *)

Definition sample : mem :=
  Mem (fun _ => 0) (fun _ => f_zero) (fun _ => false) (fun _ => 0) (fun _ => "x"%string)
      (fun '(N_Axis _ _) => 3).
Lemma sample_fits : tables_fit sample.
Proof. split; [intros t a; cbn; lia|intros c; cbn; lia]. Qed.

Definition set_request (path : list cbor) (v : cbor) : cbor :=
  CMap [(CText "id", CInt 7); (CText "method", CText "set"); (CText "path", CArray true path); (CText "value", v)].
Definition get_request (path : list cbor) : cbor :=
  CMap [(CText "id", CInt 7); (CText "method", CText "get"); (CText "path", CArray true path)].

(** The stricter reading, that only settings below the path change, fails: an
    array sent to a single element of an axis resizes the axis. *)
Theorem C46_strict_refuted :
  exists request m m' effs out path v x,
    asks request "set" /\ request_path request = Some path /\ request_value request = Some v /\
    console_process_request_raw 50000 "v" request m = Ok (m', effs, out) /\
    tables_fit m /\ ~ designates path (cell_path x) /\ read m' x <> read m x.
Proof.
  exists (set_request [CText "tables"; CText "dwell"; CText "horizontal-axis"; CText "values"; CInt 1] (CArray true [])), sample.
  eexists. eexists. eexists. eexists. eexists. exists (CN (N_Axis T_DWELL Cols)).
  split; [reflexivity|split; [reflexivity|split; [reflexivity|split; [vm_compute; reflexivity|split; [apply sample_fits|split]]]]].
  - cbn. intros H. inversion H as [|? ? ? ? _ H1]; subst. inversion H1 as [|? ? ? ? _ H2]; subst. inversion H2 as [|? ? ? ? _ H3]; subst.
    inversion H3 as [|? ? ? ? _ H4]; subst. inversion H4.
  - vm_compute. discriminate.
Qed.

(** *** C47: a setting holds and shows what it was set to *)

Lemma answer_fits id x : enc_size x <= 1000 -> (enc_size (answer id x) <=? RESPONSE_SIZE) = true.
Proof.
  intros H. apply Z.leb_le. unfold answer, RESPONSE_SIZE. cbn [enc_size fold_right].
  assert (Hh : forall n, head_size n <= 9). { intros n. unfold head_size. repeat destruct (_ <? _); lia. }
  pose proof (Hh (if id <? 0 then - id - 1 else id)). cbn [String.length].
  change (head_size (Z.of_nat 4)) with 1. change (head_size (Z.of_nat 8)) with 1. change (head_size (Z.of_nat 2)) with 1. change (head_size (Z.of_nat 7)) with 1. lia.
Qed.

Theorem C47_get rate version request m path x :
  tables_fit m -> exists_in m x -> asks request "get" -> request_path request = Some path -> Forall2 denotes path (cell_path x) ->
  is_int32 (request_id request) ->
  console_process_request_raw rate version request m = Ok (m, [], Some (answer (request_id request) (shown m x))).
Proof.
  intros Hf Hx Hg Hp Hd Hi. unfold console_process_request_raw. rewrite (process_get _ _ _ _ _ Hg Hp), header_id by exact Hi.
  unfold console_request_get. cbn [s_mem s_out s_effs app].
  destruct (leaf_request rate version GET None m x path
    [EText "type"; EText "response"; EText "id"; EInt (request_id request); EText "response"] []) as [effs' E]; try discriminate; auto.
  assert (effs' = []). { apply (quiet_container EMap _ (quiet_toplevel rate version)) in E; [|discriminate]. apply E. } subst effs'.
  rewrite E. cbn [bind leaf_mem report_success emit s_out s_mem s_effs app]. fold (answer (request_id request) (shown m x)).
  rewrite answer_fits; [reflexivity|]. apply shown_size, Hf.
Qed.

Theorem C47_set rate version request m path v x :
  tables_fit m -> exists_in m x -> asks request "set" -> request_path request = Some path -> request_value request = Some v ->
  Forall2 denotes path (cell_path x) -> is_int32 (request_id request) ->
  (axis_cell x = true -> is_array (Some v) = false) ->
  (knock_cell x = true -> forall second f, after_set m x v (CF (F_KnockFreq second)) = VF f -> settable rate f) ->
  exists m' effs,
    console_process_request_raw rate version request m = Ok (m', effs, Some (answer (request_id request) (shown m' x))) /\
    (forall y, read m' y = after_set m x v y) /\ tables_fit m'.
Proof.
  intros Hf Hx Hs Hp Hv Hd Hi Ha Hk. unfold console_process_request_raw. rewrite (process_set _ _ _ _ _ _ Hs Hp Hv), header_id by exact Hi.
  unfold console_request_set. cbn [s_mem s_out s_effs app].
  assert (Hx' : match x with CN _ => False | _ => True end) by (destruct x; auto).
  pose proof (leaf_set v m x Hx') as Hl. pose proof (leaf_fit SET (Some v) m x Hf) as Hfit.
  destruct (leaf_request rate version SET (Some v) m x path
    [EText "type"; EText "response"; EText "id"; EInt (request_id request); EText "response"] []) as [effs' E]; auto.
  { intros _ Hc. specialize (Hk Hc). assert (Hb : forall b, knock_check rate (leaf_mem SET (Some v) m x) b = Ok tt).
    { intros b. unfold knock_check. specialize (Hl (CF (F_KnockFreq b))). cbn [read] in Hl. symmetry in Hl. destruct (Hk b _ Hl) as [k ->]. reflexivity. }
    split; apply Hb. }
  exists (leaf_mem SET (Some v) m x), effs'. rewrite E. cbn [bind report_success emit s_out s_mem s_effs app].
  fold (answer (request_id request) (shown (leaf_mem SET (Some v) m x) x)). rewrite answer_fits; [|apply shown_size, Hfit].
  split; [reflexivity|split; [exact Hl|exact Hfit]].
Qed.

(** Setting and then getting: the response to the get equals the response to the
    set, and shows the value that was set. *)
Theorem C47_set_then_get rate version set_req get_req m path v x :
  tables_fit m -> exists_in m x ->
  asks set_req "set" -> request_path set_req = Some path -> request_value set_req = Some v -> is_int32 (request_id set_req) ->
  asks get_req "get" -> request_path get_req = Some path -> request_id get_req = request_id set_req ->
  Forall2 denotes path (cell_path x) -> (axis_cell x = true -> is_array (Some v) = false) ->
  (knock_cell x = true -> forall second f, after_set m x v (CF (F_KnockFreq second)) = VF f -> settable rate f) ->
  exists m' effs r,
    console_process_request_raw rate version set_req m = Ok (m', effs, Some r) /\
    console_process_request_raw rate version get_req m' = Ok (m', [], Some r) /\
    (forall w, accepted x v = Some w -> read m' x = w) /\
    (accepted x v = None -> forall y, read m' y = read m y).
Proof.
  intros Hf Hx Hs Hsp Hv Hi Hg Hgp Hid Hd Ha Hk.
  destruct (C47_set rate version set_req m path v x Hf Hx Hs Hsp Hv Hd Hi Ha Hk) as (m' & effs & E & Hl & Hf').
  exists m', effs, (answer (request_id set_req) (shown m' x)). split; [exact E|].
  assert (Hn : forall t a, m_n m' (N_Axis t a) = m_n m (N_Axis t a)).
  { intros t a. specialize (Hl (CN (N_Axis t a))). unfold after_set in Hl. destruct (cell_eq _ x) as [<-|]; [contradiction|]. cbn in Hl. congruence. }
  assert (Hx' : exists_in m' x).
  { destruct x as [[]|[]|[]|[]|[]|[]]; cbn [exists_in] in *; rewrite ?Hn; exact Hx. }
  split; [|split].
  - rewrite <- Hid. apply (C47_get rate version get_req m' path x); auto. rewrite Hid. exact Hi.
  - intros w Hw. specialize (Hl x). unfold after_set in Hl. rewrite Hw in Hl. destruct (cell_eq x x); [exact Hl|congruence].
  - intros Hw y. rewrite Hl. unfold after_set. rewrite Hw. destruct (cell_eq y x) as [->|]; reflexivity.
Qed.

(** Unsigned settings cannot be given values from 2^31 on. *)
Theorem C47_large_unsigned rate version request m path z c :
  tables_fit m -> exists_in m (CU c) -> asks request "set" -> request_path request = Some path -> request_value request = Some (CInt z) ->
  Forall2 denotes path (cell_path (CU c)) -> is_int32 (request_id request) -> 2147483648 <= z ->
  exists m' effs, console_process_request_raw rate version request m = Ok (m', effs, Some (answer (request_id request) (EInt (m_u m c)))) /\
    (forall y, read m' y = read m y).
Proof.
  intros Hf Hx Hs Hp Hv Hd Hi Hz.
  destruct (C47_set rate version request m path (CInt z) (CU c) Hf Hx Hs Hp Hv Hd Hi) as (m' & effs & E & Hl & _); try discriminate.
  assert (Hy : forall y, read m' y = read m y).
  { intros y. rewrite Hl. unfold after_set. cbn [accepted]. destruct (Z.ltb_spec z 2147483648); [lia|]. rewrite Bool.andb_false_r.
    destruct (cell_eq y (CU c)) as [->|]; reflexivity. }
  exists m', effs. split; [|exact Hy]. rewrite E. cbn [shown]. specialize (Hy (CU c)). cbn [read] in Hy. injection Hy as ->. reflexivity.
Qed.

(* The dwell table's second value, and its sizes, in a configuration with three columns. *)
Definition dwell_path : list cbor := [CText "tables"; CText "dwell"; CText "data"; CInt 1].
Example C47_example :
  tables_fit sample /\ exists_in sample (CF (F_Data T_DWELL 0 1)) /\ Forall2 denotes dwell_path (cell_path (CF (F_Data T_DWELL 0 1))) /\
  asks (set_request dwell_path (CFloat (f_of_Z 3))) "set" /\ is_int32 (request_id (set_request dwell_path (CFloat (f_of_Z 3)))) /\
  accepted (CF (F_Data T_DWELL 0 1)) (CFloat (f_of_Z 3)) = Some (VF (f_of_Z 3)) /\
  match console_process_request_raw 50000 "v" (set_request dwell_path (CFloat (f_of_Z 3))) sample with
  | Ok (m', [], Some r) => r = answer 7 (EFloat (f_of_Z 3)) /\ m_f m' (F_Data T_DWELL 0 1) = f_of_Z 3 /\ m_f m' (F_Data T_DWELL 0 2) = f_zero
  | _ => False
  end.
Proof.
  split; [apply sample_fits|]. split; [cbn; lia|]. split; [repeat constructor|]. split; [reflexivity|]. split; [unfold is_int32; cbn; lia|].
  split; [reflexivity|]. vm_compute. auto.
Qed.

(* A knock frequency of 7 kHz can be set. *)
Example C47_knock_example : settable 50000 (f_of_Z 7000).
Proof. eexists. vm_compute. reflexivity. Qed.

(** *** C48: tables stay within their storage *)

(** Serving a sequence of requests. *)
Fixpoint serve (rate : Z) (version : string) (requests : list cbor) (m : mem) : res mem :=
  match requests with
  | [] => Ok m
  | r :: requests => '(m, _, _) <- console_process_request_raw rate version r m ;; serve rate version requests m
  end.

Lemma raw_safe rate version request m : tables_fit m ->
  match console_process_request_raw rate version request m with
  | Ok (m', _, _) => tables_fit m'
  | Err e => e = FloatToInt /\ asks request "set"
  end.
Proof.
  intros Hf. unfold console_process_request_raw.
  assert (H : match console_process_request rate version request (St m [] [] []) with
    | Ok s => tables_fit (s_mem s) | Err e => e = FloatToInt /\ asks request "set" end).
  2: { destruct (console_process_request rate version request (St m [] [] [])); exact H. }
  unfold console_process_request. cbv zeta.
  match goal with |- context[emit (emit ?s (EText "id")) ?e] => set (h := emit (emit s (EText "id")) e) end.
  assert (Hh : tables_fit (s_mem h)) by exact Hf. clearbody h.
  destruct (map_find (Some request) "method") eqn:Em; [|exact Hh]. rewrite <- Em in *.
  destruct (text_equals (map_find (Some request) "method") "ping"); [exact Hh|].
  destruct (text_equals (map_find (Some request) "method") "structure").
  { unfold console_request_structure, map_map_field, render_map_object.
    pose proof (safe_map_field "response" _ (safe_container EMap _ (safe_toplevel rate version)) (Ctx STRUCTURE None false false) h Hh) as Q1.
    destruct (map_field "response" _ _ h) as [[c1 s1]|e]; cbn [bind]; [|destruct Q1; discriminate]. destruct Q1 as [_ Q1].
    pose proof (safe_map_field "types" _ (safe_container (bad := knock_only) EMap _ safe_types) (Ctx DESCRIBE None false false) s1 Q1) as Q2.
    destruct (map_field "types" _ _ s1) as [[c2 s2]|e]; cbn [bind]; [|destruct Q2; discriminate]. exact (proj2 Q2). }
  destruct (text_equals (map_find (Some request) "method") "flash"); [exact Hh|].
  destruct (text_equals (map_find (Some request) "method") "bootloader"); [exact Hh|].
  destruct (map_find (Some request) "path") as [[]|]; try exact Hh.
  destruct (text_equals (map_find (Some request) "method") "get").
  { unfold console_request_get, render_map_object.
    pose proof (safe_container EMap _ (safe_toplevel rate version) (Ctx GET None (nonempty l) false)
      (St (s_mem h) l (s_out h ++ [EText "response"]) (s_effs h)) Hh) as Q.
    destruct (render_container EMap _ _ _) as [s1|e]; cbn [bind]; [exact Q|destruct Q; discriminate]. }
  destruct (map_find (Some request) "value") as [v|]; [|exact Hh].
  destruct (text_equals (map_find (Some request) "method") "set") eqn:Es; [|exact Hh].
  unfold console_request_set, render_map_object.
  pose proof (safe_container EMap _ (safe_toplevel rate version) (Ctx SET (Some v) (nonempty l) false)
      (St (s_mem h) l (s_out h ++ [EText "response"]) (s_effs h)) Hh) as Q.
  destruct (render_container EMap _ _ _) as [s1|e]; cbn [bind]; [exact Q|]. destruct Q. split; auto.
Qed.

Theorem C48_within_storage rate version requests : forall m, tables_fit m ->
  match serve rate version requests m with
  | Ok m' => tables_fit m'
  | Err e => e = FloatToInt
  end.
Proof.
  induction requests as [|r requests IH]; intros m Hf; cbn [serve]; [exact Hf|].
  pose proof (raw_safe rate version r m Hf) as H. destruct (console_process_request_raw rate version r m) as [[[m1 effs] out]|e]; cbn [bind].
  - apply IH, H.
  - apply H.
Qed.

(** Requests other than set are always carried out. *)
Theorem C48_others_total rate version request m : tables_fit m -> ~ asks request "set" ->
  exists effs out, console_process_request_raw rate version request m = Ok (m, effs, out).
Proof.
  intros Hf Hn. pose proof (raw_safe rate version request m Hf) as H.
  destruct (console_process_request_raw rate version request m) as [[[m1 effs] out]|e] eqn:E; [|destruct H; contradiction].
  destruct (C45_only_set_changes _ _ _ _ _ _ _ Hn E) as [-> _]. eauto.
Qed.

(* An array of 30 values for an axis of 3: the axis grows to 24. *)
Definition long_axis : cbor := set_request [CText "tables"; CText "ve"; CText "vertical-axis"; CText "values"] (CArray true (map CInt (upto 30))).
Example C48_example : tables_fit sample /\
  match serve 50000 "v" [long_axis; get_request [CText "tables"; CText "ve"; CText "data"; CInt 23; CInt 2]] sample with
  | Ok m => m_n m (N_Axis T_VE Rows) = 24 /\ m_n m (N_Axis T_VE Cols) = 3 /\ m_f m (F_AxisValue T_VE Rows 23) = f_of_Z 23 /\
            m_f m (F_AxisValue T_VE Rows 24) = f_zero
  | Err _ => False
  end.
Proof. split; [apply sample_fits|]. vm_compute. auto. Qed.

(** *** C64: undefined behaviour through the knock frequency *)

Theorem C64_undefined_refuted : exists request m, tables_fit m /\
  (forall b, settable 50000 (m_f m (F_KnockFreq b))) /\
  console_process_request_raw 50000 "v" request m = Err FloatToInt.
Proof.
  exists (set_request [CText "sensors"; CText "knock1"; CText "frequency"] (CFloat (fneg (f_of_Z 5000)))), sample.
  split; [apply sample_fits|]. split; [intros b; eexists; vm_compute; reflexivity|vm_compute; reflexivity].
Qed.

(** *** C49: responses *)

Definition known_method (request : cbor) : Prop :=
  exists name, In name ["ping"; "structure"; "flash"; "bootloader"; "get"; "set"]%string /\ asks request name.

Definition proper (request : cbor) (l : list enc) : Prop :=
  exists tail ok, l = [EText "type"; EText "response"; EText "id";
      EInt (match map_find (Some request) "id" with Some (CInt z) => int_truncated z | _ => -1 end)] ++ tail ++ [EText "success"; EBool ok] /\
    pairs tail /\ key_count "type" tail = 0%nat /\ key_count "id" tail = 0%nat /\ key_count "success" tail = 0%nat.

Lemma okc_open t v : okc (Ctx t v false false).
Proof. split; [discriminate|reflexivity]. Qed.

Lemma open_field id o t s c' s' : t = STRUCTURE \/ t = DESCRIBE -> one_obj o -> map_field id o (Ctx t None false false) s = Ok (c', s') ->
  exists x, s_out s' = s_out s ++ [EText id; x] /\ wf x.
Proof.
  intros Ht Ho H. unfold map_field, descend_map_field in H.
  destruct Ht as [-> | ->]; cbn [c_completed c_type] in H; apply bind_ok in H as (s2 & E & H); injection H as <- <-;
    (apply Ho in E as (x & A & B); [|reflexivity|apply okc_open]); exists x; rewrite A; cbn [emit s_out]; rewrite <- app_assoc; auto.
Qed.

Lemma structure_out rate version s s' : console_request_structure rate version s = Ok s' ->
  exists x y, s_out s' = s_out s ++ [EText "response"; x; EText "types"; y] ++ [EText "success"; EBool true] /\ wf x /\ wf y.
Proof.
  unfold console_request_structure, map_map_field. intros E.
  apply bind_ok in E as ([c1 s1] & F1 & E). apply bind_ok in E as ([c2 s2] & F2 & E). injection E as <-.
  pose proof (open_field "response" _ STRUCTURE s c1 s1 (or_introl eq_refl) (one_map _ (shape_toplevel rate version)) F1) as (x & A1 & B1).
  pose proof (open_field "types" _ DESCRIBE s1 c2 s2 (or_intror eq_refl) (one_map _ shape_types) F2) as (y & A2 & B2).
  exists x, y. cbn [report_success emit s_out]. rewrite A2, A1, <- !app_assoc. auto.
Qed.

Lemma getset_out rate version t v path s s1 : t = GET \/ t = SET ->
  render_map_object (console_toplevel_request rate version) (Ctx t v (nonempty path) false)
      (St (s_mem s) path (s_out s ++ [EText "response"]) (s_effs s)) = Ok s1 ->
  exists x, s_out (report_success s1 true) = s_out s ++ [EText "response"; x] ++ [EText "success"; EBool true] /\ wf x.
Proof.
  intros Ht F.
  pose proof (one_map _ (shape_toplevel rate version) (Ctx t v (nonempty path) false) (St (s_mem s) path (s_out s ++ [EText "response"]) (s_effs s)) s1
    eq_refl (conj (fun _ => Ht) (fun _ => eq_refl)) F) as (x & A & B).
  exists x. cbn [report_success emit s_out] in *. rewrite A, <- !app_assoc. auto.
Qed.
Lemma get_out rate version path s s' : console_request_get rate version path s = Ok s' ->
  exists x, s_out s' = s_out s ++ [EText "response"; x] ++ [EText "success"; EBool true] /\ wf x.
Proof.
  unfold console_request_get. intros E. apply bind_ok in E as (s1 & F & E). injection E as <-.
  exact (getset_out rate version GET None path s s1 (or_introl eq_refl) F).
Qed.
Lemma set_out rate version path v s s' : console_request_set rate version path v s = Ok s' ->
  exists x, s_out s' = s_out s ++ [EText "response"; x] ++ [EText "success"; EBool true] /\ wf x.
Proof.
  unfold console_request_set. intros E. apply bind_ok in E as (s1 & F & E). injection E as <-.
  exact (getset_out rate version SET v path s s1 (or_intror eq_refl) F).
Qed.

Lemma process_proper rate version request m s : known_method request ->
  console_process_request rate version request (St m [] [] []) = Ok s -> proper request (s_out s).
Proof.
  intros Hk. unfold console_process_request. cbv zeta.
  match goal with |- context[emit (emit ?s (EText "id")) ?e] => set (h := emit (emit s (EText "id")) e) end.
  assert (Hh : s_out h = [EText "type"; EText "response"; EText "id";
      EInt (match map_find (Some request) "id" with Some (CInt z) => int_truncated z | _ => -1 end)]) by reflexivity.
  clearbody h.
  assert (Hend : forall tail ok, s_out s = s_out h ++ tail ++ [EText "success"; EBool ok] -> pairs tail ->
    key_count "type" tail = 0%nat -> key_count "id" tail = 0%nat -> key_count "success" tail = 0%nat -> proper request (s_out s)).
  { intros tail ok E A B C D. exists tail, ok. rewrite <- Hh. auto. }
  assert (Herr : forall msg, s = report_parsing_error h msg -> proper request (s_out s)).
  { intros msg ->. apply (Hend [EText "error"; EText msg] false); try reflexivity.
    - cbn [report_parsing_error report_success emit s_out]. now rewrite <- !app_assoc.
    - repeat constructor. }
  destruct (map_find (Some request) "method") eqn:Em; [|destruct Hk as (n & _ & H); unfold asks in H; rewrite Em in H; discriminate].
  rewrite <- Em in *.
  destruct (text_equals (map_find (Some request) "method") "ping") eqn:E1.
  { intros [= <-]. apply (Hend [EText "response"; EText "pong"] true); try reflexivity.
    - cbn [console_request_ping report_success emit s_out]. now rewrite <- !app_assoc.
    - repeat constructor. }
  destruct (text_equals (map_find (Some request) "method") "structure") eqn:E2.
  { intros E. destruct (structure_out rate version h s E) as (x & y & A & B1 & B2).
    apply (Hend [EText "response"; x; EText "types"; y] true); try reflexivity; auto. repeat constructor; auto. }
  destruct (text_equals (map_find (Some request) "method") "flash") eqn:E3.
  { intros [= <-]. apply (Hend [] true); try reflexivity.
    - cbn [console_request_flash effect report_success emit s_out]. now rewrite <- !app_assoc.
    - constructor. }
  destruct (text_equals (map_find (Some request) "method") "bootloader") eqn:E4.
  { intros [= <-]. apply (Hend [] true); try reflexivity.
    - cbn [console_request_bootloader effect report_success emit s_out]. now rewrite <- !app_assoc.
    - constructor. }
  destruct (map_find (Some request) "path") as [[]|]; try (intros [= <-]; eapply Herr; reflexivity).
  destruct (text_equals (map_find (Some request) "method") "get") eqn:E5.
  { intros E. destruct (get_out rate version l h s E) as (x & A & B).
    apply (Hend [EText "response"; x] true); try reflexivity; auto. repeat constructor; auto. }
  destruct (map_find (Some request) "value") as [v|]; [|intros [= <-]; eapply Herr; reflexivity].
  destruct (text_equals (map_find (Some request) "method") "set") eqn:E6.
  { intros E. destruct (set_out rate version l (Some v) h s E) as (x & A & B).
    apply (Hend [EText "response"; x] true); try reflexivity; auto. repeat constructor; auto. }
  exfalso. destruct Hk as (n & Hn & H). unfold asks in H. cbn in Hn. repeat (destruct Hn as [<-|Hn]; [congruence|]). contradiction.
Qed.

Lemma key_count_app k a : forall b, pairs a -> key_count k (a ++ b) = (key_count k a + key_count k b)%nat.
Proof. intros b Ha. induction Ha as [|k' x a Hx Ha IH] using pairs_ind; cbn [app key_count]; [reflexivity|]. rewrite IH. lia. Qed.

Theorem C49_response rate version request m m' effs r : known_method request ->
  console_process_request_raw rate version request m = Ok (m', effs, Some r) ->
  exists l, r = EMap l /\ pairs l /\ key_value "type" l = Some (EText "response") /\
    (is_int32 (request_id request) -> key_value "id" l = Some (EInt (request_id request))) /\
    key_count "type" l = 1%nat /\ key_count "id" l = 1%nat /\ key_count "success" l = 1%nat /\ wf r.
Proof.
  intros Hk H. unfold console_process_request_raw in H. apply bind_ok in H as (s & E & H).
  destruct (enc_size (EMap (s_out s)) <=? RESPONSE_SIZE); [|discriminate]. injection H as _ _ <-.
  destruct (process_proper _ _ _ _ _ Hk E) as (tail & ok & El & Ht & A & B & C).
  assert (Hend : pairs [EText "success"; EBool ok]) by (repeat constructor).
  assert (Hp : pairs (s_out s)). { rewrite El. apply pairs_app; [repeat constructor|apply pairs_app; auto]. }
  exists (s_out s). split; [reflexivity|split; [exact Hp|]].
  split; [rewrite El; reflexivity|]. split.
  { intros Hi. rewrite El. unfold request_id in *. destruct (map_find (Some request) "id") as [[]|]; try reflexivity.
    rewrite int_truncated_small; [reflexivity|exact Hi]. }
  rewrite El. rewrite !key_count_app by (auto; repeat constructor). rewrite A, B, C.
  split; [reflexivity|split; [reflexivity|split; [reflexivity|]]]. rewrite <- El. constructor. exact Hp.
Qed.

(* A set request with a path that leads nowhere. *)
Example C49_example : known_method (set_request [CText "nowhere"] CNull) /\
  match console_process_request_raw 50000 "v" (set_request [CText "nowhere"] CNull) sample with
  | Ok (_, [], Some r) => r = answer 7 ENull
  | _ => False
  end.
Proof. split; [exists "set"%string; split; [cbn; tauto|reflexivity]|]. vm_compute. reflexivity. Qed.

(** Without a known method it fails: no method, two success fields; another method
    with a path and a value, none; and a response longer than the buffer is not
    sent at all. *)
Theorem C49_no_method_refuted : exists m' effs l,
  console_process_request_raw 50000 "v" (CMap [(CText "id", CInt 7)]) sample = Ok (m', effs, Some (EMap l)) /\ key_count "success" l = 2%nat.
Proof. eexists. eexists. eexists. split; vm_compute; reflexivity. Qed.

Theorem C49_unknown_method_refuted : exists m' effs l,
  console_process_request_raw 50000 "v"
    (CMap [(CText "id", CInt 7); (CText "method", CText "update"); (CText "path", CArray true []); (CText "value", CNull)]) sample =
    Ok (m', effs, Some (EMap l)) /\ key_count "success" l = 0%nat.
Proof. eexists. eexists. eexists. split; vm_compute; reflexivity. Qed.

Definition full_tables : mem :=
  Mem (fun _ => 0) (fun _ => f_zero) (fun _ => false) (fun _ => 0) (fun _ => "x"%string) (fun '(N_Axis _ _) => 24).
Theorem C49_too_long_refuted : tables_fit full_tables /\ known_method (get_request [CText "tables"]) /\ exists m' effs,
  console_process_request_raw 50000 "v" (get_request [CText "tables"]) full_tables = Ok (m', effs, None).
Proof.
  split; [split; [intros t a; cbn; lia|intros c; cbn; lia]|]. split; [exists "get"%string; split; [cbn; tauto|reflexivity]|].
  eexists. eexists. vm_compute. reflexivity.
Qed.

Print Assumptions C45_only_set_changes.
Print Assumptions C45_get.
Print Assumptions C46_set_confined.
Print Assumptions C46_nowhere.
Print Assumptions C46_strict_refuted.
Print Assumptions C47_get.
Print Assumptions C47_set.
Print Assumptions C47_set_then_get.
Print Assumptions C47_large_unsigned.
Print Assumptions C48_within_storage.
Print Assumptions C48_others_total.
Print Assumptions C64_undefined_refuted.
Print Assumptions C49_response.
Print Assumptions C49_no_method_refuted.
Print Assumptions C49_unknown_method_refuted.
Print Assumptions C49_too_long_refuted.
