(** Requests about a single setting. *)
Require Import ZArith List Bool String Lia.
From Verif Require Import Res Word F32 Sensors Cbor Console ConsoleSpec DecoderProofs ConsoleProofs ConsoleSafe ConsoleNav.
Import ListNotations.
Open Scope Z_scope.
Ltac Zify.zify_post_hook ::= idtac.

Lemma enum_one v c m :
  fold_left (fun m x => if text_equals (Some v) (snd x) then set_e m c (fst x) else m) (enum_names c) m =
  match find (fun n => text_equals (Some v) (snd n)) (enum_names c) with Some n => set_e m c (fst n) | None => m end.
Proof.
  unfold text_equals. destruct (untag v); try (destruct c; reflexivity).
  destruct c; cbn [enum_names fold_left find fst snd];
    repeat match goal with |- context[String.eqb s ?a] => destruct (String.eqb_spec s a); [subst s; reflexivity|] end; reflexivity.
Qed.

Lemma leaf_set v m x : (match x with CN _ => False | _ => True end) ->
  forall y, read (leaf_mem SET (Some v) m x) y =
    if cell_eq y x then match accepted x v with Some w => w | None => read m x end else read m y.
Proof.
  intros Hx y. destruct x as [c|c|c|c|c|c]; [| | | | |contradiction].
  - unfold leaf_mem, accepted. destruct v; try (destruct (cell_eq y (CU c)) as [->|]; reflexivity).
    unfold int_checked, HALF. change (- (2147483648)) with (-2147483648).
    destruct ((-2147483648 <=? z) && (z <? 2147483648)); [|destruct (cell_eq y (CU c)) as [->|]; reflexivity].
    destruct (cell_eq y (CU c)) as [->|Hne].
    + cbn. unfold upd. destruct (ucell_eq c c); [reflexivity|congruence].
    + destruct y; try reflexivity. cbn. unfold upd. destruct (ucell_eq c0 c); [congruence|reflexivity].
  - assert (Hw : forall w, read (set_f m c w) y = if cell_eq y (CF c) then VF w else read m y).
    { intros w. destruct (cell_eq y (CF c)) as [->|Hne].
      - cbn. unfold upd. destruct (fcell_eq c c); [reflexivity|congruence].
      - destruct y; try reflexivity. cbn. unfold upd. destruct (fcell_eq c0 c); [congruence|reflexivity]. }
    unfold leaf_mem, accepted. destruct v; try (destruct (cell_eq y (CF c)) as [->|]; reflexivity); apply Hw.
  - unfold leaf_mem, accepted. destruct v; try (destruct (cell_eq y (CB c)) as [->|]; reflexivity).
    destruct (cell_eq y (CB c)) as [->|Hne].
    + cbn. unfold upd. destruct (bcell_eq c c); [reflexivity|congruence].
    + destruct y; try reflexivity. cbn. unfold upd. destruct (bcell_eq c0 c); [congruence|reflexivity].
  - assert (E : leaf_mem SET (Some v) m (CE c) = match find (fun n => text_equals (Some v) (snd n)) (enum_names c) with Some n => set_e m c (fst n) | None => m end).
    { rewrite <- enum_one. unfold leaf_mem. destruct v; reflexivity. }
    assert (E2 : accepted (CE c) v = match find (fun n => text_equals (Some v) (snd n)) (enum_names c) with Some n => Some (VE (fst n)) | None => None end)
      by (destruct v; reflexivity).
    rewrite E, E2. destruct (find _ (enum_names c)) as [n|]; [|destruct (cell_eq y (CE c)) as [->|]; reflexivity].
    destruct (cell_eq y (CE c)) as [->|Hne].
    + cbn. unfold upd. destruct (ecell_eq c c); [reflexivity|congruence].
    + destruct y; try reflexivity. cbn. unfold upd. destruct (ecell_eq c0 c); [congruence|reflexivity].
  - unfold leaf_mem, accepted, MAX_TABLE_TITLE_SIZE. destruct v; try (destruct (cell_eq y (CS c)) as [->|]; reflexivity).
    destruct (Z.of_nat (String.length s) <=? 24); [|destruct (cell_eq y (CS c)) as [->|]; reflexivity].
    destruct (cell_eq y (CS c)) as [->|Hne].
    + cbn. unfold upd. destruct (scell_eq c c); [reflexivity|congruence].
    + destruct y; try reflexivity. cbn. unfold upd. destruct (scell_eq c0 c); [congruence|reflexivity].
Qed.

Lemma leaf_fit t v m x : tables_fit m -> tables_fit (leaf_mem t v m x).
Proof.
  intros H. split; [rewrite leaf_mem_n; apply H|]. intros c. unfold leaf_mem. destruct t; try apply H. destruct x; try (destruct v as [[]|]; apply H).
  - destruct v as [[]|]; try apply H. destruct (int_checked z); apply H.
  - destruct v as [v|]; [|]; rewrite enum_set_strings; apply H.
  - destruct v as [[]|]; try apply H. unfold MAX_TABLE_TITLE_SIZE. destruct (Z.leb_spec (Z.of_nat (String.length s)) 24) as [Hl|Hl]; [|apply H].
    cbn. unfold upd. destruct (scell_eq c c0); [|apply H]. pose proof (c_string_length s). lia.
Qed.

Lemma find_name_in c k n : find (fun n => fst n =? k) (enum_names c) = Some n -> Z.of_nat (String.length (snd n)) <= 24.
Proof.
  intros H. apply find_some in H as [H _]. destruct c; cbn in H; repeat (destruct H as [<-|H]; [cbn; lia|]); contradiction.
Qed.

Lemma shown_size m x : tables_fit m -> enc_size (shown m x) <= 1000.
Proof.
  intros [_ H]. assert (Hh : forall n, head_size n <= 9). { intros n. unfold head_size. repeat destruct (_ <? _); lia. }
  destruct x; cbn [shown enc_size]; try lia.
  - pose proof (Hh (if m_u m c <? 0 then - m_u m c - 1 else m_u m c)). lia.
  - destruct (find _ _) as [n|] eqn:E; cbn [enc_size]; [|lia]. pose proof (find_name_in _ _ _ E). pose proof (Hh (Z.of_nat (String.length (snd n)))). lia.
  - pose proof (Hh (Z.of_nat (String.length (m_s m c)))). specialize (H c). lia.
Qed.

(** The leaf's path is never empty, so the request is filtered. *)
Lemma cell_path_nonempty x : cell_path x <> [].
Proof.
  destruct x as [[]|[]|[]|[]|[]|[]]; cbn [cell_path]; unfold output_path, sensor_path, freq_path, axis_path, knock_path; cbn [app]; try discriminate;
    intros H; apply (f_equal (@List.length pelem)) in H; rewrite ?app_length in H; cbn in H; lia.
Qed.

Lemma leaf_request rate version t v m x path out effs : (t = GET \/ t = SET) -> tables_fit m -> exists_in m x ->
  (t = SET -> knock_cell x = true -> knock_ok rate (leaf_mem t v m x)) -> (t = SET -> axis_cell x = true -> is_array v = false) ->
  Forall2 denotes path (cell_path x) ->
  exists effs', render_map_object (console_toplevel_request rate version) (Ctx t v (nonempty path) false) (St m path out effs) =
    Ok (St (leaf_mem t v m x) [] (out ++ [shown (leaf_mem t v m x) x]) effs').
Proof.
  intros Ht Hf Hx Hk Ha Hp. pose proof (at_toplevel rate version t v m Ht x Hf Hx Hk Ha) as H.
  exact (focus_container t v m _ _ EMap (console_toplevel_request rate version) (cell_path x) (cell_path_nonempty x) H path out effs Hp).
Qed.
