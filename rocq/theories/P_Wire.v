(** C82 and C83: the stream of messages the device sends. *)
Require Import ZArith String List Bool Lia.
Require Import Coq.Floats.SpecFloat.
From Verif Require Import Res Word F32 Sensors Calc Decoder Cbor Console ConsoleSpec ConsoleProofs ConsoleShape DecoderProofs TimeProofs
  EventLog EventLogSpec EventLogProofs P_EventLog P_Console Wire WireSpec WireProofs ConsoleFine.
Import ListNotations.
Open Scope Z_scope.
Ltac Zify.zify_post_hook ::= idtac.

(** ** Responses *)
Lemma request_pairs rate version request s s' : console_process_request rate version request s = Ok s' ->
  exists tail, s_out s' = s_out s ++ [EText "type"; EText "response"] ++ tail /\ pairs tail.
Proof.
  unfold console_process_request. cbv zeta.
  set (id := match map_find (Some request) "id" with Some (CInt z) => int_truncated z | _ => -1 end).
  assert (K : forall x y, pairs y -> x = s_out (emit (emit (emit (emit s (EText "type")) (EText "response")) (EText "id")) (EInt id)) ++ y ->
     exists tail, x = s_out s ++ [EText "type"; EText "response"] ++ tail /\ pairs tail).
  { intros x y Hy ->. exists ([EText "id"; EInt id] ++ y). cbn [emit s_out]. rewrite <- !app_assoc. split; [reflexivity|].
    cbn [app]. constructor; [constructor|exact Hy]. }
  set (s2 := emit (emit (emit (emit s (EText "type")) (EText "response")) (EText "id")) (EInt id)) in *. clearbody s2. clear id.
  assert (Herr : forall m, exists tail, s_out (report_parsing_error s2 m) = s_out s ++ [EText "type"; EText "response"] ++ tail /\ pairs tail).
  { intros m. eapply K; [|cbn [report_parsing_error report_success emit s_out]; rewrite <- !app_assoc; reflexivity]. cbn [app]. repeat constructor. }
  destruct (map_find (Some request) "method") as [mt|].
  2:{ intros [= <-]. eapply K; [|cbn [report_parsing_error report_success emit s_out]; rewrite <- !app_assoc; reflexivity]. cbn [app]. repeat constructor. }
  destruct (text_equals (Some mt) "ping").
  { intros [= <-]. eapply K; [|cbn [console_request_ping report_success emit s_out]; rewrite <- !app_assoc; reflexivity]. cbn [app]. repeat constructor. }
  destruct (text_equals (Some mt) "structure").
  { intros E. destruct (structure_out rate version _ _ E) as (x & y & A & B & C). eapply K; [|exact A]. cbn [app]. repeat constructor; auto. }
  destruct (text_equals (Some mt) "flash").
  { intros [= <-]. eapply K; [|cbn [console_request_flash effect report_success emit s_out]; rewrite <- !app_assoc; reflexivity]. cbn [app]. repeat constructor. }
  destruct (text_equals (Some mt) "bootloader").
  { intros [= <-]. eapply K; [|cbn [console_request_bootloader effect report_success emit s_out]; rewrite <- !app_assoc; reflexivity]. cbn [app]. repeat constructor. }
  destruct (map_find (Some request) "path") as [[]|]; try (intros [= <-]; apply Herr).
  destruct (text_equals (Some mt) "get").
  { intros E. destruct (get_out rate version _ _ _ E) as (x & A & B). eapply K; [|exact A]. cbn [app]. repeat constructor; auto. }
  destruct (map_find (Some request) "value") as [v|]; [|intros [= <-]; apply Herr].
  destruct (text_equals (Some mt) "set").
  { intros E. destruct (set_out rate version _ _ _ _ E) as (x & A & B). eapply K; [|exact A]. cbn [app]. repeat constructor; auto. }
  intros [= <-]. eapply (K _ []); [constructor|now rewrite app_nil_r].
Qed.

(** A message: a map that says what it is, within the buffer. *)
Definition message (e : enc) : Prop := ConsoleSpec.wf e /\ fine e /\ enc_size e <= 16384 /\
  exists t l, meaning e = DMap ((DText "type", DText t) :: l) /\ In t ["response"; "event"; "description"; "feed"]%string.

Lemma response_message rate version request m m' effs r : settings_fit m -> floats_fit request ->
  console_process_request_raw rate version request m = Ok (m', effs, Some r) -> settings_fit m' /\ message r.
Proof.
  intros Hm Hr H. unfold console_process_request_raw in H. apply bind_ok in H as (s & E & H).
  pose proof (request_neat rate version request (St m [] [] []) s Hr (conj Hm (Forall_nil _)) E) as [N1 N2].
  apply request_pairs in E as (tail & Et & Ht). cbn [s_out app] in Et.
  destruct (Z.leb_spec (enc_size (EMap (s_out s))) RESPONSE_SIZE) as [Hl|Hl]; [|discriminate]. injection H as <- _ <-.
  split; [exact N1|]. split; [|split; [|split; [exact Hl|]]].
  - constructor. rewrite Et. constructor; [constructor|exact Ht].
  - cbn [fine]. now apply fine_list.
  - exists "response"%string, (pairs_of (map meaning tail)). split; [|now left].
    cbn [meaning]. rewrite Et. reflexivity.
Qed.

Lemma u32_size z : u32 z -> 0 <= enc_size (EInt z) <= 5.
Proof.
  intros H. split; [apply size_pos|]. unfold u32 in H. cbn [enc_size]. destruct (Z.ltb_spec z 0); [lia|]. unfold head_size, W.
  change (2 ^ 32) with 4294967296 in H. destruct (z <? 24); [lia|]. destruct (z <? 256); [lia|]. destruct (z <? 65536); [lia|].
  destruct (Z.ltb_spec z 4294967296); lia.
Qed.

(** ** Events *)
Definition numbered_fits (ev : logged) : Prop := event_fits ev /\ u32 (lg_seq ev).
Lemma event_message ev : numbered_fits ev ->
  message (console_event_message ev) /\ meaning (console_event_message ev) = event_data (lg_seq ev) ev.
Proof.
  intros ((Ht & Hk & Hv) & Hq). unfold event_data.
  assert (Hs : lg_seq ev mod 2 ^ 32 = lg_seq ev) by (apply Z.mod_small; exact Hq). rewrite Hs.
  pose proof (u32_size _ Ht) as S1. pose proof (u32_size _ Hq) as S2. pose proof (u32_size _ Hv) as S3.
  pose proof (u32_fine _ Ht). pose proof (u32_fine _ Hq). pose proof (u32_fine _ Hv).
  unfold console_event_message, EVENT_OUTPUT, EVENT_GPIO, EVENT_TRIGGER.
  assert (Hc : lg_type ev = 1 \/ lg_type ev = 2 \/ lg_type ev = 3) by lia.
  set (it := EInt (lg_time ev)) in *. set (iq := EInt (lg_seq ev)) in *. set (ival := EInt (lg_value ev)) in *.
  assert (W1 : wf it) by constructor. assert (W2 : wf iq) by constructor. assert (W3 : wf ival) by constructor.
  assert (M1 : meaning it = DInt (lg_time ev)) by reflexivity. assert (M2 : meaning iq = DInt (lg_seq ev)) by reflexivity. assert (M3 : meaning ival = DInt (lg_value ev)) by reflexivity.
  clearbody it iq ival.
  destruct Hc as [-> |[-> | ->]]; cbn [Z.eqb Pos.eqb app].
  all: split; [split; [|split; [|split]]|].
  all: try (cbn [meaning map pairs_of]; rewrite M1, M2, M3; reflexivity).
  all: try (constructor; [|reflexivity]; repeat (constructor; try assumption); fail).
  all: try (cbn [fine fold_right]; repeat split; auto; fail).
  all: try (cbn [enc_size fold_right];
    repeat match goal with |- context [head_size ?a] => let v := eval vm_compute in (head_size a) in change (head_size a) with v end;
    repeat match goal with |- context [Z.of_nat (String.length ?a)] => let v := eval vm_compute in (Z.of_nat (String.length a)) in change (Z.of_nat (String.length a)) with v end;
    lia).
  all: eexists _, _; (split; [cbn [meaning map pairs_of]; reflexivity|]); right; now left.
Qed.

(** ** The feed *)
Lemma feed_values_nth nodes : forall at_ i, nth_error (feed_values nodes at_) i =
  option_map (fun n => feed_value (snd n) (at_ i)) (nth_error nodes i).
Proof.
  induction nodes as [|[k x] nodes IH]; intros at_ [|i]; cbn [feed_values nth_error option_map snd]; try reflexivity. exact (IH (fun i => at_ (S i)) i).
Qed.

(** Every node shows the quantity its name stands for. *)
Lemma nodes_quantity : forall n, In n console_feed_nodes -> forall s, quantity (fst n) s = Some (meaning (feed_value (snd n) s)).
Proof.
  intros n Hn s. unfold console_feed_nodes in Hn.
  repeat (destruct Hn as [<-|Hn]; [reflexivity|]). destruct Hn.
Qed.

Lemma feed_value_fine x s : data_fits (meaning (feed_value x s)) -> fine (feed_value x s) /\ wf (feed_value x s) /\ enc_size (feed_value x s) <= 5.
Proof.
  destruct x as [f|f]; cbn [feed_value meaning data_fits]; intros H.
  - split; [now apply u32_fine|split; [constructor|]]. apply (u32_size _ H).
  - split; [exact H|split; [constructor|cbn [enc_size]; lia]].
Qed.

Lemma feed_values_ok nodes : forall at_, (forall n, In n nodes -> In n console_feed_nodes) -> (forall i, snapshot_fits (at_ i)) ->
  all_fine (feed_values nodes at_) /\ Forall wf (feed_values nodes at_) /\
  fold_right (fun x n => enc_size x + n) 0 (feed_values nodes at_) <= 5 * Z.of_nat (List.length nodes).
Proof.
  induction nodes as [|[k x] nodes IH]; intros at_ Hin Hf; cbn [feed_values fold_right]; [repeat split; [constructor|constructor|cbn [List.length]; lia]|].
  destruct (IH (fun i => at_ (S i))) as (A & B & C); [intros n Hn; apply Hin; now right|intros i; apply Hf|].
  pose proof (nodes_quantity (k, x) (Hin _ (or_introl eq_refl)) (at_ 0%nat)) as Q.
  destruct (feed_value_fine x (at_ 0%nat) (Hf 0%nat _ _ Q)) as (D & E & F).
  split; [constructor; assumption|split; [constructor; assumption|]]. cbn [List.length]. lia.
Qed.


Lemma description_message now : u32 now -> message (console_feed_line_keys now) /\
  meaning (console_feed_line_keys now) = description_data now (map fst console_feed_nodes).
Proof.
  intros Hn. pose proof (u32_size _ Hn) as S1. pose proof (u32_fine _ Hn) as F1. split; [|reflexivity].
  unfold console_feed_line_keys. assert (W1 : wf (EInt now)) by constructor.
  set (ks := map (fun n : String.string * source => EText (fst n)) console_feed_nodes).
  assert (Wk : wf (EArr ks)). { constructor. unfold ks. apply Forall_forall. intros x Hx. apply in_map_iff in Hx as (n & <- & _). constructor. }
  assert (Fk : fine (EArr ks)). { cbn [fine]. apply fine_list. unfold ks. apply Forall_forall. intros x Hx. apply in_map_iff in Hx as (n & <- & _). exact I. }
  assert (Sk : enc_size (EArr ks) <= 1000) by (vm_compute; discriminate).
  split; [|split; [|split]].
  - constructor; [|reflexivity]. repeat (constructor; try assumption).
  - cbn [fine fold_right]. repeat split; auto; apply F1.
  - change (enc_size (EMapN 3 [EText "type"; EText "description"; EText "time"; EInt now; EText "keys"; EArr ks])) with
      (1 + (5 + (12 + (5 + (enc_size (EInt now) + (5 + (enc_size (EArr ks) + 0))))))). lia.
  - eexists _, _. split; [cbn [meaning map pairs_of]; reflexivity|]. right. right. now left.
Qed.

Lemma feed_message now at_ : u32 now -> (forall i, snapshot_fits (at_ i)) -> message (console_feed_line now at_) /\
  meaning (console_feed_line now at_) = feed_data now (map meaning (feed_values console_feed_nodes at_)).
Proof.
  intros Hn Ha. pose proof (u32_size _ Hn) as S1. pose proof (u32_fine _ Hn) as F1. split; [|reflexivity].
  unfold console_feed_line. assert (W1 : wf (EInt now)) by constructor.
  destruct (feed_values_ok console_feed_nodes at_ (fun _ h => h) Ha) as (Fk & Wk & Sk).
  set (vs := feed_values console_feed_nodes at_) in *. change (Z.of_nat (List.length console_feed_nodes)) with 36 in Sk.
  assert (Wv : wf (EArr vs)) by (constructor; exact Wk).
  assert (Fv : fine (EArr vs)) by (cbn [fine]; apply fine_list; exact Fk).
  assert (Sv : enc_size (EArr vs) <= 182) by (cbn [enc_size]; lia). clearbody vs.
  split; [|split; [|split]].
  - constructor; [|reflexivity]. repeat (constructor; try assumption).
  - change (fine (EText "type") /\ fine (EText "feed") /\ fine (EText "time") /\ fine (EInt now) /\ fine (EText "values") /\ fine (EArr vs) /\ True).
    repeat (split; [first [exact I|exact F1|exact Fv]|]). exact I.
  - change (enc_size (EMapN 3 [EText "type"; EText "feed"; EText "time"; EInt now; EText "values"; EArr vs])) with
      (1 + (5 + (5 + (5 + (enc_size (EInt now) + (7 + (enc_size (EArr vs) + 0))))))). lia.
  - eexists _, _. split; [cbn [meaning map pairs_of]; reflexivity|]. right. right. right. now left.
Qed.

(** ** The messages of a call *)
Definition call_fits (c : call) : Prop :=
  settings_fit (cl_mem c) /\ (forall r, cl_request c = Some r -> floats_fit r) /\ Forall numbered_fits (cl_events c) /\
  u32 (cl_message c) /\ (forall i, snapshot_fits (cl_state c i)).

Lemma process_messages rate version c last ms last' : call_fits c -> console_process rate version c last = Ok (ms, last') -> Forall message ms.
Proof.
  intros (Hm & Hr & He & Ht & Hs) H. unfold console_process in H. apply bind_ok in H as (resp & E1 & H). apply bind_ok in H as (limit & _ & H).
  assert (R : Forall message resp).
  { destruct (cl_request c) as [r|]; [|injection E1 as <-; constructor]. apply bind_ok in E1 as ([[m' effs] o] & E & E1). injection E1 as <-.
    destruct o as [e|]; [|constructor]. constructor; [|constructor]. exact (proj2 (response_message _ _ _ _ _ _ _ Hm (Hr r eq_refl) E)). }
  assert (V : Forall message (map console_event_message (cl_events c))).
  { apply Forall_forall. intros x Hx. apply in_map_iff in Hx as (ev & <- & Hin). apply event_message. rewrite Forall_forall in He. auto. }
  destruct (limit <? _); injection H as <- _; apply Forall_app; (split; [exact R|]); apply Forall_app; (split; [exact V|]); (apply Forall_cons; [|apply Forall_nil]).
  - apply (description_message _ Ht).
  - apply (feed_message _ _ Ht Hs).
Qed.

Lemma message_means e : message e -> means (bytes_of e) (meaning e).
Proof. intros (A & B & C & _). apply speaks; auto. change (2 ^ 32) with 4294967296. lia. Qed.

Lemma messages_mean es : Forall message es -> means_each (List.concat (map bytes_of es)) (map meaning es).
Proof. induction 1 as [|e es He Hes IH]; cbn [map List.concat]; constructor; auto. now apply message_means. Qed.

Lemma processes_messages rate version calls : Forall call_fits calls -> forall last msgs, processes rate version calls last = Ok msgs -> Forall message (List.concat msgs).
Proof.
  induction 1 as [|c calls Hc Hcs IH]; intros last msgs H; cbn [processes] in H; [injection H as <-; constructor|].
  apply bind_ok in H as ([ms last'] & E & H). apply bind_ok in H as (rest & E2 & H). injection H as <-. cbn [List.concat]. apply Forall_app. split.
  - eapply process_messages; eauto.
  - eapply IH; eauto.
Qed.

(** *** C82 *)

(** Whatever the calls of console_process find, the bytes of all messages sent, one
    after the other, are CBOR items; each is a map that begins with its type, fits the
    buffer of 16384 bytes, and carries the data the firmware put in; and there is no
    other way to read them. *)
Theorem C82_stream rate version calls last msgs : Forall call_fits calls ->
  processes rate version calls last = Ok msgs ->
  let sent := List.concat msgs in
  let stream := List.concat (map bytes_of sent) in
  means_each stream (map meaning sent) /\
  (forall ds, means_each stream ds -> ds = map meaning sent) /\
  Forall (fun e => Z.of_nat (List.length (bytes_of e)) <= 16384 /\
    exists t l, meaning e = DMap ((DText "type", DText t) :: l) /\ In t ["response"; "event"; "description"; "feed"]%string) sent.
Proof.
  intros Hc H. cbv zeta. pose proof (processes_messages _ _ _ Hc _ _ H) as M.
  pose proof (messages_mean _ M) as A. split; [exact A|]. split.
  - intros ds Hd. symmetry. exact (proj1 (proj2 means_once) _ _ A _ Hd).
  - eapply Forall_impl; [|exact M]. intros e (_ & _ & Hl & Ht). split; [|exact Ht].
    rewrite <- bytes_size in Hl. exact Hl.
Qed.
Print Assumptions C82_stream.

(** A receiver that starts at the beginning of a message can tell where it ends: the
    only item at the start of what follows is that message. *)
Theorem C82_next rate version calls last msgs e rest b c d : Forall call_fits calls ->
  processes rate version calls last = Ok msgs -> In e (List.concat msgs) ->
  means b d -> b ++ c = bytes_of e ++ rest -> b = bytes_of e /\ d = meaning e /\ c = rest.
Proof.
  intros Hc H Hin Hb E. pose proof (processes_messages _ _ _ Hc _ _ H) as M. rewrite Forall_forall in M. pose proof (message_means e (M e Hin)) as Hm.
  destruct (wf_prefix _ _ _ _ (proj1 means_wf _ _ Hb) (proj1 means_wf _ _ Hm) E) as [-> ->].
  split; [reflexivity|split; [|reflexivity]]. exact (proj1 means_once _ _ Hb _ Hm).
Qed.
Print Assumptions C82_next.

(** The settings stay values of their C types whatever is asked, so that the condition
    on the settings in [call_fits] holds for ever once it holds. *)
Theorem C82_settings rate version request m m' effs o : settings_fit m -> floats_fit request ->
  console_process_request_raw rate version request m = Ok (m', effs, o) -> settings_fit m'.
Proof.
  intros Hm Hr H. unfold console_process_request_raw in H. apply bind_ok in H as (s & E & H).
  pose proof (request_neat rate version request (St m [] [] []) s Hr (conj Hm (Forall_nil _)) E) as [N1 N2].
  assert (m' = s_mem s) by congruence. now subst m'.
Qed.
Print Assumptions C82_settings.

Definition still : snapshot := Snapshot 1234 cvals_init (fun _ => (SCfg 0 SRC_ADC LINEAR f_zero f_zero f_zero f_zero f_zero f_zero f_zero f_zero f_zero f_zero f_zero f_zero 0 0 0,
  SDat f_zero 0 false f_zero 0 f_zero (f_of_Z 5) f_zero FAULT_NONE)) (fun _ => f_zero) dec_init.
Lemma still_fits : snapshot_fits still.
Proof.
  intros k d E. unfold quantity in E. cbv zeta in E.
  repeat (match type of E with (if ?b then _ else _) = _ => destruct b end; [injection E as <-; cbv; repeat split; discriminate|]). discriminate.
Qed.

(** Two calls: a request for all sensor settings answered, one event, and a feed
    message; then, 0.125 s later, a description. *)
Definition two_calls : list call :=
  [Call sample (Some (get_request [CText "sensors"; CText "map"])) [Logged 77 0 EVENT_TRIGGER 1] 10 12 15 (fun _ => still);
   Call sample None [] 500010 500012 500020 (fun _ => still)].
Lemma two_calls_fit : Forall call_fits two_calls.
Proof.
  assert (S : settings_fit sample) by (split; intros c; [split; [discriminate|reflexivity]|reflexivity]).
  apply Forall_cons; [|apply Forall_cons; [|apply Forall_nil]]; (split; [exact S|]).
  - split; [intros r [= <-]; cbn; tauto|]. split; [|split; [split; [discriminate|reflexivity]|intros; apply still_fits]].
    repeat constructor; discriminate.
  - split; [discriminate|]. split; [apply Forall_nil|]. split; [split; [discriminate|reflexivity]|intros; apply still_fits].
Qed.
Example C82_example : Forall call_fits two_calls /\
  match processes 50000 "v" two_calls 0 with
  | Ok [[r; ev; feed]; [description]] =>
    bytes_of ev = [164; 100; 116; 121; 112; 101; 101; 101; 118; 101; 110; 116; 100; 116; 105; 109; 101; 24; 77; 99; 115; 101; 113; 0;
                   101; 101; 118; 101; 110; 116; 162; 100; 116; 121; 112; 101; 103; 116; 114; 105; 103; 103; 101; 114; 99; 112; 105; 110; 1] /\
    event_data 0 (Logged 77 0 EVENT_TRIGGER 1) = meaning ev /\
    List.length (bytes_of description) = 463%nat
  | _ => False
  end.
Proof. split; [apply two_calls_fit|]. vm_compute. auto. Qed.

(** *** C83 *)

Lemma in_names k : existsb (String.eqb k) (map fst console_feed_nodes) = true -> In k (map fst console_feed_nodes).
Proof. intros H. apply existsb_exists in H as (x & A & B). apply String.eqb_eq in B. now subst. Qed.

(** Descriptions always list the same keys, the names of all quantities, each once; a feed message lists as many
    values, and value [i] is the quantity that key [i] names, as it was when it was
    read. *)
Theorem C83_feed : exists keys, NoDup keys /\ (forall key s, In key keys <-> exists d, quantity key s = Some d) /\
  (forall now, u32 now -> means (bytes_of (console_feed_line_keys now)) (description_data now keys)) /\
  (forall now at_, u32 now -> (forall i, snapshot_fits (at_ i)) -> exists values,
    means (bytes_of (console_feed_line now at_)) (feed_data now values) /\
    List.length values = List.length keys /\
    forall i key, nth_error keys i = Some key -> exists d, nth_error values i = Some d /\ quantity key (at_ i) = Some d).
Proof.
  exists (map fst console_feed_nodes). split; [|split; [|split]].
  - assert (U : forall l : list String.string, (fix uniq l := match l with [] => true | x :: l => negb (existsb (String.eqb x) l) && uniq l end) l = true -> NoDup l).
    { induction l as [|x l IH]; intros H; [constructor|]. apply andb_prop in H as [A B]. constructor; [|auto].
      intros Hin. apply negb_true_iff in A. assert (existsb (String.eqb x) l = true); [|congruence]. apply existsb_exists. exists x. split; [exact Hin|apply String.eqb_refl]. }
    apply U. reflexivity.
  - intros key s. split.
    + intros H. apply in_map_iff in H as (n & <- & Hn). eexists. apply (nodes_quantity n Hn s).
    + intros (d & H). unfold quantity in H. cbv zeta in H.
      repeat match type of H with (if String.eqb key ?k then _ else _) = _ =>
        destruct (String.eqb_spec key k) as [->|_]; [apply (in_names k eq_refl)|] end. discriminate.
  - intros now Hn. destruct (description_message now Hn) as [A <-]. now apply message_means.
  - intros now at_ Hn Ha. exists (map meaning (feed_values console_feed_nodes at_)). destruct (feed_message now at_ Hn Ha) as [A E].
    split; [rewrite <- E; now apply message_means|]. split.
    + rewrite !map_length. assert (L : forall l at_, List.length (feed_values l at_) = List.length l).
      { induction l as [|[k x] l IH]; intros a; cbn [feed_values List.length]; [reflexivity|]. now rewrite IH. }
      apply L.
    + intros i key Hk. rewrite nth_error_map in Hk. destruct (nth_error console_feed_nodes i) as [n|] eqn:En; [|discriminate]. injection Hk as <-.
      exists (meaning (feed_value (snd n) (at_ i))). rewrite nth_error_map, feed_values_nth, En. split; [reflexivity|].
      apply nodes_quantity. eapply nth_error_In; eauto.
Qed.
Print Assumptions C83_feed.

Lemma received_fit acts p l h : log_run acts RIdle elog_init = Ok (p, l, h) -> Forall event_fits (events_of acts) -> Forall numbered_fits (received h).
Proof.
  intros E Hf. destruct (C43_order acts) as (p0 & l0 & h0 & E0 & Hh & pend & Heq & _). rewrite E in E0. injection E0 as <- <- <-.
  assert (K : forall h on n k, Forall event_fits (happened h) -> Forall numbered_fits (map numbered (kept on n k h))).
  { clear. induction h as [|[ev|ev|b] h IH]; intros on n k H; cbn [kept map happened] in *; [constructor| | |]; auto.
    inversion H; subst. destruct on; auto. destruct (Nat.eqb k CAPACITY); auto. cbn [map]. constructor; auto.
    split; [exact H2|]. unfold numbered. cbn [lg_seq fst]. unfold u32. apply Z.mod_pos_bound. reflexivity. }
  rewrite <- Hh in Hf. specialize (K h true 0%nat 0%nat Hf). rewrite Heq in K. apply Forall_app in K. apply K.
Qed.

(** Whatever events the interrupt handlers record and whenever they do, the event
    messages carry recorded events, unchanged and in order, with their numbers, and a
    number is missing only when the log was full. *)
Theorem C83_events acts p l h : Forall event_fits (events_of acts) -> log_run acts RIdle elog_init = Ok (p, l, h) ->
  exists numbers, increasing numbers /\
    List.length numbers = List.length (received h) /\
    (forall k n, nth_error numbers k = Some n -> exists ev x, nth_error (recorded true h) n = Some ev /\ nth_error (received h) k = Some x /\
       means (bytes_of (console_event_message x)) (event_data (Z.of_nat n) ev)) /\
    (forall k a b, nth_error numbers k = Some a -> nth_error numbers (S k) = Some b ->
       forall i, (a < i < b)%nat -> In i (dropped true 0 0 h)).
Proof.
  intros Hf E. destruct (C43_gaps acts p l h E) as (numbers & A & B & C & D & _). exists numbers. split; [exact A|].
  assert (L : List.length numbers = List.length (received h)) by (apply (f_equal (@List.length Z)) in B; rewrite !map_length in B; lia).
  split; [exact L|]. split; [|exact D]. intros k n Hk.
  destruct (nth_error (received h) k) as [x|] eqn:Ex.
  2:{ apply nth_error_None in Ex. assert (nth_error numbers k = None) by (apply nth_error_None; lia). congruence. }
  destruct (C k n x Hk Ex) as (ev & Hn & T1 & T2 & T3). exists ev, x. split; [exact Hn|]. split; [reflexivity|].
  pose proof (received_fit acts p l h E Hf) as R. rewrite Forall_forall in R. pose proof (R x (nth_error_In _ _ Ex)) as Rx.
  destruct (event_message x Rx) as [M Em].
  assert (Es : lg_seq x = Z.of_nat n mod 2 ^ 32).
  { pose proof (f_equal (fun l => nth_error l k) B) as Bk. cbv beta in Bk. rewrite !nth_error_map, Ex, Hk in Bk. cbn [option_map] in Bk. congruence. }
  replace (event_data (Z.of_nat n) ev) with (meaning (console_event_message x)); [now apply message_means|].
  rewrite Em. unfold event_data. rewrite T1, T2, T3, Es, Z.mod_mod by discriminate. reflexivity.
Qed.
Print Assumptions C83_events.

(** Every call sends at most one response, and only if there was a request, then the
    events it took from the log, in order, then one description or feed message. *)
Definition call_sends (c : call) (ms : list enc) : Prop := exists answer keys values report,
  map meaning ms = answer ++ map (fun ev => event_data (lg_seq ev) ev) (cl_events c) ++ [report] /\
  (answer = [] \/ cl_request c <> None /\ exists l, answer = [DMap ((DText "type", DText "response") :: l)]) /\
  (report = description_data (cl_message c) keys \/ report = feed_data (cl_message c) values).
Theorem C83_order rate version calls last msgs : Forall call_fits calls -> processes rate version calls last = Ok msgs ->
  Forall2 call_sends calls msgs.
Proof.
  intros Hc. revert last msgs. induction Hc as [|c calls (Hm & Hr & He & Ht & Hs) Hcs IH]; intros last msgs H; cbn [processes] in H; [injection H as <-; constructor|].
  apply bind_ok in H as ([ms last'] & E & H). apply bind_ok in H as (rest & E2 & H). injection H as <-. constructor; [|eapply IH; eauto].
  unfold console_process in E. apply bind_ok in E as (resp & E1 & E). apply bind_ok in E as (limit & _ & E).
  assert (V : map meaning (map console_event_message (cl_events c)) = map (fun ev => event_data (lg_seq ev) ev) (cl_events c)).
  { rewrite map_map. apply map_ext_in. intros ev Hin. rewrite Forall_forall in He. exact (proj2 (event_message ev (He ev Hin))). }
  assert (R : map meaning resp = [] \/ cl_request c <> None /\ exists l, map meaning resp = [DMap ((DText "type", DText "response") :: l)]).
  { destruct (cl_request c) as [r|]; [|injection E1 as <-; now left]. apply bind_ok in E1 as ([[m' effs] o] & E1 & E3). injection E3 as <-.
    destruct o as [e|]; [|now left]. right. split; [discriminate|]. unfold console_process_request_raw in E1. apply bind_ok in E1 as (s & E3 & E1).
    apply request_pairs in E3 as (tail & Et & _). cbn [s_out app] in Et.
    destruct (enc_size (EMap (s_out s)) <=? RESPONSE_SIZE); [|discriminate]. injection E1 as _ _ <-. exists (pairs_of (map meaning tail)). cbn [meaning map]. rewrite Et. reflexivity. }
  exists (map meaning resp), (map fst console_feed_nodes), (map meaning (feed_values console_feed_nodes (cl_state c))).
  destruct (limit <? w32 (cl_test c - last)).
  - exists (meaning (console_feed_line_keys (cl_message c))). assert (ms = resp ++ map console_event_message (cl_events c) ++ [console_feed_line_keys (cl_message c)]) as -> by congruence.
    rewrite !map_app, V. split; [reflexivity|]. split; [exact R|left; exact (proj2 (description_message _ Ht))].
  - exists (meaning (console_feed_line (cl_message c) (cl_state c))). assert (ms = resp ++ map console_event_message (cl_events c) ++ [console_feed_line (cl_message c) (cl_state c)]) as -> by congruence.
    rewrite !map_app, V. split; [reflexivity|]. split; [exact R|right; exact (proj2 (feed_message _ _ Ht Hs))].
Qed.
Print Assumptions C83_order.

(** The last message of a call. *)
Definition ends_with (ms : list enc) (t : String.string) : Prop :=
  exists before e l, ms = before ++ [e] /\ meaning e = DMap ((DText "type", DText t) :: l).

Definition clocked (c : call) (t : Z * Z) : Prop := cl_test c = fst t mod 2 ^ 32 /\ cl_done c = snd t mod 2 ^ 32.

Lemma limit_ok : time_from_us 100000 = Ok 400000.
Proof. rewrite time_from_us_exact by lia. reflexivity. Qed.

Lemma process_ends rate version c last ms last' : console_process rate version c last = Ok (ms, last') ->
  let now := 400000 <? w32 (cl_test c - last) in
  ends_with ms (if now then "description" else "feed")%string /\ last' = (if now then cl_done c else last).
Proof.
  intros H. unfold console_process in H. apply bind_ok in H as (resp & _ & H). rewrite limit_ok in H. cbn [bind] in H. cbv zeta.
  destruct (400000 <? w32 (cl_test c - last)); injection H as <- <-; split; try reflexivity; eexists _, _, _; (split; [rewrite app_assoc; reflexivity|reflexivity]).
Qed.

Lemma due_step rate version : forall calls times msgs last prev, Forall2 clocked calls times ->
  last <= (match times with (t, _) :: _ => t | [] => last end) -> prev - last <= 400000 -> paced (2 ^ 32 - 400001) prev times ->
  processes rate version calls (last mod 2 ^ 32) = Ok msgs ->
  Forall2 (fun ms (now : bool) => ends_with ms (if now then "description" else "feed")%string) msgs (due last times).
Proof.
  induction calls as [|c calls IH]; intros times msgs last prev Hc Hl Hp P H; inversion Hc as [|? [t d] ? times' [C1 C2] Hc']; subst; cbn [processes] in H.
  - injection H as <-. constructor.
  - apply bind_ok in H as ([ms last'] & E & H). apply bind_ok in H as (rest & E2 & H). injection H as <-.
    apply process_ends in E. cbv zeta in E. cbn [fst snd] in *. cbn [paced] in P. destruct P as (P1 & P2 & P3 & P4).
    assert (D : (400000 <? w32 (cl_test c - last mod 2 ^ 32)) = (last + 400000 <? t)).
    { rewrite C1. unfold w32, W. change (2 ^ 32) with 4294967296 in *. rewrite <- Zminus_mod. rewrite Z.mod_small by lia.
      destruct (Z.ltb_spec 400000 (t - last)), (Z.ltb_spec (last + 400000) t); lia. }
    rewrite D in E. cbn [due]. cbv zeta. destruct E as [E1 ->]. constructor; [exact E1|].
    destruct (Z.ltb_spec (last + 400000) t).
    + rewrite C2 in E2. eapply (IH times' rest d t); eauto; [|lia]. destruct times' as [|[t' d'] times']; lia.
    + eapply (IH times' rest last t); eauto; [|lia]. destruct times' as [|[t' d'] times']; lia.
Qed.

(** In a run of calls at the times [times] (of the uninterrupted clock; the firmware
    sees them modulo 2^32), at most 17 minutes apart, each call ends with exactly one
    description or feed message, and it is a description exactly when more than 100 ms
    have passed since the last one. *)
Theorem C83_cadence rate version calls times msgs : Forall2 clocked calls times -> paced (2 ^ 32 - 400001) 0 times ->
  processes rate version calls 0 = Ok msgs ->
  Forall2 (fun ms (now : bool) => ends_with ms (if now then "description" else "feed")%string) msgs (due 0 times).
Proof.
  intros Hc P H. apply (due_step rate version calls times msgs 0 0); auto; [|lia]. destruct times as [|[t d] times]; [lia|]. cbn [paced] in P. lia.
Qed.
Print Assumptions C83_cadence.

Lemma due_gap : forall times last prev k t d, last <= (match times with (t, _) :: _ => t | [] => last end) ->
  prev - last <= 400000 -> paced 3600000 prev times -> nth_error times k = Some (t, d) ->
  t - last <= 400000 \/ exists i ti di, (i <= k)%nat /\ nth_error times i = Some (ti, di) /\ nth_error (due last times) i = Some true /\ t <= di + 4000000.
Proof.
  induction times as [|[t0 d0] times IH]; intros last prev k t d Hl Hp P Hk; [destruct k; discriminate|].
  cbn [paced] in P. destruct P as (P1 & P2 & P3 & P4). cbn [due]. cbv zeta.
  destruct k as [|k]; cbn [nth_error] in Hk.
  - injection Hk as <- <-. destruct (Z.ltb_spec (last + 400000) t0); [|left; lia]. right. exists 0%nat, t0, d0. cbn [nth_error]. split; [lia|split; [reflexivity|split; [reflexivity|lia]]].
  - destruct (Z.ltb_spec (last + 400000) t0).
    + assert (L : d0 <= match times with (t', _) :: _ => t' | [] => d0 end) by (destruct times as [|[t' d'] times]; [lia|exact P3]).
      destruct (IH d0 t0 k t d L ltac:(lia) P4 Hk) as [A|(i & ti & di & B & C & D & F)].
      * right. exists 0%nat, t0, d0. cbn [nth_error]. split; [lia|split; [reflexivity|split; [reflexivity|lia]]].
      * right. exists (S i), ti, di. cbn [nth_error]. split; [lia|auto].
    + assert (L : last <= match times with (t', _) :: _ => t' | [] => last end) by (destruct times as [|[t' d'] times]; lia).
      destruct (IH last t0 k t d L ltac:(lia) P4 Hk) as [A|(i & ti & di & B & C & D & F)]; [left; exact A|].
      * right. exists (S i), ti, di. cbn [nth_error]. split; [lia|auto].
Qed.

(** INTERFACE.md: "the EMS sends the current list of fields at least once per second".
    When the calls are at most 0.9 s apart, every call made more than 0.1 s after the
    clock started has had a description within the last second (ticks of 250 ns). *)
Theorem C83_once_per_second rate version calls times msgs k t d : Forall2 clocked calls times -> paced 3600000 0 times ->
  processes rate version calls 0 = Ok msgs -> nth_error times k = Some (t, d) -> 400000 < t ->
  exists i ms ti di, (i <= k)%nat /\ nth_error msgs i = Some ms /\ ends_with ms "description" /\ nth_error times i = Some (ti, di) /\ t <= di + 4000000.
Proof.
  intros Hc P H Hk Ht.
  assert (P' : paced (2 ^ 32 - 400001) 0 times).
  { clear -P. change (2 ^ 32) with 4294967296. revert P. generalize 0. induction times as [|[t d] times IH]; intros prev P; cbn [paced] in *; [exact I|].
    destruct P as (A & B & C & D). split; [lia|split; [exact B|split; [exact C|apply IH; exact D]]]. }
  pose proof (C83_cadence rate version calls times msgs Hc P' H) as F.
  destruct (due_gap times 0 0 k t d) as [A|(i & ti & di & A & B & C & D)]; auto; [|lia|lia|].
  { destruct times as [|[t' d'] times]; [lia|]. cbn [paced] in P. lia. }
  assert (G : forall (l : list (list enc)) (m : list bool) i, Forall2 (fun ms (now : bool) => ends_with ms (if now then "description" else "feed")%string) l m ->
    nth_error m i = Some true -> exists ms, nth_error l i = Some ms /\ ends_with ms "description").
  { clear. intros l m i F. revert i. induction F as [|x y l m Hx F IH]; intros [|i]; cbn [nth_error]; try discriminate; eauto. intros [= ->]. eauto. }
  destruct (G _ _ i F C) as (ms & G1 & G2). exists i, ms, ti, di. auto.
Qed.
Print Assumptions C83_once_per_second.

Example C83_example :
  Forall2 clocked two_calls [(10, 15); (500010, 500020)] /\ paced 3600000 0 [(10, 15); (500010, 500020)] /\
  due 0 [(10, 15); (500010, 500020)] = [false; true] /\
  Forall event_fits (events_of burst) /\ snapshot_fits still /\ quantity "sensor.map" still = Some (DFloat (f_of_Z 5)).
Proof.
  split; [|split; [|split; [reflexivity|split; [|split; [apply still_fits|reflexivity]]]]].
  - repeat constructor.
  - cbn [paced]. lia.
  - assert (B : forallb (fun ev => (0 <=? lg_time ev) && (lg_time ev <? 2 ^ 32) && (1 <=? lg_type ev) && (lg_type ev <=? 3) && (0 <=? lg_value ev) && (lg_value ev <? 2 ^ 32)) (events_of burst) = true) by reflexivity.
    rewrite forallb_forall in B. apply Forall_forall. intros ev H. apply B in H. rewrite !andb_true_iff, !Z.leb_le, !Z.ltb_lt in H. unfold event_fits, u32. lia.
Qed.
