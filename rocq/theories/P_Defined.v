(** C64, what holds: every request that leaves the knock frequencies alone is carried
    out, whatever else it contains, for ever; and setting a knock frequency to a finite
    value from 0 to 1 MHz keeps it so. *)
Require Import ZArith Reals List Bool String Lia Lra.
From Verif Require Import Res Word F32 F32Flocq Sensors Cbor Console ConsoleSpec DecoderProofs ConsoleProofs ConsoleSafe ConsoleDefined P_Console.
From Verif Require P_Sensors.
Import ListNotations.
Open Scope Z_scope.
Ltac Zify.zify_post_hook ::= idtac.

(** The request does not speak about a knock frequency. *)
Definition leaves_knock (request : cbor) : Prop := asks request "set" -> forall path v b,
  request_path request = Some path -> request_value request = Some v -> ~ targets path v (cell_path (CF (F_KnockFreq b))).

Lemma unasked rate version request m : asks request "set" -> request_path request = None \/ request_value request = None ->
  exists s, console_process_request rate version request (St m [] [] []) = Ok s /\ s_mem s = m.
Proof.
  intros H Hn. unfold console_process_request, asks, request_path, request_value in *. cbv zeta.
  destruct (map_find (Some request) "method") eqn:E; [|discriminate]. rewrite <- E in *. wrong_method H. rewrite H.
  destruct (map_find (Some request) "path") as [[]|]; try (eexists; split; reflexivity). destruct Hn as [Hn|Hn]; [discriminate|].
  rewrite Hn. eexists; split; reflexivity.
Qed.

Lemma defined rate version request m : tables_fit m -> (forall b, settable rate (m_f m (F_KnockFreq b))) -> leaves_knock request ->
  exists m' effs out, console_process_request_raw rate version request m = Ok (m', effs, out) /\
    (forall b, m_f m' (F_KnockFreq b) = m_f m (F_KnockFreq b)).
Proof.
  intros Hf Hk Hn. assert (D : asks request "set" \/ ~ asks request "set") by (unfold asks; destruct (text_equals _ _); auto).
  destruct D as [D|D].
  2:{ destruct (C48_others_total rate version request m Hf D) as (effs & out & E). eauto 6. }
  destruct (request_path request) as [path|] eqn:Ep; [destruct (request_value request) as [v|] eqn:Ev|].
  - assert (G : exists s, console_process_request rate version request (St m [] [] []) = Ok s).
    { rewrite (process_set _ _ _ _ _ _ D Ep Ev). unfold console_request_set, render_map_object.
      destruct (good_container rate EMap _ [] (good_run rate [] _ (good_toplevel rate version) (within_toplevel_all rate version) (safe_toplevel rate version))
        (Ctx SET (Some v) (nonempty path) false) (St (s_mem (header request m)) path (s_out (header request m) ++ [EText "response"]) (s_effs (header request m)))) as (s' & E); auto.
      - intros b (w & rest & Ew & Er & T). injection Ew as <-. cbn [app] in Er. subst rest. exact (Hn D path v b Ep Ev T).
      - rewrite E. cbn [bind]. eauto. }
    destruct G as (s & G). unfold console_process_request_raw. rewrite G. cbn [bind]. do 3 eexists. split; [reflexivity|]. intros b.
    assert (K : read (s_mem s) (CF (F_KnockFreq b)) = read m (CF (F_KnockFreq b))).
    { eapply C46_set_confined; eauto. unfold console_process_request_raw. rewrite G. reflexivity. }
    cbn [read] in K. congruence.
  - destruct (unasked rate version request m D) as (s & E & Em); [auto|]. unfold console_process_request_raw. rewrite E. cbn [bind]. rewrite Em. eauto 6.
  - destruct (unasked rate version request m D) as (s & E & Em); [auto|]. unfold console_process_request_raw. rewrite E. cbn [bind]. rewrite Em. eauto 6.
Qed.

(** Any sequence of requests that leave the knock frequencies alone is served without
    undefined behaviour, and the tables stay within their storage. *)
Theorem C64_defined rate version requests : forall m, tables_fit m -> (forall b, settable rate (m_f m (F_KnockFreq b))) -> Forall leaves_knock requests ->
  exists m', serve rate version requests m = Ok m' /\ tables_fit m' /\ (forall b, m_f m' (F_KnockFreq b) = m_f m (F_KnockFreq b)).
Proof.
  induction requests as [|r requests IH]; intros m Hf Hk Hn; cbn [serve]; [eauto|].
  inversion Hn as [|? ? H1 H2]; subst. destruct (defined rate version r m Hf Hk H1) as (m1 & effs & out & E & K).
  pose proof (raw_safe rate version r m Hf) as Hs. rewrite E in Hs |- *. cbn [bind].
  destruct (IH m1 Hs) as (m' & E' & F' & K'); auto. { intros b. rewrite K. apply Hk. }
  exists m'. split; [exact E'|]. split; [exact F'|]. intros b. now rewrite K', K.
Qed.
Print Assumptions C64_defined.

(** Frequencies the firmware can configure. *)
Definition sane_frequency (f : f32) : Prop := vf f /\ fin f /\ (0 <= R_ f <= 1000000)%R.
Lemma sane_settable rate f : 1 <= rate <= 131072 -> sane_frequency f -> settable rate f.
Proof.
  intros Hr (V & F & B). destruct (P_Sensors.C63_tuning (fun x => x) rate f (Knock f 0 0 f_zero f_zero 0 f_zero f_zero f_zero) Hr V F B eq_refl) as (k & E & _).
  exists k. exact E.
Qed.

(** Setting one knock frequency to such a value is carried out, and leaves a state
    in which everything above applies. *)
Theorem C64_frequency rate version request m b path v f : 1 <= rate <= 131072 -> tables_fit m ->
  (forall b, sane_frequency (m_f m (F_KnockFreq b))) ->
  asks request "set" -> is_int32 (request_id request) -> request_path request = Some path -> request_value request = Some v ->
  Forall2 denotes path (cell_path (CF (F_KnockFreq b))) -> accepted (CF (F_KnockFreq b)) v = Some (VF f) -> sane_frequency f ->
  exists m' effs out, console_process_request_raw rate version request m = Ok (m', effs, out) /\ tables_fit m' /\
    (forall b, sane_frequency (m_f m' (F_KnockFreq b))).
Proof.
  intros Hr Hf Hk Ha Hi Hp Hv Hd Hacc Hs.
  assert (A : forall second g, after_set m (CF (F_KnockFreq b)) v (CF (F_KnockFreq second)) = VF g -> sane_frequency g).
  { intros second g. unfold after_set. rewrite Hacc. destruct (cell_eq _ _); [intros [= <-]; exact Hs|]. cbn [read]. intros [= <-]. apply Hk. }
  destruct (C47_set rate version request m path v (CF (F_KnockFreq b)) Hf I Ha Hp Hv Hd Hi) as (m' & effs & E & R & F); try discriminate.
  { intros _ second g Hg. apply sane_settable; eauto. }
  exists m', effs, (Some (answer (request_id request) (shown m' (CF (F_KnockFreq b))))). split; [exact E|]. split; [exact F|].
  intros second. apply (A second). rewrite <- R. reflexivity.
Qed.
Print Assumptions C64_frequency.

Lemma sane_example : sane_frequency (f_of_Z 7000).
Proof.
  destruct (f_of_Z_exact 7000 ltac:(lia)) as [E F]. split; [auto with vf|]. split; [exact F|]. rewrite E. lra.
Qed.
Example C64_example :
  tables_fit sample /\ (forall b, sane_frequency (m_f sample (F_KnockFreq b))) /\
  leaves_knock (set_request [CText "sensors"] (CMap [(CText "knock1", CMap [(CText "threshold", CInt 3)]); (CText "map", CNull)])) /\
  leaves_knock long_axis /\ leaves_knock (get_request [CText "sensors"; CText "knock1"]) /\
  accepted (CF (F_KnockFreq true)) (CInt 7000) = Some (VF (f_of_Z 7000)).
Proof.
  split; [apply sample_fits|]. split.
  { intros b. split; [reflexivity|]. split; [reflexivity|]. unfold R_. cbn. lra. }
  split; [|split; [|split; [intros H; discriminate|reflexivity]]].
  - intros _ path v b [= <-] [= <-] T. inversion T as [|? ? ? ? ? _ T1| |]; subst. inversion T1 as [| |? ? ? ? ? Hin Hd T2|]; subst.
    destruct Hin as [[= <- <-]|[[= <- <-]|[]]].
    + inversion T2 as [| |? ? ? ? ? Hin2 Hd2 T3|]; subst. destruct Hin2 as [[= <- <-]|[]]. discriminate Hd2.
    + inversion T2.
  - intros _ path v b [= <-] [= <-] T. inversion T as [|? ? ? ? ? Hd T1| |]; subst. discriminate Hd.
Qed.
