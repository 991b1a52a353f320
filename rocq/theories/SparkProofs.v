(** The firmware of Spark.v does what the machine of SparkAbs.v does (for C84 and C85). *)
Require Import ZArith List Bool Lia.
From Verif Require Import Res Word Arr F32 TimeProofs Outputs Buffers BufferProofs OutputSpec OutputRun OutputProofs RunProofs WaveProofs Spark SparkAbs.
Import ListNotations.
Open Scope Z_scope.
Ltac Zify.zify_post_hook ::= idtac.

(** ** The decision *)
Definition wrap (r : option (Z * Z)) : option (Z * Z) := option_map (fun ab => (w32 (fst ab), w32 (snd ab))) r.

Lemma decide_match nd mf d o adv dwell g dt t D F q h p : match_out o p -> dv_rpm d <> 0 -> dv_valid d <> 0 ->
  clamp_angle (fadd (fsub (fsub (o_angle o) adv) (dv_last_angle d)) (dv_offset d)) (f_of_Z 720) = Ok g -> time_from_rpm_diff (dv_tooth_rpm d) g = Ok dt ->
  dv_last_time d = w32 t -> time_from_us dwell = Ok D -> time_from_us mf = Ok F ->
  time_from_rpm_diff (dv_rpm d) (f_of_Z 90) = Ok q -> time_from_rpm_diff (dv_rpm d) (f_of_Z 180) = Ok h ->
  exists o1, let '(p1, r) := adecide D F q h (t + dt) p in
    decide nd mf d o adv dwell = Ok (o1, wrap r) /\ match_out o1 p1 /\ (o1 = o \/ (event_has_fired o = true /\ reset_fired_event nd o = Ok o1)).
Proof.
  intros M Hr Hv Eg Et El Ed Ef Eq Eh. unfold decide. destruct (Z.eqb_spec (dv_rpm d) 0); [contradiction|]. destruct (Z.eqb_spec (dv_valid d) 0); [contradiction|]. cbn [orb].
  rewrite Eg. cbn [bind]. rewrite Et. cbn [bind]. rewrite Ed. cbn [bind]. rewrite El.
  assert (E0 : w32 (w32 t + dt) = w32 (t + dt)) by (unfold w32; apply Zplus_mod_idemp_l). rewrite E0. set (z := t + dt).
  assert (E1 : w32 (w32 z - D) = w32 (z - D)) by (unfold w32; apply Zminus_mod_idemp_l). rewrite E1.
  assert (GO : forall o' p', match_out o' p' -> exists r, ago D F h z p' = (p', r) /\
    (far <- moves_too_far d o' (w32 z) ;; if far : bool then Ok (o', None) else mf <- time_from_us mf ;; if time_diff (w32 (z - D)) (e_time (o_stop o')) <? mf then Ok (o', None) else Ok (o', Some (w32 (z - D), w32 z))) = Ok (o', wrap r)).
  { intros o' p' (_ & _ & [Sb Tb]). unfold ago, moves_too_far, time_diff. rewrite Sb, Tb, Ef, Eh.
    assert (WW : forall a b, w32 (w32 a - b mod W) = (a - b) mod W) by (intros; unfold w32; now rewrite <- Zminus_mod).
    rewrite !WW. change (w32 z) with (z mod W) at 1.
    destruct (sstate_eqb (g_state (p_off p')) SCHEDULED); cbn [andb bind].
    - destruct (time_before (g_time (p_off p') mod W) (z mod W)); cbn [andb bind].
      + destruct (h <? (z - g_time (p_off p')) mod W); [exists None; auto|]. destruct (_ <? F); eexists; split; reflexivity.
      + destruct (_ <? F); eexists; split; reflexivity.
    - destruct (_ <? F); eexists; split; reflexivity. }
  unfold recycle. rewrite (has_fired_match o p M). pose proof M as (_ & _ & [_ Tb]).
  assert (FF : adecide D F q h z p = if sstate_eqb (g_state (p_on p)) FIRED && sstate_eqb (g_state (p_off p)) FIRED then (if (z - g_time (p_off p)) mod W <? q then (p, None) else ago D F h z (forget p)) else ago D F h z p).
  { unfold adecide. destruct (g_state (p_on p)), (g_state (p_off p)); reflexivity. }
  rewrite FF. destruct (sstate_eqb (g_state (p_on p)) FIRED && sstate_eqb (g_state (p_off p)) FIRED) eqn:Fi.
  - rewrite Eq. cbn [bind]. unfold time_diff. rewrite Tb. assert (WW : w32 (w32 z - g_time (p_off p) mod W) = (z - g_time (p_off p)) mod W) by (unfold w32; now rewrite <- Zminus_mod).
    rewrite WW. destruct (_ <? q).
    + exists o. cbn [bind]. split; [reflexivity|]. auto.
    + apply andb_true_iff in Fi. destruct Fi as [F1 F2]. destruct (sstate_eqb_spec (g_state (p_on p)) FIRED) as [S1|]; [|discriminate]. destruct (sstate_eqb_spec (g_state (p_off p)) FIRED) as [S2|]; [|discriminate].
      destruct (reset_match nd o p M S1 S2) as (o1 & Er & M1). rewrite Er. cbn [bind]. destruct (GO o1 (forget p) M1) as (r & -> & Eg2). exists o1. split; [exact Eg2|]. split; [exact M1|]. right. split; [|reflexivity].
      rewrite ?S1, ?S2. reflexivity.
  - cbn [bind]. destruct (GO o p M) as (r & -> & Eg2). exists o. split; [exact Eg2|]. auto.
Qed.

(** ** What the hardware writes *)
Lemma flat_two (f : Z -> Z * bool) (f' : Z -> Z * bool) a b len : a < b -> forall s,
  flat_map (fun j => (if j =? a then [f j] else []) ++ (if j =? b then [f' j] else [])) (map Z.of_nat (seq s len)) =
  (if (Z.of_nat s <=? a) && (a <? Z.of_nat s + Z.of_nat len) then [f a] else []) ++ (if (Z.of_nat s <=? b) && (b <? Z.of_nat s + Z.of_nat len) then [f' b] else []).
Proof.
  intros Hab. induction len as [|len IH]; intros s.
  - cbn [seq map flat_map]. destruct (Z.leb_spec (Z.of_nat s) a), (Z.ltb_spec a (Z.of_nat s + Z.of_nat 0)), (Z.leb_spec (Z.of_nat s) b), (Z.ltb_spec b (Z.of_nat s + Z.of_nat 0)); cbn [andb app]; try reflexivity; lia.
  - cbn [seq map flat_map]. rewrite IH.
    destruct (Z.eqb_spec (Z.of_nat s) a), (Z.eqb_spec (Z.of_nat s) b); try lia;
    destruct (Z.leb_spec (Z.of_nat s) a), (Z.ltb_spec a (Z.of_nat s + Z.of_nat (S len))), (Z.leb_spec (Z.of_nat s) b), (Z.ltb_spec b (Z.of_nat s + Z.of_nat (S len))); try lia;
    destruct (Z.leb_spec (Z.of_nat (S s)) a), (Z.ltb_spec a (Z.of_nat (S s) + Z.of_nat len)), (Z.leb_spec (Z.of_nat (S s)) b), (Z.ltb_spec b (Z.of_nat (S s) + Z.of_nat len)); try lia; cbn [andb app]; subst; reflexivity.
Qed.

(** The level an edge puts on the pin of an output that may be inverted. *)
Definition level (inv : bool) (w : Z * bool) : Z * bool := (fst w, xorb inv (snd w)).

Lemma pulse_writes y i o p pin : sys_ok y -> nth_error (y_outs y) i = Some o -> match_out o p -> edge_ok (y_n y) (p_on p) -> edge_ok (y_n y) (p_off p) ->
  alone pin i (y_outs y) -> 0 <= pin < 16 -> (g_state (p_on p) = SUBMITTED -> g_state (p_off p) = SUBMITTED -> g_time (p_on p) < g_time (p_off p)) ->
  pin_writes (d_cur (y_dma y)) (y_n y) pin = map (level (o_inv o)) (edges_played (y_n y) p).
Proof.
  intros (B & F) Eo M O1 O2 Al Hp Or. set (n := y_n y) in *.
  pose proof (proj1 (Forall_forall _ _) F o (nth_error_In _ _ Eo)) as (_ & Ps & Pt). pose proof (proj2 (Al i o Eo) eq_refl) as Po.
  destruct M as (_ & [Sa Ta] & [Sb Tb]).
  set (here := fun g : edge => sstate_eqb (g_state g) SUBMITTED && (g_time g / 128 =? n)).
  assert (DM : forall x, x = 128 * (x / 128) + x mod 128 /\ 0 <= x mod 128 < 128) by (intros x; split; [apply Z.div_mod; lia|apply Z.mod_pos_bound; lia]).
  assert (BIT : forall j v, 0 <= j < 128 -> slot_bit (d_cur (y_dma y)) j pin v =
     ((Bool.eqb v (negb (o_inv o)) && (here (p_on p) && (j =? g_time (p_on p) mod 128))) || (Bool.eqb v (o_inv o) && (here (p_off p) && (j =? g_time (p_off p) mod 128))))).
  { intros j v Hj. apply eq_true_iff_eq. rewrite (bo_bits_cur _ _ _ B j pin v Hj Hp). fold n. rewrite orb_true_iff, !andb_true_iff, !Z.eqb_eq, !eqb_true_iff. unfold here. rewrite !andb_true_iff, !Z.eqb_eq.
    assert (EQ : forall e g, e_state e = g_state g -> e_time e = g_time g mod W -> edge_ok n g ->
      (e_state e = SUBMITTED /\ e_time e = w32 (128 * n + j) <-> (sstate_eqb (g_state g) SUBMITTED = true /\ g_time g / 128 = n) /\ j = g_time g mod 128)).
    { intros e g Es Et Hg. pose proof (DM (g_time g)) as [D1 D2]. split.
      - intros [Q1 Q2]. rewrite Es in Q1. rewrite Q1 in *. unfold edge_ok in Hg. rewrite Q1 in Hg. assert (g_time g = 128 * n + j) by (apply (same_tick n (g_time g) j Hg Hj); unfold w32 in *; congruence). split; [split; [reflexivity|]|]; lia.
      - intros [[Q1 Q2] Q3]. destruct (sstate_eqb_spec (g_state g) SUBMITTED) as [Q|]; [|discriminate]. split; [congruence|]. rewrite Et. unfold w32. f_equal. lia. }
    split.
    - intros (e & I & (Es & Et & Ep & Ev)). apply in_flat_map in I. destruct I as (x & Ix & Ie). apply In_nth_error in Ix. destruct Ix as [m Em].
      pose proof (proj1 (Forall_forall _ _) F x (nth_error_In _ _ Em)) as (_ & Qs & Qt).
      assert (m = i).
      { apply (Al m x Em). simpl in Ie. destruct Ie as [<-|[<-|[]]].
        - destruct (Qs (or_intror Es)) as [Q _]. congruence.
        - destruct (Qt (or_intror Es)) as [Q _]. congruence. }
      subst m. rewrite Eo in Em. injection Em as <-. simpl in Ie. destruct Ie as [<-|[<-|[]]].
      + left. destruct (Ps (or_intror Es)) as [_ Q]. split; [congruence|]. apply (proj1 (EQ (o_start o) (p_on p) Sa Ta O1)). split; assumption.
      + right. destruct (Pt (or_intror Es)) as [_ Q]. split; [congruence|]. apply (proj1 (EQ (o_stop o) (p_off p) Sb Tb O2)). split; assumption.
    - destruct (in_entries _ _ _ Eo) as [I1 I2]. intros [[-> H]|[-> H]].
      + exists (o_start o). split; auto. apply (proj2 (EQ (o_start o) (p_on p) Sa Ta O1)) in H. destruct H as [H1 H2]. destruct (Ps (or_intror H1)) as [Q1 Q2]. unfold edge_at. rewrite Q1, Q2, Po. auto.
      + exists (o_stop o). split; auto. apply (proj2 (EQ (o_stop o) (p_off p) Sb Tb O2)) in H. destruct H as [H1 H2]. destruct (Pt (or_intror H1)) as [Q1 Q2]. unfold edge_at. rewrite Q1, Q2, Po. auto. }
  set (a := if here (p_on p) then g_time (p_on p) mod 128 else -1). set (b := if here (p_off p) then g_time (p_off p) mod 128 else 128).
  assert (HP : forall g on, edge_played n g on = if here g then [(g_time g, on)] else []).
  { intros g on. unfold edge_played, here. destruct (g_state g); cbn [sstate_eqb andb]; reflexivity. }
  assert (AB : a < b).
  { pose proof (DM (g_time (p_on p))) as [D1 D2]. pose proof (DM (g_time (p_off p))) as [D3 D4]. unfold a, b. destruct (here (p_on p)) eqn:H1, (here (p_off p)) eqn:H2; try lia.
    unfold here in H1, H2. apply andb_true_iff in H1, H2. destruct H1 as [H1 H1'], H2 as [H2 H2']. apply Z.eqb_eq in H1', H2'.
    destruct (sstate_eqb_spec (g_state (p_on p)) SUBMITTED) as [Q1|]; [|discriminate]. destruct (sstate_eqb_spec (g_state (p_off p)) SUBMITTED) as [Q2|]; [|discriminate]. specialize (Or Q1 Q2). lia. }
  assert (PW : pin_writes (d_cur (y_dma y)) n pin = flat_map (fun j => (if j =? a then [(128 * n + j, negb (o_inv o))] else []) ++ (if j =? b then [(128 * n + j, o_inv o)] else [])) (map Z.of_nat (seq 0 128))).
  { unfold pin_writes. rewrite !flat_map_concat_map. f_equal. apply map_ext_in. intros j Ij. apply in_map_iff in Ij. destruct Ij as (x & <- & Ix). apply in_seq in Ix. set (j := Z.of_nat x) in *. assert (Hj : 0 <= j < 128) by (unfold j; lia). clearbody j.
    rewrite !BIT by exact Hj. unfold a, b in *.
    assert (A1 : (j =? (if here (p_on p) then g_time (p_on p) mod 128 else -1)) = here (p_on p) && (j =? g_time (p_on p) mod 128)). { destruct (here (p_on p)); cbn [andb]; [reflexivity|]. apply Z.eqb_neq. lia. }
    assert (A2 : (j =? (if here (p_off p) then g_time (p_off p) mod 128 else 128)) = here (p_off p) && (j =? g_time (p_off p) mod 128)). { destruct (here (p_off p)); cbn [andb]; [reflexivity|]. apply Z.eqb_neq. lia. }
    rewrite <- A1, <- A2. set (a' := if here (p_on p) then _ else _) in *. set (b' := if here (p_off p) then _ else _) in *. 
    destruct (Z.eqb_spec j a'), (Z.eqb_spec j b'); try lia; destruct (o_inv o); reflexivity. }
  rewrite PW. pose proof (flat_two (fun j => (128 * n + j, negb (o_inv o))) (fun j => (128 * n + j, o_inv o)) a b 128 AB 0) as FT. cbv beta in FT. rewrite FT. clear FT PW.
  unfold edges_played. rewrite !HP, map_app. pose proof (DM (g_time (p_on p))) as [D1 D2]. pose proof (DM (g_time (p_off p))) as [D3 D4]. unfold a, b in *. clear BIT.
  assert (TM : forall g, here g = true -> 128 * n + g_time g mod 128 = g_time g).
  { intros g H1. unfold here in H1. apply andb_true_iff in H1. destruct H1 as [_ H1]. apply Z.eqb_eq in H1. destruct (DM (g_time g)). lia. }
  f_equal.
  - destruct (here (p_on p)) eqn:H1.
    + destruct (Z.leb_spec (Z.of_nat 0) (g_time (p_on p) mod 128)), (Z.ltb_spec (g_time (p_on p) mod 128) (Z.of_nat 0 + Z.of_nat 128)); try lia. cbn [andb map]. unfold level. cbn [fst snd]. rewrite TM by exact H1. now rewrite xorb_true_r.
    + destruct (Z.leb_spec (Z.of_nat 0) (-1)); [lia|reflexivity].
  - destruct (here (p_off p)) eqn:H1.
    + destruct (Z.leb_spec (Z.of_nat 0) (g_time (p_off p) mod 128)), (Z.ltb_spec (g_time (p_off p) mod 128) (Z.of_nat 0 + Z.of_nat 128)); try lia. cbn [andb map]. unfold level. cbn [fst snd]. rewrite TM by exact H1. now rewrite xorb_false_r.
    + destruct (Z.ltb_spec 128 (Z.of_nat 0 + Z.of_nat 128)); [lia|]. rewrite andb_false_r. reflexivity.
Qed.

(** ** The run *)
Lemma upd_id {A} (l : list A) i x : nth_error l i = Some x -> upd_nat l i x = l.
Proof. revert i. induction l; intros [|i] H; simpl in *; try discriminate; try congruence. f_equal. auto. Qed.


Section Main.
Variables (fu : bool) (nd : bool) (dec : Z -> dview -> output -> res (output * option (Z * Z))) (view : Z -> dview) (tt : Z -> Z) (i : nat) (pin late : Z) (ang : f32) (iv : bool).
Variables (X off k h90 h180 D : Z -> Z) (m0 D1 D2 V F E En N G P PU a0 : Z).
Hypothesis HX : forall j, P <= X (j + 1) - X j <= PU.
Hypothesis Ht : forall m, m0 <= m -> tt m <= tt (m + 1) <= tt m + G.
Hypothesis Hmon : forall m, m0 <= m -> k m <= k (m + 1).
Hypothesis Hk0 : forall m, m0 <= m -> tt m - a0 <= X (k m) /\ X (k m - 1) <= tt m + a0.
Hypothesis Hoff : forall m, m0 <= m -> tt m <= off m /\ - (E - V) <= off m - X (k m) <= E - V.
Hypothesis Hnear : forall m, m0 <= m -> X (k m) - tt m <= N -> - (En - V) <= off m - X (k m) <= En - V.
Hypothesis Hq : forall m, m0 <= m -> 2 * E < h90 m <= X (k m) - X (k m - 1) - 2 * E.
Hypothesis Hh : forall m, m0 <= m -> 2 * E < h180 m < X (k m) - X (k m - 1) - 2 * E.
Hypothesis HE : 0 <= En <= E.
Hypothesis Ha0 : 0 <= a0 <= E.
Hypothesis HV : 0 <= V /\ (fu = true -> forall m m', m0 <= m -> m0 <= m' -> k m = k m' -> D m - D m' <= V).
Hypothesis HDm : forall m, m0 <= m -> D1 <= D m <= D2.
Hypothesis HD : 2 * En < D1 /\ (0 < F -> 2 * E < D1).
Hypothesis HF : 0 <= F.
Hypothesis HA : 0 <= late.
Hypothesis HN : late + G + D2 + E + a0 <= N.
Hypothesis HP : D2 + 2 * E + 512 + G + late + F + a0 <= P.
Hypothesis HPW : P <= PU <= 2 ^ 28.
Hypothesis Hpin : 0 <= pin < 16.
(** What the decoder shows after tooth [m] makes the code aimed at tick [off m]. *)
Hypothesis Hdec : forall m o p, m0 <= m -> match_out o p -> o_angle o = ang ->
  exists o1, let '(p1, r) := adecide (D m) F (h90 m) (h180 m) (off m) p in
    dec m (view m) o = Ok (o1, wrap r) /\ match_out o1 p1 /\ (o1 = o \/ (event_has_fired o = true /\ reset_fired_event nd o = Ok o1)).

Notation ctx' := (ctx fu tt off D m0 late).
Notation inv' := (SparkAbs.inv fu X tt off k D m0 D1 D2 F E En N).
Definition asked (ph : phase) : bool := match ph with Waiting => false | _ => true end.

Record rel (s : st) (o : output) (p : pulse) (r : option (Z * Z)) (log : list (Z * bool)) : Prop := {
  r_sys : sys_ok (st_sys s); r_out : nth_error (y_outs (st_sys s)) i = Some o; r_match : match_out o p;
  r_type : is_fuel (o_type o) = fu; r_angle : o_angle o = ang; r_inv : o_inv o = iv; r_alone : alone pin i (y_outs (st_sys s));
  r_req : st_req s = wrap r; r_pinned : st_phase s = Pinned -> r <> None -> start_pinned o /\ stop_pinned o;
  r_ctx : ctx' (y_n (st_sys s)) p r (st_next s) (asked (st_phase s)); r_inv' : inv' (y_n (st_sys s)) p r (st_next s) (asked (st_phase s)) log;
  r_log : st_log s = map (level iv) log }.
Definition R (s : st) : Prop := exists o p r log, rel s o p r log.

Lemma valid_i y o : nth_error (y_outs y) i = Some o -> (i < length (y_outs y))%nat.
Proof. intros H. apply nth_error_Some. congruence. Qed.

Lemma ask_R s : R s -> may tt i late s Ask -> exists s', go nd dec view i pin s Ask = Ok s' /\ R s'.
Proof.
  intros (o & p & r & log & [Y Eo M Ty An Iv Al Rq Rp C I Lg]) (Ph & Sn). rewrite Ph in *. cbn [asked] in *.
  assert (r = None) by (apply (x_idle _ _ _ _ _ _ _ _ _ _ _ C); reflexivity). subst r. set (m := st_next s) in *.
  pose proof (x_m _ _ _ _ _ _ _ _ _ _ _ C) as Hm. destruct (Hdec m o p Hm M An) as (o1 & Q).
  pose proof (ask_inv fu X tt off k h90 h180 D m0 D1 D2 V F E En N late G P PU a0 HX Ht Hmon Hk0 Hoff Hnear Hq Hh HE Ha0 HV HDm HD HF HA HN HP HPW _ p m log C I Sn) as AI.
  destruct (adecide (D m) F (h90 m) (h180 m) (off m) p) as [p1 r]. destruct Q as (Q1 & Q2 & Q3). destruct AI as [AC AI].
  unfold go. cbv zeta. rewrite Eo. fold m. rewrite Q1. cbn [bind]. eexists. split; [reflexivity|].
  assert (Y' : sys_ok (Sys (y_n (st_sys s)) (y_dma (st_sys s)) (upd_nat (y_outs (st_sys s)) i o1)) /\ settings o1 = settings o /\ o_angle o1 = o_angle o).
  { destruct Q3 as [->|(Fi & Re)].
    - rewrite upd_id by exact Eo. split; [|auto]. destruct (st_sys s); exact Y.
    - split.
      + apply (step_ok nd (st_sys s) (Reset i)); auto.
        * split; [exact Logic.I|]. split; [exact (valid_i _ _ Eo)|exact Logic.I].
        * cbn [step]. unfold upd_output. rewrite Eo, Fi, Re. reflexivity.
      + unfold reset_fired_event in Re. destruct (c_assert nd _); [|discriminate]. cbn [bind] in Re. destruct (c_assert nd _); [|discriminate]. cbn [bind] in Re. assert (Z0 : o1 = with_entries o (with_state (o_start o) UNSCHEDULED) (with_state (o_stop o) UNSCHEDULED)) by congruence. rewrite Z0. split; reflexivity. }
  destruct Y' as (Y1 & Y2 & Y3). unfold settings in Y2. assert (T1 : o_type o1 = o_type o) by congruence. assert (T2 : o_inv o1 = o_inv o) by congruence. assert (T3 : o_pin o1 = o_pin o) by congruence.
  exists o1, p1, r, log. constructor; cbn [st_sys st_req st_next st_phase st_log y_outs y_n asked]; auto; try congruence.
  - now apply upd_same with (b := o).
  - apply (alone_settings pin i (y_outs (st_sys s))); [|exact Al]. clear -Eo T1 T2 T3. revert i Eo. induction (y_outs (st_sys s)) as [|x os IH]; intros [|q] Eo; simpl in *; try discriminate.
    + assert (x = o) by congruence. subst x. f_equal. unfold settings. congruence.
    + f_equal. auto.
Qed.

Lemma pins_R s : R s -> may tt i late s SetPins -> exists s', go nd dec view i pin s SetPins = Ok s' /\ R s'.
Proof.
  intros (o & p & r & log & [Y Eo M Ty An Iv Al Rq Rp C I Lg]) Ph. cbn [may] in Ph. unfold go. cbv zeta. rewrite Rq, Ph in *. cbn [asked] in *.
  destruct r as [[a b]|]; cbn [wrap option_map fst snd].
  - assert (L : legal (st_sys s) (Pins i)) by (split; [exact Logic.I|]; split; [exact (valid_i _ _ Eo)|exact Logic.I]).
    assert (Es : step nd (st_sys s) (Pins i) = Ok (Sys (y_n (st_sys s)) (y_dma (st_sys s)) (upd_nat (y_outs (st_sys s)) i (set_pins o)))) by (cbn [step]; unfold upd_output; rewrite Eo; reflexivity).
    rewrite Es. cbn [bind]. eexists. split; [reflexivity|]. exists (set_pins o), p, (Some (a, b)), log. constructor; cbn [st_sys st_req st_next st_phase st_log y_outs y_n asked]; auto.
    + exact (step_ok nd _ _ _ Y L Es).
    + now apply upd_same with (b := o).
    + exact (alone_settings pin i _ _ (step_settings nd _ _ _ Es) Al).
    + intros _ _. split; split; reflexivity.
  - eexists. split; [reflexivity|]. exists o, p, None, log. constructor; cbn [st_sys st_req st_next st_phase st_log asked]; auto. congruence.
Qed.

Lemma commit_keeps e o a b : o_type (commit_times e o a b) = o_type o /\ o_angle (commit_times e o a b) = o_angle o /\ o_inv (commit_times e o a b) = o_inv o.
Proof. unfold commit_times. destruct (event_is_unscheduled o); repeat (match goal with |- context [let '(_, _) := ?x in _] => destruct x as [[] ?] end); repeat split. Qed.

Lemma write_R s : R s -> may tt i late s Write -> exists s', go nd dec view i pin s Write = Ok s' /\ R s'.
Proof.
  intros (o & p & r & log & [Y Eo M Ty An Iv Al Rq Rp C I Lg]) Ph. cbn [may] in Ph. unfold go. cbv zeta. rewrite Rq, Ph in *. cbn [asked] in *. specialize (Rp eq_refl).
  destruct (write_inv fu X tt off k D m0 D1 D2 V F E En N late G P PU a0 HX Ht Hmon Hk0 Hoff Hnear HE Ha0 HV HDm HD HF HA HN HP HPW _ p r _ log C I) as [WC WI].
  destruct r as [[a b]|]; cbn [wrap option_map fst snd write] in *.
  - specialize (Rp ltac:(discriminate)).
    assert (L : legal (st_sys s) (Commit i (w32 a) (w32 b))).
    { split; [exact Logic.I|]. split; [exact (valid_i _ _ Eo)|]. intros o' Eo'. assert (o' = o) by congruence. subst o'. exact Rp. }
    set (o2 := commit_times (earliest_schedulable (y_dma (st_sys s))) o (w32 (w32 a)) (w32 (w32 b))).
    assert (Es : step nd (st_sys s) (Commit i (w32 a) (w32 b)) = Ok (Sys (y_n (st_sys s)) (y_dma (st_sys s)) (upd_nat (y_outs (st_sys s)) i o2))) by (cbn [step]; unfold upd_output; rewrite Eo; reflexivity).
    rewrite Es. cbn [bind]. eexists. split; [reflexivity|]. destruct (commit_keeps (earliest_schedulable (y_dma (st_sys s))) o (w32 (w32 a)) (w32 (w32 b))) as (K1 & K2 & K3). fold o2 in K1, K2, K3.
    exists o2, (request (y_n (st_sys s)) p a b), None, log. constructor; cbn [st_sys st_req st_next st_phase st_log y_outs y_n asked]; auto; try congruence.
    + exact (step_ok nd _ _ _ Y L Es).
    + now apply upd_same with (b := o).
    + unfold o2. destruct Y as [B _]. rewrite (earliest_open _ _ _ B). assert (WW : forall x, w32 (w32 x) = w32 x) by (intros; unfold w32; apply Z.mod_mod; unfold W; lia). rewrite !WW. apply commit_match; [exact M|].
      pose proof (x_r _ _ _ _ _ _ _ _ _ _ _ C) as Xr. destruct Xr as [Q|Q]; [discriminate|]. assert (a = off (st_next s) - D (st_next s)) by congruence. assert (b = off (st_next s)) by congruence. subst a b.
      eapply (request_window fu X tt off k D m0 D1 D2 V F E En N late G P PU a0); eauto.
    + exact (alone_settings pin i _ _ (step_settings nd _ _ _ Es) Al).
  - eexists. split; [reflexivity|]. exists o, p, None, log. constructor; cbn [st_sys st_req st_next st_phase st_log asked]; auto; congruence.
Qed.

Lemma swap_R s now : R s -> may tt i late s (SwapIrq now) -> exists s', go nd dec view i pin s (SwapIrq now) = Ok s' /\ R s'.
Proof.
  intros (o & p & r & log & [Y Eo M Ty An Iv Al Rq Rp C I Lg]) (Nw & La).
  pose proof (swap_inv fu X tt off k D m0 D1 D2 V F E En N late G a0 Ht Hoff Hnear HE Ha0 HV HDm HD HN _ p r _ _ log C I La) as [SC SI].
  assert (L : legal (st_sys s) (Swap now)) by (split; [exact Nw|]; split; exact Logic.I).
  pose proof Y as (B & _). destruct (swap_spec now _ _ _ Nw B) as (d' & Ed & _).
  set (o2 := move_out SCHEDULED SUBMITTED (empty_buffer (w32 (128 * (y_n (st_sys s) + 2)))) (move_out SUBMITTED FIRED (d_cur (y_dma (st_sys s))) o)).
  unfold go. cbv zeta. assert (Es : exists y2, step nd (st_sys s) (Swap now) = Ok y2 /\ y2 = Sys (y_n (st_sys s) + 1) d' (map (move_out SCHEDULED SUBMITTED (empty_buffer (w32 (128 * (y_n (st_sys s) + 2))))) (map (move_out SUBMITTED FIRED (d_cur (y_dma (st_sys s)))) (y_outs (st_sys s))))).
  { cbn [step]. rewrite Ed. cbn [bind]. eauto. }
  destruct Es as (y2 & Es & Ey). rewrite Es. cbn [bind]. eexists. split; [reflexivity|].
  assert (En2 : y_n y2 = y_n (st_sys s) + 1) by (rewrite Ey; reflexivity).
  exists o2, (tick_pulse (y_n (st_sys s)) p), r, (log ++ edges_played (y_n (st_sys s)) p). constructor; cbn [st_sys st_req st_next st_phase st_log]; auto; try (rewrite En2; assumption).
  - exact (step_ok nd _ _ _ Y L Es).
  - rewrite Ey. cbn [y_outs]. rewrite map_map, nth_error_map, Eo. reflexivity.
  - destruct M as (Hf & Ha & Hb). pose proof (proj2 (bo_cur _ _ _ B)) as Fc. split; [exact Hf|]. split; cbn [o2 move_out with_entries o_start o_stop tick_pulse p_on p_off]; apply move_match; auto; apply C.
  - exact (alone_settings pin i _ _ (step_settings nd _ _ _ Es) Al).
  - intros Q1 Q2. destruct (Rp Q1 Q2) as [[P1 P2] [P3 P4]]. unfold start_pinned, stop_pinned, o2. cbn [move_out with_entries o_start o_stop o_pin o_inv].
    assert (VM : forall s s' b e, e_val (move s s' b e) = e_val e) by (intros; unfold move; destruct (_ && _); reflexivity). rewrite !move_pin, !VM. auto.
  - rewrite Lg, map_app. f_equal. rewrite <- Iv. apply pulse_writes with (i := i); auto; try apply C.
    intros S1 S2. inversion I as [U1 U2 | j0 j l J0 J Gd Mm Kj _ _ E1 E2 _ | j0 j l J0 J Gd Mm Kj St]; [congruence| |destruct St as [[]|[]]; congruence].
    assert (Y1 : aimed X tt k m0 N (on_at off D) j (g_time (p_on p))) by (apply (src_aimed fu X tt k m0 D2 E N late G a0 Ht HN _ _ _ _ _ Mm E1); left; congruence).
    assert (Y2 : aimed X tt k m0 N (off_at fu off D (g_time (p_on p))) j (g_time (p_off p))) by (apply (src_aimed fu X tt k m0 D2 E N late G a0 Ht HN _ _ _ _ _ Mm E2); left; unfold mover; destruct fu; congruence).
    eapply (off_near fu X tt off k D m0 D1 D2 V F E En N a0); eauto.
Qed.

Lemma other_R s a s' : R s -> may tt i late s (Other a) -> go nd dec view i pin s (Other a) = Ok s' -> R s'.
Proof.
  intros (o & p & r & log & [Y Eo M Ty An Iv Al Rq Rp C I Lg]) (L & Ne) H. unfold go in H. cbv zeta in H.
  destruct (step nd (st_sys s) a) as [y'|] eqn:Es; [|discriminate]. cbn [bind] in H. injection H as <-.
  assert (Q : y_n y' = y_n (st_sys s) /\ nth_error (y_outs y') i = Some o).
  { destruct a as [j|j on of|j|j|now]; try contradiction; cbn [step] in Es; (destruct (upd_output _ _ _) as [os|] eqn:U; [|discriminate]); cbn [bind] in Es; injection Es as <-;
      apply upd_output_inv in U; destruct U as (x & x' & Ex & _ & ->); cbn [y_n y_outs]; (split; [reflexivity|]); rewrite upd_other by exact Ne; exact Eo. }
  destruct Q as [Q1 Q2]. exists o, p, r, log. constructor; cbn [st_sys st_req st_next st_phase st_log]; auto; try (rewrite Q1; assumption).
  - exact (step_ok nd _ _ _ Y L Es).
  - exact (alone_settings pin i _ _ (step_settings nd _ _ _ Es) Al).
Qed.

Lemma step_R s e s' : R s -> may tt i late s e -> go nd dec view i pin s e = Ok s' -> R s'.
Proof.
  intros H M G'. destruct e.
  - destruct (ask_R s H M) as (x & Q & Rx). congruence.
  - destruct (pins_R s H M) as (x & Q & Rx). congruence.
  - destruct (write_R s H M) as (x & Q & Rx). congruence.
  - destruct (swap_R s now H M) as (x & Q & Rx). congruence.
  - exact (other_R s a s' H M G').
Qed.
Lemma exec_R s l s' : exec nd dec view tt i pin late s l s' -> R s -> R s'.
Proof. induction 1; auto. intros. apply IHexec. eapply step_R; eauto. Qed.

(** No step of this output or of the swap interrupt goes wrong. *)
Lemma live_R s e : R s -> may tt i late s e -> (forall a, e <> Other a) -> exists s', go nd dec view i pin s e = Ok s'.
Proof.
  intros H M No. destruct e.
  - destruct (ask_R s H M) as (x & Q & Rx). eauto.
  - destruct (pins_R s H M) as (x & Q & Rx). eauto.
  - destruct (write_R s H M) as (x & Q & Rx). eauto.
  - destruct (swap_R s now H M) as (x & Q & Rx). eauto.
  - now destruct (No a).
Qed.

Lemma start_R n os o : open_from n <= tt m0 + late -> nth_error os i = Some o -> Forall fresh os -> Forall (fun o => 0 <= o_pin o mod 256 < 32) os -> alone pin i os ->
  is_fuel (o_type o) = fu -> o_angle o = ang -> o_inv o = iv -> R (St (start_sys n os) None m0 Waiting []).
Proof.
  intros Ho Eo Fr Ps Al Ty An Iv. pose proof (proj1 (Forall_forall _ _) Fr o (nth_error_In _ _ Eo)) as (F1 & F2 & F3 & F4 & _ & _).
  set (p := Pulse fu (Edge UNSCHEDULED (e_time (o_start o))) (Edge UNSCHEDULED (e_time (o_stop o)))).
  destruct (init_inv fu X tt off k D m0 D1 D2 F E En N late n p) as [IC II]; try reflexivity; try exact Logic.I; [exact Ho|].
  exists o, p, None, []. constructor; cbn [st_sys st_req st_next st_phase st_log start_sys y_outs y_n asked]; auto.
  - apply start_ok; assumption.
  - split; [exact Ty|]. split; split; cbn [p_on p_off p g_state g_time]; auto; symmetry; apply Z.mod_small; assumption.
  - congruence.
Qed.

Lemma outcome_R s : R s -> exists j0 l tl, k m0 <= j0 <= k m0 + 2 /\ good fu X tt off k D m0 N j0 l /\ st_log s = map (level iv) (whole l ++ tl) /\
  (tl = [] \/ exists a, tl = [(a, true)] /\ aimed X tt k m0 N (on_at off D) (j0 + Z.of_nat (length l)) a) /\
  (forall q, j0 <= q -> X q + E < 128 * y_n (st_sys s) -> q < j0 + Z.of_nat (length l)).
Proof.
  intros (o & p & r & log & [Y Eo M Ty An Iv Al Rq Rp C I Lg]).
  destruct (inv_outcome fu X tt off k D m0 D1 D2 V F E En N late G P PU a0 HX Ht Hk0 Hoff HE Ha0 HV HDm HD HF HA HN HP _ _ _ _ _ _ C I) as (j0 & l & tl & Q1 & Q2 & Q3 & Q4 & Q5).
  exists j0, l, tl. split; [exact Q1|]. split; [exact Q2|]. split; [congruence|]. split; [exact Q4|exact Q5].
Qed.
End Main.
