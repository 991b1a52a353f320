(** Proofs about request framing. *)
Require Import ZArith List Bool Lia.
Require Import Verif.Res Verif.Word Verif.F32 Verif.TimeProofs Verif.Framing Verif.FramingSpec.
Import ListNotations.
Open Scope Z_scope.
Ltac Zify.zify_post_hook ::= idtac.

Lemma limit_5s : time_from_us 5000000 = Ok 20000000.
Proof. rewrite time_from_us_exact by lia. reflexivity. Qed.

Lemma len_nonneg b : 0 <= len b.
Proof. unfold len; lia. Qed.

Lemma len_app a b : len (a ++ b) = len a + len b.
Proof. unfold len; rewrite app_length; lia. Qed.

Lemma len_nil b : len b = 0 -> b = [].
Proof. destruct b; [reflexivity|unfold len; cbn [length]; lia]. Qed.

Lemma len_cons x b : len (x :: b) = 1 + len b.
Proof. unfold len; cbn [length]; lia. Qed.

Section F.
Variable p : parser.
Variable nd : bool.
Variable clock : nat -> Z.
Hypothesis Hp : reads_cbor p.

Definition skip := skip_to_map p clock.

Lemma read_split w mx i got rest : console_read w mx i = (got, rest) ->
  got ++ rest = i /\ len got <= Z.max 0 mx.
Proof.
  unfold console_read. intros E. injection E as <- <-.
  split; [apply firstn_skipn|]. unfold len. rewrite firstn_length.
  unfold len. lia.
Qed.

(** The loop that looks for a map. *)
Lemma skip_inv buf : forall start k b' s' k', skip buf start k = (b', s', k') ->
  (exists d, buf = d ++ b' /\ (d = [] -> s' = start /\ k' = k)
     /\ (d <> [] -> exists i, (k <= i < k')%nat /\ s' = clock i))
  /\ (k <= k')%nat /\ (b' <> [] -> starts_map p b' = true).
Proof.
  induction buf as [|x buf IH]; intros start k b' s' k' E; unfold skip in *; cbn [skip_to_map] in E.
  - injection E as <- <- <-. split; [|split; [lia|congruence]].
    exists []. split; [reflexivity|]. split; [auto|congruence].
  - destruct (starts_map p (x :: buf)) eqn:S.
    + injection E as <- <- <-. split; [|split; [lia|auto]].
      exists []. split; [reflexivity|]. split; [auto|congruence].
    + destruct (IH _ _ _ _ _ E) as ((d & Hd & D1 & D2) & Hk & Hs).
      split; [|split; [lia|exact Hs]].
      exists (x :: d). split; [cbn [app]; rewrite Hd at 1; reflexivity|].
      split; [congruence|]. intros _.
      destruct d as [|y d].
      * destruct (D1 eq_refl) as [-> ->]. exists k. split; [lia|reflexivity].
      * destruct D2 as (i & Hi & ->); [congruence|]. exists i. split; [lia|reflexivity].
Qed.

Lemma skip_noop buf start k : starts_map p buf = true -> skip buf start k = (buf, start, k).
Proof. unfold skip. destruct buf; cbn [skip_to_map]; intros H; [reflexivity|rewrite H; reflexivity]. Qed.

Lemma skip_junk junk buf : forall start k, Forall (fun x => ~ map_byte x) junk ->
  exists start' k', skip (junk ++ buf) start k = skip buf start' k' /\ (k <= k')%nat
   /\ (start' = start \/ exists i, (k <= i < k')%nat /\ start' = clock i).
Proof.
  induction junk as [|x junk IH]; intros start k F.
  - exists start, k. split; [reflexivity|]. split; [lia|auto].
  - inversion F as [|? ? Hx F']; subst.
    destruct (IH (clock k) (S k) F') as (s' & k' & E & Hk & Hs).
    exists s', k'. split; [|split; [lia|]].
    + unfold skip in *. cbn [skip_to_map app]. rewrite (rc_other _ Hp x (junk ++ buf) Hx). exact E.
    + right. destruct Hs as [->|(i & Hi & ->)]; [exists k; split; [lia|reflexivity]|].
      exists i. split; [lia|reflexivity].
Qed.

(** What one call of console_try_read can do. *)
Inductive tried (w : Z) (s : rxs) : Z -> rxs -> Prop :=
| Tried_none start k rest :
    (exists dropped, rx_buf s ++ rx_in s = dropped ++ rest) ->
    (rx_k s <= k)%nat -> (start = rx_start s \/ exists i, (rx_k s <= i < k)%nat /\ start = clock i) ->
    tried w s 0 (Rx [] start k rest)
| Tried_wait start k buf rest :
    (exists dropped, rx_buf s ++ rx_in s = dropped ++ buf ++ rest) ->
    (rx_k s <= k)%nat ->
    ((start = rx_start s /\ rx_buf s <> []) \/ exists i, (rx_k s <= i < k)%nat /\ start = clock i) ->
    starts_map p buf = true -> validate p buf = Incomplete -> 0 < len buf < RX_SIZE ->
    w32 (clock k - start) <= 20000000 ->
    tried w s 0 (Rx buf start (S k) rest)
| Tried_got n start k buf rest :
    (exists dropped, rx_buf s ++ rx_in s = dropped ++ buf ++ rest) ->
    (rx_k s <= k)%nat ->
    ((start = rx_start s /\ rx_buf s <> []) \/ exists i, (rx_k s <= i < k)%nat /\ start = clock i) ->
    starts_map p buf = true -> validate p buf = Complete n -> 0 < len buf <= RX_SIZE ->
    tried w s n (Rx buf start k rest).

Lemma try_read_tried w s : len (rx_buf s) <= RX_SIZE ->
  exists n s', console_try_read p clock w s = Ok (n, s') /\ tried w s n s'.
Proof.
  intros Hl. unfold console_try_read.
  set (sk := if len (rx_buf s) =? 0 then _ else _).
  destruct sk as [start0 k0] eqn:Esk.
  assert (Hsk : (rx_k s <= k0)%nat /\
     ((start0 = rx_start s /\ rx_buf s <> []) \/ exists i, (rx_k s <= i < k0)%nat /\ start0 = clock i)).
  { unfold sk in Esk. destruct (len (rx_buf s) =? 0) eqn:E; injection Esk as <- <-.
    - split; [lia|]. right. exists (rx_k s). split; [lia|reflexivity].
    - split; [lia|]. left. split; [reflexivity|]. intros C. rewrite C in E. discriminate E. }
  clearbody sk. clear Esk sk. destruct Hsk as [Hk0 Hst0].
  destruct (console_read w (RX_SIZE - len (rx_buf s)) (rx_in s)) as [got rest] eqn:Er.
  destruct (read_split _ _ _ _ _ Er) as [Hgr Hg].
  assert (Hb : len (rx_buf s ++ got) <= RX_SIZE) by (rewrite len_app; lia).
  destruct (Z.ltb_spec RX_SIZE (len (rx_buf s ++ got))); [lia|].
  assert (Hall : rx_buf s ++ rx_in s = (rx_buf s ++ got) ++ rest).
  { rewrite <- app_assoc, Hgr. reflexivity. }
  destruct (Z.eqb_spec (len (rx_buf s ++ got)) 0) as [E0|E0].
  - apply len_nil in E0. rewrite E0. eexists _, _. split; [reflexivity|].
    apply Tried_none; [|exact Hk0|].
    + exists []. rewrite Hall, E0. reflexivity.
    + destruct Hst0 as [[? _]|?]; auto.
  - fold skip.
    destruct (skip (rx_buf s ++ got) start0 k0) as [[buf start] k] eqn:Es.
    destruct (skip_inv _ _ _ _ _ _ Es) as ((d & Hd & D1 & D2) & Hk & Hs).
    assert (Hlb : len buf <= RX_SIZE).
    { rewrite Hd, len_app in Hb. pose proof (len_nonneg d). lia. }
    assert (Hst : (start = rx_start s /\ rx_buf s <> []) \/ exists i, (rx_k s <= i < k)%nat /\ start = clock i).
    { destruct d as [|y d].
      - destruct (D1 eq_refl) as [-> ->]. exact Hst0.
      - right. destruct D2 as (i & Hi & ->); [congruence|]. exists i. split; [lia|reflexivity]. }
    destruct (Z.eqb_spec (len buf) 0) as [E1|E1].
    + apply len_nil in E1. subst buf. eexists _, _. split; [reflexivity|].
      apply Tried_none; [|lia|].
      * exists d. rewrite Hall, Hd, app_nil_r. reflexivity.
      * destruct Hst as [[? _]|?]; auto.
    + assert (Hne : buf <> []) by (intros C; rewrite C in E1; apply E1; reflexivity).
      pose proof (len_nonneg buf) as Hn.
      specialize (Hs Hne).
      assert (Hdr : exists dropped, rx_buf s ++ rx_in s = dropped ++ buf ++ rest).
      { exists d. rewrite Hall, Hd, <- app_assoc. reflexivity. }
      assert (Hdr0 : exists dropped, rx_buf s ++ rx_in s = dropped ++ rest).
      { exists (d ++ buf). rewrite Hall, Hd, <- app_assoc. reflexivity. }
      assert (Hst' : start = rx_start s \/ exists i, (rx_k s <= i < k)%nat /\ start = clock i).
      { destruct Hst as [[? _]|?]; auto. }
      assert (Hst'' : start = rx_start s \/ exists i, (rx_k s <= i < S k)%nat /\ start = clock i).
      { destruct Hst' as [?|(i & Hi & ?)]; [auto|right; exists i; split; [lia|assumption]]. }
      destruct (validate p buf) eqn:V.
      * eexists _, _. split; [reflexivity|]. apply Tried_got; auto; lia.
      * rewrite limit_5s. cbn [bind].
        destruct (Z.ltb_spec 20000000 (w32 (clock k - start))) as [T|T].
        -- change (len [] =? RX_SIZE) with false. cbv iota.
           eexists _, _. split; [reflexivity|]. apply Tried_none; auto. lia.
        -- destruct (Z.eqb_spec (len buf) RX_SIZE) as [EF|EF].
           ++ eexists _, _. split; [reflexivity|]. apply Tried_none; auto. lia.
           ++ eexists _, _. split; [reflexivity|]. apply Tried_wait; auto; lia.
      * eexists _, _. split; [reflexivity|]. apply Tried_none; auto; lia.
Qed.

(** What one poll can do. *)
Lemma poll_spec w s : len (rx_buf s) <= RX_SIZE ->
  exists m s', console_poll p nd clock w s = Ok (m, s') /\ len (rx_buf s') < RX_SIZE /\
    (rx_k s <= rx_k s')%nat /\
    ((m = [] /\ tried w s 0 s')
     \/ (exists n s1, tried w s n s1 /\ 0 < n /\ rx_buf s1 = m ++ rx_buf s' /\ len m = n
           /\ request p m /\ rx_in s' = rx_in s1 /\ rx_start s' = rx_start s1 /\ rx_k s' = rx_k s1)).
Proof.
  intros Hl. destruct (try_read_tried w s Hl) as (n & s1 & E & T).
  unfold console_poll. rewrite E. cbn [bind].
  inversion T as [start k rest H1 H2 H3 E1 E2|start k buf rest H1 H2 H3 H4 H5 H6 H7 E1 E2
                 |n' start k buf rest H1 H2 H3 H4 H5 H6 E1 E2]; subst.
  - change (0 =? 0) with true. cbv iota. eexists _, _. split; [reflexivity|]. cbn [rx_buf rx_k].
    split; [unfold RX_SIZE; reflexivity|]. split; [assumption|]. left. auto.
  - change (0 =? 0) with true. cbv iota. eexists _, _. split; [reflexivity|]. cbn [rx_buf rx_k].
    split; [lia|]. split; [lia|]. left. auto.
  - destruct (rc_complete _ Hp _ _ H4 H5) as [Hn Hr].
    destruct (Z.eqb_spec n 0); [lia|]. cbn [rx_buf rx_in rx_start rx_k].
    destruct (Z.ltb_spec (len buf) n); [lia|].
    unfold console_shift_rx_buffer.
    destruct (Z.leb_spec n (len buf)); [|lia].
    assert (Ha : c_assert nd true = Ok tt) by (destruct nd; reflexivity).
    rewrite Ha. cbn [bind].
    destruct (Z.ltb_spec (len buf) n); [lia|]. cbn [bind].
    eexists _, _. split; [reflexivity|]. cbn [rx_buf rx_in rx_start rx_k].
    assert (Hs : len (skipn (Z.to_nat n) buf) = len buf - n).
    { unfold len in *. rewrite skipn_length. lia. }
    split; [lia|]. split; [assumption|].
    right. exists n, (Rx buf start k rest). cbn [rx_buf rx_in rx_start rx_k].
    split; [exact T|]. split; [lia|].
    split; [symmetry; apply firstn_skipn|].
    split; [unfold len in *; rewrite firstn_length; lia|]. auto.
Qed.

(** Every history: the buffer never overflows, and nothing goes wrong. *)
Lemma polls_ok ws : forall s, len (rx_buf s) <= RX_SIZE ->
  exists ms s', polls p nd clock ws s = Ok (ms, s') /\ len (rx_buf s') <= RX_SIZE.
Proof.
  induction ws as [|w ws IH]; intros s Hl.
  - eexists _, _. split; [reflexivity|exact Hl].
  - destruct (poll_spec w s Hl) as (m & s1 & E & Hl1 & _).
    destruct (IH s1) as (ms & s2 & E2 & Hl2); [lia|].
    cbn [polls]. rewrite E. cbn [bind]. rewrite E2. cbn [bind].
    eexists _, _. split; [reflexivity|exact Hl2].
Qed.

(** Requests appear in the input, in order and without overlap. *)
Fixpoint in_order (ms : list (list Z)) (l : list Z) : Prop :=
  match ms with
  | [] => True
  | m :: ms' => exists x y, l = x ++ m ++ y /\ in_order ms' y
  end.

Lemma in_order_app_l ms d l : in_order ms l -> in_order ms (d ++ l).
Proof.
  destruct ms as [|m ms]; cbn [in_order]; [auto|].
  intros (x & y & -> & H). exists (d ++ x), y. rewrite <- app_assoc. auto.
Qed.

Lemma polls_requests ws : forall s ms s', len (rx_buf s) <= RX_SIZE ->
  polls p nd clock ws s = Ok (ms, s') ->
  Forall (request p) ms /\ in_order ms (rx_buf s ++ rx_in s).
Proof.
  induction ws as [|w ws IH]; intros s ms s' Hl E; cbn [polls] in E.
  - injection E as <- <-. split; [constructor|exact I].
  - destruct (poll_spec w s Hl) as (m & s1 & E1 & Hl1 & _ & D).
    rewrite E1 in E. cbn [bind] in E.
    destruct (polls p nd clock ws s1) as [[ms1 s2]|] eqn:E2; [|discriminate].
    cbn [bind] in E.
    assert (Hl1' : len (rx_buf s1) <= RX_SIZE) by lia.
    destruct (IH _ _ _ Hl1' E2) as [F O].
    destruct D as [[-> T]|(n & st & T & Hn & Hb & Hm & Hr & Hi & _)].
    + injection E as <- <-. split; [exact F|].
      inversion T as [start k rest H1 H2 H3 X1 X2|start k buf rest H1 H2 H3 H4 H5 H6 H7 X1 X2
                     |n' start k buf rest H1 H2 H3 H4 H5 H6 X1 X2]; subst s1; cbn [rx_buf rx_in] in *.
      * destruct H1 as (d & ->). apply in_order_app_l. exact O.
      * destruct H1 as (d & ->). apply in_order_app_l. exact O.
      * subst n'. destruct (rc_complete _ Hp _ _ H4 H5). lia.
    + assert (Hms : ms = m :: ms1).
      { destruct m as [|x m']; [exfalso; unfold len in Hm; cbn [length] in Hm; lia|]. congruence. }
      subst ms. split; [constructor; assumption|].
      inversion T as [start k rest H1 H2 H3 X1 X2|start k buf rest H1 H2 H3 H4 H5 H6 H7 X1 X2
                     |n' start k buf rest H1 H2 H3 H4 H5 H6 X1 X2]; subst; try lia.
      cbn [rx_buf rx_in] in *. destruct H1 as (d & ->).
      cbn [in_order]. exists d, (rx_buf s1 ++ rx_in s1). split; [|exact O].
      rewrite Hb, Hi, <- app_assoc. reflexivity.
Qed.

(** ** Delivery *)
Definition left_of (s : rxs) (items : list (list Z * list Z)) : Prop :=
  rx_buf s ++ rx_in s = stream items /\ Forall (sendable p) items.

Definition fresh (k0 : nat) (s : rxs) : Prop :=
  (k0 <= rx_k s)%nat /\
  (rx_buf s <> [] -> exists i, (k0 <= i < rx_k s)%nat /\ rx_start s = clock i).

Lemma app_split {A} (a b c d : list A) : a ++ b = c ++ d ->
  (exists x, c = a ++ x /\ b = x ++ d) \/ (exists x, x <> [] /\ a = c ++ x /\ d = x ++ b).
Proof.
  revert c. induction a as [|y a IH]; intros c E.
  - left. exists c. auto.
  - destruct c as [|z c].
    + right. exists (y :: a). split; [congruence|]. cbn [app] in *. auto.
    + cbn [app] in E. injection E as -> E. destruct (IH _ E) as [(x & -> & ->)|(x & Hx & -> & ->)].
      * left. exists x. auto.
      * right. exists x. auto.
Qed.

Lemma junk_no_map junk b : Forall (fun x => ~ map_byte x) junk -> junk <> [] ->
  starts_map p (junk ++ b) = false.
Proof.
  intros F N. destruct junk as [|x j]; [congruence|]. inversion F; subst.
  cbn [app]. apply (rc_other _ Hp). assumption.
Qed.

(** The state after one call of console_try_read while a client's input comes in. *)
Lemma try_read_delivers w s items k0 : len (rx_buf s) <= RX_SIZE ->
  left_of s items -> fresh k0 s ->
  exists n s', console_try_read p clock w s = Ok (n, s') /\ fresh k0 s' /\
    (within_5s clock k0 (rx_k s') ->
    exists items', left_of s' items' /\ map snd items' = map snd items /\
      ((n = 0 /\ (rx_in s' = [] -> rx_buf s' = [] /\ items' = []))
       \/ exists m tl, items' = ([], m) :: tl /\ n = len m /\ request p m
            /\ exists r, rx_buf s' = m ++ r)).
Proof.
  intros Hl [Hst HF] [Hk0 Hfr].
  destruct (try_read_tried w s Hl) as (n0 & s0 & E0 & T0).
  exists n0, s0. split; [exact E0|].
  assert (Hf : fresh k0 s0).
  { inversion T0 as [start k rest H1 H2 H3 X1 X2|start k buf rest H1 H2 H3 H4 H5 H6 H7 X1 X2
                    |n' start k buf rest H1 H2 H3 H4 H5 H6 X1 X2]; subst; split; cbn [rx_k rx_buf rx_start]; try lia.
    - congruence.
    - intros _. destruct H3 as [[-> N]|(i & Hi & ->)].
      + destruct (Hfr N) as (i & Hi & ->). exists i. split; [lia|reflexivity].
      + exists i. split; [lia|reflexivity].
    - intros _. destruct H3 as [[-> N]|(i & Hi & ->)].
      + destruct (Hfr N) as (i & Hi & ->). exists i. split; [lia|reflexivity].
      + exists i. split; [lia|reflexivity]. }
  split; [exact Hf|]. intros Hw.
  revert E0. unfold console_try_read.
  set (sk := if len (rx_buf s) =? 0 then _ else _).
  destruct sk as [start0 k1] eqn:Esk.
  assert (Hsk : (k0 <= k1)%nat /\ exists i, (k0 <= i < k1)%nat /\ start0 = clock i).
  { unfold sk in Esk. destruct (len (rx_buf s) =? 0) eqn:E; injection Esk as <- <-.
    - split; [lia|]. exists (rx_k s). split; [lia|reflexivity].
    - split; [lia|]. apply Hfr. intros C. rewrite C in E. discriminate E. }
  clearbody sk. clear Esk sk. destruct Hsk as [Hk1 Hst0].
  destruct (console_read w (RX_SIZE - len (rx_buf s)) (rx_in s)) as [got rest] eqn:Er.
  destruct (read_split _ _ _ _ _ Er) as [Hgr Hg].
  assert (Hb : len (rx_buf s ++ got) <= RX_SIZE) by (rewrite len_app; lia).
  destruct (Z.ltb_spec RX_SIZE (len (rx_buf s ++ got))); [lia|].
  assert (Hall : (rx_buf s ++ got) ++ rest = stream items).
  { rewrite <- app_assoc, Hgr. exact Hst. }
  set (buf0 := rx_buf s ++ got) in *. clearbody buf0.
  destruct (Z.eqb_spec (len buf0) 0) as [Z0|Z0].
  - intros E0. injection E0 as <- <-. apply len_nil in Z0. subst buf0.
    exists items. cbn [rx_buf rx_in] in *. split; [split; [exact Hall|exact HF]|]. split; [reflexivity|].
    left. split; [reflexivity|]. intros ->. split; [reflexivity|].
    cbn [app] in Hall. destruct items as [|[j m] items]; [reflexivity|].
    exfalso. inversion HF as [|? ? Hgood _]; subst. destruct Hgood as (_ & _ & _ & x & r & -> & _).
    cbn [stream concat map fst snd] in Hall. destruct j; discriminate Hall.
  - fold skip.
    destruct items as [|[junk m] items].
    { exfalso. cbn [stream concat map] in Hall. apply app_eq_nil in Hall. destruct Hall as [-> _].
      apply Z0. reflexivity. }
    inversion HF as [|? ? Hgood HF']; subst.
    pose proof Hgood as (HJ & Hreq & Hlen & x & r & Hm & Hx).
    unfold stream in Hall. cbn [concat map fst snd] in Hall. fold (stream items) in Hall.
    rewrite <- app_assoc in Hall.
    destruct (app_split buf0 rest junk (m ++ stream items) Hall) as [(j2 & Ej & Er2)|(b2 & Hb2 & Eb & Em)].
    + (* the buffer holds only junk *)
      assert (HJ0 : Forall (fun x => ~ map_byte x) buf0 /\ Forall (fun x => ~ map_byte x) j2).
      { rewrite Ej in HJ. apply Forall_app in HJ. exact HJ. }
      destruct HJ0 as [HJ0 HJ2].
      destruct (skip_junk buf0 [] start0 k1 HJ0) as (start' & k' & Es & _).
      rewrite app_nil_r in Es. rewrite Es. unfold skip. cbn [skip_to_map].
      change (len [] =? 0) with true. cbv iota. intros E0. injection E0 as <- <-.
      exists ((j2, m) :: items). cbn [rx_buf rx_in].
      split; [split|].
      * cbn [app]. rewrite Er2. unfold stream. cbn [concat map fst snd]. rewrite <- app_assoc. reflexivity.
      * constructor; [|exact HF']. split; [exact HJ2|]. split; [exact Hreq|]. split; [exact Hlen|].
        exists x, r. auto.
      * split; [reflexivity|]. left. split; [reflexivity|]. intros ->. exfalso.
        symmetry in Er2. apply app_eq_nil in Er2. destruct Er2 as [_ Er2].
        apply app_eq_nil in Er2. destruct Er2 as [-> _]. discriminate Hm.
    + (* the buffer reaches the request *)
      subst buf0.
      destruct (skip_junk junk b2 start0 k1 HJ) as (start' & k' & Es & Hk' & Hs').
      rewrite Es. clear Es.
      assert (Hst' : exists i, (k0 <= i < k')%nat /\ start' = clock i).
      { destruct Hs' as [->|(i & Hi & ->)].
        - destruct Hst0 as (i & Hi & ->). exists i. split; [lia|reflexivity].
        - exists i. split; [lia|reflexivity]. }
      assert (Hmap : starts_map p b2 = true).
      { destruct b2 as [|y b2]; [congruence|]. rewrite Hm in Em. cbn [app] in Em. injection Em as <- _.
        apply (rc_map _ Hp). exact Hx. }
      rewrite (skip_noop _ _ _ Hmap).
      rewrite len_app in Hb. pose proof (len_nonneg junk) as Hnj.
      assert (Hb2n : 0 < len b2).
      { pose proof (len_nonneg b2). destruct (Z.eq_dec (len b2) 0) as [C|C]; [apply len_nil in C; congruence|lia]. }
      destruct (Z.eqb_spec (len b2) 0); [lia|].
      assert (Hitems : left_of (Rx b2 start' k' rest) (([], m) :: items)).
      { split; cbn [rx_buf rx_in].
        - unfold stream. cbn [concat map fst snd app]. symmetry. exact Em.
        - constructor; [|exact HF']. split; [constructor|]. split; [exact Hreq|]. split; [exact Hlen|].
          exists x, r. auto. }
      symmetry in Em.
      destruct (app_split b2 rest m (stream items) Em) as [(x2 & Ex & Erest)|(x2 & Hx2 & Ex & Estr)].
      * (* a prefix of the request, possibly all of it *)
        destruct x2 as [|y x2].
        -- rewrite app_nil_r in Ex. subst b2.
           destruct Hreq as [Hr1 Hr2]. rewrite Hr2.
           intros E0. injection E0 as <- <-.
           exists (([], m) :: items). split; [exact Hitems|]. split; [reflexivity|].
           right. exists m, items. split; [reflexivity|]. split; [reflexivity|]. split; [split; assumption|].
           exists []. rewrite app_nil_r. reflexivity.
        -- assert (V : validate p b2 = Incomplete).
           { apply (rc_prefix _ Hp b2 (y :: x2)); [rewrite <- Ex; exact Hreq|congruence|exact Hmap]. }
           rewrite V, limit_5s. cbn [bind]. intros E0. injection E0 as <- <-.
           assert (Hw' : w32 (clock k' - start') <= 20000000).
           { destruct Hst' as (i & Hi & ->). apply (Hw i k'); cbn [rx_k]; lia. }
           destruct (Z.ltb_spec 20000000 (w32 (clock k' - start'))); [lia|].
           assert (Hlt : len b2 < RX_SIZE).
           { rewrite Ex, len_app, len_cons in Hlen. pose proof (len_nonneg x2). unfold RX_SIZE. lia. }
           destruct (Z.eqb_spec (len b2) RX_SIZE); [lia|].
           exists (([], m) :: items). split; [exact Hitems|]. split; [reflexivity|].
           left. split; [reflexivity|]. cbn [rx_in rx_buf]. intros ->. exfalso. discriminate Erest.
      * destruct (rc_extend _ Hp m x2 Hreq) as [_ V]. rewrite Ex, V.
        intros E0. injection E0 as <- <-. rewrite Ex in Hitems.
        exists (([], m) :: items). split; [exact Hitems|]. split; [reflexivity|].
        right. exists m, items. split; [reflexivity|]. split; [reflexivity|]. split; [exact Hreq|].
        exists x2. reflexivity.
Qed.

Lemma poll_delivers w s items k0 : len (rx_buf s) <= RX_SIZE ->
  left_of s items -> fresh k0 s ->
  exists m s', console_poll p nd clock w s = Ok (m, s') /\ fresh k0 s' /\ len (rx_buf s') <= RX_SIZE /\
    (within_5s clock k0 (rx_k s') ->
    exists items', left_of s' items' /\
      (match m with [] => [] | _ => [m] end) ++ map snd items' = map snd items /\
      (m = [] -> rx_in s' = [] -> rx_buf s' = [] /\ items' = [])).
Proof.
  intros Hl HL Hf.
  destruct (try_read_delivers w s items k0 Hl HL Hf) as (n & s1 & E & Hf1 & D).
  destruct (poll_spec w s Hl) as (m & s' & E2 & Hl' & _ & D2).
  exists m, s'. split; [exact E2|].
  assert (Hk : rx_k s' = rx_k s1 /\ fresh k0 s').
  { unfold console_poll in E2. rewrite E in E2. cbn [bind] in E2.
    destruct (n =? 0) eqn:En.
    - injection E2 as <- <-. split; [reflexivity|exact Hf1].
    - destruct (len (rx_buf s1) <? n) eqn:El; [discriminate|].
      unfold console_shift_rx_buffer in E2.
      destruct (c_assert nd (n <=? len (rx_buf s1))) as [|]; [|discriminate]. cbn [bind] in E2.
      rewrite El in E2. cbn [bind] in E2. injection E2 as <- <-. cbn [rx_k rx_buf rx_start].
      split; [reflexivity|]. destruct Hf1 as [F1 F2]. split; cbn [rx_k rx_buf rx_start]; [exact F1|].
      intros N. apply F2. intros C. apply N. rewrite C. apply skipn_nil. }
  destruct Hk as [Hk Hf']. split; [exact Hf'|]. split; [lia|]. intros Hw.
  rewrite Hk in Hw. destruct (D Hw) as (items' & [HL1 HL2] & Hmap & D').
  unfold console_poll in E2. rewrite E in E2. cbn [bind] in E2.
  destruct D' as [[-> Hend]|(m' & tl & -> & -> & Hreq & r & Hbuf)].
  - change (0 =? 0) with true in E2. cbv iota in E2. injection E2 as <- <-.
    exists items'. split; [split; assumption|]. split; [exact Hmap|]. intros _. exact Hend.
  - pose proof Hreq as [Hr1 Hr2].
    destruct (rc_complete _ Hp _ _ Hr1 Hr2) as [Hpos _].
    destruct (Z.eqb_spec (len m') 0); [lia|].
    rewrite Hbuf in E2. rewrite len_app in E2. pose proof (len_nonneg r) as Hr.
    destruct (Z.ltb_spec (len m' + len r) (len m')); [lia|].
    unfold console_shift_rx_buffer in E2. rewrite len_app in E2.
    destruct (Z.leb_spec (len m') (len m' + len r)); [|lia].
    assert (Ha : c_assert nd true = Ok tt) by (destruct nd; reflexivity).
    rewrite Ha in E2. cbn [bind] in E2.
    destruct (Z.ltb_spec (len m' + len r) (len m')); [lia|]. cbn [bind] in E2.
    assert (Hnat : Z.to_nat (len m') = length m') by (unfold len; lia).
    rewrite Hnat in E2. rewrite skipn_app, skipn_all, Nat.sub_diag in E2.
    rewrite firstn_app, firstn_all, Nat.sub_diag in E2. cbn [firstn skipn app] in E2.
    rewrite app_nil_r in E2. injection E2 as <- <-.
    exists tl. cbn [rx_buf rx_in].
    inversion HL2; subst.
    unfold stream in HL1. cbn [concat map fst snd app] in HL1. rewrite Hbuf, <- app_assoc in HL1.
    apply app_inv_head in HL1.
    split; [split; assumption|].
    assert (Hm' : m' <> []) by (intros C; rewrite C in Hpos; cbn in Hpos; lia).
    split.
    + cbn [map snd] in Hmap. rewrite <- Hmap. destruct m'; [congruence|]. reflexivity.
    + intros ->. congruence.
Qed.

Lemma within_mono a b c : (b <= c)%nat -> within_5s clock a c -> within_5s clock a b.
Proof. intros H W' i j Hi Hj. apply W'; lia. Qed.

Lemma polls_k ws : forall s ms s', len (rx_buf s) <= RX_SIZE ->
  polls p nd clock ws s = Ok (ms, s') -> (rx_k s <= rx_k s')%nat.
Proof.
  induction ws as [|w ws IH]; intros s ms s' Hl E; cbn [polls] in E.
  - injection E as <- <-. lia.
  - destruct (poll_spec w s Hl) as (m & s1 & E1 & Hl1 & Hk & D). rewrite E1 in E. cbn [bind] in E.
    destruct (polls p nd clock ws s1) as [[ms1 s2]|] eqn:E2; [|discriminate]. cbn [bind] in E.
    injection E as <- <-. apply IH in E2; lia.
Qed.

Lemma polls_deliver ws : forall s items k0 ms s', len (rx_buf s) <= RX_SIZE ->
  left_of s items -> fresh k0 s ->
  polls p nd clock ws s = Ok (ms, s') -> within_5s clock k0 (rx_k s') ->
  exists items', left_of s' items' /\ ms ++ map snd items' = map snd items /\ fresh k0 s'.
Proof.
  induction ws as [|w ws IH]; intros s items k0 ms s' Hl HL Hf E Hw; cbn [polls] in E.
  - injection E as <- <-. exists items. auto.
  - destruct (poll_delivers w s items k0 Hl HL Hf) as (m & s1 & E1 & Hf1 & Hl1 & D).
    rewrite E1 in E. cbn [bind] in E.
    destruct (polls p nd clock ws s1) as [[ms1 s2]|] eqn:E2; [|discriminate]. cbn [bind] in E.
    injection E as <- <-.
    pose proof (polls_k _ _ _ _ Hl1 E2) as Hk.
    destruct (D (within_mono _ _ _ Hk Hw)) as (items1 & HL1 & Hmap & _).
    destruct (IH _ _ _ _ _ Hl1 HL1 Hf1 E2 Hw) as (items2 & HL2 & Hmap2 & Hf2).
    exists items2. split; [exact HL2|]. split; [|exact Hf2].
    rewrite <- Hmap, <- Hmap2. destruct m; reflexivity.
Qed.

(** ** Recovery *)
Definition clocked (s : rxs) : Prop := rx_buf s <> [] -> exists i, (i < rx_k s)%nat /\ rx_start s = clock i.

Lemma poll_clocked w s m s' : len (rx_buf s) <= RX_SIZE -> clocked s ->
  console_poll p nd clock w s = Ok (m, s') -> clocked s'.
Proof.
  intros Hl Hc E. destruct (poll_spec w s Hl) as (m1 & s1 & E1 & Hl1 & Hk & D).
  rewrite E1 in E. injection E as <- <-.
  destruct D as [[_ T]|(n & st & T & _ & Hb & _ & _ & _ & Hs & Hk')].
  - inversion T as [start k rest H1 H2 H3 X1 X2|start k buf rest H1 H2 H3 H4 H5 H6 H7 X1 X2
                   |n' start k buf rest H1 H2 H3 H4 H5 H6 X1 X2]; subst; unfold clocked in *; cbn [rx_buf rx_start rx_k] in *.
    + congruence.
    + intros _. destruct H3 as [[-> N]|(i & Hi & ->)].
      * destruct (Hc N) as (i & Hi & ->). exists i. split; [lia|reflexivity].
      * exists i. split; [lia|reflexivity].
    + intros _. destruct H3 as [[-> N]|(i & Hi & ->)].
      * destruct (Hc N) as (i & Hi & ->). exists i. split; [lia|reflexivity].
      * exists i. split; [lia|reflexivity].
  - unfold clocked. rewrite Hs, Hk'. intros N.
    inversion T as [start k rest H1 H2 H3 X1 X2|start k buf rest H1 H2 H3 H4 H5 H6 H7 X1 X2
                   |n' start k buf rest H1 H2 H3 H4 H5 H6 X1 X2]; subst; cbn [rx_buf rx_start rx_k] in *.
    + exfalso. symmetry in Hb. apply app_eq_nil in Hb. tauto.
    + destruct H3 as [[-> N']|(i & Hi & ->)].
      * destruct (Hc N') as (i & Hi & ->). exists i. split; [lia|reflexivity].
      * exists i. split; [lia|reflexivity].
    + destruct H3 as [[-> N']|(i & Hi & ->)].
      * destruct (Hc N') as (i & Hi & ->). exists i. split; [lia|reflexivity].
      * exists i. split; [lia|reflexivity].
Qed.

Lemma polls_clocked ws : forall s ms s', len (rx_buf s) <= RX_SIZE -> clocked s ->
  polls p nd clock ws s = Ok (ms, s') -> clocked s' /\ len (rx_buf s') <= RX_SIZE.
Proof.
  induction ws as [|w ws IH]; intros s ms s' Hl Hc E; cbn [polls] in E.
  - injection E as <- <-. auto.
  - destruct (poll_spec w s Hl) as (m & s1 & E1 & Hl1 & Hk & D).
    pose proof (poll_clocked _ _ _ _ Hl Hc E1) as Hc1.
    rewrite E1 in E. cbn [bind] in E.
    destruct (polls p nd clock ws s1) as [[ms1 s2]|] eqn:E2; [|discriminate]. cbn [bind] in E.
    injection E as <- <-. apply (IH s1 ms1 s2); [lia|exact Hc1|exact E2].
Qed.

(** With no input, a poll keeps a waiting buffer as it is or empties it. *)
Definition waiting (s : rxs) : Prop :=
  rx_in s = [] /\ (rx_buf s = [] \/ (rx_buf s <> [] /\ starts_map p (rx_buf s) = true
     /\ validate p (rx_buf s) = Incomplete /\ len (rx_buf s) < RX_SIZE)).

Lemma read_nil w mx : console_read w mx [] = ([], []).
Proof. unfold console_read. rewrite firstn_nil, skipn_nil. reflexivity. Qed.

Lemma try_read_no_input w s n s' : rx_in s = [] ->
  console_try_read p clock w s = Ok (n, s') -> rx_in s' = [].
Proof.
  intros Hi. unfold console_try_read. rewrite Hi, read_nil, app_nil_r.
  destruct (if len (rx_buf s) =? 0 then _ else _) as [st k].
  destruct (RX_SIZE <? len (rx_buf s)); [discriminate|].
  destruct (len (rx_buf s) =? 0); [intros E; injection E as _ <-; reflexivity|].
  destruct (skip_to_map p clock (rx_buf s) st k) as [[b st'] k'].
  destruct (len b =? 0); [intros E; injection E as _ <-; reflexivity|].
  destruct (validate p b).
  - intros E; injection E as _ <-; reflexivity.
  - rewrite limit_5s. cbn [bind]. intros E; injection E as _ <-; reflexivity.
  - intros E; injection E as _ <-; reflexivity.
Qed.

Lemma poll_no_input w s m s' : rx_in s = [] ->
  console_poll p nd clock w s = Ok (m, s') -> rx_in s' = [].
Proof.
  intros Hi. unfold console_poll.
  destruct (console_try_read p clock w s) as [[n s1]|] eqn:E; [|discriminate].
  pose proof (try_read_no_input _ _ _ _ Hi E) as H1. cbn [bind].
  destruct (n =? 0); [intros X; injection X as _ <-; exact H1|].
  destruct (len (rx_buf s1) <? n); [discriminate|].
  destruct (console_shift_rx_buffer nd n (rx_buf s1)); [|discriminate]. cbn [bind].
  intros X; injection X as _ <-; exact H1.
Qed.

Lemma waiting_poll w s : waiting s ->
  exists s', console_poll p nd clock w s = Ok ([], s') /\ waiting s' /\
    (20000000 < w32 (clock (rx_k s) - rx_start s) -> rx_buf s' = []).
Proof.
  intros [Hi [Hb|(Hn & Hm & Hv & Hl)]].
  - unfold console_poll, console_try_read. rewrite Hi, Hb, read_nil. cbn [app].
    change (len [] =? 0) with true. change (RX_SIZE <? len []) with false. cbv iota. cbn [bind].
    change (0 =? 0) with true. cbv iota.
    eexists. split; [reflexivity|]. split; [|reflexivity]. split; [reflexivity|]. left. reflexivity.
  - unfold console_poll, console_try_read. rewrite Hi, read_nil, app_nil_r.
    assert (Hne : len (rx_buf s) <> 0) by (intros C; apply len_nil in C; congruence).
    destruct (Z.eqb_spec (len (rx_buf s)) 0); [lia|].
    destruct (Z.ltb_spec RX_SIZE (len (rx_buf s))); [lia|].
    fold skip. rewrite (skip_noop _ _ _ Hm).
    destruct (Z.eqb_spec (len (rx_buf s)) 0); [lia|].
    rewrite Hv, limit_5s. cbn [bind].
    destruct (Z.ltb_spec 20000000 (w32 (clock (rx_k s) - rx_start s))) as [T|T].
    + change (len [] =? RX_SIZE) with false. cbv iota. change (0 =? 0) with true. cbv iota.
      eexists. split; [reflexivity|]. split; [|reflexivity]. split; [reflexivity|]. left. reflexivity.
    + destruct (Z.eqb_spec (len (rx_buf s)) RX_SIZE); [lia|]. change (0 =? 0) with true. cbv iota.
      eexists. split; [reflexivity|]. split; [|lia]. split; [reflexivity|]. right. cbn [rx_buf].
      repeat split; assumption.
Qed.

Lemma waiting_polls ws : forall s ms s', waiting s ->
  polls p nd clock ws s = Ok (ms, s') -> waiting s'.
Proof.
  induction ws as [|w ws IH]; intros s ms s' Hw E; cbn [polls] in E.
  - injection E as <- <-. exact Hw.
  - destruct (waiting_poll w s Hw) as (s1 & E1 & Hw1 & _). rewrite E1 in E. cbn [bind] in E.
    destruct (polls p nd clock ws s1) as [[ms1 s2]|] eqn:E2; [|discriminate]. cbn [bind] in E.
    injection E as <- <-. apply (IH s1 ms1 s2 Hw1 E2).
Qed.

Lemma drains ws : forall s ms s', len (rx_buf s) <= RX_SIZE -> rx_in s = [] ->
  (length (rx_buf s) < length ws)%nat ->
  polls p nd clock ws s = Ok (ms, s') -> waiting s'.
Proof.
  induction ws as [|w ws IH]; intros s ms s' Hl Hi Hn E; cbn [length] in Hn; [lia|].
  cbn [polls] in E.
  destruct (poll_spec w s Hl) as (m & s1 & E1 & Hl1 & Hk & D).
  pose proof (poll_no_input _ _ _ _ Hi E1) as Hi1.
  rewrite E1 in E. cbn [bind] in E.
  destruct (polls p nd clock ws s1) as [[ms1 s2]|] eqn:E2; [|discriminate]. cbn [bind] in E.
  injection E as <- <-.
  destruct D as [[-> T]|(n & st & T & Hnp & Hb & Hm & Hr & Hin & _)].
  - assert (Hw : waiting s1).
    { split; [exact Hi1|].
      inversion T as [start k rest H1 H2 H3 X1 X2|start k buf rest H1 H2 H3 H4 H5 H6 H7 X1 X2
                     |n' start k buf rest H1 H2 H3 H4 H5 H6 X1 X2]; subst s1; cbn [rx_buf].
      - left. reflexivity.
      - right. split; [intros C; rewrite C in H6; unfold len in H6; cbn in H6; lia|].
        split; [assumption|]. split; [assumption|]. lia.
      - subst n'. destruct (rc_complete _ Hp _ _ H4 H5). lia. }
    apply (waiting_polls _ _ _ _ Hw E2).
  - apply (IH s1 ms1 s2); [lia|exact Hi1| |exact E2].
    inversion T as [start k rest H1 H2 H3 X1 X2|start k buf rest H1 H2 H3 H4 H5 H6 H7 X1 X2
                   |n' start k buf rest H1 H2 H3 H4 H5 H6 X1 X2]; subst; try lia.
    cbn [rx_buf rx_in] in *. destruct H1 as (d & H1). rewrite Hi, app_nil_r, Hb in H1.
    rewrite H1 in Hn. rewrite !app_length in Hn. unfold len in Hnp. lia.
Qed.
End F.

(** ** Sending *)
Lemma write_full_sends takes : forall buf sent unused,
  console_write_full takes buf = Some (sent, unused) -> sent = buf.
Proof.
  induction takes as [|w ws IH]; intros buf sent unused; destruct buf as [|x buf]; cbn [console_write_full];
    try (intros E; injection E as <- <-; reflexivity); try discriminate.
  set (n := Z.to_nat _).
  destruct (console_write_full ws (skipn n (x :: buf))) as [[sent' un]|] eqn:E; [|discriminate].
  intros X. injection X as <- <-. rewrite (IH _ _ _ E). apply firstn_skipn.
Qed.

Lemma write_full_prefix takes : forall buf, console_write_full takes buf = None ->
  (Z.of_nat (length (filter (fun w => 0 <? w) takes)) < len buf).
Proof.
  induction takes as [|w ws IH]; intros buf; destruct buf as [|x buf]; cbn [console_write_full filter length];
    try discriminate.
  - intros _. unfold len. cbn [length]. lia.
  - set (n := Z.to_nat _).
    destruct (console_write_full ws (skipn n (x :: buf))) as [[sent' un]|] eqn:E; [discriminate|].
    intros _. apply IH in E. unfold len in E. rewrite skipn_length in E.
    assert (Hlen : len (x :: buf) = Z.of_nat (length (x :: buf))) by reflexivity.
    destruct (Z.ltb_spec 0 w).
    + cbn [length] in *. assert (1 <= n)%nat by (unfold n; rewrite Hlen; cbn [length]; lia). lia.
    + rewrite Hlen. cbn [length] in *. lia.
Qed.
