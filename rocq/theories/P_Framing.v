(** C44: requests are framed safely, delivered in order and cannot wedge the console.
    C70: the gd32f4 USB receive path.  C71: messages are sent whole. *)
Require Import ZArith List Bool Lia.
Require Import Verif.Res Verif.Word Verif.Framing Verif.FramingSpec Verif.FramingProofs
  Verif.CborGrammar Verif.CborSpec Verif.CborProofs Verif.CborRfc.
Import ListNotations.
Open Scope Z_scope.
Ltac Zify.zify_post_hook ::= idtac.

(** For every input, every chunking and every clock, from power-on: no poll reads or
    writes outside the buffer or fails an assertion, and the buffer holds at most
    16384 bytes. *)
Theorem C44_no_overflow p nd clock ws input : reads_cbor p ->
  exists ms s', polls p nd clock ws (rx_init input) = Ok (ms, s') /\ len (rx_buf s') <= 16384.
Proof. intros Hp. apply (polls_ok p nd clock Hp). cbn. unfold RX_SIZE. lia. Qed.
Print Assumptions C44_no_overflow.

(** Every request that is processed is one complete map, and the processed requests
    are separate pieces of the input, in the order of the input. *)
Theorem C44_only_requests p nd clock ws input ms s' : reads_cbor p ->
  polls p nd clock ws (rx_init input) = Ok (ms, s') ->
  Forall (request p) ms /\ in_order ms input.
Proof.
  intros Hp E. apply (polls_requests p nd clock Hp ws (rx_init input) ms s'); [|exact E].
  cbn. unfold RX_SIZE. lia.
Qed.
Print Assumptions C44_only_requests.

(** When a poll finds no request but keeps bytes, they are an incomplete map, the
    buffer still has room, and the waiting time so far, from a clock reading made
    when the buffer last started afresh, is at most five seconds. *)
Theorem C44_waits p nd clock ws input ms s w s' : reads_cbor p ->
  polls p nd clock ws (rx_init input) = Ok (ms, s) ->
  console_poll p nd clock w s = Ok ([], s') -> rx_buf s' <> [] ->
  starts_map p (rx_buf s') = true /\ validate p (rx_buf s') = Incomplete /\
  len (rx_buf s') < 16384 /\
  exists i j, (i <= j)%nat /\ S j = rx_k s' /\ rx_start s' = clock i /\
    (clock j - clock i) mod 2 ^ 32 <= 20000000.
Proof.
  intros Hp E E1 N.
  assert (H0 : len (rx_buf (rx_init input)) <= RX_SIZE) by (cbn; unfold RX_SIZE; lia).
  destruct (polls_clocked p nd clock Hp ws _ _ _ H0 ltac:(intros C; cbn in C; congruence) E) as [Hc Hl].
  destruct (poll_spec p nd clock Hp w s Hl) as (m & s1 & E2 & _ & _ & D). rewrite E2 in E1.
  injection E1 as -> ->.
  destruct D as [[_ T]|(n & st & _ & Hn & _ & Hm & _)]; [|exfalso; cbn in Hm; lia].
  inversion T as [start k rest H1 H2 H3 X1 X2|start k buf rest H1 H2 H3 H4 H5 H6 H7 X1 X2
                 |n' start k buf rest H1 H2 H3 H4 H5 H6 X1 X2]; subst; cbn [rx_buf rx_k rx_start] in *.
  - congruence.
  - split; [assumption|]. split; [assumption|]. split; [unfold RX_SIZE in H6; lia|].
    destruct H3 as [[-> Nb]|(i & Hi & ->)].
    + destruct (Hc Nb) as (i & Hi & Hst). exists i, k.
      split; [lia|]. split; [reflexivity|]. split; [exact Hst|]. rewrite <- Hst. exact H7.
    + exists i, k. split; [lia|]. split; [reflexivity|]. split; [reflexivity|]. exact H7.
  - exfalso. destruct (rc_complete _ Hp _ _ H4 H5). lia.
Qed.
Print Assumptions C44_waits.

(** Whatever came before: once the input stops, and the console has been polled more
    often than the buffer has bytes, one more poll more than five seconds after all
    earlier clock readings leaves the buffer empty. *)
Theorem C44_recovers p nd clock ws0 input ms0 s ws ms s1 w m s2 : reads_cbor p ->
  polls p nd clock ws0 (rx_init input) = Ok (ms0, s) -> rx_in s = [] ->
  (length (rx_buf s) < length ws)%nat -> polls p nd clock ws s = Ok (ms, s1) ->
  console_poll p nd clock w s1 = Ok (m, s2) ->
  (forall i, (i < rx_k s1)%nat -> 20000000 < (clock (rx_k s1) - clock i) mod 2 ^ 32) ->
  m = [] /\ rx_buf s2 = [].
Proof.
  intros Hp E0 Hi Hn E1 E2 Ht.
  assert (H0 : len (rx_buf (rx_init input)) <= RX_SIZE) by (cbn; unfold RX_SIZE; lia).
  destruct (polls_clocked p nd clock Hp ws0 _ _ _ H0 ltac:(intros C; cbn in C; congruence) E0) as [Hc Hl].
  destruct (polls_clocked p nd clock Hp ws _ _ _ Hl Hc E1) as [Hc1 Hl1].
  pose proof (drains p nd clock Hp ws s ms s1 Hl Hi Hn E1) as Hw.
  destruct (waiting_poll p nd clock w s1 Hw) as (s' & E' & Hw' & Hx).
  rewrite E' in E2. injection E2 as <- <-. split; [reflexivity|].
  destruct (rx_buf s1) eqn:Eb.
  - unfold console_poll, console_try_read in E'. rewrite Eb in E'. destruct Hw as [Hin _].
    rewrite Hin, read_nil in E'. cbn [app] in E'. change (len [] =? 0) with true in E'.
    change (RX_SIZE <? len []) with false in E'. cbv iota in E'. cbn [bind] in E'.
    change (0 =? 0) with true in E'. cbv iota in E'. injection E' as <-. reflexivity.
  - destruct Hc1 as (i & Hik & Hst); [congruence|]. apply Hx. rewrite Hst. apply Ht. exact Hik.
Qed.
Print Assumptions C44_recovers.

(** Starting from an empty buffer, requests that arrive in any chunks, with any bytes
    between them that cannot start a map, while the clock advances at most five
    seconds, are processed exactly once each, in order; and when a poll finds
    nothing more after all input has been delivered, all have been processed. *)
Theorem C44_delivers p nd clock ws s items ms s' : reads_cbor p ->
  rx_buf s = [] -> rx_in s = stream items -> Forall (sendable p) items ->
  polls p nd clock ws s = Ok (ms, s') -> within_5s clock (rx_k s) (rx_k s') ->
  (exists later, map snd items = ms ++ later) /\
  (forall w s'', console_poll p nd clock w s' = Ok ([], s'') -> rx_in s'' = [] ->
     within_5s clock (rx_k s) (rx_k s'') -> ms = map snd items /\ rx_buf s'' = []).
Proof.
  intros Hp Hb Hi HF E Hw.
  assert (Hl : len (rx_buf s) <= RX_SIZE) by (rewrite Hb; cbn; unfold RX_SIZE; lia).
  assert (HL : left_of p s items) by (split; [rewrite Hb, Hi; reflexivity|exact HF]).
  assert (Hf : fresh clock (rx_k s) s) by (split; [lia|rewrite Hb; congruence]).
  destruct (polls_deliver p nd clock Hp ws s items (rx_k s) ms s' Hl HL Hf E Hw)
    as (items' & HL' & Hmap & Hf').
  split; [exists (map snd items'); symmetry; exact Hmap|].
  intros w s'' E'' Hi'' Hw''.
  assert (Hl' : len (rx_buf s') <= RX_SIZE).
  { destruct (polls_ok p nd clock Hp ws s Hl) as (ms1 & s1 & E1 & Hl1). rewrite E in E1.
    injection E1 as _ <-. exact Hl1. }
  destruct (poll_delivers p nd clock Hp w s' items' (rx_k s) Hl' HL' Hf')
    as (m & s2 & E2 & _ & _ & D).
  rewrite E'' in E2. injection E2 as <- <-.
  destruct (D Hw'') as (items2 & _ & Hm2 & Hend).
  destruct (Hend eq_refl Hi'') as [Hb2 ->]. cbn [map app] in Hm2.
  rewrite <- Hm2, app_nil_r in Hmap. split; assumption.
Qed.
Print Assumptions C44_delivers.

(** The contract on the CBOR library can be met. *)
Theorem C44_contract : reads_cbor cbor.
Proof. exact cbor_ok. Qed.
Print Assumptions C44_contract.

(** and the reader that meets it decides the grammar of RFC 8949: it reports the item
    the bytes begin with, or that they are a part of one, or that they are neither. *)
Theorem C44_grammar b : Forall byte b ->
  (starts_map cbor b = true <-> (exists x, b = 191 :: x) \/ exists h a x, head 5 h a /\ b = h ++ x) /\
  match validate cbor b with
  | Complete n => 0 < n <= len b /\ wf (firstn (Z.to_nat n) b)
  | Incomplete => (exists c, c <> [] /\ wf (b ++ c)) /\ forall w x, wf w -> b <> w ++ x
  | Invalid => forall w x y, wf w -> w ++ x <> b ++ y
  end.
Proof. intros B. split; [exact (map_head_grammar b B)|exact (validate_grammar b B)]. Qed.
Print Assumptions C44_grammar.
(* {1: [2, "a"]}, the same cut short, and a map closed before a value *)
Example C44_grammar_example :
  validate cbor [161;1;130;2;97;97] = Complete 6 /\ validate cbor [161;1;130;2;97] = Incomplete /\
  validate cbor [191;1;255] = Invalid /\ wf [161;1;130;2;97;97].
Proof.
  split; [reflexivity|]. split; [reflexivity|]. split; [reflexivity|]. apply wf_accepted. split; [repeat constructor; discriminate|reflexivity].
Qed.

(** The five seconds are not counted for each request: rx_start_time is not renewed
    when a request is removed and bytes of the next one remain.  Three requests of
    three bytes, each received within three seconds of its first byte: the third is
    thrown away. *)
Definition three : list (list Z * list Z) := [([], [161;0;0]); ([], [161;0;0]); ([], [161;0;0])].
Definition second (n : nat) : Z := 4000000 * Z.of_nat n.
Definition steady (k : nat) : Z :=
  match k with 0%nat => second 0 | 1%nat => second 6 | _ => second 6 + Z.of_nat k end.

Theorem C44_stale_timer_refuted :
  Forall (sendable cbor) three /\
  exists s', polls cbor false steady [4; 3; 1; 1; 1; 1] (rx_init (stream three))
             = Ok ([[161;0;0]; [161;0;0]], s') /\ rx_buf s' = [] /\ rx_in s' = [].
Proof.
  split.
  - apply Forall_forall. intros jm [<-|[<-|[<-|[]]]];
      (split; [constructor|]; split; [split; reflexivity|]; split; [cbn; lia|];
       exists 161, [0;0]; split; [reflexivity|left; lia]).
  - eexists. split; [vm_compute; reflexivity|]. split; reflexivity.
Qed.
Print Assumptions C44_stale_timer_refuted.

(** A request whose number of map entries is in the bytes after the initial byte is
    lost when a chunk ends inside that head (cbor_parser_init fails, and the byte is
    dropped as if it could not start a map). *)
Theorem C44_split_head_refuted :
  request cbor [184;1;0;0] /\
  (exists s', polls cbor false (fun _ => 0) [4] (rx_init [184;1;0;0]) = Ok ([[184;1;0;0]], s')) /\
  (exists s', polls cbor false (fun _ => 0) [1; 3; 1] (rx_init [184;1;0;0]) = Ok ([], s')
     /\ rx_buf s' = [] /\ rx_in s' = []).
Proof.
  split; [split; reflexivity|]. split.
  - eexists. vm_compute. reflexivity.
  - eexists. split; [vm_compute; reflexivity|]. split; reflexivity.
Qed.
Print Assumptions C44_split_head_refuted.

(** [{"method": "ping"}] after a line ending, sent twice, in chunks of 3, 20 and 64. *)
Definition ping : list Z := [161; 102;109;101;116;104;111;100; 100;112;105;110;103].
Definition pings : list (list Z * list Z) := [([13;10], ping); ([], ping)].

Example C44_example :
  Forall (sendable cbor) pings /\ within_5s (fun _ => 7) 0 100 /\
  exists s', polls cbor false (fun _ => 7) [3; 20; 64; 64] (rx_init (stream pings)) = Ok ([ping; ping], s')
             /\ rx_in s' = [] /\ rx_buf s' = [].
Proof.
  split; [|split].
  - apply Forall_forall. intros jm [<-|[<-|[]]].
    + split; [apply Forall_forall; intros x [<-|[<-|[]]]; unfold map_byte; lia|].
      split; [split; reflexivity|].
      split; [cbn; lia|]. eexists _, _. split; [reflexivity|left; lia].
    + split; [constructor|]. split; [split; reflexivity|].
      split; [cbn; lia|]. eexists _, _. split; [reflexivity|left; lia].
  - intros i j _ _. rewrite Z.sub_diag. cbn. lia.
  - eexists. split; [vm_compute; reflexivity|]. split; reflexivity.
Qed.

(** ** C70: the gd32f4 USB receive path *)

(** One event: a packet arrives while the endpoint is armed; or the console is
    polled, which reads with the room left in its buffer (of which [n] bytes are
    used) and afterwards uses [n'] bytes, no more than before plus what was read.
    [race] allows a packet to arrive inside console_read, between its test of
    pending_read and its call of usbd_ep_recev. *)
Inductive usb_event : Type :=
| UPacket (pkt : list Z)
| UPoll (mid : option (list Z)) (n' : Z).

Definition usb_allowed (race : bool) (e : usb_event) : Prop :=
  match e with UPoll (Some _) _ => race = true | _ => True end.

(** The state: bytes used in the console's buffer, the USB state, the packets
    accepted from the host and the data returned by console_read so far. *)
Definition usb_do (nd : bool) (e : usb_event) (st : Z * usb * list Z * list Z)
  : res (Z * usb * list Z * list Z) :=
  let '(n, u, acc, del) := st in
  match e with
  | UPacket pkt =>
      match usb_packet pkt u with
      | Some u' => Ok (n, u', acc ++ pkt, del)
      | None => Ok st       (* refused: the host keeps the packet *)
      end
  | UPoll mid n' =>
      let acc := match mid with
                 | Some pkt => if negb (u_pending u) && u_armed u && (len pkt <=? 64) then acc ++ pkt else acc
                 | None => acc
                 end in
      '(got, u') <- usb_read nd (RX_SIZE - n) mid u ;;
      Ok (Z.max 0 (Z.min n' (n + len got)), u', acc, del ++ got)
  end.

Fixpoint usb_run (nd : bool) (es : list usb_event) (st : Z * usb * list Z * list Z)
  : res (Z * usb * list Z * list Z) :=
  match es with
  | [] => Ok st
  | e :: es' => st' <- usb_do nd e st ;; usb_run nd es' st'
  end.

Definition usb_start : Z * usb * list Z * list Z := (0, usb_init, [], []).

Definition usb_good (st : Z * usb * list Z * list Z) : Prop :=
  let '(n, u, acc, del) := st in
  0 <= n <= RX_SIZE /\ len (u_buf u) <= 64 /\
  (u_armed u = true \/ u_pending u = true -> n + 64 <= RX_SIZE) /\
  (u_armed u = true -> u_pending u = false) /\
  acc = del ++ (if u_pending u then u_buf u else []).

Lemma usb_do_good nd e st : usb_allowed false e -> usb_good st ->
  exists st', usb_do nd e st = Ok st' /\ usb_good st'.
Proof.
  destruct st as [[[n u] acc] del]. intros Ha (Hn & Hb & Hr & Hx & Hacc).
  destruct e as [pkt|mid n']; unfold usb_do.
  - unfold usb_packet. destruct (u_armed u) eqn:A; cbn [andb].
    + destruct (Z.leb_spec (len pkt) 64).
      * eexists. split; [reflexivity|]. unfold usb_good. cbn [u_buf u_armed u_pending].
        split; [lia|]. split; [lia|]. split; [intros _; apply Hr; auto|]. split; [discriminate|].
        rewrite Hacc, (Hx eq_refl), app_nil_r. reflexivity.
      * eexists. split; [reflexivity|]. unfold usb_good. rewrite A. auto.
    + eexists. split; [reflexivity|]. unfold usb_good. rewrite A. auto.
  - destruct mid; [discriminate Ha|]. unfold usb_read.
    destruct (u_pending u) eqn:Pd.
    + assert (Hroom : n + 64 <= RX_SIZE) by (apply Hr; auto).
      destruct (Z.leb_spec (len (u_buf u)) (RX_SIZE - n)); [|lia].
      assert (Hc : c_assert nd true = Ok tt) by (destruct nd; reflexivity). rewrite Hc. cbn [bind].
      destruct (Z.ltb_spec (RX_SIZE - n) (len (u_buf u))); [lia|]. cbn [bind].
      eexists. split; [reflexivity|]. unfold usb_good. cbn [u_buf u_armed u_pending].
      assert (Hna : u_armed u = false).
      { destruct (u_armed u); [|reflexivity]. discriminate (Hx eq_refl). }
      pose proof (len_nonneg (u_buf u)).
      split; [lia|]. split; [lia|]. rewrite Hna. split; [intros [C|C]; discriminate|].
      split; [discriminate|]. rewrite Hacc, app_nil_r. reflexivity.
    + cbn [bind]. eexists. split; [reflexivity|].
      change (len []) with 0. rewrite app_nil_r.
      destruct (Z.leb_spec 64 (RX_SIZE - n)); unfold usb_good; cbn [u_buf u_armed u_pending].
      * split; [lia|]. split; [lia|]. split; [lia|]. split; [auto|exact Hacc].
      * split; [lia|]. split; [lia|]. rewrite Pd.
        split; [|split; [auto|exact Hacc]]. intros [C|C]; [|discriminate]. specialize (Hr (or_introl C)). lia.
Qed.

Lemma usb_run_good nd es : forall st, Forall (usb_allowed false) es -> usb_good st ->
  exists st', usb_run nd es st = Ok st' /\ usb_good st'.
Proof.
  induction es as [|e es IH]; intros st F G; cbn [usb_run].
  - exists st. auto.
  - inversion F; subst. destruct (usb_do_good nd e st) as (st1 & E & G1); [assumption|assumption|].
    rewrite E. cbn [bind]. apply IH; assumption.
Qed.

(** As long as no packet arrives inside console_read: whatever the packets, the polls
    and the contents of the console's buffer, console_read never stores more than the
    room it is given, and the bytes it has returned are those of the packets accepted,
    in order, none lost or repeated, up to one packet still waiting. *)
Theorem C70_usb_reads nd es : Forall (usb_allowed false) es ->
  exists n u acc del, usb_run nd es usb_start = Ok (n, u, acc, del) /\
    0 <= n <= 16384 /\ (acc = del \/ (u_pending u = true /\ acc = del ++ u_buf u)).
Proof.
  intros F. destruct (usb_run_good nd es usb_start F) as ([[[n u] acc] del] & E & G).
  - unfold usb_good, usb_start, usb_init, RX_SIZE. cbn. repeat split; try lia; intros [C|C]; discriminate.
  - destruct G as (Hn & _ & _ & _ & Hacc). exists n, u, acc, del. split; [exact E|].
    split; [exact Hn|]. destruct (u_pending u); [right; auto|left; rewrite app_nil_r in Hacc; exact Hacc].
Qed.
Print Assumptions C70_usb_reads.

(** A packet arriving between the test of pending_read and usbd_ep_recev is
    overwritten by the next one. *)
Theorem C70_packet_lost_refuted nd :
  Forall (usb_allowed true) [UPoll None 0; UPoll (Some [1]) 0; UPacket [2]; UPoll None 1] /\
  exists u, usb_run nd [UPoll None 0; UPoll (Some [1]) 0; UPacket [2]; UPoll None 1] usb_start
            = Ok (1, u, [1; 2], [2]) /\ u_pending u = false.
Proof.
  split.
  - apply Forall_forall. intros e [<-|[<-|[<-|[<-|[]]]]]; cbn; auto.
  - eexists. destruct nd; split; vm_compute; reflexivity.
Qed.
Print Assumptions C70_packet_lost_refuted.

(** The same race arms the endpoint twice for one check of the room left: with 100
    bytes of room, the second packet of 64 bytes is copied past the end of the
    console's buffer (an assertion failure where assertions are compiled in). *)
Definition sixty_four : list Z := repeat 0 64.

Lemma usb_app nd a : forall b st st', usb_run nd a st = Ok st' ->
  usb_run nd (a ++ b) st = usb_run nd b st'.
Proof.
  induction a as [|e a IH]; intros b st st'; cbn [usb_run app].
  - intros E. injection E as <-. reflexivity.
  - destruct (usb_do nd e st); [|discriminate]. cbn [bind]. apply IH.
Qed.

(** The host fills the console's buffer with 254 packets of 64 bytes and one of 28. *)
Definition fill_step (pkt : list Z) (n : Z) : list usb_event := [UPoll None n; UPacket pkt; UPoll None (n + len pkt)].
Fixpoint fill (k : nat) (n : Z) : list usb_event :=
  match k with O => [] | S k' => fill_step sixty_four n ++ fill k' (n + 64) end.

Lemma fill_step_run nd pkt n b acc del : 0 <= n -> len pkt <= 64 -> n + 64 <= RX_SIZE ->
  usb_run nd (fill_step pkt n) (n, Usb b false false, acc, del)
  = Ok (n + len pkt, Usb pkt false false, acc ++ pkt, del ++ pkt).
Proof.
  intros Hn Hp Hr. pose proof (len_nonneg pkt). unfold fill_step. cbn [usb_run].
  unfold usb_do at 1. unfold usb_read. cbn [u_pending u_armed u_buf bind].
  destruct (Z.leb_spec 64 (RX_SIZE - n)); [|lia]. change (len []) with 0. rewrite app_nil_r.
  replace (Z.max 0 (Z.min n (n + 0))) with n by lia. cbn [bind].
  unfold usb_do at 1. unfold usb_packet. cbn [u_pending u_armed u_buf andb].
  destruct (Z.leb_spec (len pkt) 64); [|lia]. cbn [bind].
  unfold usb_do at 1. unfold usb_read. cbn [u_pending u_armed u_buf bind].
  destruct (Z.leb_spec (len pkt) (RX_SIZE - n)); [|lia].
  assert (Hc : c_assert nd true = Ok tt) by (destruct nd; reflexivity). rewrite Hc. cbn [bind].
  destruct (Z.ltb_spec (RX_SIZE - n) (len pkt)); [lia|]. cbn [bind].
  replace (Z.max 0 (Z.min (n + len pkt) (n + len pkt))) with (n + len pkt) by lia. reflexivity.
Qed.

Lemma fill_run nd k : forall n b acc del, 0 <= n -> n + 64 * Z.of_nat k <= RX_SIZE ->
  exists b' acc' del', usb_run nd (fill k n) (n, Usb b false false, acc, del)
  = Ok (n + 64 * Z.of_nat k, Usb b' false false, acc', del').
Proof.
  induction k as [|k IH]; intros n b acc del Hn Hr.
  - cbn [fill usb_run]. exists b, acc, del. replace (n + 64 * Z.of_nat 0) with n by lia. reflexivity.
  - cbn [fill]. assert (Hl : len sixty_four = 64) by reflexivity.
    rewrite (usb_app nd _ _ _ _ (fill_step_run nd sixty_four n b acc del Hn ltac:(lia) ltac:(lia))).
    rewrite Hl. destruct (IH (n + 64) sixty_four (acc ++ sixty_four) (del ++ sixty_four)) as (b' & a' & d' & E);
      [lia|lia|]. rewrite E. exists b', a', d'. do 3 f_equal. f_equal. lia.
Qed.

Theorem C70_overflow_refuted : exists es, Forall (usb_allowed true) es /\
  usb_run true es usb_start = Err OutOfBounds /\ usb_run false es usb_start = Err AssertFailed.
Proof.
  set (tail := fill_step (repeat 0 28) 16256 ++
    [UPoll None 16284; UPoll (Some sixty_four) 16284; UPoll None 16348; UPacket sixty_four; UPoll None 0]).
  exists (fill 254 0 ++ tail). split.
  - apply Forall_app. split.
    + generalize 254%nat, 0. induction n as [|n IH]; intros z; cbn [fill]; [constructor|].
      apply Forall_app. split; [|apply IH].
      apply Forall_forall. intros e [<-|[<-|[<-|[]]]]; exact I.
    + apply Forall_app. split; apply Forall_forall.
      * intros e [<-|[<-|[<-|[]]]]; exact I.
      * intros e [<-|[<-|[<-|[<-|[<-|[]]]]]]; cbn; auto.
  - assert (H : forall nd, usb_run nd (fill 254 0 ++ tail) usb_start
       = if nd then Err OutOfBounds else Err AssertFailed).
    { intros nd. destruct (fill_run nd 254 0 [] [] []) as (b & acc & del & E); [lia|unfold RX_SIZE; lia|].
      unfold usb_start, usb_init. rewrite (usb_app nd _ _ _ _ E).
      change (0 + 64 * Z.of_nat 254) with 16256. unfold tail.
      rewrite (usb_app nd _ _ _ _ (fill_step_run nd (repeat 0 28) 16256 b acc del
        ltac:(lia) ltac:(cbn; lia) ltac:(unfold RX_SIZE; lia))).
      change (16256 + len (repeat 0 28)) with 16284.
      destruct nd; reflexivity. }
    split; apply H.
Qed.
Print Assumptions C70_overflow_refuted.

(** Two packets received and delivered. *)
Example C70_example :
  exists u, usb_run false [UPoll None 0; UPacket ping; UPoll None 0; UPoll None 0; UPacket [1]; UPoll None 1] usb_start
  = Ok (1, u, ping ++ [1], ping ++ [1]) /\ u_pending u = false.
Proof. eexists. split; vm_compute; reflexivity. Qed.

(** ** C71: every message is sent whole *)

(** console_write may accept any part of what it is offered, or nothing: when
    console_write_full returns, exactly the message has been sent, in order.  It
    returns at the latest when console_write has accepted something as many times as
    the message has bytes. *)
Theorem C71_sent_whole takes msg :
  (forall sent unused, console_write_full takes msg = Some (sent, unused) -> sent = msg) /\
  (len msg <= Z.of_nat (length (filter (fun w => 0 <? w) takes)) ->
   exists sent unused, console_write_full takes msg = Some (sent, unused)).
Proof.
  split.
  - apply write_full_sends.
  - intros H. destruct (console_write_full takes msg) as [[sent unused]|] eqn:E.
    + exists sent, unused. reflexivity.
    + apply write_full_prefix in E. lia.
Qed.
Print Assumptions C71_sent_whole.

Example C71_example : console_write_full [2; 0; 64; 9; 5] ping = Some (ping, [9; 5]).
Proof. reflexivity. Qed.
