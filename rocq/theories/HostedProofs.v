(** Proofs about the simulator's outputs. *)
Require Import ZArith List Bool Lia Permutation Sorted.
From Verif Require Import Res Word Arr TimeProofs Outputs Buffers OutputRun OutputProofs BufferProofs RunProofs
  Hosted HostedSpec.
Import ListNotations.
Open Scope Z_scope.
Ltac Zify.zify_post_hook ::= idtac.

(** ** One window *)
Lemma ticks_range s t : 0 <= ticks_from s t < 2 ^ 32.
Proof. unfold ticks_from. apply Z.mod_pos_bound. lia. Qed.

Definition dueb (start : Z) (e : entry) : bool :=
  sstate_eqb (e_state e) SCHEDULED && (ticks_from start (e_time e) <? 128).

Lemma dueb_due start e : dueb start e = true <-> due start e.
Proof.
  unfold dueb, due. rewrite andb_true_iff, Z.ltb_lt.
  destruct (sstate_eqb_spec (e_state e) SCHEDULED); split; intros [? ?]; try split; auto; try discriminate; contradiction.
Qed.

Lemma range_due start t : time_in_range t start (w32 (start + MAX_SLOTS - 1)) = (ticks_from start t <? 128).
Proof.
  unfold time_in_range, ticks_from, MAX_SLOTS.
  assert (E : w32 (w32 (start + 128 - 1) - start) = 127).
  { unfold w32. rewrite Zminus_mod_idemp_l. replace (start + 128 - 1 - start) with 127 by lia. reflexivity. }
  rewrite E. unfold w32. change W with (2 ^ 32).
  destruct (Z.leb_spec ((t - start) mod 2 ^ 32) 127), (Z.ltb_spec ((t - start) mod 2 ^ 32) 128); auto; lia.
Qed.

Definition swap_entry (start : Z) (e : entry) : entry :=
  if sstate_eqb (e_state e) SUBMITTED then with_state e FIRED
  else if dueb start e then with_state e SUBMITTED else e.
Definition swap_output (start : Z) (o : output) : output :=
  with_entries o (swap_entry start (o_start o)) (swap_entry start (o_stop o)).

Lemma submit_spec start evs e : Z.of_nat (length evs) < 64 ->
  submit_entry start (w32 (start + MAX_SLOTS - 1)) evs (fire_entry e)
  = Ok (evs ++ (if dueb start e then [e] else []), swap_entry start e).
Proof.
  intros Hl. unfold submit_entry, fire_entry, swap_entry, dueb, add_output_event.
  destruct (Z.ltb_spec (Z.of_nat (length evs)) 64); [|lia].
  destruct (e_state e) eqn:S; cbn [sstate_eqb andb with_state e_state e_time];
    rewrite ?S; cbn [sstate_eqb andb]; rewrite ?app_nil_r; try reflexivity.
  rewrite range_due. destruct (ticks_from start (e_time e) <? 128); cbn [bind]; rewrite ?app_nil_r; reflexivity.
Qed.

Lemma swap_outputs_spec start os : forall evs, Z.of_nat (length evs) + 2 * Z.of_nat (length os) <= 64 ->
  swap_outputs start (w32 (start + MAX_SLOTS - 1)) evs os
  = Ok (evs ++ filter (dueb start) (edges os), map (swap_output start) os).
Proof.
  induction os as [|o os IH]; intros evs Hl; cbn [swap_outputs edges flat_map filter map].
  - rewrite app_nil_r. reflexivity.
  - cbn [length] in Hl. rewrite submit_spec by lia. cbn [bind].
    rewrite submit_spec by (rewrite app_length; destruct (dueb start (o_start o)); cbn [length]; lia).
    cbn [bind]. rewrite IH.
    2: { rewrite !app_length. destruct (dueb start (o_start o)), (dueb start (o_stop o)); cbn [length]; lia. }
    cbn [bind]. unfold edges. cbn [flat_map app filter].
    rewrite <- !app_assoc.
    destruct (dueb start (o_start o)), (dueb start (o_stop o)); reflexivity.
Qed.

(** The comparison function, on edges of one window. *)
Definition sane (e : entry) : Prop := 0 <= e_time e < W /\ 0 <= e_pin e < 32.

Lemma time_of start e : 0 <= e_time e < W -> e_time e = (start + ticks_from start (e_time e)) mod W.
Proof.
  intros H. unfold ticks_from. change (2 ^ 32) with W. rewrite Zplus_mod_idemp_r.
  replace (start + (e_time e - start)) with (e_time e) by lia. symmetry. apply Z.mod_small. exact H.
Qed.

Lemma compare_spec start a b : sane a -> sane b -> ticks_from start (e_time a) < 128 -> ticks_from start (e_time b) < 128 ->
  (output_event_compare a b <= 0 <-> ticks_from start (e_time a) <= ticks_from start (e_time b)).
Proof.
  intros [Ha _] [Hb _] Da Db. unfold output_event_compare.
  pose proof (ticks_range start (e_time a)) as Ra. pose proof (ticks_range start (e_time b)) as Rb.
  destruct (Z.eqb_spec (e_time a) (e_time b)) as [E|E].
  - rewrite E. lia.
  - assert (Hn : ticks_from start (e_time a) <> ticks_from start (e_time b)).
    { intros C. apply E. rewrite (time_of start a Ha), (time_of start b Hb), C. reflexivity. }
    assert (Ht : time_before (e_time a) (e_time b) = (start + ticks_from start (e_time a) <? start + ticks_from start (e_time b))).
    { rewrite (time_of start a Ha) at 1. rewrite (time_of start b Hb) at 1.
      apply time_before_spec. unfold HALF. lia. }
    rewrite Ht. destruct (Z.ltb_spec (start + ticks_from start (e_time a)) (start + ticks_from start (e_time b))); lia.
Qed.

Definition tick_le (start : Z) (a b : entry) : Prop := ticks_from start (e_time a) <= ticks_from start (e_time b).

Lemma sorted_strong start l : (forall x a b y, l = x ++ a :: b :: y -> tick_le start a b) ->
  StronglySorted (tick_le start) l.
Proof.
  intros H. apply Sorted_StronglySorted; [intros a b c; unfold tick_le; lia|].
  induction l as [|a l IH]; [constructor|]. constructor.
  - apply IH. intros x c d y E. apply (H (a :: x) c d y). rewrite E. reflexivity.
  - destruct l as [|b l]; constructor. apply (H [] a b l). reflexivity.
Qed.

(** ** Playing a sorted list *)
Definition apply_edge (cur : Z) (e : entry) : Z :=
  (if e_val e then Z.lor cur (2 ^ e_pin e) else Z.ldiff cur (2 ^ e_pin e)) mod 65536.
Definition apply_edges (cur : Z) (l : list entry) : Z := fold_left apply_edge l cur.

Fixpoint reports (cur : Z) (l : list entry) : list (Z * Z) :=
  match l with
  | [] => []
  | e :: r =>
    let more := match r with e2 :: _ => e_time e =? e_time e2 | [] => false end in
    if more then reports (apply_edge cur e) r
    else (e_time e, apply_edge cur e) :: reports (apply_edge cur e) r
  end.

Lemma play_spec l : forall cur, Forall sane l -> play cur l = Ok (apply_edges cur l, reports cur l).
Proof.
  induction l as [|e l IH]; intros cur F; [reflexivity|]. inversion F as [|? ? [_ Hp] F']; subst.
  cbn [play]. unfold shl1. destruct (Z.ltb_spec (e_pin e) 32); [|lia]. cbn [bind].
  fold (apply_edge cur e). rewrite IH by assumption. cbn [bind]. unfold apply_edges. cbn [fold_left reports].
  destruct l as [|e2 l]; [reflexivity|]. destruct (e_time e =? e_time e2); reflexivity.
Qed.

Lemma apply_edge_bit cur e p : 0 <= e_pin e < 32 -> 0 <= p < 16 ->
  Z.testbit (apply_edge cur e) p = if e_pin e =? p then e_val e else Z.testbit cur p.
Proof.
  intros He Hp. unfold apply_edge. change 65536 with (2 ^ 16). rewrite Z.mod_pow2_bits_low by lia.
  destruct (e_val e).
  - rewrite Z.lor_spec, testbit_shl1 by lia. destruct (e_pin e =? p); [apply orb_true_r|apply orb_false_r].
  - rewrite Z.ldiff_spec, testbit_shl1 by lia. destruct (e_pin e =? p); cbn [negb];
      [apply andb_false_r|apply andb_true_r].
Qed.

Lemma apply_edges_bit start l : forall cur p, Forall sane l -> StronglySorted (tick_le start) l -> 0 <= p < 16 ->
  (exists e, In e l /\ e_pin e = p /\ e_val e = Z.testbit (apply_edges cur l) p /\
     forall e', In e' l -> e_pin e' = p -> tick_le start e' e)
  \/ ((forall e, In e l -> e_pin e <> p) /\ Z.testbit (apply_edges cur l) p = Z.testbit cur p).
Proof.
  induction l as [|e l IH]; intros cur p F S Hp.
  - right. split; [intros e []|reflexivity].
  - inversion F as [|? ? [Ht Hpin] F']; subst. inversion S as [|? ? S' Hall]; subst.
    unfold apply_edges. cbn [fold_left]. fold (apply_edges (apply_edge cur e) l).
    destruct (IH (apply_edge cur e) p F' S' Hp) as [(e1 & I1 & P1 & V1 & M1)|[N1 B1]].
    + left. exists e1. split; [right; exact I1|]. split; [exact P1|]. split; [exact V1|].
      intros e' [<-|I'] P'; [|apply M1; assumption].
      rewrite Forall_forall in Hall. apply Hall. exact I1.
    + rewrite apply_edge_bit in B1 by assumption.
      destruct (Z.eqb_spec (e_pin e) p) as [E|E].
      * left. exists e. split; [left; reflexivity|]. split; [exact E|]. split; [symmetry; exact B1|].
        intros e' [<-|I'] P'; [unfold tick_le; lia|]. exfalso. apply (N1 e' I' P').
      * right. split; [|exact B1]. intros e' [<-|I']; [exact E|apply N1; exact I'].
Qed.

Lemma reports_in l : forall cur t out, In (t, out) (reports cur l) ->
  exists x e y, l = x ++ e :: y /\ t = e_time e /\ out = apply_edges cur (x ++ [e]) /\
    forall e2 y', y = e2 :: y' -> e_time e <> e_time e2.
Proof.
  induction l as [|e l IH]; intros cur t out H; cbn [reports] in H; [destruct H|].
  assert (Hrest : In (t, out) (reports (apply_edge cur e) l) ->
    exists x e0 y, e :: l = x ++ e0 :: y /\ t = e_time e0 /\ out = apply_edges cur (x ++ [e0]) /\
      forall e2 y', y = e2 :: y' -> e_time e0 <> e_time e2).
  { intros HI. destruct (IH _ _ _ HI) as (x & e0 & y & -> & Ht & Ho & Hy).
    exists (e :: x), e0, y. split; [reflexivity|]. split; [exact Ht|]. split; [exact Ho|exact Hy]. }
  destruct (match l with e2 :: _ => e_time e =? e_time e2 | [] => false end) eqn:More; [auto|].
  destruct H as [H|H]; [|auto]. injection H as <- <-.
  exists [], e, l. split; [reflexivity|]. split; [reflexivity|]. split; [reflexivity|].
  intros e2 y' ->. apply Z.eqb_neq in More. exact More.
Qed.

Lemma reports_all l : forall cur e, In e l -> In (e_time e) (map fst (reports cur l)).
Proof.
  induction l as [|a l IH]; intros cur e H; [destruct H|]. cbn [reports].
  destruct l as [|b l].
  - destruct H as [<-|[]]. left. reflexivity.
  - destruct (Z.eqb_spec (e_time a) (e_time b)) as [E|E].
    + destruct H as [<-|H]; [|apply IH; exact H]. rewrite E. apply IH. left. reflexivity.
    + cbn [map fst]. destruct H as [<-|H]; [left; reflexivity|right; apply IH; exact H].
Qed.

Lemma reports_ascend start l : forall cur, Forall sane l -> Forall (fun e => ticks_from start (e_time e) < 128) l ->
  StronglySorted (tick_le start) l ->
  StronglySorted (fun a b => ticks_from start a < ticks_from start b) (map fst (reports cur l)).
Proof.
  induction l as [|a l IH]; intros cur F D S; [constructor|].
  inversion F as [|? ? Ha F']; subst. inversion D as [|? ? Da D']; subst. inversion S as [|? ? S' Hall]; subst.
  cbn [reports].
  destruct (match l with e2 :: _ => e_time a =? e_time e2 | [] => false end) eqn:More; [apply IH; assumption|].
  cbn [map fst]. constructor; [apply IH; assumption|].
  apply Forall_forall. intros t Ht. apply in_map_iff in Ht. destruct Ht as ([t' out] & <- & Ht). cbn [fst].
  destruct (reports_in _ _ _ _ Ht) as (x & e & y & -> & -> & _).
  rewrite Forall_forall in Hall.
  assert (Hle : tick_le start a e) by (apply Hall; apply in_app_iff; right; left; reflexivity).
  unfold tick_le in Hle.
  destruct (Z.eq_dec (ticks_from start (e_time a)) (ticks_from start (e_time e))) as [E|E]; [exfalso|lia].
  destruct x as [|b x]; cbn [app] in *.
  - apply Z.eqb_neq in More. apply More.
    rewrite (time_of start a (proj1 Ha)), E, <- time_of; [reflexivity|]. inversion F'; subst. unfold sane in *. tauto.
  - apply Z.eqb_neq in More. apply More.
    assert (Hb : tick_le start a b) by (apply Hall; left; reflexivity).
    assert (Hbe : tick_le start b e).
    { inversion S' as [|? ? _ Hb']; subst. rewrite Forall_forall in Hb'. apply Hb'. apply in_app_iff. right. left. reflexivity. }
    unfold tick_le in *. assert (Eab : ticks_from start (e_time a) = ticks_from start (e_time b)) by lia.
    rewrite (time_of start a (proj1 Ha)), Eab, <- time_of; [reflexivity|]. inversion F' as [|? ? Hsb _]; subst.
    unfold sane in Hsb. tauto.
Qed.

Lemma sorted_app start x y : StronglySorted (tick_le start) (x ++ y) ->
  StronglySorted (tick_le start) x /\ StronglySorted (tick_le start) y /\
  forall a b, In a x -> In b y -> tick_le start a b.
Proof.
  induction x as [|a x IH]; cbn [app]; intros H.
  - split; [constructor|]. split; [exact H|]. intros a b [].
  - inversion H as [|? ? H' Hall]; subst. destruct (IH H') as (H1 & H2 & H3).
    rewrite Forall_forall in Hall. split; [|split; [exact H2|]].
    + constructor; [exact H1|]. apply Forall_forall. intros b Hb. apply Hall. apply in_app_iff. auto.
    + intros c b [<-|Hc] Hb; [apply Hall; apply in_app_iff; auto|apply H3; assumption].
Qed.

(** One window of 128 ticks. *)
Lemma window_spec qsort start cur os : sorts qsort -> (length os <= 32)%nat -> Forall sane (edges os) ->
  exists cur' reps, do_output_slots qsort start (w32 (start + MAX_SLOTS - 1)) cur os
    = Ok (cur', reps, map (swap_output start) os) /\
    (forall t, In t (map fst reps) <-> exists e, In e (edges os) /\ due start e /\ e_time e = t) /\
    StronglySorted (fun a b => ticks_from start a < ticks_from start b) (map fst reps) /\
    (forall t out p, In (t, out) reps -> 0 <= p < 16 ->
       level start cur os p (ticks_from start t) (Z.testbit out p)) /\
    (forall p, 0 <= p < 16 -> level start cur os p 127 (Z.testbit cur' p)).
Proof.
  intros Hq Hl Hs. unfold do_output_slots, platform_buffer_swap.
  rewrite swap_outputs_spec by (cbn [length]; lia). cbn [bind app].
  set (evs := filter (dueb start) (edges os)).
  assert (Hin : forall e, In e evs <-> In e (edges os) /\ due start e).
  { intros e. unfold evs. rewrite filter_In, dueb_due. reflexivity. }
  assert (Hsane : forall e, In e evs -> sane e).
  { intros e He. apply Hin in He. rewrite Forall_forall in Hs. apply Hs. tauto. }
  assert (Hd : forall e, In e evs -> ticks_from start (e_time e) < 128).
  { intros e He. apply Hin in He. destruct He as [_ [_ He]]. exact He. }
  destruct (Hq evs) as [Hperm Hadj].
  { intros a b Ia Ib. rewrite !(compare_spec start) by auto. lia. }
  { intros a b c Ia Ib Ic. rewrite !(compare_spec start) by auto. lia. }
  assert (Hin' : forall e, In e (qsort evs) <-> In e (edges os) /\ due start e).
  { intros e. rewrite <- Hin. split; intros H; [apply (Permutation_in e (Permutation_sym Hperm) H)|apply (Permutation_in e Hperm H)]. }
  assert (Hsane' : Forall sane (qsort evs)).
  { apply Forall_forall. intros e He. apply Hsane. apply (Permutation_in e (Permutation_sym Hperm) He). }
  assert (Hd' : Forall (fun e => ticks_from start (e_time e) < 128) (qsort evs)).
  { apply Forall_forall. intros e He. apply Hd. apply (Permutation_in e (Permutation_sym Hperm) He). }
  assert (Hsort : StronglySorted (tick_le start) (qsort evs)).
  { apply sorted_strong. intros x a b y E. unfold tick_le. apply (compare_spec start).
    - rewrite Forall_forall in Hsane'. apply Hsane'. rewrite E. apply in_app_iff. right. left. reflexivity.
    - rewrite Forall_forall in Hsane'. apply Hsane'. rewrite E. apply in_app_iff. right. right. left. reflexivity.
    - rewrite Forall_forall in Hd'. apply Hd'. rewrite E. apply in_app_iff. right. left. reflexivity.
    - rewrite Forall_forall in Hd'. apply Hd'. rewrite E. apply in_app_iff. right. right. left. reflexivity.
    - apply (Hadj x a b y E). }
  clearbody evs. set (l := qsort evs) in *. clearbody l.
  rewrite play_spec by exact Hsane'. cbn [bind].
  eexists _, _. split; [reflexivity|]. split; [|split; [|split]].
  - intros t. split.
    + intros Ht. apply in_map_iff in Ht. destruct Ht as ([t' out] & <- & Ht).
      destruct (reports_in _ _ _ _ Ht) as (x & e & y & -> & -> & _).
      exists e. assert (He : In e (x ++ e :: y)) by (apply in_app_iff; right; left; reflexivity).
      apply Hin' in He. tauto.
    + intros (e & Ie & De & <-). apply reports_all. apply Hin'. auto.
  - apply reports_ascend; assumption.
  - intros t out p Ht Hp. destruct (reports_in _ _ _ _ Ht) as (x & e & y & El & -> & -> & Hy).
    assert (Exy : l = (x ++ [e]) ++ y) by (rewrite <- app_assoc; exact El).
    rewrite Exy in Hsort. destruct (sorted_app _ _ _ Hsort) as (S1 & S2 & S12).
    assert (Hse : sane e).
    { rewrite Forall_forall in Hsane'. apply Hsane'. rewrite El. apply in_app_iff. right. left. reflexivity. }
    assert (Hpre : forall e', In e' (x ++ [e]) -> ticks_from start (e_time e') <= ticks_from start (e_time e)).
    { intros e' H'. destruct (sorted_app _ _ _ S1) as (_ & _ & S3). apply in_app_iff in H'.
      destruct H' as [H'|[<-|[]]]; [|lia]. apply S3; [exact H'|left; reflexivity]. }
    assert (Hpost : forall e', In e' y -> ticks_from start (e_time e) < ticks_from start (e_time e')).
    { intros e' H'. assert (Hle : tick_le start e e').
      { apply S12; [apply in_app_iff; right; left; reflexivity|exact H']. }
      unfold tick_le in Hle.
      destruct y as [|e2 y']; [destruct H'|].
      assert (Hse2 : sane e2).
      { rewrite Forall_forall in Hsane'. apply Hsane'. rewrite El. apply in_app_iff. right. right. left. reflexivity. }
      assert (Hle2 : tick_le start e e2).
      { apply S12; [apply in_app_iff; right; left; reflexivity|left; reflexivity]. }
      assert (Hle3 : tick_le start e2 e').
      { destruct H' as [<-|H']; [unfold tick_le; lia|]. inversion S2 as [|? ? _ Hf]; subst.
        rewrite Forall_forall in Hf. apply Hf. exact H'. }
      unfold tick_le in *.
      destruct (Z.eq_dec (ticks_from start (e_time e)) (ticks_from start (e_time e2))) as [Eq|Ne]; [|lia].
      exfalso. apply (Hy e2 y' eq_refl). rewrite (time_of start e (proj1 Hse)), Eq, <- time_of; [reflexivity|apply Hse2]. }
    assert (Hsx : Forall sane (x ++ [e])).
    { rewrite Exy in Hsane'. apply Forall_app in Hsane'. tauto. }
    assert (Hmem : forall e', In e' (edges os) -> due start e' -> ticks_from start (e_time e') <= ticks_from start (e_time e) ->
      In e' (x ++ [e])).
    { intros e' I' D' L'. assert (I2 : In e' l) by (apply Hin'; auto). rewrite Exy in I2.
      apply in_app_iff in I2. destruct I2 as [I2|I2]; [exact I2|]. specialize (Hpost e' I2). lia. }
    assert (Hmem' : forall e', In e' (x ++ [e]) -> In e' (edges os) /\ due start e').
    { intros e' I'. apply Hin'. rewrite Exy. apply in_app_iff. auto. }
    destruct (apply_edges_bit start (x ++ [e]) cur p Hsx S1 Hp) as [(e1 & I1 & P1 & V1 & M1)|[N1 B1]].
    + left. exists e1. destruct (Hmem' e1 I1) as [I1' D1'].
      split; [exact I1'|]. split; [exact D1'|]. split; [exact P1|]. split; [apply Hpre; exact I1|].
      split; [exact V1|]. intros e' I' D' P' L'. apply M1; [apply Hmem; assumption|exact P'].
    + right. split; [|exact B1]. intros e' I' D' P'.
      destruct (Z.lt_ge_cases (ticks_from start (e_time e)) (ticks_from start (e_time e'))) as [Lt|Ge]; [exact Lt|].
      exfalso. apply (N1 e'); [apply Hmem; assumption|exact P'].
  - intros p Hp. destruct (apply_edges_bit start l cur p Hsane' Hsort Hp) as [(e1 & I1 & P1 & V1 & M1)|[N1 B1]].
    + left. exists e1. apply Hin' in I1. destruct I1 as [I1 D1].
      split; [exact I1|]. split; [exact D1|]. split; [exact P1|]. split; [destruct D1; lia|].
      split; [exact V1|]. intros e' I' D' P' _. apply M1; [apply Hin'; auto|exact P'].
    + right. split; [|exact B1]. intros e' I' D' P'. exfalso. apply (N1 e'); [apply Hin'; auto|exact P'].
Qed.

Lemma level_unique start before os p k b b' : no_clash start os -> Forall sane (edges os) ->
  level start before os p k b -> level start before os p k b' -> b = b'.
Proof.
  intros NC HS [(e & I & D & P & L & V & M)|[N E]] [(e' & I' & D' & P' & L' & V' & M')|[N' E']].
  - specialize (M e' I' D' P' L'). specialize (M' e I D P L).
    assert (Et : e_time e = e_time e').
    { rewrite Forall_forall in HS. destruct (HS e I) as [T _], (HS e' I') as [T' _].
      rewrite (time_of start e T), (time_of start e' T'). f_equal. f_equal. lia. }
    rewrite <- V, <- V'. apply (NC e e' I I' D D'); congruence.
  - specialize (N' e I D P). lia.
  - specialize (N e' I' D' P'). lia.
  - congruence.
Qed.

(** A sort that exists. *)
Lemma insert_perm e l : Permutation (e :: l) (insert e l).
Proof.
  induction l as [|x l IH]; cbn [insert]; [reflexivity|].
  destruct (output_event_compare e x <=? 0); [reflexivity|].
  rewrite perm_swap. constructor. exact IH.
Qed.

Lemma insertion_perm l : Permutation l (insertion_sort l).
Proof.
  induction l as [|e l IH]; [reflexivity|]. unfold insertion_sort. cbn [fold_right].
  fold (insertion_sort l). rewrite <- insert_perm. constructor. exact IH.
Qed.

Lemma insert_adjacent e l :
  (forall a, In a l -> output_event_compare e a <= 0 \/ output_event_compare a e <= 0) ->
  Sorted (fun a b => output_event_compare a b <= 0) l ->
  Sorted (fun a b => output_event_compare a b <= 0) (insert e l).
Proof.
  intros T S. induction l as [|x l IH]; cbn [insert]; [repeat constructor|].
  destruct (Z.leb_spec (output_event_compare e x) 0).
  - constructor; [exact S|]. constructor. assumption.
  - inversion S as [|? ? S' H']; subst. constructor.
    + apply IH; [intros a Ha; apply T; right; exact Ha|exact S'].
    + assert (Hx : output_event_compare x e <= 0) by (destruct (T x (or_introl eq_refl)); lia).
      destruct l as [|y l]; cbn [insert]; [constructor; exact Hx|].
      destruct (output_event_compare e y <=? 0); constructor; [exact Hx|]. inversion H'; assumption.
Qed.

Lemma insertion_sorted l :
  (forall a b, In a l -> In b l -> output_event_compare a b <= 0 \/ output_event_compare b a <= 0) ->
  Sorted (fun a b => output_event_compare a b <= 0) (insertion_sort l).
Proof.
  induction l as [|e l IH]; intros T; [constructor|]. unfold insertion_sort. cbn [fold_right].
  fold (insertion_sort l). apply insert_adjacent.
  - intros a Ha. apply T; [left; reflexivity|right].
    apply (Permutation_in a (Permutation_sym (insertion_perm l)) Ha).
  - apply IH. intros a b Ha Hb. apply T; right; assumption.
Qed.

Lemma insertion_sorts : sorts insertion_sort.
Proof.
  intros l T _. split; [apply insertion_perm|].
  intros x a b y E. pose proof (insertion_sorted l T) as S. rewrite E in S. clear E T.
  induction x as [|c x IH]; cbn [app] in S; inversion S as [|? ? S' H']; subst.
  - inversion H'; assumption.
  - apply IH. exact S'.
Qed.

(** ** Executions *)
Lemma edges_in os e : In e (edges os) <-> exists o, In o os /\ (e = o_start o \/ e = o_stop o).
Proof.
  unfold edges. rewrite in_flat_map. split; intros (o & Ho & H).
  - exists o. split; [exact Ho|]. destruct H as [<-|[<-|[]]]; auto.
  - exists o. split; [exact Ho|]. destruct H as [->| ->]; [left|right; left]; reflexivity.
Qed.

(** What holds of an edge while the time is [128 * N]. *)
Definition edge_good (N : Z) (e : entry) : Prop :=
  sane e /\ (e_state e = SCHEDULED -> ticks_from (w32 (128 * (N + 1))) (e_time e) < 2 ^ 31).

Definition out_good (N : Z) (o : output) : Prop :=
  edge_good N (o_start o) /\ edge_good N (o_stop o) /\ 0 <= o_pin o mod 256 < 32.

Definition hgood (N : Z) (h : hsys) : Prop :=
  h_time h = w32 (128 * N) /\ (length (h_outs h) <= 32)%nat /\ Forall (out_good N) (h_outs h).

Lemma earliest_at N : hosted_earliest (w32 (128 * N)) = w32 (128 * (N + 1)).
Proof.
  unfold hosted_earliest, MAX_SLOTS, w32.
  assert (E : (128 * N) mod W = 128 * (N mod 33554432)).
  { replace W with (128 * 33554432) by reflexivity. apply Z.mul_mod_distr_l; lia. }
  rewrite E. rewrite (Z.mul_comm 128 (N mod 33554432)), Z.div_mul by lia.
  replace (N mod 33554432 * 128 + 128) with (128 * (N mod 33554432) + 128) by lia.
  rewrite <- E, Zplus_mod_idemp_l. f_equal. lia.
Qed.

Lemma ticks_shift s t k : 0 <= k <= ticks_from s t -> ticks_from (w32 (s + k)) t = ticks_from s t - k.
Proof.
  intros H. unfold ticks_from in *. change (2 ^ 32) with W in *. unfold w32. rewrite Zminus_mod_idemp_r.
  replace (t - (s + k)) with ((t - s) - k) by lia. rewrite <- Zminus_mod_idemp_l.
  apply Z.mod_small. pose proof (Z.mod_pos_bound (t - s) W ltac:(unfold W; lia)). lia.
Qed.

Lemma next_window N : w32 (w32 (128 * (N + 1)) + 128) = w32 (128 * (N + 1 + 1)).
Proof. unfold w32. rewrite Zplus_mod_idemp_l. f_equal. lia. Qed.

Lemma swap_entry_good N e : edge_good N e -> edge_good (N + 1) (swap_entry (w32 (128 * (N + 1))) e).
Proof.
  intros [S T]. unfold swap_entry, dueb, edge_good.
  destruct (e_state e) eqn:Es; cbn [sstate_eqb andb].
  - rewrite Es. split; [exact S|discriminate].
  - destruct (Z.ltb_spec (ticks_from (w32 (128 * (N + 1))) (e_time e)) 128).
    + cbn [with_state e_state]. split; [exact S|discriminate].
    + split; [exact S|]. intros _. specialize (T eq_refl).
      rewrite <- next_window, ticks_shift by lia. lia.
  - cbn [with_state e_state]. split; [exact S|discriminate].
  - rewrite Es. split; [exact S|discriminate].
Qed.

Lemma not_before E t : 0 <= t < W -> time_before t E = false -> ticks_from E t < 2 ^ 31.
Proof.
  intros Ht H. unfold time_before, s32 in H. unfold ticks_from. change (2 ^ 32) with W.
  fold (w32 (t - E)). change (2 ^ 31) with HALF.
  pose proof (Z.mod_pos_bound (t - E) W ltac:(unfold W; lia)) as R. fold (w32 (t - E)) in R.
  destruct (Z.ltb_spec (w32 (t - E)) HALF); [assumption|].
  apply Z.ltb_ge in H. unfold W in *. lia.
Qed.

Lemma enable_good N e t : edge_good N e -> 0 <= t < W ->
  edge_good N (snd (sched_entry_enable (w32 (128 * (N + 1))) e t)).
Proof.
  intros G Ht. unfold sched_entry_enable.
  destruct (sstate_eqb (e_state e) SUBMITTED || sstate_eqb (e_state e) FIRED); [exact G|].
  destruct (time_before t (w32 (128 * (N + 1)))) eqn:B; [exact G|]. cbn [snd].
  destruct G as [[_ Hp] _]. split; [split; assumption|]. intros _. cbn [e_time]. apply not_before; assumption.
Qed.

Lemma w32_range z : 0 <= w32 z < W.
Proof. apply Z.mod_pos_bound. unfold W. lia. Qed.

Lemma commit_good N o on off : out_good N o ->
  out_good N (commit_times (w32 (128 * (N + 1))) o (w32 on) (w32 off)).
Proof.
  intros (Ga & Gb & Gp).
  destruct (commit_shape (w32 (128 * (N + 1))) o (w32 on) (w32 off)) as (t & Ht & Es & Et & _ & Ep & _).
  assert (Hr : 0 <= t < W) by (destruct Ht as [->|(x & ->)]; apply w32_range).
  split; [|split].
  - rewrite Es. apply enable_good; [exact Ga|apply w32_range].
  - destruct Et as [-> | ->]; [exact Gb|]. apply enable_good; assumption.
  - rewrite Ep. exact Gp.
Qed.

Lemma pins_good N o : out_good N o -> out_good N (set_pins o).
Proof.
  intros ([[Ta Pa] Sa] & [[Tb Pb] Sb] & Gp). unfold set_pins.
  split; [|split]; cbn [o_start o_stop o_pin with_entries]; [| |exact Gp].
  - split; [split; cbn [e_time e_pin]; assumption|exact Sa].
  - split; [split; cbn [e_time e_pin]; assumption|exact Sb].
Qed.

Lemma edge_good_state N e s : edge_good N e -> s <> SCHEDULED -> edge_good N (with_state e s).
Proof. intros [S _] Hs. split; [exact S|]. cbn [with_state e_state]. congruence. Qed.

Lemma reset_good nd N o o' : out_good N o -> reset_fired_event nd o = Ok o' -> out_good N o'.
Proof.
  intros (Ga & Gb & Gp). unfold reset_fired_event.
  destruct (c_assert nd _); [|discriminate]. cbn [bind]. destruct (c_assert nd _); [|discriminate]. cbn [bind].
  intros E. injection E as <-. split; [|split]; cbn [o_start o_stop o_pin with_entries]; [| |exact Gp].
  - apply edge_good_state; [exact Ga|discriminate].
  - apply edge_good_state; [exact Gb|discriminate].
Qed.

Lemma disable_good nd N e ok e' : edge_good N e -> sched_entry_disable nd e = Ok (ok, e') -> edge_good N e'.
Proof.
  intros G. unfold sched_entry_disable. destruct (c_assert nd _); [|discriminate]. cbn [bind].
  destruct (negb (sstate_eqb (e_state e) SCHEDULED)); intros E; injection E as _ <-; [exact G|].
  apply edge_good_state; [exact G|discriminate].
Qed.

Lemma deschedule_good nd N o o' : out_good N o -> deschedule_event nd o = Ok o' -> out_good N o'.
Proof.
  intros (Ga & Gb & Gp). unfold deschedule_event.
  destruct (sched_entry_disable nd (o_start o)) as [[ok a]|] eqn:Ea; [|discriminate]. cbn [bind].
  pose proof (disable_good _ _ _ _ _ Ga Ea) as Ga'.
  destruct ok.
  - destruct (sched_entry_disable nd (o_stop o)) as [[ok b]|] eqn:Eb; [|discriminate]. cbn [bind].
    pose proof (disable_good _ _ _ _ _ Gb Eb) as Gb'.
    intros E. injection E as <-. split; [exact Ga'|]. split; [exact Gb'|exact Gp].
  - intros E. injection E as <-. split; [exact Ga'|]. split; [exact Gb|exact Gp].
Qed.

Lemma upd_output_good N os i f os' : Forall (out_good N) os ->
  (forall o o', out_good N o -> f o = Ok o' -> out_good N o') ->
  upd_output os i f = Ok os' -> Forall (out_good N) os' /\ length os' = length os /\
  exists o o', nth_error os i = Some o /\ f o = Ok o' /\ os' = upd_nat os i o'.
Proof.
  intros F Hf. unfold upd_output. destruct (nth_error os i) as [o|] eqn:En; [|discriminate].
  destruct (f o) as [o'|] eqn:Ef; [|discriminate]. cbn [bind]. intros E. injection E as <-.
  assert (Ho' : out_good N o').
  { apply (Hf o o'); [|exact Ef]. rewrite Forall_forall in F. apply F. apply (nth_error_In _ _ En). }
  split; [|split; [|exists o, o'; auto]].
  - clear - F Ho'. revert i. induction F as [|x l Hx F IH]; intros i; [constructor|].
    destruct i; cbn [upd_nat]; constructor; auto.
  - clear. revert i. induction os as [|x l IH]; intros i; [reflexivity|]. destruct i; cbn [upd_nat length]; auto.
Qed.

Definition ticks_of (a : hact) : Z := match a with HTick => 1 | _ => 0 end.

Lemma good_edges N os : Forall (out_good N) os -> Forall sane (edges os).
Proof.
  intros F. apply Forall_forall. intros e He. apply edges_in in He. destruct He as (o & Ho & He).
  rewrite Forall_forall in F. destruct (F o Ho) as ([Ha _] & [Hb _] & _). destruct He as [-> | ->]; assumption.
Qed.

Lemma tick_good q N h : sorts q -> hgood N h -> exists h' r, hosted_tick q h = Ok (h', r) /\ hgood (N + 1) h' /\
  h_outs h' = map (swap_output (w32 (128 * (N + 1)))) (h_outs h).
Proof.
  intros Hq (Ht & Hl & HF). unfold hosted_tick. rewrite Ht.
  assert (Ha : w32 (w32 (128 * N) + 128) = w32 (128 * (N + 1))).
  { unfold w32. rewrite Zplus_mod_idemp_l. f_equal. lia. }
  rewrite Ha.
  destruct (window_spec q (w32 (128 * (N + 1))) (h_cur h) (h_outs h) Hq Hl (good_edges N _ HF))
    as (cur' & reps & E & _).
  rewrite E. cbn [bind]. eexists _, _. split; [reflexivity|]. split; [|reflexivity].
  split; [reflexivity|]. cbn [h_outs]. split; [rewrite map_length; exact Hl|].
  apply Forall_forall. intros o Ho. apply in_map_iff in Ho. destruct Ho as (o0 & <- & Ho).
  rewrite Forall_forall in HF. destruct (HF o0 Ho) as (Ga & Gb & Gp).
  split; [|split]; cbn [swap_output o_start o_stop o_pin with_entries]; [apply swap_entry_good; exact Ga
    |apply swap_entry_good; exact Gb|exact Gp].
Qed.

Lemma hstep_good nd q N h a h' r : sorts q -> hgood N h -> hstep q nd h a = Ok (h', r) ->
  hgood (N + ticks_of a) h'.
Proof.
  intros Hq G. pose proof G as (Ht & Hl & HF). destruct a as [i|i on off|i|i|]; cbn [hstep ticks_of]; rewrite ?Z.add_0_r.
  - destruct (upd_output _ _ _) as [os|] eqn:E; [|discriminate]. cbn [bind]. intros X. injection X as <- _.
    apply (upd_output_good N) in E; [|exact HF|].
    + destruct E as (F & L & _). split; [exact Ht|]. split; [cbn [h_outs]; rewrite L; exact Hl|exact F].
    + intros o o' Go X. injection X as <-. apply pins_good. exact Go.
  - destruct (upd_output _ _ _) as [os|] eqn:E; [|discriminate]. cbn [bind]. intros X. injection X as <- _.
    apply (upd_output_good N) in E; [|exact HF|].
    + destruct E as (F & L & _). split; [exact Ht|]. split; [cbn [h_outs]; rewrite L; exact Hl|exact F].
    + intros o o' Go X. injection X as <-. rewrite Ht, earliest_at. apply commit_good. exact Go.
  - destruct (upd_output _ _ _) as [os|] eqn:E; [|discriminate]. cbn [bind]. intros X. injection X as <- _.
    apply (upd_output_good N) in E; [|exact HF|].
    + destruct E as (F & L & _). split; [exact Ht|]. split; [cbn [h_outs]; rewrite L; exact Hl|exact F].
    + intros o o' Go X. destruct (event_has_fired o); [apply (reset_good nd N o o' Go X)|injection X as <-; exact Go].
  - destruct (upd_output _ _ _) as [os|] eqn:E; [|discriminate]. cbn [bind]. intros X. injection X as <- _.
    apply (upd_output_good N) in E; [|exact HF|].
    + destruct E as (F & L & _). split; [exact Ht|]. split; [cbn [h_outs]; rewrite L; exact Hl|exact F].
    + intros o o' Go X. destruct (sstate_eqb _ _); [injection X as <-; exact Go|apply (deschedule_good nd N o o' Go X)].
  - intros E. destruct (tick_good q N h Hq G) as (h1 & r1 & E1 & G1 & _). rewrite E1 in E. injection E as <- _. exact G1.
Qed.

Definition all_ticks (l : list hact) : Z := fold_right (fun a n => ticks_of a + n) 0 l.

Lemma hsteps_good nd q l : forall N h h' r, sorts q -> hgood N h -> hsteps q nd h l = Ok (h', r) ->
  hgood (N + all_ticks l) h'.
Proof.
  induction l as [|a l IH]; intros N h h' r Hq G E; cbn [hsteps] in E.
  - injection E as <- _. cbn. rewrite Z.add_0_r. exact G.
  - destruct (hstep q nd h a) as [[h1 r1]|] eqn:E1; [|discriminate]. cbn [bind] in E.
    destruct (hsteps q nd h1 l) as [[h2 r2]|] eqn:E2; [|discriminate]. cbn [bind] in E. injection E as <- _.
    pose proof (hstep_good _ _ _ _ _ _ _ Hq G E1) as G1.
    specialize (IH _ _ _ _ Hq G1 E2). cbn [all_ticks fold_right]. fold (all_ticks l).
    rewrite Z.add_assoc. exact IH.
Qed.

(** An edge that no request touches. *)
Definition htouches (i : nat) (a : hact) : bool :=
  match a with
  | HPins j | HCommit j _ _ | HReset j | HDeschedule j => Nat.eqb i j
  | HTick => false
  end.

Lemma nth_upd {A} (l : list A) i j x : i <> j -> nth_error (upd_nat l j x) i = nth_error l i.
Proof.
  revert i j. induction l as [|a l IH]; intros i j H; [destruct i; reflexivity|].
  destruct j, i; cbn [upd_nat nth_error]; try reflexivity; [congruence|]. apply IH. congruence.
Qed.

Lemma nth_upd_output os i j f os' : i <> j -> upd_output os j f = Ok os' -> nth_error os' i = nth_error os i.
Proof.
  intros H. unfold upd_output. destruct (nth_error os j) as [o|]; [|discriminate].
  destruct (f o) as [o'|]; [|discriminate]. cbn [bind]. intros E. injection E as <-. apply nth_upd. exact H.
Qed.

Lemma hstep_untouched nd q N h a h' r i : sorts q -> hgood N h -> htouches i a = false ->
  hstep q nd h a = Ok (h', r) ->
  nth_error (h_outs h') i = match a with
    | HTick => option_map (swap_output (w32 (128 * (N + 1)))) (nth_error (h_outs h) i)
    | _ => nth_error (h_outs h) i end.
Proof.
  intros Hq G Ht E. destruct a as [j|j on off|j|j|]; cbn [hstep htouches] in *;
    try (apply Nat.eqb_neq in Ht;
      destruct (upd_output _ _ _) as [os|] eqn:Eu; [|discriminate]; cbn [bind] in E;
      injection E as <- _; cbn [h_outs]; apply (nth_upd_output _ _ _ _ _ Ht Eu)).
  - destruct (tick_good q N h Hq G) as (h1 & r1 & E1 & _ & Ho). rewrite E1 in E. injection E as <- _.
    rewrite Ho. apply nth_error_map.
Qed.
