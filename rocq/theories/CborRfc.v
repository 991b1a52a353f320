(** The byte-at-a-time reader of CborGrammar accepts exactly the grammar of CborSpec. *)
Require Import ZArith List Bool Lia.
Require Import Verif.Framing Verif.FramingSpec Verif.FramingProofs Verif.CborGrammar Verif.CborSpec Verif.CborProofs.
Import ListNotations.
Open Scope Z_scope.
Ltac Zify.zify_post_hook ::= idtac.

Scheme wf_ind2 := Induction for wf Sort Prop with wfs_ind2 := Induction for wfs Sort Prop.
Combined Scheme wf_wfs_ind from wf_ind2, wfs_ind2.

Fixpoint feeds (o : outcome) (b : list Z) : outcome :=
  match b with
  | [] => o
  | x :: b' => match o with More st => feeds (feed st x) b' | _ => Bad end
  end.

Lemma feeds_app a : forall o b, feeds o (a ++ b) = feeds (feeds o a) b.
Proof.
  induction a as [|x a IH]; intros o b; [reflexivity|]. cbn [app feeds]. destruct o; [apply IH| |]; (destruct b; reflexivity).
Qed.

Lemma feeds_bad b : feeds Bad b = Bad.
Proof. destruct b; reflexivity. Qed.

Lemma settle_items n st : n <= 0 -> next (Items n :: st) = next st.
Proof. intros H. unfold next. cbn [settle]. destruct (Z.leb_spec n 0); [reflexivity|lia]. Qed.
Lemma settle_bytes n st : n <= 0 -> next (Bytes n :: st) = next st.
Proof. intros H. unfold next. cbn [settle]. destruct (Z.leb_spec n 0); [reflexivity|lia]. Qed.
Lemma keep_items n st : 0 < n -> next (Items n :: st) = More (Items n :: st).
Proof. intros H. unfold next. cbn [settle]. destruct (Z.leb_spec n 0); [lia|reflexivity]. Qed.
Lemma keep_bytes n st : 0 < n -> next (Bytes n :: st) = More (Bytes n :: st).
Proof. intros H. unfold next. cbn [settle]. destruct (Z.leb_spec n 0); [lia|reflexivity]. Qed.

(** ** Everything in the grammar is accepted *)
Lemma feeds_bytes s st : feeds (next (Bytes (Z.of_nat (length s)) :: st)) s = next st.
Proof.
  induction s as [|x s IH]; [now apply settle_bytes|]. rewrite keep_bytes by (cbn [length]; lia). cbn [feeds feed].
  replace (Z.of_nat (length (x :: s)) - 1) with (Z.of_nat (length s)) by (cbn [length]; lia). exact IH.
Qed.

Lemma feeds_arg major st l : forall acc, l <> [] -> (major = 8 -> False) ->
  feeds (More (Arg major (Z.of_nat (length l)) acc :: st)) l = item major (fold_left (fun a x => 256 * a + x) l acc) st.
Proof.
  induction l as [|x l IH]; intros acc Hl H8; [congruence|]. cbn [feeds feed fold_left]. destruct l as [|y l].
  - cbn [length]. change (1 <? Z.of_nat 1) with false. cbv iota. destruct (Z.eqb_spec major 8); [tauto|]. reflexivity.
  - destruct (Z.ltb_spec 1 (Z.of_nat (length (x :: y :: l)))); [|cbn [length] in *; lia].
    replace (Z.of_nat (length (x :: y :: l)) - 1) with (Z.of_nat (length (y :: l))) by (cbn [length]; lia). apply IH; [discriminate|exact H8].
Qed.

Definition ready (st : list todo) : Prop := match st with Items n :: _ => 0 < n | ItemsToBreak _ _ :: _ => True | _ => False end.

Lemma feed_ready st x : ready st -> x <> 255 -> feed st x = initial x (count st).
Proof. intros R H. destruct st as [|[] st]; try (destruct R; fail); cbn [feed]; try reflexivity. destruct (Z.eqb_spec x 255); [lia|reflexivity]. Qed.

Lemma head_ne major h a : head major h a -> exists x l, h = x :: l /\ 32 * major <= x < 32 * major + 28.
Proof. intros [b Hb|i l Hi _ _]; eexists _, _; (split; [reflexivity|lia]). Qed.

Lemma pow_len i (l : list Z) : 0 <= i < 4 -> length l = Z.to_nat (2 ^ i) -> l <> [] /\ Z.of_nat (length l) = 2 ^ i.
Proof. intros Hi Hl. assert (0 < 2 ^ i) by (apply Z.pow_pos_nonneg; lia). split; [intros ->; cbn [length] in Hl; lia|lia]. Qed.

Lemma div32 m i : 0 <= i < 32 -> (32 * m + i) / 32 = m /\ (32 * m + i) mod 32 = i.
Proof.
  intros H. split; [rewrite Z.mul_comm, Z.div_add_l, (Z.div_small i) by lia; ring|]. rewrite Z.add_comm, Z.mul_comm, Z.mod_add, Z.mod_small by lia. reflexivity.
Qed.

Lemma head_info m i : 0 <= i < 32 -> (32 * m + i) / 32 = m /\ (32 * m + i) mod 32 = i.
Proof. exact (div32 m i). Qed.

(** A head read where an item may start. *)
Lemma feeds_head major h a st : 0 <= major < 8 -> head major h a -> (major = 7 -> forall x, h = [248; x] -> 32 <= x) -> ready st ->
  feeds (More st) h = item major a (count st).
Proof.
  intros Hm H S R. destruct H as [b Hb|i l Hi Hl Fb].
  - cbn [feeds]. rewrite feed_ready by (auto; lia). unfold initial. destruct (div32 major b ltac:(lia)) as [-> ->]. destruct (Z.ltb_spec b 24); [reflexivity|lia].
  - destruct (pow_len i l Hi Hl) as [Nl El]. change (32 * major + 24 + i :: l) with ([32 * major + 24 + i] ++ l). rewrite feeds_app. cbn [feeds]. rewrite feed_ready by (auto; lia).
    unfold initial. replace (32 * major + 24 + i) with (32 * major + (24 + i)) by ring. destruct (div32 major (24 + i) ltac:(lia)) as [-> ->].
    destruct (Z.ltb_spec (24 + i) 24); [lia|]. destruct (Z.ltb_spec (24 + i) 28); [|lia]. replace (24 + i - 24) with i by ring.
    destruct (Z.eqb_spec (32 * major + (24 + i)) 248) as [E|E].
    + assert (major = 7) by lia. assert (i = 0) by lia. subst. cbn in Hl. destruct l as [|x [|y l]]; cbn in Hl; try lia. clear Nl El.
      cbn [feeds feed]. change (1 <? 2 ^ 0) with false. cbv iota. specialize (S eq_refl x). change (32 * 7 + 24 + 0) with 248 in S. specialize (S eq_refl).
      change (8 =? 8) with true. cbn [andb]. destruct (Z.ltb_spec (256 * 0 + x) 32); [lia|]. reflexivity.
    + rewrite <- El. apply feeds_arg; [exact Nl|lia].
Qed.

Lemma feeds_string major b st : major = 2 \/ major = 3 -> string major b -> ready st -> feeds (More st) b = next (count st).
Proof.
  intros Hm (h & a & s & Hh & Ha & _ & ->) R. rewrite feeds_app, (feeds_head major h a) by (auto; lia).
  unfold item. destruct (Z.ltb_spec major 2); [lia|]. destruct (Z.ltb_spec major 4); [|lia]. rewrite <- Ha. apply feeds_bytes.
Qed.

Lemma feeds_chunk major b st : major = 2 \/ major = 3 -> string major b -> feeds (More (Chunks major :: st)) b = More (Chunks major :: st).
Proof.
  intros Hm (h & a & s & Hh & Ha & _ & ->). rewrite feeds_app.
  assert (E : feeds (More (Chunks major :: st)) h = next (Bytes a :: Chunks major :: st)).
  { destruct Hh as [b Hb|i l Hi Hl Fb].
    - cbn [feeds feed]. destruct (Z.eqb_spec (32 * major + b) 255); [lia|]. destruct (div32 major b ltac:(lia)) as [-> ->]. rewrite Z.eqb_refl. destruct (Z.ltb_spec b 24); [reflexivity|lia].
    - destruct (pow_len i l Hi Hl) as [Nl El]. change (32 * major + 24 + i :: l) with ([32 * major + 24 + i] ++ l). rewrite feeds_app. cbn [feeds feed].
      destruct (Z.eqb_spec (32 * major + 24 + i) 255); [lia|]. replace (32 * major + 24 + i) with (32 * major + (24 + i)) by ring. destruct (div32 major (24 + i) ltac:(lia)) as [-> ->]. rewrite Z.eqb_refl.
      destruct (Z.ltb_spec (24 + i) 24); [lia|]. destruct (Z.ltb_spec (24 + i) 28); [|lia]. replace (24 + i - 24) with i by ring. rewrite <- El, feeds_arg by (auto; lia).
      unfold item. destruct (Z.ltb_spec major 2); [lia|]. destruct (Z.ltb_spec major 4); [|lia]. reflexivity. }
  rewrite E, <- Ha, feeds_bytes. reflexivity.
Qed.

Lemma feeds_chunks major cs st : major = 2 \/ major = 3 -> Forall (string major) cs -> feeds (More (Chunks major :: st)) (concat cs) = More (Chunks major :: st).
Proof. intros Hm F. induction F as [|b cs Hb _ IH]; [reflexivity|]. cbn [concat]. rewrite feeds_app, (feeds_chunk major b) by auto. exact IH. Qed.

Lemma accepts : (forall b, wf b -> forall st, ready st -> feeds (More st) b = next (count st)) /\
  (forall n b, wfs n b -> (forall st, feeds (next (Items (Z.of_nat n) :: st)) b = next st) /\
     forall ip p st, feeds (More (ItemsToBreak ip p :: st)) b = More (ItemsToBreak (if p && Nat.odd n then negb ip else ip) p :: st)).
Proof.
  apply wf_wfs_ind.
  - intros major h a Hm Hh st R. rewrite (feeds_head major h a) by (auto; lia). unfold item. destruct (Z.ltb_spec major 2); [reflexivity|lia].
  - intros major b Hm Hs st R. now apply (feeds_string major).
  - intros major cs Hm F st R. cbn [feeds]. rewrite feed_ready by (auto; lia). unfold initial. destruct (div32 major 31 ltac:(lia)) as [-> ->].
    change (31 <? 24) with false. change (31 <? 28) with false. change (31 <? 31) with false. cbv iota. replace ((major =? 2) || (major =? 3)) with true by (destruct Hm as [->| ->]; reflexivity).
    rewrite feeds_app, (feeds_chunks major cs) by auto. reflexivity.
  - intros h a b Hh Hb [IH _] st R. rewrite feeds_app, (feeds_head 4 h a) by (auto; lia). change (item 4 a (count st)) with (next (Items a :: count st)).
    assert (0 <= a). { destruct Hh as [? ?|i l _ _ Fb]; [lia|]. unfold number. assert (forall acc, 0 <= acc -> 0 <= fold_left (fun a x => 256 * a + x) l acc) as K; [|apply K; lia]. clear -Fb. induction Fb as [|x l [Hx _] _ IH]; intros acc Ha; cbn [fold_left]; [exact Ha|]. apply IH. lia. }
    rewrite Z2Nat.id in IH by lia. apply IH.
  - intros n b Hb [_ IH] st R. cbn [feeds]. rewrite feed_ready by (auto; lia). change (initial 159 (count st)) with (More (ItemsToBreak false false :: count st)). rewrite feeds_app, IH. reflexivity.
  - intros h a b Hh Hb [IH _] st R. rewrite feeds_app, (feeds_head 5 h a) by (auto; lia). change (item 5 a (count st)) with (next (Items (2 * a) :: count st)).
    assert (0 <= a). { destruct Hh as [? ?|i l _ _ Fb]; [lia|]. unfold number. assert (forall acc, 0 <= acc -> 0 <= fold_left (fun a x => 256 * a + x) l acc) as K; [|apply K; lia]. clear -Fb. induction Fb as [|x l [Hx _] _ IH]; intros acc Ha; cbn [fold_left]; [exact Ha|]. apply IH. lia. }
    replace (2 * a) with (Z.of_nat (2 * Z.to_nat a)) by lia. apply IH.
  - intros n b Hb [_ IH] st R. cbn [feeds]. rewrite feed_ready by (auto; lia). change (initial 191 (count st)) with (More (ItemsToBreak false true :: count st)). rewrite feeds_app, IH.
    rewrite Nat.odd_mul. reflexivity.
  - intros h a b Hh Hb IH st R. rewrite feeds_app, (feeds_head 6 h a) by (auto; lia). change (item 6 a (count st)) with (next (Items 1 :: count st)). rewrite keep_items by lia. rewrite IH by (cbn [ready]; lia). cbn [count]. now rewrite settle_items by lia.
  - intros h a Hh S st R. rewrite (feeds_head 7 h a) by (auto; lia). reflexivity.
  - split; [intros st; now apply settle_items|]. intros ip p st. cbn [feeds]. rewrite andb_false_r. reflexivity.
  - intros n b c Hb IHb Hc [IH1 IH2]. split.
    + intros st. rewrite keep_items by lia. rewrite feeds_app, IHb by (cbn [ready]; lia). cbn [count]. replace (Z.of_nat (S n) - 1) with (Z.of_nat n) by lia. apply IH1.
    + intros ip p st. rewrite feeds_app, IHb by exact I. cbn [count]. unfold next. cbn [settle]. rewrite IH2. rewrite Nat.odd_succ, <- Nat.negb_odd. destruct p, (Nat.odd n), ip; reflexivity.
Qed.

(** ** Everything accepted is in the grammar *)
(** The bytes that may follow the head of an item with this major type and argument. *)
Definition body (major a : Z) (b : list Z) : Prop :=
  if major <? 2 then b = []
  else if major <? 4 then Z.of_nat (length b) = Z.max 0 a /\ Forall byte b
  else if major =? 4 then wfs (Z.to_nat a) b
  else if major =? 5 then wfs (2 * Z.to_nat a) b
  else if major =? 6 then wf b
  else b = [].

(** What completes a stack. *)
Inductive rest : list todo -> list Z -> Prop :=
| rest_done : rest [] []
| rest_items n st b c : wfs (Z.to_nat n) b -> rest st c -> rest (Items n :: st) (b ++ c)
| rest_break n ip p st b c : wfs n b -> (p = true -> Nat.odd n = ip) -> rest st c -> rest (ItemsToBreak ip p :: st) (b ++ 255 :: c)
| rest_bytes n st b c : Z.of_nat (length b) = Z.max 0 n -> Forall byte b -> rest st c -> rest (Bytes n :: st) (b ++ c)
| rest_chunks major st cs c : Forall (string major) cs -> rest st c -> rest (Chunks major :: st) (concat cs ++ 255 :: c)
| rest_arg major n acc st l b c : 1 <= n -> Z.of_nat (length l) = n -> Forall byte l -> (major = 8 -> 32 <= fold_left (fun a x => 256 * a + x) l acc) ->
    body major (fold_left (fun a x => 256 * a + x) l acc) b -> rest st c -> rest (Arg major n acc :: st) (l ++ b ++ c).

Definition completes (o : outcome) (b : list Z) : Prop := match o with More st => rest st b | Finished => b = [] | Bad => False end.

Lemma completes_settle st b : rest (settle st) b -> rest st b.
Proof.
  revert b. induction st as [|t st IH]; intros b H; [exact H|]. destruct t; cbn [settle] in H; try exact H.
  - destruct (Z.leb_spec n 0); [|exact H]. change b with ([] ++ b). apply rest_items; [|auto]. replace (Z.to_nat n) with 0%nat by lia. constructor.
  - destruct (Z.leb_spec n 0); [|exact H]. change b with ([] ++ b). apply rest_bytes; [cbn [length]; lia|constructor|auto].
Qed.

Lemma completes_next st b : completes (next st) b -> rest st b.
Proof. intros H. apply completes_settle. unfold next in H. destruct (settle st); [cbn in H; subst; constructor|exact H]. Qed.

Lemma item_rest major a st c : completes (item major a st) c -> exists b d, c = b ++ d /\ body major a b /\ rest st d.
Proof.
  unfold item, body. destruct (major <? 2); [intros H; exists [], c; split; [reflexivity|]; split; [reflexivity|]; now apply completes_next|].
  destruct (major <? 4); [intros H; apply completes_next in H; inversion H; subst; eauto 6|].
  destruct (major =? 4); [intros H; apply completes_next in H; inversion H; subst; eauto|].
  destruct (major =? 5); [intros H; apply completes_next in H; inversion H; subst; eexists _, _; split; [reflexivity|]; split; [|eassumption]; replace (2 * Z.to_nat a)%nat with (Z.to_nat (2 * a)) by lia; assumption|].
  destruct (major =? 6).
  - intros H; apply completes_next in H; inversion H as [|n st' b d W R| | | |]; subst. change (Z.to_nat 1) with 1%nat in W. inversion W as [|n b' d' W1 W2]; subst. inversion W2; subst. rewrite app_nil_r in *. eauto.
  - intros H; exists [], c; split; [reflexivity|]; split; [reflexivity|]; now apply completes_next.
Qed.

Lemma head_of major h a b : 0 <= major < 8 -> head major h a -> body major a b -> 0 <= a -> (major = 7 -> forall x, h = [248; x] -> 32 <= x) -> wf (h ++ b).
Proof.
  intros Hm Hh Hb Ha S. unfold body in Hb. destruct (Z.ltb_spec major 2). { subst b. rewrite app_nil_r. apply (wf_number major h a); [lia|exact Hh]. }
  destruct (Z.ltb_spec major 4). { apply (wf_string major); [lia|]. exists h, a, b. destruct Hb as [Hb Fb]. split; [exact Hh|]. split; [lia|]. split; [exact Fb|reflexivity]. }
  destruct (Z.eqb_spec major 4); [subst; now apply (wf_array h a)|]. destruct (Z.eqb_spec major 5); [subst; now apply (wf_map h a)|].
  destruct (Z.eqb_spec major 6); [subst; now apply (wf_tag h a)|]. assert (major = 7) by lia. subst. rewrite app_nil_r. apply (wf_simple h a); auto.
Qed.

Lemma number_nonneg l : Forall byte l -> 0 <= number l.
Proof.
  intros Fb. unfold number. assert (forall acc, 0 <= acc -> 0 <= fold_left (fun a x => 256 * a + x) l acc) as K; [|apply K; lia].
  induction Fb as [|x l [Hx _] _ IH]; intros acc Ha; cbn [fold_left]; [exact Ha|]. apply IH. lia.
Qed.

(** An item that starts with the byte [x]. *)
Lemma initial_rest x st c : byte x -> completes (initial x st) c -> exists b d, c = b ++ d /\ wf (x :: b) /\ rest st d.
Proof.
  intros Hx. unfold initial. pose proof (Z.div_mod x 32 ltac:(lia)) as Ex. pose proof (Z.mod_pos_bound x 32 ltac:(lia)) as Bi. assert (Bm : 0 <= x / 32 < 8) by (unfold byte in Hx; split; [apply Z.div_pos; lia|apply Z.div_lt_upper_bound; lia]).
  set (m := x / 32) in *. set (i := x mod 32) in *. clearbody m i. destruct (Z.ltb_spec i 24).
  { intros G1. apply item_rest in G1. destruct G1 as (b & d & -> & Hb & Hd). exists b, d. split; [reflexivity|]. split; [|exact Hd]. change (x :: b) with ([x] ++ b). rewrite Ex.
    apply (head_of m [32 * m + i] i b); [lia|constructor; lia|exact Hb|lia|]. intros _ y E. discriminate. }
  destruct (Z.ltb_spec i 28).
  { intros G1. cbn [completes] in G1. inversion G1 as [| | | | |major n acc st' l b d N1 N2 Fl H8 Hb Hd]; subst major n acc st' c. exists (l ++ b), d. split; [now rewrite app_assoc|]. split; [|exact Hd].
    change (x :: l ++ b) with ((x :: l) ++ b). fold (number l) in *.
    assert (Hh : head m (x :: l) (number l)). { replace x with (32 * m + 24 + (i - 24)) by lia. apply head_long; [lia|lia|exact Fl]. }
    apply (head_of m (x :: l) (number l)); [lia|exact Hh| |now apply number_nonneg|].
    - destruct (Z.eqb_spec x 248); [|exact Hb]. replace m with 7 by lia. exact Hb.
    - intros M7 y E. assert (x = 248) by congruence. assert (l = [y]) by congruence. clear Ex. subst. change (248 =? 248) with true in H8. specialize (H8 eq_refl). unfold number in H8. cbn [fold_left] in H8. lia. }
  destruct (Z.ltb_spec i 31); [intros []|]. assert (i = 31) by lia. subst i.
  destruct (Z.eqb_spec m 2) as [E2|E2]; [|destruct (Z.eqb_spec m 3) as [E3|E3]]; cbn [orb].
  1,2: intros G1; inversion G1 as [| | | |major st' cs d Fc Hd|]; subst major st' c; exists (concat cs ++ [255]), d; (split; [now rewrite <- app_assoc|]); (split; [|exact Hd]).
  { rewrite E2 in *. rewrite Ex. apply (wf_chunks 2); auto. }
  { rewrite E3 in *. rewrite Ex. apply (wf_chunks 3); auto. }
  destruct (Z.eqb_spec m 4) as [E4|E4]. { intros G1. inversion G1 as [| |n ip p st' b d W P Hd| | |]; subst ip p st' c. exists (b ++ [255]), d. split; [now rewrite <- app_assoc|]. split; [|exact Hd]. replace x with 159 by lia. now apply (wf_array_open n). }
  destruct (Z.eqb_spec m 5) as [E5|E5]; [|intros []]. intros G1. inversion G1 as [| |n ip p st' b d W P Hd| | |]; subst ip p st' c. exists (b ++ [255]), d. split; [now rewrite <- app_assoc|]. split; [|exact Hd]. replace x with 191 by lia.
  specialize (P eq_refl). rewrite <- Nat.negb_even in P. apply negb_false_iff, Nat.even_spec in P. destruct P as [k ->]. now apply (wf_map_open k).
Qed.

(** The stack's top still needs a byte; chunks are those of strings. *)
Definition live (st : list todo) : Prop := match st with [] => False | Items n :: _ | Bytes n :: _ | Arg _ n _ :: _ => 0 < n | _ => True end.
Definition chunky (t : todo) : Prop := match t with Chunks m => m = 2 \/ m = 3 | Arg _ n acc => 0 < n /\ 0 <= acc | ItemsToBreak ip p => ip = true -> p = true | _ => True end.

(** One byte. *)
Lemma feed_rest st x b : byte x -> live st -> Forall chunky st -> completes (feed st x) b -> rest st (x :: b).
Proof.
  intros Hx Hst Hc H. destruct st as [|t st]; [destruct Hst|]. destruct t as [n|ip p|n|major|major n acc]; cbn [feed count live] in *.
  - apply initial_rest in H; [|exact Hx]. destruct H as (i & d & -> & W & R). inversion R as [|n' st' b c W2 R2| | | |]; subst. change (x :: i ++ b ++ c) with ((x :: i) ++ b ++ c). rewrite app_assoc. apply rest_items; [|exact R2].
    replace (Z.to_nat n) with (S (Z.to_nat (n - 1))) by lia. now constructor.
  - destruct (Z.eqb_spec x 255) as [->|N].
    + destruct ip; [destruct H|]. apply completes_next in H. change (255 :: b) with ([] ++ 255 :: b). apply (rest_break 0); [constructor|intros; reflexivity|exact H].
    + apply initial_rest in H; [|exact Hx]. destruct H as (i & d & -> & W & R). inversion R as [| |n ip' p' st' b c W2 P R2| | |]; subst. change (x :: i ++ b ++ 255 :: c) with ((x :: i) ++ b ++ 255 :: c). rewrite app_assoc. apply (rest_break (S n)); [now constructor| |exact R2].
      intros ->. specialize (P eq_refl). cbv iota in P. rewrite Nat.odd_succ, <- Nat.negb_odd, P. apply negb_involutive.
  - apply completes_next in H. inversion H as [| | |n' st' l c L Fl R| |]; subst. change (x :: l ++ c) with ((x :: l) ++ c). apply rest_bytes; [cbn [length]; lia|now constructor|exact R].
  - destruct (Z.eqb_spec x 255) as [->|N]; [apply completes_next in H; change (255 :: b) with (concat [] ++ 255 :: b); now constructor|].
    destruct (Z.eqb_spec (x / 32) major) as [M|M]; [|destruct H]. apply Forall_inv in Hc. cbn [chunky] in Hc.
    pose proof (Z.div_mod x 32 ltac:(lia)) as Ex. pose proof (Z.mod_pos_bound x 32 ltac:(lia)) as Bi. set (i := x mod 32) in *. clearbody i. rewrite M in Ex. clear M.
    destruct (Z.ltb_spec i 24).
    + apply completes_next in H. inversion H as [| | |n' st' l c L Fl R| |]; subst n' st' b. inversion R as [| | | |major' st' cs d Fc Hd|]; subst.
      replace ((32 * major + i) :: l ++ concat cs ++ 255 :: d) with (concat (((32 * major + i) :: l) :: cs) ++ 255 :: d) by (cbn [concat]; now rewrite <- app_assoc). apply rest_chunks; [|exact Hd]. constructor; [|exact Fc].
      exists [32 * major + i], i, l. split; [constructor; lia|]. split; [lia|]. split; [exact Fl|reflexivity].
    + destruct (Z.ltb_spec i 28); [|destruct H]. cbn [completes] in H. inversion H as [| | | | |major' n acc st' l s d N1 N2 Fl H8 Hb Hd]; subst major' n acc st' b. inversion Hd as [| | | |major' st' cs e Fc He|]; subst.
      fold (number l) in *. unfold body in Hb. destruct (Z.ltb_spec major 2); [lia|]. destruct (Z.ltb_spec major 4); [|lia]. destruct Hb as [Ls Fs]. pose proof (number_nonneg l Fl).
      replace ((32 * major + i) :: l ++ s ++ concat cs ++ 255 :: e) with (concat (((32 * major + i) :: l ++ s) :: cs) ++ 255 :: e) by (cbn [concat app]; now rewrite <- !app_assoc). apply rest_chunks; [|exact He]. constructor; [|exact Fc].
      exists ((32 * major + i) :: l), (number l), s. split; [|split; [lia|split; [exact Fs|reflexivity]]]. replace (32 * major + i) with (32 * major + 24 + (i - 24)) by ring. apply head_long; [lia|lia|exact Fl].
  - destruct (Z.ltb_spec 1 n).
    + cbn [completes] in H. inversion H as [| | | | |major' n' acc' st' l s d N1 N2 Fl H8 Hb Hd]; subst. change (x :: l ++ s ++ d) with ((x :: l) ++ s ++ d). apply rest_arg; [lia|cbn [length]; lia|now constructor|exact H8|exact Hb|exact Hd].
    + destruct ((major =? 8) && (256 * acc + x <? 32)) eqn:E8; [destruct H|]. apply item_rest in H. destruct H as (s & d & -> & Hb & Hd). change (x :: s ++ d) with ([x] ++ s ++ d).
      apply rest_arg; [lia|cbn [length]; lia|constructor; [exact Hx|constructor]| |exact Hb|exact Hd]. intros ->. cbn [fold_left]. change (8 =? 8) with true in E8. cbn [andb] in E8. now apply Z.ltb_ge in E8.
Qed.

Lemma next_live st : Forall chunky st -> match next st with More st' => live st' /\ Forall chunky st' | _ => True end.
Proof.
  unfold next. induction st as [|t st IH]; intros F; [exact I|]. pose proof (Forall_inv F) as F1. pose proof (Forall_inv_tail F) as F2. destruct t; cbn [settle]; try (split; [exact I|exact F]).
  - destruct (Z.leb_spec n 0); [exact (IH F2)|split; [exact H|exact F]].
  - destruct (Z.leb_spec n 0); [exact (IH F2)|split; [exact H|exact F]].
  - split; [exact (proj1 F1)|exact F].
Qed.

Definition going (o : outcome) : Prop := match o with More st => live st /\ Forall chunky st | _ => True end.

Lemma count_chunky st : Forall chunky st -> Forall chunky (count st).
Proof. intros F. destruct st as [|t st]; [exact F|]. pose proof (Forall_inv F) as F1. pose proof (Forall_inv_tail F) as F2. destruct t as [n|ip p|n|major|major n acc]; cbn [count]; try exact F; constructor; try exact F2; [exact I|].
  cbn in *. destruct p; [reflexivity|exact F1]. Qed.

Lemma item_going major a st : Forall chunky st -> going (item major a st).
Proof.
  intros F. unfold item. repeat match goal with |- context [if ?b then _ else _] => destruct b end; try (apply next_live; repeat constructor; exact F); apply next_live; exact F.
Qed.

Lemma initial_going x st : Forall chunky st -> going (initial x st).
Proof.
  intros F. unfold initial. destruct (Z.ltb_spec (x mod 32) 24); [now apply item_going|]. destruct (_ <? 28); [|destruct (_ <? 31); [exact I|]].
  - assert (0 < 2 ^ (x mod 32 - 24)) by (apply Z.pow_pos_nonneg; lia). split; [assumption|constructor; [cbn [chunky live ready]; lia|assumption]].
  - destruct ((x / 32 =? 2) || (x / 32 =? 3)) eqn:E; [split; [exact I|constructor; [|exact F]]; cbn; apply orb_true_iff in E; lia|].
    destruct (_ =? 4); [split; [exact I|constructor; [cbn; congruence|exact F]]|]. destruct (_ =? 5); [split; [exact I|constructor; [cbn; congruence|exact F]]|exact I].
Qed.

Lemma feed_going st x : byte x -> live st -> Forall chunky st -> going (feed st x).
Proof.
  intros Hx L F. destruct st as [|t st]; [exact I|]. pose proof (Forall_inv F) as F1. pose proof (Forall_inv_tail F) as F2. destruct t as [n|ip p|n|major|major n acc]; cbn [feed].
  - apply initial_going. now apply (count_chunky (Items n :: st)).
  - destruct (x =? 255); [destruct ip; [exact I|now apply next_live]|]. apply initial_going. now apply (count_chunky (ItemsToBreak ip p :: st)).
  - apply next_live. now constructor.
  - destruct (x =? 255); [now apply next_live|]. destruct (_ =? major); [|exact I]. destruct (Z.ltb_spec (x mod 32) 24); [apply next_live; now constructor|]. destruct (_ <? 28); [|exact I].
    assert (0 < 2 ^ (x mod 32 - 24)) by (apply Z.pow_pos_nonneg; lia). split; [assumption|constructor; [cbn [chunky live ready]; lia|assumption]].
  - unfold byte in Hx. cbn [chunky] in F1. destruct (Z.ltb_spec 1 n); [split; [cbn [chunky live ready]; lia|constructor; [cbn [chunky live ready]; lia|exact F2]]|]. destruct (_ && _); [exact I|]. now apply item_going.
Qed.

Lemma feeds_rest b : forall st, live st -> Forall chunky st -> Forall byte b -> feeds (More st) b = Finished -> rest st b.
Proof.
  induction b as [|x b IH]; intros st L F B H; [discriminate|]. cbn [feeds] in H. apply feed_rest; [exact (Forall_inv B)|exact L|exact F|].
  pose proof (feed_going st x (Forall_inv B) L F) as G. destruct (feed st x) as [st'| |].
  - destruct G. apply IH; auto. exact (Forall_inv_tail B).
  - destruct b; [reflexivity|discriminate].
  - rewrite feeds_bad in H. discriminate.
Qed.

(** ** The reader and the grammar *)
Lemma scan_feeds b : forall st, match scan st b 0 with
  | Complete n => feeds (More st) (firstn (Z.to_nat n) b) = Finished
  | Incomplete => exists st', feeds (More st) b = More st'
  | Invalid => exists n, feeds (More st) (firstn n b) = Bad /\ forall k, (k < n)%nat -> exists st', feeds (More st) (firstn k b) = More st' end.
Proof.
  induction b as [|x b IH]; intros st; cbn [scan]; [exists st; reflexivity|].
  destruct (feed st x) as [st'| |] eqn:E.
  - rewrite scan_shift. specialize (IH st'). destruct (scan st' b 0) as [n| |] eqn:S.
    + apply scan_complete in S. destruct S as (Hn & _). replace (Z.to_nat (0 + 1 + n)) with (Datatypes.S (Z.to_nat n)) by lia. cbn [firstn feeds]. now rewrite E.
    + destruct IH as [st2 IH]. exists st2. cbn [feeds]. now rewrite E.
    + destruct IH as (n & IH1 & IH2). exists (Datatypes.S n). split; [cbn [firstn feeds]; now rewrite E|]. intros [|k] Hk; [exists st; reflexivity|]. destruct (IH2 k ltac:(lia)) as [st2 K]. exists st2. cbn [firstn feeds]. now rewrite E.
  - change (Z.to_nat (0 + 1)) with 1%nat. cbn [firstn feeds]. exact E.
  - exists 1%nat. split; [cbn [firstn feeds]; exact E|]. intros k Hk. replace k with 0%nat by lia. exists st. reflexivity.
Qed.

Lemma head_bytes major h a : 0 <= major < 8 -> head major h a -> Forall byte h.
Proof. intros Hm [b Hb|i l Hi _ Fb]; constructor; auto; unfold byte; lia. Qed.
Lemma string_bytes major b : major = 2 \/ major = 3 -> string major b -> Forall byte b.
Proof. intros Hm (h & a & s & Hh & _ & Fs & ->). apply Forall_app. split; [|exact Fs]. apply (head_bytes major h a); [lia|exact Hh]. Qed.
Lemma wf_bytes : (forall b, wf b -> Forall byte b) /\ (forall n b, wfs n b -> Forall byte b).
Proof.
  assert (B : byte 255) by (unfold byte; lia).
  apply wf_wfs_ind; intros; try (apply Forall_app; split); try assumption; try (eapply head_bytes; [|eassumption]; lia).
  - now apply (string_bytes major).
  - constructor; [unfold byte; lia|]. apply Forall_app. split; [|constructor; [exact B|constructor]]. match goal with H : Forall (string _) cs |- _ => induction H as [|c cs Hc _ IH] end; [constructor|]. cbn [concat]. apply Forall_app. split; [now apply (string_bytes major)|exact IH].
  - constructor; [unfold byte; lia|]. apply Forall_app. split; [assumption|constructor; [exact B|constructor]].
  - constructor; [unfold byte; lia|]. apply Forall_app. split; [assumption|constructor; [exact B|constructor]].
  - constructor.
Qed.

Lemma wf_accepted b : wf b <-> Forall byte b /\ feeds (More [Items 1]) b = Finished.
Proof.
  split.
  - intros W. split; [now apply wf_bytes|destruct accepts as [A _]; rewrite (A b W) by (cbn [chunky live ready]; lia); reflexivity].
  - intros [B H]. apply feeds_rest in H; [|cbn; lia|repeat constructor|exact B]. inversion H as [|n st c d W R| | | |]; subst. inversion R; subst. rewrite app_nil_r. change (Z.to_nat 1) with 1%nat in W. inversion W as [|n b' d' W1 W2]; subst. inversion W2; subst. now rewrite app_nil_r.
Qed.

(** ** What has been read can be completed *)
Definition can_end (o : outcome) : Prop := exists c, Forall byte c /\ feeds o c = Finished.

Lemma zeros n : wfs n (repeat 0 n) /\ Forall byte (repeat 0 n).
Proof.
  assert (B : byte 0) by (unfold byte; lia).
  induction n as [|n [IH1 IH2]]; cbn [repeat]; [split; constructor|]. split; [|now constructor]. change (0 :: repeat 0 n) with ([0] ++ repeat 0 n). constructor; [|exact IH1]. apply (wf_number 0 [0] 0); [auto|]. apply (head_short 0 0). lia.
Qed.

Lemma end_items n st : can_end (next st) -> can_end (next (Items n :: st)).
Proof.
  intros (c & Fc & Hc). destruct (Z_le_dec n 0) as [L|L]; [rewrite settle_items by lia; now exists c|]. destruct (zeros (Z.to_nat n)) as [Z1 Z2]. destruct accepts as [_ A]. destruct (A _ _ Z1) as [A1 _].
  exists (repeat 0 (Z.to_nat n) ++ c). split; [now apply Forall_app|]. rewrite feeds_app. rewrite Z2Nat.id in A1 by lia. now rewrite A1.
Qed.

Lemma end_bytes n st : can_end (next st) -> can_end (next (Bytes n :: st)).
Proof.
  intros (c & Fc & Hc). destruct (Z_le_dec n 0) as [L|L]; [rewrite settle_bytes by lia; now exists c|]. destruct (zeros (Z.to_nat n)) as [Z1 Z2].
  exists (repeat 0 (Z.to_nat n) ++ c). split; [now apply Forall_app|]. rewrite feeds_app. replace n with (Z.of_nat (length (repeat 0 (Z.to_nat n)))) at 1 by (rewrite repeat_length; lia). now rewrite feeds_bytes.
Qed.

Lemma end_item major a st : can_end (next st) -> can_end (item major a st).
Proof. intros H. unfold item. repeat match goal with |- context [if ?b then _ else _] => destruct b end; auto using end_items, end_bytes. Qed.

Lemma end_feed st x : byte x -> can_end (feed st x) -> can_end (More st).
Proof. intros Hx (c & Fc & Hc). exists (x :: c). split; [now constructor|exact Hc]. Qed.

Lemma end_stack st : Forall chunky st -> can_end (next st).
Proof.
  assert (B : byte 255) by (unfold byte; lia).
  induction st as [|t st IH]; intros F; [exists []; split; [constructor|reflexivity]|]. pose proof (Forall_inv F) as F1. specialize (IH (Forall_inv_tail F)). destruct t as [n|ip p|n|major|major n acc]; cbn [chunky] in F1.
  - now apply end_items.
  - assert (K : can_end (More (ItemsToBreak false p :: st))) by (apply (end_feed _ 255); [exact B|exact IH]).
    destruct ip; [|exact K]. specialize (F1 eq_refl). subst p. apply (end_feed _ 0); [unfold byte; lia|]. exact K.
  - now apply end_bytes.
  - apply (end_feed _ 255); [exact B|exact IH].
  - change (next (Arg major n acc :: st)) with (More (Arg major n acc :: st)). destruct F1 as [N A]. revert acc A F. assert (0 <= n) as N0 by lia. clear N0. replace n with (Z.of_nat (S (Z.to_nat (n - 1)))) by lia. clear N. generalize (Z.to_nat (n - 1)) as k. clear n.
    induction k as [|k IHk]; intros acc A F; apply (end_feed _ 255); auto; cbn [feed].
    + change (1 <? Z.of_nat 1) with false. cbv iota. destruct (Z.ltb_spec (256 * acc + 255) 32); [lia|]. rewrite andb_false_r. now apply end_item.
    + destruct (Z.ltb_spec 1 (Z.of_nat (S (S k)))); [|lia]. replace (Z.of_nat (S (S k)) - 1) with (Z.of_nat (S k)) by lia. apply IHk; [lia|]. constructor; [cbn [chunky live ready]; lia|exact (Forall_inv_tail F)].
Qed.

Lemma feeds_going b : forall st, live st -> Forall chunky st -> Forall byte b -> going (feeds (More st) b).
Proof.
  induction b as [|x b IH]; intros st L F B; [split; assumption|]. cbn [feeds]. pose proof (feed_going st x (Forall_inv B) L F) as G. destruct (feed st x) as [st'| |].
  - destruct G. apply IH; auto. exact (Forall_inv_tail B).
  - destruct b; exact I.
  - rewrite feeds_bad. exact I.
Qed.

Lemma live_next st : live st -> next st = More st.
Proof. intros L. destruct st as [|[] st]; cbn [live] in L; [destruct L|now apply keep_items|reflexivity|now apply keep_bytes|reflexivity|reflexivity]. Qed.

Lemma prefix_split (w x b y : list Z) : w ++ x = b ++ y -> (exists z, b = w ++ z) \/ (exists z, w = b ++ z).
Proof.
  revert b. induction w as [|a w IH]; intros b H; [left; now exists b|]. destruct b as [|c b]; [right; now exists (a :: w)|]. cbn [app] in H. assert (a = c) by congruence. subst. destruct (IH b ltac:(congruence)) as [[z ->]|[z ->]]; [left|right]; now exists z.
Qed.

Lemma validate_grammar b : Forall byte b ->
  match scan [Items 1] b 0 with
  | Complete n => 0 < n <= len b /\ wf (firstn (Z.to_nat n) b)
  | Incomplete => (exists c, c <> [] /\ wf (b ++ c)) /\ forall w x, wf w -> b <> w ++ x
  | Invalid => forall w x y, wf w -> w ++ x <> b ++ y
  end.
Proof.
  intros B. pose proof (scan_feeds b [Items 1]) as S. destruct (scan [Items 1] b 0) as [n| |] eqn:E.
  - apply scan_complete in E. destruct E as (Hn & _). split; [exact Hn|]. apply wf_accepted. split; [|exact S]. rewrite <- (firstn_skipn (Z.to_nat n) b) in B. now apply Forall_app in B.
  - destruct S as [st S]. assert (L1 : live [Items 1]) by (cbn [chunky live ready]; lia). pose proof (feeds_going b [Items 1] L1 ltac:(repeat constructor) B) as G. rewrite S in G. destruct G as [G1 G2].
    pose proof (end_stack st G2) as C. rewrite (live_next st G1) in C. destruct C as (c & Fc & Hc). split.
    + exists c. split; [intros ->; discriminate|]. apply wf_accepted. split; [now apply Forall_app|]. now rewrite feeds_app, S.
    + intros w x W ->. apply wf_accepted in W. destruct W as [_ W]. rewrite feeds_app, W in S. destruct x; discriminate.
  - destruct S as (n & S & Sk). intros w x y W H. apply wf_accepted in W. destruct W as [_ W]. rewrite <- (firstn_skipn n b), <- app_assoc in H.
    destruct (prefix_split _ _ _ _ H) as [[z Hz]|[z Hz]].
    + rewrite Hz, feeds_app, W in S. destruct z as [|z0 z]; [cbn in S; discriminate|].
      assert (Lw : (length w < n)%nat). { pose proof (firstn_le_length n b). pose proof (firstn_length n b) as L. rewrite Hz, app_length in L. cbn [length] in L. lia. }
      destruct (Sk _ Lw) as [st K]. assert (Ew : firstn (length w) b = w).
      { rewrite <- (firstn_skipn n b), Hz, <- app_assoc, firstn_app, Nat.sub_diag, firstn_all, firstn_O. apply app_nil_r. }
      rewrite Ew, W in K. discriminate.
    + rewrite Hz, feeds_app, S, feeds_bad in W. discriminate.
Qed.

Lemma map_head_grammar b : Forall byte b -> map_head b = true <-> (exists x, b = 191 :: x) \/ exists h a x, head 5 h a /\ b = h ++ x.
Proof.
  intros B. destruct b as [|x b]; cbn [map_head].
  - split; [discriminate|]. intros [[y H]|(h & a & y & Hh & E)]; [discriminate|]. destruct (head_ne _ _ _ Hh) as (z & l & -> & _). discriminate.
  - pose proof (Z.div_mod x 32 ltac:(lia)) as Ex. pose proof (Z.mod_pos_bound x 32 ltac:(lia)) as Bi. split.
    + intros H. apply andb_true_iff in H. destruct H as [H1 H2]. apply Z.eqb_eq in H1. rewrite H1 in Ex. set (i := x mod 32) in *. clearbody i.
      destruct (Z.ltb_spec i 24). { right. exists [x], i, b. split; [|reflexivity]. rewrite Ex. apply (head_short 5). lia. }
      destruct (Z.eqb_spec i 31). { left. exists b. f_equal. lia. }
      cbn [orb] in H2. apply andb_true_iff in H2. destruct H2 as [H2 H3]. apply Z.ltb_lt in H2, H3. rewrite len_cons in H3. right. set (k := Z.to_nat (2 ^ (i - 24))). assert (P : 0 < 2 ^ (i - 24)) by (apply Z.pow_pos_nonneg; lia).
      exists (x :: firstn k b), (number (firstn k b)), (skipn k b). split; [|cbn [app]; now rewrite firstn_skipn]. replace x with (32 * 5 + 24 + (i - 24)) by lia. apply (head_long 5); [lia|rewrite firstn_length; unfold k, len in *; lia|].
      apply Forall_inv_tail in B. rewrite <- (firstn_skipn k b) in B. now apply Forall_app in B.
    + intros [[y H]|(h & a & y & Hh & E)]; [assert (x = 191) by congruence; subst; reflexivity|]. destruct Hh as [c Hc|i l Hi Hl Fl]; cbn [app] in E.
      * assert (X : x = 32 * 5 + c) by congruence. rewrite X. destruct (div32 5 c ltac:(lia)) as [-> ->]. destruct (Z.ltb_spec c 24); [reflexivity|lia].
      * assert (X : x = 32 * 5 + (24 + i)) by (assert (x = 32 * 5 + 24 + i) by congruence; lia). assert (Y : b = l ++ y) by congruence. rewrite X, Y. destruct (div32 5 (24 + i) ltac:(lia)) as [-> ->]. change (5 =? 5) with true. cbn [andb].
        destruct (Z.ltb_spec (24 + i) 24); [lia|]. destruct (Z.eqb_spec (24 + i) 31); [lia|]. destruct (Z.ltb_spec (24 + i) 28); [|lia]. cbn [orb andb]. replace (24 + i - 24) with i by ring. destruct (pow_len i l Hi Hl) as [_ El]. apply Z.ltb_lt. rewrite len_cons, len_app. unfold len at 1. pose proof (len_nonneg y). lia.
Qed.
