Require Import ZArith List Bool Lia.
From Verif Require Import Res Word Arr TimeProofs Outputs Buffers OutputSpec OutputRun OutputProofs.
Import ListNotations.
Open Scope Z_scope.
Ltac Zify.zify_post_hook ::= Z.to_euclidean_division_equations.

(** ** Bits of a slot *)
Lemma testbit_shl1 q p : 0 <= q -> 0 <= p -> Z.testbit (2 ^ q) p = (q =? p).
Proof. intros. apply Z.pow2_bits_eqb. lia. Qed.

Definition buf_wf (b : buffer) : Prop := length (b_slots b) = 128%nat.

Lemma get_slot b j : buf_wf b -> 0 <= j < 128 -> exists s, get (b_slots b) j = Ok s.
Proof. intros Hb Hj. apply get_in_range. unfold buf_wf in Hb. lia. Qed.

Lemma slot_set_spec b i pin v : buf_wf b -> 0 <= i < 128 -> 0 <= pin < 32 ->
  exists sl, slot_set (b_slots b) i pin v = Ok sl /\ buf_wf (Buffer (b_first b) sl) /\
    forall j p u, 0 <= j < 128 -> 0 <= p < 16 ->
      slot_bit (Buffer (b_first b) sl) j p u = slot_bit b j p u || ((i =? j) && (pin =? p) && Bool.eqb v u).
Proof.
  intros Hb Hi Hpin. unfold slot_set. destruct (get_slot b i Hb Hi) as [s G]. rewrite G. cbn [bind].
  unfold shl1. destruct (Z.ltb_spec pin 32); [|lia]. cbn [bind].
  rewrite put_ok by (unfold buf_wf in Hb; lia). eexists. split; [reflexivity|].
  split; [unfold buf_wf; simpl; now rewrite upd_nat_length|]. intros j p u Hj Hp.
  unfold slot_bit. cbn [b_slots]. rewrite get_upd by (unfold buf_wf in Hb; lia).
  destruct (Z.eqb_spec i j) as [<-|N]; [|now rewrite orb_false_r].
  rewrite G. destruct v, u; cbn [s_on s_off Bool.eqb andb];
    rewrite ?andb_false_r, ?andb_true_r, ?orb_false_r; auto;
    change 65536 with (2 ^ 16); rewrite Z.mod_pow2_bits_low by lia;
    rewrite Z.lor_spec, testbit_shl1 by lia; reflexivity.
Qed.

Lemma slot_unset_spec b i pin v : buf_wf b -> 0 <= i < 128 -> 0 <= pin < 32 ->
  exists sl, slot_unset (b_slots b) i pin v = Ok sl /\ buf_wf (Buffer (b_first b) sl) /\
    forall j p u, 0 <= j < 128 -> 0 <= p < 16 ->
      slot_bit (Buffer (b_first b) sl) j p u = slot_bit b j p u && negb ((i =? j) && (pin =? p) && Bool.eqb v u).
Proof.
  intros Hb Hi Hpin. unfold slot_unset. destruct (get_slot b i Hb Hi) as [s G]. rewrite G. cbn [bind].
  unfold shl1. destruct (Z.ltb_spec pin 32); [|lia]. cbn [bind].
  rewrite put_ok by (unfold buf_wf in Hb; lia). eexists. split; [reflexivity|].
  split; [unfold buf_wf; simpl; now rewrite upd_nat_length|]. intros j p u Hj Hp.
  unfold slot_bit. cbn [b_slots]. rewrite get_upd by (unfold buf_wf in Hb; lia).
  destruct (Z.eqb_spec i j) as [<-|N]; [|now rewrite andb_true_r].
  rewrite G. destruct v, u; cbn [s_on s_off Bool.eqb andb];
    rewrite ?andb_false_r, ?andb_true_r; cbn [negb]; rewrite ?andb_true_r; auto;
    change 65536 with (2 ^ 16); rewrite Z.mod_pow2_bits_low by lia;
    rewrite Z.ldiff_spec, testbit_shl1 by lia; reflexivity.
Qed.

(** ** The loops over all entries *)
Definition entries (os : list output) : list entry := flat_map (fun o => [o_start o; o_stop o]) os.

Definition offset (b : buffer) (e : entry) : Z := w32 (e_time e - b_first b).
Definition hits (s : sstate) (b : buffer) (j p : Z) (v : bool) (e : entry) : bool :=
  sstate_eqb (e_state e) s && (offset b e =? j) && (e_pin e =? p) && Bool.eqb (e_val e) v.
Definition move (s s' : sstate) (b : buffer) (e : entry) : entry :=
  if sstate_eqb (e_state e) s && (offset b e <? NUM_SLOTS) then with_state e s' else e.
Definition move_out (s s' : sstate) (b : buffer) (o : output) : output :=
  with_entries o (move s s' b (o_start o)) (move s s' b (o_stop o)).

Lemma offset_range b e : 0 <= offset b e < W.
Proof. unfold offset, w32. apply Z.mod_pos_bound. reflexivity. Qed.

Lemma hits_first s b b' j p v e : b_first b = b_first b' -> hits s b j p v e = hits s b' j p v e.
Proof. intros E. unfold hits, offset. now rewrite E. Qed.
Lemma move_first s s' b b' e : b_first b = b_first b' -> move s s' b e = move s s' b' e.
Proof. intros E. unfold move, offset. now rewrite E. Qed.

Lemma existsb_hits s b b' j p v es : b_first b = b_first b' -> existsb (hits s b j p v) es = existsb (hits s b' j p v) es.
Proof. intros E. induction es; simpl; auto. now rewrite IHes, (hits_first _ b b'). Qed.

Definition pins_small (os : list output) : Prop := forall e, In e (entries os) -> 0 <= e_pin e < 32.

Lemma populate_entry_spec b e : buf_wf b -> 0 <= e_pin e < 32 -> exists b',
  populate_entry b e = Ok (b', move SCHEDULED SUBMITTED b e) /\ buf_wf b' /\ b_first b' = b_first b /\
  forall j p v, 0 <= j < 128 -> 0 <= p < 16 -> slot_bit b' j p v = slot_bit b j p v || hits SCHEDULED b j p v e.
Proof.
  intros Hb Hp. unfold populate_entry, move, hits. fold (offset b e). unfold NUM_SLOTS.
  pose proof (offset_range b e).
  destruct (sstate_eqb (e_state e) SCHEDULED); cbn [andb].
  - destruct (Z.ltb_spec (offset b e) 128).
    + destruct (slot_set_spec b (offset b e) (e_pin e) (e_val e) Hb ltac:(lia) Hp) as (sl & E & Wf & B).
      rewrite E. cbn [bind]. eexists. split; [reflexivity|]. split; auto.
    + eexists. split; [reflexivity|]. split; auto. split; auto. intros j p v Hj Hq.
      destruct (Z.eqb_spec (offset b e) j); [lia|]. now rewrite orb_false_r.
  - eexists. split; [reflexivity|]. split; auto. split; auto. intros. now rewrite orb_false_r.
Qed.

Lemma retire_entry_spec b e : buf_wf b -> 0 <= e_pin e < 32 -> exists b',
  retire_entry b e = Ok (b', move SUBMITTED FIRED b e) /\ buf_wf b' /\ b_first b' = b_first b /\
  forall j p v, 0 <= j < 128 -> 0 <= p < 16 -> slot_bit b' j p v = slot_bit b j p v && negb (hits SUBMITTED b j p v e).
Proof.
  intros Hb Hp. unfold retire_entry, move, hits. fold (offset b e). unfold NUM_SLOTS.
  pose proof (offset_range b e).
  destruct (sstate_eqb (e_state e) SUBMITTED); cbn [andb].
  - destruct (Z.ltb_spec (offset b e) 128).
    + destruct (slot_unset_spec b (offset b e) (e_pin e) (e_val e) Hb ltac:(lia) Hp) as (sl & E & Wf & B).
      rewrite E. cbn [bind]. eexists. split; [reflexivity|]. split; auto.
    + eexists. split; [reflexivity|]. split; auto. split; auto. intros j p v Hj Hq.
      destruct (Z.eqb_spec (offset b e) j); [lia|]. now rewrite andb_true_r.
  - eexists. split; [reflexivity|]. split; auto. split; auto. intros. now rewrite andb_true_r.
Qed.

Lemma populate_spec os : forall b, buf_wf b -> pins_small os -> exists b',
  populate_output_buffer b os = Ok (b', map (move_out SCHEDULED SUBMITTED b) os) /\ buf_wf b' /\ b_first b' = b_first b /\
  forall j p v, 0 <= j < 128 -> 0 <= p < 16 ->
    slot_bit b' j p v = slot_bit b j p v || existsb (hits SCHEDULED b j p v) (entries os).
Proof.
  unfold populate_output_buffer. induction os as [|o os IH]; intros b Hb Hp.
  - exists b. simpl. repeat split; auto. intros. now rewrite orb_false_r.
  - destruct (populate_entry_spec b (o_start o) Hb) as (b1 & E1 & W1 & F1 & B1); [apply Hp; simpl; auto|].
    destruct (populate_entry_spec b1 (o_stop o) W1) as (b2 & E2 & W2 & F2 & B2); [apply Hp; simpl; auto|].
    destruct (IH b2 W2) as (b3 & E3 & W3 & F3 & B3); [intros e I; apply Hp; simpl; auto|].
    exists b3. cbn [each_output]. rewrite E1. cbn [bind]. rewrite E2. cbn [bind]. rewrite E3. cbn [bind].
    split; [|split; [auto|split; [congruence|]]].
    + simpl map. unfold move_out at 2. rewrite (move_first _ _ b1 b) by auto. do 3 f_equal.
      apply map_ext. intros a. unfold move_out. now rewrite !(move_first _ _ b2 b) by congruence.
    + intros j p v Hj Hq. rewrite B3, B2, B1 by auto. simpl entries. simpl existsb.
      rewrite (hits_first _ b1 b) by auto. rewrite (existsb_hits _ b2 b) by congruence. now rewrite <- !orb_assoc.
Qed.

Lemma retire_spec os : forall b, buf_wf b -> pins_small os -> exists b',
  retire_output_buffer b os = Ok (b', map (move_out SUBMITTED FIRED b) os) /\ buf_wf b' /\ b_first b' = b_first b /\
  forall j p v, 0 <= j < 128 -> 0 <= p < 16 ->
    slot_bit b' j p v = slot_bit b j p v && negb (existsb (hits SUBMITTED b j p v) (entries os)).
Proof.
  unfold retire_output_buffer. induction os as [|o os IH]; intros b Hb Hp.
  - exists b. simpl. repeat split; auto. intros. now rewrite andb_true_r.
  - destruct (retire_entry_spec b (o_start o) Hb) as (b1 & E1 & W1 & F1 & B1); [apply Hp; simpl; auto|].
    destruct (retire_entry_spec b1 (o_stop o) W1) as (b2 & E2 & W2 & F2 & B2); [apply Hp; simpl; auto|].
    destruct (IH b2 W2) as (b3 & E3 & W3 & F3 & B3); [intros e I; apply Hp; simpl; auto|].
    exists b3. cbn [each_output]. rewrite E1. cbn [bind]. rewrite E2. cbn [bind]. rewrite E3. cbn [bind].
    split; [|split; [auto|split; [congruence|]]].
    + simpl map. unfold move_out at 2. rewrite (move_first _ _ b1 b) by auto. do 3 f_equal.
      apply map_ext. intros a. unfold move_out. now rewrite !(move_first _ _ b2 b) by congruence.
    + intros j p v Hj Hq. rewrite B3, B2, B1 by auto. simpl entries. simpl existsb.
      rewrite (hits_first _ b1 b) by auto. rewrite (existsb_hits _ b2 b) by congruence. now rewrite !negb_orb, <- !andb_assoc.
Qed.

(** ** One swap *)
Lemma entries_map f g os : (forall o, o_start (f o) = g (o_start o)) -> (forall o, o_stop (f o) = g (o_stop o)) ->
  entries (map f os) = map g (entries os).
Proof. intros Ha Hb. induction os as [|o os IH]; simpl; auto. now rewrite Ha, Hb, IH. Qed.

Lemma move_pin s s' b e : e_pin (move s s' b e) = e_pin e.
Proof. unfold move. destruct (_ && _); reflexivity. Qed.

Lemma pins_small_move s s' b os : pins_small os -> pins_small (map (move_out s s' b) os).
Proof.
  intros H e I. rewrite (entries_map _ (move s s' b)) in I by reflexivity. apply in_map_iff in I.
  destruct I as (x & <- & I). rewrite move_pin. auto.
Qed.

(** The state of the double buffer while block [n] plays: the bits are exactly those of the
    submitted edges of blocks [n] and [n+1]. *)
Definition edge_at (t p : Z) (v : bool) (e : entry) : Prop :=
  e_state e = SUBMITTED /\ e_time e = w32 t /\ e_pin e = p /\ e_val e = v.

Record bits_ok (n : Z) (d : dma) (os : list output) : Prop := {
  bo_cur : buf_wf (d_cur d) /\ b_first (d_cur d) = w32 (128 * n);
  bo_next : buf_wf (d_next d) /\ b_first (d_next d) = w32 (128 * (n + 1));
  bo_pins : pins_small os;
  bo_sub : forall e, In e (entries os) -> e_state e = SUBMITTED -> w32 (e_time e - 128 * n) < 256;
  bo_times : forall e, In e (entries os) -> 0 <= e_time e < W;
  bo_bits_cur : forall j p v, 0 <= j < 128 -> 0 <= p < 16 ->
     (slot_bit (d_cur d) j p v = true <-> exists e, In e (entries os) /\ edge_at (128 * n + j) p v e);
  bo_bits_next : forall j p v, 0 <= j < 128 -> 0 <= p < 16 ->
     (slot_bit (d_next d) j p v = true <-> exists e, In e (entries os) /\ edge_at (128 * (n + 1) + j) p v e) }.

Lemma sstate_eqb_spec a b : reflect (a = b) (sstate_eqb a b).
Proof. destruct a, b; constructor; congruence. Qed.

Lemma offset_at n b e j : b_first b = w32 (128 * n) -> 0 <= j < 128 -> 0 <= e_time e < W ->
  (offset b e = j <-> e_time e = w32 (128 * n + j)).
Proof. intros E Hj Ht. unfold offset, w32, W in *. rewrite E. lia. Qed.

Lemma hits_at n s b j p v e : b_first b = w32 (128 * n) -> 0 <= j < 128 -> 0 <= e_time e < W ->
  (hits s b j p v e = true <-> e_state e = s /\ e_time e = w32 (128 * n + j) /\ e_pin e = p /\ e_val e = v).
Proof.
  intros E Hj Ht. unfold hits. rewrite !andb_true_iff, !Z.eqb_eq, (offset_at n b e j E Hj Ht).
  destruct (sstate_eqb_spec (e_state e) s); rewrite eqb_true_iff; intuition congruence.
Qed.

Lemma round_block now n : now / 128 = n + 1 -> w32 (round_time_to_buffer_start (w32 now) + NUM_SLOTS) = w32 (128 * (n + 2)).
Proof.
  intros E. unfold round_time_to_buffer_start, NUM_SLOTS, w32, W.
  replace (now mod 4294967296 mod 128) with (now mod 128) by lia. 
  rewrite Zplus_mod_idemp_l. rewrite <- (Zplus_mod_idemp_l (_ - _)), Zminus_mod_idemp_l, Zplus_mod_idemp_l.
  f_equal. lia.
Qed.

Lemma w32_down a k : 0 <= k <= w32 a -> w32 (a - k) = w32 a - k.
Proof.
  unfold w32. intros H. pose proof (Z.mod_pos_bound a W eq_refl). rewrite <- Zminus_mod_idemp_l. apply Z.mod_small. lia.
Qed.
Lemma w32_up a k : 0 <= k -> w32 a + k < W -> w32 (a + k) = w32 a + k.
Proof.
  unfold w32. intros H H'. pose proof (Z.mod_pos_bound a W eq_refl). rewrite <- Zplus_mod_idemp_l. apply Z.mod_small. lia.
Qed.

Lemma swap_spec now n d os : now / 128 = n + 1 -> bits_ok n d os -> exists d',
  stm32_buffer_swap (w32 now) d os = Ok (d',
    map (move_out SCHEDULED SUBMITTED (empty_buffer (w32 (128 * (n + 2))))) (map (move_out SUBMITTED FIRED (d_cur d)) os)) /\
  bits_ok (n + 1) d' (map (move_out SCHEDULED SUBMITTED (empty_buffer (w32 (128 * (n + 2))))) (map (move_out SUBMITTED FIRED (d_cur d)) os)).
Proof.
  intros Hn B. destruct (bo_cur _ _ _ B) as [Wc Fc], (bo_next _ _ _ B) as [Wn Fn].
  destruct (retire_spec os (d_cur d) Wc (bo_pins _ _ _ B)) as (b1 & E1 & W1 & F1 & B1).
  set (os1 := map (move_out SUBMITTED FIRED (d_cur d)) os) in *.
  assert (P1 : pins_small os1) by apply pins_small_move, (bo_pins _ _ _ B).
  set (F := w32 (128 * (n + 2))).
  destruct (populate_spec os1 (Buffer F (b_slots b1)) W1 P1) as (b2 & E2 & W2 & F2 & B2).
  unfold stm32_buffer_swap. rewrite E1. cbn [bind]. rewrite (round_block now n Hn). fold F. rewrite E2. cbn [bind].
  assert (EM : map (move_out SCHEDULED SUBMITTED (Buffer F (b_slots b1))) os1 = map (move_out SCHEDULED SUBMITTED (empty_buffer F)) os1).
  { apply map_ext. intros a. unfold move_out. now rewrite !(move_first _ _ (Buffer F (b_slots b1)) (empty_buffer F)) by reflexivity. }
  rewrite EM. eexists. split; [reflexivity|].
  set (os2 := map (move_out SCHEDULED SUBMITTED (empty_buffer F)) os1) in *.
  assert (EN1 : entries os1 = map (move SUBMITTED FIRED (d_cur d)) (entries os)) by (apply entries_map; reflexivity).
  assert (EN2 : entries os2 = map (move SCHEDULED SUBMITTED (empty_buffer F)) (entries os1)) by (apply entries_map; reflexivity).
  assert (TM : forall s s' b e, e_time (move s s' b e) = e_time e) by (intros; unfold move; destruct (_ && _); reflexivity).
  assert (VM : forall s s' b e, e_val (move s s' b e) = e_val e) by (intros; unfold move; destruct (_ && _); reflexivity).
  (* how a submitted entry of the new state arises *)
  assert (K : forall e, In e (entries os) ->
    e_state (move SCHEDULED SUBMITTED (empty_buffer F) (move SUBMITTED FIRED (d_cur d) e)) = SUBMITTED <->
    (e_state e = SUBMITTED /\ 128 <= w32 (e_time e - 128 * n)) \/ (e_state e = SCHEDULED /\ w32 (e_time e - 128 * (n + 2)) < 128)).
  { intros e I. unfold move at 2, offset. rewrite Fc. unfold NUM_SLOTS.
    assert (O : w32 (e_time e - w32 (128 * n)) = w32 (e_time e - 128 * n)) by (unfold w32; now rewrite Zminus_mod_idemp_r).
    rewrite O.
    assert (O2 : w32 (e_time e - F) = w32 (e_time e - 128 * (n + 2))) by (unfold F, w32; now rewrite Zminus_mod_idemp_r).
    destruct (sstate_eqb_spec (e_state e) SUBMITTED) as [Es|Es]; cbn [andb].
    - destruct (Z.ltb_spec (w32 (e_time e - 128 * n)) 128).
      + unfold move. cbn [with_state e_state sstate_eqb andb]. split; [discriminate|]. intros [[_ H1]|[H1 _]]; [lia|congruence].
      + unfold move. rewrite Es. cbn [sstate_eqb andb]. rewrite Es. split; auto.
    - unfold move, offset. cbn [b_first empty_buffer]. rewrite O2. unfold NUM_SLOTS.
      destruct (sstate_eqb_spec (e_state e) SCHEDULED) as [Ec|Ec]; cbn [andb].
      + destruct (Z.ltb_spec (w32 (e_time e - 128 * (n + 2))) 128); cbn [with_state e_state]; (split; [|intros [[H1 _]|[_ H1]]; [congruence|try lia; auto]]); [auto|congruence].
      + intuition congruence. }
  assert (IN2 : forall P : entry -> Prop, (forall e e', e_state e = e_state e' -> e_time e = e_time e' -> e_pin e = e_pin e' -> e_val e = e_val e' -> P e -> P e') ->
    (exists e, In e (entries os2) /\ P e) <-> exists e, In e (entries os) /\ P (move SCHEDULED SUBMITTED (empty_buffer F) (move SUBMITTED FIRED (d_cur d) e))).
  { intros P _. split.
    - intros (e & I & Pe). rewrite EN2, EN1, map_map in I. apply in_map_iff in I. destruct I as (x & <- & I). eauto.
    - intros (e & I & Pe). eexists. split; [|exact Pe]. rewrite EN2, EN1, map_map. apply in_map_iff. eauto. }
  assert (AT : forall t p v, (exists e, In e (entries os2) /\ edge_at t p v e) <->
     exists e, In e (entries os) /\ ((e_state e = SUBMITTED /\ 128 <= w32 (e_time e - 128 * n)) \/ (e_state e = SCHEDULED /\ w32 (e_time e - 128 * (n + 2)) < 128)) /\
       e_time e = w32 t /\ e_pin e = p /\ e_val e = v).
  { intros t p v. rewrite (IN2 (edge_at t p v)).
    2:{ unfold edge_at. intros e e' -> -> -> ->. auto. }
    unfold edge_at. split; intros (e & I & H); exists e; (split; [auto|]).
    - rewrite !TM, !move_pin, !VM in H. rewrite <- (K e I). exact H.
    - rewrite !TM, !move_pin, !VM. rewrite (K e I). exact H. }
  constructor.
  - cbn [d_cur d_next]. rewrite Fn. auto.
  - cbn [d_cur d_next]. split; auto. rewrite F2. cbn [b_first]. unfold F. f_equal. lia.
  - apply pins_small_move; auto.
  - intros e I. rewrite EN2, EN1, map_map in I. apply in_map_iff in I. destruct I as (x & <- & I).
    rewrite (K x I), !TM. pose proof (bo_sub _ _ _ B x I).
    intros [[Hs Ho]|[Hs Ho]]; [specialize (H Hs)|clear H].
    + replace (e_time x - 128 * (n + 1)) with (e_time x - 128 * n - 128) by lia. rewrite w32_down by lia. lia.
    + replace (e_time x - 128 * (n + 1)) with (e_time x - 128 * (n + 2) + 128) by lia. rewrite w32_up by (unfold W; lia). lia.
  - intros e I. rewrite EN2, EN1, map_map in I. apply in_map_iff in I. destruct I as (x & <- & I).
    rewrite !TM. apply (bo_times _ _ _ B x I).
  - intros j p v Hj Hp. cbn [d_cur]. rewrite (bo_bits_next _ _ _ B j p v Hj Hp), AT. unfold edge_at.
    split; intros (e & I & H); exists e; (split; [auto|]); pose proof (bo_times _ _ _ B e I) as Ht.
    + destruct H as (Hs & H). split; [left; split; [auto|]|exact H]. destruct H as (H & _). rewrite H. unfold w32, W in *. lia.
    + destruct H as ([[Hs Ho]|[Hs Ho]] & H & H'); [auto|]. exfalso. rewrite H in Ho. unfold w32, W in *. lia.
  - intros j p v Hj Hp. cbn [d_next]. rewrite B2 by auto. rewrite AT.
    replace (128 * (n + 1 + 1)) with (128 * (n + 2)) by lia.
    assert (OLD : slot_bit (Buffer F (b_slots b1)) j p v = false).
    { change (slot_bit (Buffer F (b_slots b1)) j p v) with (slot_bit b1 j p v). rewrite B1 by auto.
      destruct (slot_bit (d_cur d) j p v) eqn:Eb; auto. rewrite (bo_bits_cur _ _ _ B j p v Hj Hp) in Eb.
      destruct Eb as (e & I & A). simpl. apply negb_false_iff. apply existsb_exists. exists e. split; auto.
      rewrite (hits_at n) by (auto; apply (bo_times _ _ _ B e I)). exact A. }
    rewrite OLD. cbn [orb]. rewrite existsb_exists. split.
    + intros (e & I & H). rewrite EN1 in I. apply in_map_iff in I. destruct I as (x & <- & I).
      rewrite (hits_at (n + 2)) in H by (auto; rewrite TM; apply (bo_times _ _ _ B x I)).
      rewrite TM, move_pin, VM in H. exists x. split; auto. destruct H as (H1 & H2 & H3). split; [|auto]. right.
      assert (Es : e_state x = SCHEDULED).
      { revert H1. unfold move. destruct (sstate_eqb_spec (e_state x) SUBMITTED) as [E|E]; cbn [andb]; auto.
        destruct (_ <? _); simpl; congruence. }
      split; auto. rewrite H2. unfold w32, W. lia.
    + intros (e & I & [[Hs Ho]|[Hs Ho]] & H).
      { exfalso. pose proof (bo_sub _ _ _ B e I Hs). destruct H as (H & _). rewrite H in *. unfold w32, W in *. lia. }
      exists (move SUBMITTED FIRED (d_cur d) e). split; [rewrite EN1; apply in_map_iff; eauto|].
      rewrite (hits_at (n + 2)) by (auto; rewrite TM; apply (bo_times _ _ _ B e I)).
      rewrite TM, move_pin, VM. split; [|exact H]. unfold move. rewrite Hs. simpl. exact Hs.
Qed.
