(** C51: ADC results are attributed to the channel that was sampled. *)
Require Import ZArith Reals Lra Lia List Bool.
From Flocq Require Import Core.
From Verif Require Import Res Word F32 F32Flocq Arr DecoderProofs RelErr WheelAngle Sensors Adc AdcSpec.
Import ListNotations.
Open Scope Z_scope.
Ltac Zify.zify_post_hook ::= idtac.

Lemma buffer_get seq f n j : 0 <= j < Z.of_nat (length seq) -> get (buffer seq f n) j = Ok (f (n * Z.of_nat (length seq) + j)).
Proof.
  intros H. unfold get. destruct (Z.ltb_spec j 0); [lia|].
  unfold buffer, transfers. rewrite map_map, nth_error_map.
  rewrite nth_error_nth' with (d := O) by (rewrite seq_length; lia). rewrite seq_nth by lia. cbn [option_map].
  rewrite Nat.add_0_l, Z2Nat.id by lia. reflexivity.
Qed.
Lemma sent_at seq n j : 0 <= j < Z.of_nat (length seq) -> sent seq (n * Z.of_nat (length seq) + j) = nth (Z.to_nat j) seq 0.
Proof. intros H. unfold sent. rewrite Z.add_comm, Z.mod_add by lia. now rewrite Z.mod_small. Qed.

Lemma tlv_read world n j : codes world -> 0 <= j < 30 ->
  tlv_raw (buffer tlv_sequence (tlv_response world (sent tlv_sequence)) n) j =
  Ok (world (n * 30 + j - 1) (tlv_channel (sent tlv_sequence (n * 30 + j - 1)))).
Proof.
  intros C H. unfold tlv_raw. rewrite buffer_get by exact H. cbn [bind]. f_equal. unfold tlv_response.
  rewrite Z.shiftr_div_pow2 by lia. change (2 ^ 4) with 16. rewrite Z.mul_comm, Z.div_mul by lia. reflexivity.
Qed.

(** TLV2553.  The reading of pin 2 to 11 in any buffer (after the first) is the code of
    that channel during the transfer with its command, which is the last one before
    the response. *)
Theorem C51_tlv2553 world n pin : codes world -> 2 <= pin <= 11 -> exists k,
  tlv_channel (sent tlv_sequence k) = pin /\ n * 30 - 1 <= k < n * 30 + 29 /\
  tlv_pin (buffer tlv_sequence (tlv_response world (sent tlv_sequence)) n) pin = Ok (world k pin).
Proof.
  intros C H.
  assert (K : exists j, 0 <= j < 30 /\ (forall vs, tlv_pin vs pin = tlv_raw vs j) /\
     tlv_channel (nth (Z.to_nat (if j =? 0 then 29 else j - 1)) tlv_sequence 0) = pin).
  { assert (D : pin = 2 \/ pin = 3 \/ pin = 4 \/ pin = 5 \/ pin = 6 \/ pin = 7 \/ pin = 8 \/ pin = 9 \/ pin = 10 \/ pin = 11) by lia.
    destruct D as [->|[->|[->|[->|[->|[->|[->|[->|[->| ->]]]]]]]]];
      [exists 3|exists 6|exists 9|exists 12|exists 15|exists 18|exists 21|exists 24|exists 27|exists 0];
      (split; [lia|]); (split; [reflexivity|]); vm_compute; reflexivity. }
  destruct K as (j & Hj & P & S). exists (n * 30 + j - 1). rewrite P, tlv_read by auto.
  assert (X : sent tlv_sequence (n * 30 + j - 1) = nth (Z.to_nat (if j =? 0 then 29 else j - 1)) tlv_sequence 0).
  { destruct (Z.eqb_spec j 0) as [->|Hn].
    - replace (n * 30 + 0 - 1) with ((n - 1) * Z.of_nat (length tlv_sequence) + 29) by (cbn [tlv_sequence length map]; lia).
      apply sent_at. cbn; lia.
    - replace (n * 30 + j - 1) with (n * Z.of_nat (length tlv_sequence) + (j - 1)) by (cbn [tlv_sequence length map]; lia).
      apply sent_at. cbn; lia. }
  rewrite X, S. split; [reflexivity|]. split; [lia|reflexivity].
Qed.
Print Assumptions C51_tlv2553.

(** The ten samples for each knock input are the ten conversions of channels 0 and 1 in
    the buffer, in order, evenly spaced. *)
Lemma collect_ok {A} (f : Z -> res A) (g : Z -> A) n : forall i, (forall j, i <= j < i + Z.of_nat n -> f j = Ok (g j)) ->
  collect f i n = Ok (map (fun k => g (i + Z.of_nat k)) (seq 0 n)).
Proof.
  induction n as [|n IH]; intros i H; [reflexivity|]. cbn [collect seq map]. rewrite H by lia. cbn [bind].
  rewrite IH by (intros j Hj; apply H; lia). cbn [bind]. rewrite Z.add_0_r, <- seq_shift, map_map. do 2 f_equal.
  apply map_ext. intros k. f_equal. lia.
Qed.

Lemma exact_4096 v : 0 <= v <= 20475 -> R_ (fdiv (f_of_Z v) (f_of_Z 4096)) = (IZR v / 4096)%R /\ fin (fdiv (f_of_Z v) (f_of_Z 4096)).
Proof.
  intros H. destruct (f_of_Z_exact v) as [Ev Fv]; [lia|]. destruct (f_of_Z_exact 4096) as [E4 F4]; [lia|].
  assert (B : (0 <= IZR v <= 20475)%R) by (split; apply IZR_le; lia).
  assert (D : rnd (IZR v / 4096) = (IZR v / 4096)%R).
  { apply dyadic_rnd; [|rewrite Rabs_pos_eq; lra]. exists (2 * v). rewrite mult_IZR. field. }
  destruct (fdiv_correct (f_of_Z v) (f_of_Z 4096)) as [E F]; auto with vf; rewrite ?Ev, ?E4; try lra.
  - rewrite D, Rabs_pos_eq by lra. apply Rle_lt_trans with 8%R; [lra|]. unfold fmaxR. change 8%R with (bpow radix2 3). apply bpow_lt. unfold femax. lia.
  - rewrite E, Ev, E4, D. auto.
Qed.

Theorem C51_knock world n : codes world -> exists k1 k2,
  tlv_knock (buffer tlv_sequence (tlv_response world (sent tlv_sequence)) n) = Ok (k1, k2) /\
  map R_ k1 = map (fun i => (IZR (world (n * 30 + 3 * Z.of_nat i)%Z 0%Z) / 4096)%R) (seq 0 10) /\
  map R_ k2 = map (fun i => (IZR (world (n * 30 + 3 * Z.of_nat i + 1)%Z 1%Z) / 4096)%R) (seq 0 10) /\
  forall i, 0 <= i < 10 -> tlv_channel (sent tlv_sequence (n * 30 + 3 * i)) = 0 /\ tlv_channel (sent tlv_sequence (n * 30 + 3 * i + 1)) = 1.
Proof.
  intros C.
  assert (S : forall i, 0 <= i < 10 -> tlv_channel (sent tlv_sequence (n * 30 + 3 * i)) = 0 /\ tlv_channel (sent tlv_sequence (n * 30 + 3 * i + 1)) = 1).
  { intros i H. replace (n * 30 + 3 * i + 1) with (n * Z.of_nat (length tlv_sequence) + (3 * i + 1)) by (cbn [tlv_sequence length map]; lia).
    replace (n * 30 + 3 * i) with (n * Z.of_nat (length tlv_sequence) + 3 * i) by (cbn [tlv_sequence length map]; lia).
    rewrite !sent_at by (cbn [tlv_sequence length map]; lia).
    assert (D : i = 0 \/ i = 1 \/ i = 2 \/ i = 3 \/ i = 4 \/ i = 5 \/ i = 6 \/ i = 7 \/ i = 8 \/ i = 9) by lia.
    destruct D as [->|[->|[->|[->|[->|[->|[->|[->|[->| ->]]]]]]]]]; split; vm_compute; reflexivity. }
  unfold tlv_knock. 
  rewrite (collect_ok _ (fun i => fdiv (f_of_Z (world (n * 30 + 3 * i) 0)) (f_of_Z 4096))).
  2:{ intros j Hj. rewrite tlv_read by (auto; lia). cbn [bind]. replace (n * 30 + (j * 3 + 1) - 1) with (n * 30 + 3 * j) by lia.
      now rewrite (proj1 (S j ltac:(lia))). }
  cbn [bind].
  rewrite (collect_ok _ (fun i => fdiv (f_of_Z (world (n * 30 + 3 * i + 1) 1)) (f_of_Z 4096))).
  2:{ intros j Hj. rewrite tlv_read by (auto; lia). cbn [bind]. replace (n * 30 + (j * 3 + 2) - 1) with (n * 30 + 3 * j + 1) by lia.
      now rewrite (proj2 (S j ltac:(lia))). }
  cbn [bind]. eexists _, _. split; [reflexivity|]. rewrite !map_map. split; [|split; [|exact S]].
  - apply map_ext. intros k. rewrite Z.add_0_l. apply exact_4096. pose proof (C (n * 30 + 3 * Z.of_nat k) 0). lia.
  - apply map_ext. intros k. rewrite Z.add_0_l. apply exact_4096. pose proof (C (n * 30 + 3 * Z.of_nat k + 1) 1). lia.
Qed.
Print Assumptions C51_knock.

(** AD7888, pins 0 to 7. *)
Theorem C51_ad7888 world n pin : codes world -> 0 <= pin <= 7 -> exists k,
  ad_channel (sent ad_sequence k) = pin /\ n * 9 <= k < n * 9 + 8 /\
  ad_pin (buffer ad_sequence (ad_response world (sent ad_sequence)) n) pin = Ok (world k pin).
Proof.
  intros C H. exists (n * 9 + pin).
  assert (X : ad_channel (sent ad_sequence (n * 9 + pin)) = pin).
  { replace (n * 9 + pin) with (n * Z.of_nat (length ad_sequence) + pin) by (cbn [ad_sequence length map]; lia).
    rewrite sent_at by (cbn; lia).
    assert (D : pin = 0 \/ pin = 1 \/ pin = 2 \/ pin = 3 \/ pin = 4 \/ pin = 5 \/ pin = 6 \/ pin = 7) by lia.
    destruct D as [->|[->|[->|[->|[->|[->|[->| ->]]]]]]]; vm_compute; reflexivity. }
  split; [exact X|]. split; [lia|].
  assert (P : forall vs, ad_pin vs pin = ad_raw vs (pin + 1)).
  { intros vs. assert (D : pin = 0 \/ pin = 1 \/ pin = 2 \/ pin = 3 \/ pin = 4 \/ pin = 5 \/ pin = 6 \/ pin = 7) by lia.
    destruct D as [->|[->|[->|[->|[->|[->|[->| ->]]]]]]]; reflexivity. }
  rewrite P. unfold ad_raw. rewrite buffer_get by (cbn; lia). cbn [bind]. unfold ad_response.
  replace (n * Z.of_nat (length ad_sequence) + (pin + 1) - 1) with (n * 9 + pin) by (cbn [ad_sequence length map]; lia).
  rewrite X. f_equal. change 4095 with (Z.ones 12). rewrite Z.land_ones by lia. apply Z.mod_small. apply C.
Qed.
Print Assumptions C51_ad7888.

(** MAX11632, pins 2 to 15; the first and last transfers may return anything. *)
Lemma max_halves a b : 0 <= a < 4096 -> 0 <= b < 4096 -> forall x, 0 <= x < 256 ->
  Z.lor (Z.shiftl (Z.land (256 * x + a / 256) 15) 8) (Z.shiftr (256 * (a mod 256) + b / 256) 8) = a.
Proof.
  intros Ha Hb x Hx.
  assert (Q : 0 <= a / 256 < 16) by (split; [apply Z.div_pos; lia|apply Z.div_lt_upper_bound; lia]).
  assert (Qb : 0 <= b / 256 < 256) by (split; [apply Z.div_pos; lia|apply Z.div_lt_upper_bound; lia]).
  pose proof (Z.mod_pos_bound a 256 ltac:(lia)) as M.
  rewrite Z.shiftr_div_pow2 by lia. change (2 ^ 8) with 256.
  rewrite (Z.mul_comm 256 (a mod 256)), Z.div_add_l by lia. rewrite (Z.div_small (b / 256)) by lia. rewrite Z.add_0_r.
  change 15 with (Z.ones 4). rewrite Z.land_ones by lia. change (2 ^ 4) with 16.
  replace (256 * x + a / 256) with (a / 256 + (16 * x) * 16) by lia. rewrite Z.mod_add by lia. rewrite (Z.mod_small (a / 256)) by lia.
  assert (D : Z.land (Z.shiftl (a / 256) 8) (a mod 256) = 0).
  { apply Z.bits_inj'. intros i Hi. rewrite Z.land_spec, Z.bits_0. destruct (Z.ltb_spec i 8).
    - rewrite Z.shiftl_spec_low by lia. reflexivity.
    - change 256 with (2 ^ 8). rewrite Z.mod_pow2_bits_high by lia. apply andb_false_r. }
  rewrite Z.lor_comm, <- (Z.lxor_lor _ _) by (rewrite Z.land_comm; exact D).
  rewrite <- Z.add_nocarry_lxor by (rewrite Z.land_comm; exact D).
  rewrite Z.shiftl_mul_pow2 by lia. change (2 ^ 8) with 256. pose proof (Z.div_mod a 256 ltac:(lia)). lia.
Qed.

Theorem C51_max11632 world idle n pin : codes world -> (forall k, 0 <= idle k < 4096) -> 2 <= pin <= 15 -> exists k,
  max_channel (sent max_sequence k) = Some pin /\ n * 24 <= k < n * 24 + 23 /\
  max_pin (buffer max_sequence (max_response world idle (sent max_sequence)) n) pin = Ok (world k pin).
Proof.
  intros C I H.
  assert (K : exists j, 0 <= j < 23 /\ (forall vs, max_pin vs pin = max_raw vs j) /\
     max_channel (nth (Z.to_nat j) max_sequence 0) = Some pin).
  { assert (D : pin = 2 \/ pin = 3 \/ pin = 4 \/ pin = 5 \/ pin = 6 \/ pin = 7 \/ pin = 8 \/ pin = 9 \/ pin = 10 \/ pin = 11 \/ pin = 12 \/ pin = 13 \/ pin = 14 \/ pin = 15) by lia.
    destruct D as [->|[->|[->|[->|[->|[->|[->|[->|[->|[->|[->|[->|[->| ->]]]]]]]]]]]]];
      [exists 1|exists 2|exists 5|exists 6|exists 7|exists 8|exists 11|exists 12|exists 13|exists 14|exists 17|exists 18|exists 19|exists 20];
      (split; [lia|]); (split; [reflexivity|]); vm_compute; reflexivity. }
  destruct K as (j & Hj & P & S). exists (n * 24 + j). 
  assert (X : max_channel (sent max_sequence (n * 24 + j)) = Some pin).
  { change 24 with (Z.of_nat (length max_sequence)). rewrite sent_at by (cbn; lia). exact S. }
  split; [exact X|]. split; [lia|]. rewrite P. unfold max_raw.
  rewrite !buffer_get by (cbn; lia). cbn [bind]. f_equal. change (Z.of_nat (length max_sequence)) with 24.
  assert (B : forall k, 0 <= max_result world idle (sent max_sequence) k < 4096).
  { intros k. unfold max_result. destruct (max_channel (sent max_sequence k)); auto. }
  unfold max_response. replace (n * 24 + (j + 1) - 1) with (n * 24 + j) by lia.
  rewrite max_halves; auto.
  - unfold max_result. now rewrite X.
  - apply Z.mod_pos_bound. lia.
Qed.
Print Assumptions C51_max11632.

(** Pins 0 and 1 of the MAX11632 are sampled four times in each pass, but read as 0. *)
Theorem C51_max11632_refuted : exists world idle, codes world /\ (forall k, 0 <= idle k < 4096) /\
  (forall k c, world k c = 1234) /\ forall n pin, pin = 0 \/ pin = 1 ->
  (exists k, max_channel (sent max_sequence k) = Some pin /\ n * 24 <= k < n * 24 + 23) /\
  max_pin (buffer max_sequence (max_response world idle (sent max_sequence)) n) pin = Ok 0.
Proof.
  exists (fun _ _ => 1234), (fun _ => 0). split; [intros k c; lia|]. split; [intros k; lia|]. split; [reflexivity|].
  intros n pin [-> | ->]; (split; [|reflexivity]).
  - exists (n * 24 + 3). change 24 with (Z.of_nat (length max_sequence)) at 1. rewrite sent_at by (cbn; lia). split; [reflexivity|lia].
  - exists (n * 24 + 4). change 24 with (Z.of_nat (length max_sequence)) at 1. rewrite sent_at by (cbn; lia). split; [reflexivity|lia].
Qed.
Print Assumptions C51_max11632_refuted.

(** The update passed to the sensors: from the buffer that has just been filled (the DMA
    fills buffer [n mod 2] in pass [n], so that after pass [n] it uses the other one),
    each pin 2 to 11 has exactly the voltage of its code, 5 volts being 4096; the update
    is valid exactly if the self test channel reads within 10 of the middle. *)
Theorem C51_update world n now other : codes world ->
  let b := buffer tlv_sequence (tlv_response world (sent tlv_sequence)) n in
  exists u, adc_interrupt tlv_pin tlv_valid now ((n + 1) mod 2) (if n mod 2 =? 0 then b else other) (if n mod 2 =? 0 then other else b) = Ok u /\
  d_time u = now /\ length (d_values u) = 16%nat /\
  (d_valid u = true <-> Z.abs (world (n * 30 - 1) 11 - 2048) <= 10) /\
  forall pin, 2 <= pin <= 11 -> exists k v, tlv_channel (sent tlv_sequence k) = pin /\ n * 30 - 1 <= k < n * 30 + 29 /\
    nth_error (d_values u) (Z.to_nat pin) = Some v /\ fin v /\ R_ v = (5 * IZR (world k pin) / 4096)%R.
Proof.
  intros C b. unfold adc_interrupt.
  assert (Sel : (if (n + 1) mod 2 =? 0 then if n mod 2 =? 0 then other else b else if n mod 2 =? 0 then b else other) = b).
  { rewrite <- Zplus_mod_idemp_l. pose proof (Z.mod_pos_bound n 2 ltac:(lia)) as M.
    assert (D : n mod 2 = 0 \/ n mod 2 = 1) by lia. destruct D as [-> | ->]; reflexivity. }
  rewrite Sel. clear Sel.
  assert (V : tlv_pin b 11 = Ok (world (n * 30 - 1) 11)).
  { change (tlv_pin b 11) with (tlv_raw b 0). unfold b. rewrite tlv_read by (auto; lia). rewrite Z.add_0_r. f_equal. f_equal.
    replace (n * 30 - 1) with ((n - 1) * Z.of_nat (length tlv_sequence) + 29) by (cbn [tlv_sequence length map]; lia).
    rewrite sent_at by (cbn; lia). reflexivity. }
  unfold tlv_valid. rewrite V. cbn [bind].
  assert (Rd : forall j, exists x, tlv_pin b j = Ok x /\ 0 <= x < 4096).
  { intros j. destruct (Z_le_dec 2 j) as [L|L]; [destruct (Z_le_dec j 11) as [U|U]|].
    - destruct (C51_tlv2553 world n j C (conj L U)) as (k & _ & _ & E). exists (world k j). split; [exact E|apply C].
    - exists 0. split; [|lia]. unfold tlv_pin. destruct j as [|[[[[]|[]|]|[[]|[]|]|]|[[[]|[]|]|[[]|[]|]|]|]|]; try reflexivity; lia.
    - exists 0. split; [|lia]. unfold tlv_pin. destruct j as [|[[[[]|[]|]|[[]|[]|]|]|[[[]|[]|]|[[]|[]|]|]|]|]; try reflexivity; lia. }
  set (g := fun i => match tlv_pin b i with Ok v => fdiv (f_of_Z (w32 (5 * v))) (f_of_Z 4096) | Err _ => f_zero end).
  rewrite (collect_ok _ g).
  2:{ intros j _. unfold g. destruct (Rd j) as (x & E & _). rewrite E. reflexivity. }
  cbn [bind]. eexists. split; [reflexivity|]. cbn [d_time d_values d_valid]. split; [reflexivity|].
  split; [rewrite map_length, seq_length; reflexivity|]. split.
  - rewrite negb_true_iff, orb_false_iff, !Z.ltb_ge. lia.
  - intros pin Hp. destruct (C51_tlv2553 world n pin C Hp) as (k & S & B & E). exists k, (g pin).
    split; [exact S|]. split; [exact B|]. split.
    + rewrite nth_error_map. rewrite nth_error_nth' with (d := O) by (rewrite seq_length; lia). rewrite seq_nth by lia.
      cbn [option_map]. rewrite Nat.add_0_l, Z2Nat.id, Z.add_0_l by lia. reflexivity.
    + unfold g. change (tlv_pin (buffer tlv_sequence (tlv_response world (sent tlv_sequence)) n) pin) with (tlv_pin b pin) in E.
      rewrite E. pose proof (C k pin) as Ck. unfold w32. rewrite Z.mod_small by (unfold W; lia).
      destruct (exact_4096 (5 * world k pin)) as [X F]; [lia|]. split; [exact F|]. rewrite X, mult_IZR. reflexivity.
Qed.
Print Assumptions C51_update.

(* A TLV2553 whose channel c always reads 100 c + 948: the self test channel reads 2048. *)
Example C51_example : codes (fun _ c => (100 * c + 948) mod 4096) /\
  let b := buffer tlv_sequence (tlv_response (fun _ c => (100 * c + 948) mod 4096) (sent tlv_sequence)) 3 in
  map (tlv_pin b) [0; 2; 7; 11; 15] = [Ok 0; Ok 1148; Ok 1648; Ok 2048; Ok 0] /\ tlv_valid b = Ok true.
Proof. split; [intros k c; apply Z.mod_pos_bound; lia|]. split; vm_compute; reflexivity. Qed.
