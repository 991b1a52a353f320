(** The encoder writes what it is given, and it can be read in one way only. *)
Require Import ZArith String Ascii List Bool Lia.
Require Import Coq.Floats.SpecFloat.
From Verif Require Import Res Word F32 Cbor ConsoleSpec CborSpec CborGrammar CborRfc Wire WireSpec.
Import ListNotations.
Open Scope Z_scope.
Ltac Zify.zify_post_hook ::= idtac.

(** ** Numbers *)
Lemma be_length n : forall z, List.length (be n z) = n.
Proof. induction n as [|n IH]; intros z; cbn [be]; [reflexivity|]. rewrite app_length, IH. cbn [List.length]. lia. Qed.
Lemma be_bytes n : forall z, Forall byte (be n z).
Proof.
  induction n as [|n IH]; intros z; cbn [be]; [constructor|]. apply Forall_app. split; [apply IH|]. constructor; [|constructor].
  unfold byte. apply Z.mod_pos_bound. lia.
Qed.
Lemma number_snoc l x : number (l ++ [x]) = 256 * number l + x.
Proof. unfold number. rewrite fold_left_app. reflexivity. Qed.
Lemma be_number n : forall z, number (be n z) = z mod 256 ^ Z.of_nat n.
Proof.
  induction n as [|n IH]; intros z; cbn [be]; [change (256 ^ Z.of_nat 0) with 1; now rewrite Z.mod_1_r|].
  rewrite number_snoc, IH. replace (256 ^ Z.of_nat (S n)) with (256 * 256 ^ Z.of_nat n) by (rewrite Nat2Z.inj_succ, Z.pow_succ_r by lia; reflexivity).
  rewrite Z.rem_mul_r by (try apply Z.pow_nonzero; try apply Z.pow_pos_nonneg; lia). lia.
Qed.

Lemma head_bytes_head major a : 0 <= a < 2 ^ 64 -> head major (head_bytes major a) a.
Proof.
  intros Ha. unfold head_bytes.
  assert (L : forall i n, 0 <= i < 4 -> n = Z.to_nat (2 ^ i) -> a < 256 ^ Z.of_nat n -> head major (32 * major + (24 + i) :: be n a) a).
  { intros i n Hi Hn Hl. replace a with (number (be n a)) at 2 by (rewrite be_number; apply Z.mod_small; lia).
    replace (32 * major + (24 + i)) with (32 * major + 24 + i) by lia. constructor; [lia|rewrite be_length; exact Hn|apply be_bytes]. }
  destruct (Z.ltb_spec a 24) as [?|?]; [constructor; lia|].
  destruct (Z.ltb_spec a 256) as [B|?]; [exact (L 0 1%nat ltac:(lia) eq_refl B)|].
  destruct (Z.ltb_spec a 65536) as [B|?]; [exact (L 1 2%nat ltac:(lia) eq_refl B)|].
  destruct (Z.ltb_spec a W) as [B|?]; [exact (L 2 4%nat ltac:(lia) eq_refl B)|].
  exact (L 3 8%nat ltac:(lia) eq_refl (proj2 Ha)).
Qed.

Lemma head_bytes_size major a : Z.of_nat (List.length (head_bytes major a)) = head_size a.
Proof.
  unfold head_bytes, head_size. repeat (match goal with |- context [if ?c then _ else _] => destruct c; [cbn [List.length]; rewrite ?be_length; reflexivity|] end).
  cbn [List.length]. rewrite be_length. reflexivity.
Qed.

(** ** Floats *)
Lemma canonical_cases m e : bounded 24 128 m e = true ->
  (Z.pos m < 2 ^ 23 /\ e = -149) \/ (2 ^ 23 <= Z.pos m < 2 ^ 24 /\ -149 <= e <= 104).
Proof.
  unfold bounded, canonical_mantissa, fexp, emin. intros H. apply andb_prop in H as [H1 H2].
  apply Zbool.Zeq_bool_eq in H1. apply Z.leb_le in H2.
  assert (D : Z.pos (digits2_pos m) = Z.log2 (Z.pos m) + 1).
  { clear. induction m as [m IH|m IH|]; cbn [digits2_pos]; [| |reflexivity].
    - rewrite Pos2Z.inj_succ, IH, Pos2Z.inj_xI, Z.log2_succ_double by lia. lia.
    - rewrite Pos2Z.inj_succ, IH, Pos2Z.inj_xO, Z.log2_double by lia. lia. }
  rewrite D in H1. pose proof (Z.log2_spec (Z.pos m) ltac:(lia)) as [L1 L2]. set (k := Z.log2 (Z.pos m)) in *.
  assert (0 <= k) by apply Z.log2_nonneg.
  destruct (Z.max_spec (k + 1 + e - 24) (3 - 128 - 24)) as [[A B]|[A B]]; rewrite B in H1.
  - destruct (Z_lt_le_dec k 23).
    + left. split; [|lia]. apply Z.lt_le_trans with (1 := L2). apply Z.pow_le_mono_r; lia.
    + assert (k = 23) by lia. right. rewrite H0 in *. split; [|lia]. change (Z.succ 23) with 24 in L2. lia.
  - assert (k = 23) by lia. right. rewrite H0 in *. split; [|lia]. change (Z.succ 23) with 24 in L2. lia.
Qed.

Lemma ieee32_fields (s : bool) (ex fr : Z) : 0 <= ex < 256 -> 0 <= fr < 2 ^ 23 ->
  ieee32 ((if s then HALF else 0) + ex * 8388608 + fr) =
  if ex =? 255 then (if fr =? 0 then S754_infinity s else S754_nan)
  else if ex =? 0 then (if fr =? 0 then S754_zero s else S754_finite s (Z.to_pos fr) (-149))
  else S754_finite s (Z.to_pos (2 ^ 23 + fr)) (ex - 150).
Proof.
  intros He Hf. unfold ieee32. set (b := (if s then HALF else 0) + ex * 8388608 + fr).
  assert (Eb : b = ((if s then 256 else 0) + ex) * 2 ^ 23 + fr) by (unfold b, HALF; destruct s; change (2 ^ 23) with 8388608; lia).
  assert (Q : b / 2 ^ 23 = (if s then 256 else 0) + ex).
  { rewrite Eb, Z.div_add_l by lia. rewrite Z.div_small by exact Hf. lia. }
  assert (M : b mod 2 ^ 23 = fr).
  { rewrite Eb, Z.add_comm, Z.mod_add by lia. apply Z.mod_small. exact Hf. }
  assert (X : b / 2 ^ 23 mod 2 ^ 8 = ex).
  { rewrite Q. change (2 ^ 8) with 256. destruct s.
    - replace (256 + ex) with (ex + 1 * 256) by lia. rewrite Z.mod_add by lia. apply Z.mod_small. lia.
    - apply Z.mod_small. lia. }
  assert (T : Z.testbit b 31 = s).
  { replace 31 with (8 + 23) by lia. rewrite <- Z.div_pow2_bits by lia. rewrite Q.
    replace 8 with (0 + 8) by lia. rewrite <- Z.div_pow2_bits by lia. change (2 ^ 8) with 256. destruct s.
    - replace (256 + ex) with (ex + 1 * 256) by lia. rewrite Z.div_add, Z.div_small by lia. reflexivity.
    - rewrite Z.div_small by lia. reflexivity. }
  rewrite M, X, T. reflexivity.
Qed.

Lemma f32_bits_range x : a_float x -> 0 <= f32_bits x < 2 ^ 32.
Proof.
  change (2 ^ 32) with 4294967296. unfold f32_bits, HALF, a_float. destruct x as [s|s| |s m e]; try (destruct s; lia); [lia|].
  intros H. apply canonical_cases in H. change (2 ^ 23) with 8388608 in H. change (2 ^ 24) with 16777216 in H.
  destruct (Z.ltb_spec (Z.pos m) 8388608); destruct s; lia.
Qed.

Lemma ieee32_bits x : a_float x -> ieee32 (f32_bits x) = x.
Proof.
  intros H. destruct x as [s|s| |s m e].
  - unfold f32_bits. pose proof (ieee32_fields s 0 0 ltac:(lia) ltac:(lia)) as E. rewrite !Z.add_0_r in E. rewrite E. reflexivity.
  - unfold f32_bits. pose proof (ieee32_fields s 255 0 ltac:(lia) ltac:(lia)) as E. rewrite Z.add_0_r in E. rewrite E. reflexivity.
  - reflexivity.
  - unfold a_float in H. apply canonical_cases in H. unfold f32_bits. destruct H as [[H ->]|[H He]].
    + change (2 ^ 23) with 8388608 in H. destruct (Z.ltb_spec (Z.pos m) 8388608); [|lia].
      pose proof (ieee32_fields s 0 (Z.pos m) ltac:(lia) ltac:(change (2 ^ 23) with 8388608; lia)) as E.
      rewrite Z.add_0_r in E. rewrite E. reflexivity.
    + change (2 ^ 23) with 8388608 in H. change (2 ^ 24) with 16777216 in H. destruct (Z.ltb_spec (Z.pos m) 8388608); [lia|].
      rewrite ieee32_fields by (change (2 ^ 23) with 8388608; lia).
      destruct (Z.eqb_spec (e + 150) 255); [lia|]. destruct (Z.eqb_spec (e + 150) 0); [lia|].
      f_equal; [|lia]. change (2 ^ 23) with 8388608. replace (8388608 + (Z.pos m - 8388608)) with (Z.pos m) by lia. reflexivity.
Qed.

(** ** The bytes of an item mean the item *)
(** The numbers are what the C functions take. *)
Fixpoint fine (e : enc) : Prop :=
  match e with
  | EInt z => - 2 ^ 63 <= z < 2 ^ 63
  | EFloat x => a_float x
  | EArr l | EMap l | EMapN _ l => fold_right (fun x P => fine x /\ P) True l
  | _ => True
  end.
Definition all_fine (l : list enc) : Prop := Forall fine l.
Lemma fine_list l : fold_right (fun x P => fine x /\ P) True l <-> all_fine l.
Proof. unfold all_fine. induction l as [|x l IH]; cbn; [split; auto|]. rewrite IH. split; [intros []; auto|intros H; inversion H; auto]. Qed.

Lemma string_length_codes s : Z.of_nat (List.length (string_bytes s)) = Z.of_nat (String.length s).
Proof. unfold string_bytes. rewrite map_length. f_equal. induction s as [|a s IH]; cbn [list_ascii_of_string List.length String.length]; [reflexivity|now rewrite IH]. Qed.

Section EncInd.
  Variable P : enc -> Prop.
  Hypothesis Htext : forall s, P (EText s).
  Hypothesis Hint : forall z, P (EInt z).
  Hypothesis Hfloat : forall x, P (EFloat x).
  Hypothesis Hbool : forall b, P (EBool b).
  Hypothesis Hnull : P ENull.
  Hypothesis Harr : forall l, Forall P l -> P (EArr l).
  Hypothesis Hmap : forall l, Forall P l -> P (EMap l).
  Hypothesis Hmapn : forall n l, Forall P l -> P (EMapN n l).
  Fixpoint enc_induction (e : enc) : P e :=
    let fix go (l : list enc) : Forall P l :=
      match l with [] => Forall_nil P | x :: l => Forall_cons x (enc_induction x) (go l) end in
    match e with
    | EText s => Htext s | EInt z => Hint z | EFloat x => Hfloat x | EBool b => Hbool b | ENull => Hnull
    | EArr l => Harr l (go l) | EMap l => Hmap l (go l) | EMapN n l => Hmapn n l (go l)
    end.
End EncInd.

Lemma concat_length l : Forall (fun e => Z.of_nat (List.length (bytes_of e)) = enc_size e) l ->
  Z.of_nat (List.length (List.concat (map bytes_of l))) = fold_right (fun x n => enc_size x + n) 0 l.
Proof. induction 1 as [|x l Hx Hl IH]; [reflexivity|]. cbn [map List.concat fold_right]. rewrite app_length, Nat2Z.inj_add. lia. Qed.

(** The size the firmware computes with is the number of bytes. *)
Lemma bytes_size e : Z.of_nat (List.length (bytes_of e)) = enc_size e.
Proof.
  induction e as [s|z|x|b| |l IH|l IH|n l IH] using enc_induction; cbn [bytes_of enc_size]; try reflexivity.
  - rewrite app_length, Nat2Z.inj_add, head_bytes_size, string_length_codes. reflexivity.
  - destruct (z <? 0); apply head_bytes_size.
  - apply concat_length in IH. cbn [List.length]. rewrite app_length. cbn [List.length]. lia.
  - apply concat_length in IH. cbn [List.length]. rewrite app_length. cbn [List.length]. lia.
  - apply concat_length in IH. rewrite app_length, Nat2Z.inj_add, head_bytes_size. lia.
Qed.

Lemma size_pos e : 0 <= enc_size e.
Proof. rewrite <- bytes_size. lia. Qed.
Lemma size_in l x : In x l -> enc_size x <= fold_right (fun x n => enc_size x + n) 0 l.
Proof.
  assert (N : forall l, 0 <= fold_right (fun x n => enc_size x + n) 0 l) by (induction l0 as [|y l0 IH]; cbn [fold_right]; [lia|pose proof (size_pos y); lia]).
  induction l as [|y l IH]; [intros []|]. cbn [fold_right]. intros [->|H]; [pose proof (N l); lia|]. pose proof (size_pos y). specialize (IH H). lia.
Qed.
Lemma head_size_pos n : 1 <= head_size n.
Proof. unfold head_size. repeat (match goal with |- context [if ?c then _ else _] => destruct c end; [lia|]). lia. Qed.

Definition spoken (e : enc) : Prop := ConsoleSpec.wf e -> fine e -> enc_size e < 2 ^ 32 -> means (bytes_of e) (meaning e).

Lemma speak_each l : Forall spoken l -> Forall ConsoleSpec.wf l -> all_fine l -> (forall x, In x l -> enc_size x < 2 ^ 32) ->
  means_each (List.concat (map bytes_of l)) (map meaning l).
Proof.
  induction 1 as [|x l Hx Hl IH]; intros Hw Hf Hs; cbn [map List.concat]; [constructor|].
  inversion Hw; inversion Hf; subst. constructor.
  - apply Hx; auto. apply Hs. now left.
  - apply IH; auto. intros y Hy. apply Hs. now right.
Qed.

Lemma speak_pairs l : pairs l -> Forall spoken l -> all_fine l -> (forall x, In x l -> enc_size x < 2 ^ 32) ->
  means_pairs (List.concat (map bytes_of l)) (pairs_of (map meaning l)) /\ List.length l = (2 * List.length (pairs_of (map meaning l)))%nat.
Proof.
  induction 1 as [|k x l Hx Hl IH] using pairs_ind; intros Hp Hf Hs; cbn [map List.concat pairs_of]; [split; [constructor|reflexivity]|].
  inversion Hp as [|? ? P1 P2]; inversion P2 as [|? ? P3 P4]; inversion Hf as [|? ? F1 F2]; inversion F2 as [|? ? F3 F4]; subst.
  destruct IH as [IH1 IH2]; auto; [intros y Hy; apply Hs; now right; right|].
  split; [|cbn [List.length]; lia].
  constructor; [|apply P3; auto; apply Hs; right; now left|exact IH1].
  apply P1; [constructor|exact F1|apply Hs; now left].
Qed.

Theorem speaks e : spoken e.
Proof.
  induction e as [s|z|x|b| |l IH|l IH|n l IH] using enc_induction; intros Hw Hf Hs; cbn [bytes_of meaning].
  - constructor. apply head_bytes_head. cbn [enc_size] in Hs. pose proof (head_size_pos (Z.of_nat (String.length s))).
    change (2 ^ 32) with 4294967296 in Hs. change (2 ^ 64) with 18446744073709551616. lia.
  - cbn [fine] in Hf. change (2 ^ 63) with 9223372036854775808 in Hf.
    destruct (Z.ltb_spec z 0).
    + replace (DInt z) with (DInt (-1 - (- z - 1))) by (f_equal; lia). apply means_negative. apply head_bytes_head. change (2 ^ 64) with 18446744073709551616. lia.
    + apply means_unsigned. apply head_bytes_head. change (2 ^ 64) with 18446744073709551616. lia.
  - cbn [fine] in Hf. rewrite <- (ieee32_bits x Hf) at 2.
    replace (f32_bits x) with (number (be 4 (f32_bits x))) at 2.
    { constructor; [apply be_length|apply be_bytes]. }
    rewrite be_number. apply Z.mod_small. exact (f32_bits_range x Hf).
  - destruct b; constructor.
  - constructor.
  - cbn [fine] in Hf. apply fine_list in Hf. inversion Hw; subst. constructor. apply speak_each; auto.
    intros x Hx. cbn [enc_size] in Hs. pose proof (size_in l x Hx). lia.
  - cbn [fine] in Hf. apply fine_list in Hf. inversion Hw; subst. constructor. apply speak_pairs; auto.
    intros x Hx. cbn [enc_size] in Hs. pose proof (size_in l x Hx). lia.
  - cbn [fine] in Hf. apply fine_list in Hf. inversion Hw as [| | | | | | |? ? Hp Hn]; subst.
    destruct (speak_pairs l Hp IH Hf) as [A B].
    { intros x Hx. cbn [enc_size] in Hs. pose proof (size_in l x Hx). pose proof (head_size_pos n). lia. }
    assert (En : n = Z.of_nat (List.length (pairs_of (map meaning l)))) by lia.
    constructor; [|exact A]. rewrite <- En. apply head_bytes_head. split; [lia|].
    cbn [enc_size] in Hs.
    assert (Z.of_nat (List.length l) <= fold_right (fun x n => enc_size x + n) 0 l).
    { clear - l. induction l as [|y l IH]; cbn [fold_right List.length]; [lia|].
      assert (1 <= enc_size y). { clear. destruct y; cbn [enc_size]; try lia; try apply head_size_pos.
        - pose proof (head_size_pos (Z.of_nat (String.length s))). lia.
        - assert (0 <= fold_right (fun x n => enc_size x + n) 0 l); [|lia]. induction l as [|y l IH]; cbn [fold_right]; [lia|pose proof (size_pos y); lia].
        - assert (0 <= fold_right (fun x n => enc_size x + n) 0 l); [|lia]. induction l as [|y l IH]; cbn [fold_right]; [lia|pose proof (size_pos y); lia].
        - pose proof (head_size_pos n). assert (0 <= fold_right (fun x n => enc_size x + n) 0 l); [|lia]. induction l as [|y l IH]; cbn [fold_right]; [lia|pose proof (size_pos y); lia]. }
      lia. }
    pose proof (head_size_pos n). change (2 ^ 32) with 4294967296 in Hs. change (2 ^ 64) with 18446744073709551616. lia.
Qed.

(** ** Only one reading *)
Scheme means_ind2 := Induction for means Sort Prop
  with each_ind2 := Induction for means_each Sort Prop
  with mpairs_ind2 := Induction for means_pairs Sort Prop.
Combined Scheme means_all_ind from means_ind2, each_ind2, mpairs_ind2.

Lemma codes_bytes s : Forall byte (codes s).
Proof.
  apply Forall_forall. intros x Hx. apply in_map_iff in Hx as (a & <- & _). unfold byte. pose proof (nat_ascii_bounded a). lia.
Qed.

Lemma means_wf :
  (forall b d, means b d -> CborSpec.wf b) /\
  (forall b l, means_each b l -> wfs (List.length l) b) /\
  (forall b l, means_pairs b l -> wfs (2 * List.length l) b).
Proof.
  apply (means_all_ind (fun b d _ => CborSpec.wf b) (fun b l _ => wfs (List.length l) b) (fun b l _ => wfs (2 * List.length l) b)); intros.
  - apply (wf_number 0 h a); auto.
  - apply (wf_number 1 h a); auto.
  - eapply wf_string with (major := 3); [auto|]. exists h, (Z.of_nat (String.length s)), (codes s).
    split; [assumption|split; [exact (string_length_codes s)|split; [apply codes_bytes|reflexivity]]].
  - eapply CborSpec.wf_array; eauto. now rewrite Nat2Z.id.
  - eapply wf_array_open; eauto.
  - eapply CborSpec.wf_map; eauto. now rewrite Nat2Z.id.
  - eapply wf_map_open; eauto.
  - apply (wf_simple [244] 20); [exact (head_short 7 20 ltac:(lia))|discriminate].
  - apply (wf_simple [245] 21); [exact (head_short 7 21 ltac:(lia))|discriminate].
  - apply (wf_simple [246] 22); [exact (head_short 7 22 ltac:(lia))|discriminate].
  - apply (wf_simple (250 :: l) (number l)); [apply (head_long 7 2); [lia|exact e|assumption]|intros x Hx; discriminate].
  - constructor.
  - cbn [List.length]. constructor; auto.
  - constructor.
  - replace (2 * List.length ((k, v) :: l))%nat with (S (S (2 * List.length l))) by (cbn [List.length]; lia).
    constructor; [assumption|]. constructor; assumption.
Qed.

Lemma accepts_one b : CborSpec.wf b -> feeds (More [Items 1]) b = Finished.
Proof. intros H. rewrite (proj1 accepts b H [Items 1]) by (cbn [ready]; lia). reflexivity. Qed.

(** No item is the beginning of another. *)
Lemma wf_prefix b c b' c' : CborSpec.wf b -> CborSpec.wf b' -> b ++ c = b' ++ c' -> b = b' /\ c = c'.
Proof.
  assert (K : forall b z, CborSpec.wf b -> CborSpec.wf (b ++ z) -> z = []).
  { intros x z Hx Hxz. pose proof (accepts_one _ Hx) as E1. pose proof (accepts_one _ Hxz) as E2. rewrite feeds_app, E1 in E2.
    destruct z; [reflexivity|discriminate E2]. }
  intros Hb Hb' E. destruct (prefix_split _ _ _ _ E) as [[z ->]|[z ->]].
  - rewrite (K b z Hb Hb'), app_nil_r in *. split; [reflexivity|]. now apply app_inv_head in E.
  - rewrite (K b' z Hb' Hb), app_nil_r in *. split; [reflexivity|]. now apply app_inv_head in E.
Qed.

Lemma wf_nonempty b : CborSpec.wf b -> b <> [].
Proof. intros H ->. pose proof (accepts_one _ H) as E. discriminate E. Qed.

Lemma head_start major h a : head major h a -> exists x l, h = x :: l /\ 32 * major <= x < 32 * major + 28.
Proof. intros [b Hb|i l Hi _ _]; eexists _, _; (split; [reflexivity|lia]). Qed.

Lemma app_same_length (A : Type) (a b c d : list A) : List.length a = List.length c -> a ++ b = c ++ d -> a = c /\ b = d.
Proof.
  revert c. induction a as [|x a IH]; intros [|y c] Hl H; try discriminate Hl; [split; [reflexivity|exact H]|].
  cbn [app] in H. injection H as -> H. cbn [List.length] in Hl. destruct (IH c ltac:(lia) H) as [-> ->]. split; reflexivity.
Qed.

Lemma head_unique major h a h' a' c c' : head major h a -> head major h' a' -> h ++ c = h' ++ c' -> h = h' /\ a = a' /\ c = c'.
Proof.
  intros H H' E. destruct H as [x Hx|i l Hi Hl Fl], H' as [x' Hx'|i' l' Hi' Hl' Fl']; cbn [app] in E.
  - assert (x = x') by (assert (32 * major + x = 32 * major + x') by congruence; lia). subst x'. split; [reflexivity|split; [reflexivity|congruence]].
  - exfalso. assert (32 * major + x = 32 * major + 24 + i') by congruence. lia.
  - exfalso. assert (32 * major + 24 + i = 32 * major + x') by congruence. lia.
  - assert (i = i') by (assert (32 * major + 24 + i = 32 * major + 24 + i') by congruence; lia). subst i'.
    assert (El : l ++ c = l' ++ c') by congruence. assert (Ell : List.length l = List.length l') by congruence. destruct (app_same_length _ _ _ _ _ Ell El) as [-> ->]. auto.
Qed.

Lemma codes_inj s : forall t, codes s = codes t -> s = t.
Proof.
  induction s as [|a s IH]; intros [|b t] H; try discriminate H; [reflexivity|]. unfold codes in *. cbn [list_ascii_of_string map] in H.
  injection H as H1 H2. rewrite (IH t H2). f_equal. apply Nat2Z.inj in H1. rewrite <- (ascii_nat_embedding a), <- (ascii_nat_embedding b), H1. reflexivity.
Qed.

Ltac starts := repeat match goal with
  | H : head _ _ _ |- _ => let x := fresh "x" in let l := fresh "l" in let E := fresh "E" in let B := fresh "B" in
             apply head_start in H; destruct H as (x & l & E & B)
  end.
Ltac clash := exfalso; starts; repeat match goal with
  | E : ?h = _ :: _ |- _ => is_var h; subst h
  end; cbn [app] in *; match goal with
  | H : ?x :: _ = ?y :: _ |- _ => assert (x = y) by congruence; lia
  end.

Lemma means_once :
  (forall b d, means b d -> forall d', means b d' -> d = d') /\
  (forall b l, means_each b l -> forall l', means_each b l' -> l = l') /\
  (forall b l, means_pairs b l -> forall l', means_pairs b l' -> l = l').
Proof.
  apply (means_all_ind (fun b d _ => forall d', means b d' -> d = d') (fun b l _ => forall l', means_each b l' -> l = l')
    (fun b l _ => forall l', means_pairs b l' -> l = l')).
  - intros h a Hh d' H'. remember h as b eqn:Eb. destruct H' as [h' a' Hh'|h' a' Hh'|h' s Hh'|h' b' l Hh' Hl|b' l Hl|h' b' l Hh' Hl|b' l Hl| | | |l Hl Fl]; try clash.
    destruct (head_unique 0 h' a h' a' [] [] Hh Hh' eq_refl) as (_ & -> & _). reflexivity.
  - intros h a Hh d' H'. remember h as b eqn:Eb. destruct H' as [h' a' Hh'|h' a' Hh'|h' s Hh'|h' b' l Hh' Hl|b' l Hl|h' b' l Hh' Hl|b' l Hl| | | |l Hl Fl]; try clash.
    destruct (head_unique 1 h' a h' a' [] [] Hh Hh' eq_refl) as (_ & -> & _). reflexivity.
  - intros h s Hh d' H'. remember (h ++ codes s) as b eqn:Eb. destruct H' as [h' a' Hh'|h' a' Hh'|h' s' Hh'|h' b' l Hh' Hl|b' l Hl|h' b' l Hh' Hl|b' l Hl| | | |l Hl Fl]; try clash.
    destruct (head_unique 3 _ _ _ _ _ _ Hh' Hh Eb) as (_ & _ & Ec). apply codes_inj in Ec. congruence.
  - intros h b l Hh Hl IH d' H'. remember (h ++ b) as b0 eqn:Eb. destruct H' as [h' a' Hh'|h' a' Hh'|h' s' Hh'|h' b' l' Hh' Hl'|b' l' Hl'|h' b' l' Hh' Hl'|b' l' Hl'| | | |l' Hl' Fl]; try clash.
    destruct (head_unique 4 _ _ _ _ _ _ Hh' Hh Eb) as (_ & _ & ->). f_equal. now apply IH.
  - intros b l Hl IH d' H'. remember (159 :: b ++ [255]) as b0 eqn:Eb. destruct H' as [h' a' Hh'|h' a' Hh'|h' s' Hh'|h' b' l' Hh' Hl'|b' l' Hl'|h' b' l' Hh' Hl'|b' l' Hl'| | | |l' Hl' Fl]; try clash.
    assert (E2 : b' ++ [255] = b ++ [255]) by congruence. apply app_inj_tail in E2 as [-> _]. f_equal. now apply IH.
  - intros h b l Hh Hl IH d' H'. remember (h ++ b) as b0 eqn:Eb. destruct H' as [h' a' Hh'|h' a' Hh'|h' s' Hh'|h' b' l' Hh' Hl'|b' l' Hl'|h' b' l' Hh' Hl'|b' l' Hl'| | | |l' Hl' Fl]; try clash.
    destruct (head_unique 5 _ _ _ _ _ _ Hh' Hh Eb) as (_ & _ & ->). f_equal. now apply IH.
  - intros b l Hl IH d' H'. remember (191 :: b ++ [255]) as b0 eqn:Eb. destruct H' as [h' a' Hh'|h' a' Hh'|h' s' Hh'|h' b' l' Hh' Hl'|b' l' Hl'|h' b' l' Hh' Hl'|b' l' Hl'| | | |l' Hl' Fl]; try clash.
    assert (E2 : b' ++ [255] = b ++ [255]) by congruence. apply app_inj_tail in E2 as [-> _]. f_equal. now apply IH.
  - intros d' H'. remember [244] as b0 eqn:Eb. destruct H'; try reflexivity; clash.
  - intros d' H'. remember [245] as b0 eqn:Eb. destruct H'; try reflexivity; clash.
  - intros d' H'. remember [246] as b0 eqn:Eb. destruct H'; try reflexivity; clash.
  - intros l Hl Fl d' H'. remember (250 :: l) as b0 eqn:Eb. destruct H' as [h' a' Hh'|h' a' Hh'|h' s' Hh'|h' b' l' Hh' Hl'|b' l' Hl'|h' b' l' Hh' Hl'|b' l' Hl'| | | |l' Hl' Fl']; try clash.
    congruence.
  - intros l' H'. remember (@nil Z) as b0 eqn:Eb. destruct H' as [|b d c l Hb Hc]; [reflexivity|]. exfalso.
    apply app_eq_nil in Eb as [-> _]. exact (wf_nonempty [] (proj1 means_wf _ _ Hb) eq_refl).
  - intros b d c l Hb IHb Hc IHc l' H'. remember (b ++ c) as b0 eqn:Eb. destruct H' as [|b' d' c' l' Hb' Hc'].
    + exfalso. symmetry in Eb. apply app_eq_nil in Eb as [-> _]. exact (wf_nonempty [] (proj1 means_wf _ _ Hb) eq_refl).
    + destruct (wf_prefix _ _ _ _ (proj1 means_wf _ _ Hb') (proj1 means_wf _ _ Hb) Eb) as [-> ->]. f_equal; [now apply IHb|now apply IHc].
  - intros l' H'. remember (@nil Z) as b0 eqn:Eb. destruct H' as [|b k c v r l Hb Hc Hr]; [reflexivity|]. exfalso.
    apply app_eq_nil in Eb as [-> _]. exact (wf_nonempty [] (proj1 means_wf _ _ Hb) eq_refl).
  - intros b k c v r l Hb IHb Hc IHc Hr IHr l' H'. remember (b ++ c ++ r) as b0 eqn:Eb. destruct H' as [|b' k' c' v' r' l' Hb' Hc' Hr'].
    + exfalso. symmetry in Eb. apply app_eq_nil in Eb as [-> _]. exact (wf_nonempty [] (proj1 means_wf _ _ Hb) eq_refl).
    + destruct (wf_prefix _ _ _ _ (proj1 means_wf _ _ Hb') (proj1 means_wf _ _ Hb) Eb) as [-> Er].
      destruct (wf_prefix _ _ _ _ (proj1 means_wf _ _ Hc') (proj1 means_wf _ _ Hc) Er) as [-> ->].
      f_equal; [f_equal; [now apply IHb|now apply IHc]|now apply IHr].
Qed.
