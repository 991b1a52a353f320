(** C52, C74: saving the configuration. *)
Require Import ZArith List Bool Lia.
From Verif Require Import Word Flash.
Import ListNotations.
Open Scope Z_scope.
Ltac Zify.zify_post_hook ::= idtac.

(** An image: 32 bit words. *)
Definition words (image : list Z) : Prop := Forall (fun w => 0 <= w < 2 ^ 32) image.

Lemma land_ones w : 0 <= w < 2 ^ 32 -> Z.land (W - 1) w = w.
Proof. intros H. change (W - 1) with (Z.ones 32). rewrite Z.land_comm, Z.land_ones by lia. apply Z.mod_small. exact H. Qed.

(** Programming [image] from [a] leaves other addresses alone... *)
Lemma program_other image : forall a f b, (b < a \/ a + 4 * Z.of_nat (length image) <= b) ->
  do_ops f (program_words a image) b = f b.
Proof.
  induction image as [|w ws IH]; intros a f b H; [reflexivity|].
  cbn [program_words do_ops fold_left length] in *. fold (do_ops (do_op f (Program a w)) (program_words (a + 4) ws)).
  rewrite IH by lia. cbn [do_op]. destruct (Z.eqb_spec b a); [lia|reflexivity].
Qed.
(** ... and if all words there were erased, loading gives the image. *)
Lemma program_load image : forall a f, words image ->
  (forall k, 0 <= k < Z.of_nat (length image) -> f (a + 4 * k) = W - 1) ->
  load_words (do_ops f (program_words a image)) a (length image) = image.
Proof.
  induction image as [|w ws IH]; intros a f Hw H; [reflexivity|].
  inversion Hw as [|? ? Hw1 Hw2]; subst.
  cbn [program_words do_ops fold_left length load_words] in *. fold (do_ops (do_op f (Program a w)) (program_words (a + 4) ws)).
  rewrite program_other by lia. rewrite IH.
  - f_equal. cbn [do_op]. rewrite Z.eqb_refl. specialize (H 0 ltac:(lia)). rewrite Z.mul_0_r, Z.add_0_r in H. rewrite H. apply land_ones. exact Hw1.
  - exact Hw2.
  - intros k Hk. cbn [do_op]. destruct (Z.eqb_spec (a + 4 + 4 * k) a); [lia|].
    rewrite <- (H (k + 1)) by lia. f_equal. lia.
Qed.

Lemma do_ops_app f a b : do_ops f (a ++ b) = do_ops (do_ops f a) b.
Proof. apply fold_left_app. Qed.

(** Erasing the first [n] sectors after sector 0. *)
Lemma erase_stm32 n : forall k0 f b,
  do_ops f (map (fun k => Erase (stm32_sector (1 + Z.of_nat k))) (seq k0 n)) b =
  if (134217728 + 16384 * (1 + Z.of_nat k0) <=? b) && (b <? 134217728 + 16384 * (1 + Z.of_nat k0 + Z.of_nat n)) then W - 1 else f b.
Proof.
  induction n as [|n IH]; intros k0 f b.
  - cbn [seq map do_ops fold_left]. destruct (Z.leb_spec (134217728 + 16384 * (1 + Z.of_nat k0)) b); cbn [andb]; [|reflexivity].
    destruct (Z.ltb_spec b (134217728 + 16384 * (1 + Z.of_nat k0 + Z.of_nat 0))); [lia|reflexivity].
  - cbn [seq map do_ops fold_left]. fold (do_ops (do_op f (Erase (stm32_sector (1 + Z.of_nat k0)))) (map (fun k => Erase (stm32_sector (1 + Z.of_nat k))) (seq (S k0) n))).
    rewrite IH. cbn [do_op]. unfold in_sector, stm32_sector. cbn [fst snd].
    repeat match goal with |- context [?x <=? ?y] => destruct (Z.leb_spec x y) | |- context [?x <? ?y] => destruct (Z.ltb_spec x y) end;
      cbn [andb]; try reflexivity; lia.
Qed.

(** ** C52: every sector that is programmed has been erased *)

(** STM32: for every image up to 48 KB, except one size, whatever the flash contained, a
    completed save is what the next start loads, and nothing outside the three sectors
    has changed. *)
Theorem C52_stm32 f image : words image -> 4 * Z.of_nat (length image) <= 49152 -> 4 * Z.of_nat (length image) <> 32772 ->
  load_words (do_ops f (stm32_save image)) stm32_rom (length image) = image /\
  forall b, b < stm32_rom \/ stm32_rom + 49152 <= b -> do_ops f (stm32_save image) b = f b.
Proof.
  intros Hw Hl Hn. unfold stm32_save. rewrite do_ops_app. set (n := Z.to_nat _).
  assert (N : 4 * Z.of_nat (length image) <= 16384 * Z.of_nat n <= 49152).
  { unfold n, stm32_n_sectors. set (x := Z.of_nat (length image)) in *. assert (0 <= x) by (unfold x; lia). clearbody x.
    rewrite Z2Nat.id by (apply Z.div_pos; lia).
    pose proof (Z.div_mod (4 * x + 16385) 16386 ltac:(lia)). pose proof (Z.mod_pos_bound (4 * x + 16385) 16386 ltac:(lia)).
    set (q := (4 * x + 16385) / 16386) in *. set (r := (4 * x + 16385) mod 16386) in *. clearbody q r.
    assert (q = 0 \/ q = 1 \/ q = 2 \/ q = 3) by lia. lia. }
  split.
  - apply program_load; [exact Hw|]. intros k Hk. rewrite erase_stm32. unfold stm32_rom.
    destruct (Z.leb_spec (134217728 + 16384 * (1 + Z.of_nat 0)) (134234112 + 4 * k)); [|lia].
    destruct (Z.ltb_spec (134234112 + 4 * k) (134217728 + 16384 * (1 + Z.of_nat 0 + Z.of_nat n))); [reflexivity|lia].
  - intros b Hb. rewrite program_other by lia. rewrite erase_stm32. unfold stm32_rom in *.
    destruct (Z.leb_spec (134217728 + 16384 * (1 + Z.of_nat 0)) b); cbn [andb]; [|reflexivity].
    destruct (Z.ltb_spec b (134217728 + 16384 * (1 + Z.of_nat 0 + Z.of_nat n))); [lia|reflexivity].
Qed.
Print Assumptions C52_stm32.

(** For an image of 32772 bytes only two sectors are erased, and its last word is
    combined with what was in the third. *)
Theorem C52_stm32_refuted f image w : words image -> Z.of_nat (length image) = 8192 -> 0 <= w < 2 ^ 32 ->
  4 * Z.of_nat (length (image ++ [w])) = 32772 /\
  load_words (do_ops f (stm32_save (image ++ [w]))) (stm32_rom + 32768) 1 = [Z.land (f (stm32_rom + 32768)) w].
Proof.
  intros Hw Hl H. split; [rewrite app_length; cbn [length]; lia|].
  cbn [load_words]. f_equal. unfold stm32_save. rewrite do_ops_app.
  replace (Z.to_nat (stm32_n_sectors (4 * Z.of_nat (length (image ++ [w]))))) with 2%nat
    by (rewrite app_length, Nat2Z.inj_add, Hl; reflexivity).
  set (g := do_ops f (map _ _)).
  assert (G : g (stm32_rom + 32768) = f (stm32_rom + 32768)) by (unfold g; rewrite erase_stm32; reflexivity).
  rewrite <- G. clearbody g.
  assert (P : forall l a h x, do_ops h (program_words a (l ++ [x])) (a + 4 * Z.of_nat (length l)) = Z.land (h (a + 4 * Z.of_nat (length l))) x).
  { clear. induction l as [|y l IH]; intros a h x.
    - cbn [app program_words do_ops fold_left do_op length]. rewrite Z.mul_0_r, Z.add_0_r, Z.eqb_refl. reflexivity.
    - cbn [app program_words do_ops fold_left length]. fold (do_ops (do_op h (Program a y)) (program_words (a + 4) (l ++ [x]))).
      replace (a + 4 * Z.of_nat (S (length l))) with (a + 4 + 4 * Z.of_nat (length l)) by lia. rewrite IH. f_equal.
      cbn [do_op]. destruct (Z.eqb_spec (a + 4 + 4 * Z.of_nat (length l)) a); [lia|reflexivity]. }
  specialize (P image stm32_rom g w). rewrite Hl in P. exact P.
Qed.
Print Assumptions C52_stm32_refuted.

(** GD32: every image that fits, up to 128 KB. *)
Theorem C52_gd32 f image : words image -> 4 * Z.of_nat (length image) <= 131072 ->
  load_words (do_ops f (gd32_save image)) gd32_rom (length image) = image /\
  forall b, b < gd32_rom \/ gd32_rom + 131072 <= b -> do_ops f (gd32_save image) b = f b.
Proof.
  intros Hw Hl. unfold gd32_save. cbn [do_ops fold_left].
  fold (do_ops (do_op f (Erase gd32_sector7)) (program_words gd32_rom image)). split.
  - apply program_load; [exact Hw|]. intros k Hk. cbn [do_op]. unfold in_sector, gd32_sector7, gd32_rom. cbn [fst snd].
    destruct (Z.leb_spec 134610944 (134610944 + 4 * k)); [|lia].
    destruct (Z.ltb_spec (134610944 + 4 * k) (134610944 + 131072)); [reflexivity|lia].
  - intros b Hb. rewrite program_other by lia. cbn [do_op]. unfold in_sector, gd32_sector7, gd32_rom in *. cbn [fst snd].
    destruct (Z.leb_spec 134610944 b); cbn [andb]; [|reflexivity].
    destruct (Z.ltb_spec b (134610944 + 131072)); [lia|reflexivity].
Qed.
Print Assumptions C52_gd32.

(* Three words over a flash full of zeros. *)
Example C52_example : words [1; 2; 4294967295] /\
  load_words (do_ops (fun _ => 0) (stm32_save [1; 2; 4294967295])) stm32_rom 4 = [1; 2; 4294967295; 4294967295] /\
  load_words (do_ops (fun _ => 0) (gd32_save [1; 2; 4294967295])) gd32_rom 3 = [1; 2; 4294967295].
Proof. split; [repeat (constructor; [lia|]); constructor|]. split; vm_compute; reflexivity. Qed.

(** ** C74: power failure while saving *)

(** The program itself is never damaged: after any number of operations, nothing outside
    the area for the configuration has changed. *)
Lemma ops_other l : forall f b, (forall o, In o l -> match o with Erase s => in_sector s b = false | Program a _ => b <> a end) -> do_ops f l b = f b.
Proof.
  induction l as [|o l IH]; intros f b H; [reflexivity|]. cbn [do_ops fold_left]. fold (do_ops (do_op f o) l).
  rewrite IH by (intros x Hx; apply H; right; exact Hx). specialize (H o (or_introl eq_refl)).
  destruct o; cbn [do_op]; [now rewrite H|]. destruct (Z.eqb_spec b a); [contradiction|reflexivity].
Qed.
Lemma in_program o image : forall a, In o (program_words a image) -> exists k w, o = Program (a + 4 * k) w /\ 0 <= k < Z.of_nat (length image).
Proof.
  induction image as [|w ws IH]; intros a H; [contradiction|]. cbn [program_words length] in *. destruct H as [<-|H].
  - exists 0, w. split; [f_equal; lia|lia].
  - destruct (IH _ H) as (k & v & -> & B). exists (k + 1), v. split; [f_equal; lia|lia].
Qed.
Lemma in_firstn {A} (x : A) n l : In x (firstn n l) -> In x l.
Proof. revert l. induction n as [|n IH]; intros [|y l]; cbn; [tauto|tauto|tauto|]. intros [->|H]; auto. Qed.

Theorem C74_program_safe f image n b : 
  (4 * Z.of_nat (length image) <= 49152 -> b < stm32_rom \/ stm32_rom + 49152 <= b ->
     do_ops f (firstn n (stm32_save image)) b = f b) /\
  (4 * Z.of_nat (length image) <= 131072 -> b < gd32_rom \/ gd32_rom + 131072 <= b ->
     do_ops f (firstn n (gd32_save image)) b = f b).
Proof.
  split; intros Hl Hb; apply ops_other; intros o Ho; apply in_firstn in Ho.
  - unfold stm32_save in Ho. apply in_app_iff in Ho. destruct Ho as [Ho|Ho].
    + apply in_map_iff in Ho. destruct Ho as (k & <- & Hk). apply in_seq in Hk. unfold stm32_n_sectors in Hk.
      assert (Q : (4 * Z.of_nat (length image) + 16385) / 16386 <= 3) by (apply Z.lt_succ_r, Z.div_lt_upper_bound; lia).
      unfold in_sector, stm32_sector, stm32_rom in *. cbn [fst snd]. apply andb_false_iff.
      destruct Hb; [left; apply Z.leb_gt; lia|right; apply Z.ltb_ge; lia].
    + apply in_program in Ho. destruct Ho as (k & w & -> & B). lia.
  - unfold gd32_save in Ho. cbn [In] in Ho. destruct Ho as [<-|Ho].
    + unfold in_sector, gd32_sector7, gd32_rom in *. cbn [fst snd]. apply andb_false_iff.
      destruct Hb; [left; apply Z.leb_gt; lia|right; apply Z.ltb_ge; lia].
    + apply in_program in Ho. destruct Ho as (k & w & -> & B). lia.
Qed.
Print Assumptions C74_program_safe.

(** But the configuration is: if power fails after the erase, the next start loads words
    with all bits set in place of those not yet programmed, neither the old nor the new
    configuration; there is no check that would notice. *)
Theorem C74_interrupted_refuted f image n : words image -> 4 * Z.of_nat (length image) <= 131072 -> (n <= length image)%nat ->
  load_words (do_ops f (firstn (1 + n) (gd32_save image))) gd32_rom (length image) =
  firstn n image ++ repeat (2 ^ 32 - 1) (length image - n).
Proof.
  intros Hw Hl Hn. cbn [Nat.add firstn gd32_save do_ops fold_left].
  set (g := do_op f (Erase gd32_sector7)). fold (do_ops g (firstn n (program_words gd32_rom image))).
  assert (G : forall k, 0 <= k < Z.of_nat (length image) -> g (gd32_rom + 4 * k) = W - 1).
  { intros k Hk. unfold g. cbn [do_op]. unfold in_sector, gd32_sector7, gd32_rom. cbn [fst snd].
    destruct (Z.leb_spec 134610944 (134610944 + 4 * k)); [|lia].
    destruct (Z.ltb_spec (134610944 + 4 * k) (134610944 + 131072)); [reflexivity|lia]. }
  clearbody g. revert n Hn G. generalize gd32_rom. clear Hl f. revert g.
  induction image as [|w ws IH]; intros g a n Hn G.
  - destruct n; reflexivity.
  - inversion Hw as [|? ? Hw1 Hw2]; subst. specialize (IH Hw2). cbn [length load_words program_words] in *.
    destruct n as [|n].
    + cbn [firstn do_ops fold_left app]. replace (S (length ws) - 0)%nat with (S (length ws)) by lia. cbn [repeat].
      f_equal; [specialize (G 0 ltac:(lia)); rewrite Z.mul_0_r, Z.add_0_r in G; exact G|].
      specialize (IH g (a + 4) 0%nat ltac:(lia)). cbn [firstn do_ops fold_left app] in IH. rewrite Nat.sub_0_r in IH. apply IH.
      intros k Hk. rewrite <- (G (k + 1)) by lia. f_equal. lia.
    + cbn [firstn do_ops fold_left]. fold (do_ops (do_op g (Program a w)) (firstn n (program_words (a + 4) ws))).
      cbn [app]. replace (S (length ws) - S n)%nat with (length ws - n)%nat by lia. f_equal.
      * rewrite ops_other.
        -- cbn [do_op]. rewrite Z.eqb_refl. specialize (G 0 ltac:(lia)). rewrite Z.mul_0_r, Z.add_0_r in G. rewrite G. apply land_ones. exact Hw1.
        -- intros o Ho. apply in_firstn, in_program in Ho. destruct Ho as (k & v & -> & B). lia.
      * apply IH; [lia|]. intros k Hk. cbn [do_op]. destruct (Z.eqb_spec (a + 4 + 4 * k) a); [lia|].
        rewrite <- (G (k + 1)) by lia. f_equal. lia.
Qed.
Print Assumptions C74_interrupted_refuted.

(* Power fails when two of three words have been programmed. *)
Example C74_example : words [7; 8; 9] /\
  load_words (do_ops (fun _ => 5) (firstn 3 (gd32_save [7; 8; 9]))) gd32_rom 3 = [7; 8; 4294967295].
Proof. split; [repeat (constructor; [lia|]); constructor|]. vm_compute; reflexivity. Qed.
