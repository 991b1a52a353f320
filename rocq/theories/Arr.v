(** Lemmas about checked array access. *)
Require Import ZArith List Bool Lia.
From Verif Require Import Res.
Import ListNotations.
Open Scope Z_scope.

Lemma upd_nat_length {A} (l : list A) i a : length (upd_nat l i a) = length l.
Proof. revert i. induction l; intros [|i]; simpl; auto. Qed.

Lemma nth_error_upd {A} (l : list A) i j a : (i < length l)%nat ->
  nth_error (upd_nat l i a) j = if Nat.eqb i j then Some a else nth_error l j.
Proof.
  revert i j. induction l as [|x l IH]; intros i j Hi; simpl in *; [lia|].
  destruct i as [|i], j as [|j]; simpl; auto. apply IH. lia.
Qed.

Lemma upd_nat_app_r {A} (l r : list A) i a : upd_nat (l ++ r) (length l + i) a = l ++ upd_nat r i a.
Proof. induction l; simpl; auto. now rewrite IHl. Qed.

Lemma upd_nat_app_l {A} (l r : list A) i a : (i < length l)%nat -> upd_nat (l ++ r) i a = upd_nat l i a ++ r.
Proof. revert i. induction l; intros i Hi; simpl in *; [lia|]. destruct i; simpl; auto. rewrite IHl by lia. auto. Qed.

Lemma upd_nat_map {A B} (f : A -> B) l i a : map f (upd_nat l i a) = upd_nat (map f l) i (f a).
Proof. revert i. induction l; intros [|i]; simpl; auto. now rewrite IHl. Qed.

Lemma get_ok {A} (l : list A) i a : get l i = Ok a <-> 0 <= i /\ nth_error l (Z.to_nat i) = Some a.
Proof.
  unfold get. destruct (Z.ltb_spec i 0).
  - split; [discriminate|lia].
  - destruct (nth_error l (Z.to_nat i)) eqn:E; split; intros; try discriminate.
    + injection H0 as <-. auto.
    + destruct H0 as [_ H0]. injection H0 as <-. auto.
    + destruct H0. discriminate.
Qed.

Lemma get_of_nat {A} (l : list A) n a : nth_error l n = Some a -> get l (Z.of_nat n) = Ok a.
Proof. intros. apply get_ok. rewrite Nat2Z.id. split; [lia|auto]. Qed.

Lemma get_in_range {A} (l : list A) i : 0 <= i < Z.of_nat (length l) -> exists a, get l i = Ok a.
Proof.
  intros. destruct (nth_error l (Z.to_nat i)) as [a|] eqn:E.
  - exists a. apply get_ok. split; [lia|auto].
  - apply nth_error_None in E. lia.
Qed.

Lemma get_range {A} (l : list A) i a : get l i = Ok a -> 0 <= i < Z.of_nat (length l).
Proof. intros H. apply get_ok in H. destruct H as [H E]. assert (Z.to_nat i < length l)%nat by (apply nth_error_Some; congruence). lia. Qed.

Lemma get_err {A} (l : list A) i e : get l i = Err e -> i < 0 \/ Z.of_nat (length l) <= i.
Proof.
  unfold get. destruct (Z.ltb_spec i 0); [auto|]. destruct (nth_error l (Z.to_nat i)) eqn:E; [discriminate|].
  apply nth_error_None in E. lia.
Qed.

Lemma get_app_l {A} (l r : list A) i : i < Z.of_nat (length l) -> get (l ++ r) i = get l i.
Proof. intros. unfold get. destruct (Z.ltb_spec i 0); auto. rewrite nth_error_app1 by lia. auto. Qed.

Lemma get_app_mid {A} (l r : list A) a : get (l ++ a :: r) (Z.of_nat (length l)) = Ok a.
Proof. apply get_of_nat. rewrite nth_error_app2, Nat.sub_diag by lia. reflexivity. Qed.

Lemma put_ok {A} (l : list A) i a : 0 <= i < Z.of_nat (length l) -> put l i a = Ok (upd_nat l (Z.to_nat i) a).
Proof. intros. unfold put. destruct (Z.ltb_spec i 0), (Z.leb_spec (Z.of_nat (length l)) i); try lia. reflexivity. Qed.

Lemma put_app_mid {A} (l r : list A) x a : put (l ++ x :: r) (Z.of_nat (length l)) a = Ok (l ++ a :: r).
Proof.
  rewrite put_ok by (rewrite app_length; simpl; lia). rewrite Nat2Z.id.
  rewrite <- (Nat.add_0_r (length l)) at 1. now rewrite upd_nat_app_r.
Qed.

Lemma get_put_same {A} (l l' : list A) i a : put l i a = Ok l' -> get l' i = Ok a.
Proof.
  unfold put. destruct (Z.ltb_spec i 0), (Z.leb_spec (Z.of_nat (length l)) i); simpl; try discriminate.
  intros [= <-]. apply get_ok. split; [lia|]. rewrite nth_error_upd by lia. now rewrite Nat.eqb_refl.
Qed.

Lemma get_upd {A} (l : list A) i j a : 0 <= i < Z.of_nat (length l) -> 0 <= j ->
  get (upd_nat l (Z.to_nat i) a) j = if i =? j then Ok a else get l j.
Proof.
  intros Hi Hj. unfold get. destruct (Z.ltb_spec j 0); [lia|]. rewrite nth_error_upd by lia.
  destruct (Z.eqb_spec i j), (Nat.eqb_spec (Z.to_nat i) (Z.to_nat j)); auto; lia.
Qed.

Lemma put_err {A} (l : list A) i a : i < 0 \/ Z.of_nat (length l) <= i -> put l i a = Err OutOfBounds.
Proof. intros. unfold put. destruct (Z.ltb_spec i 0), (Z.leb_spec (Z.of_nat (length l)) i); simpl; auto; lia. Qed.
