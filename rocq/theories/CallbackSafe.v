(** The callback table stays well formed whatever the deadlines are (no window on them). *)
Require Import ZArith List Bool Lia Permutation.
From Verif Require Import Res Word Arr Callbacks CallbackProofs.
Import ListNotations.
Open Scope Z_scope.
Ltac Zify.zify_post_hook ::= idtac.

(** [ids] are the pending objects, in table order; there are [k] objects. *)
Record cwf (k : Z) (s : cbs) (ids : list Z) : Prop := {
  cw_arr : exists rest, cb_arr s = ids ++ rest /\ length (cb_arr s) = 32%nat;
  cw_n : cb_n s = Z.of_nat (length ids);
  cw_nodup : NoDup ids;
  cw_range : forall id, In id ids -> 0 <= id < k;
  cw_time : Z.of_nat (length (cb_time s)) = k;
  cw_sched : Z.of_nat (length (cb_sched s)) = k;
  cw_flag : forall id, 0 <= id < k -> get (cb_sched s) id = Ok (if in_dec Z.eq_dec id ids then true else false) }.

Lemma cwf_init k : (k <= 32)%nat -> cwf (Z.of_nat k) (cbs_init k) [].
Proof.
  intros Hk. constructor; simpl; auto.
  - exists (repeat NULLP 32). split; reflexivity.
  - constructor.
  - tauto.
  - now rewrite repeat_length.
  - now rewrite repeat_length.
  - intros id Hid. apply get_ok. split; [lia|]. rewrite nth_error_repeat by lia. reflexivity.
Qed.

Lemma cwf_count k s ids : cwf k s ids -> 0 <= cb_n s <= k.
Proof.
  intros C. rewrite (cw_n _ _ _ C). split; [lia|].
  destruct (Z.le_gt_cases k 0) as [K|K].
  { destruct ids as [|x ids]; [simpl; pose proof (cw_time _ _ _ C); lia|]. pose proof (cw_range _ _ _ C x ltac:(left; auto)). lia. }
  assert (I : incl ids (map Z.of_nat (seq 0 (Z.to_nat k)))).
  { intros x Hx. apply (cw_range _ _ _ C) in Hx. apply in_map_iff. exists (Z.to_nat x). split; [lia|]. apply in_seq. lia. }
  pose proof (NoDup_incl_length (cw_nodup _ _ _ C) I) as L. rewrite map_length, seq_length in L. lia.
Qed.

Lemma cwf_remove nd k s ids id : cwf k s ids -> In id ids ->
  exists s' l1 l2, callback_remove nd s id = Ok s' /\ ids = l1 ++ id :: l2 /\ cwf k s' (l1 ++ l2) /\ cb_time s' = cb_time s /\ cb_armed s' = cb_armed s.
Proof.
  intros R Hin. pose proof (cw_range _ _ _ R _ Hin) as Hr. apply in_split in Hin. destruct Hin as (q1 & q2 & ->).
  pose proof (cw_nodup _ _ _ R) as ND. destruct (cw_arr _ _ _ R) as (rest & Ea & La). pose proof (cw_n _ _ _ R) as Hn.
  destruct (NoDup_remove _ _ _ ND) as [ND' Hni]. rewrite in_app_iff in Hni.
  rewrite <- app_assoc in Ea. simpl in Ea. rewrite app_length in Hn. simpl in Hn.
  unfold callback_remove. rewrite Ea.
  pose proof (find_ptr_spec id q1 (Z.to_nat (cb_n s)) [] (q2 ++ rest) (cb_n s) ltac:(tauto)) as FP.
  simpl app in FP. simpl length in FP. change (Z.of_nat 0) with 0 in FP. rewrite FP by lia. cbn [bind]. clear FP. simpl Nat.add.
  assert (A : c_assert nd (Z.of_nat (length q1) <? cb_n s) = Ok tt).
  { unfold c_assert. destruct nd; auto. destruct (Z.ltb_spec (Z.of_nat (length q1)) (cb_n s)); auto. lia. }
  rewrite A. cbn [bind].
  destruct (shift_down_spec q2 (Z.to_nat (cb_n s)) q1 id rest (cb_n s)) as [y SD]; [lia|lia|].
  rewrite SD. cbn [bind].
  assert (P : put (q1 ++ q2 ++ y :: rest) (cb_n s - 1) NULLP = Ok ((q1 ++ q2) ++ NULLP :: rest)).
  { rewrite app_assoc. rewrite <- (put_app_mid _ rest y). f_equal. rewrite app_length. lia. }
  rewrite P. cbn [bind]. cbn [set_arr cb_sched].
  destruct (Z.eqb_spec id NULLP); [exfalso; subst id; now apply (nullp_range k)|].
  rewrite put_ok by (rewrite (cw_sched _ _ _ R); exact Hr). cbn [bind].
  eexists _, q1, q2. split; [reflexivity|]. cbn [set_flag set_arr cb_time cb_armed]. split; [reflexivity|]. split; [|auto].
  constructor; cbn [set_flag set_arr cb_arr cb_n cb_time cb_sched]; auto.
  - exists (NULLP :: rest). split; [reflexivity|].
    rewrite Ea in La. rewrite !app_length in *. simpl in La |- *. rewrite app_length in La. lia.
  - rewrite app_length. lia.
  - intros i Hi. apply (cw_range _ _ _ R). rewrite in_app_iff in *. simpl. tauto.
  - apply (cw_time _ _ _ R).
  - rewrite upd_nat_length. apply (cw_sched _ _ _ R).
  - intros i Hi. rewrite get_upd by (try rewrite (cw_sched _ _ _ R); lia).
    destruct (Z.eqb_spec id i) as [<-|].
    + destruct (in_dec Z.eq_dec id (q1 ++ q2)) as [I|]; auto. exfalso. rewrite in_app_iff in I. tauto.
    + rewrite (cw_flag _ _ _ R) by exact Hi. f_equal.
      destruct (in_dec Z.eq_dec i (q1 ++ id :: q2)) as [I|I], (in_dec Z.eq_dec i (q1 ++ q2)) as [J|J]; auto; exfalso; rewrite in_app_iff in *; simpl in *.
      * apply J. intuition congruence.
      * apply I. tauto.
Qed.

Lemma find_later_range s t l2 : forall fuel d l1 rest n,
  cb_arr s = d ++ l1 ++ l2 ++ rest -> l1 = [] -> n = Z.of_nat (length d + length l2) ->
  (forall id, In id l2 -> exists u, get (cb_time s) id = Ok u) -> (length l2 <= fuel)%nat ->
  exists a b, l2 = a ++ b /\ find_later fuel s t (Z.of_nat (length d)) n = Ok (Z.of_nat (length d + length a)).
Proof.
  induction l2 as [|x l2 IH]; intros fuel d l1 rest n Ea -> Hn Ht Hf; cbn [length app] in *.
  - exists [], []. split; auto. destruct fuel; cbn [find_later]; destruct (Z.ltb_spec (Z.of_nat (length d)) n); try lia; do 2 f_equal; simpl; lia.
  - destruct fuel; [lia|]. cbn [find_later]. destruct (Z.ltb_spec (Z.of_nat (length d)) n); [|lia].
    rewrite Ea, get_app_mid. cbn [bind]. destruct (Ht x ltac:(left; auto)) as [u Gu].
    unfold tcb_time. destruct (Z.eqb_spec x NULLP) as [->|]. { apply get_range in Gu. exfalso. revert Gu. unfold NULLP. lia. }
    rewrite Gu. cbn [bind]. destruct (time_before t u).
    + exists [], (x :: l2). split; auto. do 2 f_equal. simpl. lia.
    + destruct (IH fuel (d ++ [x]) [] rest n) as (a & b & E & F).
      * rewrite <- app_assoc. exact Ea.
      * reflexivity.
      * rewrite app_length. simpl. lia.
      * intros id I. apply Ht. now right.
      * lia.
      * exists (x :: a), b. split; [simpl; congruence|]. rewrite app_length in F. simpl in F.
        replace (Z.of_nat (length d) + 1) with (Z.of_nat (length d + 1)) by lia. rewrite F. do 2 f_equal. simpl. lia.
Qed.

Lemma cwf_insert k s ids id : cwf k s ids -> (length ids < 32)%nat -> ~ In id ids -> 0 <= id < k ->
  exists s' l1 l2, callback_insert s id = Ok s' /\ ids = l1 ++ l2 /\ cwf k s' (l1 ++ id :: l2) /\ cb_time s' = cb_time s /\ cb_armed s' = cb_armed s.
Proof.
  intros R L Hni Hr. destruct (cw_arr _ _ _ R) as (rest & Ea & La). pose proof (cw_n _ _ _ R) as Hn.
  assert (GT : forall j, 0 <= j < k -> exists u, get (cb_time s) j = Ok u) by (intros j Hj; apply get_in_range; rewrite (cw_time _ _ _ R); auto).
  destruct (GT id Hr) as [t Gt]. unfold callback_insert, tcb_time at 1.
  destruct (Z.eqb_spec id NULLP); [exfalso; subst id; now apply (nullp_range k)|]. rewrite Gt. cbn [bind].
  destruct (find_later_range s t ids (Z.to_nat (cb_n s)) [] [] rest (cb_n s)) as (q1 & q2 & -> & FL); auto.
  { intros j J. apply GT, (cw_range _ _ _ R), J. } { lia. }
  simpl length in FL. change (Z.of_nat 0) with 0 in FL. rewrite FL. cbn [bind]. simpl Nat.add.
  assert (exists x rest', rest = x :: rest') as (x & rest' & ->).
  { destruct rest; [|eauto]. rewrite app_nil_r in Ea. rewrite Ea in La. lia. }
  rewrite app_length in *. rewrite Ea, <- app_assoc.
  destruct (shift_up_spec q2 (Z.to_nat (cb_n s)) q1 x rest') as [h SU]; [lia|].
  rewrite Hn. rewrite Hn in SU. rewrite SU. cbn [bind]. rewrite put_app_mid. cbn [bind]. cbn [set_arr cb_sched].
  rewrite put_ok by (rewrite (cw_sched _ _ _ R); exact Hr). cbn [bind].
  eexists _, q1, q2. split; [reflexivity|]. cbn [set_flag set_arr cb_time cb_armed]. split; [reflexivity|]. split; [|auto].
  pose proof (Permutation_middle q1 q2 id) as PM.
  constructor; cbn [set_flag set_arr cb_arr cb_n cb_time cb_sched]; auto.
  - exists rest'. split; [rewrite <- app_assoc; reflexivity|]. rewrite Ea in La. rewrite !app_length in *. simpl in *. rewrite app_length. lia.
  - rewrite app_length. simpl. lia.
  - apply (Permutation_NoDup PM). constructor; auto. apply (cw_nodup _ _ _ R).
  - intros j J. apply (Permutation_in _ (Permutation_sym PM)) in J. destruct J as [<-|J]; auto. now apply (cw_range _ _ _ R).
  - apply (cw_time _ _ _ R).
  - rewrite upd_nat_length. apply (cw_sched _ _ _ R).
  - intros i Hi. rewrite get_upd by (try rewrite (cw_sched _ _ _ R); lia). rewrite (cw_flag _ _ _ R) by exact Hi.
    assert (II : In i (q1 ++ id :: q2) <-> i = id \/ In i (q1 ++ q2)).
    { split; intros J; [apply (Permutation_in _ (Permutation_sym PM)) in J|apply (Permutation_in _ PM)]; destruct J as [J|J]; auto; [left|right]; auto. }
    destruct (Z.eqb_spec id i), (in_dec Z.eq_dec i (q1 ++ id :: q2)) as [I|I], (in_dec Z.eq_dec i (q1 ++ q2)) as [J|J]; auto; exfalso;
      first [apply I, II; auto; fail | destruct (proj1 II I); [congruence|tauto]].
Qed.

Lemma cwf_arm k s ids : cwf k s ids -> ids <> [] -> exists s', arm_first s = Ok s' /\ cwf k s' ids /\ cb_time s' = cb_time s.
Proof.
  intros C N. destruct ids as [|x ids]; [congruence|]. destruct (cw_arr _ _ _ C) as (rest & Ea & La).
  unfold arm_first. rewrite Ea. replace (get ((x :: ids) ++ rest) 0) with (Ok x : res Z) by reflexivity. cbn [bind].
  pose proof (cw_range _ _ _ C x ltac:(left; auto)). destruct (get_in_range (cb_time s) x) as [u G]; [rewrite (cw_time _ _ _ C); auto|].
  unfold tcb_time. destruct (Z.eqb_spec x NULLP) as [->|]; [unfold NULLP in *; lia|]. rewrite G. cbn [bind].
  eexists. split; [reflexivity|]. split; [|reflexivity]. destruct C. constructor; cbn [cb_arr cb_n cb_time cb_sched]; auto. exists rest. now rewrite <- Ea.
Qed.

(** A scheduling request for one of at most 32 objects always completes, whatever the times are. *)
Lemma cwf_schedule nd k s ids id t : k <= 32 -> cwf k s ids -> 0 <= id < k ->
  exists s' ids', schedule_callback nd s id t = Ok s' /\ cwf k s' ids' /\ (forall j, In j ids' <-> j = id \/ In j ids) /\
    (forall j, 0 <= j < k -> get (cb_time s') j = if id =? j then Ok t else get (cb_time s) j).
Proof.
  intros Hk C Hid. unfold schedule_callback. rewrite (cw_flag _ _ _ C id Hid). cbn [bind].
  assert (K : exists s1 l1, (if (if in_dec Z.eq_dec id ids then true else false) then callback_remove nd s id else Ok s) = Ok s1 /\
     cwf k s1 l1 /\ ~ In id l1 /\ (forall j, j = id \/ In j l1 <-> j = id \/ In j ids) /\ cb_time s1 = cb_time s).
  { destruct (in_dec Z.eq_dec id ids) as [I|I].
    - destruct (cwf_remove nd k s ids id C I) as (s' & a & b & E & Ei & C' & T & _). exists s', (a ++ b).
      split; [exact E|]. split; [exact C'|]. subst ids. pose proof (cw_nodup _ _ _ C) as ND. apply NoDup_remove in ND. split; [tauto|].
      split; [|exact T]. intros j. rewrite !in_app_iff. simpl. intuition congruence.
    - exists s, ids. split; [reflexivity|]. split; [exact C|]. split; [exact I|]. split; [tauto|reflexivity]. }
  destruct K as (s1 & l1 & E1 & C1 & N1 & M1 & T1). rewrite E1. cbn [bind].
  rewrite put_ok by (rewrite (cw_time _ _ _ C1); exact Hid). cbn [bind].
  set (s2 := Cbs (cb_arr s1) (cb_n s1) (upd_nat (cb_time s1) (Z.to_nat id) t) (cb_sched s1) (cb_armed s1)).
  assert (C2 : cwf k s2 l1). { destruct C1. constructor; unfold s2; cbn [cb_arr cb_n cb_time cb_sched]; auto. now rewrite upd_nat_length. }
  assert (L1 : (length l1 < 32)%nat).
  { assert (I : incl (id :: l1) (map Z.of_nat (seq 0 (Z.to_nat k)))).
    { intros x [<-|Hx]; [|apply (cw_range _ _ _ C1) in Hx]; apply in_map_iff; [exists (Z.to_nat id)|exists (Z.to_nat x)]; (split; [lia|]; apply in_seq; lia). }
    assert (ND : NoDup (id :: l1)) by (constructor; [auto|apply (cw_nodup _ _ _ C1)]).
    pose proof (NoDup_incl_length ND I) as L. rewrite map_length, seq_length in L. simpl in L. lia. }
  destruct (cwf_insert k s2 l1 id C2 L1 N1 Hid) as (s3 & a & b & E3 & Ei & C3 & T3 & _). rewrite E3. cbn [bind].
  destruct (cwf_arm k s3 (a ++ id :: b) C3) as (s4 & E4 & C4 & T4). { destruct a; discriminate. }
  exists s4, (a ++ id :: b). split; [exact E4|]. split; [exact C4|]. split.
  - intros j. rewrite <- M1. subst l1. rewrite !in_app_iff. simpl. intuition congruence.
  - intros j Hj. rewrite T4, T3. unfold s2. cbn [cb_time]. rewrite get_upd by (try rewrite (cw_time _ _ _ C1); lia). now rewrite T1.
Qed.
