Require Import ZArith List Bool Lia Sorting.Sorted Sorting.Permutation.
From Verif Require Import Res Word Arr TimeProofs Callbacks CallbackSpec CallbackRun.
Import ListNotations.
Open Scope Z_scope.

(** ** Array loops *)
Lemma find_ptr_spec tcb l1 : forall fuel d r n, ~ In tcb l1 ->
  Z.of_nat (length d + length l1) < n -> (length l1 < fuel)%nat ->
  find_ptr fuel (d ++ l1 ++ tcb :: r) tcb (Z.of_nat (length d)) n = Ok (Z.of_nat (length d + length l1)).
Proof.
  induction l1 as [|x l1 IH]; intros fuel d r n Hni Hn Hf; cbn [length] in *.
  - destruct fuel; [lia|]. cbn [find_ptr]. destruct (Z.ltb_spec (Z.of_nat (length d)) n); [|lia].
    cbn [app]. rewrite get_app_mid. cbn [bind]. rewrite Z.eqb_refl. do 2 f_equal. lia.
  - destruct fuel; [lia|]. cbn [find_ptr]. destruct (Z.ltb_spec (Z.of_nat (length d)) n); [|lia].
    cbn [app]. rewrite get_app_mid. cbn [bind]. simpl In in Hni.
    destruct (Z.eqb_spec x tcb); [tauto|].
    replace (d ++ x :: l1 ++ tcb :: r) with ((d ++ [x]) ++ l1 ++ tcb :: r) by (rewrite <- app_assoc; reflexivity).
    replace (Z.of_nat (length d) + 1) with (Z.of_nat (length (d ++ [x]))) by (rewrite app_length; simpl; lia).
    rewrite IH; try (rewrite app_length; simpl); try tauto; try lia. do 2 f_equal. lia.
Qed.

Lemma shift_down_spec l2 : forall fuel a x rest n,
  n = Z.of_nat (length a + 1 + length l2) -> (length l2 < fuel)%nat ->
  exists y, shift_down fuel (a ++ x :: l2 ++ rest) (Z.of_nat (length a)) n = Ok (a ++ l2 ++ y :: rest).
Proof.
  induction l2 as [|y l2 IH]; intros fuel a x rest n Hn Hf; simpl length in *.
  - destruct fuel; [lia|]. cbn [shift_down]. destruct (Z.ltb_spec (Z.of_nat (length a)) (n - 1)); [lia|]. exists x. reflexivity.
  - destruct fuel; [lia|]. cbn [shift_down]. destruct (Z.ltb_spec (Z.of_nat (length a)) (n - 1)); [|lia].
    assert (G : get (a ++ x :: (y :: l2) ++ rest) (Z.of_nat (length a) + 1) = Ok y).
    { replace (a ++ x :: (y :: l2) ++ rest) with ((a ++ [x]) ++ y :: l2 ++ rest) by (rewrite <- app_assoc; reflexivity).
      replace (Z.of_nat (length a) + 1) with (Z.of_nat (length (a ++ [x]))) by (rewrite app_length; simpl; lia).
      apply get_app_mid. }
    rewrite G. cbn [bind]. rewrite put_app_mid. cbn [bind].
    replace (a ++ y :: (y :: l2) ++ rest) with ((a ++ [y]) ++ y :: l2 ++ rest) by (rewrite <- app_assoc; reflexivity).
    replace (Z.of_nat (length a) + 1) with (Z.of_nat (length (a ++ [y]))) by (rewrite app_length; simpl; lia).
    destruct (IH fuel (a ++ [y]) y rest n) as [z Hz]; [rewrite app_length; simpl; lia|lia|].
    exists z. rewrite Hz. rewrite <- app_assoc. reflexivity.
Qed.

Lemma shift_up_spec l2 : forall fuel a x rest, (length l2 <= fuel)%nat ->
  exists h, shift_up fuel (a ++ l2 ++ x :: rest) (Z.of_nat (length a + length l2)) (Z.of_nat (length a)) = Ok (a ++ h :: l2 ++ rest).
Proof.
  induction l2 as [|y l2 IH] using rev_ind; intros fuel a x rest Hf.
  - simpl length. replace (length a + 0)%nat with (length a) by lia.
    destruct fuel; cbn [shift_up]; destruct (Z.ltb_spec (Z.of_nat (length a)) (Z.of_nat (length a))); try lia; exists x; reflexivity.
  - rewrite app_length in *. simpl length in *.
    destruct fuel; [lia|]. cbn [shift_up].
    destruct (Z.ltb_spec (Z.of_nat (length a)) (Z.of_nat (length a + (length l2 + 1)))); [|lia].
    replace (Z.of_nat (length a + (length l2 + 1)) - 1) with (Z.of_nat (length (a ++ l2))) by (rewrite app_length; lia).
    assert (G : get (a ++ (l2 ++ [y]) ++ x :: rest) (Z.of_nat (length (a ++ l2))) = Ok y).
    { replace (a ++ (l2 ++ [y]) ++ x :: rest) with ((a ++ l2) ++ y :: x :: rest) by (rewrite <- !app_assoc; reflexivity).
      apply get_app_mid. }
    rewrite G. cbn [bind].
    replace (a ++ (l2 ++ [y]) ++ x :: rest) with ((a ++ l2 ++ [y]) ++ x :: rest) by (rewrite <- !app_assoc; reflexivity).
    replace (Z.of_nat (length a + (length l2 + 1))) with (Z.of_nat (length (a ++ l2 ++ [y]))) by (rewrite !app_length; simpl; lia).
    rewrite put_app_mid. cbn [bind].
    replace ((a ++ l2 ++ [y]) ++ y :: rest) with (a ++ l2 ++ y :: (y :: rest)) by (rewrite <- !app_assoc; reflexivity).
    rewrite app_length. destruct (IH fuel a y (y :: rest)) as [h Hh]; [lia|].
    exists h. rewrite Hh. rewrite <- !app_assoc. reflexivity.
Qed.

(** ** The queue *)
Lemma q_remove_In id e q : In e (q_remove id q) <-> In e q /\ fst e <> id.
Proof. unfold q_remove. rewrite filter_In. destruct (Z.eqb_spec (fst e) id); simpl; intuition congruence. Qed.

Lemma q_insert_perm e q : Permutation (e :: q) (q_insert e q).
Proof.
  induction q as [|f r IH]; simpl; auto. destruct (snd e <? snd f); auto.
  eapply perm_trans; [apply perm_swap|]. now constructor.
Qed.

Lemma q_insert_In e x q : In x (q_insert e q) <-> x = e \/ In x q.
Proof.
  split; intros H.
  - apply Permutation_in with (1 := Permutation_sym (q_insert_perm e q)) in H. destruct H; auto.
  - apply Permutation_in with (1 := q_insert_perm e q). destruct H; [left|right]; auto.
Qed.

Lemma q_insert_length e q : length (q_insert e q) = S (length q).
Proof. now rewrite <- (Permutation_length (q_insert_perm e q)). Qed.

Lemma q_insert_sorted e q : in_order q -> in_order (q_insert e q).
Proof.
  unfold in_order. induction q as [|f r IH]; simpl; intros S; [repeat constructor|].
  destruct (Z.ltb_spec (snd e) (snd f)).
  - constructor; auto. constructor. lia.
  - apply Sorted_inv in S. destruct S as [S H1]. constructor; auto.
    destruct r as [|g r]; simpl; [constructor; lia|].
    destruct (snd e <? snd g); constructor; [lia|]. now inversion H1.
Qed.

Lemma q_remove_sorted id q : in_order q -> in_order (q_remove id q).
Proof.
  unfold in_order, q_remove. intros S.
  assert (T : StronglySorted (fun a b : Z * Z => snd a <= snd b) q) by (apply Sorted_StronglySorted; auto; intros x y z; lia).
  apply StronglySorted_Sorted. induction T as [|a l T IH F]; simpl; [constructor|].
  apply Sorted_inv in S. destruct S as [S _]. specialize (IH S).
  destruct (fst a =? id); simpl; auto. constructor; auto.
  rewrite Forall_forall in *. intros x Hx. apply filter_In in Hx. apply F. tauto.
Qed.

Lemma q_remove_NoDup id q : NoDup (map fst q) -> NoDup (map fst (q_remove id q)).
Proof.
  induction q as [|e q IH]; simpl; intros H; [constructor|]. inversion H; subst.
  destruct (Z.eqb_spec (fst e) id); simpl; auto. constructor; auto.
  intros I. apply H2. apply in_map_iff in I. destruct I as (x & E & I). apply q_remove_In in I. apply in_map_iff. exists x. tauto.
Qed.

Lemma q_remove_notin id q : ~ In id (map fst (q_remove id q)).
Proof. intros I. apply in_map_iff in I. destruct I as (x & E & I). apply q_remove_In in I. tauto. Qed.

Lemma q_remove_id id q : ~ In id (map fst q) -> q_remove id q = q.
Proof.
  intros H. unfold q_remove. induction q as [|e q IH]; simpl in *; auto.
  destruct (Z.eqb_spec (fst e) id); [tauto|]. simpl. f_equal. apply IH. tauto.
Qed.

Lemma q_remove_split id q1 t q2 : NoDup (map fst (q1 ++ (id, t) :: q2)) -> q_remove id (q1 ++ (id, t) :: q2) = q1 ++ q2.
Proof.
  intros H. rewrite map_app in H. simpl in H. apply NoDup_remove in H. destruct H as [_ H].
  rewrite in_app_iff in H.
  unfold q_remove. rewrite filter_app. simpl. rewrite Z.eqb_refl. simpl. f_equal.
  - apply q_remove_id. tauto.
  - apply q_remove_id. tauto.
Qed.

(** ** Representation *)
Record rep (s : cbs) (q : queue) : Prop := {
  rp_arr : exists rest, cb_arr s = map fst q ++ rest /\ length (cb_arr s) = 32%nat;
  rp_n : cb_n s = Z.of_nat (length q);
  rp_nodup : NoDup (map fst q);
  rp_len : length (cb_sched s) = length (cb_time s);
  rp_time : forall id t, In (id, t) q -> get (cb_time s) id = Ok (t mod W);
  rp_flag : forall id, 0 <= id < Z.of_nat (length (cb_time s)) -> get (cb_sched s) id = Ok (if in_dec Z.eq_dec id (map fst q) then true else false);
  rp_sorted : in_order q }.

Lemma rep_range s q id t : rep s q -> In (id, t) q -> 0 <= id < Z.of_nat (length (cb_time s)).
Proof. intros R I. eapply get_range. eapply rp_time; eauto. Qed.

Lemma rep_le32 s q : rep s q -> (length q <= 32)%nat.
Proof. intros R. destruct (rp_arr _ _ R) as (rest & E & L). rewrite E, app_length, map_length in L. lia. Qed.

Lemma rep_init k : rep (cbs_init k) [].
Proof.
  constructor; simpl; auto.
  - exists (repeat NULLP 32). split; reflexivity.
  - constructor.
  - now rewrite !repeat_length.
  - tauto.
  - intros id Hid. rewrite repeat_length in Hid. apply get_ok. split; [lia|].
    apply nth_error_repeat. lia.
  - constructor.
Qed.

Lemma nullp_range l : ~ (0 <= NULLP < l). Proof. unfold NULLP. lia. Qed.

Lemma remove_spec nd s q id : rep s q -> In id (map fst q) ->
  exists s', callback_remove nd s id = Ok s' /\ rep s' (q_remove id q) /\
    cb_time s' = cb_time s /\ cb_armed s' = cb_armed s.
Proof.
  intros R Hin. apply in_map_iff in Hin. destruct Hin as ((id' & t) & E & Hin). simpl in E. subst id'.
  pose proof (rep_range _ _ _ _ R Hin) as Hr.
  apply in_split in Hin. destruct Hin as (q1 & q2 & ->).
  pose proof (rp_nodup _ _ R) as ND. pose proof (q_remove_split _ _ _ _ ND) as QR.
  destruct (rp_arr _ _ R) as (rest & Ea & La). pose proof (rp_n _ _ R) as Hn.
  assert (Hni : ~ In id (map fst q1)).
  { rewrite map_app in ND. simpl in ND. apply NoDup_remove in ND. destruct ND as [_ ND]. rewrite in_app_iff in ND. tauto. }
  rewrite map_app, <- app_assoc in Ea. simpl in Ea.
  rewrite app_length in Hn. simpl in Hn.
  unfold callback_remove. rewrite Ea.
  pose proof (find_ptr_spec id (map fst q1) (Z.to_nat (cb_n s)) [] (map fst q2 ++ rest) (cb_n s) Hni) as FP.
  simpl app in FP. simpl length in FP. rewrite map_length in FP. change (Z.of_nat 0) with 0 in FP. rewrite FP by lia. cbn [bind]. clear FP. simpl Nat.add.
  assert (A : c_assert nd (Z.of_nat (length q1) <? cb_n s) = Ok tt).
  { unfold c_assert. destruct nd; auto. destruct (Z.ltb_spec (Z.of_nat (length q1)) (cb_n s)); auto. lia. }
  rewrite A. cbn [bind].
  destruct (shift_down_spec (map fst q2) (Z.to_nat (cb_n s)) (map fst q1) id rest (cb_n s)) as [y SD].
  { rewrite !map_length. lia. } { rewrite map_length. lia. }
  rewrite map_length in SD. rewrite SD. cbn [bind].
  assert (P : put (map fst q1 ++ map fst q2 ++ y :: rest) (cb_n s - 1) NULLP = Ok ((map fst q1 ++ map fst q2) ++ NULLP :: rest)).
  { rewrite app_assoc. rewrite <- (put_app_mid _ rest y). f_equal. rewrite app_length, !map_length. lia. }
  rewrite P. cbn [bind]. cbn [set_arr cb_sched].
  destruct (Z.eqb_spec id NULLP); [exfalso; subst id; now apply (nullp_range (Z.of_nat (length (cb_time s))))|].
  rewrite put_ok by (rewrite (rp_len _ _ R); exact Hr). cbn [bind].
  eexists. split; [reflexivity|]. cbn [set_flag set_arr cb_time cb_armed]. split; [|auto].
  rewrite QR.
  assert (ND' : NoDup (map fst (q1 ++ q2))) by (rewrite map_app in *; now apply NoDup_remove in ND).
  constructor; cbn [set_flag set_arr cb_arr cb_n cb_time cb_sched]; auto.
  - exists (NULLP :: rest). rewrite map_app. split; [reflexivity|].
    rewrite Ea in La. rewrite !app_length in *. simpl in La |- *. rewrite app_length in La. lia.
  - rewrite app_length. lia.
  - now rewrite upd_nat_length, (rp_len _ _ R).
  - intros i u Hi. apply (rp_time _ _ R). rewrite in_app_iff in *. simpl. tauto.
  - intros i Hi. rewrite get_upd by (try rewrite (rp_len _ _ R); lia).
    destruct (Z.eqb_spec id i) as [<-|].
    + destruct (in_dec Z.eq_dec id (map fst (q1 ++ q2))); auto. exfalso.
      rewrite map_app in ND, i. simpl in ND. now apply NoDup_remove in ND.
    + rewrite (rp_flag _ _ R) by exact Hi. f_equal.
      rewrite !map_app. simpl map.
      destruct (in_dec Z.eq_dec i (map fst q1 ++ id :: map fst q2)), (in_dec Z.eq_dec i (map fst q1 ++ map fst q2)); auto; exfalso.
      * apply n1. rewrite in_app_iff in *. simpl in i0. destruct i0 as [|[|]]; auto. congruence.
      * apply n1. rewrite in_app_iff in *. simpl. tauto.
  - rewrite <- QR. apply q_remove_sorted, (rp_sorted _ _ R).
Qed.

(** Deadlines near each other: within half a counter period. *)
Notation near := close.

Lemma find_later_spec s t q2 : forall fuel d q1 rest n,
  cb_arr s = d ++ map fst (q1 ++ q2) ++ rest -> n = Z.of_nat (length d + length (q1 ++ q2)) ->
  (forall id u, In (id, u) (q1 ++ q2) -> get (cb_time s) id = Ok (u mod W) /\ near t u) ->
  (forall id u, In (id, u) q1 -> u <= t) -> (match q2 with [] => True | e :: _ => t < snd e end) ->
  (length q1 < fuel)%nat \/ ((length q1 <= fuel)%nat /\ q2 = []) ->
  find_later fuel s (t mod W) (Z.of_nat (length d)) n = Ok (Z.of_nat (length d + length q1)).
Proof.
  intros fuel d q1. revert fuel d. induction q1 as [|[i u] q1 IH]; intros fuel d rest n Ea Hn Ht H1 H2 Hf.
  - simpl length in *. simpl app in *. destruct q2 as [|[j v] q2].
    + simpl in Hn. destruct fuel; cbn [find_later]; destruct (Z.ltb_spec (Z.of_nat (length d)) n); try lia; do 2 f_equal; lia.
    + simpl in H2, Ea, Hn. destruct fuel; [destruct Hf as [Hf|[_ Hf]]; [lia|discriminate]|]. cbn [find_later].
      destruct (Z.ltb_spec (Z.of_nat (length d)) n); [|lia]. rewrite Ea. rewrite get_app_mid. cbn [bind].
      destruct (Ht j v) as [Gt Nt]; [left; reflexivity|].
      unfold tcb_time. destruct (Z.eqb_spec j NULLP) as [->|].
      { apply get_range in Gt. exfalso. revert Gt. unfold NULLP. lia. }
      rewrite Gt. cbn [bind]. rewrite time_before_spec by exact Nt.
      destruct (Z.ltb_spec t v); [|lia]. do 2 f_equal. lia.
  - simpl length in *. destruct fuel; [lia|]. cbn [find_later].
    destruct (Z.ltb_spec (Z.of_nat (length d)) n); [|lia]. simpl in Ea. rewrite Ea. rewrite get_app_mid. cbn [bind].
    destruct (Ht i u) as [Gt Nt]; [left; reflexivity|].
    unfold tcb_time. destruct (Z.eqb_spec i NULLP) as [->|].
    { apply get_range in Gt. exfalso. revert Gt. unfold NULLP. lia. }
    rewrite Gt. cbn [bind]. rewrite time_before_spec by exact Nt.
    pose proof (H1 i u ltac:(left; reflexivity)). destruct (Z.ltb_spec t u); [lia|].
    replace (Z.of_nat (length d) + 1) with (Z.of_nat (length (d ++ [i]))) by (rewrite app_length; simpl; lia).
    rewrite (IH fuel (d ++ [i]) rest n).
    + rewrite app_length. simpl. do 2 f_equal. lia.
    + rewrite <- app_assoc. simpl. exact Ea.
    + rewrite app_length. simpl. lia.
    + intros. apply Ht. right; auto.
    + intros. apply (H1 id). right; auto.
    + exact H2.
    + destruct Hf as [Hf|[Hf Hq]]; [left; lia|right; split; [lia|exact Hq]].
Qed.

Lemma q_insert_split id t q : in_order q -> exists q1 q2, q = q1 ++ q2 /\ q_insert (id, t) q = q1 ++ (id, t) :: q2 /\
  (forall i u, In (i, u) q1 -> u <= t) /\ (match q2 with [] => True | e :: _ => t < snd e end).
Proof.
  intros S. induction q as [|[i u] q IH].
  - exists [], []. simpl. tauto.
  - simpl. destruct (Z.ltb_spec t u).
    + exists [], ((i, u) :: q). simpl. tauto.
    + apply Sorted_inv in S. destruct IH as (q1 & q2 & E1 & E2 & A & B); [tauto|].
      exists ((i, u) :: q1), q2. split; [simpl; congruence|]. split; [simpl; rewrite E2; reflexivity|]. split; [|exact B].
      intros j v [[= <- <-]|Hj]; [lia|eauto].
Qed.

Lemma insert_spec s q id t : rep s q -> (length q < 32)%nat -> ~ In id (map fst q) ->
  get (cb_time s) id = Ok (t mod W) -> (forall i u, In (i, u) q -> near t u) ->
  exists s', callback_insert s id = Ok s' /\ rep s' (q_insert (id, t) q) /\
    cb_time s' = cb_time s /\ cb_armed s' = cb_armed s.
Proof.
  intros R L Hni Gt Nr. pose proof (get_range _ _ _ Gt) as Hr.
  destruct (q_insert_split id t q (rp_sorted _ _ R)) as (q1 & q2 & Eq & Ei & H1 & H2).
  destruct (rp_arr _ _ R) as (rest & Ea & La). pose proof (rp_n _ _ R) as Hn.
  unfold callback_insert, tcb_time at 1.
  destruct (Z.eqb_spec id NULLP); [exfalso; subst id; now apply (nullp_range (Z.of_nat (length (cb_time s))))|].
  rewrite Gt. cbn [bind].
  pose proof (find_later_spec s t q2 (Z.to_nat (cb_n s)) [] q1 rest (cb_n s)) as FL. simpl app in FL. simpl length in FL.
  rewrite <- Eq in FL. change (Z.of_nat 0) with 0 in FL. rewrite FL; auto; clear FL.
  2:{ intros i u I. split; [now apply (rp_time _ _ R)|eauto]. }
  2:{ rewrite Hn. rewrite Eq, app_length. destruct q2; [right; simpl; split; [lia|auto]|left; simpl; lia]. }
  cbn [bind]. simpl Nat.add.
  assert (exists x rest', rest = x :: rest') as (x & rest' & ->).
  { destruct rest; [|eauto]. rewrite app_nil_r in Ea. rewrite Ea, map_length in La. lia. }
  rewrite Ea. rewrite Eq, map_app, <- app_assoc.
  destruct (shift_up_spec (map fst q2) (Z.to_nat (cb_n s)) (map fst q1) x rest') as [h SU].
  { rewrite Hn, Eq, map_length, app_length. lia. }
  rewrite !map_length in SU. rewrite Eq, app_length in Hn. rewrite Hn. rewrite Hn in SU. rewrite SU. cbn [bind].
  assert (PP : put (map fst q1 ++ h :: map fst q2 ++ rest') (Z.of_nat (length q1)) id = Ok (map fst q1 ++ id :: map fst q2 ++ rest')).
  { rewrite <- (map_length fst q1). apply put_app_mid. }
  rewrite PP. cbn [bind]. cbn [set_arr cb_sched].
  rewrite put_ok by (rewrite (rp_len _ _ R); exact Hr). cbn [bind].
  eexists. split; [reflexivity|]. cbn [set_flag set_arr cb_time cb_armed]. rewrite <- Eq. split; [|auto].
  constructor; cbn [set_flag set_arr cb_arr cb_n cb_time cb_sched]; auto.
  - exists rest'. rewrite Ei, map_app. simpl. split; [now rewrite <- app_assoc|].
    rewrite Ea, Eq in La. rewrite !map_app, !app_length in *. simpl in *. rewrite app_length. lia.
  - rewrite Ei, app_length. simpl. lia.
  - apply (Permutation_NoDup (l := map fst ((id, t) :: q))); [apply Permutation_map, q_insert_perm|].
    simpl. constructor; auto. apply (rp_nodup _ _ R).
  - now rewrite upd_nat_length, (rp_len _ _ R).
  - intros i u I. apply q_insert_In in I. destruct I as [[= -> ->]|I]; auto. now apply (rp_time _ _ R).
  - intros i Hi. rewrite get_upd by (try rewrite (rp_len _ _ R); lia).
    assert (II : In i (map fst (q_insert (id, t) q)) <-> i = id \/ In i (map fst q)).
    { rewrite !in_map_iff. split.
      - intros ((j & u) & E & I). simpl in E. subst j. apply q_insert_In in I. destruct I as [[= -> ->]|I]; auto. right. now exists (i, u).
      - intros [->|(e & E & I)]; [exists (id, t)|exists e]; rewrite q_insert_In; auto. }
    destruct (in_dec Z.eq_dec i (map fst (q_insert (id, t) q))) as [I|I]; rewrite II in I.
    + destruct (Z.eqb_spec id i); auto. rewrite (rp_flag _ _ R) by exact Hi.
      destruct (in_dec Z.eq_dec i (map fst q)); auto. destruct I; [congruence|tauto].
    + destruct (Z.eqb_spec id i); [subst; tauto|]. rewrite (rp_flag _ _ R) by exact Hi.
      destruct (in_dec Z.eq_dec i (map fst q)); auto. tauto.
  - apply q_insert_sorted, (rp_sorted _ _ R).
Qed.

(** ** schedule_callback and the timer interrupt *)
Definition armed_ok (s : cbs) (q : queue) : Prop :=
  match q with [] => True | (_, d) :: _ => cb_armed s = Some (d mod W) end.

Lemma arm_first_spec s q id d : rep s ((id, d) :: q) ->
  exists s', arm_first s = Ok s' /\ rep s' ((id, d) :: q) /\ cb_time s' = cb_time s /\ armed_ok s' ((id, d) :: q).
Proof.
  intros R. destruct (rp_arr _ _ R) as (rest & Ea & La). unfold arm_first.
  assert (G0 : get (cb_arr s) 0 = Ok id) by (rewrite Ea; reflexivity). rewrite G0. cbn [bind].
  pose proof (rp_time _ _ R id d ltac:(left; auto)) as G. pose proof (get_range _ _ _ G).
  unfold tcb_time. destruct (Z.eqb_spec id NULLP); [unfold NULLP in *; lia|]. rewrite G. cbn [bind].
  eexists. split; [reflexivity|]. simpl. split; auto.
  destruct R. constructor; simpl; auto.
Qed.

Lemma q_insert_neq_nil e q : q_insert e q <> [].
Proof. destruct q; simpl; [discriminate|]. destruct (_ <? _); discriminate. Qed.

Lemma schedule_callback_spec nd s q id t : rep s q -> 0 <= id < Z.of_nat (length (cb_time s)) ->
  (length (q_remove id q) < 32)%nat -> (forall j u, In (j, u) q -> j <> id -> near t u) ->
  exists s', schedule_callback nd s id (t mod W) = Ok s' /\ rep s' (q_schedule id t q) /\
    length (cb_time s') = length (cb_time s) /\ armed_ok s' (q_schedule id t q).
Proof.
  intros R Hid L Nr. unfold schedule_callback. rewrite (rp_flag _ _ R) by exact Hid. cbn [bind].
  assert (exists s1, (if if in_dec Z.eq_dec id (map fst q) then true else false then callback_remove nd s id else Ok s) = Ok s1 /\
    rep s1 (q_remove id q) /\ cb_time s1 = cb_time s) as (s1 & -> & R1 & T1).
  { destruct (in_dec Z.eq_dec id (map fst q)) as [I|I].
    - destruct (remove_spec nd s q id R I) as (s' & E & R' & T' & _). eauto.
    - exists s. rewrite q_remove_id by exact I. auto. }
  cbn [bind]. rewrite put_ok by (rewrite T1; exact Hid). cbn [bind].
  set (s2 := Cbs (cb_arr s1) (cb_n s1) (upd_nat (cb_time s1) (Z.to_nat id) (t mod W)) (cb_sched s1) (cb_armed s1)).
  assert (R2 : rep s2 (q_remove id q)).
  { destruct R1. constructor; simpl; auto.
    - now rewrite upd_nat_length.
    - intros i u I. rewrite get_upd.
      + destruct (Z.eqb_spec id i) as [->|]; auto. apply q_remove_In in I. simpl in I. tauto.
      + rewrite T1. exact Hid.
      + assert (G := rp_time0 _ _ I). apply get_range in G. lia.
    - intros i. rewrite upd_nat_length. auto. }
  destruct (insert_spec s2 (q_remove id q) id t) as (s3 & -> & R3 & T3 & _); auto.
  { apply q_remove_notin. }
  { simpl. rewrite get_upd by (rewrite ?T1; lia). now rewrite Z.eqb_refl. }
  { intros i u I. apply q_remove_In in I. simpl in I. apply (Nr i); tauto. }
  cbn [bind]. unfold q_schedule.
  destruct (q_insert (id, t) (q_remove id q)) as [|[i d] q'] eqn:E; [now apply q_insert_neq_nil in E|].
  destruct (arm_first_spec s3 q' i d R3) as (s4 & -> & R4 & T4 & A4).
  eexists. split; [reflexivity|]. split; auto. split; auto. rewrite T4, T3. simpl. now rewrite upd_nat_length, T1.
Qed.

Lemma schedule_callback_full nd s q id t : rep s q -> 0 <= id < Z.of_nat (length (cb_time s)) ->
  length q = 32%nat -> ~ In id (map fst q) -> (forall j u, In (j, u) q -> near t u /\ u <= t) ->
  schedule_callback nd s id (t mod W) = Err OutOfBounds.
Proof.
  intros R Hid L Hni Nr. unfold schedule_callback. rewrite (rp_flag _ _ R) by exact Hid. cbn [bind].
  destruct (in_dec Z.eq_dec id (map fst q)); [tauto|]. cbn [bind]. rewrite put_ok by exact Hid. cbn [bind].
  unfold callback_insert. set (s2 := Cbs _ _ _ _ _).
  assert (G : get (cb_time s2) id = Ok (t mod W)).
  { simpl. rewrite get_upd by lia. now rewrite Z.eqb_refl. }
  assert (N : id <> NULLP) by (unfold NULLP; lia).
  unfold tcb_time at 1. destruct (Z.eqb_spec id NULLP); [tauto|]. rewrite G. cbn [bind].
  destruct (rp_arr _ _ R) as (rest & Ea & La). pose proof (rp_n _ _ R) as Hn.
  pose proof (find_later_spec s2 t [] (Z.to_nat (cb_n s2)) [] q rest (cb_n s2)) as FL. rewrite !app_nil_r in FL. simpl app in FL.
  simpl length in FL. change (Z.of_nat 0) with 0 in FL. rewrite FL; auto; clear FL.
  2:{ intros j u I. split; [|now apply (Nr j u)]. simpl. pose proof (rp_time _ _ R j u I) as Gj. rewrite get_upd by (apply get_range in Gj; lia).
      destruct (Z.eqb_spec id j) as [->|]; auto. exfalso. apply Hni. apply in_map_iff. now exists (j, u). }
  2:{ intros j u I. now apply (Nr j u). }
  2:{ right. simpl. split; auto. lia. }
  cbn [bind]. simpl Nat.add. change (cb_n s2) with (cb_n s). rewrite Hn, L.
  cbn [bind]. replace (shift_up _ (cb_arr s2) (Z.of_nat 32) (Z.of_nat 32)) with (Ok (cb_arr s2)) by reflexivity. cbn [bind].
  change (cb_arr s2) with (cb_arr s). rewrite put_err by (rewrite La; lia). reflexivity.
Qed.

Lemma run_body_app nd b1 b2 s : run_body nd (b1 ++ b2) s = (s' <- run_body nd b1 s ;; run_body nd b2 s').
Proof.
  revert s. induction b1 as [|[id t] b1 IH]; intros s; simpl; auto.
  destruct (schedule_callback nd s id (w32 t)); simpl; auto.
Qed.

(** ** Histories *)
Definition inv (k : nat) (h : list happening) (s : cbs) (q : queue) : Prop :=
  rep s q /\ length (cb_time s) = k /\ (forall id u, In (id, u) q <-> pending h id = Some u) /\ armed_ok s q /\ runs_ok h.

Lemma inv_count k h s q : inv k h s q -> (length q <= k)%nat.
Proof.
  intros (R & L & _). rewrite <- L, <- (map_length fst).
  assert (incl (map fst q) (map Z.of_nat (seq 0 (length (cb_time s))))).
  { intros i I. apply in_map_iff in I. destruct I as ((j & u) & E & I). simpl in E. subst j.
    pose proof (rep_range _ _ _ _ R I). apply in_map_iff. exists (Z.to_nat i). rewrite in_seq. lia. }
  pose proof (NoDup_incl_length (rp_nodup _ _ R) H). rewrite (map_length Z.of_nat), seq_length in H0. exact H0.
Qed.

Lemma q_remove_length id q : (length (q_remove id q) <= length q)%nat.
Proof. unfold q_remove. induction q as [|e q IH]; simpl; auto. destruct (fst e =? id); simpl; lia. Qed.

Lemma q_remove_count k h s q id : inv k h s q -> 0 <= id < Z.of_nat k -> (k <= 32)%nat -> (length (q_remove id q) < 32)%nat.
Proof.
  intros I Hid Hk. pose proof I as (R & L & _).
  assert (NoDup (id :: map fst (q_remove id q))).
  { constructor; [apply q_remove_notin|apply q_remove_NoDup, (rp_nodup _ _ R)]. }
  assert (incl (id :: map fst (q_remove id q)) (map Z.of_nat (seq 0 k))).
  { intros i [<-|Hi]; apply in_map_iff.
    - exists (Z.to_nat id). rewrite in_seq. lia.
    - apply in_map_iff in Hi. destruct Hi as ((j & u) & E & Hi). simpl in E. subst j. apply q_remove_In in Hi.
      pose proof (rep_range _ _ _ _ R (proj1 Hi)). exists (Z.to_nat i). rewrite in_seq. lia. }
  pose proof (NoDup_incl_length H H0). simpl in H1. rewrite !map_length, seq_length in H1. lia.
Qed.

Lemma pending_schedule h q id t : (forall i u, In (i, u) q <-> pending h i = Some u) ->
  forall i u, In (i, u) (q_schedule id t q) <-> pending (Requested id t :: h) i = Some u.
Proof.
  intros Hp i u. unfold q_schedule. rewrite q_insert_In, q_remove_In. simpl.
  destruct (Z.eqb_spec id i) as [->|].
  - split; [intros [[= ->]|[_ N]]; [auto|tauto]|intros [= ->]; auto].
  - rewrite <- Hp. split; [intros [[= -> ->]|[]]; auto; congruence|intros; right; auto].
Qed.

Lemma sched_inv nd k h s q id t : (k <= 32)%nat -> inv k h s q -> 0 <= id < Z.of_nat k ->
  (forall j u, j <> id -> pending h j = Some u -> close t u) ->
  exists s', schedule_callback nd s id (w32 t) = Ok s' /\ inv k (Requested id t :: h) s' (q_schedule id t q).
Proof.
  intros Hk I Hid Hc. pose proof I as (R & L & P & A & RO).
  destruct (schedule_callback_spec nd s q id t R) as (s' & E & R' & L' & A'); try lia.
  - eapply q_remove_count; eauto.
  - intros j u Hj N. apply (Hc j); auto. now apply P.
  - exists s'. split; [exact E|]. split; [exact R'|]. split; [lia|]. split; [apply (pending_schedule h q id t P)|]. split; auto.
Qed.

Lemma body_inv nd k b : (k <= 32)%nat -> forall h s q, rep s q -> length (cb_time s) = k ->
  (forall id u, In (id, u) q <-> pending h id = Some u) -> runs_ok h -> body_ok k h b ->
  exists s' q', run_body nd b s = Ok s' /\ rep s' q' /\ length (cb_time s') = k /\
    (forall id u, In (id, u) q' <-> pending (rev (map request b) ++ h) id = Some u) /\ runs_ok (rev (map request b) ++ h).
Proof.
  intros Hk. induction b as [|[id t] b IH]; intros h s q R L P RO B.
  - exists s, q. simpl. auto.
  - destruct B as (Hid & Hc & B). cbn [run_body].
    destruct (schedule_callback_spec nd s q id t R) as (s' & E & R' & L' & _); try lia.
    { assert (I : inv k h (Cbs (cb_arr s) (cb_n s) (cb_time s) (cb_sched s)
         (match q with [] => None | (_, d) :: _ => Some (d mod W) end)) q).
      { split; [destruct R; constructor; auto|]. split; [exact L|]. split; [exact P|]. split; [destruct q as [|[]]; simpl; auto|exact RO]. }
      eapply q_remove_count; eauto. }
    { intros j u Hj N. apply (Hc j); auto. now apply P. }
    change (t mod W) with (w32 t) in E. rewrite E. cbn [bind].
    destruct (IH (Requested id t :: h) s' (q_schedule id t q)) as (s2 & q2 & E2 & R2 & L2 & P2 & RO2); auto; try lia.
    { apply pending_schedule; auto. }
    exists s2, q2. simpl map. simpl rev. rewrite <- app_assoc. auto 10.
Qed.

Lemma arm_rest s q : rep s q -> exists s', (if 0 <? cb_n s then arm_first s else Ok s) = Ok s' /\
  rep s' q /\ cb_time s' = cb_time s /\ armed_ok s' q.
Proof.
  intros R. rewrite (rp_n _ _ R). destruct q as [|[i d] q].
  - exists s. simpl. auto.
  - destruct (Z.ltb_spec 0 (Z.of_nat (length ((i, d) :: q)))); [|simpl in *; lia].
    destruct (arm_first_spec s q i d R) as (s' & E & R' & T & A). exists s'. auto.
Qed.

Lemma exec_inv nd k h s q now c b : (k <= 32)%nat -> inv k h s q ->
  (exists j u, pending h j = Some u) -> cb_armed s = Some c -> time_before_or_equal c (w32 now) = true ->
  (forall j u, pending h j = Some u -> close u now) -> (forall i, body_ok k (Ran i now :: h) b) ->
  exists id s' q', timer_execute nd (w32 now) (fun _ => run_body nd b) s = Ok (id, s') /\
    inv k (rev (map request b) ++ Ran id now :: h) s' q'.
Proof.
  intros Hk (R & L & P & A & RO) (j & u & Hj) Hc Ht Hw Hb.
  destruct q as [|[id d] q]; [apply P in Hj; destruct Hj|].
  simpl in A. assert (c = d mod W) as -> by congruence.
  pose proof (proj1 (P id d) ltac:(left; auto)) as Pd.
  unfold w32 in Ht. rewrite time_before_or_equal_spec in Ht by (apply (Hw id); auto). apply Z.leb_le in Ht.
  destruct (rp_arr _ _ R) as (rest & Ea & La).
  unfold timer_execute. rewrite (rp_n _ _ R).
  assert (A1 : c_assert nd (0 <? Z.of_nat (length ((id, d) :: q))) = Ok tt) by (unfold c_assert; destruct nd; reflexivity).
  rewrite A1. cbn [bind]. rewrite Ea. simpl map. simpl app.
  change (get (id :: map fst q ++ rest) 0) with (Ok id : res Z). cbn [bind].
  pose proof (rp_time _ _ R id d ltac:(left; auto)) as G. pose proof (get_range _ _ _ G).
  assert (A2 : (if nd then Ok tt else t <- tcb_time s id;; c_assert nd (time_before_or_equal t (w32 now))) = Ok tt).
  { destruct nd; auto. unfold tcb_time. destruct (Z.eqb_spec id NULLP); [unfold NULLP in *; lia|]. rewrite G. cbn [bind].
    unfold w32. rewrite time_before_or_equal_spec by (apply (Hw id); auto). unfold c_assert.
    destruct (Z.leb_spec d now); auto. lia. }
  rewrite A2. cbn [bind].
  destruct (remove_spec nd s _ id R) as (s1 & -> & R1 & T1 & _); [left; auto|]. cbn [bind].
  pose proof (rp_nodup _ _ R) as ND. simpl map in ND. inversion ND as [|? ? Nid NDq]. subst.
  assert (Q1 : q_remove id ((id, d) :: q) = q).
  { unfold q_remove. simpl. rewrite Z.eqb_refl. simpl. now apply q_remove_id. }
  rewrite Q1 in R1.
  assert (P1 : forall i v, In (i, v) q <-> pending (Ran id now :: h) i = Some v).
  { intros i v. simpl. destruct (Z.eqb_spec id i) as [->|].
    - split; [|discriminate]. intros I. exfalso. apply Nid. apply in_map_iff. now exists (i, v).
    - rewrite <- P. simpl. split; [auto|]. intros [[= ? ?]|]; auto. congruence. }
  assert (RO1 : runs_ok (Ran id now :: h)).
  { simpl. split; auto. exists d. repeat split; auto. intros i v Hi. apply P in Hi.
    pose proof (rp_sorted _ _ R) as So. apply Sorted_StronglySorted in So; [|intros x y z; lia].
    inversion So as [|? ? _ F]. subst. destruct Hi as [[= <- <-]|Hi]; [lia|]. rewrite Forall_forall in F. apply (F _ Hi). }
  destruct (body_inv nd _ b Hk (Ran id now :: h) s1 q R1 ltac:(now rewrite T1) P1 RO1 (Hb id)) as (s2 & q2 & -> & R2 & L2 & P2 & RO2).
  cbn [bind]. destruct (arm_rest s2 q2 R2) as (s3 & -> & R3 & T3 & A3). cbn [bind].
  exists id, s3, q2. split; [reflexivity|]. split; [exact R3|]. split; [rewrite T3; auto|]. split; [exact P2|]. split; auto.
Qed.

Lemma reach_inv nd k h s : (k <= 32)%nat -> reach nd k h s -> exists q, inv k h s q.
Proof.
  intros Hk. induction 1 as [|h s id t s' _ IH Hid Hc E|h s now c b id s' _ IH Hp Hc Ht Hw Hb E].
  - exists []. split; [apply rep_init|]. split; [apply repeat_length|]. split; [|split; exact I].
    intros id u. simpl. split; [tauto|discriminate].
  - destruct IH as [q I]. destruct (sched_inv nd k h s q id t Hk I Hid Hc) as (s2 & E2 & I2).
    rewrite E in E2. injection E2 as <-. eauto.
  - destruct IH as [q I]. destruct (exec_inv nd k h s q now c b Hk I Hp Hc Ht Hw Hb) as (id2 & s2 & q2 & E2 & I2).
    rewrite E in E2. injection E2 as <- <-. eauto.
Qed.
