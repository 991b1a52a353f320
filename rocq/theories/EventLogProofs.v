(** The ring refines a bounded queue of numbered events. *)
Require Import ZArith List Bool Lia.
From Verif Require Import Res Word Arr EventLog EventLogSpec DecoderProofs.
Import ListNotations.
Open Scope Z_scope.
Ltac Zify.zify_post_hook ::= idtac.

Definition nx (i : nat) : nat := if Nat.eqb i 31 then 0%nat else S i.
Fixpoint nxs (k i : nat) : nat := match k with O => i | S k => nxs k (nx i) end.

Lemma nx_lt i : (i < 32)%nat -> (nx i < 32)%nat.
Proof. unfold nx. destruct (Nat.eqb_spec i 31); lia. Qed.

Lemma nxs_add i k : (i < 32)%nat -> (k < 32)%nat -> nxs k i = if Nat.leb 32 (i + k) then (i + k - 32)%nat else (i + k)%nat.
Proof.
  revert i. induction k as [|k IH]; intros i Hi Hk; cbn [nxs].
  - destruct (Nat.leb_spec 32 (i + 0)); lia.
  - rewrite IH by (try apply nx_lt; lia). unfold nx.
    destruct (Nat.eqb_spec i 31); subst; [cbn [Nat.add]|];
      repeat match goal with |- context [Nat.leb ?a ?b] => destruct (Nat.leb_spec a b) end; lia.
Qed.

Lemma next_nx i : (i < 32)%nat -> event_log_next_idx (Z.of_nat i) = Z.of_nat (nx i).
Proof.
  intros. unfold event_log_next_idx, EVENT_LOG_SIZE, nx, w32, W. rewrite Z.mod_small by lia.
  destruct (Z.leb_spec 32 (Z.of_nat i + 1)), (Nat.eqb_spec i 31); lia.
Qed.

(** The entries from [r] on hold the queue. *)
Definition holds (evs : list logged) (r : nat) (q : list logged) : Prop :=
  forall k e, nth_error q k = Some e -> nth_error evs (nxs k r) = Some e.

(** The log holds the queue [q] of pending events and has numbered [n] events. *)
Definition log_inv (on : bool) (l : elog) (n : nat) (q : list logged) (r : nat) : Prop :=
  el_enabled l = on /\ (r < 32)%nat /\ el_read l = Z.of_nat r /\
  el_write l = Z.of_nat (nxs (length q) r) /\ (length q <= 31)%nat /\
  el_seq l = Z.of_nat n mod 2 ^ 32 /\ length (el_events l) = 32%nat /\
  holds (el_events l) r q.

(** Where the reader is, given the pending queue. *)
Definition reader_inv (p : rpc) (q : list logged) (r : nat) : Prop :=
  match p with
  | RIdle | RRet _ => True
  | RReadPos x => x = Z.of_nat r
  | RWritePos x w | RTest x w => x = Z.of_nat r /\ exists k, (k <= length q)%nat /\ w = Z.of_nat (nxs k r)
  | RCopy0 x => x = Z.of_nat r /\ q <> []
  | RCopy1 x t => x = Z.of_nat r /\ exists e q', q = e :: q' /\ t = lg_time e
  | RCopy2 x t s => x = Z.of_nat r /\ exists e q', q = e :: q' /\ t = lg_time e /\ s = lg_seq e
  | RCopy3 x t s k => x = Z.of_nat r /\ exists e q', q = e :: q' /\ t = lg_time e /\ s = lg_seq e /\ k = lg_type e
  | RCopy4 x e => x = Z.of_nat r /\ exists q', q = e :: q'
  end.

Definition with_seq (e : logged) (s : Z) : logged := Logged (lg_time e) s (lg_type e) (lg_value e).

Lemma record_step ev l n q r : log_inv true l n q r ->
  exists l', console_record_event ev l = Ok l' /\
    log_inv true l' (S n) (if Nat.eqb (length q) 31 then q else q ++ [with_seq ev (Z.of_nat n mod 2 ^ 32)]) r.
Proof.
  intros (He & Hr & Hrd & Hwr & Hq & Hs & Hlen & Hh). unfold console_record_event. rewrite He. cbn [negb el_read el_write el_enabled el_seq el_events].
  assert (Hw : (nxs (length q) r < 32)%nat).
  { rewrite nxs_add by lia. destruct (Nat.leb_spec 32 (r + length q)); lia. }
  rewrite Hwr, next_nx, Hrd by auto.
  assert (Hseq : w32 (el_seq l + 1) = Z.of_nat (S n) mod 2 ^ 32).
  { rewrite Hs. unfold w32, W. change (2 ^ 32) with 4294967296. rewrite Nat2Z.inj_succ, Zplus_mod_idemp_l. f_equal. }
  assert (Hfull : (Z.of_nat (nx (nxs (length q) r)) =? Z.of_nat r) = Nat.eqb (length q) 31).
  { rewrite nxs_add by lia. unfold nx.
    destruct (Nat.leb_spec 32 (r + length q)), (Nat.eqb_spec (length q) 31);
      match goal with |- context [Nat.eqb ?a 31] => destruct (Nat.eqb_spec a 31) end; apply Z.eqb_eq || apply Z.eqb_neq; lia. }
  rewrite Hfull. destruct (Nat.eqb_spec (length q) 31) as [E|E]; cbn [negb].
  - eexists. split; [reflexivity|]. unfold log_inv. cbn [el_enabled el_read el_write el_seq el_events].
    rewrite Hseq. repeat (split; [auto; fail|]). auto.
  - rewrite put_ok by lia. cbn [bind].
    rewrite get_upd by lia. rewrite Z.eqb_refl. cbn [bind].
    rewrite put_ok by (rewrite upd_nat_length; lia). cbn [bind].
    eexists. split; [reflexivity|]. unfold log_inv. cbn [el_enabled el_read el_write el_seq el_events].
    rewrite !upd_nat_length, app_length, Nat2Z.id. cbn [length].
    split; [auto|]. split; [auto|]. split; [auto|]. split.
    { f_equal. rewrite !nxs_add by lia. unfold nx. destruct (Nat.leb_spec 32 (r + length q)), (Nat.leb_spec 32 (r + (length q + 1)));
        match goal with |- context [Nat.eqb ?a 31] => destruct (Nat.eqb_spec a 31) end; lia. }
    split; [lia|]. split; [auto|]. split; [auto|].
    intros k e Hk. rewrite nth_error_upd by (rewrite upd_nat_length; lia).
    rewrite nth_error_upd by lia.
    destruct (Nat.eqb_spec (nxs (length q) r) (nxs k r)) as [Ek|Ek].
    + assert (Hk' : (k < length q + 1)%nat) by (apply (f_equal (fun o => match o with Some _ => true | None => false end)) in Hk as Hk2;
        destruct (nth_error (q ++ [with_seq ev (Z.of_nat n mod 2 ^ 32)]) k) eqn:Ex; [|discriminate];
        assert (k < length (q ++ [with_seq ev (Z.of_nat n mod 2 ^ 32)]))%nat by (apply nth_error_Some; congruence);
        rewrite app_length in *; cbn [length] in *; lia).
      rewrite !nxs_add in Ek by lia.
      assert (k = length q) by (revert Ek; destruct (Nat.leb_spec 32 (r + length q)), (Nat.leb_spec 32 (r + k)); lia).
      subst k. rewrite nth_error_app2, Nat.sub_diag in Hk by lia. cbn in Hk. injection Hk as <-.
      unfold with_seq. now rewrite Hs.
    + apply Hh. destruct (Nat.lt_ge_cases k (length q)) as [Hl|Hl].
      * now rewrite nth_error_app1 in Hk by auto.
      * exfalso. apply Ek. f_equal.
        assert (k < length (q ++ [with_seq ev (Z.of_nat n mod 2 ^ 32)]))%nat by (apply nth_error_Some; congruence).
        rewrite app_length in *. cbn [length] in *. lia.
Qed.

Lemma reader_grow p q r x : reader_inv p q r -> reader_inv p (q ++ x) r.
Proof.
  destruct p; cbn [reader_inv]; auto.
  - intros (A & k & B & C). split; auto. exists k. rewrite app_length. split; [lia|auto].
  - intros (A & k & B & C). split; auto. exists k. rewrite app_length. split; [lia|auto].
  - intros (A & B). split; auto. destruct q; [congruence|discriminate].
  - intros (A & e & q' & -> & B). split; auto. exists e, (q' ++ x). auto.
  - intros (A & e & q' & -> & B). split; auto. exists e, (q' ++ x). auto.
  - intros (A & e & q' & -> & B). split; auto. exists e, (q' ++ x). auto.
  - intros (A & q' & ->). split; auto. exists (q' ++ x). auto.
Qed.

Lemma head_get evs r e q : (r < 32)%nat -> holds evs r (e :: q) -> get evs (Z.of_nat r) = Ok e.
Proof. intros Hr H. apply get_of_nat. exact (H 0%nat e eq_refl). Qed.

Lemma read_step on p l n q r : log_inv on l n q r -> reader_inv p q r ->
  exists p' l', reader_step p l = Ok (p', l') /\
    match p with
    | RCopy4 _ e => exists q', q = e :: q' /\ log_inv on l' n q' (nx r) /\ reader_inv p' q' (nx r)
    | _ => l' = l /\ reader_inv p' q r
    end.
Proof.
  intros Hl Hp. pose proof Hl as (He & Hr & Hrd & Hwr & Hq & Hs & Hlen & Hh).
  destruct p; cbn [reader_step]; cbn [reader_inv] in Hp.
  - eexists _, _. split; [reflexivity|]. split; [reflexivity|]. exact Hrd.
  - eexists _, _. split; [reflexivity|]. split; [reflexivity|]. split; [exact Hp|]. exists (length q). split; [lia|exact Hwr].
  - eexists _, _. split; [reflexivity|]. split; [reflexivity|]. destruct (negb (el_enabled l)); [exact I|exact Hp].
  - destruct Hp as (Hx & k & Hk & Hw). eexists _, _. split; [reflexivity|]. split; [reflexivity|].
    destruct (Z.eqb_spec r0 w); [exact I|]. split; [auto|]. intros ->. apply n0. subst. cbn [length] in Hk.
    assert (k = 0)%nat as -> by lia. reflexivity.
  - destruct Hp as (-> & Hne). destruct q as [|e q]; [congruence|].
    rewrite (head_get _ _ _ _ Hr Hh). cbn [bind]. eexists _, _. split; [reflexivity|]. split; [reflexivity|].
    split; [auto|]. exists e, q. auto.
  - destruct Hp as (-> & e & q' & -> & ->).
    rewrite (head_get _ _ _ _ Hr Hh). cbn [bind]. eexists _, _. split; [reflexivity|]. split; [reflexivity|].
    split; [auto|]. exists e, q'. auto.
  - destruct Hp as (-> & e & q' & -> & -> & ->).
    rewrite (head_get _ _ _ _ Hr Hh). cbn [bind]. eexists _, _. split; [reflexivity|]. split; [reflexivity|].
    split; [auto|]. exists e, q'. auto.
  - destruct Hp as (-> & e & q' & -> & -> & -> & ->).
    rewrite (head_get _ _ _ _ Hr Hh). cbn [bind]. eexists _, _. split; [reflexivity|]. split; [reflexivity|].
    split; [auto|]. exists q'. destruct e; auto.
  - destruct Hp as (-> & q' & ->). eexists _, _. split; [reflexivity|].
    exists q'. split; [reflexivity|]. split; [|exact I].
    cbn [length] in *. rewrite next_nx by auto. unfold log_inv. cbn [el_enabled el_read el_write el_seq el_events].
    split; [auto|]. split; [apply nx_lt; auto|]. split; [auto|]. split; [exact Hwr|]. split; [lia|]. split; [auto|]. split; [auto|].
    intros k e' Hk. exact (Hh (S k) e' Hk).
  - eexists _, _. split; [reflexivity|]. split; [reflexivity|]. exact I.
Qed.

Lemma record_off ev l n q r : log_inv false l n q r -> console_record_event ev l = Ok l.
Proof. intros (He & _). unfold console_record_event. now rewrite He. Qed.

Lemma switch_step on b p l n q r : log_inv on l n q r -> p = RIdle -> log_inv b (set_logging p b l) n q r.
Proof. intros (He & H) ->. exact (conj eq_refl H). Qed.

Lemma run_spec acts : forall on p l n q r, log_inv on l n q r -> reader_inv p q r ->
  exists p' l' h, log_run acts p l = Ok (p', l', h) /\
    exists rest, q ++ map numbered (kept on n (length q) h) = received h ++ rest /\
      (exists r', log_inv (logging on h) l' (n + length (recorded on h)) rest r' /\ reader_inv p' rest r').
Proof.
  induction acts as [|[ev| |b] acts IH]; intros on p l n q r Hl Hp; cbn [log_run].
  - eexists _, _, _. split; [reflexivity|]. exists q. cbn. split; [now rewrite app_nil_r|].
    exists r. rewrite Nat.add_0_r. auto.
  - destruct on.
    + destruct (record_step ev l n q r Hl) as (l1 & E1 & Hl1). rewrite E1. cbn [bind].
      assert (Hp1 : reader_inv p (if Nat.eqb (length q) 31 then q else q ++ [with_seq ev (Z.of_nat n mod 2 ^ 32)]) r).
      { destruct (Nat.eqb (length q) 31); auto using reader_grow. }
      destruct (IH true p l1 (S n) _ r Hl1 Hp1) as (p' & l' & h & E & rest & Heq & r' & Hl' & Hp').
      rewrite E. cbn [bind]. eexists _, _, _. split; [reflexivity|]. exists rest. cbn [kept received recorded length logging].
      split.
      * change CAPACITY with 31%nat. destruct (Nat.eqb (length q) 31); auto.
        cbn [map]. rewrite app_length in Heq. cbn [length] in Heq. rewrite Nat.add_1_r, <- app_assoc in Heq. exact Heq.
      * exists r'. replace (n + S (length (recorded true h)))%nat with (S n + length (recorded true h))%nat by lia. auto.
    + rewrite (record_off ev l n q r Hl). cbn [bind].
      destruct (IH false p l n q r Hl Hp) as (p' & l' & h & E & rest & Heq & r' & Hl' & Hp').
      rewrite E. cbn [bind]. eexists _, _, _. split; [reflexivity|]. exists rest. cbn [kept received recorded logging]. eauto.
  - destruct (read_step on p l n q r Hl Hp) as (p1 & l1 & E1 & H1). rewrite E1. cbn [bind].
    assert (Hc : (exists x e q', p = RCopy4 x e /\ q = e :: q' /\ log_inv on l1 n q' (nx r) /\ reader_inv p1 q' (nx r)) \/
                 ((forall h : list lobs, match p with RCopy4 _ e => Received e :: h | _ => h end = h) /\ l1 = l /\ reader_inv p1 q r)).
    { destruct p; try (right; destruct H1; split; [reflexivity|auto]; fail).
      left. destruct H1 as (q' & A & B & C). eauto 10. }
    destruct Hc as [(x & e & q' & -> & -> & Hl1 & Hp1) | (Hobs & -> & Hp1)].
    + destruct (IH on p1 l1 n q' (nx r) Hl1 Hp1) as (p' & l' & h & E & rest & Heq & r' & Hl' & Hp').
      rewrite E. cbn [bind]. eexists _, _, _. split; [reflexivity|]. exists rest. cbn [kept received recorded logging length pred app].
      split; [now rewrite Heq|]. eauto.
    + destruct (IH on p1 l n q r Hl Hp1) as (p' & l' & h & E & rest & Heq & r' & Hl' & Hp').
      rewrite E. cbn [bind]. eexists _, _, _. split; [reflexivity|]. rewrite Hobs. exists rest. eauto.
  - assert (Hc : p = RIdle \/ ((forall h : list lobs, match p with RIdle => Switched b :: h | _ => h end = h) /\ set_logging p b l = l)).
    { destruct p; auto; right; split; reflexivity. }
    destruct Hc as [->|[Hobs ->]].
    + destruct (IH b RIdle _ n q r (switch_step on b RIdle l n q r Hl eq_refl) Hp) as (p' & l' & h & E & rest & Heq & r' & Hl' & Hp').
      rewrite E. cbn [bind]. eexists _, _, _. split; [reflexivity|]. exists rest. cbn [kept received recorded logging]. eauto.
    + destruct (IH on p l n q r Hl Hp) as (p' & l' & h & E & rest & Heq & r' & Hl' & Hp').
      rewrite E. cbn [bind]. eexists _, _, _. split; [reflexivity|]. rewrite Hobs. exists rest. eauto.
Qed.

Lemma log_inv_init : log_inv true elog_init 0 [] 0.
Proof.
  unfold log_inv, elog_init. cbn [el_enabled el_read el_write el_seq el_events length].
  split; [auto|]. split; [lia|]. split; [auto|]. split; [auto|]. split; [lia|]. split; [reflexivity|]. split; [reflexivity|].
  intros [|k] e H; discriminate.
Qed.
