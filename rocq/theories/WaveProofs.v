Require Import ZArith List Bool Lia.
From Verif Require Import Res Word Arr TimeProofs Outputs Buffers OutputSpec OutputRun OutputProofs BufferProofs RunProofs Wave.
Import ListNotations.
Open Scope Z_scope.
Ltac Zify.zify_post_hook ::= Z.to_euclidean_division_equations.

(** ** Configuration is not changed by steps *)
Definition settings (o : output) : etype * Z * bool := (o_type o, o_pin o, o_inv o).

Lemma map_upd_same {A B} (f : A -> B) l i a a' : nth_error l i = Some a -> f a' = f a -> map f (upd_nat l i a') = map f l.
Proof. revert i. induction l; intros [|i] E H; simpl in *; try discriminate; f_equal; auto. now injection E as ->. Qed.

Lemma each_settings f b os b' os' : each_output f b os = Ok (b', os') -> map settings os' = map settings os.
Proof.
  revert b b' os'. induction os as [|o os IH]; intros b b' os' H; cbn [each_output] in H; [injection H as _ <-; auto|].
  destruct (f b (o_start o)) as [[b1 s]|]; [|discriminate]. cbn [bind] in H.
  destruct (f b1 (o_stop o)) as [[b2 t]|]; [|discriminate]. cbn [bind] in H.
  destruct (each_output f b2 os) as [[b3 r]|] eqn:E; [|discriminate]. cbn [bind] in H. injection H as _ <-.
  simpl. f_equal. eapply IH; eauto.
Qed.

Lemma step_settings nd y a y' : step nd y a = Ok y' -> map settings (y_outs y') = map settings (y_outs y).
Proof.
  intros E. destruct a as [i|i on off|i|i|now]; cbn [step] in E.
  1-4: destruct (upd_output _ _ _) as [os|] eqn:U; [|discriminate]; cbn [bind] in E; injection E as <-;
       apply upd_output_inv in U; destruct U as (o & o' & Eo & E & ->); cbn [y_outs]; eapply map_upd_same; eauto.
  - injection E as <-. reflexivity.
  - injection E as <-. destruct (commit_shape (earliest_schedulable (y_dma y)) o (w32 on) (w32 off)) as (t & _ & _ & _ & T & P & I & _).
    unfold settings. now rewrite T, P, I.
  - destruct (event_has_fired o); [|injection E as <-; auto]. unfold reset_fired_event in E.
    destruct (c_assert nd _); [|discriminate]. cbn [bind] in E. destruct (c_assert nd _); [|discriminate]. cbn [bind] in E. now injection E as <-.
  - destruct (sstate_eqb _ _); [injection E as <-; auto|]. apply deschedule_inv in E. destruct E as [(_ & ->)|(_ & ->)]; reflexivity.
  - destruct (stm32_buffer_swap _ _ _) as [[d os]|] eqn:S; [|discriminate]. cbn [bind] in E. injection E as <-. cbn [y_outs].
    unfold stm32_buffer_swap, retire_output_buffer, populate_output_buffer in S.
    destruct (each_output retire_entry _ _) as [[b1 os1]|] eqn:E1; [|discriminate]. cbn [bind] in S.
    destruct (each_output populate_entry _ _) as [[b2 os2]|] eqn:E2; [|discriminate]. cbn [bind] in S. injection S as _ <-.
    rewrite (each_settings _ _ _ _ _ E2). eapply each_settings; eauto.
Qed.

Lemma nth_settings os os' i o : map settings os' = map settings os -> nth_error os i = Some o ->
  exists o', nth_error os' i = Some o' /\ settings o' = settings o.
Proof.
  intros M E. assert (H : nth_error (map settings os) i = Some (settings o)) by now apply map_nth_error.
  rewrite <- M in H. rewrite nth_error_map in H. destruct (nth_error os' i) as [o'|]; [|discriminate]. exists o'. split; auto. simpl in H. congruence.
Qed.

(** ** A pulse that nobody touches any more, alone on its pin *)
Definition alone (p : Z) (i : nat) (os : list output) : Prop :=
  forall m o, nth_error os m = Some o -> (o_pin o mod 256 = p <-> m = i).

Lemma alone_settings p i os os' : map settings os' = map settings os -> alone p i os -> alone p i os'.
Proof.
  intros M A m o E. destruct (nth_settings os' os m o (eq_sym M) E) as (o' & E' & S). rewrite <- (A m o' E').
  unfold settings in S. replace (o_pin o') with (o_pin o) by congruence. tauto.
Qed.

(** The two edges of output [i] follow their plan. *)
Definition planned (i : nat) (ton toff : Z) (inv : bool) (y : sys) : Prop := exists o, nth_error (y_outs y) i = Some o /\ o_inv o = inv /\
  e_time (o_start o) = w32 ton /\ e_state (o_start o) = due_state (y_n y) ton /\ ton < open_from (y_n y) + 2 ^ 31 /\
  e_time (o_stop o) = w32 toff /\ e_state (o_stop o) = due_state (y_n y) toff /\ toff < open_from (y_n y) + 2 ^ 31.

Lemma step_n nd y a y' : step nd y a = Ok y' -> y_n y' = match a with Swap _ => y_n y + 1 | _ => y_n y end.
Proof.
  intros E. destruct a as [i|i on off|i|i|now]; cbn [step] in E.
  1-4: destruct (upd_output _ _ _) as [os|]; [|discriminate]; cbn [bind] in E; now injection E as <-.
  destruct (stm32_buffer_swap _ _ _) as [[d os]|]; [|discriminate]. cbn [bind] in E. now injection E as <-.
Qed.

Lemma planned_step nd y a y' i ton toff inv : sys_ok y -> legal y a -> step nd y a = Ok y' -> touches i a = false ->
  planned i ton toff inv y -> planned i ton toff inv y'.
Proof.
  intros Y L E T (o & Eo & Hi & T1 & S1 & B1 & T2 & S2 & B2).
  assert (R : run nd y [a] y') by (econstructor; [exact L|exact E|constructor]).
  assert (U : forallb (fun a => negb (touches i a)) [a] = true) by (cbn [forallb]; now rewrite T).
  destruct (follow nd y [a] y' i true o ton R Y U Eo T1 B1 S1) as (o1 & E1 & A1 & A2 & N & _ & I1).
  destruct (follow nd y [a] y' i false o toff R Y U Eo T2 B2 S2) as (o2 & E2 & C1 & C2 & _).
  rewrite E1 in E2. injection E2 as <-. exists o1. simpl in *. unfold open_from in *.
  split; [exact E1|]. split; [congruence|]. split; [exact A1|]. split; [exact A2|]. split; [lia|]. split; [exact C1|]. split; [exact C2|]. lia.
Qed.

Lemma due_submitted n t : due_state n t = SUBMITTED <-> n <= t / 128 <= n + 1.
Proof.
  unfold due_state. destruct (Z.leb_spec (n + 2) (t / 128)); [split; [discriminate|lia]|].
  destruct (Z.leb_spec n (t / 128)); (split; [|]); intros; try discriminate; try lia; auto.
Qed.

Lemma same_tick n t j : n <= t / 128 <= n + 1 -> 0 <= j < 128 -> w32 t = w32 (128 * n + j) -> t = 128 * n + j.
Proof. unfold w32, W. intros. lia. Qed.

(** The bits of the pin in the buffer being played. *)
Lemma block_bits y i p ton toff inv : sys_ok y -> 0 <= p < 16 -> alone p i (y_outs y) -> planned i ton toff inv y ->
  forall j v, 0 <= j < 128 ->
  slot_bit (d_cur (y_dma y)) j p v = ((Bool.eqb v (negb inv) && (128 * y_n y + j =? ton)) || (Bool.eqb v inv && (128 * y_n y + j =? toff))).
Proof.
  intros (B & F) Hp Al (o & Eo & Hi & T1 & S1 & B1 & T2 & S2 & B2) j v Hj.
  apply eq_true_iff_eq. rewrite (bo_bits_cur _ _ _ B j p v Hj Hp).
  rewrite orb_true_iff, !andb_true_iff, !Z.eqb_eq, !eqb_true_iff.
  pose proof (proj1 (Forall_forall _ _) F o (nth_error_In _ _ Eo)) as (_ & Ps & Pt).
  pose proof (proj2 (Al i o Eo) eq_refl) as Po.
  split.
  - intros (e & I & (Es & Et & Ep & Ev)). apply in_flat_map in I. destruct I as (x & Ix & Ie).
    apply In_nth_error in Ix. destruct Ix as [m Em].
    pose proof (proj1 (Forall_forall _ _) F x (nth_error_In _ _ Em)) as (_ & Qs & Qt).
    assert (m = i).
    { apply (Al m x Em). simpl in Ie. destruct Ie as [<-|[<-|[]]].
      - destruct (Qs (or_intror Es)) as [Q _]. congruence.
      - destruct (Qt (or_intror Es)) as [Q _]. congruence. }
    subst m. rewrite Eo in Em. injection Em as <-. simpl in Ie. destruct Ie as [<-|[<-|[]]].
    + left. destruct (Ps (or_intror Es)) as [_ Q]. split; [congruence|].
      rewrite S1 in Es. apply due_submitted in Es. symmetry. apply same_tick; auto. congruence.
    + right. destruct (Pt (or_intror Es)) as [_ Q]. split; [congruence|].
      rewrite S2 in Es. apply due_submitted in Es. symmetry. apply same_tick; auto. congruence.
  - destruct (in_entries _ _ _ Eo) as [I1 I2]. intros [[-> H]|[-> H]].
    + exists (o_start o). split; auto. assert (Es : e_state (o_start o) = SUBMITTED) by (rewrite S1; apply due_submitted; lia).
      destruct (Ps (or_intror Es)) as [Q1 Q2]. unfold edge_at. rewrite Q1, Q2, Po, Hi, T1, H. auto.
    + exists (o_stop o). split; auto. assert (Es : e_state (o_stop o) = SUBMITTED) by (rewrite S2; apply due_submitted; lia).
      destruct (Pt (or_intror Es)) as [Q1 Q2]. unfold edge_at. rewrite Q1, Q2, Po, Hi, T2, H. auto.
Qed.

(** Every tick played: set and clear bits of the pin. *)
Definition tick_bits (p : Z) (inv : bool) (ton toff T : Z) (s : slot) : Prop :=
  Z.testbit (s_on s) p = ((negb inv && (T =? ton)) || (inv && (T =? toff))) /\
  Z.testbit (s_off s) p = ((inv && (T =? ton)) || (negb inv && (T =? toff))).

Lemma played_bits nd y l y' : run nd y l y' -> forall i p ton toff inv, sys_ok y -> 0 <= p < 16 -> alone p i (y_outs y) ->
  planned i ton toff inv y -> forallb (fun a => negb (touches i a)) l = true ->
  Z.of_nat (length (ticks (played nd y l))) = 128 * (y_n y' - y_n y) /\
  forall k s, nth_error (ticks (played nd y l)) k = Some s -> tick_bits p inv ton toff (128 * y_n y + Z.of_nat k) s.
Proof.
  induction 1 as [y|y a y1 l y2 L E R IH]; intros i p ton toff inv Y Hp Al Pl T.
  - split; [cbn [played ticks flat_map length]; lia|]. intros [|k] s; discriminate.
  - cbn [forallb] in T. apply andb_true_iff in T. destruct T as [Ta Tl]. apply negb_true_iff in Ta.
    pose proof (step_ok nd y a y1 Y L E) as Y1.
    pose proof (alone_settings p i _ _ (step_settings nd y a y1 E) Al) as Al1.
    pose proof (planned_step nd y a y1 i ton toff inv Y L E Ta Pl) as Pl1.
    destruct (IH i p ton toff inv Y1 Hp Al1 Pl1 Tl) as [IL IB]. pose proof (step_n nd y a y1 E) as Hn.
    cbn [played]. rewrite E.
    destruct a; try (rewrite Hn in *; now split).
    pose proof (block_bits y i p ton toff inv Y Hp Al Pl) as Bb.
    destruct Y as [B F]. destruct (bo_cur _ _ _ B) as [Wf _]. unfold buf_wf in Wf.
    cbn [ticks flat_map]. fold (ticks (played nd y1 l)). rewrite app_length, Wf. split; [lia|].
    intros k s Hk. destruct (Nat.lt_ge_cases k 128) as [Lk|Gk].
    + rewrite nth_error_app1 in Hk by lia.
      assert (G : get (b_slots (d_cur (y_dma y))) (Z.of_nat k) = Ok s).
      { unfold get. destruct (Z.ltb_spec (Z.of_nat k) 0); [lia|]. rewrite Nat2Z.id, Hk. reflexivity. }
      assert (B1 := Bb (Z.of_nat k) true ltac:(lia)). assert (B2 := Bb (Z.of_nat k) false ltac:(lia)).
      unfold slot_bit in B1, B2. rewrite G in B1, B2. unfold tick_bits. rewrite B1, B2.
      destruct inv; cbn [negb Bool.eqb andb orb]; rewrite ?orb_false_r; auto.
    + rewrite nth_error_app2 in Hk by lia. rewrite Wf in Hk. apply IB in Hk.
      replace (128 * y_n y + Z.of_nat k) with (128 * y_n y1 + Z.of_nat (k - 128)) by lia. exact Hk.
Qed.

(** ** The level *)
Lemma fold_pulse p inv ton toff : forall ss t0 lvl, ton < toff ->
  (forall k s, nth_error ss k = Some s -> tick_bits p inv ton toff (t0 + Z.of_nat k) s) ->
  lvl = (if (ton <=? t0 - 1) && (t0 - 1 <? toff) then negb inv else inv) ->
  fold_left (play_slot p) ss lvl = (let T := t0 - 1 + Z.of_nat (length ss) in if (ton <=? T) && (T <? toff) then negb inv else inv).
Proof.
  induction ss as [|s ss IH]; intros t0 lvl H Hb Hl.
  - cbn [fold_left length]. rewrite Z.add_0_r. exact Hl.
  - cbn [fold_left]. rewrite (IH (t0 + 1)); auto.
    + cbn [length]. cbv zeta. replace (t0 - 1 + Z.of_nat (S (length ss))) with (t0 + 1 - 1 + Z.of_nat (length ss)) by lia. reflexivity.
    + intros k s' Hk. specialize (Hb (S k) s' Hk). replace (t0 + 1 + Z.of_nat k) with (t0 + Z.of_nat (S k)) by lia. exact Hb.
    + destruct (Hb 0%nat s eq_refl) as [B1 B2]. unfold play_slot. rewrite B1, B2, Hl. replace (t0 + Z.of_nat 0) with t0 by lia.
      replace (t0 + 1 - 1) with t0 by lia. clear - H.
      destruct (Z.leb_spec ton (t0 - 1)), (Z.ltb_spec (t0 - 1) toff), (Z.leb_spec ton t0), (Z.ltb_spec t0 toff),
        (Z.eqb_spec t0 ton), (Z.eqb_spec t0 toff); try lia; destruct inv; reflexivity.
Qed.

(** Both edges at the same tick: the pin is set there and never cleared. *)
Lemma fold_zero p ton : forall ss t0 lvl,
  (forall k s, nth_error ss k = Some s -> tick_bits p false ton ton (t0 + Z.of_nat k) s) ->
  lvl = (ton <=? t0 - 1) ->
  fold_left (play_slot p) ss lvl = (ton <=? t0 - 1 + Z.of_nat (length ss)).
Proof.
  induction ss as [|s ss IH]; intros t0 lvl Hb Hl.
  - cbn [fold_left length]. rewrite Z.add_0_r. exact Hl.
  - cbn [fold_left]. rewrite (IH (t0 + 1)); auto.
    + cbn [length]. f_equal. lia.
    + intros k s' Hk. specialize (Hb (S k) s' Hk). replace (t0 + 1 + Z.of_nat k) with (t0 + Z.of_nat (S k)) by lia. exact Hb.
    + destruct (Hb 0%nat s eq_refl) as [B1 B2]. unfold play_slot. rewrite B1, B2, Hl. replace (t0 + Z.of_nat 0) with t0 by lia.
      replace (t0 + 1 - 1) with t0 by lia. clear.
      destruct (Z.leb_spec ton (t0 - 1)), (Z.leb_spec ton t0), (Z.eqb_spec t0 ton); try lia; reflexivity.
Qed.

Lemma nth_firstn {A} (l : list A) n k x : nth_error (firstn n l) k = Some x -> nth_error l k = Some x.
Proof. revert n k. induction l; intros [|n] [|k] H; simpl in *; try discriminate; eauto. Qed.
