(** Proofs about the capture handlers. *)
Require Import ZArith List Bool Lia Sorting.Sorted.
From Verif Require Import Word Decoder Captures CaptureSpec.
Import ListNotations.
Open Scope Z_scope.
Ltac Zify.zify_post_hook ::= idtac.

(** ** One channel *)
Definition cap_w (c : chan) (t : Z) : chan := Chan true t (ch_over c || ch_flag c).

Lemma input_arrive i es : forall h, input i (arrive h es) = fold_left cap_w (times_on i es) (input i h).
Proof.
  induction es as [|[j t] es IH]; intros h; [reflexivity|].
  cbn [arrive fold_left]. fold (arrive (on_input (fst (j, t)) (fun c => capture c (snd (j, t))) h) es).
  rewrite IH. cbn [fst snd]. unfold times_on at 2. cbn [flat_map fst snd].
  fold (times_on i es). destruct i, j; cbn [Bool.eqb app fold_left on_input input fst snd]; reflexivity.
Qed.

Lemma caps_flag l : forall c, ch_flag (fold_left cap_w l c) = (ch_flag c || negb (length l =? 0)%nat).
Proof.
  induction l as [|t l IH]; intros c; cbn [fold_left length].
  - cbn. now rewrite orb_false_r.
  - rewrite IH. cbn. now rewrite orb_true_r.
Qed.
Lemma caps_over l : forall c, ch_over (fold_left cap_w l c) =
  (ch_over c || (if ch_flag c then negb (length l =? 0)%nat else (1 <? length l)%nat)).
Proof.
  induction l as [|t l IH]; intros c; cbn [fold_left length].
  - destruct (ch_flag c); cbn; now rewrite orb_false_r.
  - rewrite IH. cbn [cap_w ch_over ch_flag]. destruct l; cbn [length]; destruct (ch_flag c), (ch_over c); reflexivity.
Qed.

(** ** Quiet rounds *)
Definition idle (h : chans) : Prop := forall i, ch_flag (input i h) = false /\ ch_over (input i h) = false.
Definition unflagged (h : chans) : Prop := forall i, ch_flag (input i h) = false.

Lemma one_each_cases es : one_each es -> in_order es ->
  es = [] \/ (exists a, es = [a]) \/ exists i a b, es = [(i, a); (negb i, b)] /\ (a < b \/ a = b /\ i = false).
Proof.
  intros H O. destruct es as [|[i a] es]; [auto|]. right. destruct es as [|[j b] es]; [eauto|]. right.
  assert (J : j = negb i).
  { specialize (H i). unfold times_on in H. cbn [flat_map fst snd] in H. rewrite Bool.eqb_reflx in H.
    destruct i, j; cbn in H; auto; rewrite ?app_length in H; cbn in H; lia. }
  subst j. destruct es as [|[k c] es].
  - exists i, a, b. split; [reflexivity|]. inversion O as [|? ? _ F]; subst. rewrite Forall_forall in F.
    destruct (F (negb i, b) ltac:(left; reflexivity)) as [L|(E & F0 & _)]; cbn [fst snd] in *; [auto|]. right. auto.
  - exfalso. pose proof (H i) as H1. pose proof (H (negb i)) as H2. unfold times_on in *. cbn [flat_map fst snd] in *.
    rewrite Bool.eqb_reflx in *. destruct i, k; cbn in *; rewrite ?app_length in *; cbn in *; lia.
Qed.

Lemma before_true a b : a < b -> b - a < 2 ^ 31 -> time_before (w32 a) (w32 b) = true.
Proof.
  intros L B. unfold time_before, w32. rewrite <- Zminus_mod. apply Z.ltb_lt. unfold s32.
  replace ((a - b) mod W) with (W + (a - b)).
  - change (2 ^ 31) with HALF in B. unfold W, HALF in *. destruct (Z.ltb_spec (4294967296 + (a - b)) 2147483648); lia.
  - change (2 ^ 31) with HALF in B. unfold W, HALF in *.
    replace (a - b) with ((4294967296 + (a - b)) + (-1) * 4294967296) at 2 by lia.
    rewrite Z.mod_add by lia. rewrite Z.mod_small; lia.
Qed.
Lemma before_false a b : a <= b -> b - a < 2 ^ 31 -> time_before (w32 b) (w32 a) = false.
Proof.
  intros L B. unfold time_before, w32. rewrite <- Zminus_mod. apply Z.ltb_ge. unfold s32.
  change (2 ^ 31) with HALF in B. rewrite Z.mod_small by (unfold W, HALF in *; lia).
  unfold W, HALF in *. destruct (Z.ltb_spec (b - a) 2147483648); lia.
Qed.

Lemma deliver_ordered i a b : (a < b \/ a = b /\ i = false) -> b - a < 2 ^ 31 ->
  deliver (if i then Some (w32 b) else Some (w32 a)) (if i then Some (w32 a) else Some (w32 b)) =
  as_triggers [(i, a); (negb i, b)].
Proof.
  intros H B. destruct i; cbn [deliver as_triggers map fst snd negb input_no].
  - destruct H as [H|[_ H]]; [|discriminate]. now rewrite before_true by lia.
  - rewrite before_false; [reflexivity|lia|lia].
Qed.

Lemma arrive_nil h : arrive h [] = h.
Proof. reflexivity. Qed.

Lemma gd32_quiet g h : quiet g -> gd32_isr g h =
  ((Chan false (ch_value (fst h)) (ch_over (fst h)), Chan false (ch_value (snd h)) (ch_over (snd h))),
   deliver (if ch_flag (fst h) then Some (ch_value (fst h)) else None) (if ch_flag (snd h) then Some (ch_value (snd h)) else None)).
Proof.
  intros Q. unfold gd32_isr, gd32_take. rewrite !Q, !arrive_nil. destruct h as [[f0 v0 o0] [f1 v1 o1]].
  destruct f0, f1; cbn; reflexivity.
Qed.

Lemma stm32_quiet g h : quiet g -> stm32_isr g h =
  ((Chan false (ch_value (fst h)) false, Chan false (ch_value (snd h)) false),
   if ch_over (fst h) || ch_over (snd h) then [Desync OVERFLOW] else
   deliver (if ch_flag (fst h) then Some (ch_value (fst h)) else None) (if ch_flag (snd h) then Some (ch_value (snd h)) else None)).
Proof.
  intros Q. unfold stm32_isr, stm32_take. rewrite !Q, !arrive_nil. destruct h as [[f0 v0 o0] [f1 v1 o1]].
  destruct f0, f1, o0, o1; cbn; reflexivity.
Qed.

(** The captures after one edge per input. *)
Lemma deliver_round h es : unflagged h -> one_each es -> in_order es -> close es ->
  let h' := arrive h es in
  deliver (if ch_flag (fst h') then Some (ch_value (fst h')) else None) (if ch_flag (snd h') then Some (ch_value (snd h')) else None)
  = as_triggers es.
Proof.
  intros U O S C. destruct h as [[f0 v0 o0] [f1 v1 o1]]. pose proof (U false) as U0. pose proof (U true) as U1.
  cbn in U0, U1. subst f0 f1. destruct (one_each_cases es O S) as [->|[([i a] & ->)|(i & a & b & -> & H)]].
  - reflexivity.
  - destruct i; reflexivity.
  - specialize (C (negb i, b) (i, a) ltac:(right; left; reflexivity) ltac:(left; reflexivity)). cbn [snd] in C.
    rewrite <- deliver_ordered by auto. destruct i; reflexivity.
Qed.

Lemma overrun_iff h es : idle h ->
  (ch_over (fst (arrive h es)) || ch_over (snd (arrive h es)) = false <-> one_each es).
Proof.
  intros I. rewrite orb_false_iff.
  change (fst (arrive h es)) with (input false (arrive h es)). change (snd (arrive h es)) with (input true (arrive h es)).
  rewrite !input_arrive, !caps_over.
  destruct (I false) as [-> ->], (I true) as [-> ->]. cbn [orb]. rewrite !Nat.ltb_ge.
  split; [intros [A B] [|]; auto|intros H; split; apply H].
Qed.

Lemma unflagged_false v0 v1 o0 o1 : unflagged (Chan false v0 o0, Chan false v1 o1).
Proof. intros [|]; reflexivity. Qed.
Lemma idle_false v0 v1 : idle (Chan false v0 false, Chan false v1 false).
Proof. intros [|]; split; reflexivity. Qed.

Lemma gd32_rounds l : forall h, unflagged h ->
  (forall r, In r l -> quiet (snd r) /\ one_each (fst r) /\ in_order (fst r) /\ close (fst r)) ->
  exists h', rounds gd32_isr h l = (h', as_triggers (flat_map fst l)) /\ unflagged h'.
Proof.
  induction l as [|[es g] l IH]; intros h U H; cbn [rounds flat_map].
  - exists h. auto.
  - destruct (H (es, g) (or_introl eq_refl)) as (Q & O & S & C). cbn [fst snd] in *.
    rewrite gd32_quiet by exact Q. pose proof (deliver_round h es U O S C) as E. cbn zeta in E. rewrite E.
    destruct (IH (Chan false (ch_value (fst (arrive h es))) (ch_over (fst (arrive h es))),
                  Chan false (ch_value (snd (arrive h es))) (ch_over (snd (arrive h es)))))
      as (h' & E' & U'); [apply unflagged_false|intros r Hr; apply H; right; exact Hr|].
    rewrite E'. exists h'. split; [|exact U']. unfold as_triggers. now rewrite map_app.
Qed.

(** ** Any interleaving: each input's triggers are a subsequence of its edges *)
Lemma sub_refl {A} (l : list A) : subsequence l l.
Proof. induction l as [|a l IH]; [apply sub_nil|apply sub_take, IH]. Qed.
Lemma sub_app {A} (l l' m m' : list A) : subsequence l m -> subsequence l' m' -> subsequence (l ++ l') (m ++ m').
Proof. induction 1; cbn [app]; intros; [auto|apply sub_skip; auto|apply sub_take; auto]. Qed.
Lemma sub_app_l {A} (l m m' : list A) : subsequence l m -> subsequence l (m ++ m').
Proof.
  intros H. rewrite <- (app_nil_r l). apply sub_app; [exact H|]. clear. induction m'; constructor; auto.
Qed.
Lemma sub_trans {A} (m n : list A) : subsequence m n -> forall l, subsequence l m -> subsequence l n.
Proof.
  induction 1 as [|a m n H IH|a m n H IH]; intros l L; [exact L|apply sub_skip; auto|].
  inversion L as [|? ? ? L'|? ? ? L' E]; subst; [apply sub_skip; auto|apply sub_take; auto].
Qed.
Lemma sub_none {A} (m : list A) : subsequence [] m.
Proof. induction m; constructor; auto. Qed.
Lemma sub_mid {A} (l x y m : list A) : subsequence (l ++ x ++ y) m -> subsequence (l ++ y) m.
Proof.
  intros H. apply (sub_trans _ _ H). apply sub_app; [apply sub_refl|].
  apply (sub_app [] y x y); [apply sub_none|apply sub_refl].
Qed.
Lemma sub_drop {A} (l x m : list A) : subsequence (l ++ x) m -> subsequence l m.
Proof. intros H. rewrite <- (app_nil_r l). apply (sub_mid l x []). now rewrite app_nil_r. Qed.

Lemma times_app i a b : times_on i (a ++ b) = times_on i a ++ times_on i b.
Proof. apply flat_map_app. Qed.
Lemma trig_app i a b : triggers_on i (a ++ b) = triggers_on i a ++ triggers_on i b.
Proof. apply flat_map_app. Qed.

Definition pending (c : chan) : list Z := if ch_flag c then [ch_value c] else [].
(** [d] has been delivered for a channel, [s] has been seen. *)
Definition tracks (d : list Z) (c : chan) (s : list Z) : Prop := subsequence (d ++ pending c) s.

Lemma caps_track d l : forall c s, tracks d c s -> tracks d (fold_left cap_w l c) (s ++ l).
Proof.
  induction l as [|t l IH]; intros c s H; cbn [fold_left].
  - now rewrite app_nil_r.
  - replace (s ++ t :: l) with ((s ++ [t]) ++ l) by now rewrite <- app_assoc. apply IH.
    unfold tracks in *. cbn [pending cap_w ch_flag ch_value]. apply sub_app; [|apply sub_refl]. apply (sub_drop _ _ _ H).
Qed.

Definition htracks (d0 d1 : list Z) (h : chans) (s : list edge) : Prop :=
  tracks d0 (fst h) (times_on false s) /\ tracks d1 (snd h) (times_on true s).

Lemma arrive_track d0 d1 h s es : htracks d0 d1 h s -> htracks d0 d1 (arrive h es) (s ++ es).
Proof.
  intros [A B]. split.
  - change (fst (arrive h es)) with (input false (arrive h es)). rewrite input_arrive, times_app. now apply caps_track.
  - change (snd (arrive h es)) with (input true (arrive h es)). rewrite input_arrive, times_app. now apply caps_track.
Qed.

Definition opt (o : option Z) : list Z := match o with Some t => [t] | None => [] end.

Lemma on_false f h : on_input false f h = (f (fst h), snd h). Proof. reflexivity. Qed.
Lemma on_true f h : on_input true f h = (fst h, f (snd h)). Proof. reflexivity. Qed.

Lemma take_track c d s : tracks d c s -> forall b, ch_flag c = b -> tracks (d ++ (if b then [ch_value c] else [])) (Chan false (ch_value c) (ch_over c)) s.
Proof.
  unfold tracks, pending. intros H b <-. cbn [ch_flag]. rewrite app_nil_r. exact H.
Qed.

Lemma gd32_take_track i g h h' o d0 d1 s : htracks d0 d1 h s -> gd32_take i g h = (h', o) ->
  if i then htracks d0 (d1 ++ opt o) h' (s ++ g) else htracks (d0 ++ opt o) d1 h' (s ++ g).
Proof.
  intros H. unfold gd32_take. pose proof (arrive_track _ _ _ _ g H) as [A B].
  assert (M : forall i, ch_flag (input i h) = true -> ch_flag (input i (arrive h g)) = true).
  { intros j E. rewrite input_arrive, caps_flag, E. reflexivity. }
  destruct (ch_flag (input i h)) eqn:E.
  - unfold read_value. intros X. injection X as <- <-. destruct i.
    + rewrite on_true. split; [exact A|]. cbn [snd opt]. apply (take_track _ _ _ B true). apply (M true E).
    + rewrite on_false. split; [|exact B]. cbn [fst opt]. apply (take_track _ _ _ A true). apply (M false E).
  - intros X. injection X as <- <-. cbn [opt]. rewrite !app_nil_r. destruct i; split; assumption.
Qed.

Lemma drop_flag d c s : tracks d c s -> tracks d (Chan false (ch_value c) (ch_over c)) s.
Proof. unfold tracks, pending. cbn [ch_flag]. rewrite app_nil_r. apply sub_drop. Qed.
Lemma set_over d c s b : tracks d c s -> tracks d (Chan (ch_flag c) (ch_value c) b) s.
Proof. auto. Qed.

Lemma stm32_take_track i g1 g2 h h' o d0 d1 s : htracks d0 d1 h s -> stm32_take i g1 g2 h = (h', o) ->
  if i then htracks d0 (d1 ++ opt o) h' (s ++ g1 ++ g2) else htracks (d0 ++ opt o) d1 h' (s ++ g1 ++ g2).
Proof.
  intros H. rewrite app_assoc.
  destruct (gd32_take i g1 h) as [h1 o1] eqn:E1. pose proof (gd32_take_track _ _ _ _ _ _ _ _ H E1) as T.
  unfold stm32_take. unfold gd32_take in E1. destruct (ch_flag (input i h)) eqn:E.
  - destruct (read_value i (arrive h g1)) as [h2 v]. injection E1 as <- <-. intros X. injection X as <- <-. cbn [opt] in *.
    destruct i; apply (arrive_track _ _ _ _ g2) in T; destruct T as [A B]; unfold clear_flag; rewrite ?on_true, ?on_false; split; cbn [fst snd]; auto using drop_flag.
  - injection E1 as <- <-. intros X. injection X as <- <-. cbn [opt] in *. destruct i; apply (arrive_track _ _ _ _ g2); exact T.
Qed.

Lemma deliver_on i a b : triggers_on i (deliver a b) = opt (if i then b else a).
Proof.
  destruct a as [a|], b as [b|]; cbn [deliver]; try (destruct i; reflexivity).
  destruct (time_before b a), i; reflexivity.
Qed.

Lemma gd32_track g h h' ds d0 d1 s : htracks d0 d1 h s -> gd32_isr g h = (h', ds) ->
  htracks (d0 ++ triggers_on false ds) (d1 ++ triggers_on true ds) h' (s ++ flat_map g (seq 0 4)).
Proof.
  intros H. unfold gd32_isr. destruct (gd32_take false (g 0%nat) h) as [h1 c0] eqn:E0.
  destruct (gd32_take true (g 2%nat) (arrive h1 (g 1%nat))) as [h2 c1] eqn:E1. intros X. injection X as <- <-.
  pose proof (gd32_take_track _ _ _ _ _ _ _ _ H E0) as H0. cbn iota in H0. apply (arrive_track _ _ _ _ (g 1%nat)) in H0.
  pose proof (gd32_take_track _ _ _ _ _ _ _ _ H0 E1) as H1. cbn iota in H1. apply (arrive_track _ _ _ _ (g 3%nat)) in H1.
  rewrite !deliver_on. cbn [seq flat_map]. rewrite ?app_nil_r, ?app_assoc. rewrite ?app_assoc in H1. exact H1.
Qed.

Lemma stm32_track g h h' ds d0 d1 s : htracks d0 d1 h s -> stm32_isr g h = (h', ds) ->
  htracks (d0 ++ triggers_on false ds) (d1 ++ triggers_on true ds) h' (s ++ flat_map g (seq 0 10)).
Proof.
  intros H. unfold stm32_isr. destruct (stm32_take false (g 0%nat) (g 1%nat) h) as [h1 c0] eqn:E0.
  destruct (stm32_take true (g 3%nat) (g 4%nat) (arrive h1 (g 2%nat))) as [h2 c1] eqn:E1. cbn zeta.
  pose proof (stm32_take_track _ _ _ _ _ _ _ _ _ H E0) as H0. cbn iota in H0. apply (arrive_track _ _ _ _ (g 2%nat)) in H0.
  pose proof (stm32_take_track _ _ _ _ _ _ _ _ _ H0 E1) as H1. cbn iota in H1. apply (arrive_track _ _ _ _ (g 5%nat)) in H1.
  apply (arrive_track _ _ _ _ (g 6%nat)) in H1.
  set (h3 := arrive (arrive h2 (g 5%nat)) (g 6%nat)) in *.
  assert (L : forall d0 d1 h s, htracks d0 d1 h s -> htracks d0 d1 (clear_over false h) s /\ htracks d0 d1 (clear_over true h) s).
  { intros e0 e1 k r [A B]. split; split; unfold clear_over; rewrite ?on_false, ?on_true; cbn [fst snd]; auto using set_over. }
  destruct (ch_over (fst (arrive h2 (g 5%nat))) || ch_over (snd h3)); intros X; injection X as <- <-.
  - cbn [triggers_on flat_map]. rewrite !app_nil_r.
    assert (Hd : forall a b x y h s, htracks (a ++ x) (b ++ y) h s -> htracks a b h s).
    { intros a b x y k r [A B]. split; unfold tracks in *; rewrite <- app_assoc in *; eapply sub_mid; eassumption. }
    apply Hd in H1. apply (arrive_track _ _ _ _ (g 7%nat)), L in H1.
    apply proj1, (arrive_track _ _ _ _ (g 8%nat)), L in H1. apply proj2, (arrive_track _ _ _ _ (g 9%nat)) in H1.
    cbn [seq flat_map]. rewrite ?app_nil_r, ?app_assoc. rewrite ?app_assoc in H1. exact H1.
  - apply (arrive_track _ _ _ _ (g 7%nat)), (arrive_track _ _ _ _ (g 8%nat)), (arrive_track _ _ _ _ (g 9%nat)) in H1.
    rewrite !deliver_on. cbn [seq flat_map]. rewrite ?app_nil_r, ?app_assoc. rewrite ?app_assoc in H1. exact H1.
Qed.

(** The edges of a round: before the handler, then while it runs. *)
Lemma rounds_track isr n : 
  (forall g h h' ds d0 d1 s, htracks d0 d1 h s -> isr g h = (h', ds) ->
     htracks (d0 ++ triggers_on false ds) (d1 ++ triggers_on true ds) h' (s ++ flat_map g (seq 0 n))) ->
  forall l h h' ds d0 d1 s, htracks d0 d1 h s -> rounds isr h l = (h', ds) ->
  htracks (d0 ++ triggers_on false ds) (d1 ++ triggers_on true ds) h'
    (s ++ flat_map (fun r => fst r ++ flat_map (snd r) (seq 0 n)) l).
Proof.
  intros HI. induction l as [|[es g] l IH]; intros h h' ds d0 d1 s H E; cbn [rounds] in E.
  - injection E as <- <-. cbn [triggers_on flat_map]. rewrite !app_nil_r. exact H.
  - destruct (isr g (arrive h es)) as [h1 e1] eqn:E1. destruct (rounds isr h1 l) as [h2 e2] eqn:E2. injection E as <- <-.
    apply (arrive_track _ _ _ _ es) in H. pose proof (HI _ _ _ _ _ _ _ H E1) as H1.
    pose proof (IH _ _ _ _ _ _ H1 E2) as H2. rewrite !trig_app. cbn [flat_map fst snd]. rewrite ?app_assoc in *. exact H2.
Qed.
