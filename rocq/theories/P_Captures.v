(** C50, C72, C73: trigger captures and the edges captured. *)
Require Import ZArith List Bool Lia Sorting.Sorted.
From Verif Require Import Word Decoder Captures CaptureSpec CaptureProofs.
Import ListNotations.
Open Scope Z_scope.
Ltac Zify.zify_post_hook ::= idtac.

(** ** C50: trigger captures are passed on in time order *)

(** Any number of rounds, each with at most one edge per input before the handler runs:
    the decoder gets exactly the edges, in the order in which they happened, also when
    both are pending and the counter wraps between them. *)
Theorem C50_gd32 l : 
  (forall r, In r l -> quiet (snd r) /\ one_each (fst r) /\ in_order (fst r) /\ close (fst r)) ->
  snd (rounds gd32_isr no_captures l) = as_triggers (flat_map fst l).
Proof.
  intros H. destruct (gd32_rounds l no_captures (unflagged_false _ _ _ _) H) as (h' & E & _). now rewrite E.
Qed.
Print Assumptions C50_gd32.

(** The other platform, where overruns are noticed: each round yields its edges in
    order, or a report of the overrun. *)
Definition stm32_should (es : list edge) : list dev :=
  if (length (times_on false es) <=? 1)%nat && (length (times_on true es) <=? 1)%nat then as_triggers es else [Desync OVERFLOW].

Lemma stm32_rounds l : forall h, idle h ->
  (forall r, In r l -> quiet (snd r) /\ in_order (fst r) /\ close (fst r)) ->
  snd (rounds stm32_isr h l) = flat_map (fun r => stm32_should (fst r)) l.
Proof.
  induction l as [|[es g] l IH]; intros h I H; [reflexivity|]. cbn [rounds flat_map fst].
  destruct (H (es, g) (or_introl eq_refl)) as (Q & S & C). cbn [fst snd] in *.
  rewrite stm32_quiet by exact Q. 
  specialize (IH (Chan false (ch_value (fst (arrive h es))) false, Chan false (ch_value (snd (arrive h es))) false)
    (idle_false _ _) (fun r Hr => H r (or_intror Hr))).
  destruct (rounds stm32_isr _ l) as [h2 ds]. cbn [snd] in *. rewrite IH. f_equal.
  pose proof (overrun_iff h es I) as O. unfold stm32_should.
  destruct (ch_over (fst (arrive h es)) || ch_over (snd (arrive h es))) eqn:E.
  - destruct (Nat.leb_spec (length (times_on false es)) 1) as [L0|L0]; [|reflexivity].
    destruct (Nat.leb_spec (length (times_on true es)) 1) as [L1|L1]; [|reflexivity].
    assert (X : true = false) by (apply O; intros [|]; auto). discriminate.
  - pose proof (proj1 O eq_refl) as O1. rewrite !(proj2 (Nat.leb_le _ _)) by apply O1. cbn [andb].
    apply deliver_round; auto. intros i. apply I.
Qed.

Theorem C50_stm32 l :
  (forall r, In r l -> quiet (snd r) /\ one_each (fst r) /\ in_order (fst r) /\ close (fst r)) ->
  snd (rounds stm32_isr no_captures l) = as_triggers (flat_map fst l).
Proof.
  intros H. rewrite stm32_rounds; [|apply idle_false|intros r Hr; destruct (H r Hr) as (? & ? & ? & ?); auto].
  induction l as [|r l IH]; [reflexivity|]. cbn [flat_map]. unfold as_triggers. rewrite map_app. 
  f_equal; [|apply IH; intros r' Hr'; apply H; right; exact Hr'].
  destruct (H r (or_introl eq_refl)) as (_ & O & _). unfold stm32_should. now rewrite !(proj2 (Nat.leb_le _ _)) by apply O.
Qed.
Print Assumptions C50_stm32.

(** However edges and register accesses interleave, each input's triggers are edges of
    that input, in order, and none twice. *)
Definition all_edges (n : nat) (l : list round) : list edge := flat_map (fun r => fst r ++ flat_map (snd r) (seq 0 n)) l.

Theorem C50_per_input l i :
  subsequence (triggers_on i (snd (rounds gd32_isr no_captures l))) (times_on i (all_edges 4 l)) /\
  subsequence (triggers_on i (snd (rounds stm32_isr no_captures l))) (times_on i (all_edges 10 l)).
Proof.
  assert (H0 : htracks [] [] no_captures []) by (split; constructor).
  split.
  - destruct (rounds gd32_isr no_captures l) as [h ds] eqn:E.
    destruct (rounds_track gd32_isr 4 gd32_track l _ _ _ _ _ _ H0 E) as [A B]. cbn [snd].
    destruct i; [apply (sub_drop _ _ _ B)|apply (sub_drop _ _ _ A)].
  - destruct (rounds stm32_isr no_captures l) as [h ds] eqn:E.
    destruct (rounds_track stm32_isr 10 stm32_track l _ _ _ _ _ _ H0 E) as [A B]. cbn [snd].
    destruct i; [apply (sub_drop _ _ _ B)|apply (sub_drop _ _ _ A)].
Qed.
Print Assumptions C50_per_input.

(** But when edges arrive while the handler runs, the order across inputs is not kept:
    an edge on input 0 that comes just after its flag was tested, and one on input 1
    just after that, reach the decoder the wrong way round. *)
Definition at_gap (k : nat) (es : list edge) (j : nat) : list edge := if Nat.eqb j k then es else [].
Theorem C50_race_refuted :
  exists l, in_order (all_edges 4 l) /\ snd (rounds gd32_isr no_captures l) = [Trigger 1 1001; Trigger 0 1000].
Proof.
  exists [([], at_gap 1 [(false, 1000); (true, 1001)]); ([], at_gap 0 [])].
  split; [|vm_compute; reflexivity].
  cbn. constructor; [constructor; [constructor|constructor]|]. constructor; [|constructor]. left. cbn. lia.
Qed.
Print Assumptions C50_race_refuted.

(* Both pending across the wrap of the counter: input 1 at 2^32 - 3, input 0 at 2^32 + 5. *)
Example C50_example :
  let l := [([(true, 4294967293); (false, 4294967301)], at_gap 0 []); ([(false, 4294968000)], at_gap 0 [])] in
  (forall r, In r l -> quiet (snd r) /\ one_each (fst r) /\ in_order (fst r) /\ close (fst r)) /\
  snd (rounds gd32_isr no_captures l) = [Trigger 1 4294967293; Trigger 0 5; Trigger 0 704] /\
  snd (rounds stm32_isr no_captures l) = [Trigger 1 4294967293; Trigger 0 5; Trigger 0 704].
Proof.
  split; [|split; vm_compute; reflexivity].
  assert (Q : quiet (at_gap 0 [])) by (intros [|k]; reflexivity).
  intros r [<-|[<-|[]]]; (split; [exact Q|]); cbn [fst]; (split; [intros [|]; vm_compute; lia|]); split.
  - constructor; [constructor; [constructor|constructor]|]. constructor; [|constructor]. left. cbn. lia.
  - intros a b [<-|[<-|[]]] [<-|[<-|[]]]; cbn; lia.
  - constructor; [constructor|constructor].
  - intros a b [<-|[]] [<-|[]]; cbn; lia.
Qed.

(** ** C72: no trigger edge is lost without notice *)

(** On the STM32: every round without edges during the handler either passes on all its
    edges in order or, if an input had more than one, reports a loss of sync. *)
Theorem C72_stm32 l : (forall r, In r l -> quiet (snd r) /\ in_order (fst r) /\ close (fst r)) ->
  snd (rounds stm32_isr no_captures l) = flat_map (fun r => stm32_should (fst r)) l.
Proof. apply stm32_rounds, idle_false. Qed.
Print Assumptions C72_stm32.

(** An edge between the reading of the capture and the clearing of the flag is lost:
    neither passed on nor reported, now or later. *)
Theorem C72_stm32_race_refuted :
  exists l, in_order (all_edges 10 l) /\ times_on false (all_edges 10 l) = [1000; 1008; 2000] /\
    snd (rounds stm32_isr no_captures l) = [Trigger 0 1000; Trigger 0 2000].
Proof.
  exists [([(false, 1000)], at_gap 1 [(false, 1008)]); ([(false, 2000)], at_gap 0 [])].
  split; [|split; vm_compute; reflexivity].
  cbn. repeat (constructor; [|repeat (constructor; [left; cbn; lia|]); constructor]). constructor.
Qed.
Print Assumptions C72_stm32_race_refuted.

(** On the GD32 the earlier of two edges before the handler runs is always lost, with
    no notice. *)
Theorem C72_gd32_refuted : forall i a b, 
  snd (rounds gd32_isr no_captures [([(i, a); (i, b)], fun _ => [])]) = as_triggers [(i, b)].
Proof. intros [|] a b; reflexivity. Qed.
Print Assumptions C72_gd32_refuted.

(* Two edges on input 0 and one on input 1, then a good round. *)
Example C72_example :
  let l := [([(false, 1000); (true, 1001); (false, 1002)], at_gap 0 []); ([(true, 1500); (false, 2000)], at_gap 0 [])] in
  (forall r, In r l -> quiet (snd r) /\ in_order (fst r) /\ close (fst r)) /\
  snd (rounds stm32_isr no_captures l) = [Desync OVERFLOW; Trigger 1 1500; Trigger 0 2000].
Proof.
  split; [|vm_compute; reflexivity].
  assert (Q : quiet (at_gap 0 [])) by (intros [|k]; reflexivity).
  intros r [<-|[<-|[]]]; (split; [exact Q|]); cbn [fst]; split.
  - repeat (constructor; [|repeat (constructor; [left; cbn; lia|]); constructor]). constructor.
  - intros a b [<-|[<-|[<-|[]]]] [<-|[<-|[<-|[]]]]; cbn; lia.
  - repeat (constructor; [|repeat (constructor; [left; cbn; lia|]); constructor]). constructor.
  - intros a b [<-|[<-|[]]] [<-|[<-|[]]]; cbn; lia.
Qed.

(** ** C73: an input captures the edges it is configured for *)

(** Input 0 always; inputs 1 and 2 unless input 1 is configured for both edges. *)
Theorem C73_gd32 i0 i1 i2 :
  channel_captures (gd32_chctl2 i0 i1 i2) 0 = Some (wanted i0) /\
  (fi_edge i1 <> BOTH_EDGES ->
     channel_captures (gd32_chctl2 i0 i1 i2) 1 = Some (wanted i1) /\
     channel_captures (gd32_chctl2 i0 i1 i2) 2 = Some (wanted i2)).
Proof.
  destruct i0 as [[| |] [| |]], i1 as [[| |] [| |]], i2 as [[| |] [| |]];
    (split; [reflexivity|]); intros H; try (contradiction H; reflexivity); split; reflexivity.
Qed.
Print Assumptions C73_gd32.

(** With both edges on input 1: that input sees falling edges only, an enabled input 2
    set for rising edges gets a reserved combination, and one set for falling edges gets
    both. *)
Theorem C73_gd32_both_refuted i0 i1 i2 : fi_edge i1 = BOTH_EDGES -> fi_type i1 <> IN_NONE -> fi_type i2 <> IN_NONE ->
  channel_captures (gd32_chctl2 i0 i1 i2) 1 = Some (false, true) /\
  (fi_edge i2 = RISING_EDGE -> channel_captures (gd32_chctl2 i0 i1 i2) 2 = None) /\
  (fi_edge i2 = FALLING_EDGE -> channel_captures (gd32_chctl2 i0 i1 i2) 2 = Some (true, true)).
Proof.
  destruct i0 as [[| |] [| |]], i1 as [[| |] [| |]], i2 as [[| |] [| |]]; cbn [fi_edge fi_type];
    intros A B C; try discriminate A; try (contradiction B; reflexivity); try (contradiction C; reflexivity);
    (split; [reflexivity|]); split; intros D; try discriminate D; reflexivity.
Qed.
Print Assumptions C73_gd32_both_refuted.

(** On the STM32 the two trigger inputs capture the configured edges if enabled. *)
Theorem C73_stm32 i : fi_type i <> IN_NONE -> stm32_captures i = wanted i.
Proof. destruct i as [e t]. unfold wanted, stm32_captures. cbn. now destruct t. Qed.
Print Assumptions C73_stm32.

(** But a disabled input captures as well, and although it raises no interrupt, two
    edges on it make the next trigger on input 0 a loss of sync. *)
Theorem C73_stm32_disabled_refuted :
  let i := FreqInput RISING_EDGE IN_NONE in
  stm32_raises i = false /\ wanted i = (false, false) /\ stm32_captures i = (true, false) /\
  snd (rounds stm32_isr no_captures [([(true, 100); (true, 200); (false, 300)], at_gap 0 [])]) = [Desync OVERFLOW].
Proof. repeat split; vm_compute; reflexivity. Qed.
Print Assumptions C73_stm32_disabled_refuted.

(* The default: both trigger inputs on rising edges. *)
Example C73_example :
  channel_captures (gd32_chctl2 (FreqInput RISING_EDGE IN_TRIGGER) (FreqInput RISING_EDGE IN_TRIGGER) (FreqInput FALLING_EDGE IN_FREQ)) 2
  = Some (false, true).
Proof. reflexivity. Qed.
