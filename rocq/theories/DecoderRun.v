(** Histories of the decoder, and what they imply for its state. *)
Require Import ZArith List Bool Lia.
From Verif Require Import Res Word F32 Arr Decoder DecoderProofs DecoderSafe.
Import ListNotations.
Open Scope Z_scope.

(** A history: the console may have changed the configuration before any event. *)
Fixpoint hrun (d : dec) (h : list (dcfg * dev)) : res (dec * list effect) :=
  match h with
  | [] => Ok (d, [])
  | (c, e) :: h => ' (d1, f1) <- dstep c d e ;; ' (d2, f2) <- hrun d1 h ;; Ok (d2, f1 ++ f2)
  end.

(** A history with one configuration. *)
Fixpoint drun (c : dcfg) (d : dec) (es : list dev) : res (dec * list effect) :=
  match es with
  | [] => Ok (d, [])
  | e :: es => ' (d1, f1) <- dstep c d e ;; ' (d2, f2) <- drun c d1 es ;; Ok (d2, f1 ++ f2)
  end.

Lemma hrun_drun c d es : hrun d (map (pair c) es) = drun c d es.
Proof. revert d. induction es as [|e es IH]; intros d; simpl; auto. destruct (dstep c d e) as [[d1 f1]|]; simpl; auto. now rewrite IH. Qed.

(** The pulses a decoder takes for teeth, most recent first. *)
Definition tooth_of (c : dcfg) (e : dev) : list Z :=
  match e with
  | Trigger n t => if (match dc_type c with EVEN_NOSYNC => true | _ => false end) || (n =? 0) then [t] else []
  | _ => []
  end.
Definition teeth_of (c : dcfg) (es : list dev) : list Z := rev (flat_map (tooth_of c) es).

(** ** dstep in terms of decode *)
Definition counted (d : dec) (n : Z) : dec :=
  if n =? 0 then set_t0 d (w32 (dd_t0 d + 1)) else if n =? 1 then set_t1 d (w32 (dd_t1 d + 1)) else d.
Lemma trigger_decode c d n t : dstep c d (Trigger n t) = decode c (counted d n) n t.
Proof. reflexivity. Qed.
Lemma counted_same d n : dd_valid (counted d n) = dd_valid d /\ dd_state (counted d n) = dd_state d /\ dd_cur (counted d n) = dd_cur d /\
  dd_since (counted d n) = dd_since d /\ dd_times (counted d n) = dd_times d /\ dd_last_time (counted d n) = dd_last_time d /\
  dd_last_angle (counted d n) = dd_last_angle d /\ dd_rpm (counted d n) = dd_rpm d /\ dd_tooth_rpm (counted d n) = dd_tooth_rpm d /\
  dd_this (counted d n) = dd_this d /\ dd_prev (counted d n) = dd_prev d /\ dd_loss (counted d n) = dd_loss d /\ dd_expiration (counted d n) = dd_expiration d.
Proof. unfold counted. destruct (n =? 0); [|destruct (n =? 1)]; dsimp; auto 20. Qed.
Lemma counted_vinv d n : vinv d -> vinv (counted d n).
Proof. unfold vinv. destruct (counted_same d n) as (-> & -> & _). auto. Qed.
Lemma counted_dinv c d n : dinv c d -> dinv c (counted d n).
Proof.
  intros [A B C D E F G]. pose proof (counted_vinv d n D). destruct (counted_same d n) as (K1 & K2 & K3 & K4 & K5 & _).
  split; rewrite ?K1, ?K2, ?K3, ?K4, ?K5; auto.
Qed.

Lemma dec_init_vinv : vinv dec_init.
Proof. split; auto. intros H. exfalso. now apply H. Qed.
Lemma dec_init_dinv c : supported c -> dinv c dec_init.
Proof.
  intros S. split; try (cbn; auto; fail); try discriminate.
  - destruct (missing c); cbn; lia.
  - cbn. lia.
  - apply dec_init_vinv.
Qed.

Lemma dstep_vinv c d e d' fx : vinv d -> dstep c d e = Ok (d', fx) -> vinv d'.
Proof.
  intros V H. destruct e as [n t| |w].
  - rewrite trigger_decode in H. exact (proj1 (decode_step _ _ _ _ _ _ (counted_vinv _ n V) H)).
  - injection H as <- <-. split; cbn; auto. congruence.
  - injection H as <- <-. split; cbn; auto. congruence.
Qed.
Lemma hrun_vinv h d d' fx : vinv d -> hrun d h = Ok (d', fx) -> vinv d'.
Proof.
  revert d d' fx. induction h as [|[c e] h IH]; intros d d' fx V H; cbn [hrun] in H.
  - injection H as <- <-. auto.
  - apply bind_ok in H. destruct H as ((d1 & f1) & E & H). apply bind_ok in H. destruct H as ((d2 & f2) & E2 & H). injection H as <- <-.
    eapply IH; [|exact E2]. eapply dstep_vinv; eauto.
Qed.

Lemma dstep_good c d e : supported c -> dinv c d -> good (dstep c d e) (fun r => dinv c (fst r)).
Proof.
  intros S I. destruct e as [n t| |w].
  - rewrite trigger_decode. apply decode_good; auto. now apply counted_dinv.
  - apply invalidate_inv; auto. apply (di_len _ _ I).
  - apply invalidate_inv; auto. apply (di_len _ _ I).
Qed.
Lemma drun_good c es d : supported c -> dinv c d -> good (drun c d es) (fun r => dinv c (fst r)).
Proof.
  intros S. revert d. induction es as [|e es IH]; intros d I; cbn [drun]; [exact I|].
  eapply good_bind; [apply dstep_good; eauto|]. intros [d1 f1] _ I1. eapply good_bind; [apply IH; exact I1|]. intros [d2 f2] _ I2. exact I2.
Qed.

Lemma drun_app c d es fs : drun c d (es ++ fs) = ' (d1, f1) <- drun c d es ;; ' (d2, f2) <- drun c d1 fs ;; Ok (d2, f1 ++ f2).
Proof.
  revert d. induction es as [|e es IH]; intros d; cbn [drun app bind].
  - destruct (drun c d fs) as [[d2 f2]|]; reflexivity.
  - destruct (dstep c d e) as [[d1 f1]|]; cbn [bind]; auto. rewrite IH. destruct (drun c d1 es) as [[d2 f2]|]; cbn [bind]; auto.
    destruct (drun c d2 fs) as [[d3 f3]|]; cbn [bind]; auto. now rewrite app_assoc.
Qed.

(** ** The history of tooth times *)
Lemma decode_times c d n t d' fx : decode c d n t = Ok (d', fx) ->
  dd_times d' = match tooth_of c (Trigger n t) with [] => dd_times d | _ => t :: removelast (dd_times d) end.
Proof.
  unfold decode, tooth_of. destruct (dc_type c) eqn:T; intros H.
  - unfold decode_even_no_sync in H. cbv zeta in H. apply bind_ok in H. destruct H as ((d1 & fx1) & E & H).
    destruct (even_update_keeps _ _ _ _ _ E) as (_ & _ & _ & _ & _ & K & _). cbn [orb].
    destruct (negb _); [injection H as <- <-; exact K|]. destruct (is_sync _); injection H as <- <-; exact K.
  - unfold decode_even_with_camsync in H. cbv zeta in H. apply bind_ok in H. destruct H as ((d1 & fx1) & E & H). cbn [orb].
    assert (K : dd_times d1 = match (if n =? 0 then [t] else []) with [] => dd_times d | _ => t :: removelast (dd_times d) end).
    { destruct (n =? 0); [destruct (even_update_keeps _ _ _ _ _ E) as (_ & _ & _ & _ & _ & K & _); auto|].
      destruct (n =? 1); injection E as <- <-; auto. destruct (sync_update_keeps c d) as (_ & _ & _ & K & _). exact K. }
    destruct (is_sync _); [injection H as <- <-; exact K|]. destruct (is_sync _); injection H as <- <-; exact K.
  - unfold decode_missing_no_sync in H. cbv zeta in H. apply bind_ok in H. destruct H as ((d1 & fx1) & E & H). cbn [orb].
    assert (K : dd_times d1 = match (if n =? 0 then [t] else []) with [] => dd_times d | _ => t :: removelast (dd_times d) end).
    { destruct (n =? 0); [destruct (missing_update_keeps _ _ _ _ _ E) as (_ & _ & _ & _ & K & _); auto|]. injection E as <- <-; auto. }
    apply bind_ok in H. destruct H as (d2 & E2 & H). apply missing_rpms_keeps in E2. destruct E2 as (_ & _ & _ & K2 & _). rewrite <- K2 in K.
    destruct (is_sync _); [injection H as <- <-; exact K|]. destruct (is_sync _); injection H as <- <-; exact K.
  - unfold decode_missing_with_camsync in H. cbv zeta in H. apply bind_ok in H. destruct H as ((d1 & fx1) & E & H). cbn [orb].
    assert (K : dd_times d1 = match (if n =? 0 then [t] else []) with [] => dd_times d | _ => t :: removelast (dd_times d) end).
    { destruct (n =? 0).
      - apply bind_ok in E. destruct E as ((d0 & fx0) & E0 & E). destruct (missing_update_keeps _ _ _ _ _ E0) as (_ & _ & _ & _ & K & _).
        injection E as <- <-. rewrite <- K. destruct (_ && _); auto. destruct (_ && _); reflexivity.
      - destruct (n =? 1); injection E as <- <-; auto. destruct (is_sync _); auto. destruct (_ || _); reflexivity. }
    apply bind_ok in H. destruct H as (d2 & E2 & H). apply missing_rpms_keeps in E2. destruct E2 as (_ & _ & _ & K2 & _). rewrite <- K2 in K.
    rewrite <- K. match type of H with (if _ then Ok (invalidate_decoder ?x, _) else _) = _ => set (d3 := x) in H; assert (K3 : dd_times d3 = dd_times d2) end.
    { unfold d3. destruct (negb _); [reflexivity|]. destruct (_ && _); reflexivity. }
    clearbody d3. destruct (_ && _); injection H as <- <-; exact K3.
Qed.

Lemma removelast_firstn_succ {A} (l : list A) n : (n < length l)%nat -> removelast (firstn (S n) l) = firstn n l.
Proof. apply removelast_firstn. Qed.

(** With one configuration, the time array is the list of the last 37 teeth. *)
Lemma drun_times c es es0 d0 d fx : dd_times d0 = firstn 37 (teeth_of c es0 ++ repeat 0 37) -> drun c d0 es = Ok (d, fx) ->
  dd_times d = firstn 37 (teeth_of c (es0 ++ es) ++ repeat 0 37).
Proof.
  revert es0 d0 fx. induction es as [|e es IH]; intros es0 d0 fx E0 H; cbn [drun] in H.
  - injection H as <- <-. now rewrite app_nil_r.
  - apply bind_ok in H. destruct H as ((d1 & f1) & E & H). apply bind_ok in H. destruct H as ((d2 & f2) & E2 & H). injection H as <- <-.
    replace (es0 ++ e :: es) with ((es0 ++ [e]) ++ es) by (rewrite <- app_assoc; reflexivity). eapply IH; [|exact E2].
    assert (T : teeth_of c (es0 ++ [e]) = tooth_of c e ++ teeth_of c es0).
    { unfold teeth_of. rewrite flat_map_app, rev_app_distr. cbn [flat_map]. rewrite app_nil_r. f_equal.
      unfold tooth_of. destruct e; auto. destruct (_ || _); reflexivity. }
    rewrite T. destruct e as [n t| |w].
    + rewrite trigger_decode in E. apply decode_times in E. rewrite E. destruct (counted_same d0 n) as (_ & _ & _ & _ & K & _). rewrite K, E0.
      unfold tooth_of. destruct (_ || _); cbn [app]; [|reflexivity].
      rewrite firstn_cons. f_equal. apply (removelast_firstn_succ _ 36). rewrite app_length, repeat_length. lia.
    + injection E as <- <-. exact E0.
    + injection E as <- <-. exact E0.
Qed.
Lemma drun_times_init c es d fx : drun c dec_init es = Ok (d, fx) -> dd_times d = firstn 37 (teeth_of c es ++ repeat 0 37).
Proof. intros H. exact (drun_times c es [] dec_init d fx eq_refl H). Qed.

Lemma get_push (l : list Z) t k : length l = 37%nat -> 1 <= k <= 36 -> get (t :: removelast l) k = get l (k - 1).
Proof.
  intros L K. unfold get. destruct (Z.ltb_spec k 0); [lia|]. destruct (Z.ltb_spec (k - 1) 0); [lia|].
  replace (Z.to_nat k) with (S (Z.to_nat (k - 1))) by lia. cbn [nth_error].
  rewrite removelast_firstn_len, L. cbn [pred].
  assert (F : nth_error (firstn 36 l) (Z.to_nat (k - 1)) = nth_error l (Z.to_nat (k - 1))).
  { rewrite <- (firstn_skipn 36 l) at 2. rewrite nth_error_app1; auto. rewrite firstn_length, L. cbn. lia. }
  now rewrite F.
Qed.
