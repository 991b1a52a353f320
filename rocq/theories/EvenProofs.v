(** One tooth of the even-tooth decoders. *)
Require Import ZArith Reals List Bool Lia Lra.
From Flocq Require Import Core.
From Verif Require Import Res Word F32 F32Flocq TimeProofs TableProofs AngleProofs PulseProofs RelErr Arr Decoder DecoderProofs DecoderSafe DecoderRun DecoderMissing DecoderAngle DecoderEven.
Import ListNotations.
Open Scope Z_scope.
Ltac Zify.zify_post_hook ::= idtac.

(** The state in which the speed is updated. *)
Definition even_shift (c : dcfg) (d : dec) (t : Z) (d3 : dec) : Prop :=
  dd_times d3 = t :: removelast (dd_times d) /\ dd_cur d3 = count_up 37 (dd_cur d) /\ dd_since d3 = w32 (dd_since d + 1) /\ dd_valid d3 = dd_valid d /\ dd_loss d3 = dd_loss d /\
  dd_state d3 = (match dd_state d with NOSYNC => if dc_required c <=? count_up 37 (dd_cur d) then RPM else NOSYNC | s => s end) /\
  dd_last_angle d3 = (match dd_state d with SYNC => wrap720 (fadd (dd_last_angle d) (dc_dpt c)) | _ => dd_last_angle d end) /\
  dd_last_time d3 = (match dd_state d with SYNC => t | _ => dd_last_time d end).
Lemma even_update_shape c d t : exists d3, even_shift c d t d3 /\
  even_tooth_trigger_update c d t = if is_nosync (dd_state d3) then Ok (d3, []) else even_tooth_trigger_update_rpm c d3.
Proof.
  unfold even_tooth_trigger_update. cbv zeta. dsimp. set (d1 := if dd_cur d <? _ then _ else _).
  assert (K1 : dd_cur d1 = count_up 37 (dd_cur d) /\ dd_valid d1 = dd_valid d /\ dd_since d1 = w32 (dd_since d + 1) /\
    dd_times d1 = t :: removelast (dd_times d) /\ dd_state d1 = dd_state d /\ dd_loss d1 = dd_loss d /\ dd_last_angle d1 = dd_last_angle d /\ dd_last_time d1 = dd_last_time d).
  { unfold d1, count_up, MAX_TRIGGERS. change (36 + 1) with 37. destruct (dd_cur d <? 37); dsimp; auto 10. }
  clearbody d1. destruct K1 as (K1 & K2 & K3 & K4 & K5 & K6 & K7 & K8). eexists. split; [|reflexivity].
  unfold even_shift. rewrite K1. rewrite <- K5. unfold wrap720. destruct (dd_state d1) eqn:E.
  - cbn [is_nosync andb]. destruct (dc_required c <=? _) eqn:Q; dsimp; [cbn [is_sync]|rewrite E; cbn [is_sync]]; dsimp; rewrite ?E; auto 10.
  - cbn [is_nosync andb]. rewrite E. cbn [is_sync]. rewrite E. auto 10.
  - cbn [is_nosync andb]. rewrite E. cbn [is_sync]. dsimp. rewrite K7, E. auto 10.
Qed.

Lemma get_firstn_nth (l z : list Z) k q : 0 <= k <= 36 -> nth_error l (Z.to_nat k) = Some q -> get (firstn 37 (l ++ z)) k = Ok q.
Proof.
  intros K H. unfold get. destruct (Z.ltb_spec k 0); [lia|].
  assert (E : nth_error (firstn 37 (l ++ z)) (Z.to_nat k) = nth_error (l ++ z) (Z.to_nat k)).
  { rewrite <- (firstn_skipn 37 (l ++ z)) at 2. destruct (Nat.lt_ge_cases (Z.to_nat k) (length (firstn 37 (l ++ z)))) as [Lt|Ge]; [now rewrite nth_error_app1|].
    exfalso. rewrite firstn_length, app_length in Ge. assert (Z.to_nat k < length l)%nat by (apply nth_error_Some; congruence). lia. }
  rewrite E, nth_error_app1 by (apply nth_error_Some; congruence). now rewrite H.
Qed.
