(** Proofs about the knock filter. *)
Require Import ZArith Reals Lra Lia List Bool.
From Flocq Require Import Core.
From Verif Require Import Res Word F32 F32Flocq DecoderProofs Sensors KnockSpec FinBack SensorProofs.
Import ListNotations.
Open Scope Z_scope.
Ltac Zify.zify_post_hook ::= idtac.

Notation powerf := (power f32 fadd fsub fmul f_zero (f_of_Z 2)).
Notation recurf := (recur f32 fadd fsub fmul (f_of_Z 2)).
Notation powerR := (power R Rplus Rminus Rmult 0%R 2%R).
Notation recurR := (recur R Rplus Rminus Rmult 2%R).

(** Whole blocks of 64 among the first samples; the rest. *)
Definition done (k : knock) (old : f32) (l : list f32) : Prop :=
  let m := (length l / 64)%nat in
  q_n k = Z.of_nat (length l - 64 * m) /\
  (q_sprev k, q_sprev2 k) = fold_left (recurf (q_cr k)) (skipn (64 * m) l) (f_zero, f_zero) /\
  q_value k = (if (m =? 0)%nat then old else powerf (q_cr k) (firstn 64 (skipn (64 * (m - 1)) l))).

Lemma done_step k old l x : done k old l -> done (knock_add_sample k x) old (l ++ [x]) /\ q_cr (knock_add_sample k x) = q_cr k.
Proof.
  unfold done. intros (A & B & C). set (m := (length l / 64)%nat) in *.
  assert (Hm : (64 * m <= length l < 64 * m + 64)%nat) by (unfold m; pose proof (Nat.div_mod (length l) 64 ltac:(lia)); pose proof (Nat.mod_upper_bound (length l) 64 ltac:(lia)); lia).
  unfold knock_add_sample. rewrite A.
  assert (Wn : w32 (Z.of_nat (length l - 64 * m) + 1) = Z.of_nat (length l - 64 * m) + 1) by (unfold w32, W; apply Z.mod_small; lia). rewrite Wn.
  assert (Len : length (l ++ [x]) = S (length l)) by (rewrite app_length; simpl; lia).
  assert (Sk : skipn (64 * m) (l ++ [x]) = skipn (64 * m) l ++ [x]).
  { rewrite skipn_app. replace (64 * m - length l)%nat with 0%nat by lia. reflexivity. }
  assert (F : fold_left (recurf (q_cr k)) (skipn (64 * m) (l ++ [x])) (f_zero, f_zero) =
              (fsub (fadd x (fmul (fmul (q_cr k) (f_of_Z 2)) (q_sprev k))) (q_sprev2 k), q_sprev k)).
  { rewrite Sk, fold_left_app, <- B. reflexivity. }
  destruct (Z.eqb_spec (Z.of_nat (length l - 64 * m) + 1) 64) as [E|E]; cbv zeta; cbn [q_cr q_n q_sprev q_sprev2 q_value]; split; auto.
  - assert (M1 : (length (l ++ [x]) / 64 = S m)%nat).
    { rewrite Len. replace (S (length l)) with (S m * 64)%nat by lia. apply Nat.div_mul. lia. }
    rewrite M1. split; [rewrite Len; lia|]. split.
    + rewrite skipn_all2 by lia. reflexivity.
    + replace (S m =? 0)%nat with false by reflexivity. replace (S m - 1)%nat with m by lia.
      rewrite firstn_all2 by (rewrite skipn_length; lia). unfold power. rewrite F. reflexivity.
  - assert (M1 : (length (l ++ [x]) / 64 = m)%nat).
    { rewrite Len. symmetry. apply Nat.div_unique with (S (length l) - 64 * m)%nat; lia. }
    rewrite M1. split; [rewrite Len; lia|]. split; [now rewrite F|]. rewrite C. destruct (Nat.eqb_spec m 0) as [|Nm]; auto. f_equal.
    rewrite skipn_app, firstn_app. replace (64 - length (skipn (64 * (m - 1)) l))%nat with 0%nat by (rewrite skipn_length; lia). now rewrite firstn_O, app_nil_r.
Qed.

Lemma done_all l : forall k old p, done k old p -> done (fold_left knock_add_sample l k) old (p ++ l).
Proof.
  induction l as [|x l IH]; intros k old p D; [now rewrite app_nil_r|].
  cbn [fold_left]. replace (p ++ x :: l) with ((p ++ [x]) ++ l) by (now rewrite <- app_assoc). apply IH. apply done_step. exact D.
Qed.
Lemma keeps_cr l : forall k, q_cr (fold_left knock_add_sample l k) = q_cr k.
Proof.
  induction l as [|x l IH]; intros k; [reflexivity|]. cbn [fold_left]. rewrite IH. unfold knock_add_sample. destruct (_ =? 64); reflexivity.
Qed.

Lemma knock_samples_ok l : forall k i n, (0 <= i) -> (Z.to_nat i + n <= length l)%nat ->
  knock_samples k l i n = Ok (fold_left knock_add_sample (firstn n (skipn (Z.to_nat i) l)) k).
Proof.
  intros k i n. revert k i. induction n as [|n IH]; intros k i Hi Hn; [reflexivity|]. cbn [knock_samples].
  unfold get. destruct (Z.ltb_spec i 0); [lia|]. destruct (nth_error l (Z.to_nat i)) as [x|] eqn:E; [|apply nth_error_None in E; lia].
  cbn [bind]. rewrite IH by lia. replace (Z.to_nat (i + 1)) with (S (Z.to_nat i)) by lia. f_equal.
  assert (S1 : skipn (Z.to_nat i) l = x :: skipn (S (Z.to_nat i)) l).
  { clear - E. revert l E. induction (Z.to_nat i) as [|j IHj]; intros [|y l] E; try discriminate; [injection E as ->; reflexivity|]. cbn [skipn] in *. now apply IHj. }
  rewrite S1. reflexivity.
Qed.

(** ** In real arithmetic the recurrence computes the power at one frequency *)
Open Scope R_scope.
Lemma cos_sum_app w l : forall x k, cos_sum w (l ++ [x]) k = cos_sum w l k + x * cos (w * INR (k + length l)).
Proof. induction l as [|y l IH]; intros x k; cbn [app cos_sum length]; [rewrite Nat.add_0_r; ring|]. rewrite IH. replace (S k + length l)%nat with (k + S (length l))%nat by lia. ring. Qed.
Lemma sin_sum_app w l : forall x k, sin_sum w (l ++ [x]) k = sin_sum w l k + x * sin (w * INR (k + length l)).
Proof. induction l as [|y l IH]; intros x k; cbn [app sin_sum length]; [rewrite Nat.add_0_r; ring|]. rewrite IH. replace (S k + length l)%nat with (k + S (length l))%nat by lia. ring. Qed.

Lemma goertzel w l : let '(s1, s2) := fold_left (recurR (cos w)) l (0, 0) in let a := w * (INR (length l) - 1) in
  s1 - s2 * cos w = cos_sum w l 0 * cos a + sin_sum w l 0 * sin a /\ s2 * sin w = cos_sum w l 0 * sin a - sin_sum w l 0 * cos a.
Proof.
  induction l as [|x l IH] using rev_ind.
  - cbn. split; ring.
  - rewrite fold_left_app. destruct (fold_left (recurR (cos w)) l (0, 0)) as [s1 s2]. cbn [fold_left recur]. cbv zeta in *. destruct IH as [H1 H2].
    rewrite cos_sum_app, sin_sum_app, app_length, Nat.add_0_l. cbn [length]. rewrite plus_INR. change (INR 1) with 1.
    set (a := w * (INR (length l) - 1)) in *. replace (w * (INR (length l) + 1 - 1)) with (w * INR (length l)) by ring.
    replace (w * INR (length l)) with (a + w) by (unfold a; ring). rewrite cos_plus, sin_plus.
    set (C := cos_sum w l 0) in *. set (S := sin_sum w l 0) in *. pose proof (sin2_cos2 w) as P. pose proof (sin2_cos2 a) as Q. unfold Rsqr in *.
    set (ca := cos a) in *. set (sa := sin a) in *. set (cw := cos w) in *. set (sw := sin w) in *. clearbody C S ca sa cw sw.
    assert (X1 : cw * (C * ca + S * sa) - sw * (C * sa - S * ca) = s1 * cw - s2) by (rewrite <- H1, <- H2; replace (cw * (s1 - s2 * cw) - sw * (s2 * sw)) with (s1 * cw - s2 * (sw * sw + cw * cw)) by ring; rewrite P; ring).
    assert (X2 : cw * (C * sa - S * ca) + sw * (C * ca + S * sa) = s1 * sw) by (rewrite <- H1, <- H2; ring).
    assert (Y : (ca * cw - sa * sw) * (ca * cw - sa * sw) + (sa * cw + ca * sw) * (sa * cw + ca * sw) = 1).
    { replace ((ca * cw - sa * sw) * (ca * cw - sa * sw) + (sa * cw + ca * sw) * (sa * cw + ca * sw)) with ((sa * sa + ca * ca) * (sw * sw + cw * cw)) by ring. rewrite P, Q. ring. }
    set (c2 := ca * cw - sa * sw) in *. set (d2 := sa * cw + ca * sw) in *.
    assert (Z1 : C * c2 + S * d2 = s1 * cw - s2) by (rewrite <- X1; unfold c2, d2; ring).
    assert (Z2 : C * d2 - S * c2 = s1 * sw) by (rewrite <- X2; unfold c2, d2; ring).
    clearbody c2 d2. split.
    + replace ((C + x * c2) * c2 + (S + x * d2) * d2) with ((C * c2 + S * d2) + x * (c2 * c2 + d2 * d2)) by ring. rewrite Y, Z1. ring.
    + replace ((C + x * c2) * d2 - (S + x * d2) * c2) with (C * d2 - S * c2) by ring. rewrite Z2. ring.
Qed.

Lemma goertzel_power w l : powerR (cos w) l = spectral_power w l.
Proof.
  pose proof (goertzel w l) as G. unfold power. destruct (fold_left (recurR (cos w)) l (0, 0)) as [s1 s2]. cbv zeta in G. destruct G as [H1 H2].
  unfold spectral_power. set (C := cos_sum w l 0) in *. set (S := sin_sum w l 0) in *. pose proof (sin2_cos2 w) as P. set (a := w * (INR (length l) - 1)) in *.
  pose proof (sin2_cos2 a) as Q. unfold Rsqr in *.
  transitivity ((s1 - s2 * cos w) * (s1 - s2 * cos w) + (s2 * sin w) * (s2 * sin w)).
  - replace ((s1 - s2 * cos w) * (s1 - s2 * cos w) + s2 * sin w * (s2 * sin w)) with (s1 * s1 + s2 * s2 * (sin w * sin w + cos w * cos w) - s1 * s2 * cos w * 2) by ring. rewrite P. ring.
  - rewrite H1, H2. replace ((C * cos a + S * sin a) * (C * cos a + S * sin a) + (C * sin a - S * cos a) * (C * sin a - S * cos a)) with ((C * C + S * S) * (sin a * sin a + cos a * cos a)) by ring.
    rewrite Q. ring.
Qed.
