(** Proofs about util.c: time comparison, unit conversion, angle normalisation. *)
Require Import ZArith Reals Lia Lra Bool Psatz.
Require Import ZifyBool.
Require Import Coq.Floats.SpecFloat.
From Flocq Require Import Core IEEE754.BinarySingleNaN.
From Flocq Require Import Relative.
From Verif Require Import Res Word F32 F32Flocq.
Open Scope Z_scope.
Ltac Zify.zify_post_hook ::= Z.div_mod_to_equations.

Lemma time_before_spec a b :
  - HALF <= a - b < HALF -> time_before (a mod W) (b mod W) = (a <? b).
Proof.
  intros. unfold time_before, s32, w32, W, HALF in *.
  destruct (Z.ltb_spec ((a mod 4294967296 - b mod 4294967296) mod 4294967296) 2147483648); lia.
Qed.

Lemma time_before_or_equal_spec a b :
  - HALF <= a - b < HALF -> time_before_or_equal (a mod W) (b mod W) = (a <=? b).
Proof.
  intros. unfold time_before_or_equal, s32, w32, W, HALF in *.
  destruct (Z.ltb_spec ((a mod 4294967296 - b mod 4294967296) mod 4294967296) 2147483648); lia.
Qed.

Lemma time_in_range_spec v t1 t2 :
  t1 <= v < t1 + W -> t1 <= t2 < t1 + W ->
  time_in_range (v mod W) (t1 mod W) (t2 mod W) = (v <=? t2).
Proof. intros. unfold time_in_range, w32, W in *. lia. Qed.

Lemma time_diff_spec a b : 0 <= a - b < W -> time_diff (a mod W) (b mod W) = a - b.
Proof. intros. unfold time_diff, w32, W in *. lia. Qed.

(** ** time_from_us *)
Definition f4 : f32 := Eval vm_compute in fdiv (f_of_Z TICKRATE) (f_of_Z 1000000).
Lemma f4_eq : fdiv (f_of_Z TICKRATE) (f_of_Z 1000000) = f4.
Proof. reflexivity. Qed.
Lemma f4_vf : vf f4. Proof. reflexivity. Qed.
Lemma f4_fin : fin f4. Proof. reflexivity. Qed.
Lemma f4_R : R_ f4 = 4%R.
Proof. unfold R_, f4, SF2R, F2R; simpl. lra. Qed.

(** Rounding an integer of magnitude >= 1 gives an integer. *)
Lemma rnd_Z z : exists k, rnd (IZR z) = IZR k.
Proof.
  destruct (Z_le_gt_dec (Z.abs z) (2^24)) as [Hz|Hz].
  - exists z. apply round_generic; [typeclasses eauto|now apply generic_Z].
  - unfold round. set (m := ZnearestE _).
    assert (He : 0 <= cexp radix2 fexp32 (IZR z)).
    { unfold cexp. change fexp32 with (FLT_exp (-149) 24). unfold FLT_exp.
      assert (25 <= mag radix2 (IZR z)); [|lia].
      apply mag_ge_bpow. rewrite <- abs_IZR.
      change (bpow radix2 (25 - 1)) with (IZR (2^24)). apply IZR_le. lia. }
    exists (m * 2 ^ cexp radix2 fexp32 (IZR z)).
    unfold F2R. simpl Fnum. simpl Fexp. rewrite mult_IZR. f_equal.
    rewrite <- IZR_Zpower by exact He. reflexivity.
Qed.

Lemma rnd_mul4 x : rnd (4 * rnd x) = (4 * rnd x)%R.
Proof.
  apply round_generic; [typeclasses eauto|].
  replace (4 * rnd x)%R with (rnd x * bpow radix2 2)%R by (simpl; lra).
  pose proof (generic_format_round radix2 fexp32 ZnearestE x) as G.
  change fexp32 with (FLT_exp (-149) 24) in *.
  apply FLT_format_generic in G; [|reflexivity].
  destruct G as [f Hf Hm He]. apply generic_format_FLT.
  exists (Float radix2 (Fnum f) (Fexp f + 2)); simpl; [|exact Hm|lia].
  rewrite Hf. unfold F2R. simpl. rewrite bpow_plus. simpl. ring.
Qed.

Lemma time_from_us_rnd us : 0 <= us < W ->
  exists k, rnd (IZR us) = IZR k /\ 0 <= k <= W /\
    time_from_us us = if 4 * k <? W then Ok (4 * k) else Err FloatToInt.
Proof.
  intros Hu. destruct (rnd_Z us) as [k Hk]. exists k. split; [exact Hk|].
  assert (Hb : 0 <= k <= W).
  { split; apply le_IZR; rewrite <- Hk.
    - rewrite <- rnd_0. apply rnd_le. apply IZR_le; lia.
    - apply Rle_trans with (rnd (IZR W)); [apply rnd_le, IZR_le; lia|].
      change (IZR W) with (bpow radix2 32). rewrite round_generic; try lra; try typeclasses eauto.
      apply generic_format_bpow. vm_compute. easy. }
  split; [exact Hb|].
  unfold time_from_us. rewrite f4_eq.
  destruct (f_of_Z_u32 us) as [A B]; [unfold W in *; change (2^64) with (2^32*2^32); lia|].
  assert (M : (R_ (f_of_Z us) * R_ f4 = 4 * rnd (IZR us))%R) by (rewrite A, f4_R; lra).
  destruct (fmul_correct (f_of_Z us) f4) as [C D]; try assumption; try apply vf_of_Z; try apply f4_vf; try apply f4_fin.
  { rewrite M, rnd_mul4, Hk. rewrite <- mult_IZR, <- abs_IZR, fmaxR_val. apply IZR_lt.
    apply Z.le_lt_trans with (2^34); [unfold W in Hb; lia|reflexivity]. }
  unfold f_to_u32. rewrite f_to_range_fin by exact D.
  rewrite C, M, rnd_mul4, Hk, <- mult_IZR, Ztrunc_IZR.
  destruct (Z.ltb_spec (4*k) W).
  - destruct (Z.leb_spec 0 (4*k)); [|lia]. destruct (Z.leb_spec (4*k) (W-1)); [reflexivity|lia].
  - destruct (Z.leb_spec (4*k) (W-1)); [lia|]. now rewrite andb_false_r.
Qed.

Lemma time_from_us_exact us : 0 <= us <= 2^24 -> time_from_us us = Ok (4 * us).
Proof.
  intros Hu. destruct (time_from_us_rnd us) as (k & Hk & _ & ->); [unfold W; lia|].
  rewrite round_generic in Hk; [|typeclasses eauto|apply generic_Z; lia].
  apply eq_IZR in Hk. subst k. destruct (Z.ltb_spec (4*us) W); [reflexivity|unfold W in *; lia].
Qed.

Lemma time_from_us_approx us : 2^24 <= us < 2^30 - 32 ->
  exists t, time_from_us us = Ok t /\ 2^24 * Z.abs (t - 4 * us) <= 4 * us.
Proof.
  intros Hu. destruct (time_from_us_rnd us) as (k & Hk & Hb & ->); [unfold W; lia|].
  assert (Hk2 : k <= 2^30 - 64).
  { apply le_IZR. rewrite <- Hk.
    assert (G : generic_format radix2 fexp32 (IZR (2^30-64))).
    { change fexp32 with (FLT_exp (-149) 24). apply generic_format_FLT.
      exists (Float radix2 (2^24-1) 6); [unfold F2R; simpl; lra|simpl; lia|simpl; lia]. }
    apply round_N_le_midp; [typeclasses eauto|exact G|].
    assert (S : succ radix2 fexp32 (IZR (2^30-64)) = IZR (2^30)).
    { rewrite succ_eq_pos by (apply IZR_le; lia). rewrite ulp_neq_0 by (apply IZR_neq; lia).
      unfold cexp. rewrite (mag_unique radix2 _ 30).
      - change fexp32 with (FLT_exp (-149) 24). unfold FLT_exp.
        change (Z.max (30 - 24) (-149)) with 6. simpl bpow. rewrite <- plus_IZR. reflexivity.
      - rewrite <- abs_IZR. change (bpow radix2 (30-1)) with (IZR (2^29)).
        change (bpow radix2 30) with (IZR (2^30)). split; [apply IZR_le|apply IZR_lt]; lia. }
    rewrite S, <- plus_IZR. change (2^30-64+2^30) with ((2^30-32)*2). rewrite mult_IZR.
    unfold Rdiv. rewrite Rmult_assoc, Rinv_r, Rmult_1_r by lra. apply IZR_lt; lia. }
  exists (4*k). split.
  - destruct (Z.ltb_spec (4*k) W); [reflexivity|unfold W in *; lia].
  - assert (E : (Rabs (rnd (IZR us) - IZR us) <= / 2 * bpow radix2 (-24 + 1) * Rabs (IZR us))%R).
    { change fexp32 with (FLT_exp (-149) 24). apply relative_error_N_FLT; [reflexivity|].
      rewrite Rabs_pos_eq by (apply IZR_le; lia).
      apply Rle_trans with (bpow radix2 0); [apply bpow_le; lia|]. apply (IZR_le 1); lia. }
    rewrite Hk, <- minus_IZR, <- !abs_IZR in E.
    replace (Z.abs us) with us in E by lia.
    apply le_IZR. rewrite mult_IZR.
    replace (4*k-4*us) with (4*(k-us)) by lia. rewrite Z.abs_mul, mult_IZR. change (Z.abs 4) with 4.
    rewrite (mult_IZR 4 us).
    assert (Q : (/ 2 * bpow radix2 (-24 + 1) = / IZR (2^24))%R) by (simpl; lra).
    rewrite Q in E. assert (0 < IZR (2^24))%R by (apply IZR_lt; lia).
    apply Rmult_le_compat_l with (r := IZR (2^24)) in E; [|lra].
    rewrite <- Rmult_assoc, Rinv_r, Rmult_1_l in E by lra. lra.
Qed.

Lemma time_from_us_ub us : 2^30 - 32 <= us < W -> time_from_us us = Err FloatToInt.
Proof.
  intros Hu. destruct (time_from_us_rnd us) as (k & Hk & Hb & ->); [unfold W in *; lia|].
  assert (2^30 <= k).
  { apply le_IZR. rewrite <- Hk.
    assert (T : rnd (IZR (2^30-32)) = IZR (2^30)).
    { pose proof (f_of_Z_u32 (2^30-32)) as [A _]; [easy|]. rewrite <- A.
      unfold R_. replace (f_of_Z (2^30-32)) with (f_of_Z (2^30)) by (vm_compute; reflexivity).
      pose proof (f_of_Z_u32 (2^30)) as [B _]; [easy|]. unfold R_ in B. rewrite B.
      apply round_generic; [typeclasses eauto|]. change (IZR (2^30)) with (bpow radix2 30).
      apply generic_format_bpow. vm_compute. easy. }
    rewrite <- T. apply rnd_le, IZR_le. lia. }
  destruct (Z.ltb_spec (4*k) W); [unfold W in *; lia|reflexivity].
Qed.

(** ** Loops *)
Section LoopProofs.
  Variable cond : f32 -> bool.
  Variable body : f32 -> f32.

  (** State of the C loop after n executions of its body. *)
  Definition steps (n : nat) (s : f32) : f32 := Nat.iter n body s.

  Lemma steps_plus n m s : steps (n + m) s = steps m (steps n s).
  Proof.
    unfold steps. rewrite Nat.add_comm. induction m; simpl; [reflexivity|now rewrite IHm].
  Qed.

  Lemma loopk_steps k s :
    match loopk cond body k s with
    | LDone r => exists n, r = steps n s /\ cond r = false /\ forall j, (j < n)%nat -> cond (steps j s) = true
    | LMore r => exists n, r = steps n s /\ forall j, (j < n)%nat -> cond (steps j s) = true
    | LStuck => exists n, cond (steps n s) = true /\ feq (body (steps n s)) (steps n s) = true
                          /\ forall j, (j < n)%nat -> cond (steps j s) = true
    end.
  Proof.
    revert s. induction k as [|k IH]; intros s.
    - cbn [loopk]. unfold loop1. destruct (cond s) eqn:C.
      + destruct (feq (body s) s) eqn:E.
        * exists 0%nat. repeat split; auto. intros; lia.
        * exists 1%nat. split; [reflexivity|]. intros j Hj. replace j with 0%nat by lia. exact C.
      + exists 0%nat. repeat split; auto. intros; lia.
    - cbn [loopk]. generalize (IH s). destruct (loopk cond body k s) as [r|r|]; intros Hs; try exact Hs.
      destruct Hs as (n & -> & Hn). generalize (IH (steps n s)).
      destruct (loopk cond body k (steps n s)) as [r|r|].
      + intros (m & -> & C & Hm). exists (n + m)%nat. rewrite steps_plus. repeat split; auto.
        intros j Hj. destruct (Nat.lt_ge_cases j n); [auto|].
        replace j with (n + (j - n))%nat by lia. rewrite steps_plus. apply Hm. lia.
      + intros (m & -> & Hm). exists (n + m)%nat. rewrite steps_plus. repeat split; auto.
        intros j Hj. destruct (Nat.lt_ge_cases j n); [auto|].
        replace j with (n + (j - n))%nat by lia. rewrite steps_plus. apply Hm. lia.
      + intros (m & C & E & Hm). exists (n + m)%nat. rewrite steps_plus. repeat split; auto.
        intros j Hj. destruct (Nat.lt_ge_cases j n); [auto|].
        replace j with (n + (j - n))%nat by lia. rewrite steps_plus. apply Hm. lia.
  Qed.

  Lemma while_f_steps s r : while_f cond body s = Ok r ->
    exists n, r = steps n s /\ cond r = false /\ forall j, (j < n)%nat -> cond (steps j s) = true.
  Proof.
    unfold while_f. generalize (loopk_steps 64 s). destruct (loopk cond body 64 s); intros L E; try discriminate E.
    injection E as <-. exact L.
  Qed.

  Lemma while_f_exit s : cond s = false -> while_f cond body s = Ok s.
  Proof.
    intros C. unfold while_f. replace (loopk cond body 64 s) with (LDone s); [reflexivity|].
    generalize 64%nat as k. induction k; cbn [loopk]; [unfold loop1; now rewrite C|].
    now rewrite <- IHk.
  Qed.

  Variable I : f32 -> Prop.

  (** An invariant of the loop holds on exit. *)
  Lemma while_f_inv s r :
    (forall x, I x -> cond x = true -> I (body x)) -> I s ->
    while_f cond body s = Ok r -> I r /\ cond r = false.
  Proof.
    intros HI Hs E. destruct (while_f_steps s r E) as (n & -> & C & Hn). split; [|exact C].
    clear E C. assert (P : forall m, (m <= n)%nat -> I (steps m s)).
    { induction m; intros; [exact Hs|]. apply HI; [apply IHm; lia|apply Hn; lia]. }
    apply P. lia.
  Qed.

  Variable mu : f32 -> R.
  Variable B : R.

  Lemma while_f_terminates s :
    (forall x, I x -> cond x = true -> I (body x) /\ (mu (body x) <= mu x - 1)%R /\ feq (body x) x = false) ->
    (forall x, I x -> (- B <= mu x)%R) ->
    I s -> (mu s + B < 2 ^ 64)%R ->
    exists r, while_f cond body s = Ok r.
  Proof.
    intros Hstep Hlow Hs Hmu.
    assert (K : forall k x, I x ->
       match loopk cond body k x with
       | LDone _ => True
       | LMore y => I y /\ (mu y <= mu x - 2 ^ k)%R
       | LStuck => False
       end).
    { induction k as [|k IH]; intros x Hx.
      - cbn [loopk]. unfold loop1. destruct (cond x) eqn:C; [|exact Logic.I].
        destruct (Hstep x Hx C) as (A1 & A2 & A3). rewrite A3. split; [exact A1|]. simpl. lra.
      - cbn [loopk]. specialize (IH x Hx) as K1. destruct (loopk cond body k x) as [y|y|]; try exact K1.
        destruct K1 as [Iy My]. specialize (IH y Iy) as K2.
        destruct (loopk cond body k y) as [z|z|]; try exact K2.
        destruct K2 as [Iz Mz]. split; [exact Iz|]. simpl. lra. }
    specialize (K 64%nat s Hs). unfold while_f.
    destruct (loopk cond body 64 s) as [y|y|]; [eexists; reflexivity| |easy].
    destruct K as [Iy My]. specialize (Hlow y Iy). lra.
  Qed.
End LoopProofs.

(** ** clamp_angle *)
Lemma R_zero s : R_ (S754_zero s) = 0%R.
Proof. reflexivity. Qed.
Lemma fin_zero s : fin (S754_zero s).
Proof. reflexivity. Qed.

Lemma fpos_R x : vf x -> fin x -> flt f_zero x = true -> (0 < R_ x)%R.
Proof. intros V F L. apply flt_iff in L; auto with vf. Qed.

Lemma fsub_pos_correct s m : vf s -> vf m -> fin s -> fin m -> (0 < R_ m)%R -> (R_ m <= R_ s)%R ->
  R_ (fsub s m) = rnd (R_ s - R_ m) /\ fin (fsub s m) /\ (0 <= R_ (fsub s m) <= R_ s)%R.
Proof.
  intros Vs Vm Fs Fm Hm Hs.
  assert (B : (0 <= rnd (R_ s - R_ m) <= R_ s)%R).
  { split; [rewrite <- rnd_0; apply rnd_le; lra|]. rewrite <- (rnd_R s) at 2 by assumption. apply rnd_le; lra. }
  destruct (fsub_correct s m) as [A C]; auto.
  - rewrite Rabs_pos_eq by apply B. eapply Rle_lt_trans; [apply B|].
    eapply Rle_lt_trans; [apply Rle_abs|]. now apply R_lt_max.
  - rewrite A. auto.
Qed.

Lemma fadd_neg_correct s m : vf s -> vf m -> fin s -> fin m -> (0 < R_ m)%R -> (R_ s < 0)%R ->
  R_ (fadd s m) = rnd (R_ s + R_ m) /\ fin (fadd s m) /\ (R_ s <= R_ (fadd s m) <= R_ m)%R.
Proof.
  intros Vs Vm Fs Fm Hm Hs.
  assert (B : (R_ s <= rnd (R_ s + R_ m) <= R_ m)%R).
  { split; [rewrite <- (rnd_R s) at 1 by assumption|rewrite <- (rnd_R m) at 2 by assumption]; apply rnd_le; lra. }
  destruct (fadd_correct s m) as [A C]; auto.
  - assert (A1 := R_lt_max s Vs Fs). assert (A2 := R_lt_max m Vm Fm).
    apply Rabs_def2 in A1. apply Rabs_def2 in A2. apply Rabs_def1; lra.
  - rewrite A. auto.
Qed.

(** Range of the result, for every finite angle and positive cycle. *)
Lemma clamp_angle_range a m r : vf a -> vf m -> fin a -> fin m -> flt f_zero m = true ->
  clamp_angle a m = Ok r -> vf r /\ fin r /\ fge r f_zero = true /\ flt r m = true.
Proof.
  intros Va Vm Fa Fm Hm. apply fpos_R in Hm; auto.
  unfold clamp_angle. destruct (while_f _ _ a) as [a1|] eqn:E1; cbn [bind]; [|discriminate].
  intros E2.
  assert (S1 : (fun x => vf x /\ fin x) a1 /\ flt a1 f_zero = false).
  { refine (while_f_inv _ _ (fun x => vf x /\ fin x) a a1 _ (conj Va Fa) E1). intros x [Vx Fx] C. apply flt_iff in C; auto with vf. rewrite R_f_zero in C.
    destruct (fadd_neg_correct x m) as (_ & A & _); auto with vf. }
  destruct S1 as [[V1 F1] C1].
  assert (P1 : (0 <= R_ a1)%R) by (apply flt_false_iff in C1; auto with vf).
  assert (S2 : (fun x => vf x /\ fin x /\ (0 <= R_ x)%R) r /\ fge r m = false).
  { refine (while_f_inv _ _ (fun x => vf x /\ fin x /\ (0 <= R_ x)%R) a1 r _ (conj V1 (conj F1 P1)) E2). intros x (Vx & Fx & Px) C. unfold fge in C. apply fle_iff in C; auto.
    destruct (fsub_pos_correct x m) as (_ & A & B); auto. repeat split; auto with vf. apply B. }
  destruct S2 as [(V2 & F2 & P2) C2].
  unfold fge in C2. apply fle_false_iff in C2; auto.
  repeat split; auto.
  - unfold fge. apply fle_iff; auto with vf.
  - apply flt_iff; auto.
Qed.

Lemma clamp_angle_id a m : fge a f_zero = true -> flt a m = true -> clamp_angle a m = Ok a.
Proof.
  intros H1 H2. unfold clamp_angle.
  rewrite while_f_exit; [cbn [bind]; apply while_f_exit|].
  - unfold fge, flt, SFleb, SFltb in *. unfold fge.
    assert (S : SFcompare m a = match SFcompare a m with Some c => Some (CompOpp c) | None => None end).
    { clear. destruct a as [sa|sa| |sa ma ea], m as [sm|sm| |sm mm em]; try reflexivity; try (now destruct sa); try (now destruct sm);
        try (now destruct sa, sm).
      cbn [SFcompare]. destruct sa, sm; try reflexivity.
      - rewrite (Z.compare_antisym ea em). destruct (ea ?= em); simpl; try reflexivity.
        change (Pcompare ?u ?v Eq) with (Pos.compare_cont Eq u v).
        rewrite <- (Pos.compare_cont_antisym _ _ Eq). now destruct (Pos.compare_cont Eq _ _).
      - rewrite (Z.compare_antisym ea em). destruct (ea ?= em); simpl; try reflexivity.
        rewrite <- (Pos.compare_cont_antisym _ _ Eq). now destruct (Pos.compare_cont Eq _ _). }
    unfold SFleb. rewrite S. destruct (SFcompare a m) as [[| |]|]; try discriminate H2. reflexivity.
  - unfold fge, flt, SFleb, SFltb in *.
    destruct a as [sa|sa| |sa ma ea]; try (now destruct sa); try reflexivity; try discriminate.
Qed.

(** Values on a common binary grid are handled without rounding error. *)
Lemma generic_grid i e : Z.abs i <= 2 ^ 24 -> -149 <= e -> generic_format radix2 fexp32 (IZR i * bpow radix2 e).
Proof.
  intros Hi He. change fexp32 with (FLT_exp (-149) 24).
  destruct (Z.eq_dec (Z.abs i) (2 ^ 24)) as [E|N].
  - apply generic_format_FLT. exists (Float radix2 (Z.sgn i) (24 + e)).
    + unfold F2R; cbn [Fnum Fexp]. rewrite <- (Z.abs_sgn i) at 1. rewrite E.
      rewrite mult_IZR, bpow_plus. change (IZR (2^24)) with (bpow radix2 24). ring.
    + cbn [Fnum]. destruct i; simpl; lia.
    + cbn [Fexp]. lia.
  - apply generic_format_FLT. exists (Float radix2 i e); cbn [Fnum Fexp]; try lia.
    + reflexivity.
    + change (Zpower radix2 24) with (2 ^ 24). lia.
Qed.

Lemma rnd_grid i e : Z.abs i <= 2 ^ 24 -> -149 <= e -> rnd (IZR i * bpow radix2 e) = (IZR i * bpow radix2 e)%R.
Proof. intros. apply round_generic; [typeclasses eauto|now apply generic_grid]. Qed.

Lemma grid_lt_max i e : Z.abs i <= 2 ^ 24 -> -149 <= e <= 100 -> (Rabs (IZR i * bpow radix2 e) < fmaxR)%R.
Proof.
  intros Hi He. rewrite Rabs_mult, (Rabs_pos_eq (bpow _ _)) by apply bpow_ge_0.
  rewrite <- abs_IZR. apply Rle_lt_trans with (bpow radix2 24 * bpow radix2 e)%R.
  - apply Rmult_le_compat_r; [apply bpow_ge_0|]. change (bpow radix2 24) with (IZR (2^24)). now apply IZR_le.
  - rewrite <- bpow_plus. unfold fmaxR. apply bpow_lt. unfold femax. lia.
Qed.

Lemma clamp_angle_grid a m i j e :
  vf a -> vf m -> fin a -> fin m -> -149 <= e <= 100 ->
  R_ a = (IZR i * bpow radix2 e)%R -> R_ m = (IZR j * bpow radix2 e)%R ->
  Z.abs i <= 2 ^ 23 -> 0 < j <= 2 ^ 23 ->
  exists r, clamp_angle a m = Ok r /\ vf r /\ fin r /\ R_ r = (IZR (i mod j) * bpow radix2 e)%R.
Proof.
  intros Va Vm Fa Fm He Ra Rm Hi Hj.
  assert (Pe := bpow_gt_0 radix2 e).
  assert (Lt : forall u v, (IZR u * bpow radix2 e < IZR v * bpow radix2 e)%R <-> u < v).
  { intros; split; intros L; [apply lt_IZR; now apply Rmult_lt_reg_r in L|].
    apply Rmult_lt_compat_r; [assumption|now apply IZR_lt]. }
  assert (Le : forall u v, (IZR u * bpow radix2 e <= IZR v * bpow radix2 e)%R <-> u <= v).
  { intros; split; intros L; [apply le_IZR; now apply Rmult_le_reg_r in L|].
    apply Rmult_le_compat_r; [lra|now apply IZR_le]. }
  assert (Z0 : R_ f_zero = (IZR 0 * bpow radix2 e)%R) by (rewrite R_f_zero; lra).
  set (I1 := fun x => vf x /\ fin x /\ exists u, R_ x = (IZR u * bpow radix2 e)%R /\ Z.abs u <= 2^23 /\ u mod j = i mod j).
  assert (St1 : forall x, I1 x -> flt x f_zero = true ->
     I1 (fadd x m) /\ (- (R_ (fadd x m) / bpow radix2 e) <= - (R_ x / bpow radix2 e) - 1)%R /\ feq (fadd x m) x = false).
  { intros x (Vx & Fx & u & Ru & Bu & Cu) C. apply flt_iff in C; auto with vf. rewrite Z0, Ru, Lt in C.
    assert (Sum : (R_ x + R_ m = IZR (u + j) * bpow radix2 e)%R) by (rewrite Ru, Rm, plus_IZR; ring).
    destruct (fadd_correct x m) as [A F]; auto.
    { rewrite Sum, rnd_grid by lia. apply grid_lt_max; lia. }
    rewrite Sum, rnd_grid in A by lia. split; [|split].
    - split; [auto with vf|]. split; [exact F|]. exists (u + j). split; [exact A|]. split; [lia|].
      rewrite <- Z.add_mod_idemp_r, Z.mod_same, Z.add_0_r by lia. exact Cu.
    - rewrite A, Ru. unfold Rdiv. rewrite !Rmult_assoc, Rinv_r by lra. rewrite plus_IZR.
      assert (1 <= IZR j)%R by (apply IZR_le; lia). lra.
    - rewrite feq_correct; auto with vf. apply Req_bool_false. rewrite A, Ru. intros E.
      apply Rmult_eq_reg_r in E; [|lra]. apply eq_IZR in E. lia. }
  destruct (while_f_terminates (fun a => flt a f_zero) (fun a => fadd a m) I1 (fun x => - (R_ x / bpow radix2 e))%R (IZR (2^23)) a) as [a1 E1]; auto.
  { intros x (_ & _ & u & Ru & Bu & _). rewrite Ru. unfold Rdiv. rewrite Rmult_assoc, Rinv_r by lra.
    rewrite Rmult_1_r. apply Ropp_le_contravar, IZR_le. lia. }
  { repeat split; auto. exists i. auto. }
  { rewrite Ra. unfold Rdiv. rewrite Rmult_assoc, Rinv_r, Rmult_1_r by lra.
    rewrite <- opp_IZR, <- plus_IZR. rewrite pow_IZR. apply IZR_lt.
    apply Z.le_lt_trans with (2^24); [lia|reflexivity]. }
  assert (P1 : I1 a1 /\ flt a1 f_zero = false).
  { refine (while_f_inv _ _ I1 a a1 _ _ E1).
    - intros x Ix C. now apply St1.
    - repeat split; auto. exists i. auto. }
  destruct P1 as [(V1 & F1 & u1 & Ru1 & Bu1 & Cu1) C1].
  apply flt_false_iff in C1; auto with vf. rewrite Z0, Ru1, Le in C1.
  set (I2 := fun x => vf x /\ fin x /\ exists u, R_ x = (IZR u * bpow radix2 e)%R /\ 0 <= u <= 2^23 /\ u mod j = i mod j).
  assert (St2 : forall x, I2 x -> fge x m = true ->
     I2 (fsub x m) /\ ((R_ (fsub x m) / bpow radix2 e) <= (R_ x / bpow radix2 e) - 1)%R /\ feq (fsub x m) x = false).
  { intros x (Vx & Fx & u & Ru & Bu & Cu) C. unfold fge in C. apply fle_iff in C; auto. rewrite Rm, Ru, Le in C.
    assert (Sum : (R_ x - R_ m = IZR (u - j) * bpow radix2 e)%R) by (rewrite Ru, Rm, minus_IZR; ring).
    destruct (fsub_correct x m) as [A F]; auto.
    { rewrite Sum, rnd_grid by lia. apply grid_lt_max; lia. }
    rewrite Sum, rnd_grid in A by lia. split; [|split].
    - split; [auto with vf|]. split; [exact F|]. exists (u - j). split; [exact A|]. split; [lia|].
      rewrite <- Zminus_mod_idemp_r, Z.mod_same, Z.sub_0_r by lia. exact Cu.
    - rewrite A, Ru. unfold Rdiv. rewrite !Rmult_assoc, Rinv_r by lra. rewrite minus_IZR.
      assert (1 <= IZR j)%R by (apply IZR_le; lia). lra.
    - rewrite feq_correct; auto with vf. apply Req_bool_false. rewrite A, Ru. intros E.
      apply Rmult_eq_reg_r in E; [|lra]. apply eq_IZR in E. lia. }
  assert (I2a : I2 a1) by (repeat split; auto; exists u1; repeat split; auto; lia).
  destruct (while_f_terminates (fun a => fge a m) (fun a => fsub a m) I2 (fun x => (R_ x / bpow radix2 e))%R 0%R a1) as [r E2]; auto.
  { intros x (_ & _ & u & Ru & Bu & _). rewrite Ru. unfold Rdiv. rewrite Rmult_assoc, Rinv_r by lra.
    rewrite Rmult_1_r, Ropp_0. apply IZR_le. lia. }
  { rewrite Ru1. unfold Rdiv. rewrite Rmult_assoc, Rinv_r, Rmult_1_r by lra.
    rewrite Rplus_0_r. rewrite pow_IZR. apply IZR_lt.
    apply Z.le_lt_trans with (2^24); [lia|reflexivity]. }
  exists r. unfold clamp_angle. rewrite E1. cbn [bind]. split; [exact E2|].
  assert (P2 : I2 r /\ fge r m = false).
  { refine (while_f_inv _ _ I2 a1 r _ I2a E2). intros x Ix C. now apply St2. }
  destruct P2 as [(V2 & F2 & u2 & Ru2 & Bu2 & Cu2) C2]. repeat split; auto.
  unfold fge in C2. apply fle_false_iff in C2; auto. rewrite Rm, Ru2, Lt in C2.
  rewrite Ru2. do 2 f_equal. rewrite <- Cu2. symmetry. apply Z.mod_small. lia.
Qed.

(** Rounding error of a sum below 2^23 is at most one half. *)
Lemma rnd_err_half x : (Rabs x <= bpow radix2 23)%R -> (Rabs (rnd x - x) <= / 2)%R.
Proof.
  intros Hx. eapply Rle_trans; [apply error_le_half_ulp; typeclasses eauto|].
  apply Rle_trans with (/ 2 * ulp radix2 fexp32 (bpow radix2 23))%R.
  - apply Rmult_le_compat_l; [lra|]. apply ulp_le; try typeclasses eauto.
    rewrite (Rabs_pos_eq (bpow _ _)) by apply bpow_ge_0. exact Hx.
  - rewrite ulp_bpow. change (fexp32 (23+1)) with 0. simpl. lra.
Qed.

Lemma clamp_angle_terminates a m :
  vf a -> vf m -> fin a -> fin m -> (Rabs (R_ a) <= bpow radix2 23)%R -> (1 <= R_ m <= bpow radix2 16)%R ->
  exists r, clamp_angle a m = Ok r.
Proof.
  intros Va Vm Fa Fm Ha Hm.
  assert (B16 : bpow radix2 16 = 65536%R) by (simpl; lra).
  assert (B23 : bpow radix2 23 = 8388608%R) by (simpl; lra).
  set (I1 := fun x => vf x /\ fin x /\ (Rabs (R_ x) <= bpow radix2 23)%R).
  assert (St1 : forall x, I1 x -> flt x f_zero = true ->
     I1 (fadd x m) /\ (- 2 * (R_ (fadd x m)) <= - 2 * (R_ x) - 1)%R /\ feq (fadd x m) x = false).
  { intros x (Vx & Fx & Bx) C. apply flt_iff in C; auto with vf. rewrite R_f_zero in C.
    destruct (fadd_neg_correct x m) as (A & F & B); auto; [lra|].
    apply Rabs_le_inv in Bx.
    assert (E : (Rabs (rnd (R_ x + R_ m) - (R_ x + R_ m)) <= /2)%R) by (apply rnd_err_half, Rabs_le; lra).
    apply Rabs_le_inv in E. rewrite <- A in E.
    split; [|split].
    - repeat split; auto with vf. apply Rabs_le. lra.
    - lra.
    - rewrite feq_correct; auto with vf. apply Req_bool_false. lra. }
  destruct (while_f_terminates (fun a => flt a f_zero) (fun a => fadd a m) I1 (fun x => - 2 * (R_ x))%R (IZR (2^24)) a) as [a1 E1]; auto.
  { intros x (_ & _ & Bx). apply Rabs_le_inv in Bx. rewrite B23 in Bx. simpl. lra. }
  { repeat split; auto. }
  { apply Rabs_le_inv in Ha. rewrite B23 in Ha. rewrite pow_IZR. simpl. lra. }
  assert (P1 : I1 a1 /\ flt a1 f_zero = false).
  { refine (while_f_inv _ _ I1 a a1 _ _ E1); [|repeat split; auto]. intros x Ix C. now apply St1. }
  destruct P1 as [(V1 & F1 & Bu1) C1]. apply flt_false_iff in C1; auto with vf. rewrite R_f_zero in C1.
  set (I2 := fun x => vf x /\ fin x /\ (0 <= R_ x <= bpow radix2 23)%R).
  assert (I2a : I2 a1) by (apply Rabs_le_inv in Bu1; repeat split; auto; lra).
  assert (St2 : forall x, I2 x -> fge x m = true ->
     I2 (fsub x m) /\ (2 * (R_ (fsub x m)) <= 2 * (R_ x) - 1)%R /\ feq (fsub x m) x = false).
  { intros x (Vx & Fx & Bx) C. unfold fge in C. apply fle_iff in C; auto.
    destruct (fsub_pos_correct x m) as (A & F & B); auto; [lra|].
    assert (E : (Rabs (rnd (R_ x - R_ m) - (R_ x - R_ m)) <= /2)%R) by (apply rnd_err_half, Rabs_le; lra).
    apply Rabs_le_inv in E. rewrite <- A in E.
    split; [|split].
    - repeat split; auto with vf; lra.
    - lra.
    - rewrite feq_correct; auto with vf. apply Req_bool_false. lra. }
  destruct (while_f_terminates (fun a => fge a m) (fun a => fsub a m) I2 (fun x => 2 * (R_ x))%R 0%R a1) as [r E2]; auto.
  { intros x (_ & _ & Bx). lra. }
  { apply Rabs_le_inv in Bu1. rewrite B23 in Bu1. rewrite pow_IZR. simpl. lra. }
  exists r. unfold clamp_angle. rewrite E1. exact E2.
Qed.
