(** C78: the frequency inputs. *)
Require Import ZArith Reals List Bool Lia Lra.
From Flocq Require Import Core.
From Verif Require Import Res Word F32 F32Flocq AngleProofs TimeProofs RelErr DecoderProofs Sensors P_Sensors P_SensorInputs Freq FreqSpec.
Import ListNotations.
Open Scope Z_scope.
Ltac Zify.zify_post_hook ::= idtac.

Lemma Forall2_len A B (P : A -> B -> Prop) l l' : Forall2 P l l' -> length l = length l'.
Proof. induction 1; cbn [length]; congruence. Qed.

Lemma nth_combine A B (l1 : list A) (l2 : list B) k a b : nth_error l1 k = Some a -> nth_error l2 k = Some b -> nth_error (combine l1 l2) k = Some (a, b).
Proof. revert l1 l2. induction k as [|k IH]; intros [|x l1] [|y l2] E1 E2; cbn in *; try discriminate; [congruence|]. apply IH; auto. Qed.

Lemma run_seen h : forall s p last, ch_if s = (match p with Some _ => true | None => false end) -> (forall t, p = Some t -> ch_cv s = w32 t) -> ch_last s = w32 last ->
  Forall2 (fun lt u => u = freq_of_capture (w32 (fst lt)) (w32 (snd lt))) (combine (last :: seen_edges p h) (seen_edges p h)) (ch2_run s h).
Proof.
  induction h as [|e h IH]; intros s p last Hi Hp Hl; [constructor|]. destruct e as [t|]; cbn [ch2_run ch2_do seen_edges].
  - cbn [app]. apply (IH _ (Some t)); cbn [ch_if ch_cv ch_last]; auto. intros t' E. congruence.
  - destruct p as [t|]; rewrite Hi; cbv iota.
    + specialize (Hp t eq_refl). cbn [combine app]. constructor; [cbn [fst snd]; congruence|]. apply (IH _ None); cbn [ch_if ch_cv ch_last]; auto; discriminate.
    + cbn [app]. apply (IH s None); auto.
Qed.

(** Every update is about the last two edges the handler saw: it carries the time of
    the later one, and the frequency 4 MHz / (their distance) up to one part in two
    million, for any distance below 2^32 ticks (1073 s), also across a wrap of the
    counter. The first update is about the first edge and the start of the counter. *)
Theorem C78_frequency : forall h, let l := seen_edges None h in let us := ch2_run ch2_init h in length us = length l /\
  forall k last t u, nth_error (0 :: l) k = Some last -> nth_error l k = Some t -> nth_error us k = Some u -> 0 < t - last < 2 ^ 32 ->
  f_pin u = 2 /\ f_time u = t mod 2 ^ 32 /\ f_valid u = true /\ fin (f_frequency u) /\ nearly (R_ (f_frequency u)) (4000000 / IZR (t - last)).
Proof.
  intros h l us. pose proof (run_seen h ch2_init None 0 eq_refl ltac:(discriminate) eq_refl) as F. fold l us in F. split.
  { apply Forall2_len in F. rewrite combine_length in F. cbn [length] in F. lia. }
  intros k last t u E1 E2 E3 Hd.
  assert (G : u = freq_of_capture (w32 last) (w32 t)).
  { clear -F E1 E2 E3. revert F E1 E2 E3. generalize us. clear us. intros us F E1 E2 E3. assert (N : nth_error (combine (0 :: l) l) k = Some (last, t)).
    { now apply nth_combine. }
    clear E1 E2. revert us k N F E3. generalize (combine (0 :: l) l). intros cl us k N F. revert k N. induction F as [|x y cl us R F IH]; intros k N E3; destruct k; cbn in *; try discriminate; [assert (x = (last, t)) by congruence; subst x; cbn in R; congruence|]. eapply IH; eauto. }
  subst u. unfold freq_of_capture. assert (P : w32 (w32 t - w32 last) = t - last) by (unfold w32, W; rewrite <- Zminus_mod; apply Z.mod_small; lia). rewrite P.
  destruct (Z.eqb_spec (t - last) 0); [lia|]. cbn [negb f_pin f_time f_valid f_frequency]. split; [reflexivity|]. split; [reflexivity|]. split; [reflexivity|].
  destruct (interval_ratio 4000000 (t - last)) as (_ & Fi & (Po & _ & B)); [lia|lia|]. split; [exact Fi|]. unfold nearly. rewrite ur_val in B. apply Rabs_le. lra.
Qed.
Print Assumptions C78_frequency.

(** With a prompt handler these are all the edges. *)
Theorem C78_every_edge : forall h, prompt false h -> seen_edges None h = edges h.
Proof.
  assert (G : forall h, (prompt false h -> seen_edges None h = edges h) /\ forall t, prompt true h -> seen_edges (Some t) h = t :: edges h).
  { induction h as [|e h [IH1 IH2]]; split; cbn [prompt seen_edges edges flat_map]; try discriminate; auto.
    - destruct e as [t|]; intros H; [destruct H as [_ H]; cbn [app]; now apply IH2|cbn [app]; now apply IH1].
    - intros t. destruct e as [t'|]; intros H; [destruct H; discriminate|]. cbn [app]. f_equal. now apply IH1. }
  intros h. apply G.
Qed.
Print Assumptions C78_every_edge.

(** When the signal stops there is no update any more: the sensor keeps its last value
    and no fault, for ever. *)
Theorem C78_stopped_signal_refuted : forall h n, ch2_run ch2_init (h ++ [Handler] ++ repeat Handler n) = ch2_run ch2_init (h ++ [Handler]).
Proof.
  intros h n. generalize ch2_init. induction h as [|e h IH]; intros s; cbn [app ch2_run].
  - assert (K : forall s', ch_if s' = false -> ch2_run s' (repeat Handler n) = []) by (induction n as [|n IHn]; intros s' Hs; cbn [repeat ch2_run ch2_do]; [reflexivity|]; rewrite Hs; cbn [app]; auto).
    unfold ch2_do. destruct (ch_if s) eqn:E; rewrite K by auto; reflexivity.
  - destruct (ch2_do s e) as [s' u]. f_equal. apply IH.
Qed.
Print Assumptions C78_stopped_signal_refuted.

(** ** Frequency and pulse width on one input (TIMER8) *)
Lemma counter_range r t : 0 <= counter r t < 65536.
Proof. unfold counter, CAR. apply Z.mod_pos_bound. lia. Qed.

(** A signal with periods between 15.3 us (one count) and 1.0005 s, of which it is
    active for some time below the period: the update is valid; the frequency is too
    high by 0.04 to 0.05 % (the prescaler divides by 2931 where the handler assumes
    2929.7) and at most one count of the period; the pulse width, in seconds, is too
    low by at most 0.05 % and one count (15.3 us). Times are in cycles of 192 MHz. *)
Theorem C78_pulse : forall now r f r', 2931 <= r' - r < 2931 * 65536 -> r < f < r' -> let u := pw_period now r f r' in
  f_pin u = 3 /\ f_time u = now /\ f_valid u = true /\ fin (f_frequency u) /\ fin (f_pulsewidth u) /\
  let hz := (192000000 / IZR (r' - r))%R in let width := (IZR (f - r) / 192000000)%R in
  (hz * (1 + / 2500) <= R_ (f_frequency u) <= hz * (1 + / 2000 + 5900 / IZR (r' - r)))%R /\
  (width * (1 - / 2000) - / 65536 <= R_ (f_pulsewidth u) <= width)%R.
Proof.
  intros now r f r' H1 H2 u. unfold u, pw_period, pw_of_capture. clear u. pose proof (counter_range r r') as C1. pose proof (counter_range r f) as C2.
  assert (Dn : 1 <= (r' - r) / 2931 < 65536) by (split; [apply Z.div_le_lower_bound; lia|apply Z.div_lt_upper_bound; lia]).
  assert (Dp : 0 <= (f - r) / 2931 < 65536) by (split; [apply Z.div_pos; lia|apply Z.div_lt_upper_bound; lia]).
  assert (En : counter r r' = (r' - r) / 2931) by (unfold counter, PSC, CAR; apply Z.mod_small; exact (conj (Z.le_trans _ _ _ Z.le_0_1 (proj1 Dn)) (proj2 Dn))).
  assert (Ep : counter r f = (f - r) / 2931) by (unfold counter, PSC, CAR; apply Z.mod_small; exact Dp).
  rewrite En, Ep. pose proof (Z.div_mod (r' - r) 2931 ltac:(lia)) as Mn. pose proof (Z.mod_pos_bound (r' - r) 2931 ltac:(lia)) as Bn. pose proof (Z.div_mod (f - r) 2931 ltac:(lia)) as Mp. pose proof (Z.mod_pos_bound (f - r) 2931 ltac:(lia)) as Bp.
  set (n := (r' - r) / 2931) in *. set (p := (f - r) / 2931) in *. set (d := r' - r) in *. set (e := f - r) in *. clearbody n p d e.
  destruct (Z.eqb_spec n 0); [lia|]. cbn [negb f_pin f_time f_valid f_frequency f_pulsewidth]. split; [reflexivity|]. split; [reflexivity|]. split; [reflexivity|].
  assert (Rn : (IZR n * 2931 <= IZR d < (IZR n + 1) * 2931)%R) by (rewrite <- !plus_IZR, <- !mult_IZR; split; [apply IZR_le|apply IZR_lt]; lia).
  assert (Rp : (IZR p * 2931 <= IZR e < (IZR p + 1) * 2931)%R) by (rewrite <- !plus_IZR, <- !mult_IZR; split; [apply IZR_le|apply IZR_lt]; lia).
  assert (N1 : (1 <= IZR n <= 65535)%R) by (split; apply IZR_le; lia).
  destruct (interval_ratio 65536 n) as (_ & Fi & (Po & _ & B)); [lia|lia|]. split; [exact Fi|].
  destruct (f_of_Z_exact p) as [Xp Fp]; [lia|]. destruct (f_of_Z_exact 65536) as [Xq Fq]; [lia|].
  assert (Dv : fin (fdiv (f_of_Z p) (f_of_Z 65536)) /\ R_ (fdiv (f_of_Z p) (f_of_Z 65536)) = (IZR p / 65536)%R).
  { assert (P0 : (0 <= IZR p <= 65535)%R) by (split; apply IZR_le; lia).
    destruct (fdiv_ok (f_of_Z p) (f_of_Z 65536) 0) as [E F]; auto with vf; rewrite ?Xp, ?Xq; try lra; [lia|change (bpow radix2 0) with 1%R; rewrite Rabs_pos_eq; lra|].
    split; [exact F|]. rewrite E, Xp, Xq. change (IZR 65536) with (65536)%R. replace (IZR p / 65536)%R with (IZR p * bpow radix2 (-16))%R by (change (bpow radix2 (-16)) with (/ 65536)%R; lra). apply rnd_grid; lia. }
  destruct Dv as [Fd Ed]. split; [exact Fd|]. cbv zeta. rewrite Ed. split.
  - rewrite ur_val in B. set (x := (IZR 65536 / IZR n)%R) in *. set (q := R_ (fdiv (f_of_Z 65536) (f_of_Z n))) in *. clearbody q.
    assert (D0 : (0 < IZR d)%R) by lra. assert (Ex : x = (192000000 / IZR d * (65536 / 192000000 * (IZR d / IZR n)))%R) by (unfold x; field; lra).
    set (hz := (192000000 / IZR d)%R) in *. assert (Hz : (0 < hz)%R) by (apply Rdiv_lt_0_compat; lra).
    assert (Q : (2931 <= IZR d / IZR n)%R) by (apply Rmult_le_reg_r with (IZR n); [lra|]; replace (IZR d / IZR n * IZR n)%R with (IZR d) by (field; lra); lra).
    assert (Q2 : (IZR d / IZR n <= 2931 + 2931 / IZR n)%R) by (replace (2931 + 2931 / IZR n)%R with ((IZR n + 1) * 2931 / IZR n)%R by (field; lra); unfold Rdiv; apply Rmult_le_compat_r; [left; apply Rinv_0_lt_compat; lra|lra]).
    assert (Q3 : (2931 / IZR n <= 2931 * 5862 / IZR d)%R).
    { unfold Rdiv. rewrite Rmult_assoc. apply Rmult_le_compat_l; [lra|]. apply Rmult_le_reg_r with (IZR d * IZR n)%R; [apply Rmult_lt_0_compat; lra|]. replace (/ IZR n * (IZR d * IZR n))%R with (IZR d) by (field; lra). replace (5862 * / IZR d * (IZR d * IZR n))%R with (5862 * IZR n)%R by (field; lra). lra. }
    assert (D2 : (2931 * 5862 / IZR d <= 5862)%R). { apply Rmult_le_reg_r with (IZR d); [lra|]. replace (2931 * 5862 / IZR d * IZR d)%R with (2931 * 5862)%R by (field; lra). lra. }
    assert (D3 : (2931 * 5862 / IZR d = 2931 * (5862 * / IZR d))%R) by (field; lra). assert (D4 : (5900 / IZR d = 5900 * / IZR d)%R) by (field; lra). assert (D5 : (0 < / IZR d)%R) by (apply Rinv_0_lt_compat; lra).
    set (v := (IZR d / IZR n)%R) in *. set (i := (/ IZR d)%R) in *.
    destruct B as [B1 B2]. split.
    + eapply Rle_trans; [|exact B1]. rewrite Ex. rewrite Rmult_assoc. apply Rmult_le_compat_l; lra.
    + eapply Rle_trans; [exact B2|]. rewrite Ex. rewrite Rmult_assoc. apply Rmult_le_compat_l; [lra|]. lra.
  - assert (P0 : (0 <= IZR p)%R) by (apply IZR_le; lia). split; lra.
Qed.
Print Assumptions C78_pulse.

(** After a rising edge and without a further one, the timer overflows once in each
    1.0005 s, and not before; at that, every frequency and pulse width sensor on the
    input goes to its fault value. *)
Theorem C78_timeout : forall r now v l l' i c s, (forall t, r < t < r + 2931 * 65536 -> overflows r t = false) /\ overflows r (r + 2931 * 65536) = true /\ (sensor_update_freq v (pw_timeout now) l = Ok l' -> nth_error l i = Some (c, s) -> c_pin c = 3 -> c_source c = SRC_FREQ \/ c_source c = SRC_PULSEWIDTH ->
   exists s', nth_error l' i = Some (c, s') /\ a_fault s' <> FAULT_NONE /\ a_value s' = c_fault_value c).
Proof.
  intros r now v l l' i c s. unfold overflows, PSC, CAR. split; [|split].
  - intros t H. apply andb_false_intro2. apply Z.eqb_neq. rewrite Z.mod_small by lia. lia.
  - replace (r + 2931 * 65536 - r) with (2931 * 65536) by lia. destruct (Z.ltb_spec r (r + 2931 * 65536)); [reflexivity|lia].
  - intros H E P S. destruct (C65_freq _ _ _ _ _ _ _ H E) as (s' & E' & [K|[K|K]]); exists s'; (split; [exact E'|]); cbn [pw_timeout f_valid f_pin] in K.
    + destruct K as (_ & _ & _ & _ & F & V). split; [now apply F|now apply V].
    + destruct K as (_ & _ & _ & _ & F & V). split; [now apply F|now apply V].
    + destruct K as [[K|[K1 K2]] _]; [congruence|]. destruct S; congruence.
Qed.
Print Assumptions C78_timeout.

(** But the edge after that undoes it with a wrong value: the counter started again from
    0 at the overflow, so a signal of 0.9 Hz is reported as a valid 9.1 Hz once in each
    of its periods. *)
Theorem C78_slow_signal_refuted : exists now r f r', r < f < r' /\ (9 * (r' - r) = 10 * 192000000 - 3)%Z /\
  f_valid (pw_period now r f r') = true /\ (9 <= R_ (f_frequency (pw_period now r f r')) <= 10)%R.
Proof.
  exists 0, 0, 1000000, 213333333. split; [lia|]. split; [lia|].
  assert (E : counter 0 213333333 = 7249) by (vm_compute; reflexivity). unfold pw_period, pw_of_capture. rewrite E. split; [reflexivity|]. cbn [f_frequency].
  change (negb (7249 =? 0)) with true. cbv iota. destruct (interval_ratio 65536 7249) as (_ & _ & (_ & _ & B)); [lia|lia|]. rewrite ur_val in B. lra.
Qed.
Print Assumptions C78_slow_signal_refuted.

(** An example: edges 40000 ticks apart across the wrap of the counter, each handled
    before the next, give 100 Hz; 50 Hz with a pulse of 5 ms on the other input. *)
Example C78_example : let h := [Edge 4294950000; Handler; Edge 4294990000; Handler; Handler; Edge 4295030000; Handler] in
  prompt false h /\ seen_edges None h = [4294950000; 4294990000; 4295030000] /\
  map f_time (ch2_run ch2_init h) = [4294950000; 22704; 62704] /\ map (fun u => f_trunc (f_frequency u)) (ch2_run ch2_init h) = [Some 0; Some 100; Some 100] /\
  2931 <= 3840000 - 0 < 2931 * 65536 /\ 0 < 960000 < 3840000 /\ f_trunc (f_frequency (pw_period 0 0 960000 3840000)) = Some 50 /\
  f_trunc (fmul (f_of_Z 10000) (f_pulsewidth (pw_period 0 0 960000 3840000))) = Some 49 /\
  exists l', sensor_update_freq env0 (pw_timeout 0) [(on_pin 3 SRC_FREQ, sdat0)] = Ok l' /\ map (fun x => a_fault (snd x)) l' = [FAULT_CONN].
Proof. cbv zeta. split; [cbn; tauto|]. do 7 (split; [vm_compute; try reflexivity; try (split; try reflexivity; discriminate)|]). eexists. split; vm_compute; reflexivity. Qed.
