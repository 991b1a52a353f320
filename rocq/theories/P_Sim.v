(** C53: the built-in test wheel. *)
Require Import ZArith Reals List Bool Lia Lra SpecFloat.
From Flocq Require Import Core.
From Verif Require Import Res Word F32 F32Flocq TimeProofs TableProofs AngleProofs PulseProofs RelErr Arr Decoder DecoderProofs DecoderSafe DecoderRun DecoderMissing DecoderAngle DecoderLoss
  Wheel WheelProofs WheelRun WheelAngle P_Wheel WheelCam WheelCamProofs P_WheelCam Sim SimSpec.
Import ListNotations.
Open Scope Z_scope.
Ltac Zify.zify_post_hook ::= idtac.

(** ** The sequence of pulses *)
Definition pos36 (j : nat) : Z := let q := Z.of_nat j / 71 in let r := Z.of_nat j mod 71 in 72 * q + (if r <=? 36 then r else r + 1).

Lemma pos36_split j : exists q r, Z.of_nat j = 71 * q + r /\ 0 <= r < 71 /\ Z.of_nat j mod 71 = r /\ pos36 j = 72 * q + (if r <=? 36 then r else r + 1) /\
  pos36 (S j) = (if r =? 70 then 72 * (q + 1) else 72 * q + (if r <=? 35 then r + 1 else r + 2)).
Proof.
  exists (Z.of_nat j / 71), (Z.of_nat j mod 71). pose proof (Z.div_mod (Z.of_nat j) 71 ltac:(lia)) as E. pose proof (Z.mod_pos_bound (Z.of_nat j) 71 ltac:(lia)) as B.
  split; [exact E|]. split; [exact B|]. split; [reflexivity|]. split; [reflexivity|]. unfold pos36. set (q := Z.of_nat j / 71) in *. set (r := Z.of_nat j mod 71) in *.
  destruct (Z.eqb_spec r 70) as [H|H].
  - destruct (Z.div_mod_unique 71 (Z.of_nat (S j) / 71) (q + 1) (Z.of_nat (S j) mod 71) 0) as [D M]; [left; apply Z.mod_pos_bound; lia|left; lia|rewrite <- Z.div_mod; lia|]. rewrite D, M. cbn [Z.leb]. simpl. lia.
  - destruct (Z.div_mod_unique 71 (Z.of_nat (S j) / 71) q (Z.of_nat (S j) mod 71) (r + 1)) as [D M]; [left; apply Z.mod_pos_bound; lia|left; lia|rewrite <- Z.div_mod; lia|]. rewrite D, M.
    destruct (Z.leb_spec (r + 1) 36), (Z.leb_spec r 35); lia.
Qed.

Lemma pulse36 q r : 0 <= r < 72 -> pulse_at 36 (72 * q + r) = if r =? 1 then Some 1 else if r =? 37 then None else Some 0.
Proof.
  intros H. unfold pulse_at. change (2 * 36) with 72. replace (72 * q + r) with (r + q * 72) by ring. rewrite Z.mod_add, (Z.mod_small r) by lia. destruct (Z.eqb_spec r 1); auto.
  replace (r + q * 72) with (r + (2 * q) * 36) by ring. rewrite Z.mod_add by lia. destruct (Z.lt_ge_cases r 36) as [L|L].
  - rewrite Z.mod_small by lia. destruct (Z.eqb_spec r 1), (Z.eqb_spec r 37); auto; lia.
  - replace r with (r - 36 + 1 * 36) at 1 by ring. rewrite Z.mod_add, Z.mod_small by lia. destruct (Z.eqb_spec (r - 36) 1), (Z.eqb_spec r 37); auto; lia.
Qed.

Lemma pos36_enumerates : enumerates 36 pos36.
Proof.
  split; [reflexivity|]. intros j. destruct (pos36_split j) as (q & r & E & B & M & P & PS). rewrite P, PS. split.
  - rewrite pulse36 by (destruct (Z.leb_spec r 36); lia). destruct (Z.leb_spec r 36).
    + destruct (Z.eqb_spec r 1); [discriminate|]. destruct (Z.eqb_spec r 37); [lia|discriminate].
    + destruct (Z.eqb_spec (r + 1) 1); [discriminate|]. destruct (Z.eqb_spec (r + 1) 37); [lia|discriminate].
  - split; [destruct (Z.leb_spec r 36), (Z.eqb_spec r 70), (Z.leb_spec r 35); lia|].
    intros k H. assert (K : r = 36 /\ k = 72 * q + 37) by (destruct (Z.leb_spec r 36), (Z.eqb_spec r 70), (Z.leb_spec r 35); lia).
    destruct K as [_ ->]. rewrite pulse36 by lia. reflexivity.
Qed.

Lemma dpt36 : sim_dpt 36 = f_of_Z 10 /\ fmul (f_of_Z 2) (sim_dpt 36) = f_of_Z 20.
Proof. split; vm_compute; reflexivity. Qed.

Lemma next36 j : test_wheel_next 36 (Z.of_nat j mod 71) = (WEvent (f_of_Z (10 * (pos36 (S j) - pos36 j))) (match pulse_at 36 (pos36 j) with Some tr => tr | None => 0 end), Z.of_nat (S j) mod 71).
Proof.
  destruct (pos36_split j) as (q & r & E & B & M & P & PS). rewrite M, P, PS. clear M P PS. destruct dpt36 as [D1 D2]. unfold test_wheel_next. change (36 * 2 - 1) with 71. rewrite D2, D1. cbv zeta.
  rewrite pulse36 by (destruct (Z.leb_spec r 36); lia).
  assert (N : Z.of_nat (S j) mod 71 = if 71 <=? r + 1 then 0 else r + 1).
  { replace (Z.of_nat (S j)) with (r + 1 + q * 71) by lia. rewrite Z.mod_add by lia. destruct (Z.leb_spec 71 (r + 1)); [replace (r + 1) with 71 by lia; reflexivity|apply Z.mod_small; lia]. }
  rewrite N. f_equal. destruct (Z.eqb_spec r 1) as [H|H].
  - subst r. destruct (Z.leb_spec 1 36), (Z.eqb_spec 1 70), (Z.leb_spec 1 35); try lia. f_equal. f_equal. lia.
  - destruct (Z.eqb_spec r 36) as [H2|H2].
    + subst r. destruct (Z.leb_spec 36 36), (Z.eqb_spec 36 70), (Z.leb_spec 36 35); try lia. change (36 =? 1) with false. change (36 =? 37) with false. f_equal. f_equal. lia.
    + f_equal.
      * destruct (Z.leb_spec r 36), (Z.eqb_spec r 70), (Z.leb_spec r 35); f_equal; lia.
      * destruct (Z.leb_spec r 36).
        -- destruct (Z.eqb_spec r 1), (Z.eqb_spec r 37); auto; lia.
        -- destruct (Z.eqb_spec (r + 1) 1), (Z.eqb_spec (r + 1) 37); auto; lia.
Qed.

(** After any history: the pulses so far, and the tooth counter. *)
Lemma sim_history acts : forall m n0 st evs, sm_tooth m = Z.of_nat n0 mod 71 -> sim_run 36 m acts = Ok (st, evs) ->
  sm_tooth st = Z.of_nat (n0 + length evs) mod 71 /\ forall j tr t, nth_error evs j = Some (tr, t) -> pulse_at 36 (pos36 (n0 + j)) = Some tr.
Proof.
  assert (Some0 : forall j, exists tr, pulse_at 36 (pos36 j) = Some tr) by (intros j; destruct (proj2 pos36_enumerates j) as (H & _); destruct (pulse_at 36 (pos36 j)) as [tr|]; [eauto|contradiction]).
  induction acts as [|a acts IH]; intros m n0 st evs Hm H; cbn [sim_run] in H.
  - injection H as <- <-. cbn [length]. rewrite Nat.add_0_r. split; auto. intros j tr t Hj. destruct j; discriminate.
  - destruct (sim_step 36 m a) as [[m1 e1]|] eqn:E; [|discriminate]. cbn [bind] in H. destruct (sim_run 36 m1 acts) as [[m2 e2]|] eqn:E2; [|discriminate]. cbn [bind] in H.
    assert (X : st = m2 /\ evs = e1 ++ e2) by (split; congruence). destruct X as [-> ->]. clear H.
    destruct a as [rpm now|]; cbn [sim_step] in E.
    + assert (X : m1 = Sim (sm_tooth m) rpm (Some (w32 (now + 10000))) /\ e1 = []) by (split; congruence). destruct X as [-> ->]. apply (IH (Sim (sm_tooth m) rpm (Some (w32 (now + 10000)))) n0 m2 e2); auto.
    + destruct (sm_time m) as [t0|]; [|assert (X : m1 = m /\ e1 = []) by (split; congruence); destruct X as [-> ->]; apply (IH m n0 m2 e2); auto].
      destruct (sm_rpm m =? 0); [assert (X : m1 = Sim (sm_tooth m) (sm_rpm m) None /\ e1 = []) by (split; congruence); destruct X as [-> ->]; apply (IH _ n0 m2 e2) in E2; auto|].
      rewrite Hm, next36 in E. cbn [we_degrees we_trigger] in E. destruct (time_from_rpm_diff _ _) as [dl|]; [|discriminate]. cbn [bind] in E.
      destruct (Some0 n0) as [tr0 P0]. rewrite P0 in E.
      set (m1' := Sim (Z.of_nat (S n0) mod 71) (sm_rpm m) (Some (w32 (t0 + dl)))) in E. assert (X : m1 = m1' /\ e1 = [(tr0, t0)]) by (split; congruence). destruct X as [-> ->].
      destruct (IH m1' (S n0) m2 e2 eq_refl E2) as [I1 I2]. split.
      * rewrite I1. f_equal. cbn [app length]. lia.
      * intros [|j] tr t Hj; cbn [app nth_error] in Hj.
        -- assert (X : tr0 = tr) by congruence. rewrite Nat.add_0_r. congruence.
        -- replace (n0 + S j)%nat with (S n0 + j)%nat by lia. apply (I2 j tr t Hj).
Qed.

(** With 36 teeth configured, whatever speeds are set and whenever: the pulses delivered are, in order and
    without exception, those of the wheel, and the interval from each pulse to the next is the time the
    engine takes at the set speed for the angle between them (10 degrees a position). *)
Theorem C53_wheel : exists pos, enumerates 36 pos /\ forall acts st evs, sim_run 36 sim_init acts = Ok (st, evs) ->
  (forall j tr t, nth_error evs j = Some (tr, t) -> pulse_at 36 (pos j) = Some tr) /\
  (forall t delay, sm_time st = Some t -> sm_rpm st <> 0 ->
     time_from_rpm_diff (sm_rpm st) (f_of_Z (10 * (pos (S (length evs)) - pos (length evs)))) = Ok delay ->
     exists st' tr, sim_step 36 st Fire = Ok (st', [(tr, t)]) /\ pulse_at 36 (pos (length evs)) = Some tr /\ sm_rpm st' = sm_rpm st /\ sm_time st' = Some (w32 (t + delay))).
Proof.
  exists pos36. split; [exact pos36_enumerates|]. intros acts st evs H. destruct (sim_history acts sim_init 0 st evs eq_refl H) as [T P]. split; [exact P|].
  intros t delay Ht Hr Hd. cbn [sim_step]. rewrite Ht. destruct (Z.eqb_spec (sm_rpm st) 0); [contradiction|]. rewrite T. cbn [Nat.add]. rewrite next36. cbn [we_degrees we_trigger]. rewrite Hd. cbn [bind].
  destruct (proj2 pos36_enumerates (length evs)) as (H1 & _). destruct (pulse_at 36 (pos36 (length evs))) as [tr|]; [|contradiction]. eexists _, tr. split; [reflexivity|]. auto.
Qed.
Print Assumptions C53_wheel.

(** The delay exists for every speed from 1 to 2^24 RPM. *)
Theorem C53_safe : forall acts, (forall rpm now, In (SetRpm rpm now) acts -> 0 <= rpm <= 2 ^ 24) -> exists st evs, sim_run 36 sim_init acts = Ok (st, evs).
Proof.
  intros acts H. assert (G : forall m n0, sm_tooth m = Z.of_nat n0 mod 71 -> 0 <= sm_rpm m <= 2 ^ 24 -> exists st evs, sim_run 36 m acts = Ok (st, evs)); [|apply (G sim_init O); cbn; [reflexivity|lia]].
  revert H. induction acts as [|a acts IH]; intros H m n0 Hm Hr; cbn [sim_run]; [eauto|]. specialize (IH ltac:(intros; apply (H rpm now); now right)).
  assert (St : exists m1 e1 n1, sim_step 36 m a = Ok (m1, e1) /\ sm_tooth m1 = Z.of_nat n1 mod 71 /\ 0 <= sm_rpm m1 <= 2 ^ 24).
  { destruct a as [rpm now|]; cbn [sim_step].
    - eexists _, _, n0. split; [reflexivity|]. split; [exact Hm|]. cbn [sm_rpm]. apply (H rpm now). now left.
    - destruct (sm_time m) as [t|]; [|eauto 6]. destruct (Z.eqb_spec (sm_rpm m) 0); [eexists _, _, n0; split; [reflexivity|]; auto|].
      rewrite Hm, next36. cbn [we_degrees we_trigger]. set (k := 10 * (pos36 (S n0) - pos36 n0)).
      assert (K : 0 <= k <= 20). { unfold k. destruct (pos36_split n0) as (q & r & E & B & M & P & PS). rewrite P, PS. destruct (Z.leb_spec r 36), (Z.eqb_spec r 70), (Z.leb_spec r 35); lia. }
      destruct (f_of_Z_exact k) as [Ek Fk]; [lia|]. destruct (time_from_rpm_accuracy (sm_rpm m) (f_of_Z k)) as (dl & Ed & _); auto using vf_of_Z; [lia|rewrite Ek; split; [apply IZR_le; lia|]; apply (IZR_le k 720); lia|].
      rewrite Ed. cbn [bind]. eexists _, _, (S n0). split; [reflexivity|]. auto. }
  destruct St as (m1 & e1 & n1 & E & T1 & R1). rewrite E. cbn [bind]. destruct (IH m1 n1 T1 R1) as (st & evs & E2). rewrite E2. cbn [bind]. eauto.
Qed.
Print Assumptions C53_safe.

(** ** Other tooth counts *)
Fixpoint wheel_counter (n : Z) (j : nat) : Z := match j with O => 0 | S j => snd (test_wheel_next n (wheel_counter n j)) end.
(** The [j]-th thing the wheel function returns. *)
Definition nth_event (n : Z) (j : nat) : wheel_event := fst (test_wheel_next n (wheel_counter n j)).

Lemma sim_dpt_pos n : 2 <= n < 2 ^ 29 -> vf (sim_dpt n) /\ fin (sim_dpt n) /\ (/ 2097152 <= R_ (sim_dpt n) <= 180)%R.
Proof.
  intros H. unfold sim_dpt. destruct (f_of_Z_exact 720) as [E1 F1]; [cbn; lia|]. destruct (f_of_Z_u32 (2 * n)) as [E2 F2]; [unfold W; lia|].
  assert (N1 : (4 <= IZR (2 * n) <= 1073741824)%R) by (split; [apply (IZR_le 4)|apply (IZR_le _ 1073741824)]; lia).
  assert (B : (IZR (2 * n) * (1 - ur) <= R_ (f_of_Z (2 * n)) <= IZR (2 * n) * (1 + ur))%R) by (rewrite E2; apply rnd_pos_bounds; lra).
  assert (L : (4 <= R_ (f_of_Z (2 * n)))%R). { rewrite E2. replace 4%R with (rnd 4); [apply rnd_le; lra|]. apply dyadic_rnd; [exists 32768; lra|rewrite Rabs_pos_eq; lra]. }
  set (y := R_ (f_of_Z (2 * n))) in *. unfold ur in B.
  assert (Q : (/ 1491309 <= 720 / y <= 180)%R).
  { split.
    - apply Rmult_le_reg_r with y; [lra|]. unfold Rdiv. rewrite Rmult_assoc, Rinv_l, Rmult_1_r by lra. lra.
    - apply Rmult_le_reg_r with y; [lra|]. unfold Rdiv. rewrite Rmult_assoc, Rinv_l, Rmult_1_r by lra. lra. }
  destruct (fdiv_ok (f_of_Z 720) (f_of_Z (2 * n)) 10) as [E3 F3]; auto using vf_of_Z; [lia|fold y; lra|fold y; rewrite E1, Rabs_pos_eq; simpl; lra|].
  fold y in E3. rewrite E1 in E3. split; [auto using vf_of_Z with vf|]. split; [auto|]. rewrite E3.
  assert (RB : (720 / y * (1 - ur) <= rnd (720 / y) <= 720 / y * (1 + ur))%R) by (apply rnd_pos_bounds; lra). split.
  - unfold ur in RB. lra.
  - replace 180%R with (rnd 180); [apply rnd_le; lra|]. apply dyadic_rnd; [exists 1474560; lra|rewrite Rabs_pos_eq; lra].
Qed.

Lemma counter_small n j : 2 <= n -> Z.of_nat j < 2 * n - 1 -> wheel_counter n j = Z.of_nat j.
Proof.
  intros Hn. induction j as [|j IH]; intros H; [reflexivity|]. cbn [wheel_counter]. rewrite IH by lia. unfold test_wheel_next. cbn [snd]. destruct (Z.leb_spec (n * 2 - 1) (Z.of_nat j + 1)); lia.
Qed.
Lemma event_small n j : 2 <= n -> Z.of_nat j < 2 * n - 1 -> j <> 36%nat -> we_degrees (nth_event n j) = sim_dpt n.
Proof.
  intros Hn H N. unfold nth_event. rewrite counter_small by auto. unfold test_wheel_next. cbn [fst]. destruct (Z.eqb_spec (Z.of_nat j) 1); [reflexivity|]. destruct (Z.eqb_spec (Z.of_nat j) 36); [lia|reflexivity].
Qed.

(** For every other number of teeth the simulated wheel is not the configured one: some pulse is on the wrong
    trigger, or the angle to the next is wrong.  (The function compares its counter with 36 whatever the
    configuration.) *)
Theorem C53_other_counts_refuted : forall n, 2 <= n < 2 ^ 29 -> n <> 36 ->
  ~ exists pos, enumerates n pos /\ forall j, pulse_at n (pos j) = Some (we_trigger (nth_event n j)) /\ R_ (we_degrees (nth_event n j)) = (IZR (pos (S j) - pos j) * R_ (sim_dpt n))%R.
Proof.
  intros n Hn N36 (pos & [P0 En] & H). destruct (sim_dpt_pos n Hn) as (V & F & B).
  assert (One : forall j, Z.of_nat j < 2 * n - 1 -> j <> 36%nat -> pos (S j) = pos j + 1).
  { intros j Hj Nj. destruct (H j) as [_ D]. rewrite event_small in D by (auto; lia). assert (E : (IZR (pos (S j) - pos j) = 1)%R) by (apply Rmult_eq_reg_r with (R_ (sim_dpt n)); lra). apply eq_IZR in E. lia. }
  assert (Id : forall j, Z.of_nat j <= 2 * n - 1 -> (j <= 36)%nat -> pos j = Z.of_nat j).
  { induction j as [|j IH]; intros H1 H2; [exact P0|]. rewrite One, IH by lia. lia. }
  destruct (Z.lt_ge_cases n 36) as [L|L].
  - specialize (Id (Z.to_nat (n + 1)) ltac:(lia) ltac:(lia)). destruct (En (Z.to_nat (n + 1))) as (Q & _). apply Q. rewrite Id, Z2Nat.id by lia. unfold pulse_at.
    rewrite (Z.mod_small (n + 1)) by lia. destruct (Z.eqb_spec (n + 1) 1); [lia|]. replace (n + 1) with (1 + 1 * n) by ring. rewrite Z.mod_add, Z.mod_small by lia. reflexivity.
  - pose proof (Id 36%nat ltac:(lia) ltac:(lia)) as I36. destruct (H 36%nat) as [_ D]. unfold nth_event in D. rewrite counter_small in D by lia. change (Z.of_nat 36) with 36 in *.
    change (we_degrees (fst (test_wheel_next n 36))) with (fmul (f_of_Z 2) (sim_dpt n)) in D.
    destruct (f_of_Z_exact 2) as [E2 F2]; [cbn; lia|]. destruct (fmul_ok (f_of_Z 2) (sim_dpt n) 9) as [E3 _]; auto using vf_of_Z; [lia|rewrite E2, Rabs_pos_eq; simpl; lra|]. rewrite E2 in E3. rewrite E3 in D.
    assert (RB : (2 * R_ (sim_dpt n) * (1 - ur) <= rnd (2 * R_ (sim_dpt n)) <= 2 * R_ (sim_dpt n) * (1 + ur))%R) by (apply rnd_pos_bounds; lra). unfold ur in RB.
    assert (G : (1 < IZR (pos 37%nat - pos 36%nat))%R) by (apply Rmult_lt_reg_r with (R_ (sim_dpt n)); lra). apply lt_IZR in G.
    destruct (En 36%nat) as (_ & _ & Q). specialize (Q 37 ltac:(lia)). unfold pulse_at in Q. rewrite (Z.mod_small 37 (2 * n)) in Q by lia. change (37 =? 1) with false in Q. cbv iota in Q.
    destruct (Z.eq_dec n 37) as [->|N37]; [discriminate|]. rewrite Z.mod_small in Q by lia. discriminate.
Qed.
Print Assumptions C53_other_counts_refuted.

(** ** The simulated wheel and the decoder *)
Section drive.
Variables rpm t0 d1 d2 : Z.
Hypothesis Hrpm : 4 <= rpm <= 100000.
Hypothesis D1 : time_from_rpm_diff rpm (f_of_Z 10) = Ok d1.
Hypothesis D2 : time_from_rpm_diff rpm (f_of_Z 20) = Ok d2.

Lemma delays : (6666666 / IZR rpm - 2 <= IZR d1 <= 6666667 / IZR rpm + 2)%R /\ 64 <= d1 <= 1666670 /\ - 4 <= d2 - 2 * d1 <= 4.
Proof.
  destruct (f_of_Z_exact 10) as [E1 F1]; [cbn; lia|]. destruct (f_of_Z_exact 20) as [E2 F2]; [cbn; lia|]. assert (R : (4 <= IZR rpm <= 100000)%R) by (split; [apply (IZR_le 4)|apply (IZR_le _ 100000)]; lia).
  destruct (time_from_rpm_accuracy rpm (f_of_Z 10)) as (x1 & A1 & _ & B1); auto using vf_of_Z; [lia|rewrite E1; lra|]. assert (X1 : x1 = d1) by congruence. subst x1.
  destruct (time_from_rpm_accuracy rpm (f_of_Z 20)) as (x2 & A2 & _ & B2); auto using vf_of_Z; [lia|rewrite E2; lra|]. assert (X2 : x2 = d2) by congruence. subst x2.
  cbv zeta in B1, B2. rewrite E1 in B1. rewrite E2 in B2. apply Rabs_le_inv in B1. apply Rabs_le_inv in B2.
  set (i := (/ IZR rpm)%R). assert (I : (/ 100000 <= i <= / 4)%R) by (unfold i; split; apply Rinv_le; lra).
  unfold Rdiv in *. fold i in B1, B2 |- *. split; [lra|]. split.
  - split; [apply le_IZR|apply le_IZR]; lra.
  - assert (- 5 < d2 - 2 * d1 < 5); [|lia]. split; apply lt_IZR; rewrite minus_IZR, mult_IZR; lra.
Qed.

(** The time of slot [k] of the wheel; slot -2 is the first pulse. *)
Definition slot_time (k : Z) : Z := t0 + d1 * (k + 2) + (d2 - 2 * d1) * ((k + 36) / 72).

Lemma slot_time_step k : slot_time (k + 1) - slot_time k = d1 \/ slot_time (k + 1) - slot_time k = d2 - d1.
Proof.
  unfold slot_time. pose proof (Z.div_mod (k + 36) 72 ltac:(lia)) as E. pose proof (Z.mod_pos_bound (k + 36) 72 ltac:(lia)) as B.
  destruct (Z.eq_dec ((k + 36) mod 72) 71) as [H|H].
  - destruct (Z.div_mod_unique 72 ((k + 1 + 36) / 72) ((k + 36) / 72 + 1) ((k + 1 + 36) mod 72) 0) as [D _]; [left; apply Z.mod_pos_bound; lia|left; lia|rewrite <- Z.div_mod; lia|]. right. rewrite D. ring.
  - destruct (Z.div_mod_unique 72 ((k + 1 + 36) / 72) ((k + 36) / 72) ((k + 1 + 36) mod 72) ((k + 36) mod 72 + 1)) as [D _]; [left; apply Z.mod_pos_bound; lia|left; lia|rewrite <- Z.div_mod; lia|]. left. rewrite D. ring.
Qed.

Lemma sim_turning : 8 * (d1 + 5) <= t0 -> t0 + 10 * (d1 + 5) < 2 ^ 32 -> turning wheel36c slot_time (-1).
Proof.
  intros H1 H2. destruct delays as (R1 & R2 & R3). destruct tol35 as (V & F & B). destruct (f_of_Z_exact 10) as [E Fe]; [cbn; lia|].
  assert (St : forall i, d1 - 5 <= slot_time (i + 1) - slot_time i <= d1 + 5) by (intros i; destruct (slot_time_step i); lia).
  assert (T0 : slot_time (-2) = t0) by (unfold slot_time; change ((-2 + 36) / 72) with 0; ring).
  assert (R : (4 <= IZR rpm <= 100000)%R) by (split; [apply (IZR_le 4)|apply (IZR_le _ 100000)]; lia).
  assert (D : (64 <= IZR d1 <= 1666670)%R) by (split; [apply (IZR_le 64)|apply (IZR_le _ 1666670)]; lia).
  split; cbn [wheel36c dc_required dc_num dc_window dc_max_change dc_dpt].
  - lia.
  - lia.
  - lia.
  - split; [apply vf_of_Z|]. split; [exact Fe|]. rewrite E. lra.
  - rewrite E. lra.
  - split; [auto|]. split; [auto|]. lra.
  - intros k. exists (d1 - 5), (d1 + 5). split; [|intros i _ _; apply St].
    assert (Tol : (174 / 500 <= R_ (flit 7 20))%R).
    { replace (flit 7 20) with (S754_finite false 11744051 (-25)) by (vm_compute; reflexivity). unfold R_. cbn. unfold F2R. simpl. lra. }
    split.
    + lia.
    + rewrite E, plus_IZR. apply Rmult_le_reg_r with (IZR d1 + 5)%R; [lra|]. unfold Rdiv at 1. rewrite !Rmult_assoc, Rinv_l by lra. lra.
    + rewrite minus_IZR. apply Rle_trans with ((IZR d1 - 5) * (174 / 500))%R; [lra|]. apply Rmult_le_compat_l; lra.
    + rewrite plus_IZR, minus_IZR. assert (X : ((IZR d1 - 5) * (1 + 174 / 500 / 2 - / 131072) <= (IZR d1 - 5) * (1 + R_ (flit 7 20) / 2 - / 131072))%R) by (apply Rmult_le_compat_l; lra). lra.
  - intros i _. change (tooth_time 36 slot_time (-1)) with (slot_time (-2)). rewrite T0. specialize (St i). lia.
  - change (tooth_time 36 slot_time (-1 + 4)) with (slot_time 3). unfold slot_time. change ((3 + 36) / 72) with 0. unfold W. lia.
Qed.

(** The state of the simulator when it is about to emit tooth [m], or the cam pulse behind it. *)
Definition at_tooth (m : Z) : sim := Sim ((m mod 70 + 2) mod 71) rpm (Some (w32 (slot_time (slot 36 m)))).
Definition at_cam (m : Z) : sim := Sim 1 rpm (Some (w32 (slot_time (slot 36 m + 1)))).
Definition cam_time (m : Z) : Z := slot_time (slot 36 m + 1).

Lemma slot36 q v : 0 <= v < 70 -> slot 36 (70 * q + v) = 72 * q + (if v <? 35 then v else v + 1).
Proof.
  intros H. unfold slot. change (36 - 1) with 35. destruct (Z.ltb_spec v 35).
  - replace (70 * q + v) with (v + (2 * q) * 35) by ring. rewrite Z.div_add, Z.mod_add, Z.div_small, Z.mod_small by lia. lia.
  - replace (70 * q + v) with (v - 35 + (2 * q + 1) * 35) by ring. rewrite Z.div_add, Z.mod_add, Z.div_small, Z.mod_small by lia. lia.
Qed.
Lemma slot_time_at q r : 0 <= r < 72 -> slot_time (72 * q + r) = t0 + d1 * (72 * q + r + 2) + (d2 - 2 * d1) * (q + (if r <? 36 then 0 else 1)).
Proof.
  intros H. unfold slot_time. do 2 f_equal. destruct (Z.ltb_spec r 36).
  - replace (72 * q + r + 36) with (r + 36 + q * 72) by ring. rewrite Z.div_add, Z.div_small by lia. lia.
  - replace (72 * q + r + 36) with (r - 36 + (q + 1) * 72) by ring. rewrite Z.div_add, Z.div_small by lia. lia.
Qed.

Lemma fire_tooth m : sim_step 36 (at_tooth m) Fire = Ok (if cam_after 36 69 m then at_cam m else at_tooth (m + 1), [(0, w32 (tooth_time 36 slot_time m))]).
Proof.
  unfold at_tooth, at_cam, tooth_time. cbn [sim_step sm_time sm_rpm sm_tooth]. destruct (Z.eqb_spec rpm 0); [lia|].
  unfold cam_after. change (2 * (36 - 1)) with 70. pose proof (Z.div_mod m 70 ltac:(lia)) as E. pose proof (Z.mod_pos_bound m 70 ltac:(lia)) as B. set (q := m / 70) in *. set (v := m mod 70) in *. clearbody q v. subst m.
  destruct dpt36 as [P1 P2]. unfold test_wheel_next. rewrite P2, P1. change (36 * 2 - 1) with 71. cbv zeta.
  assert (WW : forall x y, w32 (w32 x + y) = w32 (x + y)) by (intros; unfold w32; apply Zplus_mod_idemp_l).
  rewrite (slot36 q v) by lia. destruct (Z.eqb_spec v 69) as [H|H].
  - subst v. change ((69 + 2) mod 71) with 0. change (0 =? 1) with false. change (0 =? 36) with false. change (71 <=? 0 + 1) with false. cbv iota. cbn [we_degrees we_trigger]. rewrite D1. cbn [bind].
    change (69 <? 35) with false. cbv iota. rewrite WW. change (0 + 1) with 1. do 5 f_equal. replace (72 * q + (69 + 1) + 1) with (72 * q + 71) by ring. rewrite !slot_time_at by lia. change (69 + 1 <? 36) with false. change (71 <? 36) with false. cbv iota. ring.
  - rewrite (Z.mod_small (v + 2)) by lia. destruct (Z.eqb_spec (v + 2) 1); [lia|].
    assert (M1 : (70 * q + v + 1) mod 70 = v + 1) by (replace (70 * q + v + 1) with (v + 1 + q * 70) by ring; rewrite Z.mod_add, Z.mod_small by lia; reflexivity).
    assert (C1 : (v + 1 + 2) mod 71 = if 71 <=? v + 2 + 1 then 0 else v + 2 + 1) by (destruct (Z.leb_spec 71 (v + 2 + 1)); [replace (v + 1 + 2) with 71 by lia; reflexivity|rewrite Z.mod_small by lia; ring]).
    rewrite M1, C1. replace (70 * q + v + 1) with (70 * q + (v + 1)) by ring. rewrite slot36 by lia.
    destruct (Z.eqb_spec (v + 2) 36) as [H2|H2]; cbn [we_degrees we_trigger]; [rewrite D2|rewrite D1]; cbn [bind]; rewrite WW; do 5 f_equal.
    + assert (v = 34) by lia. subst v. change (34 <? 35) with true. change (34 + 1 <? 35) with false. cbv iota. rewrite !slot_time_at by lia. change (34 <? 36) with true. change (34 + 1 + 1 <? 36) with false. cbv iota. ring.
    + destruct (Z.ltb_spec v 35), (Z.ltb_spec (v + 1) 35); try lia; rewrite !slot_time_at by lia.
      * destruct (Z.ltb_spec v 36), (Z.ltb_spec (v + 1) 36); lia.
      * destruct (Z.ltb_spec (v + 1) 36), (Z.ltb_spec (v + 1 + 1) 36); lia.
Qed.
Lemma fire_cam m : cam_after 36 69 m = true -> sim_step 36 (at_cam m) Fire = Ok (at_tooth (m + 1), [(1, w32 (cam_time m))]).
Proof.
  unfold cam_after, at_tooth, at_cam, cam_time. change (2 * (36 - 1)) with 70. intros H. apply Z.eqb_eq in H. cbn [sim_step sm_time sm_rpm sm_tooth]. destruct (Z.eqb_spec rpm 0); [lia|].
  destruct dpt36 as [P1 P2]. unfold test_wheel_next. rewrite P2, P1. change (36 * 2 - 1) with 71. change (1 =? 1) with true. change (71 <=? 1 + 1) with false. cbv iota zeta. cbn [we_degrees we_trigger]. rewrite D1. cbn [bind].
  assert (WW : forall x y, w32 (w32 x + y) = w32 (x + y)) by (intros; unfold w32; apply Zplus_mod_idemp_l). rewrite WW.
  pose proof (Z.div_mod m 70 ltac:(lia)) as E. rewrite H in E. set (q := m / 70) in *. clearbody q. subst m.
  replace (70 * q + 69 + 1) with (70 * (q + 1) + 0) by ring. assert (M : (70 * (q + 1) + 0) mod 70 = 0) by (rewrite Z.add_0_r, Z.mul_comm; apply Z_mod_mult). rewrite M. rewrite !slot36 by lia.
  change (69 <? 35) with false. change (0 <? 35) with true. cbv iota. change ((0 + 2) mod 71) with 2. change (1 + 1) with 2. do 5 f_equal. replace (72 * q + (69 + 1) + 1) with (72 * q + 71) by ring. rewrite !slot_time_at by lia. change (71 <? 36) with false. change (0 <? 36) with true. cbv iota. ring.
Qed.

Lemma wheel_cam_next f ct s n : wheel_cam 36 69 f ct s (S n) = wheel_cam 36 69 f ct s n ++ tooth_pulse 36 f (s + Z.of_nat n) :: cam_pulse 36 69 ct (s + Z.of_nat n).
Proof. unfold wheel_cam. rewrite seq_S, flat_map_app. cbn [flat_map plus]. now rewrite app_nil_r. Qed.
Lemma sim_run_app n a1 : forall m a2, sim_run n m (a1 ++ a2) = (' (m1, e1) <- sim_run n m a1 ;; ' (m2, e2) <- sim_run n m1 a2 ;; Ok (m2, e1 ++ e2)).
Proof.
  induction a1 as [|a a1 IH]; intros m a2; cbn [sim_run app bind].
  - destruct (sim_run n m a2) as [[? ?]|]; reflexivity.
  - destruct (sim_step n m a) as [[m1 e1]|]; [|reflexivity]. cbn [bind]. rewrite IH. destruct (sim_run n m1 a1) as [[m2 e2]|]; [|reflexivity]. cbn [bind]. destruct (sim_run n m2 a2) as [[m3 e3]|]; [|reflexivity]. cbn [bind]. now rewrite app_assoc.
Qed.

Definition pulses (evs : list (Z * Z)) : list dev := map (fun e => Trigger (fst e) (snd e)) evs.

Lemma fires k : exists st evs n, sim_run 36 (at_tooth (-1)) (repeat Fire k) = Ok (st, evs) /\ length evs = k /\
  ((st = at_tooth (-1 + Z.of_nat n) /\ pulses evs = wheel_cam 36 69 slot_time cam_time (-1) n /\ Z.of_nat k = Z.of_nat n + (Z.of_nat n + 69) / 70) \/
   (Z.of_nat n mod 70 = 0 /\ st = at_cam (-1 + Z.of_nat n) /\ pulses evs = wheel_cam 36 69 slot_time cam_time (-1) n ++ [tooth_pulse 36 slot_time (-1 + Z.of_nat n)] /\ Z.of_nat k = Z.of_nat n + Z.of_nat n / 70 + 1)).
Proof.
  induction k as [|k (st & evs & n & E & L & H)].
  - exists (at_tooth (-1)), [], 0%nat. split; [reflexivity|]. split; [reflexivity|]. left. split; [reflexivity|]. split; reflexivity.
  - replace (repeat Fire (S k)) with (repeat Fire k ++ [Fire]) by (rewrite <- repeat_cons; reflexivity). rewrite sim_run_app, E. cbn [bind sim_run].
    pose proof (Z.div_mod (Z.of_nat n) 70 ltac:(lia)) as DM. pose proof (Z.mod_pos_bound (Z.of_nat n) 70 ltac:(lia)) as MB.
    assert (MA : forall q r, 0 <= r < 70 -> (70 * q + r) / 70 = q /\ (70 * q + r) mod 70 = r) by (intros q r B; replace (70 * q + r) with (r + q * 70) by ring; rewrite Z.div_add, Z.mod_add, Z.div_small, Z.mod_small by lia; lia).
    assert (CA : cam_after 36 69 (-1 + Z.of_nat n) = (Z.of_nat n mod 70 =? 0)).
    { unfold cam_after. change (2 * (36 - 1)) with 70. set (q := Z.of_nat n / 70) in *. set (r := Z.of_nat n mod 70) in *. destruct (Z.eqb_spec r 0) as [H0|H0].
      - replace (-1 + Z.of_nat n) with (70 * (q - 1) + 69) by lia. destruct (MA (q - 1) 69 ltac:(lia)) as [_ ->]. reflexivity.
      - replace (-1 + Z.of_nat n) with (70 * q + (r - 1)) by lia. destruct (MA q (r - 1) ltac:(lia)) as [_ ->]. apply Z.eqb_neq. lia. }
    set (q := Z.of_nat n / 70) in *. set (r := Z.of_nat n mod 70) in *.
    destruct H as [(-> & P & K)|(M & -> & P & K)].
    + rewrite fire_tooth. cbn [bind]. rewrite CA. destruct (Z.eqb_spec r 0) as [H0|H0].
      * eexists _, _, n. split; [reflexivity|]. split; [rewrite !app_length; cbn [length]; lia|]. right. split; [exact H0|]. split; [reflexivity|]. split.
        -- unfold pulses in *. rewrite !map_app, P. reflexivity.
        -- replace (Z.of_nat n + 69) with (70 * q + 69) in K by lia. destruct (MA q 69 ltac:(lia)) as [X _]. rewrite X in K. lia.
      * eexists _, _, (S n). split; [reflexivity|]. split; [rewrite !app_length; cbn [length]; lia|]. left. split; [f_equal; lia|]. split.
        -- rewrite wheel_cam_next. unfold cam_pulse. rewrite CA. destruct (Z.eqb_spec r 0); [lia|]. unfold pulses in *. rewrite !map_app, P. reflexivity.
        -- replace (Z.of_nat n + 69) with (70 * (q + 1) + (r - 1)) in K by lia. destruct (MA (q + 1) (r - 1) ltac:(lia)) as [X _]. rewrite X in K.
           replace (Z.of_nat (S n) + 69) with (70 * (q + 1) + r) by lia. destruct (MA (q + 1) r ltac:(lia)) as [Y _]. rewrite Y. lia.
    + assert (CT : cam_after 36 69 (-1 + Z.of_nat n) = true) by (rewrite CA; now apply Z.eqb_eq). rewrite fire_cam by exact CT. cbn [bind].
      eexists _, _, (S n). split; [reflexivity|]. split; [rewrite !app_length; cbn [length]; lia|]. left. split; [f_equal; lia|]. split.
      * rewrite wheel_cam_next. unfold cam_pulse. rewrite CT. unfold pulses in *. rewrite !map_app, P, <- app_assoc. reflexivity.
      * replace (Z.of_nat (S n) + 69) with (70 * (q + 1) + 0) by lia. destruct (MA (q + 1) 0 ltac:(lia)) as [Y _]. rewrite Y. lia.
Qed.
End drive.

(** The simulator drives the default decoder: at any speed from 4 to 100000 RPM, the first 72 pulses give no
    position (no gap and then a cam pulse has gone by); from the 73rd on the position is valid, however many
    pulses follow, and no output is ever cancelled. *)
Theorem C53_sync : forall rpm now k, 4 <= rpm <= 100000 -> 14000000 <= now <= 4270000000 ->
  exists st evs d fx, sim_run 36 sim_init (SetRpm rpm now :: repeat Fire k) = Ok (st, evs) /\ length evs = k /\
  drun wheel36c dec_init (map (fun e => Trigger (fst e) (snd e)) evs) = Ok (d, fx) /\ (dd_valid d = if (k <? 73)%nat then 0 else 1) /\ ~ In CancelOutputs fx.
Proof.
  intros rpm now k Hr Hn.
  destruct (f_of_Z_exact 10) as [E1 F1]; [cbn; lia|]. destruct (f_of_Z_exact 20) as [E2 F2]; [cbn; lia|].
  destruct (time_from_rpm_accuracy rpm (f_of_Z 10)) as (d1 & D1 & _); auto using vf_of_Z; [lia|rewrite E1; lra|]. destruct (time_from_rpm_accuracy rpm (f_of_Z 20)) as (d2 & D2 & _); auto using vf_of_Z; [lia|rewrite E2; lra|].
  destruct (delays rpm d1 d2 Hr D1 D2) as (_ & B1 & B2). set (t0 := now + 10000).
  pose proof (sim_turning rpm t0 d1 d2 Hr D1 D2 ltac:(unfold t0; lia) ltac:(unfold t0; lia)) as Tu.
  destruct (fires rpm t0 d1 d2 Hr D1 D2 k) as (st & evs & n & E & L & H).
  assert (G : is_first_gap 36 4 (-1) 35). { split; [reflexivity|]. split; [lia|]. intros m H1 H2. change (36 - 1) with 35 in H2. apply Z.mod_divide in H2; [|lia]. destruct H2 as [v ->]. lia. }
  assert (C : is_first_cam 36 69 35 69) by (apply (first_cam_ok 36 69 35 0); lia).
  assert (E0 : sim_run 36 sim_init (SetRpm rpm now :: repeat Fire k) = Ok (st, evs)).
  { cbn [sim_run sim_step bind sim_init sm_tooth]. change (Sim 0 rpm (Some (w32 (now + 10000)))) with (Sim 0 rpm (Some (w32 t0))).
    replace (Sim 0 rpm (Some (w32 t0))) with (at_tooth rpm t0 d1 d2 (-1)); [rewrite E; reflexivity|]. unfold at_tooth. change ((-1 mod 70 + 2) mod 71) with 0. change (slot 36 (-1)) with (-2). unfold slot_time. change ((-2 + 36) / 72) with 0. do 3 f_equal. ring. }
  destruct H as [(_ & P & K)|(M & _ & P & K)].
  - destruct (C75_sync wheel36c _ (cam_time t0 d1 d2) (-1) 69 35 69 n Tu eq_refl G C) as (d & fx & R & V & NC & _). exists st, evs, d, fx. split; [exact E0|]. split; [exact L|]. unfold pulses in P. rewrite P. split; [exact R|]. split; [|exact NC]. rewrite V.
    pose proof (Z.div_mod (Z.of_nat n + 69) 70 ltac:(lia)). pose proof (Z.mod_pos_bound (Z.of_nat n + 69) 70 ltac:(lia)).
    destruct (Z.leb_spec 69 (-1 + Z.of_nat n - 1)), (Nat.ltb_spec k 73); auto; lia.
  - destruct (C75_sync_before_cam wheel36c _ (cam_time t0 d1 d2) (-1) 69 35 69 n Tu eq_refl G C) as (d & fx & R & V & NC). exists st, evs, d, fx. split; [exact E0|]. split; [exact L|]. unfold pulses in P. rewrite P. split; [exact R|]. split; [|exact NC]. rewrite V.
    pose proof (Z.div_mod (Z.of_nat n) 70 ltac:(lia)). 
    destruct (Z.ltb_spec 69 (-1 + Z.of_nat n)), (Nat.ltb_spec k 73); auto; lia.
Qed.
Print Assumptions C53_sync.

(** At 3000 RPM from tick 20000000 the 73rd pulse is the second cam pulse, 159984 ticks (a cycle is 160000; every delay is truncated)
    after the first; and for a 24-tooth wheel the simulated gap is not where the wheel has it. *)
Example C53_example :
  (exists st evs, sim_run 36 sim_init (SetRpm 3000 20000000 :: repeat Fire 73) = Ok (st, evs) /\ nth_error evs 0 = Some (0, 20010000) /\ nth_error evs 1 = Some (1, 20012222) /\ nth_error evs 72 = Some (1, 20172206)) /\
  pulse_at 24 25 = None /\ we_degrees (nth_event 24 24) = f_of_Z 15.
Proof.
  split; [|split; vm_compute; reflexivity].
  eexists _, _. split; [vm_compute; reflexivity|]. split; [reflexivity|]. split; reflexivity.
Qed.
