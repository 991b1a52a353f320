(** C26: an even-tooth decoder with cam sync on a turning wheel.  C61: the speed tolerance. *)
Require Import ZArith Reals List Bool Lia Lra SpecFloat.
From Flocq Require Import Core.
From Verif Require Import Res Word F32 F32Flocq TimeProofs TableProofs AngleProofs PulseProofs RelErr Arr Decoder DecoderProofs DecoderSafe DecoderRun DecoderMissing DecoderAngle DecoderLoss
  DecoderEven EvenProofs EvenSpec EvenRun WheelProofs WheelAngle.
Import ListNotations.
Open Scope Z_scope.
Ltac Zify.zify_post_hook ::= idtac.

(** ** C26 *)
(** After every number of teeth (and their cam pulses) the position is valid exactly when the first cam
    pulse with enough teeth before it has been seen; so sync is gained there and never lost, and nothing is
    ever cancelled.  From the next tooth on the reference time is that of the last tooth. *)
Theorem C26_sync : forall c f cam s g n, even_turning c f s -> dc_type c = EVEN_CAMSYNC -> is_first_cam (dc_num c) (dc_required c) s g ->
  exists d fx, drun c dec_init (even_events (dc_num c) f cam s n) = Ok (d, fx) /\
  (dd_valid d = if g <=? s + Z.of_nat n - 1 then 1 else 0) /\ ~ In CancelOutputs fx /\ dd_loss d = NO_LOSS /\
  (g < s + Z.of_nat n - 1 -> dd_last_time d = w32 (f (s + Z.of_nat n - 1))).
Proof.
  intros c f cam s g n H T G. destruct (even_run c f cam s H T g G n) as (d & es & E & [L Tm Cu Si St Va Lo An Ti Rp] & _).
  exists d, (map (fun e => SetExpire (w32 e)) es). split; [exact E|]. split; [|split; [|auto]].
  - rewrite Va. unfold synced. destruct (Z.ltb_spec g (s + Z.of_nat n - 1)), (Z.eqb_spec g (s + Z.of_nat n - 1)), (Z.leb_spec g (s + Z.of_nat n - 1)); cbn; auto; lia.
  - intros I. apply in_map_iff in I. destruct I as (x & I & _). discriminate.
Qed.
Print Assumptions C26_sync.

(** The same between a tooth and its cam pulse. *)
Theorem C26_before_cam : forall c f cam s g n, even_turning c f s -> dc_type c = EVEN_CAMSYNC -> is_first_cam (dc_num c) (dc_required c) s g ->
  exists d fx, drun c dec_init (even_events (dc_num c) f cam s n ++ [Trigger 0 (w32 (f (s + Z.of_nat n)))]) = Ok (d, fx) /\
  (dd_valid d = if g <? s + Z.of_nat n then 1 else 0) /\ ~ In CancelOutputs fx /\ dd_loss d = NO_LOSS /\
  (g < s + Z.of_nat n -> dd_last_time d = w32 (f (s + Z.of_nat n))).
Proof.
  intros c f cam s g n H T G. destruct (even_run c f cam s H T g G n) as (d & es & E & Tr & _).
  destruct (tooth_step c f s H T g G (Z.of_nat n) d ltac:(lia) Tr) as (d1 & fx & E1 & [L Tm Cu Si St Va Lo An Ti Rp] & F).
  replace (s + (Z.of_nat n + 1) - 1) with (s + Z.of_nat n) in * by ring.
  exists d1, (map (fun e => SetExpire (w32 e)) es ++ fx). split; [rewrite drun_app, E; cbn [bind drun]; rewrite E1; cbn [bind]; now rewrite app_nil_r|].
  split; [|split; [|auto]].
  - rewrite Va. unfold synced. rewrite andb_false_r, orb_false_r. reflexivity.
  - intros I. apply in_app_or in I. destruct I as [I|I]; [apply in_map_iff in I; destruct I as (x & I & _); discriminate|].
    destruct (_ <? _); [subst; contradiction|]. destruct F as (e & -> & _). destruct I as [I|[]]. discriminate.
Qed.
Print Assumptions C26_before_cam.

(** While valid, the reference angle is the number of teeth since the last cam pulse times the tooth width,
    modulo 720 degrees, to within 1/4096 degree for each of these teeth; it is exactly 0 at a cam pulse, so
    the error does not build up from cycle to cycle. *)
Theorem C26_angle : forall c f cam s g n, even_turning c f s -> dc_type c = EVEN_CAMSYNC -> is_first_cam (dc_num c) (dc_required c) s g ->
  let m := s + Z.of_nat n - 1 in g <= m -> let j := m mod dc_num c in
  exists d fx z, drun c dec_init (even_events (dc_num c) f cam s n) = Ok (d, fx) /\ (0 <= R_ (dd_last_angle d) < 720)%R /\
  (Rabs (R_ (dd_last_angle d) - (R_ (dc_dpt c) * IZR j - 720 * IZR z)) <= IZR j / 4096)%R.
Proof.
  intros c f cam s g n H T G m Hm j. destruct (even_run c f cam s H T g G n) as (d & es & E & [L Tm Cu Si St Va Lo An Ti Rp] & _). fold m in An.
  assert (Y : synced g m true = true) by (unfold synced; destruct (Z.ltb_spec g m), (Z.eqb_spec g m); auto; lia). specialize (An Y).
  change (since_cam c m true) with j in An. assert (J : 0 <= j < dc_num c) by (apply Z.mod_pos_bound; destruct H; lia).
  destruct (eangle_ok c f s H (Z.to_nat j)) as ((_ & _ & B) & z & K). rewrite INR_IZR_INZ, Z2Nat.id in K by lia.
  exists d, (map (fun e => SetExpire (w32 e)) es), z. split; [exact E|]. rewrite An. auto.
Qed.
Print Assumptions C26_angle.

Theorem C26_angle_exact : forall c f cam s g n, even_turning c f s -> dc_type c = EVEN_CAMSYNC -> is_first_cam (dc_num c) (dc_required c) s g ->
  (exists q, R_ (dc_dpt c) = IZR q / 8192)%R -> let m := s + Z.of_nat n - 1 in g <= m -> let j := m mod dc_num c in
  exists d fx z, drun c dec_init (even_events (dc_num c) f cam s n) = Ok (d, fx) /\ (0 <= R_ (dd_last_angle d) < 720)%R /\
  R_ (dd_last_angle d) = (R_ (dc_dpt c) * IZR j - 720 * IZR z)%R.
Proof.
  intros c f cam s g n H T G D m Hm j. destruct (even_run c f cam s H T g G n) as (d & es & E & [L Tm Cu Si St Va Lo An Ti Rp] & _). fold m in An.
  assert (Y : synced g m true = true) by (unfold synced; destruct (Z.ltb_spec g m), (Z.eqb_spec g m); auto; lia). specialize (An Y).
  change (since_cam c m true) with j in An. assert (J : 0 <= j < dc_num c) by (apply Z.mod_pos_bound; destruct H; lia).
  destruct (eangle_ok c f s H (Z.to_nat j)) as ((_ & _ & B) & _). destruct (eangle_exact c f s H (Z.to_nat j) D) as (_ & z & K). rewrite INR_IZR_INZ, Z2Nat.id in K by lia.
  exists d, (map (fun e => SetExpire (w32 e)) es), z. split; [exact E|]. rewrite An. auto.
Qed.
Print Assumptions C26_angle_exact.

(** The speed reported is the average over the configured window, and the expiry armed at each tooth lies
    after the next tooth and less than one turn of the timer ahead. *)
Theorem C26_speed_expiry : forall c f cam s g n, even_turning c f s -> dc_type c = EVEN_CAMSYNC -> is_first_cam (dc_num c) (dc_required c) s g ->
  let m := s + Z.of_nat n - 1 in
  exists d es, drun c dec_init (even_events (dc_num c) f cam s n) = Ok (d, map (fun e => SetExpire (w32 e)) es) /\
  (g <= m -> shows (dd_rpm d) (true_rpm (IZR (dc_window c) * R_ (dc_dpt c)) (f m - f (m - dc_window c)))) /\
  Z.of_nat (length es) = Z.max 0 (Z.of_nat n - dc_required c + 1) /\
  forall k e, nth_error es k = Some e -> let i := s + dc_required c - 1 + Z.of_nat k in f (i + 1) < e < f i + 2 ^ 32.
Proof.
  intros c f cam s g n H T G m. destruct (even_run c f cam s H T g G n) as (d & es & E & [L Tm Cu Si St Va Lo An Ti Rp] & Le & X).
  exists d, es. split; [exact E|]. split; [|split; [exact Le|]].
  - intros Hm. apply Rp. destruct G as (_ & G & _). unfold m in Hm. lia.
  - cbv zeta. clear - X. set (m := s + dc_required c - 1) in *. clearbody m. revert m X. induction es as [|x es IH]; intros m X k e K; [destruct k; discriminate|].
    cbn [even_expiries] in X. destruct X as [X1 X2]. destruct k as [|k].
    + cbn in K. injection K as <-. replace (m + Z.of_nat 0) with m by lia. exact X1.
    + cbn [nth_error] in K. specialize (IH _ X2 k e K). replace (m + Z.of_nat (S k)) with (m + 1 + Z.of_nat k) by lia. exact IH.
Qed.
Print Assumptions C26_speed_expiry.

(** Constant speed: every wheel, phase, starting time [t0] and tooth period [p] within these limits. *)
Lemma constant_even c s t0 p : dc_window c < dc_required c <= 36 -> 2 <= dc_num c < 2 ^ 32 - 1 -> measurable c -> (R_ (dc_dpt c) <= 719)%R ->
  5 <= p <= 2 ^ 26 -> (IZR (dc_min_rpm c) + 3 <= true_rpm (R_ (dc_dpt c)) p <= 524288)%R -> (8 <= true_rpm (R_ (dc_dpt c)) p * R_ (dc_max_change c))%R ->
  even_turning c (fun k => t0 + p * k) s.
Proof.
  intros H1 H2 H3 H4 H5 H6 H7. split; auto. intros k. exists p, p. split; [|intros; lia]. assert (5 <= IZR p)%R by (apply IZR_le; lia). split; try lra; lia.
Qed.

(* 12 teeth per camshaft turn, 60 degrees each, averaged over 4 teeth; 5 teeth required. *)
Definition even12 : dcfg := DCfg EVEN_CAMSYNC f_zero (flit 1 2) 80 5 12 (f_of_Z 60) 4.
Lemma half_val : flit 1 2 = S754_finite false 8388608 (-24). Proof. vm_compute. reflexivity. Qed.
Lemma even12_measurable : measurable even12.
Proof.
  destruct (f_of_Z_exact 60) as [E F]; [cbn; lia|]. assert (H : R_ (flit 1 2) = (1 / 2)%R) by (rewrite half_val; unfold R_; cbn; unfold F2R; simpl; lra).
  split; cbn [even12 dc_dpt dc_window dc_max_change]; rewrite ?E, ?H.
  - split; [apply vf_of_Z|]. split; [exact F|lra].
  - split; [lia|lra].
  - split; [rewrite half_val; vm_compute; reflexivity|]. split; [rewrite half_val; reflexivity|lra].
Qed.
Lemma even12_turning t0 p s : 100 <= p <= 400000 -> even_turning even12 (fun k => t0 + p * k) s.
Proof.
  intros Hp. destruct (f_of_Z_exact 60) as [E F]; [cbn; lia|]. assert (H : R_ (flit 1 2) = (1 / 2)%R) by (rewrite half_val; unfold R_; cbn; unfold F2R; simpl; lra).
  assert (P : (100 <= IZR p <= 400000)%R) by (split; apply IZR_le; lia).
  assert (X : (100 <= true_rpm 60 p <= 524288)%R).
  { unfold true_rpm. replace (60 * 4000000 / IZR p * 60 / 360)%R with (40000000 * / IZR p)%R by (field; lra). split.
    - apply Rmult_le_reg_r with (IZR p); [lra|]. rewrite Rmult_assoc, Rinv_l by lra. lra.
    - apply Rmult_le_reg_r with (IZR p); [lra|]. rewrite Rmult_assoc, Rinv_l by lra. lra. }
  apply constant_even; try apply even12_measurable; cbn [even12 dc_dpt dc_window dc_max_change dc_num dc_required dc_min_rpm]; rewrite ?E, ?H; try lia; lra.
Qed.
(* 1000 RPM seen from tooth 3 on: cam pulses at teeth 12, 24, ...; sync at the first. *)
Example C26_example : even_turning even12 (fun k => 100000 + 40000 * k) 3 /\ is_first_cam 12 5 3 12 /\
  (exists d fx, drun even12 dec_init (even_events 12 (fun k => 100000 + 40000 * k) (fun k => 110000 + 40000 * k) 3 9) = Ok (d, fx) /\ dd_valid d = 0) /\
  (exists d fx, drun even12 dec_init (even_events 12 (fun k => 100000 + 40000 * k) (fun k => 110000 + 40000 * k) 3 10) = Ok (d, fx) /\ dd_valid d = 1) /\
  (exists d fx, drun even12 dec_init (even_events 12 (fun k => 100000 + 40000 * k) (fun k => 110000 + 40000 * k) 3 39) = Ok (d, fx) /\ dd_valid d = 1 /\ dd_last_angle d = f_of_Z 300 /\ dd_rpm d = 1000).
Proof.
  split; [apply even12_turning; lia|]. split.
  { split; [reflexivity|]. split; [lia|]. intros m H1 H2. apply Z.mod_divide in H2; [|lia]. destruct H2 as [k ->]. lia. }
  split; [eexists _, _; split; [vm_compute; reflexivity|reflexivity]|]. split; [eexists _, _; split; [vm_compute; reflexivity|reflexivity]|].
  eexists _, _. split; [vm_compute; reflexivity|]. repeat split; vm_compute; reflexivity.
Qed.

(** Between the cam pulse at which sync is gained and the next tooth the position is valid but the reference
    time is not that of any recent tooth: it is still the one from before (0 at power-on). *)
Theorem C26_stale_refuted : exists n d fx, even_turning even12 (fun k => 100000 + 40000 * k) 3 /\
  drun even12 dec_init (even_events 12 (fun k => 100000 + 40000 * k) (fun k => 110000 + 40000 * k) 3 n) = Ok (d, fx) /\
  dd_valid d = 1 /\ dd_last_time d = 0 /\ hd_error (dd_times d) = Some 580000.
Proof. exists 10%nat. eexists _, _. split; [apply even12_turning; lia|]. split; [vm_compute; reflexivity|]. repeat split; reflexivity. Qed.
Print Assumptions C26_stale_refuted.

(** With an averaging window of 0 or 1 teeth (0 is the configuration default) no even-tooth decoder ever
    becomes valid, whatever the triggers. *)
Lemma zero_sum m : fin m -> vf m -> let z := f_of_Z 0 in vf (fadd z (fmul z m)) /\ fin (fadd z (fmul z m)) /\ R_ (fadd z (fmul z m)) = 0%R.
Proof.
  intros F V z. destruct (f_of_Z_exact 0) as [E0 F0]; [lia|]. fold z in E0, F0. assert (Vz : vf z) by apply vf_of_Z.
  destruct (fmul_ok z m 0) as [E1 F1]; auto; [lia|rewrite E0, Rmult_0_l, Rabs_R0; simpl; lra|]. rewrite E0, Rmult_0_l, rnd_0 in E1.
  destruct (fadd_ok z (fmul z m) 0) as [E2 F2]; auto with vf; [lia|rewrite E0, E1, Rplus_0_l, Rabs_R0; simpl; lra|]. rewrite E0, E1, Rplus_0_l, rnd_0 in E2. auto with vf.
Qed.
Theorem C26_window_refuted : forall c es d fx, dc_type c = EVEN_CAMSYNC \/ dc_type c = EVEN_NOSYNC -> dc_window c <= 1 -> 0 <= dc_min_rpm c -> vf (dc_max_change c) -> fin (dc_max_change c) ->
  drun c dec_init es = Ok (d, fx) -> dd_valid d = 0.
Proof.
  intros c es d fx T Hw Hm V F H.
  assert (U : forall d d' fx, even_tooth_trigger_update_rpm c d = Ok (d', fx) -> dd_state d' = NOSYNC).
  { clear d fx H es T. intros d d' fx H. unfold even_tooth_trigger_update_rpm in H. apply bind_ok in H. destruct H as (t0 & _ & H). apply bind_ok in H. destruct H as (t1 & _ & H). cbv zeta in H.
    apply bind_ok in H. destruct H as (tooth & Et & H). apply bind_ok in H. destruct H as (d1 & E1 & H). apply bind_ok in H. destruct H as (k & _ & H).
    assert (W1 : 1 <? even_tooth_rpm_window_size (dd_cur (set_tooth_rpm d tooth)) (dc_window c) = false).
    { apply Z.ltb_ge. unfold even_tooth_rpm_window_size. destruct (Z.ltb_spec (dd_cur (set_tooth_rpm d tooth)) (dc_window c)); lia. }
    rewrite W1 in E1. injection E1 as <-. dsimp. set (bad := _ || _ || _) in H. assert (B : bad = true).
    { unfold bad. destruct (Z.leb_spec tooth (dc_min_rpm c)) as [|Q]; [reflexivity|]. destruct (zero_sum (dc_max_change c) F V) as (Vz & Fz & Rz).
      assert (Tb : 0 <= tooth < W). { unfold rpm_from_time_diff in Et. pose proof (good_u32 (fdiv tick_degree_rpm_ratio (fdiv (f_of_Z (w32 (t0 - t1))) (dc_dpt c)))) as K. rewrite Et in K. cbn [good] in K. unfold W. lia. }
      destruct (f_of_Z_u32 tooth) as [Et2 Ft]; [unfold W in Tb; lia|].
      assert (Q2 : fgt (f_of_Z tooth) (fadd (f_of_Z 0) (fmul (f_of_Z 0) (dc_max_change c))) = true).
      { unfold fgt. fold (flt (fadd (f_of_Z 0) (fmul (f_of_Z 0) (dc_max_change c))) (f_of_Z tooth)). apply flt_iff; auto using vf_of_Z. rewrite Rz, Et2.
        apply Rlt_le_trans with 1%R; [lra|]. apply round_ge_generic; try typeclasses eauto; [apply (generic_Z 1); lia|apply IZR_le; lia]. }
      rewrite Q2. reflexivity. }
    clearbody bad. rewrite B in H. injection H as <- _. clear W1. destruct (dc_num c <? dd_since d); reflexivity. }
  assert (T1 : forall d t d' fx, dd_state d = NOSYNC -> even_tooth_trigger_update c d t = Ok (d', fx) -> dd_state d' = NOSYNC).
  { intros d0 t d' fx0 _ K. destruct (even_update_shape c d0 t) as (d3 & _ & E). rewrite E in K. destruct (is_nosync (dd_state d3)) eqn:Q; [|eauto]. injection K as <- _. destruct (dd_state d3); auto; discriminate. }
  assert (Step : forall d e d' fx, dd_state d = NOSYNC -> dd_valid d = 0 -> dstep c d e = Ok (d', fx) -> dd_state d' = NOSYNC /\ dd_valid d' = 0).
  { clear d fx H es. intros d e d' fx S0 V0 H. destruct e as [n t| |w]; [|injection H as <- _; cbn; auto|injection H as <- _; cbn; auto].
    rewrite trigger_decode in H. destruct (counted_same d n) as (K1 & K2 & _). rewrite <- K2 in S0. rewrite <- K1 in V0. set (dc := counted d n) in *. clearbody dc.
    unfold decode in H. destruct T as [T|T]; rewrite T in H.
    - unfold decode_even_with_camsync in H. cbv zeta in H. apply bind_ok in H. destruct H as ((d1 & f1) & E & H).
      assert (Q : dd_state d1 = NOSYNC /\ dd_valid d1 = 0).
      { destruct (n =? 0); [split; [eapply T1; eauto|]; destruct (even_update_keeps _ _ _ _ _ E) as (Q & _); congruence|].
        destruct (n =? 1); [|injection E as <- _; auto]. injection E as <- _. unfold even_tooth_sync_update. rewrite S0. cbv zeta. dsimp. auto. }
      destruct Q as [Q1 Q2]. rewrite Q1, S0 in H. cbn [is_sync] in H. injection H as <- _. auto.
    - unfold decode_even_no_sync in H. cbv zeta in H. apply bind_ok in H. destruct H as ((d1 & f1) & E & H). pose proof (T1 _ _ _ _ S0 E) as Q. destruct (even_update_keeps _ _ _ _ _ E) as (Q2 & _).
      rewrite Q, S0 in H. cbn [is_nosync is_sync negb] in H. injection H as <- _. split; congruence. }
  assert (R : forall es d d' fx, dd_state d = NOSYNC -> dd_valid d = 0 -> drun c d es = Ok (d', fx) -> dd_state d' = NOSYNC /\ dd_valid d' = 0).
  { clear - Step. induction es as [|e es IH]; intros d d' fx S0 V0 H; cbn [drun] in H; [injection H as <- _; auto|].
    apply bind_ok in H. destruct H as ((d1 & f1) & E & H). apply bind_ok in H. destruct H as ((d2 & f2) & E2 & H). injection H as <- _. destruct (Step _ _ _ _ S0 V0 E). eapply IH; eauto. }
  apply (R es dec_init d fx); auto.
Qed.
Print Assumptions C26_window_refuted.

(** ** C61: speed tolerance of the even-tooth decoders *)
(** From any history after which the position is valid: the next tooth comes [diff] ticks after the one
    before and [span] ticks after the one a window earlier.  If its speed is above the minimum and within the
    configured fraction of the speed over the window, the position stays valid (unless it is one tooth too
    many); if it is not above the minimum or outside the fraction, the position is lost, the outputs are
    cancelled and the reason is "variation".  The margins of 8 RPM (3 for the minimum) cover all rounding. *)
Theorem C61_tolerance : forall c es d fx t p q, supported c -> measurable c -> dc_window c <= dc_required c -> dc_type c = EVEN_CAMSYNC \/ dc_type c = EVEN_NOSYNC ->
  drun c dec_init es = Ok (d, fx) -> dd_valid d <> 0 -> dd_since d < dc_num c ->
  nth_error (teeth_of c es) 0 = Some p -> nth_error (teeth_of c es) (Z.to_nat (dc_window c - 1)) = Some q ->
  let diff := w32 (t - p) in let span := w32 (t - q) in 1 <= diff <= 2 ^ 31 -> 1 <= span ->
  let x := true_rpm (R_ (dc_dpt c)) diff in let y := true_rpm (IZR (dc_window c) * R_ (dc_dpt c)) span in let m := R_ (dc_max_change c) in
  (x <= 524288)%R -> (y <= 524288)%R ->
  exists d' fx', dstep c d (Trigger 0 t) = Ok (d', fx') /\
  ((IZR (dc_min_rpm c) + 3 <= x)%R -> (y * (1 - m) + 8 <= x <= y * (1 + m) - 8)%R -> dd_valid d' = 1 /\ ~ In CancelOutputs fx' /\ dd_loss d' = NO_LOSS /\ shows (dd_rpm d') y) /\
  ((x <= IZR (dc_min_rpm c))%R \/ (y * (1 + m) + 8 <= x)%R \/ (x <= y * (1 - m) - 8)%R -> dd_valid d' = 0 /\ In CancelOutputs fx' /\ dd_loss d' = VARIATION).
Proof.
  intros c es d fx t p q S Me Hw T H V Hs Hp Hq diff span Hd Hsp x y m Hx Hy.
  assert (I : dinv c d) by (pose proof (drun_good c es dec_init S (dec_init_dinv c S)) as G; rewrite H in G; exact G).
  pose proof (drun_times_init c es d fx H) as TM. pose proof (proj2 (di_valid _ _ I) V) as Sy. destruct (di_sync _ _ I Sy) as [Cu _]. pose proof (di_len _ _ I) as L.
  pose proof (di_even_nosync _ _ I) as EN. pose proof (di_since _ _ I) as Sb. pose proof (di_cur _ _ I) as Cb.
  assert (Mi : missing c = false) by (unfold missing; destruct T as [-> | ->]; reflexivity). rewrite Mi in Cb. clear I.
  rewrite trigger_decode. destruct (counted_same d 0) as (K1 & K2 & K3 & K4 & K5 & _). rewrite <- K1 in V. rewrite <- K2 in Sy. rewrite <- K3 in Cu, Cb. rewrite <- K4 in Hs, Sb. rewrite <- K5 in TM, L.
  set (dc := counted d 0) in *. clearbody dc. destruct (even_update_shape c dc t) as (d3 & (S1 & S2 & S3 & S4 & S5 & S6 & S7 & S8) & Eu). rewrite Sy in S6. rewrite S6 in Eu. cbn [is_nosync] in Eu.
  assert (Wb : 2 <= dc_window c <= 36) by (destruct Me as [_ [? _] _]; auto).
  assert (G0 : get (dd_times d3) 0 = Ok t) by (rewrite S1; reflexivity).
  assert (G1 : get (dd_times d3) 1 = Ok p). { rewrite S1, get_push by (auto; lia). rewrite TM. apply get_firstn_nth; [lia|exact Hp]. }
  assert (Gw : get (dd_times d3) (dc_window c) = Ok q). { rewrite S1, get_push by (auto; lia). rewrite TM. apply get_firstn_nth; [lia|exact Hq]. }
  assert (C3 : dc_window c <= dd_cur d3). { rewrite S2. unfold count_up. destruct (_ <? 37); lia. }
  assert (N3 : dd_since d3 <= dc_num c). { rewrite S3. destruct S as [_ _ Sn]. unfold w32, W. rewrite Z.mod_small; lia. }
  destruct (even_rpm_outcome c d3 t p q Me C3 G0 G1 Gw Hd Hsp Hx Hy) as (d4 & k & E & _ & _ & Sr & Acc & Rej). fold diff span x y m in Acc, Rej, Sr.
  destruct (even_rpm_keeps _ _ _ _ E) as (Q1 & _ & _ & _ & _ & _ & _ & _ & Qs & _). rewrite E in Eu. rewrite S6 in Qs, Acc.
  assert (Out : exists d' fx', decode c dc 0 t = Ok (d', fx') /\ if is_nosync (dd_state d4) then dd_valid d' = 0 /\ In CancelOutputs fx' /\ dd_loss d' = dd_loss d4
     else dd_valid d' = 1 /\ ~ In CancelOutputs fx' /\ dd_loss d' = NO_LOSS /\ dd_rpm d' = dd_rpm d4).
  { unfold decode. assert (Nc : ~ In CancelOutputs [SetExpire (w32 (t + k))]) by (intros [X|[]]; discriminate).
    destruct T as [-> | ->]; [unfold decode_even_with_camsync|unfold decode_even_no_sync]; cbv zeta; change (0 =? 0) with true; cbv iota; rewrite Eu; cbn [bind].
    - destruct Qs as [Qs|Qs]; rewrite Qs; cbn [is_sync is_nosync]; eexists _, _; [split; [reflexivity|]; dsimp; auto|]. rewrite Sy. cbn [is_sync]. split; [reflexivity|]. cbn. auto.
    - destruct Qs as [Qs|Qs]; rewrite Qs; cbn [is_sync is_nosync negb]; eexists _, _; [split; [reflexivity|]; dsimp; auto|]. rewrite Sy. cbn [is_sync]. split; [reflexivity|]. cbn. auto. }
  destruct Out as (d' & fx' & Ed & Out). exists d', fx'. split; [exact Ed|]. split.
  - intros A1 A2. destruct (Acc N3 A1 A2) as [Qa _]. rewrite Qa in Out. cbn [is_nosync] in Out. destruct Out as (O1 & O2 & O3 & O4). rewrite O4. auto.
  - intros A. destruct (Rej A) as [Qa Ql]. rewrite Qa in Out. cbn [is_nosync] in Out. destruct Out as (O1 & O2 & O3). rewrite O3. auto.
Qed.
Print Assumptions C61_tolerance.

(* 1000 RPM, tolerance one half: the tooth after 40 degrees' time is still accepted, the one after 20 is not. *)
Example C61_example : exists d fx, drun even12 dec_init (even_events 12 (fun k => 100000 + 40000 * k) (fun k => 110000 + 40000 * k) 3 12) = Ok (d, fx) /\ dd_valid d = 1 /\ dd_since d = 2 /\
  nth_error (teeth_of even12 (even_events 12 (fun k => 100000 + 40000 * k) (fun k => 110000 + 40000 * k) 3 12)) 0 = Some 660000 /\
  nth_error (teeth_of even12 (even_events 12 (fun k => 100000 + 40000 * k) (fun k => 110000 + 40000 * k) 3 12)) 3 = Some 540000 /\
  (exists d' fx', dstep even12 d (Trigger 0 690000) = Ok (d', fx') /\ dd_valid d' = 1) /\ (exists d' fx', dstep even12 d (Trigger 0 673000) = Ok (d', fx') /\ dd_valid d' = 0 /\ dd_loss d' = VARIATION).
Proof.
  eexists _, _. split; [vm_compute; reflexivity|]. split; [reflexivity|]. split; [reflexivity|]. split; [vm_compute; reflexivity|]. split; [vm_compute; reflexivity|].
  split; eexists _, _; (split; [vm_compute; reflexivity|]); repeat split; reflexivity.
Qed.
