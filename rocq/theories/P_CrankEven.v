(** C77 for a wheel with equally spaced teeth and cam sync. *)
Require Import ZArith Reals List Bool Lia Lra SpecFloat.
From Flocq Require Import Core BinarySingleNaN.
From Verif Require WheelProofs.
From Verif Require Import Res Word F32 F32Flocq TimeProofs TableProofs AngleProofs PulseProofs RelErr Arr Decoder DecoderProofs DecoderSafe DecoderRun DecoderMissing DecoderAngle DecoderLoss WheelAngle
  DecoderEven EvenProofs EvenSpec EvenRun P_Even Outputs RunProofs P_Outputs P_Pulses CrankSpec P_Crank.
Import ListNotations.
Open Scope Z_scope.
Ltac Zify.zify_post_hook ::= idtac.

(** ** The tooth speed, on any history of triggers *)
(** The tooth speed is that of the last two teeth, unless the decoder has no teeth to go by. *)
Definition tooth_known (c : dcfg) (d : dec) : Prop :=
  dd_state d = NOSYNC \/ exists t0 t1, get (dd_times d) 0 = Ok t0 /\ get (dd_times d) 1 = Ok t1 /\ rpm_from_time_diff (w32 (t0 - t1)) (dc_dpt c) = Ok (dd_tooth_rpm d).

Lemma even_update_known c d t d' fx : even_tooth_trigger_update c d t = Ok (d', fx) -> tooth_known c d'.
Proof.
  destruct (even_update_shape c d t) as (d3 & _ & ->). destruct (is_nosync (dd_state d3)) eqn:N.
  - intros H. assert (d' = d3) by congruence. subst. left. destruct (dd_state d3); try discriminate; reflexivity.
  - unfold even_tooth_trigger_update_rpm. intros H. apply bind_ok in H. destruct H as (t0 & G0 & H). apply bind_ok in H. destruct H as (t1 & G1 & H). cbv zeta in H.
    apply bind_ok in H. destruct H as (tooth & Et & H). apply bind_ok in H. destruct H as (d1 & E1 & H). apply bind_ok in H. destruct H as (k & _ & H).
    assert (K1 : dd_times d1 = dd_times d3 /\ dd_tooth_rpm d1 = tooth).
    { destruct (1 <? _); [|assert (d1 = set_rpm (set_tooth_rpm d3 tooth) 0) by congruence; subst; dsimp; auto].
      apply bind_ok in E1. destruct E1 as (tw & _ & E1). apply bind_ok in E1. destruct E1 as (rpm & _ & E1). set (x := if rpm =? 0 then _ else _) in E1. assert (d1 = x) by congruence. subst d1. unfold x. destruct (rpm =? 0); dsimp; auto. }
    destruct K1 as [K1 K2]. set (d2 := if _ || _ || _ then _ else d1) in H. assert (K3 : dd_times d2 = dd_times d3 /\ dd_tooth_rpm d2 = tooth) by (unfold d2; destruct (_ || _ || _); dsimp; auto). clearbody d2.
    destruct K3 as [K3 K3b]. set (d4 := if _ <? _ then _ else d2) in H. assert (K4 : dd_times d4 = dd_times d3 /\ dd_tooth_rpm d4 = tooth) by (unfold d4; destruct (dc_num c <? dd_since d2); dsimp; auto). clearbody d4. destruct K4 as [K4 K5].
    assert (X : d' = set_expiration d4 (w32 (t0 + k))) by congruence. rewrite X. right. exists t0, t1. dsimp. rewrite K4, K5. auto.
Qed.

Lemma trigger_known c d n t d' fx : dc_type c = EVEN_CAMSYNC -> tooth_known c d -> dstep c d (Trigger n t) = Ok (d', fx) -> tooth_known c d'.
Proof.
  intros Ty K H. rewrite trigger_decode in H. assert (Kc : tooth_known c (counted d n)).
  { destruct (counted_same d n) as (_ & K2 & _ & _ & K5 & _ & _ & _ & K9 & _). unfold tooth_known. rewrite K2, K5, K9. exact K. }
  set (dc := counted d n) in *. clearbody dc. unfold decode in H. rewrite Ty in H. unfold decode_even_with_camsync in H. cbv zeta in H.
  apply bind_ok in H. destruct H as ([d1 fx1] & E1 & H).
  assert (K1 : tooth_known c d1).
  { destruct (n =? 0); [eapply even_update_known; exact E1|]. destruct (n =? 1); [|assert (d1 = dc) by congruence; subst; auto].
    assert (X : d1 = even_tooth_sync_update c dc) by congruence. rewrite X. unfold even_tooth_sync_update, tooth_known in *. destruct (dd_state dc) eqn:S; dsimp.
    - left. exact S.
    - destruct Kc as [?|Kc]; [discriminate|]. right. exact Kc.
    - destruct (_ =? _); dsimp; [|left; reflexivity]. destruct Kc as [?|Kc]; [discriminate|]. right. exact Kc. }
  destruct (is_sync (dd_state d1)); [assert (X : d' = set_loss (set_valid d1 1) NO_LOSS) by congruence; rewrite X; unfold tooth_known in *; dsimp; exact K1|].
  destruct (is_sync (dd_state dc)); [|assert (d' = d1) by congruence; subst; auto].
  assert (X : d' = invalidate_decoder d1) by congruence. rewrite X. left. reflexivity.
Qed.

Lemma run_known c f cam s n d fx : dc_type c = EVEN_CAMSYNC -> drun c dec_init (even_events (dc_num c) f cam s n) = Ok (d, fx) -> tooth_known c d.
Proof.
  intros Ty. assert (K : forall es d0 d fx, (forall e, In e es -> exists n t, e = Trigger n t) -> tooth_known c d0 -> drun c d0 es = Ok (d, fx) -> tooth_known c d).
  { clear d fx. induction es as [|e es IH]; intros d0 d fx F K0 H; cbn [drun] in H; [assert (d = d0) by congruence; subst; auto|].
    apply bind_ok in H. destruct H as ([d1 f1] & E1 & H). apply bind_ok in H. destruct H as ([d2 f2] & E2 & H). assert (d2 = d) by congruence. subst d2.
    apply (IH d1 d f2); [intros; apply F; right; auto| |exact E2]. destruct (F e (or_introl eq_refl)) as (k & t & ->). eapply trigger_known; eauto. }
  apply K; [|left; reflexivity]. intros e I. apply in_flat_map in I. destruct I as (j & _ & I). unfold tooth_events in I. destruct I as [<-|I]; [eauto|]. destruct (_ =? _); [|destruct I]. destruct I as [<-|[]]. eauto.
Qed.

(** ** The decoder's view of the crank *)
(** The decoder has seen [n] teeth from number [s] on, each with its cam pulse; or the cam pulse of the last
    one, if it has one, is still to come. *)
Definition even_history (num : Z) (f cam : Z -> Z) (s : Z) (n : nat) (h : list dev) : Prop :=
  h = even_events num f cam s n \/ exists k, n = S k /\ h = even_events num f cam s k ++ [Trigger 0 (w32 (f (s + Z.of_nat k)))].

Section view.
Variable c : dcfg.
Variables f cam : Z -> Z.
Variables tau q : R.
Variables s g : Z.
Notation num := (dc_num c).
Notation dpt := (R_ (dc_dpt c)).
Hypothesis Tu : even_turning c f s.
Hypothesis Ty : dc_type c = EVEN_CAMSYNC.
Hypothesis G : is_first_cam num (dc_required c) s g.
Hypothesis CS : constant_speed f tau q.
Hypothesis Hq : (16 <= q)%R.
Hypothesis Hs : (20 <= speed_of dpt q <= 1000000)%R.
Hypothesis D8 : (exists z, dpt = IZR z / 8192)%R.
Hypothesis N7 : (IZR num * dpt = 720)%R.

Let S := speed_of dpt q.
Let Bd : (/ 1000 <= dpt <= 719)%R. Proof. destruct Tu as [_ _ [(_ & _ & ?) _ _] ? _]. auto. Qed.
Let Sq : (S * q = 2000000 / 3 * dpt)%R. Proof. unfold S, speed_of. field. lra. Qed.
Let q_max : (q <= 24000000)%R.
Proof. assert (20 * q <= S * q)%R by (apply Rmult_le_compat_r; unfold S; lra). lra. Qed.

Lemma interval k m : 1 <= k <= 36 -> (IZR k * q - 2 <= IZR (f m - f (m - k)) <= IZR k * q + 2)%R /\ 1 <= f m - f (m - k) < 2 ^ 30.
Proof.
  intros Hk. pose proof (CS m) as C1. pose proof (CS (m - k)) as C2. apply Rabs_le_inv in C1. apply Rabs_le_inv in C2. rewrite minus_IZR in C2.
  assert (B : (IZR k * q - 2 <= IZR (f m - f (m - k)) <= IZR k * q + 2)%R) by (rewrite minus_IZR; lra). split; [exact B|].
  assert (Kr : (1 <= IZR k <= 36)%R) by (split; apply IZR_le; lia).
  assert (K : (1 * q <= IZR k * q <= 36 * 24000000)%R) by (split; [apply Rmult_le_compat_r; lra|apply Rmult_le_compat; lra]).
  assert (13 < f m - f (m - k) < 2 ^ 30) by (split; apply lt_IZR; [|change (IZR (2 ^ 30)) with 1073741824%R]; lra). lia.
Qed.

(* the speed of [k] teeth in [t] ticks, when they take [k q] up to two ticks *)
Lemma span_speed k t : (1 <= k)%R -> (k * q - 2 <= t <= k * q + 2)%R -> (S * (1 - 2 * / q) <= 2000000 / 3 * (k * dpt) / t <= S * / (1 - 2 * / q))%R.
Proof.
  intros Hk Ht. set (u := (k * q)%R) in *. assert (U : (q <= u)%R) by (unfold u; apply Rle_trans with (1 * q)%R; [lra|apply Rmult_le_compat_r; lra]).
  assert (Eu : (2000000 / 3 * (k * dpt) = S * u)%R) by (unfold u; replace (S * (k * q))%R with (k * (S * q))%R by ring; rewrite Sq; ring). rewrite Eu.
  assert (SU : (0 < S * u)%R) by (apply Rmult_lt_0_compat; unfold S; lra).
  assert (IU : (/ u <= / q)%R) by (apply Rinv_le; lra). assert (IU0 : (0 < / u)%R) by (apply Rinv_0_lt_compat; lra). assert (IQ : (/ q <= / 16)%R) by (apply Rinv_le; lra).
  split.
  - apply Rle_trans with (S * u / (u + 2))%R; [|unfold Rdiv; apply Rmult_le_compat_l; [lra|apply Rinv_le; lra]].
    replace (S * u / (u + 2))%R with (S * (u / (u + 2)))%R by (field; lra). apply Rmult_le_compat_l; [unfold S; lra|].
    apply Rmult_le_reg_r with (u + 2)%R; [lra|]. replace (u / (u + 2) * (u + 2))%R with u by (field; lra).
    apply Rle_trans with ((1 - 2 * / u) * (u + 2))%R; [apply Rmult_le_compat_r; lra|]. replace ((1 - 2 * / u) * (u + 2))%R with (u - 4 * / u)%R by (field; lra). lra.
  - apply Rle_trans with (S * u / (u - 2))%R; [unfold Rdiv; apply Rmult_le_compat_l; [lra|apply Rinv_le; lra]|].
    replace (S * u / (u - 2))%R with (S * / (1 - 2 * / u))%R by (field; lra). apply Rmult_le_compat_l; [unfold S; lra|]. apply Rinv_le; lra.
Qed.

Lemma etrack_tracks n done d : 0 <= n -> etrack c f s g n done d -> tooth_known c d -> let m := s + n - 1 in g < m -> tracks c tau q 0 m (f m) d.
Proof.
  intros Hn [L Tm Cu Si St Va Lo An Ti Rp] K m Hm. fold m in Si, St, Va, An, Ti, Rp, Tm.
  assert (Y : synced g m done = true) by (unfold synced; destruct (Z.ltb_spec g m); [reflexivity|lia]). rewrite Y in St, Va. specialize (An Y).
  assert (Rq : dc_required c <= n) by (apply (synced_req c s g G n done Y)). assert (Wn : 2 <= dc_window c <= 36 /\ dc_window c < dc_required c) by (destruct Tu as [? _ [_ [? _] _] _ _]; lia).
  assert (Q0 : (0 < / q <= / 16)%R) by (split; [apply Rinv_0_lt_compat; lra|apply Rinv_le; lra]).
  destruct (Z.ltb_spec n (dc_required c)); [lia|]. specialize (Rp Rq). specialize (Ti Hm).
  split; [exact Va|]. cbv zeta. fold S.
  destruct (interval (dc_window c) m ltac:(lia)) as (I1 & I2).
  assert (Ww : (1 <= IZR (dc_window c))%R) by (apply IZR_le; lia). pose proof (span_speed (IZR (dc_window c)) (IZR (f m - f (m - dc_window c))) Ww I1) as Sp.
  unfold shows in Rp. replace (true_rpm (IZR (dc_window c) * dpt) (f m - f (m - dc_window c))) with (2000000 / 3 * (IZR (dc_window c) * dpt) / IZR (f m - f (m - dc_window c)))%R in Rp
    by (unfold true_rpm; field; apply Rgt_not_eq; apply (IZR_lt 0); lia).
  set (v := (2000000 / 3 * (IZR (dc_window c) * dpt) / IZR (f m - f (m - dc_window c)))%R) in *. clearbody v.
  assert (V1 : (S * (7 / 8) <= v)%R) by (apply Rle_trans with (S * (1 - 2 * / q))%R; [apply Rmult_le_compat_l; unfold S; lra|lra]).
  assert (V2 : (v <= S * (8 / 7))%R) by (apply Rle_trans with (S * / (1 - 2 * / q))%R; [lra|apply Rmult_le_compat_l; [unfold S; lra|]]; replace (8 / 7)%R with (/ (7 / 8))%R by lra; apply Rinv_le; lra).
  fold S in Hs.
  split; [split; apply le_IZR; [lra|]; change (IZR (2 ^ 24)) with 16777216%R; lra|]. split; [lra|].
  assert (J : 0 <= since_cam c m done <= num) by (apply (since_range c f s Tu)).
  split. { destruct (eangle_ok c f s Tu (Z.to_nat (since_cam c m done))) as ((V3 & F3 & B3) & _). rewrite An. split; [auto|]. split; [auto|]. rewrite Rabs_pos_eq; lra. }
  split; [exact Ti|]. split; [apply CS|]. split.
  - destruct (eangle_exact c f s Tu (Z.to_nat (since_cam c m done)) D8) as (_ & z & Kz). rewrite INR_IZR_INZ, Z2Nat.id in Kz by lia. rewrite An, Kz. rewrite Z.sub_0_r.
    assert (Nm : exists k, since_cam c m done = m - num * k).
    { unfold since_cam. pose proof (Z.div_mod m num ltac:(destruct Tu; lia)) as DM. destruct (done || negb (m mod num =? 0)) eqn:Q; [exists (m / num); lia|].
      apply orb_false_iff in Q. destruct Q as [_ Q]. apply negb_false_iff, Z.eqb_eq in Q. exists (m / num - 1). lia. }
    destruct Nm as [k ->]. exists (z + k). rewrite minus_IZR, mult_IZR, plus_IZR. replace (dpt * (IZR m - IZR num * IZR k))%R with (dpt * IZR m - IZR num * dpt * IZR k)%R by ring. rewrite N7. ring.
  - destruct K as [K|(t0 & t1 & G0 & G1 & K)]; [congruence|]. rewrite Tm in G0, G1 by lia. assert (E0 : t0 = w32 (f (m - 0))) by congruence. assert (E1 : t1 = w32 (f (m - 1))) by congruence. rewrite E0, E1, Z.sub_0_r in K.
    destruct (interval 1 m ltac:(lia)) as (J1 & J2). rewrite WheelProofs.w32_diff in K by (unfold W; lia).
    pose proof (span_speed 1 (IZR (f m - f (m - 1))) ltac:(lra) J1) as Sv. rewrite Rmult_1_l in Sv. exists (2000000 / 3 * dpt / IZR (f m - f (m - 1)))%R. split; [exact Sv|].
    destruct Tu as [_ _ [(Vd & Fd & Hd) _ _] _ _].
    destruct (rpm_accuracy (f m - f (m - 1)) (dc_dpt c) dpt 0) as (r & E2 & _ & A2); [lia|apply frel_self; auto; lra|lra|lra|]. cbv zeta in A2. assert (X : dd_tooth_rpm d = r) by congruence. rewrite X.
    set (y := (2000000 / 3 * dpt / IZR (f m - f (m - 1)))%R) in *. assert (0 <= y)%R by (apply Rle_trans with (S * (1 - 2 * / q))%R; [apply Rmult_le_pos; lra|lra]). unfold ur in *. lra.
Qed.

(** Floats with the same value, if it is not 0, are the same. *)
Lemma vf_inj x y : vf x -> vf y -> fin x -> fin y -> R_ x = R_ y -> R_ x <> 0%R -> x = y.
Proof.
  unfold vf, fin, R_. intros Vx Vy Fx Fy E N.
  assert (X : SF2B x Vx = SF2B y Vy).
  { apply B2R_inj; [| |rewrite !B2R_SF2B; exact E].
    - destruct x; cbn in *; try discriminate; try reflexivity. congruence.
    - rewrite E in N. destruct y; cbn in *; try discriminate; try reflexivity. congruence. }
  apply (f_equal (@B2SF _ _)) in X. rewrite !B2SF_SF2B in X. exact X.
Qed.

(** A whole turn of the cam brings the angle back to 0 (never to -0). *)
Lemma wrap_zero a x : in_cycle a -> vf x -> fin x -> (0 < R_ x <= 719)%R -> dyadic (R_ a) -> dyadic (R_ x) -> R_ (wrap720 (fadd a x)) = 0%R -> wrap720 (fadd a x) = f_zero.
Proof.
  intros (Va & Fa & Ha) Vg Fg Hg Da Dg Z0. destruct f720 as (V7 & F7 & R7). pose proof (dyadic_add _ _ Da Dg) as D.
  destruct (fadd_ok a x 11) as [E F]; auto; [lia|simpl; rewrite Rabs_pos_eq; lra|]. rewrite (dyadic_rnd _ D) in E by (rewrite Rabs_pos_eq; lra).
  unfold wrap720 in *. destruct (fge (fadd a x) (f_of_Z 720)) eqn:C; [|rewrite E in Z0; lra].
  unfold fge in C. apply fle_iff in C; auto with vf. rewrite R7, E in C.
  destruct (fsub_ok (fadd a x) (f_of_Z 720) 11) as [E2 F2]; auto with vf; [lia|rewrite E, R7; simpl; rewrite Rabs_pos_eq; lra|].
  rewrite E, R7 in E2. rewrite dyadic_rnd in E2; [|apply dyadic_720; exact D|rewrite Rabs_pos_eq; lra]. rewrite E2 in Z0.
  assert (Q : fadd a x = f_of_Z 720) by (apply vf_inj; auto with vf; rewrite E; [rewrite R7|]; lra). rewrite Q. vm_compute. reflexivity.
Qed.
Lemma eangle_turn : eangle c (Z.to_nat num) = f_zero.
Proof.
  assert (Np : 2 <= num) by (exact (EvenRun.num_pos c f s Tu)). pose proof Tu as [Rq _ [(Vd & Fd & Hd) _ _] Hdp _]. destruct (eangle_ok c f s Tu (Z.to_nat num)) as [(_ & _ & B) _].
  destruct (eangle_exact c f s Tu (Z.to_nat num) D8) as (_ & z & K). rewrite INR_IZR_INZ, Z2Nat.id in K by lia. rewrite Rmult_comm, N7 in K.
  assert (K0 : R_ (eangle c (Z.to_nat num)) = 0%R).
  { rewrite K in B |- *. assert (Z1 : (0 < IZR z < 2)%R \/ (IZR z <= 0)%R \/ (2 <= IZR z)%R) by lra. assert (z = 1) by (assert (0 < z < 2) by (split; apply lt_IZR; lra); lia). subst z. lra. }
  destruct (Z.to_nat num) as [|j] eqn:Ej; [lia|]. cbn [eangle] in *. destruct (eangle_ok c f s Tu j) as [IC _]. destruct (eangle_exact c f s Tu j D8) as (Dj & _).
  apply wrap_zero; auto. lra.
Qed.
Lemma since_angle m done : eangle c (Z.to_nat (since_cam c m done)) = eangle c (Z.to_nat (m mod num)).
Proof.
  unfold since_cam. destruct (done || negb (m mod num =? 0)) eqn:Q; [reflexivity|]. apply orb_false_iff in Q. destruct Q as [_ Q]. apply negb_false_iff, Z.eqb_eq in Q. rewrite Q. exact eangle_turn.
Qed.

Lemma synced_even n h : even_history num f cam s n h -> let m := s + Z.of_nat n - 1 in g < m ->
  exists d fx, drun c dec_init h = Ok (d, fx) /\ dd_last_angle d = eangle c (Z.to_nat (m mod num)) /\ tracks c tau q 0 m (f m) d.
Proof.
  assert (Ea : forall n done d, etrack c f s g (Z.of_nat n) done d -> g < s + Z.of_nat n - 1 -> dd_last_angle d = eangle c (Z.to_nat ((s + Z.of_nat n - 1) mod num))).
  { intros n' done d Tr Hm. rewrite (e_angle _ _ _ _ _ _ _ Tr); [apply since_angle|]. unfold synced. destruct (Z.ltb_spec g (s + Z.of_nat n' - 1)); [reflexivity|lia]. }
  intros [->|(k & -> & ->)] m Hm.
  - destruct (even_run c f cam s Tu Ty g G n) as (d & es & E & Tr & _). exists d, (map (fun e => SetExpire (w32 e)) es). split; [exact E|]. split; [exact (Ea _ _ _ Tr Hm)|].
    exact (etrack_tracks (Z.of_nat n) true d ltac:(lia) Tr (run_known c f cam s n d _ Ty E) Hm).
  - destruct (even_run c f cam s Tu Ty g G k) as (d & es & E & Tr & _).
    destruct (tooth_step c f s Tu Ty g G (Z.of_nat k) d ltac:(lia) Tr) as (d1 & fx & E1 & Tr1 & _).
    exists d1, (map (fun e => SetExpire (w32 e)) es ++ fx). split; [rewrite drun_app, E; cbn [bind drun]; rewrite E1; cbn [bind]; now rewrite app_nil_r|].
    replace (Z.of_nat k + 1) with (Z.of_nat (Datatypes.S k)) in Tr1 by lia. split; [exact (Ea _ _ _ Tr1 Hm)|].
    exact (etrack_tracks (Z.of_nat (Datatypes.S k)) false d1 ltac:(lia) Tr1 (trigger_known c d 0 _ d1 fx Ty (run_known c f cam s k d _ Ty E) E1) Hm).
Qed.
End view.

(** ** C77, even teeth *)
(** A steadily turning wheel with [num] equally spaced teeth to a cam pulse, a tooth width that is a multiple
    of 1/8192 degree, and a decoder that has its position and has seen a tooth since it gained it: sparks and
    ends of injection are on their angles, from the tooth of the cam pulse shifted by the configured offset,
    both before and after the cam pulse of the last tooth. *)
Theorem C77_spark_even : forall c f cam tau q s g n h, even_turning c f s -> dc_type c = EVEN_CAMSYNC -> is_first_cam (dc_num c) (dc_required c) s g ->
  (exists z, R_ (dc_dpt c) = IZR z / 8192)%R -> (IZR (dc_num c) * R_ (dc_dpt c) = 720)%R ->
  constant_speed f tau q -> (16 <= q)%R -> (20 <= speed_of (R_ (dc_dpt c)) q <= 1000000)%R -> angle_ok (dc_offset c) ->
  even_history (dc_num c) f cam s n h -> let m := s + Z.of_nat n - 1 in g < m ->
  exists d fx, drun c dec_init h = Ok (d, fx) /\ spark_on_angle c tau q 0 (f m) d.
Proof.
  intros c f cam tau q s g n h Tu Ty G D N CS Hq Hs Ao Hh m Hm. destruct (synced_even c f cam tau q s g Tu Ty G CS Hq Hs D N n h Hh Hm) as (d & fx & E & _ & Tk).
  exists d, fx. split; [exact E|]. eapply tracks_spark; eauto. destruct Tu as [_ _ [(_ & _ & ?) _ _] _ _]. lra.
Qed.
Print Assumptions C77_spark_even.

Theorem C77_injection_even : forall c f cam tau q s g n h, even_turning c f s -> dc_type c = EVEN_CAMSYNC -> is_first_cam (dc_num c) (dc_required c) s g ->
  (exists z, R_ (dc_dpt c) = IZR z / 8192)%R -> (IZR (dc_num c) * R_ (dc_dpt c) = 720)%R ->
  constant_speed f tau q -> (16 <= q)%R -> (20 <= speed_of (R_ (dc_dpt c)) q <= 1000000)%R -> angle_ok (dc_offset c) ->
  even_history (dc_num c) f cam s n h -> let m := s + Z.of_nat n - 1 in g < m ->
  exists d fx, drun c dec_init h = Ok (d, fx) /\ injection_on_angle c tau q 0 (f m) d.
Proof.
  intros c f cam tau q s g n h Tu Ty G D N CS Hq Hs Ao Hh m Hm. destruct (synced_even c f cam tau q s g Tu Ty G CS Hq Hs D N n h Hh Hm) as (d & fx & E & _ & Tk).
  exists d, fx. split; [exact E|]. eapply tracks_injection; eauto. destruct Tu as [_ _ [(_ & _ & ?) _ _] _ _]. lra.
Qed.
Print Assumptions C77_injection_even.

(* The wheel of C26's example (12 teeth to a cam pulse), 40000 ticks for each 60 degrees: 1000 RPM. After tooth
   41, at 300 degrees, the coil of P_Outputs (180 degrees) with 30 degrees of advance is to fire at 150, that
   is 570 degrees = 380000 ticks later. *)
Example C77_even_example : even_turning even12 (fun k => 100000 + 40000 * k) 3 /\ is_first_cam 12 5 3 12 /\
  constant_speed (fun k => 100000 + 40000 * k) 100000 40000 /\ (20 <= speed_of (R_ (dc_dpt even12)) 40000 <= 1000000)%R /\ angle_ok (dc_offset even12) /\
  (exists z, R_ (dc_dpt even12) = IZR z / 8192)%R /\ (IZR (dc_num even12) * R_ (dc_dpt even12) = 720)%R /\
  exists d fx o', drun even12 dec_init (even_events 12 (fun k => 100000 + 40000 * k) (fun k => 110000 + 40000 * k) 3 39) = Ok (d, fx) /\
    schedule_ignition_event false (w32 1745000) 500 (seen even12 d) coil (f_of_Z 30) 2000 = Ok (1, o') /\
    e_time (o_stop o') - (100000 + 40000 * 41) = 380000 /\ e_time (o_stop o') - e_time (o_start o') = 8000.
Proof.
  assert (D : R_ (dc_dpt even12) = 60%R) by (cbn [even12 dc_dpt]; destruct (f_of_Z_exact 60) as [E _]; [cbn; lia|exact E]).
  split; [apply even12_turning; lia|]. split; [split; [reflexivity|]; split; [lia|]; intros m H1 H2; apply Z.mod_divide in H2; [|lia]; destruct H2 as [k ->]; lia|].
  split; [intros i; rewrite plus_IZR, mult_IZR; replace (100000 + 40000 * IZR i - (100000 + 40000 * IZR i))%R with 0%R by ring; rewrite Rabs_R0; lra|].
  split; [rewrite D; unfold speed_of; lra|]. split; [cbn [even12 dc_offset]; split; [reflexivity|]; split; [reflexivity|]; unfold R_, f_zero; cbn; rewrite Rabs_R0; lra|].
  split; [exists 491520; rewrite D; lra|]. split; [rewrite D; cbn [even12 dc_num]; lra|].
  eexists _, _, _. split; [vm_compute; reflexivity|]. split; [vm_compute; reflexivity|]. split; vm_compute; reflexivity.
Qed.
