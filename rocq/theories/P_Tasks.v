(** Properties C39-C42: the periodic tasks and the emergency shutdown. *)
Require Import ZArith Reals Lra Lia List Bool Coq.Floats.SpecFloat.
From Flocq Require Import Core.
From Verif Require Import Res Word F32 F32Flocq FinBack Table TableSpec TableProofs P_Table Arr Outputs Buffers Decoder DecoderProofs DefaultConfig System SystemProofs SystemRun P_System Tasks TaskSpec TaskProofs.
Import ListNotations.
Open Scope Z_scope.
Ltac Zify.zify_post_hook ::= idtac.

(** ** C39 *)
(** Any history of runs (latest first) with any teeth: the pump is on exactly if there was a tooth in the last second,
    or it is less than 4 s since a run that found one, or since power-on. *)
Theorem C39_pump : forall r h, in_order (r :: h) -> regular (r :: h) -> exists v lv, pump_history (r :: h) = Ok (v, lv) /\
  (v = 0 \/ v = 1) /\ (v = 1 <-> turning r \/ p_b r - last_turning h < 4 * second).
Proof. intros r h O G. destruct (pump_inv (r :: h) O G) as (v & L & E & K1 & K2 & _). exists v, (w32 L). auto. Qed.
Print Assumptions C39_pump.
(** It stops at the latest 5 s after the last tooth (plus the time a run takes)... *)
Theorem C39_stops : forall r h d, in_order (r :: h) -> regular (r :: h) -> 0 <= d -> Forall (fun q => p_b q - p_a q <= d) h ->
  p_tooth r + 5 * second + d <= p_a r -> exists lv, pump_history (r :: h) = Ok (0, lv).
Proof.
  intros r h d O G Hd D H. destruct (C39_pump r h O G) as (v & lv & E & V & K). exists lv. rewrite E. destruct V as [->| ->]; auto. exfalso.
  assert (B : last_turning h <= p_tooth r + second + d).
  { clear - O D Hd. destruct O as (_ & O1 & O2 & O3). revert r O1 O2. induction h as [|q h IH]; intros r O1 O2; cbn [last_turning]; [unfold second; lia|].
    cbn [in_order] in O3. destruct O3 as (Q1 & Q2 & Q3 & Q4). pose proof (Forall_inv D) as D1. cbn beta in D1. pose proof (Forall_inv_tail D) as D2. unfold turningb. destruct (Z.leb_spec (p_a q - p_tooth q) second); [lia|].
    specialize (IH Q4 D2 q). eapply Z.le_trans; [apply IH; auto; lia|]. lia. }
  cbn [in_order] in O. destruct (proj1 K eq_refl) as [X|X]; unfold turning, second in *; lia.
Qed.
Print Assumptions C39_stops.
(** ... but only until the counter has gone round: then it runs again, for any state, though the engine stands. *)
Theorem C39_restart_refuted : forall a b c tooth lv, a - tooth = W \/ W <= a - tooth <= W + second ->
  handle_fuel_pump (w32 a) (w32 b) (w32 c) (w32 tooth) lv = Ok (1, w32 b).
Proof.
  intros a b c tooth lv H. unfold handle_fuel_pump. rewrite us_1s. cbn [bind]. replace (w32 a) with (w32 (a - W)).
  2:{ unfold w32. rewrite Zminus_mod, Z_mod_same_full, Z.sub_0_r. apply Z.mod_mod. unfold W. lia. }
  rewrite (in_range_true (a - W) tooth 4000000) by (unfold second, W in *; lia). destruct (Z.leb_spec (a - W - tooth) 4000000); auto. unfold second, W in *. lia.
Qed.
Print Assumptions C39_restart_refuted.

(** The times of teeth are only recorded while the position is known.  Whatever teeth a crank wheel gives, as long as
    there is no cam pulse the task sees the tooth time 0, and so the pump stops while the engine is being cranked. *)
Definition unsynced (d : dec) : Prop := dd_last_time d = 0 /\ is_sync (dd_state d) = false.
Lemma even_rpm_unsynced c d d' fx : even_tooth_trigger_update_rpm c d = Ok (d', fx) -> unsynced d -> unsynced d'.
Proof.
  unfold even_tooth_trigger_update_rpm, unsynced. intros H [U1 U2].
  apply bind_ok in H. destruct H as (t0 & _ & H). apply bind_ok in H. destruct H as (t1 & _ & H). apply bind_ok in H. destruct H as (tr & _ & H).
  apply bind_ok in H. destruct H as (d1 & E & H). apply bind_ok in H. destruct H as (x & _ & H). injection H as <- _.
  assert (K : dd_last_time d1 = 0 /\ is_sync (dd_state d1) = false).
  { destruct (1 <? _) in E.
    - apply bind_ok in E. destruct E as (tw & _ & E). apply bind_ok in E. destruct E as (rpm & _ & E). injection E as <-. destruct (rpm =? 0); auto.
    - injection E as <-. auto. }
  cbn [set_expiration dd_last_time dd_state]. repeat match goal with |- context [if ?b then _ else _] => destruct b end; cbn; tauto.
Qed.
Lemma even_update_unsynced c d t d' fx : even_tooth_trigger_update c d t = Ok (d', fx) -> unsynced d -> unsynced d'.
Proof.
  unfold even_tooth_trigger_update. intros H U. set (a := push_time d t) in H. assert (Ua : unsynced a) by exact U. clearbody a.
  set (b := set_since a _) in H. assert (Ub : unsynced b) by exact Ua. clearbody b.
  set (e := if dd_cur b <? _ then _ else _) in H. assert (Ue : unsynced e) by (unfold e; destruct (dd_cur b <? _); exact Ub). clearbody e.
  set (g := if is_nosync (dd_state e) && _ then _ else _) in H. assert (Ug : unsynced g) by (unfold g; destruct (is_nosync (dd_state e) && _); [split; [apply Ue|reflexivity]|exact Ue]). clearbody g.
  rewrite (proj2 Ug) in H. destruct (is_nosync (dd_state g)); [injection H as <- _; auto|]. eapply even_rpm_unsynced; eauto.
Qed.
Theorem C39_cranking_refuted : forall c teeth d, dc_type c = EVEN_CAMSYNC -> unsynced d ->
  forall d', fold_left (fun r t => d <- r ;; ' (d, _) <- decoder_trigger c d 0 t ;; Ok d) teeth (Ok d) = Ok d' -> dd_last_time d' = 0.
Proof.
  intros c teeth. induction teeth as [|t teeth IH]; intros d Hc U d' H; cbn [fold_left] in H; [injection H as <-; apply U|].
  assert (Er : forall e, fold_left (fun (r : res dec) t => d <- r ;; ' (d, _) <- decoder_trigger c d 0 t ;; Ok d) teeth (Err e) = Err e) by (clear; induction teeth; cbn; auto).
  cbn [bind] in H. destruct (decoder_trigger c d 0 t) as [[d1 fx]|e] eqn:E; cbn [bind] in H; [|rewrite Er in H; discriminate].
  apply (IH d1 Hc); auto. clear H Er IH. unfold decoder_trigger, decode in E. rewrite Hc in E. cbn [Z.eqb] in E. unfold decode_even_with_camsync in E. cbn [Z.eqb] in E.
  apply bind_ok in E. destruct E as ([d2 fx2] & E & H).
  apply even_update_unsynced in E; [|exact U]. rewrite (proj2 E) in H. cbn [set_t0 dd_state] in H. rewrite (proj2 U) in H. injection H as <- _. exact E.
Qed.
Print Assumptions C39_cranking_refuted.

(* Example: runs every 200 ms; last tooth at 1 s; on at 5.8 s, off at 6 s. *)
Definition every_run (n : nat) (tooth : Z -> Z) : list prun := map (fun k => let t := Z.of_nat k * 800000 in PRun t t t (tooth t)) (rev (seq 0 n)).
Definition stopped_at_1s (t : Z) : Z := Z.min t second.
Lemma every_ok n tooth : (forall a b, a <= b -> tooth a <= tooth b) -> (forall t, 0 <= t -> 0 <= tooth t <= t) -> (n <= 1000)%nat ->
  in_order (every_run n tooth) /\ regular (every_run n tooth).
Proof.
  intros M B. unfold every_run. induction n as [|n IH]; intros Hn; [split; exact I|]. destruct (IH ltac:(lia)) as [I1 I2]. rewrite seq_S, rev_app_distr. cbn [rev app map]. clear IH.
  pose proof (B (Z.of_nat n * 800000) ltac:(lia)) as B0. destruct n as [|n].
  - cbn [seq rev app map in_order regular p_a p_b p_c p_tooth]. change (Z.of_nat (0 + 0) * 800000) with 0. change (Z.of_nat 0 * 800000) with 0 in *. unfold MAXGAP, W. split; [split; [lia|split; [auto|split; [lia|auto]]]|split; [lia|split; [lia|auto]]].
  - rewrite seq_S, rev_app_distr in *. cbn [rev app map] in *. pose proof (M (Z.of_nat n * 800000) (Z.of_nat (S n) * 800000) ltac:(lia)) as M0. cbn [in_order regular p_a p_b p_c p_tooth] in *. unfold MAXGAP, W, second in *.
    change (0 + n)%nat with n in *. change (0 + S n)%nat with (S n) in *.
    split; [split; [lia|split; [auto|split; [split; [lia|auto]|auto]]]|split; [lia|split; [lia|auto]]].
Qed.
Example C39_example : in_order (every_run 31 stopped_at_1s) /\ regular (every_run 31 stopped_at_1s) /\
  (exists lv, pump_history (every_run 30 stopped_at_1s) = Ok (1, lv)) /\ (exists lv, pump_history (every_run 31 stopped_at_1s) = Ok (0, lv)).
Proof.
  assert (A : forall n, (n <= 1000)%nat -> in_order (every_run n stopped_at_1s) /\ regular (every_run n stopped_at_1s)).
  { intros n Hn. apply every_ok; auto; unfold stopped_at_1s, second; lia. }
  destruct (A 31%nat ltac:(lia)). destruct (A 30%nat ltac:(lia)) as [O1 G1]. split; auto. split; auto.
  assert (L : last_turning (every_run 30 stopped_at_1s) = 2 * second /\ last_turning (every_run 29 stopped_at_1s) = 2 * second) by (split; vm_compute; reflexivity). destruct L as [L1 L2].
  assert (Sn : forall n, exists r, every_run (S n) stopped_at_1s = r :: every_run n stopped_at_1s /\ p_a r = Z.of_nat n * 800000 /\ p_b r = Z.of_nat n * 800000 /\ p_tooth r = stopped_at_1s (Z.of_nat n * 800000)).
  { intros n. unfold every_run. rewrite seq_S, rev_app_distr. eexists. split; [reflexivity|]. auto. }
  split.
  - destruct (Sn 29%nat) as (r & E & R1 & R2 & R3). rewrite E in *. destruct (C39_pump _ _ O1 G1) as (v & lv & Ev & _ & K). exists lv. rewrite Ev. replace v with 1; auto. symmetry. apply K. right. rewrite L2, R2. reflexivity.
  - destruct (Sn 30%nat) as (r & E & R1 & R2 & R3). rewrite E in *. destruct (C39_pump _ _ H H0) as (v & lv & Ev & V & K). exists lv. rewrite Ev. destruct V as [->| ->]; auto. exfalso. destruct (proj1 K eq_refl) as [X|X].
    + unfold turning, second in X. rewrite R1, R3 in X. vm_compute in X. contradiction.
    + rewrite L1, R2 in X. vm_compute in X. discriminate.
Qed.
Example C39_cranking_example : unsynced dec_init. Proof. split; reflexivity. Qed.

(** ** C40 *)
(** The condition: lean under boost before loss of position while turning before a sensor fault. *)
Theorem C40_condition : forall faults valid rpm map ego kpa lam,
  let lean := fgt map kpa = true /\ fgt ego lam = true in let lost := valid = 0 /\ 0 < rpm in let faulty := 0 < faults in
  let c := determine_next_cel_state faults valid rpm map ego kpa lam in
  (c = CEL_FASTBLINK <-> lean) /\ (c = CEL_SLOWBLINK <-> ~ lean /\ lost) /\ (c = CEL_CONSTANT <-> ~ lean /\ ~ lost /\ faulty) /\ (c = CEL_NONE <-> ~ lean /\ ~ lost /\ ~ faulty).
Proof.
  intros. subst lean lost faulty c. unfold determine_next_cel_state.
  destruct (fgt map kpa), (fgt ego lam), (Z.eqb_spec valid 0), (Z.ltb_spec 0 rpm), (Z.ltb_spec 0 faults); cbn [andb];
  (split; [|split; [|split]]); split; intros; try discriminate; auto; try (exfalso; intuition (try congruence; try lia); fail); intuition (try congruence; try lia).
Qed.
Print Assumptions C40_condition.

(** The light shows at least the present condition. *)
Theorem C40_present : forall r h, light_order (r :: h) -> light_regular (r :: h) -> exists s, shown (r :: h) s /\ cel_level (l_cond r) <= cel_level s.
Proof.
  intros r h O G. destruct (since_all h (proj2 (proj2 O)) (proj2 (proj2 G))) as (s & t & S). destruct (since_step r h s t O G S) as (s' & t' & (v & E & _) & D).
  exists s'. split; [exists v, (w32 t'); auto|]. destruct D as [(-> & _)|[(_ & _ & D)|(-> & -> & _)]]; auto; lia.
Qed.
Print Assumptions C40_present.

Lemma since_origin h : light_order h -> light_regular h -> forall s t, since h s t -> s <> CEL_NONE -> exists q i p, h = q ++ i :: p /\ l_cond i = s /\ t = l_b i.
Proof.
  induction h as [|r h IH]; intros O G s t S N; [destruct S as (v & _ & -> & _); congruence|].
  destruct (since_all h (proj2 (proj2 O)) (proj2 (proj2 G))) as (s0 & t0 & S0). destruct (since_step r h s0 t0 O G S0) as (s' & t' & S' & D).
  assert (X : s' = s /\ (t' = t \/ (t' <> t /\ True))).
  { destruct S as (v & E & _), S' as (v' & E' & _). assert (s = s') by congruence. split; auto. destruct (Z.eq_dec t' t); auto. }
  assert (T : t' = t).
  { destruct S as (v & E & K1 & K2 & _), S' as (v' & E' & K1' & K2' & _). assert (w32 t = w32 t') by congruence. destruct X as [-> _]. destruct K2 as [|K2]; [congruence|]. destruct K2' as [|K2']; [congruence|].
    destruct G as (G1 & _). destruct O as (O1 & _). assert (W1 : exists k, t - t' = k * W).
    { exists (t / W - t' / W). pose proof (Z.div_mod t W ltac:(unfold W; lia)). pose proof (Z.div_mod t' W ltac:(unfold W; lia)). unfold w32 in H. lia. }
    destruct W1 as [k Hk]. unfold W, second in *. assert (k = 0) by lia. lia. }
  destruct X as [-> _]. subst t'. destruct D as [(D1 & D2 & _)|[(D1 & D2 & _)|(D1 & _)]]; [| |congruence].
  - exists [], r, h. auto.
  - subst s0 t0. destruct (IH (proj2 (proj2 O)) (proj2 (proj2 G)) s t S0 N) as (q & i & p & -> & A & B). exists (r :: q), i, p. auto.
Qed.

(** What it shows was present at a run within the last 3 s, and it blinks counting from that run. *)
Theorem C40_reason : forall r h, light_order (r :: h) -> light_regular (r :: h) -> exists v s t, light_history (r :: h) = Ok (v, (s, t)) /\
  (s = CEL_NONE /\ v = 0 \/ exists q i p, r :: h = q ++ i :: p /\ l_cond i = s /\ l_a r - l_b i <= 3 * second /\ light s (l_c r - l_b i) v).
Proof.
  intros r h O G. destruct (since_all _ O G) as (s & t & S). pose proof (since_origin _ O G s t S) as Or. destruct S as (v & E & K1 & K2 & K3). exists v, s, (w32 t). split; auto.
  assert (Dc : s = CEL_NONE \/ s <> CEL_NONE) by (destruct s; auto; right; discriminate). destruct Dc as [->|N]; [left; split; auto|].
  right. destruct (Or N) as (q & i & p & Eh & C & ->). exists q, i, p. split; auto. split; auto. split; auto. destruct K2; [congruence|]. unfold second. lia.
Qed.
Print Assumptions C40_reason.
(** So without any condition for 3 s it is off. *)
Theorem C40_off : forall r h, light_order (r :: h) -> light_regular (r :: h) ->
  (forall i, In i (r :: h) -> l_a r - l_b i <= 3 * second -> l_cond i = CEL_NONE) -> exists t, light_history (r :: h) = Ok (0, (CEL_NONE, t)).
Proof.
  intros r h O G N. destruct (C40_reason r h O G) as (v & s & t & E & [[-> ->]|(q & i & p & Eh & C & T & L)]); [eauto|].
  assert (s = CEL_NONE). { rewrite <- C. apply N; auto. rewrite Eh. apply in_elt. } rewrite H in L. cbn in L. rewrite L, H in E. eauto.
Qed.
Print Assumptions C40_off.

(** A newly raised condition is shown, or a higher one, for 3 s. *)
Theorem C40_hold : forall q i p s0, light_order (q ++ i :: p) -> light_regular (q ++ i :: p) -> shown p s0 -> cel_level s0 < cel_level (l_cond i) ->
  Forall (fun r => l_a r - l_b i <= 3 * second) q -> exists s, shown (q ++ i :: p) s /\ cel_level (l_cond i) <= cel_level s.
Proof.
  intros q i p s0 O G Sp L F.
  assert (K : exists s t, since (q ++ i :: p) s t /\ cel_level (l_cond i) <= cel_level s /\ l_b i <= t).
  { induction q as [|r q IH].
    - cbn [app] in *. destruct (since_all p (proj2 (proj2 O)) (proj2 (proj2 G))) as (s & t & S). destruct (since_step i p s t O G S) as (s' & t' & S' & D).
      assert (s = s0) as -> by (destruct Sp as (v & x & E), S as (v' & E' & _); congruence).
      destruct D as [(-> & -> & _)|[(-> & _ & D)|(-> & D & _)]]; [|lia|rewrite D in L; destruct s0; cbn in L; lia]. exists (l_cond i), (l_b i). split; auto. lia.
    - cbn [app] in *. destruct (IH (proj2 (proj2 O)) (proj2 (proj2 G)) (Forall_inv_tail F)) as (s & t & S & L1 & L2). destruct (since_step r _ s t O G S) as (s' & t' & S' & D). pose proof (Forall_inv F) as F1. cbn beta in F1.
      assert (T : l_a r - t <= 12000000) by (unfold second in *; lia).
      exists s', t'. split; auto. destruct D as [(-> & -> & [D|[D _]])|[(-> & -> & D)|(-> & _ & _ & D)]]; try lia.
      split; [lia|]. clear - O. assert (X : forall k r, light_order (r :: k ++ i :: p) -> l_b i <= l_a r).
      { induction k as [|x k IHq]; intros r0 O0; cbn [app light_order] in O0; [lia|]. specialize (IHq x (proj2 (proj2 O0))). cbn [light_order] in O0. lia. }
      specialize (X q r O). cbn [light_order] in O. lia. }
  destruct K as (s & t & (v & E & _) & L1 & _). exists s. split; auto. exists v, (w32 t). auto.
Qed.
Print Assumptions C40_hold.
(** Not for 3 s after it was last present: a condition present for 2.9 s is gone from the light 0.2 s later. *)
Definition cel_at (ms : Z) (c : cel) : crun := CRun (ms * 4000) (ms * 4000) (ms * 4000) c.
Theorem C40_last_seen_refuted : exists h, light_order h /\ light_regular h /\ In (cel_at 12900 CEL_SLOWBLINK) h /\ hd_error h = Some (cel_at 13100 CEL_NONE) /\ shown h CEL_NONE.
Proof.
  exists [cel_at 13100 CEL_NONE; cel_at 12900 CEL_SLOWBLINK; cel_at 10000 CEL_SLOWBLINK]. split; [vm_compute; intuition discriminate|]. split; [vm_compute; intuition discriminate|].
  split; [right; left; reflexivity|]. split; [reflexivity|]. do 2 eexists. vm_compute. reflexivity.
Qed.
Print Assumptions C40_last_seen_refuted.
Example C40_example : light_order [cel_at 12900 CEL_NONE; cel_at 10750 CEL_CONSTANT; cel_at 10000 CEL_SLOWBLINK] /\
  shown [cel_at 12900 CEL_NONE; cel_at 10750 CEL_CONSTANT; cel_at 10000 CEL_SLOWBLINK] CEL_SLOWBLINK /\ shown [] CEL_NONE /\
  (exists st, light_history [cel_at 10750 CEL_CONSTANT; cel_at 10000 CEL_SLOWBLINK] = Ok (1, st)).
Proof. split; [vm_compute; intuition discriminate|]. split; [do 2 eexists; vm_compute; reflexivity|]. split; [do 2 eexists; reflexivity|]. eexists. vm_compute. reflexivity. Qed.

(** ** C41 *)
(** The decision, for all floats (a comparison with NaN is false). *)
Theorem C41_duty : forall nd b map tps rpm,
  (flt map (bo_enable b) = true -> handle_boost_control nd b map tps rpm = Ok (f_of_Z 0)) /\
  (flt map (bo_enable b) = false -> flt map (bo_control b) = true -> flt (bo_tps b) tps = true -> handle_boost_control nd b map tps rpm = Ok (f_of_Z 100)) /\
  (flt map (bo_enable b) = false -> (flt map (bo_control b) = false \/ flt (bo_tps b) tps = false) ->
   handle_boost_control nd b map tps rpm = interpolate_table_oneaxis nd (bo_table b) (f_of_Z rpm)).
Proof.
  intros. unfold handle_boost_control. change (fgt tps (bo_tps b)) with (flt (bo_tps b) tps). split; [|split].
  - now intros ->.
  - now intros -> -> ->.
  - intros -> H. destruct (flt map (bo_control b)), (flt (bo_tps b) tps); auto. destruct H; discriminate.
Qed.
Print Assumptions C41_duty.

Lemma cell_or_end a v : ascending a -> 1 <= ax_num a -> vf v -> fin v ->
  at_breakpoint a v 0 \/ at_breakpoint a v (ax_num a - 1) \/ exists i, in_cell a v i.
Proof.
  intros [S A] N V F.
  assert (C : forall i, 0 <= i < ax_num a -> flt v (elt (ax_values a) i) = true \/ fge v (elt (ax_values a) i) = true).
  { intros i Hi. destruct (S i Hi) as (V1 & F1 & _). unfold fge. destruct (flt v (elt (ax_values a) i)) eqn:E; auto. right. apply flt_false_iff in E; auto. apply fle_iff; auto. }
  destruct (C 0 ltac:(lia)) as [L|G]; [left; right; left; auto|].
  destruct (C (ax_num a - 1) ltac:(lia)) as [L|G2].
  - right; right. assert (X : forall n : nat, Z.of_nat n <= ax_num a - 1 -> (exists i, in_cell a v i) \/ fge v (elt (ax_values a) (Z.of_nat n)) = true).
    { induction n as [|n IH]; intros Hn; [right; exact G|]. destruct IH as [X|X]; [lia|auto|]. destruct (C (Z.of_nat (Datatypes.S n)) ltac:(lia)) as [Y|Y]; auto. left. exists (Z.of_nat n).
      replace (Z.of_nat (Datatypes.S n)) with (Z.of_nat n + 1) in Y by lia. split; [lia|]. split; [lia|]. auto. }
    destruct (X (Z.to_nat (ax_num a - 1)) ltac:(lia)) as [Y|Y]; auto. rewrite Z2Nat.id in Y by lia. exfalso.
    destruct (S (ax_num a - 1) ltac:(lia)) as (V1 & F1 & _). apply flt_iff in L; auto. unfold fge in Y. apply fle_iff in Y; auto. lra.
  - right; left. destruct (S (ax_num a - 1) ltac:(lia)) as (V1 & F1 & _). unfold fge in G2. apply fle_iff in G2; auto.
    destruct (Rle_lt_or_eq_dec _ _ G2) as [H|H]; [right; right; split; auto; unfold fgt; apply flt_iff; auto|left; apply feq_iff; auto].
Qed.

Lemma rnd_100 a b : (0 <= a <= 100)%R -> (0 <= b <= 100)%R -> rnd a = a -> (a <= b)%R -> (rnd (a + rnd (b - a)) <= 100001 / 1000)%R.
Proof.
  intros Ha Hb Ea L. pose proof (FinBack.rnd_err (b - a)) as E1. pose proof (FinBack.rnd_err (a + rnd (b - a))) as E2.
  assert (U : (bpow radix2 (-24) <= / 16000000)%R) by (change (bpow radix2 (-24)) with (/ 16777216)%R; lra).
  assert (T : (bpow radix2 (-150) <= bpow radix2 (-24))%R) by (apply bpow_le; lia).
  pose proof (bpow_ge_0 radix2 (-24)). pose proof (bpow_ge_0 radix2 (-150)).
  rewrite (Rabs_pos_eq (b - a)) in E1 by lra. apply Rabs_le_inv in E1.
  assert (E1' : (bpow radix2 (-24) * (b - a) <= / 16000000 * 100)%R) by (apply Rmult_le_compat; lra).
  assert (0 <= bpow radix2 (-24) * (b - a))%R by (apply Rmult_le_pos; lra).
  assert (B : (Rabs (a + rnd (b - a)) <= 200)%R) by (apply Rabs_le; lra).
  assert (E2' : (bpow radix2 (-24) * Rabs (a + rnd (b - a)) <= / 16000000 * 200)%R) by (apply Rmult_le_compat; auto; apply Rabs_pos).
  apply Rabs_le_inv in E2. lra.
Qed.

Lemma get_vf l i x : get l i = Ok x -> Forall vf l -> vf x.
Proof.
  unfold get. intros H F. destruct (i <? 0); [discriminate|]. destruct (nth_error l _) eqn:E; [|discriminate]. injection H as <-. apply nth_error_In in E. rewrite Forall_forall in F. auto.
Qed.
Lemma lookup1_vf nd t v r : interpolate_table_oneaxis nd t v = Ok r -> wf_table1 t -> vf v -> vf r.
Proof.
  intros H ((_ & Fa & _) & _ & Fd) V. unfold interpolate_table_oneaxis in H.
  apply bind_ok in H. destruct H as (w & E & H). apply bind_ok in H. destruct H as (i & _ & H). apply bind_ok in H. destruct H as (x1 & E1 & H). apply bind_ok in H. destruct H as (x2 & E2 & H).
  apply bind_ok in H. destruct H as (y1 & E3 & H). apply bind_ok in H. destruct H as (y2 & E4 & H). injection H as <-.
  apply get_vf in E1, E2, E3, E4; auto. unfold clamp_to_axis in E. apply bind_ok in E. destruct E as (v0 & G0 & E). apply bind_ok in E. destruct E as (vn & Gn & E). injection E as <-. apply get_vf in G0, Gn; auto.
  assert (vf (if fgt (if flt v v0 then v0 else v) vn then vn else if flt v v0 then v0 else v)) by (destruct (flt v v0); destruct (fgt _ vn); auto). auto 8 with vf.
Qed.

Lemma feq_fin x y : feq x y = true -> fin y -> fin x.
Proof. unfold feq, SFeqb, fin. destruct x as [s|s| |s m e], y as [s'|s'| |s' m' e']; cbn; auto; try discriminate; destruct s; try discriminate; destruct s'; discriminate. Qed.

(** With a table of duties between 0 and 100 the duty commanded is in that range (up to a thousandth), at any speed. *)
Theorem C41_range : forall nd b map tps rpm, let t := bo_table b in wf_table1 t -> ascending (t1_cols t) -> good_tail (t1_cols t) -> 1 <= ax_num (t1_cols t) <= 23 ->
  (forall k, 0 <= k <= ax_num (t1_cols t) -> fin (elt (t1_data t) k) /\ (0 <= R_ (elt (t1_data t) k) <= 100)%R) -> 0 <= rpm < W ->
  exists d, handle_boost_control nd b map tps rpm = Ok d /\ vf d /\ fin d /\ (0 <= R_ d <= 100001 / 1000)%R.
Proof.
  intros nd b map tps rpm t Wt As Gt N D Hr. assert (Sn : forall k, 0 <= k <= ax_num (t1_cols t) -> sane (elt (t1_data t) k)).
  { intros k Hk. destruct (D k Hk) as [F B]. split; [apply vf_elt; apply Wt|]. split; auto. rewrite Rabs_pos_eq by lra. change (bpow radix2 100) with (IZR (2 ^ 100)). eapply Rle_trans; [apply B|]. apply IZR_le. lia. }
  unfold handle_boost_control. destruct (flt map (bo_enable b)).
  { exists f_zero. split; auto. split; [apply vf_f_zero|]. split; [reflexivity|]. rewrite R_f_zero. lra. }
  destruct (flt map (bo_control b) && fgt tps (bo_tps b)).
  { exists (f_of_Z 100). destruct (f_of_Z_exact 100 ltac:(lia)) as [E F]. split; auto. split; [auto with vf|]. split; auto. rewrite E. lra. }
  fold t. destruct (f_of_Z_u32 rpm ltac:(unfold W in *; lia)) as [_ Fr].
  assert (Ends : forall i, 0 <= i < ax_num (t1_cols t) -> at_breakpoint (t1_cols t) (f_of_Z rpm) i -> exists d, interpolate_table_oneaxis nd t (f_of_Z rpm) = Ok d /\ vf d /\ fin d /\ (0 <= R_ d <= 100001 / 1000)%R).
  { intros i Hi B. destruct (C05_one_axis nd t (f_of_Z rpm) i Wt As Gt N Sn Hi (vf_of_Z _) B) as (r & E & Q). exists r. split; auto.
    destruct (D i ltac:(lia)) as [Fi Bi]. pose proof (proj1 (Sn i ltac:(lia))) as Vi. assert (Vr : vf r) by (eapply lookup1_vf; eauto; apply vf_of_Z). split; auto.
    assert (Frr : fin r) by (eapply feq_fin; eauto).
    split; auto. apply feq_iff in Q; auto. rewrite Q. lra. }
  destruct (cell_or_end (t1_cols t) (f_of_Z rpm) As ltac:(lia) (vf_of_Z _) Fr) as [B|[B|(i & B)]]; [apply (Ends 0); auto; lia|apply (Ends (ax_num (t1_cols t) - 1)); auto; lia|].
  pose proof (proj1 (proj2 B)). pose proof (proj1 B).
  destruct (C06_one_axis nd t (f_of_Z rpm) i Wt As N (vf_of_Z _) B (Sn i ltac:(lia)) (Sn (i + 1) ltac:(lia))) as (r & E & F & U1 & U2). exists r. split; auto. split; [eapply lookup1_vf; eauto; apply vf_of_Z|]. split; auto.
  destruct (D i ltac:(lia)) as [F1 B1]. destruct (D (i + 1) ltac:(lia)) as [F2 B2]. pose proof (rnd_R _ (proj1 (Sn i ltac:(lia))) F1) as R1.
  destruct (Rle_or_lt (R_ (elt (t1_data t) i)) (R_ (elt (t1_data t) (i + 1)))) as [L|L].
  - pose proof (U1 L). pose proof (rnd_100 _ _ B1 B2 R1 L). lra.
  - pose proof (U2 (Rlt_le _ _ L)). split; [|lra]. eapply Rle_trans; [|apply H1]. rewrite <- rnd_0 at 1. apply rnd_le.
    assert (rnd (- R_ (elt (t1_data t) i)) <= rnd (R_ (elt (t1_data t) (i + 1)) - R_ (elt (t1_data t) i)))%R by (apply rnd_le; lra). rewrite round_NE_opp in H2. rewrite R1 in H2. lra.
Qed.
Print Assumptions C41_range.

Lemma pwm_value p : vf p -> fin p -> (0 <= R_ p <= 100001 / 1000)%R -> let x := fmul (fdiv p (f_of_Z 100)) (f_of_Z 65535) in
  fin x /\ (0 <= R_ x < 65536)%R /\ (Rabs (R_ x - R_ p * 65535 / 100) <= / 50)%R.
Proof.
  intros V F B x. destruct (f_of_Z_exact 100 ltac:(lia)) as [E1 F1]. destruct (f_of_Z_exact 65535 ltac:(lia)) as [E2 F2].
  assert (U : (bpow radix2 (-24) <= / 16000000)%R) by (change (bpow radix2 (-24)) with (/ 16777216)%R; lra).
  assert (T : (bpow radix2 (-150) <= bpow radix2 (-24))%R) by (apply bpow_le; lia).
  pose proof (bpow_ge_0 radix2 (-24)). pose proof (bpow_ge_0 radix2 (-150)).
  assert (Big : forall y, (Rabs y <= 65536)%R -> (Rabs (rnd y) < fmaxR)%R) by (intros y Hy; apply (rnd_abs_lt_max y 16); [lia|exact Hy]).
  assert (Q : (0 <= R_ p / 100 <= 1.1)%R) by lra.
  destruct (fdiv_correct p (f_of_Z 100)) as [E3 F3]; auto with vf; [rewrite E1; lra|rewrite E1; apply Big; apply Rabs_le; lra|]. rewrite E1 in E3.
  pose proof (FinBack.rnd_err (R_ p / 100)) as R1. rewrite <- E3 in R1. rewrite (Rabs_pos_eq (R_ p / 100)) in R1 by lra. apply Rabs_le_inv in R1.
  assert (M1 : (bpow radix2 (-24) * (R_ p / 100) <= / 16000000 * 1.1)%R) by (apply Rmult_le_compat; lra).
  assert (M0 : (0 <= bpow radix2 (-24) * (R_ p / 100))%R) by (apply Rmult_le_pos; lra).
  assert (P0 : (0 <= R_ (fdiv p (f_of_Z 100)))%R) by (rewrite E3, <- rnd_0; apply rnd_le; lra).
  assert (X1 : (0 <= R_ (fdiv p (f_of_Z 100)) * 65535 <= 65535.9)%R) by lra.
  destruct (fmul_correct (fdiv p (f_of_Z 100)) (f_of_Z 65535)) as [E4 F4]; auto with vf; [rewrite E2; apply Big; apply Rabs_le; lra|]. rewrite E2 in E4. fold x in E4, F4. split; auto.
  pose proof (FinBack.rnd_err (R_ (fdiv p (f_of_Z 100)) * 65535)) as R2. rewrite <- E4 in R2. rewrite (Rabs_pos_eq (R_ (fdiv p (f_of_Z 100)) * 65535)) in R2 by lra. apply Rabs_le_inv in R2.
  assert (M2 : (bpow radix2 (-24) * (R_ (fdiv p (f_of_Z 100)) * 65535) <= / 16000000 * 65536)%R) by (apply Rmult_le_compat; lra).
  assert (Y0 : (0 <= R_ x)%R) by (rewrite E4, <- rnd_0; apply rnd_le; lra).
  split; [lra|]. apply Rabs_le. lra.
Qed.
(** What the timers make of it: within a part in 60000 of the duty, no undefined conversion. *)
Theorem C41_pwm : forall p, vf p -> fin p -> (0 <= R_ p <= 100001 / 1000)%R -> exists n, gd32_pwm p = Ok n /\ 0 <= n <= 65535 /\ (Rabs (IZR n - R_ p * 65535 / 100) <= 1 + / 50)%R.
Proof.
  intros p V F B. destruct (pwm_value p V F B) as (Fx & X1 & X2). unfold gd32_pwm, f_to_u16. rewrite f_to_range_fin by auto. set (x := fmul _ _) in *.
  assert (K : 0 <= Ztrunc (R_ x) <= 65535 /\ (IZR (Ztrunc (R_ x)) <= R_ x < IZR (Ztrunc (R_ x)) + 1)%R).
  { rewrite Ztrunc_floor by apply X1. split; [split; [apply Zfloor_lub; apply X1|]|split; [apply Zfloor_lb|apply Zfloor_ub]].
    assert (Zfloor (R_ x) < 65536); [|lia]. apply lt_IZR. apply Rle_lt_trans with (R_ x); [apply Zfloor_lb|apply X1]. }
  destruct K as [K1 K2]. destruct (Z.leb_spec 0 (Ztrunc (R_ x))); [|lia]. destruct (Z.leb_spec (Ztrunc (R_ x)) 65535); [|lia]. cbn [andb]. exists (Ztrunc (R_ x)). split; auto. split; auto.
  apply Rabs_le_inv in X2. apply Rabs_le. lra.
Qed.
Print Assumptions C41_pwm.
(** The stm32 clamps: any number is safe.  The gd32 does not: a table entry above 100 or below 0 is undefined behaviour. *)
Theorem C41_stm32 : forall p, vf p -> fin p -> exists n, stm32_pwm p = Ok n /\ 0 <= n <= 65535.
Proof.
  intros p V F. unfold stm32_pwm.
  assert (K : exists q, (if flt p f_zero then f_zero else if fgt p (f_of_Z 100) then f_of_Z 100 else p) = q /\ vf q /\ fin q /\ (0 <= R_ q <= 100001 / 1000)%R).
  { destruct (f_of_Z_exact 100 ltac:(lia)) as [E1 F1]. destruct (flt p f_zero) eqn:A; [exists f_zero; split; auto; split; [apply vf_f_zero|]; split; [reflexivity|rewrite R_f_zero; lra]|].
    change (fgt p (f_of_Z 100)) with (flt (f_of_Z 100) p). destruct (flt (f_of_Z 100) p) eqn:B; [exists (f_of_Z 100); split; auto; split; [auto with vf|]; split; auto; rewrite E1; lra|].
    exists p. split; auto. split; auto. split; auto. apply flt_false_iff in A; auto using vf_f_zero, fin_f_zero. apply flt_false_iff in B; auto with vf. rewrite R_f_zero in A. rewrite E1 in B. lra. }
  destruct K as (q & -> & Vq & Fq & B). destruct (pwm_value q Vq Fq B) as (Fx & X1 & _). unfold f_to_int. rewrite f_to_range_fin by auto. set (x := fmul _ _) in *.
  assert (K1 : 0 <= Ztrunc (R_ x) <= 65535).
  { rewrite Ztrunc_floor by apply X1. split; [apply Zfloor_lub; apply X1|]. assert (Zfloor (R_ x) < 65536); [|lia]. apply lt_IZR. apply Rle_lt_trans with (R_ x); [apply Zfloor_lb|apply X1]. }
  destruct (Z.leb_spec (- HALF) (Ztrunc (R_ x))); [|unfold HALF in *; lia]. destruct (Z.leb_spec (Ztrunc (R_ x)) (HALF - 1)); [|unfold HALF in *; lia]. cbn [andb]. eauto.
Qed.
Print Assumptions C41_stm32.
Theorem C41_gd32_refuted : gd32_pwm (flit 1001 10) = Err FloatToInt /\ gd32_pwm (f_of_Z (-1)) = Err FloatToInt.
Proof. split; vm_compute; reflexivity. Qed.
Print Assumptions C41_gd32_refuted.
Definition default_boost : boost := Boost (f_of_Z 90) (f_of_Z 190) (f_of_Z 105) boost_control_pwm.
Example C41_example : handle_boost_control true default_boost (f_of_Z 80) (f_of_Z 50) 3500 = Ok f_zero /\
  handle_boost_control true default_boost (f_of_Z 120) (f_of_Z 106) 3500 = Ok (f_of_Z 100) /\
  handle_boost_control true default_boost (f_of_Z 200) (f_of_Z 50) 3500 = Ok (f_of_Z 50) /\ gd32_pwm (f_of_Z 50) = Ok 32767 /\ gd32_pwm (f_of_Z 100) = Ok 65535.
Proof. repeat split; vm_compute; reflexivity. Qed.

(** ** C42 *)
(** Fuel outputs that share a pin agree on its inactive level. *)
Definition agree (os : list output) : Prop := forall o1 o2, In o1 os -> In o2 os -> o_type o1 = FUEL_EVENT -> o_type o2 = FUEL_EVENT -> o_pin o1 = o_pin o2 -> o_inv o1 = o_inv o2.
Definition real_pins (os : list output) : Prop := forall o, In o os -> 0 <= o_pin o.

Lemma port_write_bit p pin v n : 0 <= pin -> 0 <= n -> Z.testbit (port_write p pin v) n = if n =? pin then v else Z.testbit p n.
Proof.
  intros Hp Hn. unfold port_write. destruct v.
  - rewrite Z.setbit_eqb by auto. rewrite (Z.eqb_sym pin n). destruct (n =? pin); auto.
  - rewrite Z.clearbit_eqb. rewrite (Z.eqb_sym pin n). destruct (n =? pin); cbn; [apply andb_false_r|apply andb_true_r].
Qed.
Lemma fuel_off_port os : forall d e, real_pins os -> snd (cmd_run (d, e) (fuel_off os)) = e /\
  forall n, 0 <= n -> ((forall o, In o os -> o_type o = FUEL_EVENT -> o_pin o <> n) -> Z.testbit (fst (cmd_run (d, e) (fuel_off os))) n = Z.testbit d n) /\
    (forall o, In o os -> o_type o = FUEL_EVENT -> o_pin o = n -> agree os -> Z.testbit (fst (cmd_run (d, e) (fuel_off os))) n = o_inv o).
Proof.
  induction os as [|x os IH]; intros d e Rp.
  - split; [reflexivity|]. intros n Hn. split; [reflexivity|]. intros o [].
  - assert (Rp' : real_pins os) by (intros o I; apply Rp; right; auto). pose proof (Rp x (or_introl eq_refl)) as Px. cbn [fuel_off].
    destruct (o_type x) eqn:T.
    + destruct (IH d e Rp') as [A B]. split; auto. intros n Hn. destruct (B n Hn) as [B1 B2]. split.
      * intros F. apply B1. intros o I. apply F. right. auto.
      * intros o [->|I] To Po Ag; [congruence|]. apply B2; auto. intros o1 o2 I1 I2. apply Ag; right; auto.
    + unfold cmd_run. cbn [fold_left cmd_step fst snd]. fold (cmd_run (port_write d (o_pin x) (o_inv x), e) (fuel_off os)).
      destruct (IH (port_write d (o_pin x) (o_inv x)) e Rp') as [A B]. split; auto. intros n Hn. destruct (B n Hn) as [B1 B2]. split.
      * intros F. rewrite B1 by (intros o I; apply F; right; auto). rewrite port_write_bit by auto. destruct (Z.eqb_spec n (o_pin x)); auto. subst n. exfalso. apply (F x); auto. now left.
      * intros o I To Po Ag. assert (Ag' : agree os) by (intros o1 o2 I1 I2; apply Ag; right; auto).
        assert (Ex : (exists o', In o' os /\ o_type o' = FUEL_EVENT /\ o_pin o' = n) \/ (forall o', In o' os -> o_type o' = FUEL_EVENT -> o_pin o' <> n)).
        { clear. induction os as [|y os IH]; [right; intros o' []|]. destruct IH as [(o' & I & K)|N]; [left; exists o'; split; [right|]; auto|].
          destruct (o_type y) eqn:Ty; [right; intros o' [->|I] X; [congruence|auto]| |right; intros o' [->|I] X; [congruence|auto]].
          destruct (Z.eq_dec (o_pin y) n); [left; exists y; split; [left|]; auto|right; intros o' [->|I] X; auto]. }
        destruct Ex as [(o' & I' & T' & P')|N].
        -- rewrite (B2 o' I' T' P' Ag'). apply Ag; auto; [right; auto|congruence].
        -- rewrite (B1 N), port_write_bit by auto. destruct I as [->|I]; [|exfalso; apply (N o I); auto]. destruct (Z.eqb_spec n (o_pin o)); auto. congruence.
    + destruct (IH d e Rp') as [A B]. split; auto. intros n Hn. destruct (B n Hn) as [B1 B2]. split.
      * intros F. apply B1. intros o I. apply F. right. auto.
      * intros o [->|I] To Po Ag; [congruence|]. apply B2; auto. intros o1 o2 I1 I2. apply Ag; right; auto.
Qed.

(** In any reachable state, with any swap interrupts meanwhile: no turn-on edge is left waiting, the pump pin is off and
    every fuel output is at its inactive level. *)
Theorem C42_shutdown : forall env nd pump w cmds w' d e, freach env nd w -> handle_emergency_shutdown env nd pump w = Ok (cmds, w') ->
  0 <= pump -> real_pins (w_outs w') ->
  (forall o, In o (w_outs w') -> ~ start_waiting o) /\ Z.testbit (snd (cmd_run (d, e) cmds)) pump = false /\
  (forall o, In o (w_outs w') -> o_type o = FUEL_EVENT -> agree (w_outs w') -> Z.testbit (fst (cmd_run (d, e) cmds)) (o_pin o) = o_inv o).
Proof.
  intros env nd pump w cmds w' d e R H Hp Rp. unfold handle_emergency_shutdown in H. apply bind_ok in H. destruct H as (w1 & E & H). injection H as <- <-.
  pose proof (SystemRun.freach_finv env nd w R) as I. pose proof (cancel_calm env nd w w1 E (SystemRun.fi_len _ I) (SystemRun.fi_tame _ I)) as C.
  split; [exact C|]. unfold cmd_run. cbn [fold_left cmd_step fst snd Z.eqb negb]. fold (cmd_run (d, port_write e pump false) (fuel_off (w_outs w1))).
  destruct (fuel_off_port (w_outs w1) d (port_write e pump false) Rp) as [A B]. split.
  - rewrite A, port_write_bit by auto. now rewrite Z.eqb_refl.
  - intros o Io To Ag. destruct (B (o_pin o) (Rp o Io)) as [_ B2]. apply B2; auto.
Qed.
Print Assumptions C42_shutdown.

(** Not everything: pins without a fuel output - the ignition outputs - keep their level, whatever it is, and the
    position stays valid, so that the next trigger schedules new pulses. *)
Theorem C42_ignition_refuted : forall env nd pump w cmds w' d e, handle_emergency_shutdown env nd pump w = Ok (cmds, w') -> real_pins (w_outs w') ->
  w_dec w' = w_dec w /\ forall n, 0 <= n -> (forall o, In o (w_outs w') -> o_type o = FUEL_EVENT -> o_pin o <> n) -> Z.testbit (fst (cmd_run (d, e) cmds)) n = Z.testbit d n.
Proof.
  intros env nd pump w cmds w' d e H Rp. unfold handle_emergency_shutdown in H. apply bind_ok in H. destruct H as (w1 & E & H). injection H as <- <-.
  destruct (cancel_quiet env nd w w1 E) as ((_ & S & _) & _). split; auto. intros n Hn F. unfold cmd_run. cbn [fold_left cmd_step fst snd]. fold (cmd_run (d, port_write e pump (negb (0 =? 0))) (fuel_off (w_outs w1))).
  destruct (fuel_off_port (w_outs w1) d (port_write e pump (negb (0 =? 0))) Rp) as [_ B]. apply B; auto.
Qed.
Print Assumptions C42_ignition_refuted.

(** Nor for edges already in the buffers: here the turn-on of fuel pin 8 stays in the buffer that plays next. *)
Definition late_env (k : nat) : Z * list Z := if (k =? 8)%nat then (324900, [324900]) else (310000, []).
Theorem C42_submitted_refuted : exists w cmds w', frun late_env false ex_fw (ex_start ++ [FIdle]) = Ok w /\ handle_emergency_shutdown late_env false 4 w = Ok (cmds, w') /\
  In (SetOutput 8 false) cmds /\ existsb (fun s => Z.testbit (s_on s) 8) (b_slots (d_next (w_dma w'))) = true.
Proof. do 3 eexists. split; [vm_compute; reflexivity|]. split; [vm_compute; reflexivity|]. split; [right; left; reflexivity|vm_compute; reflexivity]. Qed.
Print Assumptions C42_submitted_refuted.
Example C42_example : exists w cmds w', freach ex_env false w /\ handle_emergency_shutdown ex_env false 4 w = Ok (cmds, w') /\ cmds = [SetGpio 4 0; SetOutput 8 false] /\ real_pins (w_outs w') /\ agree (w_outs w').
Proof.
  destruct (proj1 C54_example) as (w & H & S). assert (R : freach ex_env false w).
  { apply (ex_reach ex_start); auto. intros w0 e I. unfold ex_start in I. apply in_map_iff in I. destruct I as (x & <- & _). destruct x; exact Logic.I. }
  vm_compute in H. injection H as <-. do 3 eexists. split; [exact R|]. split; [vm_compute; reflexivity|]. split; [reflexivity|]. split.
  - intros o I. repeat (destruct I as [<-|I]; [discriminate|]). destruct I.
  - intros o1 o2 I1 I2 T1 T2 _. repeat (destruct I1 as [<-|I1]; [try discriminate|]); try destruct I1; repeat (destruct I2 as [<-|I2]; [try discriminate; reflexivity|]); destruct I2.
Qed.
