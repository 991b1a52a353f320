(** One ignition or fuel output over many engine cycles, in true time: the bookkeeping behind C84 and C85.

    [Pulse]s, [plan], [request] and [tick_pulse] are those of OutputSpec.v; this file adds the decision that
    scheduler.c 134-182 and 184-239 take after each tooth and proves that, when the predictions of the turn-off edge are good
    enough, exactly one pulse per engine cycle is played. SparkProofs.v ties it to the code. *)
Require Import ZArith List Bool Lia.
From Verif Require Import Word TimeProofs Outputs OutputSpec.
From Verif Require OutputProofs.
Import ListNotations.
Open Scope Z_scope.
Ltac Zify.zify_post_hook ::= idtac.

(** The edges of a pulse that are played in block [n]. *)
Definition edge_played (n : Z) (g : edge) (on : bool) : list (Z * bool) :=
  match g_state g with SUBMITTED => if g_time g / 128 =? n then [(g_time g, on)] else [] | _ => [] end.
Definition edges_played (n : Z) (p : pulse) : list (Z * bool) := edge_played n (p_on p) true ++ edge_played n (p_off p) false.

(** The decision of scheduler.c 149-177 with turn-off time [o], dwell [D], rest [F] and the times of a quarter
    and of half a turn; that of scheduler.c 200-221 is the same without a rest ([F] = 0). *)
Definition ago (D F h180 o : Z) (p : pulse) : pulse * option (Z * Z) :=
  if sstate_eqb (g_state (p_off p)) SCHEDULED && time_before (g_time (p_off p) mod W) (o mod W) && (h180 <? (o - g_time (p_off p)) mod W) then (p, None)
  else if (o - D - g_time (p_off p)) mod W <? F then (p, None) else (p, Some (o - D, o)).
Definition adecide (D F h90 h180 o : Z) (p : pulse) : pulse * option (Z * Z) :=
  match g_state (p_on p), g_state (p_off p) with
  | FIRED, FIRED => if (o - g_time (p_off p)) mod W <? h90 then (p, None) else ago D F h180 o (forget p)
  | _, _ => ago D F h180 o p
  end.

(** What has been played: whole pulses. *)
Definition whole (l : list (Z * Z)) : list (Z * bool) := flat_map (fun ab => [(fst ab, true); (snd ab, false)]) l.
Lemma whole_snoc l a b : whole (l ++ [(a, b)]) = whole l ++ [(a, true); (b, false)].
Proof. unfold whole. rewrite flat_map_app. reflexivity. Qed.

Lemma small_mod a : 0 <= a < W -> a mod W = a.
Proof. apply Z.mod_small. Qed.
Lemma neg_mod a : - W <= a < 0 -> a mod W = a + W.
Proof. intros. rewrite <- (Z.mod_add _ 1) by (unfold W; lia). rewrite Z.mod_small by lia. ring. Qed.

Section Abs.
Variables (fu : bool) (X t off k h90 h180 D : Z -> Z) (m0 D1 D2 V F E En N A G P PU a0 : Z).
(** Sparks are due at about [X j]; call [m] goes by the tooth seen at [t m] and aims at spark [k m], for which it
    asks a pulse [D m] long. *)
Hypothesis HX : forall j, P <= X (j + 1) - X j <= PU.
Hypothesis Ht : forall m, m0 <= m -> t m <= t (m + 1) <= t m + G.
Hypothesis Hmon : forall m, m0 <= m -> k m <= k (m + 1).
Hypothesis Hk0 : forall m, m0 <= m -> t m - a0 <= X (k m) /\ X (k m - 1) <= t m + a0.
Hypothesis Hoff : forall m, m0 <= m -> t m <= off m /\ - (E - V) <= off m - X (k m) <= E - V.
Hypothesis Hnear : forall m, m0 <= m -> X (k m) - t m <= N -> - (En - V) <= off m - X (k m) <= En - V.
Hypothesis Hq : forall m, m0 <= m -> 2 * E < h90 m <= X (k m) - X (k m - 1) - 2 * E.
Hypothesis Hh : forall m, m0 <= m -> 2 * E < h180 m < X (k m) - X (k m - 1) - 2 * E.
Hypothesis HE : 0 <= En <= E.
Hypothesis Ha0 : 0 <= a0 <= E.
Hypothesis HV : 0 <= V /\ (fu = true -> forall m m', m0 <= m -> m0 <= m' -> k m = k m' -> D m - D m' <= V).
Hypothesis HDm : forall m, m0 <= m -> D1 <= D m <= D2.
Hypothesis HD : 2 * En < D1 /\ (0 < F -> 2 * E < D1).
Hypothesis HF : 0 <= F.
Hypothesis HA : 0 <= A.
Hypothesis HN : A + G + D2 + E + a0 <= N.
Hypothesis HP : D2 + 2 * E + 512 + G + A + F + a0 <= P.
Hypothesis HPW : P <= PU <= 2 ^ 28.

Lemma X_mono i j : i <= j -> X i + P * (j - i) <= X j.
Proof.
  intros Hij. pattern j. apply Zlt_lower_bound_ind with i; [|exact Hij]. clear j Hij. intros j IH Hj. destruct (Z.eq_dec i j) as [<-|Ne]; [lia|].
  specialize (IH (j - 1) ltac:(lia)). pose proof (HX (j - 1)) as S. replace (j - 1 + 1) with j in S by ring. lia.
Qed.
Lemma Hk m : m0 <= m -> t m - a0 <= X (k m) <= t m + PU + a0.
Proof. intros Hm. destruct (Hk0 m Hm) as [A1 A2]. pose proof (HX (k m - 1)) as S. replace (k m - 1 + 1) with (k m) in S by ring. lia. Qed.
Lemma Hk2 m i : m0 <= m -> k m = i + 1 -> X i <= t m + a0.
Proof. intros Hm e. destruct (Hk0 m Hm) as [_ U]. replace (k m - 1) with i in U by lia. exact U. Qed.
Lemma k_step m : m0 <= m -> k m <= k (m + 1) <= k m + 1.
Proof.
  intros Hm. pose proof (Hk0 m Hm) as K1. pose proof (Hk0 (m + 1) ltac:(lia)) as K2. pose proof (Ht m Hm) as T. pose proof (HDm m Hm) as DD.
  split.
  - exact (Hmon m Hm).
  - destruct (Z.le_gt_cases (k (m + 1)) (k m + 1)) as [|L]; [auto|]. pose proof (X_mono (k m) (k (m + 1) - 1) ltac:(lia)) as M. assert (P * 1 <= P * (k (m + 1) - 1 - k m)) by (apply Z.mul_le_mono_nonneg_l; lia). lia.
Qed.

(** Edge tick [x] is what a call for spark [j] asked for, a call made before [x] and near the spark; or what the last
    completed call asked for, and the edge, in state [s], can still be moved. *)
Definition aimed (val : Z -> Z) (j x : Z) : Prop := exists m, m0 <= m /\ k m = j /\ t m <= x /\ X j - t m <= N /\ x = val m.
Definition src (val : Z -> Z) (m j : Z) (s : sstate) (x : Z) : Prop :=
  exists m', m0 <= m' < m /\ k m' = j /\ t m' <= x /\ x = val m' /\ (X j - t m' <= N \/ (s = SCHEDULED /\ m' = m - 1)).
(** A call asks for the turn-on edge at [on_at m] and for the turn-off edge at [off_at a m], if the turn-on edge is at [a]. *)
Definition on_at (m : Z) : Z := off m - D m.
Definition off_at (a m : Z) : Z := if fu then a + D m else off m.
(** The turn-off edge of a spark moves by itself, that of an injection with the turn-on edge. *)
Definition mover (s1 s2 : sstate) : sstate := if fu then s1 else s2.

(** The pulses played, from spark [j0] on. *)
Definition good (j0 : Z) (l : list (Z * Z)) : Prop := forall i a b, nth_error l i = Some (a, b) ->
  aimed on_at (j0 + Z.of_nat i) a /\ aimed (off_at a) (j0 + Z.of_nat i) b.

Lemma good_snoc j0 l a b : good j0 l -> aimed on_at (j0 + Z.of_nat (length l)) a -> aimed (off_at a) (j0 + Z.of_nat (length l)) b -> good j0 (l ++ [(a, b)]).
Proof.
  intros Gd Ha Hb i a' b' Hi. destruct (Nat.lt_ge_cases i (length l)) as [L|L].
  - rewrite nth_error_app1 in Hi by exact L. exact (Gd i a' b' Hi).
  - rewrite nth_error_app2 in Hi by exact L. destruct (i - length l)%nat as [|q] eqn:Eq; [|destruct q; discriminate]. cbn in Hi. assert (i = length l) by lia. subst i. assert (a' = a) by congruence. assert (b' = b) by congruence. subst. auto.
Qed.

Lemma MT i m : m0 <= i <= m -> t i <= t m.
Proof.
  intros [H0 Hi]. pattern m. apply Zlt_lower_bound_ind with i; [|exact Hi]. clear m Hi. intros x IH Hx. destruct (Z.eq_dec i x) as [->|Ne]; [lia|]. specialize (IH (x - 1) ltac:(lia)).
  pose proof (Ht (x - 1) ltac:(lia)) as T. replace (x - 1 + 1) with x in T by ring. lia.
Qed.
Lemma src_weak val m j s x : src val m j s x -> exists m', m0 <= m' < m /\ k m' = j /\ x = val m'.
Proof. intros (m' & H1 & H2 & _ & H3 & _). eauto. Qed.
Lemma src_aimed val m j s x : m0 < m -> src val m j s x -> s <> SCHEDULED \/ X j - t m <= A + D2 + E + a0 -> aimed val j x.
Proof.
  intros Hm (m' & H1 & H2 & H3 & H4 & H5) Nr. exists m'. split; [lia|]. split; [exact H2|]. split; [exact H3|]. split; [|exact H4].
  destruct H5 as [H5|(Q & ->)]; [exact H5|]. destruct Nr as [Nr|Nr]; [congruence|]. pose proof (Ht (m - 1) ltac:(lia)) as T. replace (m - 1 + 1) with m in T by ring. lia.
Qed.
Lemma src_next val m j s s' x : m0 < m -> src val m j s x -> s <> SCHEDULED \/ X j - t m <= A + D2 + E + a0 -> src val (m + 1) j s' x.
Proof.
  intros Hm (m' & H1 & H2 & H3 & H4 & H5) Nr. exists m'. split; [lia|]. split; [exact H2|]. split; [exact H3|]. split; [exact H4|]. left.
  destruct H5 as [H5|(Q & ->)]; [exact H5|]. destruct Nr as [Nr|Nr]; [congruence|]. pose proof (Ht (m - 1) ltac:(lia)) as T. replace (m - 1 + 1) with m in T by ring. lia.
Qed.
Lemma src_stay val m j s s' x : m0 < m -> src val m j s x -> (s = SCHEDULED -> s' = SCHEDULED \/ X j - t m <= A + D2 + E + a0) -> src val m j s' x.
Proof.
  intros Hm (m' & H1 & H2 & H3 & H4 & H5) Nr. exists m'. split; [lia|]. split; [exact H2|]. split; [exact H3|]. split; [exact H4|].
  destruct H5 as [H5|(Q & ->)]; [left; exact H5|]. destruct (Nr Q) as [->|L]; [right; auto|left]. pose proof (Ht (m - 1) ltac:(lia)) as T. replace (m - 1 + 1) with m in T by ring. lia.
Qed.
Lemma src_new val m j s x : m0 <= m -> k m = j -> t m <= x -> x = val m -> s = SCHEDULED -> src val (m + 1) j s x.
Proof. intros Hm H1 H2 H3 ->. exists m. split; [lia|]. split; [exact H1|]. split; [exact H2|]. split; [exact H3|]. right. split; [reflexivity|ring]. Qed.

(** Where that puts the edges. *)
Lemma on_bound m j s a : src on_at m j s a -> X j - D2 - E <= a <= X j - D1 + E.
Proof. intros H. apply src_weak in H. destruct H as (m' & H1 & H2 & ->). pose proof (Hoff m' ltac:(lia)) as O. pose proof (HDm m' ltac:(lia)). rewrite H2 in O. unfold on_at. pose proof HV. lia. Qed.
Lemma off_bound m j s s' a b : src on_at m j s a -> src (off_at a) m j s' b -> - E <= b - X j <= E.
Proof.
  intros H1 H2. apply src_weak in H1, H2. destruct H1 as (m1 & M1 & K1 & ->), H2 as (m2 & M2 & K2 & ->). destruct HV as [V0 HV1]. pose proof (Hoff m1 ltac:(lia)) as O1. pose proof (Hoff m2 ltac:(lia)) as O2. rewrite K1 in O1. rewrite K2 in O2.
  unfold off_at, on_at. destruct fu; [|lia]. pose proof (HV1 eq_refl m1 m2 ltac:(lia) ltac:(lia) ltac:(lia)). pose proof (HV1 eq_refl m2 m1 ltac:(lia) ltac:(lia) ltac:(lia)). lia.
Qed.
Lemma on_near j a : aimed on_at j a -> X j - D2 - En <= a <= X j - D1 + En.
Proof. intros (m' & H1 & H2 & _ & H3 & ->). pose proof (Hnear m' H1) as O. pose proof (HDm m' H1). rewrite H2 in O. specialize (O H3). unfold on_at. pose proof HV. lia. Qed.
Lemma off_near j a b : aimed on_at j a -> aimed (off_at a) j b -> - En <= b - X j <= En /\ a < b.
Proof.
  intros N1 H2. pose proof (on_near _ _ N1) as B. destruct N1 as (m1 & M1 & K1 & _ & N1 & E1), H2 as (m2 & M2 & K2 & _ & N2 & ->). destruct HV as [V0 HV1]. pose proof (Hnear m1 M1) as O1. pose proof (Hnear m2 M2) as O2. rewrite K1 in O1. rewrite K2 in O2. specialize (O1 N1). specialize (O2 N2).
  unfold off_at, on_at in *. pose proof (HDm m2 M2). pose proof (HDm m1 M1). destruct fu; [|lia]. pose proof (HV1 eq_refl m1 m2 ltac:(lia) ltac:(lia) ltac:(lia)). pose proof (HV1 eq_refl m2 m1 ltac:(lia) ltac:(lia) ltac:(lia)). lia.
Qed.

Definition asks (r : option (Z * Z)) (m : Z) : Prop := r = None \/ r = Some (off m - D m, off m).
Definition k0 : Z := k m0.

(** Nothing has been planned yet. [u] is the (meaningless) turn-off time left in the output. *)
Definition blocked (u : Z) : Prop := exists on1, X (k0 + 1) - D2 - E <= on1 <= X (k0 + 1) - D1 + E /\ (on1 - u) mod W < F.
Definition waiting (u m : Z) : Prop := m = m0 \/ (m0 < m /\ (k (m - 1) = k0 \/ (k (m - 1) = k0 + 1 /\ blocked u))).

Inductive inv (n : Z) (p : pulse) (r : option (Z * Z)) (m : Z) (asked : bool) (log : list (Z * bool)) : Prop :=
| Idle : g_state (p_on p) = UNSCHEDULED -> g_state (p_off p) = UNSCHEDULED -> log = [] -> waiting (g_time (p_off p)) m ->
    (asked = true -> r = None -> k m = k0 \/ (k m = k0 + 1 /\ blocked (g_time (p_off p)))) ->
    inv n p r m asked log
| Pending j0 j l : k0 <= j0 <= k0 + 2 -> j = j0 + Z.of_nat (length l) -> good j0 l -> m0 < m -> j <= k (m - 1) ->
    g_state (p_on p) <> UNSCHEDULED -> (g_state (p_off p) = SCHEDULED \/ g_state (p_off p) = SUBMITTED) ->
    src on_at m j (g_state (p_on p)) (g_time (p_on p)) -> src (off_at (g_time (p_on p))) m j (mover (g_state (p_on p)) (g_state (p_off p))) (g_time (p_off p)) ->
    log = whole l ++ (match g_state (p_on p) with FIRED => [(g_time (p_on p), true)] | _ => [] end) ->
    (asked = true -> j <= k m <= j + 1 /\ (k m = j + 1 -> r = None \/ g_state (p_off p) = SUBMITTED) /\ (k m = j -> r <> None)) ->
    inv n p r m asked log
| Done j0 j l : k0 <= j0 <= k0 + 2 -> j + 1 = j0 + Z.of_nat (length l) -> good j0 l -> m0 < m -> j <= k (m - 1) ->
    ((g_state (p_on p) = FIRED /\ g_state (p_off p) = FIRED) \/ (g_state (p_on p) = UNSCHEDULED /\ g_state (p_off p) = UNSCHEDULED)) ->
    - En <= g_time (p_off p) - X j <= En -> (g_state (p_on p) = FIRED -> X j - D2 - En <= g_time (p_on p) <= X j - D1 + En) -> g_time (p_off p) < 128 * n -> log = whole l -> t (m - 1) <= X j + E + 256 ->
    (asked = true -> j <= k m <= j + 1 /\
      ((k m = j /\ (g_state (p_on p) = FIRED \/ r = None \/ off m - D m < g_time (p_off p))) \/ (g_state (p_on p) = FIRED /\ t m <= X j + E + 256) \/
       (g_state (p_on p) = UNSCHEDULED /\ k m = j + 1 /\ r <> None))) ->
    inv n p r m asked log.

Record ctx (n : Z) (p : pulse) (r : option (Z * Z)) (m : Z) (asked : bool) : Prop := {
  x_on : edge_ok n (p_on p); x_off : edge_ok n (p_off p); x_fuel : p_fuel p = fu; x_m : m0 <= m;
  x_late : open_from n <= t m + A; x_seen : asked = true -> t m < open_from n; x_prev : m0 < m -> t (m - 1) < open_from n; x_r : asks r m; x_idle : asked = false -> r = None }.

Lemma request_window n p r m log : ctx n p r m true -> inv n p r m true log -> request_in_window n p (off m - D m) (off m).
Proof.
  intros C I. destruct C as [C1 C2 C3 Cm Cl Cs _ _ _]. specialize (Cs eq_refl). pose proof (Hoff m Cm). pose proof (Hk m Cm). pose proof (Ht m Cm). pose proof (HDm m Cm). pose proof HV. unfold request_in_window, in_window. split; [lia|]. split; [lia|]. intros Fu Pl.
  assert (Q : exists j, j <= k m <= j + 1 /\ X j - D2 - E <= g_time (p_on p) <= X j - D1 + E).
  { destruct I as [U1 U2 _ _ _ | j0 j l J0 J Gd Mm Kj S1 S2 E1 E2 Lg Ua | j0 j l J0 J Gd Mm Kj St Cb Ca Sb Lg Tl Ua].
    - destruct Pl; congruence.
    - exists j. split; [apply Ua; reflexivity|exact (on_bound _ _ _ _ E1)].
    - exists j. split; [apply Ua; reflexivity|]. destruct St as [[S1 _]|[S1 S2]]; [specialize (Ca S1); lia|destruct Pl; congruence]. }
  destruct Q as (j & Q1 & Q2). pose proof (HX j). assert (k m = j \/ k m = j + 1) as [e|e] by lia; rewrite e in *; lia.
Qed.

(** *** The decision after a tooth *)
(** The rest is not in the way of moving the plan for a spark. *)
Lemma no_rest d o b x : D1 <= d <= D2 -> - E <= o - x <= E -> - E <= b - x <= E -> ((o - d - b) mod W <? F) = false.
Proof.
  intros Hd H1 H2. pose proof (Ht m0 ltac:(lia)). apply Z.ltb_ge. destruct (Z.eq_dec F 0) as [->|Nz]; [apply Z.mod_pos_bound; unfold W; lia|]. pose proof (proj2 HD ltac:(lia)). rewrite neg_mod by (unfold W; lia). unfold W. lia.
Qed.
Lemma ago_unsched d h o x a b : ago d F h o (Pulse x a (Edge UNSCHEDULED b)) =
  (if (o - d - b) mod W <? F then (Pulse x a (Edge UNSCHEDULED b), None) else (Pulse x a (Edge UNSCHEDULED b), Some (o - d, o))).
Proof. reflexivity. Qed.

Lemma ask_inv n p m log : ctx n p None m false -> inv n p None m false log -> t m < open_from n ->
  let '(p', r) := adecide (D m) F (h90 m) (h180 m) (off m) p in ctx n p' r m true /\ inv n p' r m true log.
Proof.
  intros C I Hs. destruct C as [C1 C2 C3 Cm Cl _ Cp _ _]. pose proof (Hoff m Cm) as O. pose proof (Hk m Cm) as K. pose proof (Ht m Cm) as T. pose proof (Hq m Cm) as Q. pose proof (Hh m Cm) as H. pose proof (HDm m Cm) as DD. pose proof HV as V0.
  destruct p as [fp [s1 a] [s2 b]]. cbn [p_on p_off p_fuel g_state g_time] in *. subst fp.
  assert (CT : forall s1' s2' r, asks r m -> (s1' = s1 \/ s1' = UNSCHEDULED) -> (s2' = s2 \/ s2' = UNSCHEDULED) -> ctx n (Pulse fu (Edge s1' a) (Edge s2' b)) r m true).
  { intros s1' s2' r Hr S1 S2. constructor; auto; try discriminate; cbn [p_on p_off].
    - destruct S1 as [->| ->]; [exact C1|exact Logic.I].
    - destruct S2 as [->| ->]; [exact C2|exact Logic.I]. }
  inversion I as [U1 U2 Lg Wt _ | j0 j l J0 J Gd Mm Kj S1 S2 E1 E2 Lg _ | j0 j l J0 J Gd Mm Kj St Cb Ca Sb Lg Tl _]; clear I; cbn [p_on p_off g_state g_time] in *.
  - subst s1 s2. unfold adecide. cbn [p_on p_off g_state]. rewrite ago_unsched.
    destruct (Z.ltb_spec ((off m - D m - b) mod W) F) as [L|L]; (split; [apply CT; unfold asks; auto|]); apply Idle; auto; try (intros; congruence).
    intros _ _. destruct Wt as [->|(Hm & [Hw|(Hw & Bl)])]; [left; reflexivity| |].
    + pose proof (k_step (m - 1) ltac:(lia)) as Ks. replace (m - 1 + 1) with m in Ks by ring. destruct (Z.eq_dec (k m) k0) as [e|e]; [left; exact e|right]. assert (e1 : k m = k0 + 1) by lia. split; [exact e1|].
      exists (off m - D m). rewrite e1 in O. split; [lia|exact L].
    + pose proof (k_step (m - 1) ltac:(lia)) as Ks. replace (m - 1 + 1) with m in Ks by ring. right. destruct (Z.eq_dec (k m) (k0 + 1)) as [e|e]; [split; [exact e|exact Bl]|exfalso].
      assert (e1 : k m = k0 + 2) by lia. destruct Bl as (on1 & B1 & B2). cbn [p_off g_time] in B2. rewrite e1 in O. pose proof (HX (k0 + 1)) as S. replace (k0 + 1 + 1) with (k0 + 2) in S by ring.
      assert (Y : (off m - D m - b) mod W = ((on1 - b) mod W + (off m - D m - on1)) mod W). { rewrite Zplus_mod_idemp_l. f_equal. ring. }
      pose proof (Z.mod_pos_bound (on1 - b) W ltac:(unfold W; lia)) as Pb. set (z := (on1 - b) mod W) in *. clearbody z. rewrite Y, (Z.mod_small (z + _)) in L by (unfold W; lia). lia.
  - assert (B0 : 128 * n <= b).
    { destruct S2 as [-> | ->]; unfold edge_ok, open_from in C2; cbn [g_state g_time] in C2; [lia|]. pose proof (Z.div_mod b 128 ltac:(lia)). pose proof (Z.mod_pos_bound b 128 ltac:(lia)). lia. }
    pose proof (off_bound _ _ _ _ _ _ E1 E2) as B2. pose proof (on_bound _ _ _ _ E1) as B1.
    pose proof (k_step (m - 1) ltac:(lia)) as Ks. replace (m - 1 + 1) with m in Ks by ring.
    assert (Kj1 : j <= k m <= j + 1).
    { split; [lia|]. destruct (Z.le_gt_cases (k m) (j + 1)) as [|Gt]; [auto|exfalso].
      assert (Ks2 : k (m - 1) = j + 1 \/ k (m - 1) >= j + 2) by lia.
      assert (Lt : X j + P <= X (k m - 1)).
      { pose proof (X_mono j (k m - 1) ltac:(lia)). assert (P * 1 <= P * (k m - 1 - j)) by (apply Z.mul_le_mono_nonneg_l; lia). lia. }
      pose proof (Hk0 m Cm) as K0.
      unfold open_from in *. lia. }
    assert (NB : s2 <> FIRED) by (destruct S2; congruence).
    assert (Eq : adecide (D m) F (h90 m) (h180 m) (off m) (Pulse fu (Edge s1 a) (Edge s2 b)) =
      if sstate_eqb s2 SCHEDULED && time_before (b mod W) (off m mod W) && (h180 m <? (off m - b) mod W) then (Pulse fu (Edge s1 a) (Edge s2 b), None)
      else if (off m - D m - b) mod W <? F then (Pulse fu (Edge s1 a) (Edge s2 b), None) else (Pulse fu (Edge s1 a) (Edge s2 b), Some (off m - D m, off m))).
    { unfold adecide. cbn [p_on p_off g_state g_time]. destruct s1; try reflexivity. destruct s2; try reflexivity. congruence. }
    assert (Pd : forall r, (k m = j + 1 -> r = None \/ s2 = SUBMITTED) -> (k m = j -> r <> None) -> inv n (Pulse fu (Edge s1 a) (Edge s2 b)) r m true log).
    { intros r R1 R2. apply (Pending _ _ _ _ _ _ j0 j l); auto. }
    rewrite Eq. destruct (Z.eq_dec (k m) j) as [e|e].
    + rewrite e in *.
      assert (Far : sstate_eqb s2 SCHEDULED && time_before (b mod W) (off m mod W) && (h180 m <? (off m - b) mod W) = false).
      { rewrite time_before_spec by (unfold HALF; lia). destruct (Z.ltb_spec b (off m)); [|now rewrite andb_false_r]. rewrite small_mod by (unfold W; lia). destruct (Z.ltb_spec (h180 m) (off m - b)); [lia|]. now rewrite !andb_false_r. }
      rewrite Far. rewrite (no_rest (D m) (off m) b (X j)) by lia.
      split; [apply CT; unfold asks; auto|]. apply Pd; [lia|discriminate].
    + assert (e1 : k m = j + 1) by lia. rewrite e1 in *. replace (j + 1 - 1) with j in * by ring. pose proof (HX j) as S.
      rewrite time_before_spec by (unfold HALF; lia). destruct (Z.ltb_spec b (off m)); [|lia]. rewrite !small_mod by (unfold W; lia).
      destruct (Z.ltb_spec (h180 m) (off m - b)); [|lia]. destruct (Z.ltb_spec (off m - D m - b) F); [lia|].
      destruct S2 as [-> | ->]; cbn [sstate_eqb andb]; (split; [apply CT; unfold asks; auto|]); apply Pd; auto; intros; try lia.
  - pose proof (k_step (m - 1) ltac:(lia)) as Ks. replace (m - 1 + 1) with m in Ks by ring. pose proof (Ht (m - 1) ltac:(lia)) as T1. replace (m - 1 + 1) with m in T1 by ring.
    assert (Kj1 : j <= k m <= j + 1).
    { split; [lia|]. destruct (Z.le_gt_cases (k m) (j + 1)) as [|Gt]; [auto|exfalso].
      assert (Lt : X j + P <= X (k m - 1)).
      { pose proof (X_mono j (k m - 1) ltac:(lia)). assert (P * 1 <= P * (k m - 1 - j)) by (apply Z.mul_le_mono_nonneg_l; lia). lia. }
      pose proof (Hk0 m Cm) as K0.
      lia. }
    destruct (Z.eq_dec (k m) j) as [e|e].
    + pose proof (Hnear m Cm) as Nr. rewrite e in O, K, Nr. specialize (Nr ltac:(unfold open_from in *; lia)).
      assert (GO : forall s, (s = s1 \/ s = UNSCHEDULED) -> s = UNSCHEDULED -> let '(p', r) := (if (off m - D m - b) mod W <? F then (Pulse fu (Edge s a) (Edge s b), None) else (Pulse fu (Edge s a) (Edge s b), Some (off m - D m, off m))) in
        ctx n p' r m true /\ inv n p' r m true log).
      { intros s _ ->. rewrite (no_rest (D m) (off m) b (X j)) by lia.
        split; [apply CT; unfold asks; auto|]. apply (Done _ _ _ _ _ _ j0 j l); auto; try (cbn [p_on g_state]; discriminate). intros _. split; [lia|]. left. split; [exact e|]. right. right. cbn [p_off g_time]. lia. }
      destruct St as [[-> ->]|[-> ->]]; unfold adecide; cbn [p_on p_off g_state].
      * cbn [g_time]. destruct (Z.ltb_spec ((off m - b) mod W) (h90 m)) as [L|L].
        -- split; [apply CT; unfold asks; auto|]. apply (Done _ _ _ _ _ _ j0 j l); auto.
        -- unfold forget. cbn [p_on p_off p_fuel g_time]. rewrite ago_unsched. apply GO; auto.
      * rewrite ago_unsched. apply GO; auto.
    + assert (e1 : k m = j + 1) by lia. rewrite e1 in O, K, Q. replace (j + 1 - 1) with j in Q by ring. pose proof (HX j) as S.
      assert (GO : let '(p', r) := (if (off m - D m - b) mod W <? F then (Pulse fu (Edge UNSCHEDULED a) (Edge UNSCHEDULED b), None) else (Pulse fu (Edge UNSCHEDULED a) (Edge UNSCHEDULED b), Some (off m - D m, off m))) in
        ctx n p' r m true /\ inv n p' r m true log).
      { rewrite small_mod by (unfold W; lia). destruct (Z.ltb_spec (off m - D m - b) F); [lia|].
        split; [apply CT; unfold asks; auto|]. apply (Done _ _ _ _ _ _ j0 j l); auto; try (cbn [p_on g_state]; discriminate). intros _. split; [lia|]. right. right. split; [reflexivity|]. split; [exact e1|discriminate]. }
      destruct St as [[-> ->]|[-> ->]]; unfold adecide; cbn [p_on p_off g_state].
      * cbn [g_time]. rewrite small_mod by (unfold W; lia). destruct (Z.ltb_spec (off m - b) (h90 m)); [lia|]. unfold forget. cbn [p_on p_off p_fuel g_time]. rewrite ago_unsched. exact GO.
      * rewrite ago_unsched. exact GO.
Qed.

(** *** The critical section *)
Definition write (n : Z) (p : pulse) (r : option (Z * Z)) : pulse := match r with Some (a, b) => request n p a b | None => p end.

Lemma write_inv n p r m log : ctx n p r m true -> inv n p r m true log -> ctx n (write n p r) None (m + 1) false /\ inv n (write n p r) None (m + 1) false log.
Proof.
  intros C I. pose proof HV as V0. pose proof (request_window _ _ _ _ _ C I) as RW. destruct C as [C1 C2 C3 Cm Cl Cs _ Cr _]. specialize (Cs eq_refl). pose proof (Hoff m Cm) as O. pose proof (Hk m Cm) as K. pose proof (Ht m Cm) as T. pose proof (HDm m Cm) as DD.
  assert (C' : ctx n (write n p r) None (m + 1) false).
  { assert (edge_ok n (p_on (write n p r)) /\ edge_ok n (p_off (write n p r)) /\ p_fuel (write n p r) = fu) as (W1 & W2 & W3).
    { destruct Cr as [-> | ->]; [cbn [write]; auto|]. cbn [write]. pose proof (OutputProofs.request_ok n p (off m - D m) (off m) C1 C2 RW) as [? ?]. split; [assumption|]. split; [assumption|].
      unfold request. destruct (plan n (p_on p) (off m - D m)) as [[] ?]; destruct (g_state (p_on p)), (g_state (p_off p)); exact C3. }
    constructor; auto; try lia; try discriminate; [replace (m + 1 - 1) with m by ring; auto|left; reflexivity]. }
  split; [exact C'|]. clear C'.
  destruct p as [fp [s1 a] [s2 b]]. cbn [p_on p_off p_fuel g_state g_time] in *. subst fp. replace (m + 1 - 1) with m by ring.
  inversion I as [U1 U2 Lg Wt Ua | j0 j l J0 J Gd Mm Kj S1 S2 E1 E2 Lg Ua | j0 j l J0 J Gd Mm Kj St Cb Ca Sb Lg Tl Ua]; clear I; cbn [p_on p_off g_state g_time] in *; specialize (Ua eq_refl).
  - subst s1 s2.
    assert (ID : (k m = k0 \/ k m = k0 + 1 /\ blocked b) -> inv n (Pulse fu (Edge UNSCHEDULED a) (Edge UNSCHEDULED b)) None (m + 1) false log).
    { intros Q. apply Idle; auto; try discriminate. right. replace (m + 1 - 1) with m by ring. split; [lia|exact Q]. }
    destruct Cr as [-> | ->]; cbn [write]; [apply ID; auto|]. clear Ua.
    unfold request, plan, final. cbn [p_on p_off g_state p_fuel]. unfold plan, final. cbn [g_state].
    assert (KK : k0 <= k m <= k0 + 2).
    { destruct Wt as [->|(Hm & Hw)]; [unfold k0; lia|]. pose proof (k_step (m - 1) ltac:(lia)) as Ks. replace (m - 1 + 1) with m in Ks by ring. destruct Hw as [Hw|(Hw & _)]; lia. }
    destruct (Z.ltb_spec (off m - D m) (open_from n)) as [L|L].
    + apply ID. destruct Wt as [->|(Hm & Hw)]; [left; reflexivity|]. pose proof (k_step (m - 1) ltac:(lia)) as Ks. pose proof (Ht (m - 1) ltac:(lia)) as T1. pose proof (Hk (m - 1) ltac:(lia)) as K1. replace (m - 1 + 1) with m in * by ring.
      destruct Hw as [Hw|(Hw & Bl)].
      * destruct (Z.eq_dec (k m) k0) as [e|e]; [left; exact e|exfalso]. assert (e1 : k m = k0 + 1) by lia. rewrite e1 in *. rewrite Hw in *. pose proof (HX k0). lia.
      * destruct (Z.eq_dec (k m) (k0 + 1)) as [e|e]; [right; auto|exfalso]. assert (e1 : k m = k0 + 2) by lia. rewrite e1 in *. rewrite Hw in *. pose proof (HX (k0 + 1)) as S. replace (k0 + 1 + 1) with (k0 + 2) in S by ring. lia.
    + destruct (Z.ltb_spec (off m) (open_from n)); [lia|]. cbn [snd].
      apply (Pending _ _ _ _ _ _ (k m) (k m) []); cbn [length p_on p_off g_state whole flat_map app]; auto; try lia; try discriminate.
      * intros i a' b' Hi. destruct i; discriminate.
      * replace (m + 1 - 1) with m by ring. lia.
      * apply src_new; cbn [g_time g_state]; auto; lia.
      * apply src_new; cbn [g_time g_state]; auto; unfold off_at, mover; destruct fu; auto; lia.
  - destruct Ua as (Kj1 & Kn & Kr). pose proof (HX j) as S. pose proof (on_bound _ _ _ _ E1) as B1. pose proof (off_bound _ _ _ _ _ _ E1 E2) as B2.
    assert (ST : k m = j + 1 -> inv n (Pulse fu (Edge s1 a) (Edge s2 b)) None (m + 1) false log).
    { intros e. pose proof (Hk2 m j Cm e). apply (Pending _ _ _ _ _ _ j0 j l); cbn [p_on p_off g_state g_time]; auto; try lia; try discriminate; try (replace (m + 1 - 1) with m by ring; lia).
      - eapply src_next; eauto. right. lia.
      - eapply src_next; eauto. right. lia. }
    destruct (Z.eq_dec (k m) j) as [e|e].
    + destruct Cr as [-> | ->]; [exfalso; now apply Kr|]. cbn [write]. clear Kn Kr. rewrite e in *.
      assert (NU : s2 <> UNSCHEDULED) by (destruct S2; congruence).
      (* an edge that moves by itself *)
      assert (EG : forall d s x val, 0 <= d <= D2 -> s <> UNSCHEDULED -> off m - d = val m -> src val m j s x ->
        let g := snd (plan n (Edge s x) (off m - d)) in src val (m + 1) j (g_state g) (g_time g) /\ g_state g = s /\ (s = FIRED -> g_time g = x)).
      { intros d s x val Hd Ns Ev Eg. cbv zeta. unfold plan, final. cbn [g_state]. destruct s; [congruence| | |].
        - destruct (Z.ltb_spec (off m - d) (open_from n)) as [L|L]; cbn [snd g_state g_time].
          + split; [|split; [reflexivity|discriminate]]. eapply src_next; eauto. right. lia.
          + split; [|split; [reflexivity|discriminate]]. apply src_new; auto. lia.
        - cbn [snd g_state g_time]. split; [|split; [reflexivity|discriminate]]. eapply src_next; eauto. left. discriminate.
        - cbn [snd g_state g_time]. split; [|split; [reflexivity|auto]]. eapply src_next; eauto. left. discriminate. }
      destruct (EG (D m) s1 a on_at ltac:(lia) S1 eq_refl E1) as (Q1 & Q2 & Q3).
      assert (RQ : exists g1 g2, request n (Pulse fu (Edge s1 a) (Edge s2 b)) (off m - D m) (off m) = Pulse fu g1 g2 /\ src on_at (m + 1) j (g_state g1) (g_time g1) /\ g_state g1 = s1 /\ (s1 = FIRED -> g_time g1 = a) /\
        src (off_at (g_time g1)) (m + 1) j (mover (g_state g1) (g_state g2)) (g_time g2) /\ g_state g2 = s2).
      { unfold request. cbn [p_on p_off p_fuel g_state g_time]. destruct (plan n (Edge s1 a) (off m - D m)) as [ok g] eqn:EP. cbn [snd] in *.
        assert (Same : forall y, match s1, s2 with UNSCHEDULED, UNSCHEDULED => y | _, _ => Pulse fu g (snd (plan n (Edge s2 b) (if negb ok && fu then a + (off m - (off m - D m)) else off m))) end =
          Pulse fu g (snd (plan n (Edge s2 b) (if negb ok && fu then a + (off m - (off m - D m)) else off m)))) by (intros y; destruct s1; [congruence|..]; reflexivity).
        rewrite Same. clear Same. eexists g, _. split; [reflexivity|]. split; [exact Q1|]. split; [exact Q2|]. split; [exact Q3|].
        unfold off_at, mover in *. destruct fu eqn:Fu.
        - destruct ok; cbn [negb andb].
          + unfold plan in EP. destruct (final (Edge s1 a)) eqn:Fi; [congruence|]. destruct (Z.ltb_spec (off m - D m) (open_from n)) as [|L]; [congruence|]. assert (g = Edge SCHEDULED (off m - D m)) by congruence. subst g. cbn [g_time g_state] in *.
            assert (s1 = SCHEDULED) by (destruct s1; try discriminate; congruence). subst s1.
            assert (s2 = SCHEDULED).
            { destruct S2 as [|S2]; [assumption|exfalso]. destruct E2 as (m2 & M2 & _ & _ & Eb & _). pose proof (HDm m2 ltac:(lia)). subst s2. unfold edge_ok, open_from in C1, C2. cbn [g_state g_time] in C1, C2. pose proof (Z.div_mod b 128 ltac:(lia)). pose proof (Z.mod_pos_bound b 128 ltac:(lia)). lia. }
            subst s2. unfold plan, final. cbn [g_state]. destruct (Z.ltb_spec (off m) (open_from n)); [lia|]. cbn [snd g_time g_state]. split; [|reflexivity]. apply src_new; auto; lia.
          + assert (g = Edge s1 a /\ (s1 = SCHEDULED -> off m - D m < open_from n)) as [-> Kg].
            { unfold plan in EP. destruct (final (Edge s1 a)) eqn:Fi; [assert (g = Edge s1 a) by congruence; split; [assumption|]; intros ->; discriminate|]. destruct (Z.ltb_spec (off m - D m) (open_from n)); [split; [congruence|auto]|]. congruence. }
            cbn [g_time g_state] in *. replace (a + (off m - (off m - D m))) with (a + D m) by ring.
            assert (Nx : forall s', src (fun m => a + D m) (m + 1) j s' b).
            { intros s'. eapply src_next; eauto. destruct s1; try (left; discriminate). right. specialize (Kg eq_refl). lia. }
            unfold plan, final. cbn [g_state]. destruct S2 as [-> | ->]; [|cbn [snd g_state g_time]; auto]. destruct (Z.ltb_spec (a + D m) (open_from n)) as [L|L]; cbn [snd g_state g_time]; [auto|]. split; [|reflexivity].
            exists m. split; [lia|]. split; [exact e|]. split; [lia|]. split; [reflexivity|]. left.
            destruct s1; [congruence| | |]; [specialize (Kg eq_refl); lia| |].
            * destruct Q1 as (m1 & M1 & _ & _ & _ & [Q1|(Q1 & _)]); [|discriminate]. pose proof (MT m1 m ltac:(lia)). lia.
            * destruct Q1 as (m1 & M1 & _ & _ & _ & [Q1|(Q1 & _)]); [|discriminate]. pose proof (MT m1 m ltac:(lia)). lia.
        - rewrite andb_false_r. destruct (EG 0 s2 b off ltac:(lia) NU ltac:(ring) E2) as (R1 & R2 & _). replace (off m - 0) with (off m) in * by ring. auto. }
      clear Q1 Q2 Q3. destruct RQ as (g1 & g2 & RQ & Q1 & Q2 & Q3 & R1 & R2). rewrite RQ.
      apply (Pending _ _ _ _ _ _ j0 j l); cbn [p_on p_off]; auto; try lia; try discriminate; try congruence.
      * replace (m + 1 - 1) with m by ring. lia.
      * rewrite Lg, Q2. destruct s1; auto. now rewrite Q3.
    + assert (e1 : k m = j + 1) by lia. specialize (Kn e1). destruct Cr as [-> | ->]; [cbn [write]; auto|]. destruct Kn as [Kn|Kn]; [discriminate|]. cbn [write].
      assert (F1 : final (Edge s1 a) = true).
      { destruct s1; [congruence| |reflexivity|reflexivity]. exfalso. subst s2. pose proof (Hk2 m j Cm e1). pose proof (src_aimed _ _ _ _ _ Mm E1 ltac:(right; lia)) as Y1. pose proof (src_aimed _ _ _ _ _ Mm E2 ltac:(right; lia)) as Y2. pose proof (off_near _ _ _ Y1 Y2).
        unfold edge_ok, open_from in C1, C2. cbn [g_state g_time] in C1, C2. pose proof (Z.div_mod b 128 ltac:(lia)). pose proof (Z.mod_pos_bound b 128 ltac:(lia)). lia. }
      assert (RQ : request n (Pulse fu (Edge s1 a) (Edge s2 b)) (off m - D m) (off m) = Pulse fu (Edge s1 a) (Edge s2 b)).
      { subst s2. unfold request, plan, final in *. cbn [p_on p_off p_fuel g_state] in *. destruct s1; try discriminate; reflexivity. }
      rewrite RQ. apply ST. exact e1.
  - destruct Ua as (Kj1 & Ua). pose proof (HX j) as S. pose proof (Ht (m - 1) ltac:(lia)) as T1. replace (m - 1 + 1) with m in T1 by ring.
    assert (ST : t m <= X j + E + 256 -> inv n (Pulse fu (Edge s1 a) (Edge s2 b)) None (m + 1) false log).
    { intros L. apply (Done _ _ _ _ _ _ j0 j l); cbn [p_on p_off g_state g_time]; auto; try lia; try discriminate; replace (m + 1 - 1) with m by ring; lia. }
    assert (FI : s1 = FIRED -> write n (Pulse fu (Edge s1 a) (Edge s2 b)) r = Pulse fu (Edge s1 a) (Edge s2 b)).
    { intros Q. destruct St as [[-> ->]|[-> _]]; [|discriminate]. destruct Cr as [-> | ->]; reflexivity. }
    destruct Ua as [(e & Ua)|[(Q & L)|(Q & e & Nr)]].
    + rewrite e in K. assert (Wr : write n (Pulse fu (Edge s1 a) (Edge s2 b)) r = Pulse fu (Edge s1 a) (Edge s2 b)).
      { destruct Ua as [Ua|[->|Ua]]; [auto|reflexivity|]. destruct St as [[Q _]|[-> ->]]; [auto|]. destruct Cr as [-> | ->]; [reflexivity|]. cbn [write]. unfold request, plan, final. cbn [p_on p_off g_state g_time].
        destruct (Z.ltb_spec (off m - D m) (open_from n)); [reflexivity|]. unfold open_from in *. lia. }
      rewrite Wr. apply ST. lia.
    + rewrite FI by exact Q. apply ST. exact L.
    + destruct St as [[Q1 _]|[-> ->]]; [congruence|]. destruct Cr as [-> | ->]; [congruence|]. rewrite e in O, K. cbn [write]. unfold request, plan, final. cbn [p_on p_off p_fuel g_state g_time].
      destruct (Z.ltb_spec (off m - D m) (open_from n)); [lia|]. unfold plan, final. cbn [g_state]. destruct (Z.ltb_spec (off m) (open_from n)); [lia|]. cbn [snd].
      apply (Pending _ _ _ _ _ _ j0 (j + 1) l); cbn [p_on p_off g_state g_time]; auto; try lia; try discriminate; replace (m + 1 - 1) with m by ring; try lia.
      * apply src_new; auto; lia.
      * apply src_new; unfold off_at, mover; auto; destruct fu; auto; lia.
      * rewrite Lg. now rewrite app_nil_r.
Qed.

(** *** The swap interrupt *)
Lemma tick_states n s x : tick_edge n (Edge s x) = Edge (match s with SCHEDULED => if x / 128 =? n + 2 then SUBMITTED else SCHEDULED | SUBMITTED => if x / 128 =? n then FIRED else SUBMITTED | _ => s end) x.
Proof. unfold tick_edge. cbn [g_state g_time]. destruct s; auto; destruct (_ =? _); reflexivity. Qed.

Lemma swap_inv n p r m asked log : ctx n p r m asked -> inv n p r m asked log -> open_from (n + 1) <= t m + A ->
  ctx (n + 1) (tick_pulse n p) r m asked /\ inv (n + 1) (tick_pulse n p) r m asked (log ++ edges_played n p).
Proof.
  intros C I Hl. pose proof HV as V0. destruct C as [C1 C2 C3 Cm Cl Cs Cp Cr Ci].
  assert (C' : ctx (n + 1) (tick_pulse n p) r m asked).
  { constructor; auto; cbn [tick_pulse p_on p_off].
    - now apply OutputProofs.tick_edge_ok.
    - now apply OutputProofs.tick_edge_ok.
    - intros Q. specialize (Cs Q). unfold open_from in *. lia.
    - intros Q. specialize (Cp Q). unfold open_from in *. lia. }
  split; [exact C'|]. clear C'.
  destruct p as [fp [s1 a] [s2 b]]. cbn [p_on p_off p_fuel g_state g_time] in *. subst fp. unfold tick_pulse. cbn [p_on p_off p_fuel]. rewrite !tick_states.
  inversion I as [U1 U2 Lg Wt Ua | j0 j l J0 J Gd Mm Kj S1 S2 E1 E2 Lg Ua | j0 j l J0 J Gd Mm Kj St Cb Ca Sb Lg Tl Ua]; clear I; cbn [p_on p_off g_state g_time] in *.
  - subst s1 s2. unfold edges_played, edge_played. cbn [p_on p_off g_state app]. rewrite app_nil_r. now apply Idle.
  - assert (DM : forall x, 128 * (x / 128) <= x < 128 * (x / 128) + 128) by (intros x; pose proof (Z.div_mod x 128 ltac:(lia)); pose proof (Z.mod_pos_bound x 128 ltac:(lia)); lia).
    pose proof (Ht (m - 1) ltac:(lia)) as T1. replace (m - 1 + 1) with m in T1 by ring. pose proof (on_bound _ _ _ _ E1) as B1. pose proof (off_bound _ _ _ _ _ _ E1 E2) as B2. pose proof (HDm m Cm) as DD.
    set (s1' := match s1 with SCHEDULED => if a / 128 =? n + 2 then SUBMITTED else SCHEDULED | SUBMITTED => if a / 128 =? n then FIRED else SUBMITTED | _ => s1 end).
    set (s2' := match s2 with SCHEDULED => if b / 128 =? n + 2 then SUBMITTED else SCHEDULED | SUBMITTED => if b / 128 =? n then FIRED else SUBMITTED | _ => s2 end).
    assert (N1' : s1 = SCHEDULED -> s1' = SCHEDULED \/ X j - t m <= A + D2 + E + a0).
    { intros Es. unfold s1'. rewrite Es. destruct (Z.eqb_spec (a / 128) (n + 2)) as [e|e]; [right|left; reflexivity]. specialize (DM a). unfold open_from in Hl. lia. }
    assert (N2' : s2 = SCHEDULED -> s2' = SCHEDULED \/ X j - t m <= A + D2 + E + a0).
    { intros Es. unfold s2'. rewrite Es. destruct (Z.eqb_spec (b / 128) (n + 2)) as [e|e]; [right|left; reflexivity]. specialize (DM b). unfold open_from in Hl. lia. }
    assert (Q1 : src on_at m j s1' a) by (eapply src_stay; eauto).
    assert (Q2 : src (off_at a) m j (mover s1' s2') b) by (eapply src_stay; eauto; unfold mover; destruct fu; auto).
    assert (N1 : s1' <> UNSCHEDULED) by (unfold s1'; destruct s1; try congruence; destruct (_ =? _); discriminate).
    assert (LG : (whole l ++ match s1 with FIRED => [(a, true)] | _ => [] end) ++ edge_played n (Edge s1 a) true = whole l ++ match s1' with FIRED => [(a, true)] | _ => [] end).
    { rewrite <- app_assoc. f_equal. unfold edge_played, s1'. cbn [g_state g_time]. destruct s1; cbn [app]; auto; destruct (_ =? _); reflexivity. }
    unfold edges_played. cbn [p_on p_off]. rewrite Lg, app_assoc, LG.
    destruct S2 as [e2|e2].
    + assert (P2 : edge_played n (Edge s2 b) false = []) by (unfold edge_played; cbn [g_state]; now rewrite e2). rewrite P2, app_nil_r.
      assert (S2' : s2' = SCHEDULED \/ s2' = SUBMITTED) by (unfold s2'; rewrite e2; destruct (b / 128 =? n + 2); [right|left]; reflexivity).
      apply (Pending _ _ _ _ _ _ j0 j l); cbn [p_on p_off g_state g_time]; auto.
      intros Q. specialize (Ua Q). destruct Ua as (A1 & A2 & A3). split; [exact A1|]. split; [|exact A3]. intros K. destruct (A2 K) as [A4|A4]; [auto|congruence].
    + unfold edge_played. cbn [g_state g_time]. rewrite e2. unfold s2'. rewrite e2. destruct (Z.eqb_spec (b / 128) n) as [f2|f2].
      * assert (F1 : s1' = FIRED).
        { pose proof (DM b) as Db. unfold open_from in Hl. pose proof (src_aimed _ _ _ _ _ Mm E1 ltac:(right; lia)) as Y1. pose proof (src_aimed _ _ _ _ _ Mm E2 ltac:(right; lia)) as Y2. destruct (off_near _ _ _ Y1 Y2) as [_ AB]. assert (a / 128 <= b / 128) by (apply Z.div_le_mono; lia). unfold s1'. unfold edge_ok, open_from in C1. cbn [g_state g_time] in C1. pose proof (DM a). pose proof (DM b).
          destruct s1; [congruence|lia| |reflexivity]. destruct (Z.eqb_spec (a / 128) n); [reflexivity|lia]. }
        rewrite F1 in *. rewrite <- app_assoc. cbn [app]. rewrite <- whole_snoc. pose proof (DM b).
        assert (Near : X j - t m <= A + D2 + E + a0) by (unfold open_from in Hl; lia).
        pose proof (src_aimed _ _ _ _ _ Mm E1 (or_intror Near)) as CA. pose proof (src_aimed _ _ _ _ _ Mm E2 (or_intror Near)) as CB. pose proof (off_near _ _ _ CA CB) as [CN _]. pose proof (on_near _ _ CA) as CO.
        apply (Done _ _ _ _ _ _ j0 j (l ++ [(a, b)])); cbn [p_on p_off g_state g_time]; auto; try lia.
        -- rewrite app_length. cbn [length]. lia.
        -- apply good_snoc; rewrite <- ?J; auto.
        -- specialize (Cp Mm). unfold open_from in Cp. lia.
        -- intros Q. specialize (Ua Q). specialize (Cs Q). destruct Ua as (A1 & _). split; [exact A1|]. destruct (Z.eq_dec (k m) j); [left; auto|]. right. left. split; [reflexivity|]. unfold open_from in Cs. lia.
      * rewrite app_nil_r. apply (Pending _ _ _ _ _ _ j0 j l); cbn [p_on p_off g_state g_time]; auto.
        -- unfold s2' in Q2. rewrite e2 in Q2. destruct (Z.eqb_spec (b / 128) n); [congruence|]. exact Q2.
        -- intros Q. specialize (Ua Q). destruct Ua as (A1 & A2 & A3). split; [exact A1|]. split; [auto|exact A3].
  - assert (PL : edges_played n (Pulse fu (Edge s1 a) (Edge s2 b)) = []) by (destruct St as [[-> ->]|[-> ->]]; reflexivity). rewrite PL, app_nil_r.
    assert (SE : match s1 with SCHEDULED => if a / 128 =? n + 2 then SUBMITTED else SCHEDULED | SUBMITTED => if a / 128 =? n then FIRED else SUBMITTED | _ => s1 end = s1 /\ match s2 with SCHEDULED => if b / 128 =? n + 2 then SUBMITTED else SCHEDULED | SUBMITTED => if b / 128 =? n then FIRED else SUBMITTED | _ => s2 end = s2) by (destruct St as [[-> ->]|[-> ->]]; auto).
    destruct SE as [-> ->]. apply (Done _ _ _ _ _ _ j0 j l); auto. cbn [p_off g_time]. lia.
Qed.

(** *** The start and the outcome *)
Lemma init_inv n p : edge_ok n (p_on p) -> edge_ok n (p_off p) -> p_fuel p = fu -> g_state (p_on p) = UNSCHEDULED -> g_state (p_off p) = UNSCHEDULED ->
  open_from n <= t m0 + A -> ctx n p None m0 false /\ inv n p None m0 false [].
Proof.
  intros H1 H2 H3 H4 H5 H6. split.
  - constructor; auto; try lia; try discriminate. left; reflexivity.
  - apply Idle; auto; try discriminate. left; reflexivity.
Qed.

(** Whole pulses of consecutive cycles, each on its place, and perhaps the start of the next; and no cycle
    that is over is missing from the third after the start. *)
Lemma inv_outcome n p r m asked log : ctx n p r m asked -> inv n p r m asked log ->
  exists j0 l tl, k0 <= j0 <= k0 + 2 /\ good j0 l /\ log = whole l ++ tl /\
  (tl = [] \/ exists a, tl = [(a, true)] /\ aimed on_at (j0 + Z.of_nat (length l)) a) /\
  (forall i, j0 <= i -> X i + E < 128 * n -> i < j0 + Z.of_nat (length l)).
Proof.
  intros [C1 C2 C3 Cm Cl Cs Cp Cr Ci] I. pose proof HV as V0. pose proof (HDm m Cm) as DD.
  assert (DM : forall x, 128 * (x / 128) <= x < 128 * (x / 128) + 128) by (intros x; pose proof (Z.div_mod x 128 ltac:(lia)); pose proof (Z.mod_pos_bound x 128 ltac:(lia)); lia).
  assert (MN : forall i j, i <= j -> X i <= X j). { intros i j H. pose proof (X_mono i j H). pose proof (Ht m Cm). assert (0 <= P * (j - i)) by (apply Z.mul_nonneg_nonneg; lia). lia. }
  destruct I as [U1 U2 Lg Wt Ua | j0 j l J0 J Gd Mm Kj S1 S2 E1 E2 Lg Ua | j0 j l J0 J Gd Mm Kj St Cb Ca Sb Lg Tl Ua].
  - exists (k0 + 2), [], []. split; [lia|]. split; [intros i a b Hi; destruct i; discriminate|]. split; [exact Lg|]. split; [left; reflexivity|]. cbn [length].
    intros i Hi Hx. exfalso. specialize (MN _ _ Hi). pose proof (HX k0) as X0. pose proof (HX (k0 + 1)) as X1. replace (k0 + 1 + 1) with (k0 + 2) in X1 by ring. unfold open_from in Cl.
    destruct Wt as [->|(Hm & Hw)].
    + pose proof (Hk m0 ltac:(lia)) as K. fold k0 in K. pose proof (Ht m0 ltac:(lia)). lia.
    + pose proof (Ht (m - 1) ltac:(lia)) as T1. pose proof (Hk (m - 1) ltac:(lia)) as K1. replace (m - 1 + 1) with m in T1 by ring. destruct Hw as [Hw|(Hw & _)]; rewrite Hw in K1; lia.
  - exists j0, l, (match g_state (p_on p) with FIRED => [(g_time (p_on p), true)] | _ => [] end). split; [exact J0|]. split; [exact Gd|]. split; [exact Lg|]. split.
    + destruct (g_state (p_on p)) eqn:Es; auto. right. exists (g_time (p_on p)). split; [reflexivity|]. rewrite <- J. apply (src_aimed _ _ _ _ _ Mm E1). left. discriminate.
    + intros i Hi Hx. destruct (Z.lt_ge_cases i j) as [|Ge]; [lia|exfalso]. specialize (MN _ _ Ge). pose proof (off_bound _ _ _ _ _ _ E1 E2) as Q. pose proof (DM (g_time (p_off p))).
      unfold edge_ok, open_from in C2. destruct S2 as [e|e]; rewrite e in C2; lia.
  - exists j0, l, []. split; [exact J0|]. split; [exact Gd|]. split; [now rewrite app_nil_r|]. split; [left; reflexivity|].
    intros i Hi Hx. destruct (Z.lt_ge_cases i (j + 1)) as [|Ge]; [lia|exfalso]. specialize (MN _ _ Ge). pose proof (HX j) as S. pose proof (Ht (m - 1) ltac:(lia)) as T1. replace (m - 1 + 1) with m in T1 by ring. unfold open_from in *. lia.
Qed.
End Abs.

(** Pulses that are all asked for with the same length. *)
Lemma aimed_const fu X t off k m0 d En N j a : (forall m, m0 <= m -> X (k m) - t m <= N -> - (En - 0) <= off m - X (k m) <= En - 0) ->
  aimed X t k m0 N (on_at off (fun _ => d)) j a -> - En <= a - (X j - d) <= En /\
  forall b, aimed X t k m0 N (off_at fu off (fun _ => d) a) j b -> - En <= b - X j <= En /\ (fu = true -> b = a + d).
Proof.
  intros Hn (m1 & H1 & K1 & _ & N1 & E1). unfold on_at in E1. pose proof (Hn m1 H1) as O1. rewrite K1 in O1. specialize (O1 N1). split; [lia|].
  intros b (m2 & H2 & K2 & _ & N2 & E2). unfold off_at in E2. pose proof (Hn m2 H2) as O2. rewrite K2 in O2. specialize (O2 N2). destruct fu; split; intros; try lia; congruence.
Qed.
