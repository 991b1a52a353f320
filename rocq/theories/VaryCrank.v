(** What the decoder knows of a crank whose speed changes (for C87). *)
Require Import ZArith Reals List Bool Lia Lra SpecFloat.
From Flocq Require Import Core BinarySingleNaN.
From Verif Require EvenSpec EvenRun DecoderEven EvenProofs P_Even P_CrankEven.
From Verif Require Import Res Word F32 F32Flocq TimeProofs TableProofs AngleProofs PulseProofs RelErr Arr Decoder DecoderProofs DecoderSafe DecoderRun DecoderMissing DecoderAngle DecoderLoss
  Wheel WheelProofs WheelRun WheelAngle P_Wheel WheelCam WheelCamProofs P_WheelCam Outputs CrankSpec P_Crank.
Import ListNotations.
Open Scope Z_scope.
Ltac Zify.zify_post_hook ::= idtac.

(** The decoder's last tooth is slot [idx] of the wheel, seen at tick [at_]; its angle counts from slot [zero], its
    speeds are those of a wheel whose slots are here about [q] ticks apart. *)
Definition vtracks (c : dcfg) (q delta : R) (zero idx at_ : Z) (d : dec) : Prop :=
  let dpt := R_ (dc_dpt c) in let S := speed_of dpt q in let e := (/ q + delta / 2)%R in
  dd_valid d = 1 /\ 1 <= dd_rpm d <= 2 ^ 24 /\ (S / 2 <= IZR (dd_rpm d) <= 8 / 5 * S)%R /\ angle_ok (dd_last_angle d) /\ dd_last_time d = w32 at_ /\
  (exists z, R_ (dd_last_angle d) = (dpt * IZR (idx - zero) - 720 * IZR z)%R) /\
  exists y, (S * (1 - 2 * e) <= y <= S * / (1 - 2 * e))%R /\ (y * (1 - 14 * ur) - 1 <= IZR (dd_tooth_rpm d) <= y * (1 + 14 * ur))%R.

(** Around slot [x] the times of the slots are about [q] apart. *)
Definition about (f : Z -> Z) (q delta span : R) (x : Z) : Prop := forall i j, (IZR x - span <= IZR i)%R -> i <= j -> (IZR j <= IZR x + span)%R ->
  (q * (1 - delta) * IZR (j - i) - 2 <= IZR (f j - f i) <= q * (1 + delta) * IZR (j - i) + 2)%R.

Section near.
Variables (c : dcfg) (f : Z -> Z) (q delta span : R) (x : Z).
Notation dpt := (R_ (dc_dpt c)).
Hypothesis Ab : about f q delta span x.
Hypothesis Sp : (2 <= span)%R.
Hypothesis Hd : (0 <= delta <= / 140)%R.
Hypothesis Hq : (140 <= q)%R.
Hypothesis Bd : (/ 1000 <= dpt <= 719)%R.
Hypothesis Hs : (20 <= speed_of dpt q <= 1000000)%R.
Let S := speed_of dpt q.
Let e := (/ q + delta / 2)%R.
Let Sq : (S * q = 2000000 / 3 * dpt)%R. Proof. unfold S, speed_of. field. lra. Qed.
Let S20 : (20 <= S <= 1000000)%R. Proof. exact Hs. Qed.
Let q_max : (q <= 24000000)%R.
Proof. assert (20 * q <= S * q)%R by (apply Rmult_le_compat_r; lra). lra. Qed.
Let e_small : (0 < e <= / 90)%R.
Proof. unfold e. assert (0 < / q <= / 140)%R by (split; [apply Rinv_0_lt_compat; lra|apply Rinv_le; lra]). lra. Qed.

(* [k] slots just before or after slot [x] *)
Lemma near_interval k i : 1 <= k -> (IZR x - span <= IZR i)%R -> (IZR (i + k) <= IZR x + span)%R -> (IZR k <= 36)%R ->
  (q * (1 - delta) * IZR k - 2 <= IZR (f (i + k) - f i) <= q * (1 + delta) * IZR k + 2)%R /\ 1 <= f (i + k) - f i < 2 ^ 30.
Proof.
  intros Hk H1 H2 H3. pose proof (Ab i (i + k) H1 ltac:(lia) H2) as A. replace (i + k - i) with k in A by ring. split; [exact A|].
  assert (K1 : (1 <= IZR k)%R) by (apply (IZR_le 1); lia).
  assert (L : (100 * 1 <= q * (1 - delta) * IZR k)%R). { apply Rmult_le_compat; try lra. assert (q * (1 - / 140) <= q * (1 - delta))%R by (apply Rmult_le_compat_l; lra). lra. }
  assert (U : (q * (1 + delta) * IZR k <= 25000000 * 36)%R). { apply Rmult_le_compat; try lra; [apply Rmult_le_pos; lra|]. assert (q * (1 + delta) <= q * (1 + / 140))%R by (apply Rmult_le_compat_l; lra). lra. }
  assert (13 < f (i + k) - f i < 2 ^ 30) by (split; apply lt_IZR; [|change (IZR (2 ^ 30)) with 1073741824%R]; lra). lia.
Qed.

Lemma near_speed k t : (1 <= k)%R -> (q * (1 - delta) * k - 2 <= t <= q * (1 + delta) * k + 2)%R -> (S * (1 - 2 * e) <= 2000000 / 3 * (k * dpt) / t <= S * / (1 - 2 * e))%R.
Proof.
  intros Hk Ht. set (u := (k * q)%R). assert (U : (q <= u)%R) by (unfold u; apply Rle_trans with (1 * q)%R; [lra|apply Rmult_le_compat_r; lra]).
  assert (Eu : (2000000 / 3 * (k * dpt) = S * u)%R) by (unfold u; replace (S * (k * q))%R with (k * (S * q))%R by ring; rewrite Sq; ring). rewrite Eu.
  assert (Ht' : (u * (1 - delta) - 2 <= t <= u * (1 + delta) + 2)%R) by (unfold u; split; [replace (k * q * (1 - delta))%R with (q * (1 - delta) * k)%R by ring|replace (k * q * (1 + delta))%R with (q * (1 + delta) * k)%R by ring]; lra).
  assert (SU : (0 < S * u)%R) by (apply Rmult_lt_0_compat; lra).
  assert (E2 : (2 <= u * (2 * / q))%R). { apply Rle_trans with (q * (2 * / q))%R; [right; field; lra|]. apply Rmult_le_compat_r; [|lra]. assert (0 < / q)%R by (apply Rinv_0_lt_compat; lra). lra. }
  assert (B : (u * (1 - 2 * e) <= t <= u * (1 + 2 * e))%R).
  { unfold e. replace (u * (1 - 2 * (/ q + delta / 2)))%R with (u * (1 - delta) - u * (2 * / q))%R by (field; lra). replace (u * (1 + 2 * (/ q + delta / 2)))%R with (u * (1 + delta) + u * (2 * / q))%R by (field; lra). lra. }
  assert (P1 : (0 < u * (1 - 2 * e))%R) by (apply Rmult_lt_0_compat; lra).
  split.
  - apply Rle_trans with (S * u / (u * (1 + 2 * e)))%R; [|unfold Rdiv; apply Rmult_le_compat_l; [lra|apply Rinv_le; lra]].
    replace (S * u / (u * (1 + 2 * e)))%R with (S * / (1 + 2 * e))%R by (field; lra). apply Rmult_le_compat_l; [lra|].
    apply Rmult_le_reg_r with (1 + 2 * e)%R; [lra|]. rewrite Rinv_l by lra. assert (0 <= e * e)%R by (apply Rmult_le_pos; lra). lra.
  - apply Rle_trans with (S * u / (u * (1 - 2 * e)))%R; [unfold Rdiv; apply Rmult_le_compat_l; [lra|apply Rinv_le; lra]|]. right. field. lra.
Qed.

(** The missing-tooth wheel. *)
Lemma vtooth_speed s n d : turning c f s -> after c f s n d -> settled c d -> missing c = true -> first_gap (dc_num c) (dc_required c) s <= s + n - 1 -> slot (dc_num c) (s + n - 1) = x ->
  exists y, (S * (1 - 2 * e) <= y <= S * / (1 - 2 * e))%R /\ (y * (1 - 14 * ur) - 1 <= IZR (dd_tooth_rpm d) <= y * (1 + 14 * ur))%R.
Proof.
  intros Tu [An [L G] Ac As Ay] Se HM Hg Ex. destruct (Ay Hg) as (St & Si & _). set (m := s + n - 1) in *.
  assert (N3 : 3 <= dc_num c) by (destruct Tu; lia). pose proof (first_gap_spec (dc_num c) (dc_required c) s N3) as (_ & G2 & _). assert (Hn : 2 <= n) by (destruct Tu; lia).
  apply settled_iff in Se. destruct Se as [[N|E] _]; [rewrite St in N; discriminate|]. unfold missing_tooth_rpm in E. rewrite St, Si in E. cbn [is_sync andb] in E.
  rewrite !G in E by lia. destruct (Z.ltb_spec 0 n); [|lia]. destruct (Z.ltb_spec 1 n); [|lia]. cbn [bind] in E. replace (m - 0) with m in E by ring.
  set (k := if m mod (dc_num c - 1) =? 0 then 2 else 1) in E. assert (Hk : k = 1 \/ k = 2) by (unfold k; destruct (_ =? _); auto).
  pose proof (slot_succ (dc_num c) N3 (m - 1)) as SS. replace (m - 1 + 1) with m in SS by ring. change (if m mod (dc_num c - 1) =? 0 then 2 else 1) with k in SS.
  assert (K : (1 <= IZR k <= 2)%R) by (destruct Hk as [Hk|Hk]; rewrite Hk; lra).
  destruct (near_interval k (slot (dc_num c) (m - 1))) as (D1 & D2); [lia| | |lra|].
  { rewrite <- Ex, SS, plus_IZR. lra. }
  { rewrite <- SS, Ex. lra. }
  rewrite <- SS in D1, D2. fold (tooth_time (dc_num c) f m) in D1, D2. fold (tooth_time (dc_num c) f (m - 1)) in D1, D2.
  rewrite w32_diff in E by (unfold W; lia). set (dl := tooth_time (dc_num c) f m - tooth_time (dc_num c) f (m - 1)) in *.
  assert (Wh : wheel c) by (destruct Tu as [? ? ? (? & ? & ?) ? ? ? ? ?]; split; auto).
  assert (Bd2 : (/ 100 <= dpt <= 359)%R) by (destruct Tu as [? ? ? (? & ? & ?) ? ? ? ? ?]; auto).
  destruct (rpm_accuracy dl (fmul (dc_dpt c) (f_of_Z k)) (IZR k * dpt) 3) as (r & E' & _ & B).
  - lia.
  - destruct (dpt_times c k Wh Hk) as (V & F & Ek). split; auto. split; auto. rewrite Ek, Rmult_comm. apply rel_weaken with 0%R; [|lra]. apply rel_refl. destruct Hk as [Hk|Hk]; rewrite Hk; lra.
  - lra.
  - destruct Hk as [Hk|Hk]; rewrite Hk; lra.
  - cbv zeta in B. assert (X : dd_tooth_rpm d = r) by congruence. rewrite X. exists (2000000 / 3 * (IZR k * dpt) / IZR dl)%R. split; [|replace 14%R with (3 + 11)%R by ring; exact B].
    apply near_speed; [lra|exact D1].
Qed.

Lemma vrpm_bound s n d : turning c f s -> after c f s n d -> 1 <= n -> first_gap (dc_num c) (dc_required c) s <= s + n - 1 -> slot (dc_num c) (s + n - 1) = x -> 1 <= dd_rpm d <= 2 ^ 24 /\ (S / 2 <= IZR (dd_rpm d) <= 8 / 5 * S)%R.
Proof.
  intros Tu [An [L G] Ac As Ay] Hn Hg Ex. destruct (Ay Hg) as (_ & _ & Ro). set (m := s + n - 1) in *.
  assert (N3 : 3 <= dc_num c) by (destruct Tu; lia). destruct Tu as [Tr Tw Tn Td Tt Tm Ts Te To]. destruct (Ts (slot (dc_num c) m)) as (a & b & B1 & B2).
  assert (Bd2 : (/ 100 <= dpt <= 359)%R) by tauto.
  assert (R : rpm_in dpt (dd_rpm d) a b).
  { apply Ro. split; [exact B1|]. intros i H1 H2. apply B2; [exact H1|]. pose proof (Z.div_mod m (dc_num c - 1) ltac:(lia)) as DM. pose proof (Z.mod_pos_bound m (dc_num c - 1) ltac:(lia)). unfold slot in *. nia. }
  split; [apply (rpm_in_range dpt (R_ (dc_max_change c)) (dd_rpm d) a b B1 Bd2 R)|].
  assert (SM : slot (dc_num c) s <= slot (dc_num c) m) by (replace m with (s + (m - s)) by ring; apply slot_mono; [exact N3|lia]).
  specialize (B2 (slot (dc_num c) m) SM ltac:(lia)). destruct (near_interval 1 x) as (D & _); [lia|lra|rewrite plus_IZR; lra|lra|]. rewrite Ex in B2.
  destruct B1 as [C1 C2 C3 C4]. assert (A1 : (16 <= IZR a)%R) by (apply (IZR_le 16); lia). assert (A2 : (IZR (f (x + 1) - f x) <= IZR b)%R) by (apply IZR_le; lia).
  assert (A3 : (IZR b <= IZR a * (13 / 10))%R) by (eapply Rle_trans; [exact C4|]; apply Rmult_le_compat_l; lra).
  assert (Q1 : (q * (139 / 140) <= q * (1 - delta) * 1 /\ q * (1 + delta) * 1 <= q * (141 / 140))%R) by (split; rewrite Rmult_1_r; apply Rmult_le_compat_l; lra).
  assert (A4 : (67 / 100 * q <= IZR a)%R) by lra.
  assert (A5 : (IZR b <= 147 / 100 * q)%R). { assert (A6 : (IZR a <= IZR (f (x + 1) - f x))%R) by (apply IZR_le; lia). lra. }
  destruct R as [R0 R]. split.
  { assert (Bp : (0 < IZR b)%R) by (assert (IZR a <= IZR b)%R by (apply IZR_le; lia); lra).
    assert (L1 : (S * (100 / 147) <= 2000000 / 3 * dpt / IZR b)%R).
    { rewrite <- Sq. replace (S * (100 / 147))%R with (S * q / (147 / 100 * q))%R by (field; lra). unfold Rdiv at 1 3. apply Rmult_le_compat_l; [apply Rmult_le_pos; lra|]. apply Rinv_le; lra. }
    unfold ur in R0. set (v := (2000000 / 3 * dpt / IZR b)%R) in *. clearbody v. lra. }
  eapply Rle_trans; [exact R|]. rewrite <- Sq. unfold ur.
  apply Rle_trans with (S * q / (67 / 100 * q) * (1 + 20 * / 16777216))%R.
  - apply Rmult_le_compat_r; [lra|]. unfold Rdiv. apply Rmult_le_compat_l; [apply Rmult_le_pos; lra|]. apply Rinv_le; lra.
  - replace (S * q / (67 / 100 * q))%R with (S * (100 / 67))%R by (field; lra). lra.
Qed.

(** The wheel with equally spaced teeth. *)
Lemma window_sum m a b k : 0 <= k -> (forall i, m - k <= i < m -> a <= f (i + 1) - f i <= b) -> k * a <= f m - f (m - k) <= k * b.
Proof.
  intros Hk. pattern k. apply natlike_ind; [| |exact Hk]; cbv beta.
  - intros _. replace (m - 0) with m by ring. lia.
  - intros j Hj IH H. unfold Z.succ in *. specialize (IH ltac:(intros; apply H; lia)). pose proof (H (m - (j + 1)) ltac:(lia)) as Q. replace (m - (j + 1) + 1) with (m - j) in Q by ring. lia.
Qed.
Lemma etrack_vtracks s g n done d : EvenSpec.even_turning c f s -> EvenSpec.is_first_cam (dc_num c) (dc_required c) s g -> (exists z, dpt = IZR z / 8192)%R -> (IZR (dc_num c) * dpt = 720)%R ->
  0 <= n -> EvenRun.etrack c f s g n done d -> P_CrankEven.tooth_known c d -> s + n - 1 = x -> g < x -> vtracks c q delta 0 x (f x) d.
Proof.
  intros Tu Gc D8 N7 Hn [L Tm Cu Si St Va Lo An Ti Rp] K Ex Hm. rewrite Ex in *.
  assert (Y : EvenRun.synced g x done = true) by (unfold EvenRun.synced; destruct (Z.ltb_spec g x); [reflexivity|lia]). rewrite Y in St, Va. specialize (An Y).
  assert (Rq : dc_required c <= n) by (apply (EvenRun.synced_req c s g Gc n done); rewrite Ex; exact Y). assert (Wn : 2 <= dc_window c <= 36 /\ dc_window c < dc_required c) by (destruct Tu as [? _ [_ [? _] _] _ _]; lia).
  destruct (Z.ltb_spec n (dc_required c)); [lia|]. specialize (Rp Rq). specialize (Ti Hm).
  split; [exact Va|]. cbv zeta. fold S. fold e.
  pose proof Tu as [_ _ _ _ Ts]. destruct (Ts x) as (a & b & [[B1 B1'] _ _ _ B5] & B2).
  pose proof (window_sum x a b (dc_window c) ltac:(lia) ltac:(intros; apply B2; lia)) as WS.
  assert (Xm : (IZR (x - 1) = IZR x - 1)%R) by (rewrite minus_IZR; reflexivity).
  destruct (near_interval 1 (x - 1)) as (J1 & J2); [lia|lra|replace (x - 1 + 1) with x by ring; lra|lra|]. replace (x - 1 + 1) with x in J1, J2 by ring.
  pose proof (B2 (x - 1) ltac:(lia) ltac:(lia)) as B3. replace (x - 1 + 1) with x in B3 by ring.
  set (w := dc_window c) in *. assert (Ww : (2 <= IZR w)%R) by (apply IZR_le; lia).
  assert (A1 : (5 <= IZR a)%R) by (apply IZR_le; lia).
  assert (Q1 : (q * (139 / 140) <= q * (1 - delta) * 1 /\ q * (1 + delta) * 1 <= q * (141 / 140))%R) by (split; rewrite Rmult_1_r; apply Rmult_le_compat_l; lra).
  assert (A2 : (IZR a <= IZR (f x - f (x - 1)) <= IZR b)%R) by (split; apply IZR_le; lia).
  assert (A4 : (66 / 100 * q <= IZR a)%R) by lra. assert (A5 : (IZR b <= 152 / 100 * q)%R) by lra.
  set (t := IZR (f x - f (x - w))) in *. assert (T1 : (IZR w * (66 / 100 * q) <= t <= IZR w * (152 / 100 * q))%R).
  { destruct WS as [W1 W2]. apply IZR_le in W1, W2. rewrite mult_IZR in W1, W2. fold t in W1, W2. split; [apply Rle_trans with (IZR w * IZR a)%R; [apply Rmult_le_compat_l; lra|exact W1]|apply Rle_trans with (IZR w * IZR b)%R; [exact W2|apply Rmult_le_compat_l; lra]]. }
  assert (Wq : (0 < IZR w * q)%R) by (apply Rmult_lt_0_compat; lra).
  unfold DecoderEven.shows in Rp. replace (DecoderEven.true_rpm (IZR w * dpt) (f x - f (x - w))) with (S * (IZR w * q / t))%R in Rp
    by (unfold DecoderEven.true_rpm; fold t; unfold S, speed_of; field; lra).
  assert (V : (100 / 152 <= IZR w * q / t <= 100 / 66)%R).
  { split; apply Rmult_le_reg_r with t; try lra; replace (IZR w * q / t * t)%R with (IZR w * q)%R by (field; lra); lra. }
  set (v := (IZR w * q / t)%R) in *. clearbody v.
  assert (V1 : (S * (100 / 152) <= S * v <= S * (100 / 66))%R) by (split; apply Rmult_le_compat_l; lra). set (sv := (S * v)%R) in *. clearbody sv.
  split; [split; apply le_IZR; [lra|]; change (IZR (2 ^ 24)) with 16777216%R; lra|]. split; [lra|].
  assert (J : 0 <= EvenRun.since_cam c x done <= dc_num c) by (apply (EvenRun.since_range c f s Tu)).
  split. { destruct (EvenRun.eangle_ok c f s Tu (Z.to_nat (EvenRun.since_cam c x done))) as ((V3 & F3 & B6) & _). rewrite An. split; [auto|]. split; [auto|]. rewrite Rabs_pos_eq; lra. }
  split; [exact Ti|]. split.
  - destruct (EvenRun.eangle_exact c f s Tu (Z.to_nat (EvenRun.since_cam c x done)) D8) as (_ & z & Kz). rewrite INR_IZR_INZ, Z2Nat.id in Kz by lia. rewrite An, Kz. rewrite Z.sub_0_r.
    assert (Nm : exists k, EvenRun.since_cam c x done = x - dc_num c * k).
    { unfold EvenRun.since_cam. pose proof (Z.div_mod x (dc_num c) ltac:(destruct Tu; lia)) as DM. destruct (done || negb (x mod dc_num c =? 0)) eqn:Q; [exists (x / dc_num c); lia|].
      apply orb_false_iff in Q. destruct Q as [_ Q]. apply negb_false_iff, Z.eqb_eq in Q. exists (x / dc_num c - 1). lia. }
    destruct Nm as [k ->]. exists (z + k). rewrite minus_IZR, mult_IZR, plus_IZR. replace (dpt * (IZR x - IZR (dc_num c) * IZR k))%R with (dpt * IZR x - IZR (dc_num c) * dpt * IZR k)%R by ring. rewrite N7. ring.
  - destruct K as [K|(t0 & t1 & G0 & G1 & K)]; [congruence|]. rewrite Tm in G0, G1 by lia. assert (E0 : t0 = w32 (f (x - 0))) by congruence. assert (E1 : t1 = w32 (f (x - 1))) by congruence. rewrite E0, E1, Z.sub_0_r in K.
    rewrite WheelProofs.w32_diff in K by (unfold W; lia).
    pose proof (near_speed 1 (IZR (f x - f (x - 1))) ltac:(lra) J1) as Sv. rewrite Rmult_1_l in Sv. exists (2000000 / 3 * dpt / IZR (f x - f (x - 1)))%R. split; [exact Sv|].
    destruct Tu as [_ _ [(Vd & Fd & Hdp) _ _] _ _].
    destruct (rpm_accuracy (f x - f (x - 1)) (dc_dpt c) dpt 0) as (r & E2 & _ & R2); [lia|apply frel_self; auto; lra|lra|lra|]. cbv zeta in R2. assert (X : dd_tooth_rpm d = r) by congruence. rewrite X.
    set (y := (2000000 / 3 * dpt / IZR (f x - f (x - 1)))%R) in *. assert (0 <= y)%R by (apply Rle_trans with (S * (1 - 2 * e))%R; [apply Rmult_le_pos; lra|lra]). unfold ur in *. lra.
Qed.
End near.

(** ** The decoder after every tooth *)
Lemma vsynced_cam c f ct q delta span s x g c0 n h : turning c f s -> dc_type c = MISSING_CAMSYNC -> is_first_gap (dc_num c) (dc_required c) s g -> is_first_cam (dc_num c) x g c0 ->
  0 <= x < 2 * (dc_num c - 1) -> (exists z, R_ (dc_dpt c) = IZR z / 8192)%R -> (IZR (dc_num c) * R_ (dc_dpt c) = 360)%R -> cam_history (dc_num c) x f ct s c0 n h ->
  let m := s + Z.of_nat n - 1 in c0 <= m -> g < m ->
  about f q delta span (slot (dc_num c) m) -> (2 <= span)%R -> (0 <= delta <= / 140)%R -> (140 <= q)%R -> (20 <= speed_of (R_ (dc_dpt c)) q <= 1000000)%R ->
  exists d fx, drun c dec_init h = Ok (d, fx) /\ dd_last_angle d = cam_angle c c0 (Z.to_nat (m - c0)) /\
    vtracks c q delta (slot (dc_num c) (turn_start (dc_num c) x)) (slot (dc_num c) m) (tooth_time (dc_num c) f m) d.
Proof.
  intros Tu Ty G C Hx D N Hh m Hm Hgm Ab Sp Hd Hq Hs.
  destruct (C75_angle_exact c f ct s x g c0 n Tu Ty G C Hx D N Hm) as (d0 & fx0 & z & E0 & Bl & An). fold m in An.
  destruct (turning_cam c f ct s x g c0 Tu Ty G C) as (Eg & Su & Wh & N3 & R & R').
  assert (A0 : dd_last_angle d0 = cam_angle c c0 (Z.to_nat (m - c0))).
  { destruct (R n) as (d' & es & E' & [_ _ _ Fl _ _] & _). assert (X : d' = d0) by congruence. subst d'. unfold last_cam in Fl. fold m in Fl. destruct (Z.ltb_spec m c0); [lia|]. apply Fl. }
  assert (K : exists d fx l, drun c dec_init h = Ok (d, fx) /\ ctracked c f s x c0 (Z.of_nat n) (Some l) d).
  { destruct Hh as [->|(k & -> & Hk & ->)].
    - destruct (R n) as (d & es & E & Ct & _). unfold last_cam in Ct. fold m in Ct. destruct (Z.ltb_spec m c0); [lia|]. eauto.
    - destruct (R' k) as (d & es & e & E & Ct). unfold last_cam in Ct. destruct (Z.ltb_spec (s + Z.of_nat k - 1) c0); [lia|]. replace (Z.of_nat k + 1) with (Z.of_nat (Datatypes.S k)) in Ct by lia. eauto. }
  destruct K as (d & fx & l & E & [A I Se Fl So Ti]). fold m in Fl, So, Ti. rewrite Eg in Hgm. specialize (Ti Hgm).
  destruct Fl as (_ & _ & V & Aa & _).
  assert (Hn : 1 <= Z.of_nat n) by (pose proof (first_gap_spec (dc_num c) (dc_required c) s N3) as (_ & ? & _); destruct Tu; unfold m in Hgm; lia).
  assert (Bd : (/ 1000 <= R_ (dc_dpt c) <= 719)%R) by (destruct Tu as [? ? ? (? & ? & ?) ? ? ? ? ?]; lra).
  destruct (vtooth_speed c f q delta span (slot (dc_num c) m) Ab Sp Hd Hq Bd Hs s (Z.of_nat n) d Tu A (Se Hn)) as (y & Y1 & Y2); [unfold missing; now rewrite Ty|fold m; lia|reflexivity|].
  destruct (vrpm_bound c f q delta span (slot (dc_num c) m) Ab Sp Hd Hq Bd Hs s (Z.of_nat n) d Tu A Hn) as (Rp & Rs); [fold m; lia|reflexivity|].
  assert (Al : angle_ok (dd_last_angle d)).
  { destruct (drun_cycle c _ dec_init d fx Su Wh (dec_init_dinv c Su) in_cycle_zero E) as (V1 & F1 & B1). split; [auto|]. split; [auto|]. rewrite Rabs_pos_eq; lra. }
  exists d, fx. split; [exact E|]. split; [exact Aa|]. split; [exact V|]. split; [exact Rp|]. split; [exact Rs|]. split; [exact Al|]. split; [exact Ti|]. split; [exists z; rewrite Aa, <- A0; exact An|]. exists y. auto.
Qed.

Lemma vsynced_even c f cam q delta span s g n h : EvenSpec.even_turning c f s -> dc_type c = EVEN_CAMSYNC -> EvenSpec.is_first_cam (dc_num c) (dc_required c) s g ->
  (exists z, R_ (dc_dpt c) = IZR z / 8192)%R -> (IZR (dc_num c) * R_ (dc_dpt c) = 720)%R -> P_CrankEven.even_history (dc_num c) f cam s n h ->
  let m := s + Z.of_nat n - 1 in g < m ->
  about f q delta span m -> (2 <= span)%R -> (0 <= delta <= / 140)%R -> (140 <= q)%R -> (20 <= speed_of (R_ (dc_dpt c)) q <= 1000000)%R ->
  exists d fx, drun c dec_init h = Ok (d, fx) /\ dd_last_angle d = EvenRun.eangle c (Z.to_nat (m mod dc_num c)) /\ vtracks c q delta 0 m (f m) d.
Proof.
  intros Tu Ty G D8 N7 Hh m Hm Ab Sp Hd Hq Hs.
  assert (Bd : (/ 1000 <= R_ (dc_dpt c) <= 719)%R) by (destruct Tu as [_ _ [(_ & _ & ?) _ _] ? _]; lra).
  assert (Ea : forall n done d, EvenRun.etrack c f s g (Z.of_nat n) done d -> g < s + Z.of_nat n - 1 -> dd_last_angle d = EvenRun.eangle c (Z.to_nat ((s + Z.of_nat n - 1) mod dc_num c))).
  { intros n' done d Tr Hm'. rewrite (EvenRun.e_angle _ _ _ _ _ _ _ Tr); [apply (P_CrankEven.since_angle c f s Tu D8 N7)|]. unfold EvenRun.synced. destruct (Z.ltb_spec g (s + Z.of_nat n' - 1)); [reflexivity|lia]. }
  destruct Hh as [->|(k & -> & ->)].
  - destruct (EvenRun.even_run c f cam s Tu Ty g G n) as (d & es & E & Tr & _). exists d, (map (fun e => SetExpire (w32 e)) es). split; [exact E|]. split; [exact (Ea _ _ _ Tr Hm)|].
    exact (etrack_vtracks c f q delta span m Ab Sp Hd Hq Bd Hs s g (Z.of_nat n) true d Tu G D8 N7 ltac:(lia) Tr (P_CrankEven.run_known c f cam s n d _ Ty E) eq_refl Hm).
  - destruct (EvenRun.even_run c f cam s Tu Ty g G k) as (d & es & E & Tr & _).
    destruct (EvenRun.tooth_step c f s Tu Ty g G (Z.of_nat k) d ltac:(lia) Tr) as (d1 & fx & E1 & Tr1 & _).
    exists d1, (map (fun e => SetExpire (w32 e)) es ++ fx). split; [rewrite drun_app, E; cbn [bind drun]; rewrite E1; cbn [bind]; now rewrite app_nil_r|].
    replace (Z.of_nat k + 1) with (Z.of_nat (Datatypes.S k)) in Tr1 by lia. split; [exact (Ea _ _ _ Tr1 Hm)|].
    exact (etrack_vtracks c f q delta span m Ab Sp Hd Hq Bd Hs s g (Z.of_nat (Datatypes.S k)) false d1 Tu G D8 N7 ltac:(lia) Tr1 (P_CrankEven.trigger_known c d 0 _ d1 fx Ty (P_CrankEven.run_known c f cam s k d _ Ty E) E1) eq_refl Hm).
Qed.
