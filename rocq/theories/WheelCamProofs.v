(** The missing-tooth decoder with cam sync on a steadily turning wheel. *)
Require Import ZArith Reals List Bool Lia Lra.
From Flocq Require Import Core.
From Verif Require Import Res Word F32 F32Flocq TimeProofs TableProofs AngleProofs PulseProofs RelErr Arr Decoder DecoderProofs DecoderSafe DecoderRun DecoderMissing DecoderAngle DecoderLoss
  Wheel WheelProofs WheelRun WheelAngle WheelCam.
Import ListNotations.
Open Scope Z_scope.
Ltac Zify.zify_post_hook ::= idtac.

(** ** Updating the speeds twice is the same as once. *)
Definition speeds_from (c : dcfg) (d d' : dec) : Prop :=
  dd_state d' = dd_state d /\ dd_since d' = dd_since d /\ dd_times d' = dd_times d /\ dd_cur d' = dd_cur d /\ dd_rpm d' = dd_rpm d /\ dd_tooth_rpm d' = dd_tooth_rpm d.
Definition settled (c : dcfg) (d : dec) : Prop := missing_update_rpms c d = Ok d.

Lemma set_rpm_id d r : r = dd_rpm d -> set_rpm d r = d. Proof. intros ->. now destruct d. Qed.
Lemma set_tooth_rpm_id d r : r = dd_tooth_rpm d -> set_tooth_rpm d r = d. Proof. intros ->. now destruct d. Qed.

Lemma settled_iff c d : settled c d <->
  (is_nosync (dd_state d) = true \/ missing_tooth_rpm c d = Ok (dd_tooth_rpm d)) /\ missing_tooth_average_rpm c d = Ok (dd_rpm d).
Proof.
  unfold settled, missing_update_rpms. split.
  - intros H. apply bind_ok in H. destruct H as (d1 & E & H). apply bind_ok in H. destruct H as (r & A & H). injection H as H.
    destruct (is_nosync (dd_state d)) eqn:N.
    + injection E as <-. split; auto. rewrite A. f_equal. now rewrite <- H.
    + apply bind_ok in E. destruct E as (x & X & E). injection E as <-.
      assert (X1 : x = dd_tooth_rpm d) by (rewrite <- H; reflexivity). rewrite X1 in *. rewrite set_tooth_rpm_id in A by reflexivity. split; [auto|]. rewrite A. f_equal. now rewrite <- H.
  - intros [[N|N] A].
    + rewrite N. cbn [bind]. rewrite A. cbn [bind]. now rewrite set_rpm_id.
    + destruct (is_nosync (dd_state d)); [cbn [bind]; rewrite A; cbn [bind]; now rewrite set_rpm_id|].
      rewrite N. cbn [bind]. rewrite set_tooth_rpm_id by reflexivity. rewrite A. cbn [bind]. now rewrite set_rpm_id.
Qed.
Lemma settled_same c d d' : speeds_from c d d' -> settled c d -> settled c d'.
Proof.
  intros (E1 & E2 & E3 & E4 & E5 & E6) H. apply settled_iff in H. apply settled_iff. unfold missing_tooth_rpm, missing_tooth_average_rpm in *. rewrite E1, E2, E3, E4, E5, E6. exact H.
Qed.
Lemma update_settles c d d' : missing_update_rpms c d = Ok d' -> settled c d'.
Proof.
  unfold missing_update_rpms. intros H. apply bind_ok in H. destruct H as (d1 & E & H). apply bind_ok in H. destruct H as (r & A & H). injection H as <-.
  apply settled_iff. assert (K : (is_nosync (dd_state d1) = true \/ missing_tooth_rpm c d1 = Ok (dd_tooth_rpm d1)) /\ dd_state d1 = dd_state d).
  { destruct (is_nosync (dd_state d)) eqn:N; [injection E as <-; auto|]. apply bind_ok in E. destruct E as (x & X & E). injection E as <-. split; [right|reflexivity]. exact X. }
  destruct K as [K _]. split.
  - destruct K as [K|K]; [left|right]; exact K.
  - unfold missing_tooth_average_rpm in *. dsimp. destruct (dc_num c <=? dd_cur d1); [|exact A]. destruct (dd_since d1 =? 0); [exact A|]. reflexivity.
Qed.

Lemma is_sync_false x : x <> SYNC -> is_sync x = false. Proof. destruct x; cbn; congruence. Qed.

Section cam.
Variable c : dcfg.
Variables f ct : Z -> Z.
Variable s : Z.
Variables x c0 : Z.
Notation num := (dc_num c).
Notation r := (dc_required c).
Notation dpt := (R_ (dc_dpt c)).
Notation tol := (R_ (dc_max_change c)).
Notation T := (tooth_time (dc_num c) f).
Notation sl := (slot (dc_num c)).
Notation g := (first_gap (dc_num c) (dc_required c) s).
Notation P := (dc_num c - 1).
Hypothesis HS : supported c.
Hypothesis HW : wheel c.
Hypothesis HT : dc_type c = MISSING_CAMSYNC.
Hypothesis Hrn : r <= num - 1.
Hypothesis Vm : vf (dc_max_change c).
Hypothesis Fm : fin (dc_max_change c).
Hypothesis Hm : (0 < tol <= 3 / 5)%R.
Hypothesis ST : steady num dpt tol f (sl s).
Hypothesis early : forall i, sl s <= i <= sl s + r + 1 -> 2 * r * (f (i + 1) - f i) <= T s.
Hypothesis nowrap : T (s + r) < W.
Hypothesis HC : is_first_cam num x g c0.

Let num3 : 3 <= num. Proof. destruct HS. lia. Qed.
Let HM : missing c = true. Proof. unfold missing. now rewrite HT. Qed.
Let gap_spec := first_gap_spec num r s num3.

(** The reference angle [j] teeth after the first cam pulse. *)
Definition cam_angle0 : f32 := fadd (fmul (dc_dpt c) (f_of_Z (c0 mod P))) (f_of_Z 0).
Fixpoint cam_angle (j : nat) : f32 := match j with O => cam_angle0 | S j => step_angle c (c0 + Z.of_nat (S j)) (cam_angle j) end.

(** The flags after tooth [m], the last cam pulse that was taken into account being [l]. *)
Definition flags (m : Z) (l : option Z) (d : dec) : Prop :=
  match l with
  | None => dd_this d = false /\ dd_prev d = false /\ dd_valid d = 0
  | Some l => dd_this d = (m / P =? l / P) /\ dd_prev d = (m / P =? l / P + 1) /\ dd_valid d = 1 /\ dd_last_angle d = cam_angle (Z.to_nat (m - c0)) /\ c0 <= l <= m /\ m / P <= l / P + 2 /\ cam_after num x l = true
  end.

(** After [n] teeth; [l] is the last cam pulse taken into account. *)
Record ctracked (n : Z) (l : option Z) (d : dec) : Prop := {
  ct_after : after c f s n d;
  ct_inv : dinv c d;
  ct_settled : 1 <= n -> settled c d;
  ct_flags : flags (s + n - 1) l d;
  ct_some : forall l', l = Some l' -> g <= s + n - 1;
  ct_time : g < s + n - 1 -> dd_last_time d = w32 (T (s + n - 1)) }.

Lemma cam_period l m : cam_after num x l = true -> cam_after num x m = true -> l < m -> l + 2 * P <= m.
Proof.
  unfold cam_after. rewrite !Z.eqb_eq. intros H1 H2 H. set (Q := 2 * P) in *. assert (0 < Q) by (unfold Q; lia).
  pose proof (Z.div_mod l Q ltac:(lia)) as E1. pose proof (Z.div_mod m Q ltac:(lia)) as E2. rewrite H1 in E1. rewrite H2 in E2.
  assert (l / Q < m / Q) by (apply (Z.mul_lt_mono_pos_l Q); lia). nia.
Qed.
Lemma cam_next l : cam_after num x l = true -> cam_after num x (l + 2 * P) = true.
Proof. unfold cam_after. intros H. rewrite <- H. f_equal. replace (l + 2 * P) with (l + 1 * (2 * P)) by ring. apply Z.mod_add. lia. Qed.
Lemma turn_next m : (m + 1) / P = m / P + (if (m + 1) mod P =? 0 then 1 else 0).
Proof.
  pose proof (Z.div_mod m P ltac:(lia)) as E1. pose proof (Z.div_mod (m + 1) P ltac:(lia)) as E2. pose proof (Z.mod_pos_bound m P ltac:(lia)). pose proof (Z.mod_pos_bound (m + 1) P ltac:(lia)).
  rewrite (mod_succ num num3 m) in *. destruct (Z.eqb_spec (m mod P + 1) P).
  - rewrite Z.eqb_refl. nia.
  - destruct (Z.eqb_spec (m mod P + 1) 0); nia.
Qed.

Lemma two_turns l m : m <= l + 2 * P -> m / P <= l / P + 2.
Proof. intros H. rewrite <- Z.div_add by lia. apply Z.div_le_mono; lia. Qed.

(** *** A tooth *)
Lemma cam_tooth n l d : ctracked n l d -> (forall l', l = Some l' -> (s + n) / P <= l' / P + 2) -> (l = None -> s + n <= c0) ->
  exists d' fx, dstep c d (Trigger 0 (w32 (T (s + n)))) = Ok (d', fx) /\ ctracked (n + 1) l d' /\
  (s + n <= g -> fx = []) /\ (g < s + n -> exists e, fx = [SetExpire (w32 e)] /\ T (s + n + 1) < e < T (s + n) + W).
Proof.
  intros [A I Se Fl So Ti] Hl Hnone. rewrite trigger_decode. set (d0 := counted d 0).
  destruct (counted_same d 0) as (K1 & K2 & K3 & K4 & K5 & K6 & K7 & K8 & K9 & K10 & K11 & _). fold d0 in K1, K2, K3, K4, K5, K6, K7, K8, K9, K10, K11.
  assert (A0 : after c f s n d0) by (apply (after_same c f s n d); auto).
  assert (I0 : dinv c d0) by (now apply counted_dinv).
  destruct (tooth_ok c f s HS HW HM Hrn Vm Fm Hm ST early nowrap n d0 A0 I0) as (d1 & fx & E1 & B1 & F1 & F2 & F3).
  set (dx := if is_sync (dd_state d1) && (dd_since d1 =? 0) then
    set_this (set_prev (if negb (dd_this d1) && negb (dd_prev d1) then set_valid d1 0 else d1) (dd_this (if negb (dd_this d1) && negb (dd_prev d1) then set_valid d1 0 else d1))) false else d1).
  assert (X : dd_times dx = dd_times d1 /\ dd_cur dx = dd_cur d1 /\ dd_state dx = dd_state d1 /\ dd_since dx = dd_since d1 /\ dd_rpm dx = dd_rpm d1 /\ dd_last_time dx = dd_last_time d1 /\ dd_last_angle dx = dd_last_angle d1).
  { unfold dx. destruct (_ && _); [destruct (_ && _)|]; dsimp; auto 10. }
  destruct X as (X1 & X2 & X3 & X4 & X5 & X6 & X7).
  assert (Bx : between c f s (n + 1) dx). { destruct B1 as [b1 [b2 b2'] b3 b4 b5]. split; auto; rewrite ?X1, ?X2, ?X3, ?X4, ?X5; auto. split; rewrite X1; auto. }
  destruct (rpms_ok c f s HS HW HM Hrn Hm ST (n + 1) dx Bx) as (d2 & E2 & A2).
  pose proof (decode_good c d0 0 (w32 (T (s + n))) HS I0) as Gd.
  unfold decode in *. rewrite HT in *. unfold decode_missing_with_camsync in *. cbv zeta in *. rewrite Z.eqb_refl in *. rewrite E1 in *. cbn [bind] in *.
  fold dx in Gd |- *. rewrite E2 in *. cbn [bind] in *.
  destruct (missing_update_keeps _ _ _ _ _ E1) as (M1 & M2 & M3 & _). destruct (missing_rpms_keeps _ _ _ E2) as (R1 & R2 & R3 & R4 & R5 & R6 & R7 & R8 & R9 & _).
  destruct gap_spec as (G1 & G2 & G3). destruct HS as [Sr _ _].
  pose proof (turn_next (s + n - 1)) as TN. replace (s + n - 1 + 1) with (s + n) in TN by ring.
  destruct HC as (C1 & C2 & C3). pose proof (update_settles _ _ _ E2) as Sd2.
  destruct l as [l|].
  - (* valid *)
    destruct Fl as (L1 & L2 & L3 & L4 & L5 & L6 & L7). specialize (So l eq_refl). specialize (Hl l eq_refl). clear Hnone.
    assert (Sy : dd_state d2 = SYNC) by (apply (af_sync _ _ _ _ _ A2); lia).
    destruct (af_sync _ _ _ _ _ A2 ltac:(lia)) as (_ & Si & _). replace (s + (n + 1) - 1) with (s + n) in Si by ring.
    assert (Sy1 : dd_state d1 = SYNC) by congruence. assert (Si1 : dd_since d1 = (s + n) mod P) by congruence.
    assert (LT : l / P <= (s + n - 1) / P) by (apply Z.div_le_mono; lia).
    assert (UT : (s + n) / P <= l / P + 2) by exact Hl.
    assert (Vx : dd_valid dx = 1 /\ dd_this dx = ((s + n) / P =? l / P) /\ dd_prev dx = ((s + n) / P =? l / P + 1)).
    { unfold dx. rewrite Sy1, Si1. cbn [is_sync andb]. destruct (Z.eqb_spec ((s + n) mod P) 0) as [Z0|Z0].
      - rewrite M2, M3, K10, K11, L1, L2.
        destruct (Z.eqb_spec ((s + n - 1) / P) (l / P)) as [e1|e1], (Z.eqb_spec ((s + n - 1) / P) (l / P + 1)) as [e2|e2]; cbn [negb andb]; try lia;
          dsimp; rewrite ?M1, ?K1, ?L3; (split; [reflexivity|]); (split; [symmetry; apply Z.eqb_neq; lia|]);
          rewrite ?M2, ?K10, ?L1; destruct (Z.eqb_spec ((s + n - 1) / P) (l / P)), (Z.eqb_spec ((s + n) / P) (l / P + 1)); auto; lia.
      - rewrite M1, M2, M3, K1, K10, K11, TN, Z.add_0_r. auto. }
    destruct Vx as (V1 & V2 & V3). rewrite K1, L3 in *. cbn [Z.eqb negb] in *. rewrite Sy in *. cbn [is_sync negb andb] in *. rewrite R1, V1 in *. cbn [Z.eqb] in *.
    exists d2, fx. split; [reflexivity|]. split; [|split; [exact F1|intros H; destruct (F3 H) as (_ & _ & F5); exact F5]].
    destruct (F3 ltac:(lia)) as (F4 & F5 & _).
    split; auto.
    + unfold flags. replace (s + (n + 1) - 1) with (s + n) by ring. rewrite R5, R6, R1, R9, X7, V2, V3, F5, K7, L4. split; [auto|]. split; [auto|]. split; [auto|]. split; [|split; [lia|auto]].
      replace (Z.to_nat (s + n - c0)) with (S (Z.to_nat (s + n - 1 - c0))) by lia. cbn [cam_angle]. f_equal. lia.
    + intros; lia.
    + intros _. rewrite R8, X6, F4. do 2 f_equal. ring.
  - (* not yet valid *)
    destruct Fl as (L1 & L2 & L3). specialize (Hnone eq_refl).
    assert (Vx : dd_valid dx = 0 /\ dd_this dx = false /\ dd_prev dx = false).
    { unfold dx. rewrite M2, M3, K10, K11, L1, L2. cbn [negb andb]. destruct (_ && _); dsimp; rewrite ?M1, ?K1, ?M2, ?M3, ?K10, ?K11; auto. }
    destruct Vx as (V1 & V2 & V3). rewrite K1, L3 in *. cbn [Z.eqb negb andb] in *. rewrite R5, R6, V2, V3 in *. cbn [orb andb] in *.
    assert (Sv : set_valid d2 0 = d2) by (rewrite <- V1, <- R1; destruct d2; reflexivity). rewrite Sv in *. destruct (is_sync (dd_state d2)) eqn:Q; cbn [negb] in *.
    all: exists d2, fx; split; [reflexivity|]; split; [|split; [exact F1|intros H; destruct (F3 H) as (_ & _ & F5); exact F5]];
      split; auto; [unfold flags; rewrite R5, R6, R1; auto|discriminate|intros H; destruct (F3 ltac:(lia)) as (F4 & _); rewrite R8, X6, F4; do 2 f_equal; ring].
Qed.

(** *** A cam pulse *)
Lemma cam_cam n l d t : 1 <= n -> ctracked n l d -> cam_after num x (s + n - 1) = true -> (forall l', l = Some l' -> l' < s + n - 1) -> (l = None -> s + n - 1 <= c0) ->
  exists d', dstep c d (Trigger 1 t) = Ok (d', []) /\ ctracked n (if g <=? s + n - 1 then Some (s + n - 1) else None) d'.
Proof.
  intros Hn [A I Se Fl So Ti] Hc Hl Hnone. rewrite trigger_decode. set (d0 := counted d 1).
  destruct (counted_same d 1) as (K1 & K2 & K3 & K4 & K5 & K6 & K7 & K8 & K9 & K10 & K11 & _). fold d0 in K1, K2, K3, K4, K5, K6, K7, K8, K9, K10, K11.
  assert (A0 : after c f s n d0) by (apply (after_same c f s n d); auto).
  assert (I0 : dinv c d0) by (now apply counted_dinv).
  assert (S0 : settled c d0) by (apply (settled_same c d); [repeat split; auto|auto]).
  pose proof (decode_good c d0 1 t HS I0) as Gd.
  unfold decode in *. rewrite HT in *. unfold decode_missing_with_camsync in *. cbv zeta in *. cbn [Z.eqb Pos.eqb bind] in *.
  set (m := s + n - 1) in *. destruct HC as (C1 & C2 & C3).
  destruct (Z.leb_spec g m) as [Q|Q].
  - destruct (af_sync _ _ _ _ _ A0 Q) as (Sy & Si & _). fold m in Si. rewrite Sy in *. cbn [is_sync] in *.
    assert (TP : dd_this d0 = false /\ dd_prev d0 = false /\ (dd_valid d0 = 0 /\ m = c0 \/ dd_valid d0 = 1 /\ dd_last_angle d0 = cam_angle (Z.to_nat (m - c0)) /\ c0 <= m)).
    { rewrite K10, K11, K1, K7. destruct l as [l|].
      - destruct Fl as (L1 & L2 & L3 & L4 & L5 & L6 & L7). specialize (Hl l eq_refl). pose proof (cam_period l m L7 Hc Hl) as H.
        assert (E : m / P = l / P + 2) by (assert ((l + 2 * P) / P <= m / P) by (apply Z.div_le_mono; lia); rewrite Z.div_add in * by lia; lia). rewrite E in *. rewrite L1, L2. split; [apply Z.eqb_neq; lia|]. split; [apply Z.eqb_neq; lia|]. right. split; [auto|]. split; [auto|lia].
      - destruct Fl as (L1 & L2 & L3). split; auto. split; auto. left. split; auto. specialize (Hnone eq_refl). specialize (C3 m Q Hc). lia. }
    destruct TP as (T1 & T2 & TV). rewrite T1, T2 in *. cbn [orb] in *.
    set (d1 := set_this d0 true) in *. assert (S1 : settled c d1) by (apply (settled_same c d0); [repeat split; auto|auto]). unfold settled in S1. rewrite S1 in *. cbn [bind] in *.
    change (dd_state d1) with (dd_state d0) in *. change (dd_valid d1) with (dd_valid d0) in *. rewrite Sy in *. cbn [is_sync negb] in *. change (dd_this d1) with true in *. change (dd_since d1) with (dd_since d0) in *.
    destruct TV as [[TV Ec]|(TV & TA & TC)]; rewrite TV in *; cbn [Z.eqb negb andb orb] in *.
    + dsimp. cbn [Z.eqb andb] in *. eexists. split; [reflexivity|]. split; auto.
      * apply (after_same c f s n d0); auto.
      * intros _. apply (settled_same c d0); [repeat split; auto|auto].
      * fold m. unfold flags. dsimp. change (dd_this d1) with true. change (dd_prev d1) with (dd_prev d0). rewrite T2, !Z.eqb_refl. split; [auto|]. split; [symmetry; apply Z.eqb_neq; lia|]. split; [auto|]. split; [|split; [lia|split; [lia|auto]]].
        replace (Z.to_nat (m - c0)) with O by lia. cbn [cam_angle]. unfold cam_angle0. now rewrite Si, Ec.
    + change (dd_valid d1) with (dd_valid d0) in *. rewrite TV in *. cbn [Z.eqb] in *. eexists. split; [reflexivity|]. split; auto.
      * apply (after_same c f s n d0); auto.
      * fold m. unfold flags. change (dd_this d1) with true. change (dd_prev d1) with (dd_prev d0). change (dd_valid d1) with (dd_valid d0). change (dd_last_angle d1) with (dd_last_angle d0). rewrite T2, TV, !Z.eqb_refl. split; [auto|]. split; [symmetry; apply Z.eqb_neq; lia|]. split; [auto|]. split; [exact TA|]. split; [lia|]. split; [lia|auto].
  - destruct (af_search _ _ _ _ _ A0 Q) as (Sy & _). rewrite (is_sync_false _ Sy) in *. unfold settled in S0. rewrite S0 in *. cbn [bind] in *. rewrite (is_sync_false _ Sy) in *. cbn [negb] in *.
    destruct l as [l|]; [specialize (So l eq_refl); lia|]. destruct Fl as (L1 & L2 & L3).
    rewrite K1, L3 in *. cbn [Z.eqb negb andb] in *. eexists. split; [reflexivity|]. split; auto.
    + apply (after_same c f s n d0); auto.
    + intros _. apply (settled_same c d0); [repeat split; auto|auto].
    + unfold flags. dsimp. rewrite K10, K11. auto.
Qed.

(** The last cam pulse behind a tooth up to [m]. *)
Definition last_cam (m : Z) : option Z := if m <? c0 then None else Some (c0 + 2 * P * ((m - c0) / (2 * P))).
Lemma last_cam_next m : last_cam (m + 1) = if cam_after num x (m + 1) && (g <=? m + 1) then Some (m + 1) else last_cam m.
Proof.
  destruct HC as (C1 & C2 & C3). unfold last_cam. set (Q := 2 * P) in *. assert (HQ : 0 < Q) by (unfold Q; lia).
  assert (CA : c0 <= m + 1 -> cam_after num x (m + 1) = ((m + 1 - c0) mod Q =? 0)).
  { intros _. unfold cam_after in *. fold Q in C1 |- *. apply Z.eqb_eq in C1. destruct (Z.eqb_spec ((m + 1 - c0) mod Q) 0) as [E|E].
    - apply Z.eqb_eq. apply Z.mod_divide in E; [|lia]. destruct E as [k E]. replace (m + 1) with (c0 + k * Q) by lia. rewrite Z.mod_add by lia. exact C1.
    - apply Z.eqb_neq. intros H. apply E. rewrite Zminus_mod, H, C1, Z.sub_diag. apply Z.mod_0_l. lia. }
  destruct (Z.ltb_spec (m + 1) c0) as [L|L].
  - destruct (Z.ltb_spec m c0); [|lia]. destruct (cam_after num x (m + 1)) eqn:E; auto. destruct (Z.leb_spec g (m + 1)) as [G|G]; auto. specialize (C3 _ G E). lia.
  - rewrite (CA L). destruct (Z.leb_spec g (m + 1)); [|lia]. rewrite andb_true_r.
    pose proof (Z.div_mod (m + 1 - c0) Q ltac:(lia)) as DM. pose proof (Z.mod_pos_bound (m + 1 - c0) Q HQ).
    destruct (Z.eqb_spec ((m + 1 - c0) mod Q) 0) as [E|E]; [f_equal; lia|]. destruct (Z.ltb_spec m c0) as [L2|L2].
    + exfalso. apply E. replace (m + 1 - c0) with 0 by lia. apply Z.mod_0_l. lia.
    + do 3 f_equal. destruct (Z.div_mod_unique Q ((m - c0) / Q) ((m + 1 - c0) / Q) ((m - c0) mod Q) ((m + 1 - c0) mod Q - 1)); auto; [left; apply Z.mod_pos_bound; lia|left; lia|rewrite <- Z.div_mod; lia].
Qed.
Lemma last_cam_bounds m l : last_cam m = Some l -> c0 <= l <= m /\ m < l + 2 * P.
Proof.
  unfold last_cam. destruct (Z.ltb_spec m c0); [discriminate|]. intros E. assert (El : l = c0 + 2 * P * ((m - c0) / (2 * P))) by congruence. subst l. pose proof (Z.div_mod (m - c0) (2 * P) ltac:(lia)). pose proof (Z.mod_pos_bound (m - c0) (2 * P) ltac:(lia)).
  pose proof (Z.div_pos (m - c0) (2 * P) ltac:(lia) ltac:(lia)) as DP. set (q := (m - c0) / (2 * P)) in *. set (u := (m - c0) mod (2 * P)) in *.
  assert (0 <= 2 * P * q) by (apply Z.mul_nonneg_nonneg; lia). lia.
Qed.
Lemma last_cam_none m : last_cam m = None -> m < c0.
Proof. unfold last_cam. destruct (Z.ltb_spec m c0); [auto|discriminate]. Qed.

Lemma ctracked_init : ctracked 0 None dec_init.
Proof.
  destruct (tracked_init c f s HS Hrn) as [A I _ _ _]. destruct HS as [Sr _ _]. destruct gap_spec as (G1 & G2 & _). split; auto; try lia.
  - unfold flags. auto.
  - discriminate.
Qed.

Lemma wheel_cam_snoc n : wheel_cam num x f ct s (S n) = wheel_cam num x f ct s n ++ tooth_pulse num f (s + Z.of_nat n) :: cam_pulse num x ct (s + Z.of_nat n).
Proof. unfold wheel_cam. rewrite seq_S, flat_map_app. cbn [flat_map Nat.add]. now rewrite app_nil_r. Qed.

Lemma cam_run n : exists d es, drun c dec_init (wheel_cam num x f ct s n) = Ok (d, map (fun e => SetExpire (w32 e)) es) /\ ctracked (Z.of_nat n) (last_cam (s + Z.of_nat n - 1)) d /\
  Z.of_nat (length es) = Z.max 0 (s + Z.of_nat n - 1 - g) /\ expiries c f (g + 1) es.
Proof.
  destruct gap_spec as (G1 & G2 & _). destruct HS as [Sr _ _]. pose proof HC as (C1 & C2 & C3). induction n as [|n (d & es & E & Tr & L & X)].
  - exists dec_init, []. split; [reflexivity|]. split; [|split; [cbn [length]; lia|exact Logic.I]]. unfold last_cam. destruct (Z.ltb_spec (s + Z.of_nat 0 - 1) c0); [exact ctracked_init|lia].
  - set (k := s + Z.of_nat n) in *.
    assert (H1 : forall l', last_cam (k - 1) = Some l' -> k / P <= l' / P + 2) by (intros l' El; pose proof (last_cam_bounds _ _ El); apply two_turns; lia).
    assert (H2 : last_cam (k - 1) = None -> k <= c0) by (intros El; pose proof (last_cam_none _ El); lia).
    destruct (cam_tooth (Z.of_nat n) _ d Tr H1 H2) as (d1 & fx & E1 & Tr1 & F1 & F2). fold k in E1, F1, F2.
    rewrite wheel_cam_snoc, drun_app, E. cbn [bind drun]. unfold tooth_pulse. fold k. rewrite E1. cbn [bind].
    pose proof (last_cam_next (k - 1)) as LN. replace (k - 1 + 1) with k in LN by ring.
    replace (s + Z.of_nat (S n) - 1) with k by (unfold k; lia). replace (Z.of_nat (S n)) with (Z.of_nat n + 1) by lia.
    assert (CP : exists d2, drun c d1 (cam_pulse num x ct k) = Ok (d2, []) /\ ctracked (Z.of_nat n + 1) (last_cam k) d2).
    { unfold cam_pulse. destruct (cam_after num x k) eqn:CA.
      - destruct (cam_cam (Z.of_nat n + 1) (last_cam (k - 1)) d1 (w32 (ct k))) as (d2 & E2 & Tr2); auto; try lia.
        + replace (s + (Z.of_nat n + 1) - 1) with k by (unfold k; lia). exact CA.
        + intros l' El. pose proof (last_cam_bounds _ _ El). unfold k in *. lia.
        + intros El. specialize (H2 El). unfold k in *. lia.
        + exists d2. cbn [drun]. rewrite E2. cbn [bind app]. split; [reflexivity|]. replace (s + (Z.of_nat n + 1) - 1) with k in Tr2 by (unfold k; lia).
          rewrite LN. cbn [andb]. destruct (g <=? k) eqn:G; auto. destruct (last_cam (k - 1)) as [l|] eqn:El; auto. apply Z.leb_gt in G. pose proof (last_cam_bounds _ _ El). lia.
      - exists d1. cbn [drun andb] in *. rewrite LN. split; [reflexivity|exact Tr1]. }
    destruct CP as (d2 & E2 & Tr2). rewrite E2. cbn [bind]. rewrite app_nil_r.
    destruct (Z.le_gt_cases k g) as [Q|Q].
    + rewrite (F1 Q), app_nil_r. exists d2, es. split; [reflexivity|]. split; [exact Tr2|]. split; [unfold k in *; lia|exact X].
    + destruct (F2 ltac:(lia)) as (e & -> & He). exists d2, (es ++ [e]). split; [rewrite map_app; reflexivity|]. split; [exact Tr2|].
      split; [rewrite app_length; cbn [length]; unfold k in *; lia|]. apply expiries_app; auto. replace (g + 1 + Z.of_nat (length es)) with k by (unfold k in *; lia). exact He.
Qed.

(** Between a tooth and its cam pulse. *)
Lemma cam_run_tooth n : exists d es e, drun c dec_init (wheel_cam num x f ct s n ++ [tooth_pulse num f (s + Z.of_nat n)]) = Ok (d, map (fun e => SetExpire (w32 e)) (es ++ e)) /\
  ctracked (Z.of_nat n + 1) (last_cam (s + Z.of_nat n - 1)) d.
Proof.
  destruct gap_spec as (G1 & G2 & _). destruct HS as [Sr _ _]. destruct (cam_run n) as (d & es & E & Tr & _).
  assert (H1 : forall l', last_cam (s + Z.of_nat n - 1) = Some l' -> (s + Z.of_nat n) / P <= l' / P + 2) by (intros l' El; pose proof (last_cam_bounds _ _ El); apply two_turns; lia).
  assert (H2 : last_cam (s + Z.of_nat n - 1) = None -> s + Z.of_nat n <= c0) by (intros El; pose proof (last_cam_none _ El); lia).
  destruct (cam_tooth (Z.of_nat n) _ d Tr H1 H2) as (d1 & fx & E1 & Tr1 & F1 & F2).
  rewrite drun_app, E. cbn [bind drun]. unfold tooth_pulse. rewrite E1. cbn [bind]. rewrite app_nil_r.
  destruct (Z.le_gt_cases (s + Z.of_nat n) g) as [Q|Q].
  - exists d1, es, []. rewrite (F1 Q), !app_nil_r. auto.
  - destruct (F2 ltac:(lia)) as (e & -> & He). exists d1, es, [e]. rewrite map_app. auto.
Qed.

(** *** A missing and an extra cam pulse *)
Lemma lost_cam n l d : ctracked n (Some l) d -> (s + n) / P = l / P + 3 ->
  exists d' fx, dstep c d (Trigger 0 (w32 (T (s + n)))) = Ok (d', fx ++ [CancelOutputs]) /\ dd_valid d' = 0.
Proof.
  intros [A I Se Fl So Ti] Hl. rewrite trigger_decode. set (d0 := counted d 0).
  destruct (counted_same d 0) as (K1 & K2 & K3 & K4 & K5 & K6 & K7 & K8 & K9 & K10 & K11 & _). fold d0 in K1, K2, K3, K4, K5, K6, K7, K8, K9, K10, K11.
  assert (A0 : after c f s n d0) by (apply (after_same c f s n d); auto).
  assert (I0 : dinv c d0) by (now apply counted_dinv).
  destruct (tooth_ok c f s HS HW HM Hrn Vm Fm Hm ST early nowrap n d0 A0 I0) as (d1 & fx & E1 & B1 & _).
  set (dx := if is_sync (dd_state d1) && (dd_since d1 =? 0) then
    set_this (set_prev (if negb (dd_this d1) && negb (dd_prev d1) then set_valid d1 0 else d1) (dd_this (if negb (dd_this d1) && negb (dd_prev d1) then set_valid d1 0 else d1))) false else d1).
  assert (X : dd_times dx = dd_times d1 /\ dd_cur dx = dd_cur d1 /\ dd_state dx = dd_state d1 /\ dd_since dx = dd_since d1 /\ dd_rpm dx = dd_rpm d1).
  { unfold dx. destruct (_ && _); [destruct (_ && _)|]; dsimp; auto 10. }
  destruct X as (X1 & X2 & X3 & X4 & X5).
  assert (Bx : between c f s (n + 1) dx). { destruct B1 as [b1 [b2 b2'] b3 b4 b5]. split; auto; rewrite ?X1, ?X2, ?X3, ?X4, ?X5; auto. split; rewrite X1; auto. }
  destruct (rpms_ok c f s HS HW HM Hrn Hm ST (n + 1) dx Bx) as (d2 & E2 & A2).
  unfold decode. rewrite HT. unfold decode_missing_with_camsync. cbv zeta. rewrite Z.eqb_refl. rewrite E1. cbn [bind]. fold dx. rewrite E2. cbn [bind].
  destruct (missing_update_keeps _ _ _ _ _ E1) as (M1 & M2 & M3 & _). destruct (missing_rpms_keeps _ _ _ E2) as (R1 & R2 & R3 & R4 & R5 & R6 & R7 & _).
  pose proof (turn_next (s + n - 1)) as TN. replace (s + n - 1 + 1) with (s + n) in TN by ring.
  destruct Fl as (L1 & L2 & L3 & L4 & L5 & L6 & L7). specialize (So l eq_refl).
  destruct (af_sync _ _ _ _ _ A2 ltac:(lia)) as (Sy & Si & _). replace (s + (n + 1) - 1) with (s + n) in Si by ring.
  assert (Sy1 : dd_state d1 = SYNC) by congruence. assert (Si1 : dd_since d1 = (s + n) mod P) by congruence.
  destruct (Z.eqb_spec ((s + n) mod P) 0) as [Z0|Z0]; [|lia].
  assert (T1 : dd_this d1 = false) by (rewrite M2, K10, L1; apply Z.eqb_neq; lia). assert (T2 : dd_prev d1 = false) by (rewrite M3, K11, L2; apply Z.eqb_neq; lia).
  assert (Vx : dd_valid dx = 0 /\ dd_this dx = false /\ dd_prev dx = false).
  { unfold dx. rewrite Sy1, Si1, Z0, T1, T2. cbn [is_sync Z.eqb negb andb]. dsimp. auto. }
  destruct Vx as (V1 & V2 & V3). rewrite K1, L3, Sy. cbn [Z.eqb negb is_sync andb]. rewrite R1, V1. cbn [Z.eqb]. eexists _, fx. split; reflexivity.
Qed.

Lemma extra_cam n l d t : 1 <= n -> ctracked n (Some l) d -> (s + n - 1) / P <= l / P + 1 ->
  exists d', dstep c d (Trigger 1 t) = Ok (d', [CancelOutputs]) /\ dd_valid d' = 0.
Proof.
  intros Hn [A I Se Fl So Ti] Hl. rewrite trigger_decode. set (d0 := counted d 1).
  destruct (counted_same d 1) as (K1 & K2 & K3 & K4 & K5 & K6 & K7 & K8 & K9 & K10 & K11 & _). fold d0 in K1, K2, K3, K4, K5, K6, K7, K8, K9, K10, K11.
  assert (S0 : settled c d0) by (apply (settled_same c d); [repeat split; auto|auto]).
  unfold decode. rewrite HT. unfold decode_missing_with_camsync. cbv zeta. cbn [Z.eqb Pos.eqb bind].
  destruct Fl as (L1 & L2 & L3 & L4 & L5 & L6 & L7). specialize (So l eq_refl).
  destruct (af_sync _ _ _ _ _ A So) as (Sy & _). rewrite K2, Sy. cbn [is_sync].
  assert (LT : l / P <= (s + n - 1) / P) by (apply Z.div_le_mono; lia).
  assert (TP : dd_this d0 || dd_prev d0 = true). { rewrite K10, K11, L1, L2. destruct (Z.eqb_spec ((s + n - 1) / P) (l / P)); [reflexivity|]. apply Z.eqb_eq. lia. }
  rewrite TP. set (d1 := set_this (set_valid d0 0) false). assert (S1 : settled c d1) by (apply (settled_same c d0); [repeat split; auto|auto]). unfold settled in S1. rewrite S1. cbn [bind].
  change (dd_state d1) with (dd_state d0). rewrite K2, Sy, K1, L3. cbn [is_sync negb Z.eqb andb]. change (dd_valid d1) with 0. cbn [Z.eqb]. eexists. split; reflexivity.
Qed.

(** Teeth without cam pulses, as long as none has been missed. *)
Lemma cam_stops n l k d : ctracked (Z.of_nat n) (Some l) d -> (s + Z.of_nat n + Z.of_nat k - 1) / P <= l / P + 2 ->
  exists d' fx, drun c d (wheel_teeth num f (s + Z.of_nat n) k) = Ok (d', fx) /\ ctracked (Z.of_nat (n + k)) (Some l) d' /\ ~ In CancelOutputs fx.
Proof.
  intros Tr. induction k as [|k IH]; intros H.
  - exists d, []. rewrite Nat.add_0_r. split; [reflexivity|]. auto.
  - destruct IH as (d1 & fx & E & T1 & N1); [eapply Z.le_trans; [|exact H]; apply Z.div_le_mono; lia|].
    destruct (cam_tooth (Z.of_nat (n + k)) (Some l) d1 T1) as (d2 & fx2 & E2 & T2 & F1 & F2).
    + intros l' El. assert (Q : l' = l) by congruence. rewrite Q. replace (s + Z.of_nat (n + k)) with (s + Z.of_nat n + Z.of_nat (S k) - 1) by lia. exact H.
    + discriminate.
    + rewrite wheel_teeth_snoc, drun_app, E. cbn [bind drun]. replace (s + Z.of_nat n + Z.of_nat k) with (s + Z.of_nat (n + k)) by lia. rewrite E2. cbn [bind]. rewrite app_nil_r.
      exists d2, (fx ++ fx2). split; [reflexivity|]. split; [replace (Z.of_nat (n + S k)) with (Z.of_nat (n + k) + 1) by lia; exact T2|].
      intros Q. apply in_app_or in Q. destruct Q as [Q|Q]; [auto|]. destruct (Z.le_gt_cases (s + Z.of_nat (n + k)) g) as [L|L]; [rewrite (F1 L) in Q; exact Q|].
      destruct (F2 ltac:(lia)) as (e & -> & _). destruct Q as [Q|[]]. discriminate.
Qed.

(** *** The angle *)
Lemma small_dpt : (IZR (c0 mod P) * dpt <= 360)%R /\ 0 <= c0 mod P <= num - 2.
Proof.
  destruct HW as [V F B N]. specialize (N HM). pose proof (Z.mod_pos_bound c0 P ltac:(lia)). split; [|lia].
  apply Rle_trans with (IZR (num - 2) * dpt)%R; [apply Rmult_le_compat_r; [lra|apply IZR_le; lia]|]. rewrite minus_IZR. lra.
Qed.
Lemma num_small : num < 2 ^ 24.
Proof. destruct HW as [V F B N]. specialize (N HM). apply lt_IZR. change (IZR (2 ^ 24)) with 16777216%R. apply Rmult_lt_reg_r with dpt; [lra|]. lra. Qed.

Lemma cam_angle0_ok : in_cycle cam_angle0 /\ (Rabs (R_ cam_angle0 - dpt * IZR (c0 mod P)) <= / 4096)%R /\ (dyadic dpt -> R_ cam_angle0 = (dpt * IZR (c0 mod P))%R).
Proof.
  pose proof small_dpt as [S1 S2]. pose proof num_small as NS. destruct HW as [V F B N]. specialize (N HM). unfold cam_angle0.
  destruct (f_of_Z_exact (c0 mod P)) as [E1 F1]; [lia|]. assert (K0 : (0 <= IZR (c0 mod P))%R) by (apply IZR_le; lia).
  assert (M0 : (0 <= dpt * IZR (c0 mod P) <= 360)%R) by (split; [apply Rmult_le_pos; lra|lra]).
  destruct (fmul_ok (dc_dpt c) (f_of_Z (c0 mod P)) 9) as [E2 F2]; auto using vf_of_Z; [lia|rewrite E1, Rabs_pos_eq; simpl; lra|]. rewrite E1 in E2.
  set (y := fmul (dc_dpt c) (f_of_Z (c0 mod P))) in *. assert (Vy : vf y) by (unfold y; auto using vf_of_Z with vf).
  assert (Y : (0 <= R_ y <= 360)%R).
  { rewrite E2. split; [rewrite <- rnd_0; apply rnd_le; lra|]. replace 360%R with (rnd 360); [apply rnd_le; lra|]. apply dyadic_rnd; [exists (360 * 8192); rewrite mult_IZR; lra|rewrite Rabs_pos_eq; lra]. }
  change (f_of_Z 0) with f_zero.
  destruct (fadd_ok y f_zero 9) as [E3 F3]; auto with vf; [lia|rewrite R_f_zero, Rplus_0_r, Rabs_pos_eq; simpl; lra|]. rewrite R_f_zero, Rplus_0_r in E3.
  assert (E4 : R_ (fadd y f_zero) = R_ y) by (rewrite E3, E2; apply round_generic; [typeclasses eauto|]; apply generic_format_round; typeclasses eauto).
  split; [|split].
  - split; [auto with vf|]. split; [auto|]. rewrite E4. lra.
  - rewrite E4, E2. pose proof (rnd_err (dpt * IZR (c0 mod P))) as K. rewrite ur_b2 in K. assert (B0 : (b2 (-150) < / 100000000)%R) by (unfold b2; simpl; lra).
    rewrite (Rabs_pos_eq (dpt * _)) in K by lra. unfold ur in K. lra.
  - intros [k Hk]. rewrite E4, E2. apply dyadic_rnd; [|rewrite Rabs_pos_eq; lra]. exists (k * (c0 mod P)). rewrite Hk, mult_IZR. lra.
Qed.

Lemma turn_slot m : slot num m - slot num (turn_start num m) = m mod P.
Proof.
  unfold slot, turn_start. rewrite (Z.mul_comm P (m / P)), Z.div_mul, Z_mod_mult by lia. lia.
Qed.

Lemma cam_angle_ok j : in_cycle (cam_angle j) /\
  exists z, (Rabs (R_ (cam_angle j) - (dpt * IZR (sl (c0 + Z.of_nat j) - sl (turn_start num c0)) - 720 * IZR z)) <= (INR j + 1) / 4096)%R.
Proof.
  induction j as [|j (I & z & H)].
  - cbn [cam_angle]. destruct cam_angle0_ok as (I & H & _). split; auto. exists 0. replace (c0 + Z.of_nat 0) with c0 by lia. rewrite turn_slot. rewrite Rmult_0_r, Rminus_0_r. simpl. lra.
  - cbn [cam_angle]. unfold step_angle. destruct (step_size c HW num3 (c0 + Z.of_nat (S j))) as (V & F & B & E). cbv zeta in *. set (q := fmul _ _) in *. clearbody q.
    split; [apply wrap_in_cycle; auto|]. destruct (wrap_err (cam_angle j) q I V F B) as (y & K). exists (z + y). rewrite S_INR, plus_IZR.
    apply Rabs_le_inv in H. apply Rabs_le_inv in K. apply Rabs_le. rewrite E in K. replace (c0 + Z.of_nat (S j) - 1) with (c0 + Z.of_nat j) in K by lia. rewrite !minus_IZR in *. lra.
Qed.
Lemma cam_angle_exact j : dyadic dpt -> dyadic (R_ (cam_angle j)) /\
  exists z, R_ (cam_angle j) = (dpt * IZR (sl (c0 + Z.of_nat j) - sl (turn_start num c0)) - 720 * IZR z)%R.
Proof.
  intros D. induction j as [|j (I & z & H)].
  - cbn [cam_angle]. destruct cam_angle0_ok as (_ & _ & H). specialize (H D). rewrite H. split.
    + destruct D as [k Hk]. exists (k * (c0 mod P)). rewrite Hk, mult_IZR. lra.
    + exists 0. replace (c0 + Z.of_nat 0) with c0 by lia. rewrite turn_slot. lra.
  - destruct (cam_angle_ok j) as [IC _]. cbn [cam_angle]. unfold step_angle. destruct (step_size c HW num3 (c0 + Z.of_nat (S j))) as (V & F & B & E). cbv zeta in *. set (q := fmul _ _) in *. clearbody q.
    assert (Dq : dyadic (R_ q)). { rewrite E. destruct D as [k ->]. exists (k * (sl (c0 + Z.of_nat (S j)) - sl (c0 + Z.of_nat (S j) - 1))). rewrite mult_IZR. lra. }
    destruct (wrap_exact (cam_angle j) q IC V F B I Dq) as (y & K & Dy). split; auto. exists (z + y). rewrite K, E, H, plus_IZR.
    replace (c0 + Z.of_nat (S j) - 1) with (c0 + Z.of_nat j) by lia. rewrite !minus_IZR. lra.
Qed.
End cam.
