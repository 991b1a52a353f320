(** The even-tooth decoder with cam sync on a steadily turning wheel, tooth by tooth. *)
Require Import ZArith Reals List Bool Lia Lra.
From Flocq Require Import Core.
From Verif Require Import Res Word F32 F32Flocq TimeProofs TableProofs AngleProofs PulseProofs RelErr Arr Decoder DecoderProofs DecoderSafe DecoderRun DecoderMissing DecoderAngle DecoderLoss
  DecoderEven EvenProofs EvenSpec Wheel WheelProofs WheelAngle.
Import ListNotations.
Open Scope Z_scope.
Ltac Zify.zify_post_hook ::= idtac.

Lemma true_rpm_anti deg t u : (0 <= deg)%R -> 1 <= t <= u -> (true_rpm deg u <= true_rpm deg t)%R.
Proof.
  intros D H. assert (T : (1 <= IZR t <= IZR u)%R) by (split; apply IZR_le; lia). unfold true_rpm, Rdiv. apply Rmult_le_compat_r; [lra|]. apply Rmult_le_compat_r; [lra|].
  apply Rmult_le_compat_l; [lra|]. apply Rinv_le; lra.
Qed.
Lemma true_rpm_scale k deg t : 1 <= k -> 1 <= t -> true_rpm (IZR k * deg) (k * t) = true_rpm deg t.
Proof.
  intros K T. assert (1 <= IZR k)%R by (apply IZR_le; lia). assert (1 <= IZR t)%R by (apply IZR_le; lia). unfold true_rpm. rewrite mult_IZR. field. lra.
Qed.

Section run.
Variable c : dcfg.
Variables f cam : Z -> Z.
Variable s : Z.
Notation num := (dc_num c).
Notation req := (dc_required c).
Notation win := (dc_window c).
Hypothesis HT : even_turning c f s.
Hypothesis Ty : dc_type c = EVEN_CAMSYNC.
Variable g : Z.
Hypothesis HG : is_first_cam num req s g.

Definition since_cam (m : Z) (done : bool) : Z := if done || negb (m mod num =? 0) then m mod num else num.
Definition synced (m : Z) (done : bool) : bool := (g <? m) || ((g =? m) && done).
Fixpoint eangle (j : nat) : f32 := match j with O => f_zero | S j => wrap720 (fadd (eangle j) (dc_dpt c)) end.

Record etrack (n : Z) (done : bool) (d : dec) : Prop := {
  e_len : length (dd_times d) = 37%nat;
  e_times : forall k, 0 <= k < n -> k <= 36 -> get (dd_times d) k = Ok (w32 (f (s + n - 1 - k)));
  e_cur : dd_cur d = Z.min n 37;
  e_since : dd_since d = Z.min n (since_cam (s + n - 1) done);
  e_state : dd_state d = if n <? req then NOSYNC else if synced (s + n - 1) done then SYNC else RPM;
  e_valid : dd_valid d = if synced (s + n - 1) done then 1 else 0;
  e_loss : dd_loss d = NO_LOSS;
  e_angle : synced (s + n - 1) done = true -> dd_last_angle d = eangle (Z.to_nat (since_cam (s + n - 1) done));
  e_time : g < s + n - 1 -> dd_last_time d = w32 (f (s + n - 1));
  e_rpm : req <= n -> shows (dd_rpm d) (true_rpm (IZR win * R_ (dc_dpt c)) (f (s + n - 1) - f (s + n - 1 - win))) }.

Lemma num_pos : 2 <= num. Proof. destruct HT. lia. Qed.
Lemma since_range m done : 0 <= since_cam m done <= num.
Proof. pose proof num_pos. unfold since_cam. pose proof (Z.mod_pos_bound m num ltac:(lia)). destruct (_ || _); lia. Qed.
Lemma since_next m : since_cam (m + 1) false = since_cam m true + 1.
Proof.
  pose proof num_pos. unfold since_cam. cbn [orb]. pose proof (Z.mod_pos_bound m num ltac:(lia)) as B. pose proof (Z.div_mod m num ltac:(lia)) as D.
  destruct (Z.eq_dec (m mod num + 1) num) as [E|E].
  - assert (Q : (m + 1) mod num = 0) by (symmetry; apply (Z.mod_unique _ _ (m / num + 1)); lia). rewrite Q. cbn. lia.
  - assert (Q : (m + 1) mod num = m mod num + 1) by (symmetry; apply (Z.mod_unique _ _ (m / num)); lia). rewrite Q. destruct (Z.eqb_spec (m mod num + 1) 0); cbn [negb]; lia.
Qed.
Lemma synced_req n done : synced (s + n - 1) done = true -> req <= n.
Proof.
  destruct HG as (_ & G & _). unfold synced. intros H. apply orb_prop in H. destruct H as [H|H]; [apply Z.ltb_lt in H; lia|]. apply andb_prop in H. destruct H as [H _]. apply Z.eqb_eq in H. lia.
Qed.
(* at a tooth that is not the first cam tooth being processed, sync does not change *)
Lemma synced_tooth m : synced (m + 1) false = synced m true.
Proof. unfold synced. rewrite andb_false_r, andb_true_r, orb_false_r. destruct (Z.ltb_spec g (m + 1)), (Z.ltb_spec g m), (Z.eqb_spec g m); cbn; auto; lia. Qed.
Lemma synced_since n done : synced (s + n - 1) done = true -> since_cam (s + n - 1) done <= n.
Proof.
  intros H. pose proof num_pos. destruct HG as (G1 & G2 & _). assert (R : 2 <= req) by (destruct HT as [? _ [_ [? _] _] _ _]; lia).
  apply Z.mod_divide in G1; [|lia]. destruct G1 as [q Q]. unfold synced in H. set (m := s + n - 1) in *.
  pose proof (Z.div_mod m num ltac:(lia)) as D. pose proof (Z.mod_pos_bound m num ltac:(lia)) as B. unfold since_cam.
  destruct (Z.ltb_spec g m) as [L|L].
  - destruct (done || negb (m mod num =? 0)) eqn:E; [assert (q <= m / num) by (apply Z.div_le_lower_bound; lia); nia|].
    apply orb_false_iff in E. destruct E as [_ E]. apply negb_false_iff, Z.eqb_eq in E. assert (q < m / num) by nia. nia.
  - cbn [orb] in H. apply andb_prop in H. destruct H as [H ->]. apply Z.eqb_eq in H. cbn [orb]. rewrite <- H, Q, Z.mod_mul by lia. unfold m in *. lia.
Qed.

Lemma steady_here n : req <= n -> let m := s + n - 1 in let x := true_rpm (R_ (dc_dpt c)) (f m - f (m - 1)) in
  let y := true_rpm (IZR win * R_ (dc_dpt c)) (f m - f (m - win)) in let t := R_ (dc_max_change c) in
  1 <= f m - f (m - 1) <= 2 ^ 26 /\ 1 <= f m - f (m - win) < W /\ (x <= 524288 /\ y <= 524288 /\ IZR (dc_min_rpm c) + 3 <= x /\ y * (1 - t) + 8 <= x <= y * (1 + t) - 8)%R /\
  f (m + 1) < f m + 2 ^ 27 /\ (IZR (f (m + 1) - f m) + 2 <= 149 / 100 * IZR (f m - f (m - 1)))%R.
Proof.
  intros H m. destruct HT as [Hw Hn [(Vd & Fd & Hd) (Hw2 & Hu) (Vm & Fm & Hm)] Hdp Hs]. destruct (Hs m) as (a & b & [B1 B2 B3 B4 B5] & Sp). cbv zeta.
  set (x := true_rpm (R_ (dc_dpt c)) (f m - f (m - 1))). set (y := true_rpm (IZR win * R_ (dc_dpt c)) (f m - f (m - win))). set (t := R_ (dc_max_change c)) in *.
  assert (D1 : a <= f m - f (m - 1) <= b). { pose proof (Sp (m - 1)) as K. replace (m - 1 + 1) with m in K by ring. apply K; lia. }
  assert (D2 : win * a <= f m - f (m - win) <= win * b). { pose proof (span_between f a b (m - win) m ltac:(lia)) as K. replace (m - (m - win)) with win in K by ring. apply K. intros i Hi. apply Sp; lia. }
  assert (D3 : a <= f (m + 1) - f m <= b) by (apply Sp; lia).
  assert (X : (true_rpm (R_ (dc_dpt c)) b <= x <= true_rpm (R_ (dc_dpt c)) a)%R) by (split; apply true_rpm_anti; try lra; lia).
  assert (Y : (true_rpm (R_ (dc_dpt c)) b <= y <= true_rpm (R_ (dc_dpt c)) a)%R).
  { rewrite <- (true_rpm_scale win (R_ (dc_dpt c)) b), <- (true_rpm_scale win (R_ (dc_dpt c)) a) by lia.
    assert (0 <= IZR win * R_ (dc_dpt c))%R by (apply Rmult_le_pos; [apply IZR_le; lia|lra]). split; apply true_rpm_anti; auto; nia. }
  set (xa := true_rpm (R_ (dc_dpt c)) a) in *. set (xb := true_rpm (R_ (dc_dpt c)) b) in *. clearbody x y xa xb.
  assert (P : (IZR (f (m + 1) - f m) <= IZR b /\ IZR a <= IZR (f m - f (m - 1)))%R) by (split; apply IZR_le; lia).
  assert (Xb : (8 <= xb * t)%R) by (pose proof (Rle_trans _ _ _ (proj1 X) (proj2 X)); lra).
  split; [lia|]. split; [unfold W; nia|]. split; [|split; [lia|lra]]. split; [lra|]. split; [lra|]. split; [lra|]. split.
  - assert (S1 : (y * (1 - t) <= (xb * (1 + t) - 8) * (1 - t))%R) by (apply Rmult_le_compat_r; lra).
    assert (S2 : (8 * t <= xb * t * t)%R) by (apply Rmult_le_compat_r; lra). lra.
  - assert (xb * (1 + t) <= y * (1 + t))%R by (apply Rmult_le_compat_r; lra). lra.
Qed.

(** A tooth. *)
Lemma tooth_step n d : 0 <= n -> etrack n true d -> exists d' fx, dstep c d (Trigger 0 (w32 (f (s + n)))) = Ok (d', fx) /\ etrack (n + 1) false d' /\
  if n + 1 <? req then fx = [] else exists e, fx = [SetExpire (w32 e)] /\ f (s + n + 1) < e < f (s + n) + 2 ^ 32.
Proof.
  intros Hn [L Tm Cu Si St Va Lo An Ti Rp]. pose proof num_pos as N2. pose proof HT as [Hw Hnm Me Hdp _]. set (t := w32 (f (s + n))).
  rewrite trigger_decode. destruct (counted_same d 0) as (K1 & K2 & K3 & K4 & K5 & K6 & K7 & K8 & K9 & _ & _ & K10 & _).
  set (dc := counted d 0) in *. clearbody dc. rewrite <- K1 in Va. rewrite <- K2 in St. rewrite <- K3 in Cu. rewrite <- K4 in Si. rewrite <- K5 in L, Tm. rewrite <- K6 in Ti. rewrite <- K7 in An. rewrite <- K8 in Rp. rewrite <- K10 in Lo. clear K1 K2 K3 K4 K5 K6 K7 K8 K9 K10.
  unfold decode. rewrite Ty. unfold decode_even_with_camsync. cbv zeta. change (0 =? 0) with true. cbv iota.
  destruct (even_update_shape c dc t) as (d3 & (S1 & S2 & S3 & S4 & S5 & S6 & S7 & S8) & ->).
  pose proof (since_range (s + n - 1) true) as SR. pose proof (since_next (s + n - 1)) as SN. pose proof (synced_tooth (s + n - 1)) as SY. replace (s + n - 1 + 1) with (s + n) in SN, SY by ring.
  assert (C3 : dd_cur d3 = Z.min (n + 1) 37) by (rewrite S2, Cu; unfold count_up; destruct (Z.ltb_spec (Z.min n 37) 37); lia).
  assert (I3 : dd_since d3 = Z.min (n + 1) (since_cam (s + n) false)). { rewrite S3, Si, SN. unfold w32, W. rewrite Z.mod_small by lia. lia. }
  assert (N3 : dd_since d3 <= num). { rewrite I3. pose proof (since_range (s + n) false). lia. }
  assert (L3 : length (dd_times d3) = 37%nat). { rewrite S1. destruct (dd_times dc) eqn:Ed; [discriminate|]. rewrite <- Ed in *. cbn [length]. rewrite removelast_firstn_len, firstn_length, L. reflexivity. }
  assert (T3 : forall k, 0 <= k < n + 1 -> k <= 36 -> get (dd_times d3) k = Ok (w32 (f (s + n - k)))).
  { intros k Hk Hk2. rewrite S1. destruct (Z.eq_dec k 0) as [->|Nz]; [unfold get, t; cbn; now rewrite Z.sub_0_r|]. rewrite get_push by (auto; lia). rewrite Tm by lia. do 2 f_equal. f_equal. lia. }
  assert (Req : 2 <= req) by (destruct Me as [_ [? _] _]; lia).
  assert (Cq : (req <=? count_up 37 (dd_cur dc)) = (req <=? n + 1)). { rewrite <- S2, C3. destruct (Z.leb_spec req (n + 1)), (Z.leb_spec req (Z.min (n + 1) 37)); auto; lia. }
  assert (St3 : dd_state d3 = if n + 1 <? req then NOSYNC else if synced (s + n) false then SYNC else RPM).
  { rewrite S6, St, Cq, SY. pose proof (synced_req n true) as SQ. destruct (Z.ltb_spec n req).
    - destruct (Z.leb_spec req (n + 1)), (Z.ltb_spec (n + 1) req); try lia; auto. destruct (synced (s + n - 1) true); auto. specialize (SQ eq_refl). lia.
    - destruct (Z.ltb_spec (n + 1) req); [lia|]. destruct (synced (s + n - 1) true); auto. }
  assert (A3 : synced (s + n) false = true -> dd_last_angle d3 = eangle (Z.to_nat (since_cam (s + n) false))).
  { rewrite SY, SN. intros Q. specialize (An Q). rewrite S7, St. pose proof (synced_req n true Q). destruct (Z.ltb_spec n req); [lia|]. rewrite Q, An.
    replace (Z.to_nat (since_cam (s + n - 1) true + 1)) with (S (Z.to_nat (since_cam (s + n - 1) true))) by lia. reflexivity. }
  assert (Ti3 : g < s + n -> dd_last_time d3 = w32 (f (s + n))).
  { intros Q. rewrite S8, St. assert (Q2 : synced (s + n - 1) true = true) by (unfold synced; destruct (Z.ltb_spec g (s + n - 1)), (Z.eqb_spec g (s + n - 1)); auto; lia).
    pose proof (synced_req n true Q2). destruct (Z.ltb_spec n req); [lia|]. rewrite Q2. reflexivity. }
  assert (V3 : dd_valid d3 = if synced (s + n) false then 1 else 0) by (rewrite S4, Va, SY; reflexivity).
  assert (Mk : forall d', dd_times d' = dd_times d3 -> dd_cur d' = dd_cur d3 -> dd_since d' = dd_since d3 -> dd_state d' = dd_state d3 -> dd_valid d' = dd_valid d3 ->
    dd_loss d' = NO_LOSS -> dd_last_angle d' = dd_last_angle d3 -> dd_last_time d' = dd_last_time d3 ->
    (req <= n + 1 -> shows (dd_rpm d') (true_rpm (IZR win * R_ (dc_dpt c)) (f (s + n) - f (s + n - win)))) -> etrack (n + 1) false d').
  { intros d' M1 M2 M3 M4 M5 M6 M7 M8 M9. replace (s + n) with (s + (n + 1) - 1) in * by ring.
    constructor; rewrite ?M1, ?M2, ?M3, ?M4, ?M5, ?M7, ?M8; auto. }
  rewrite St3. destruct (Z.ltb_spec (n + 1) req) as [Q|Q].
  - cbn [is_nosync bind]. rewrite St3. cbn [is_sync]. assert (Old : is_sync (dd_state dc) = false). { rewrite St. destruct (Z.ltb_spec n req); [reflexivity|lia]. } rewrite Old.
    exists d3, []. split; [reflexivity|]. split; auto. apply Mk; auto; [congruence|lia].
  - pose proof (steady_here (n + 1) Q) as SH. cbv zeta in SH. replace (s + (n + 1) - 1) with (s + n) in SH by ring. destruct SH as (H1 & H2 & (H3 & H4 & H5 & H6) & H7 & H8).
    assert (Win : 2 <= win <= 36) by (destruct Me as [_ [? _] _]; lia).
    pose proof (T3 0 ltac:(lia) ltac:(lia)) as G0. pose proof (T3 1 ltac:(lia) ltac:(lia)) as G1. pose proof (T3 win ltac:(lia) ltac:(lia)) as Gw. rewrite Z.sub_0_r in G0.
    pose proof (even_rpm_outcome c d3 _ _ _ Me ltac:(rewrite C3; lia) G0 G1 Gw) as EO. cbv zeta in EO. rewrite !w32_diff in EO by (unfold W in *; lia).
    destruct (EO ltac:(lia) ltac:(lia) H3 H4) as (d4 & k & E & Hk & _ & R4 & Acc & _). destruct (Acc N3 H5 H6) as [Sd Ld]. clear EO Acc.
    assert (Ns : is_nosync (if synced (s + n) false then SYNC else RPM) = false) by (destruct (synced (s + n) false); reflexivity). rewrite Ns, E. cbn [bind].
    destruct (even_rpm_keeps _ _ _ _ E) as (Q1 & Q2 & Q3 & Q4 & Q5 & Q6 & _).
    assert (Kb : 0 <= k < 2 ^ 28 /\ f (s + n + 1) - f (s + n) < k).
    { assert (I1 : (1 <= IZR (f (s + n) - f (s + n - 1)) <= 67108864)%R) by (split; apply IZR_le; lia).
      assert (2 <= IZR (f (s + n + 1) - f (s + n)) + 2)%R. { assert (0 <= f (s + n + 1) - f (s + n)); [|assert (0 <= IZR (f (s + n + 1) - f (s + n)))%R by (apply IZR_le; lia); lra].
        destruct HT as [_ _ _ _ Hst]. destruct (Hst (s + n)) as (a & b & [B1 _ _ _ _] & Sp). specialize (Sp (s + n) ltac:(lia) ltac:(lia)). lia. }
      split; [split; [apply le_IZR; lra|apply lt_IZR; change (IZR (2 ^ 28)) with 268435456%R; lra]|]. apply lt_IZR. lra. }
    assert (Fx : exists e, [SetExpire (w32 (w32 (f (s + n)) + k))] = [SetExpire (w32 e)] /\ f (s + n + 1) < e < f (s + n) + 2 ^ 32).
    { exists (f (s + n) + k). split; [|lia]. do 2 f_equal. unfold w32. rewrite Z.add_mod_idemp_l; [reflexivity|discriminate]. }
    rewrite Sd, St3. destruct (Z.ltb_spec (n + 1) req); [lia|]. destruct (synced (s + n) false) eqn:Y; cbn [is_sync].
    + eexists _, _. split; [reflexivity|]. split; [|exact Fx]. apply Mk; dsimp; auto; rewrite ?Sd; auto.
    + assert (Old : is_sync (dd_state dc) = false). { rewrite St. destruct (Z.ltb_spec n req); [reflexivity|]. rewrite <- SY. reflexivity. } rewrite Old.
      eexists _, _. split; [reflexivity|]. split; [|exact Fx]. apply Mk; auto. rewrite Ld, S5. exact Lo.
Qed.

(** A cam pulse. *)
Lemma cam_step n t d : 0 < n -> (s + n - 1) mod num = 0 -> etrack n false d -> exists d', dstep c d (Trigger 1 t) = Ok (d', []) /\ etrack n true d'.
Proof.
  intros Hn Hm [L Tm Cu Si St Va Lo An Ti Rp]. pose proof num_pos as N2. pose proof HT as [Hw Hnm Me Hdp _].
  rewrite trigger_decode. destruct (counted_same d 1) as (K1 & K2 & K3 & K4 & K5 & K6 & K7 & K8 & K9 & _ & _ & K10 & _).
  set (dc := counted d 1) in *. clearbody dc. rewrite <- K1 in Va. rewrite <- K2 in St. rewrite <- K3 in Cu. rewrite <- K4 in Si. rewrite <- K5 in L, Tm. rewrite <- K6 in Ti. rewrite <- K7 in An. rewrite <- K8 in Rp. rewrite <- K10 in Lo. clear K1 K2 K3 K4 K5 K6 K7 K8 K9 K10.
  unfold decode. rewrite Ty. unfold decode_even_with_camsync. cbv zeta. change (1 =? 0) with false. change (1 =? 1) with true. cbv iota. cbn [bind].
  set (m := s + n - 1) in *. assert (S0 : since_cam m true = 0) by (unfold since_cam; cbn [orb]; exact Hm). assert (S1 : since_cam m false = num) by (unfold since_cam; rewrite Hm; reflexivity).
  destruct HG as (G1 & G2 & G3). assert (Y : synced m true = (req <=? n)).
  { unfold synced. destruct (Z.leb_spec req n) as [Q|Q].
    - assert (g <= m) by (apply G3; auto; unfold m; lia). destruct (Z.ltb_spec g m), (Z.eqb_spec g m); auto; lia.
    - unfold m. destruct (Z.ltb_spec g (s + n - 1)), (Z.eqb_spec g (s + n - 1)); auto; lia. }
  assert (Mk : forall d', dd_times d' = dd_times dc -> dd_cur d' = dd_cur dc -> dd_since d' = 0 -> dd_rpm d' = dd_rpm dc -> dd_last_time d' = dd_last_time dc -> dd_loss d' = NO_LOSS ->
    dd_state d' = (if n <? req then NOSYNC else SYNC) -> dd_valid d' = (if req <=? n then 1 else 0) -> (req <= n -> dd_last_angle d' = f_zero) -> etrack n true d').
  { intros d' M1 M2 M3 M4 M5 M6 M7 M8 M9. constructor; fold m; rewrite ?M1, ?M2, ?M3, ?M4, ?M5, ?M7, ?M8, ?S0, ?Y; auto; try lia.
    - destruct (Z.ltb_spec n req), (Z.leb_spec req n); auto; lia.
    - intros Q. apply Z.leb_le in Q. auto. }
  unfold even_tooth_sync_update. rewrite St. destruct (Z.ltb_spec n req) as [Q|Q].
  - cbv zeta. dsimp. rewrite St. assert (Qb : (n <? req) = true) by (apply Z.ltb_lt; lia). rewrite ?Qb. cbn [is_sync]. eexists. split; [reflexivity|]. destruct (Z.leb_spec req n) as [Q2|Q2]; [lia|].
    apply Mk; dsimp; auto; try lia.
    rewrite Va. destruct (synced m false) eqn:Z; auto. pose proof (synced_req n false Z). lia.
  - destruct (synced m false) eqn:Z.
    + assert (Sn : dd_since dc =? num = true). { apply Z.eqb_eq. rewrite Si, S1. pose proof (synced_since n false Z) as K. fold m in K. rewrite S1 in K. lia. }
      rewrite Sn. cbv zeta. dsimp. rewrite St. cbn [is_sync]. eexists. split; [reflexivity|]. destruct (Z.leb_spec req n); [|lia]. apply Mk; dsimp; auto.
    + cbv zeta. dsimp. cbn [is_sync]. eexists. split; [reflexivity|]. destruct (Z.leb_spec req n); [|lia]. apply Mk; dsimp; auto.
Qed.

Lemma no_cam_step n d : (s + n - 1) mod num <> 0 -> etrack n false d -> etrack n true d.
Proof.
  intros Hm [L Tm Cu Si St Va Lo An Ti Rp].
  assert (E1 : since_cam (s + n - 1) true = since_cam (s + n - 1) false). { unfold since_cam. destruct (Z.eqb_spec ((s + n - 1) mod num) 0); [contradiction|reflexivity]. }
  assert (E2 : synced (s + n - 1) true = synced (s + n - 1) false). { unfold synced. destruct HG as (G1 & _). destruct (Z.eqb_spec g (s + n - 1)) as [E|E]; [congruence|reflexivity]. }
  constructor; rewrite ?E1, ?E2; auto.
Qed.

(** The expiries armed from tooth [m] on. *)
Fixpoint even_expiries (m : Z) (es : list Z) : Prop :=
  match es with [] => True | e :: es => f (m + 1) < e < f m + 2 ^ 32 /\ even_expiries (m + 1) es end.
Lemma even_expiries_app m es e : even_expiries m es -> f (m + Z.of_nat (length es) + 1) < e < f (m + Z.of_nat (length es)) + 2 ^ 32 -> even_expiries m (es ++ [e]).
Proof.
  revert m. induction es as [|x es IH]; intros m H K; cbn [app even_expiries] in *.
  - cbn [length] in K. replace (m + Z.of_nat 0) with m in K by lia. auto.
  - destruct H as [H1 H2]. split; auto. apply IH; auto. cbn [length] in K. replace (m + 1 + Z.of_nat (length es)) with (m + Z.of_nat (S (length es))) by lia. exact K.
Qed.

Lemma init_track : etrack 0 true dec_init.
Proof.
  pose proof num_pos. destruct HT as [Hw Hn [_ [Hw2 _] _] _ _]. pose proof (since_range (s + 0 - 1) true).
  assert (Y : synced (s + 0 - 1) true = false). { destruct (synced (s + 0 - 1) true) eqn:Y; auto. pose proof (synced_req 0 true Y). lia. }
  constructor; rewrite ?Y; auto; try (intros; lia); try discriminate.
  - change (dd_since dec_init) with 0. lia.
  - change (dd_state dec_init) with NOSYNC. destruct (Z.ltb_spec 0 req); [reflexivity|lia].
  - destruct HG as (_ & G & _). intros. lia.
Qed.

Lemma even_run n : exists d es, drun c dec_init (even_events num f cam s n) = Ok (d, map (fun e => SetExpire (w32 e)) es) /\ etrack (Z.of_nat n) true d /\
  Z.of_nat (length es) = Z.max 0 (Z.of_nat n - req + 1) /\ even_expiries (s + req - 1) es.
Proof.
  assert (Rq : 2 <= req) by (destruct HT as [Hw Hn [_ [Hw2 _] _] _ _]; lia).
  induction n as [|n (d & es & E & T & Le & Ex)].
  - exists dec_init, []. split; [reflexivity|]. split; [apply init_track|]. cbn [length even_expiries]. split; auto. lia.
  - unfold even_events. rewrite seq_S, flat_map_app. fold (even_events num f cam s n). cbn [flat_map]. rewrite app_nil_r, drun_app, E. cbn [bind]. change (0 + n)%nat with n.
    destruct (tooth_step (Z.of_nat n) d ltac:(lia) T) as (d1 & fx & E1 & T1 & F1).
    assert (Fx : exists es1, fx = map (fun e => SetExpire (w32 e)) es1 /\ Z.of_nat (length (es ++ es1)) = Z.max 0 (Z.of_nat (S n) - req + 1) /\ even_expiries (s + req - 1) (es ++ es1)).
    { destruct (Z.ltb_spec (Z.of_nat n + 1) req) as [Q|Q].
      - exists []. rewrite app_nil_r. split; auto. split; auto. lia.
      - destruct F1 as (e & -> & F1). exists [e]. split; [reflexivity|]. split; [rewrite app_length; cbn [length]; lia|]. apply even_expiries_app; auto.
        replace (s + req - 1 + Z.of_nat (length es)) with (s + Z.of_nat n) by lia. exact F1. }
    destruct Fx as (es1 & -> & Le1 & Ex1). unfold tooth_events. set (m := s + Z.of_nat n). cbn [drun]. fold m in E1. rewrite E1. cbn [bind].
    replace (Z.of_nat n + 1) with (Z.of_nat (S n)) in T1 by lia. assert (Em : s + Z.of_nat (S n) - 1 = m) by (unfold m; lia).
    destruct (Z.eqb_spec (m mod num) 0) as [Q|Q].
    + destruct (cam_step (Z.of_nat (S n)) (w32 (cam m)) d1 ltac:(lia) ltac:(rewrite Em; exact Q) T1) as (d2 & E2 & T2). cbn [drun]. rewrite E2. cbn [bind].
      exists d2, (es ++ es1). rewrite map_app, ?app_nil_r. split; [reflexivity|]. auto.
    + cbn [drun bind]. exists d1, (es ++ es1). rewrite map_app, ?app_nil_r. split; [reflexivity|]. split; [apply no_cam_step; [rewrite Em; exact Q|exact T1]|]. auto.
Qed.

(** The angle within one cycle. *)
Lemma eangle_ok j : in_cycle (eangle j) /\ exists z, (Rabs (R_ (eangle j) - (R_ (dc_dpt c) * INR j - 720 * IZR z)) <= INR j / 4096)%R.
Proof.
  destruct HT as [_ _ [(Vd & Fd & Hd) _ _] Hdp _]. induction j as [|j (I & z & H)].
  - cbn [eangle]. split; [apply in_cycle_zero|]. exists 0. rewrite R_f_zero. simpl INR. replace (0 - (R_ (dc_dpt c) * 0 - 720 * 0))%R with 0%R by ring. rewrite Rabs_R0. lra.
  - cbn [eangle]. split; [apply wrap_in_cycle; auto; lra|]. destruct (wrap_err (eangle j) (dc_dpt c) I Vd Fd ltac:(lra)) as (y & K). exists (z + y). rewrite S_INR, plus_IZR.
    apply Rabs_le_inv in H. apply Rabs_le_inv in K. apply Rabs_le. lra.
Qed.
Lemma eangle_exact j : dyadic (R_ (dc_dpt c)) -> dyadic (R_ (eangle j)) /\ exists z, R_ (eangle j) = (R_ (dc_dpt c) * INR j - 720 * IZR z)%R.
Proof.
  intros D. pose proof HT as [_ _ [(Vd & Fd & Hd) _ _] Hdp _]. induction j as [|j (I & z & H)].
  - cbn [eangle]. rewrite R_f_zero. split; [exists 0; lra|]. exists 0. simpl. lra.
  - destruct (eangle_ok j) as [IC _]. cbn [eangle]. destruct (wrap_exact (eangle j) (dc_dpt c) IC Vd Fd ltac:(lra) I D) as (y & K & Dy). split; auto. exists (z + y). rewrite K, H, S_INR, plus_IZR. lra.
Qed.
End run.
