(** The speed test of the even-tooth decoders. *)
Require Import ZArith Reals List Bool Lia Lra.
From Flocq Require Import Core.
From Verif Require Import Res Word F32 F32Flocq TimeProofs TableProofs AngleProofs PulseProofs RelErr Arr Decoder DecoderProofs.
Import ListNotations.
Open Scope Z_scope.
Ltac Zify.zify_post_hook ::= idtac.

(** The float comparison against the tolerance, in terms of exact numbers. *)
Lemma tolerance_test a r m : 0 <= a <= 2 ^ 20 -> 0 <= r <= 2 ^ 20 -> vf m -> fin m -> (0 <= R_ m <= 1)%R ->
  let hi := fadd (f_of_Z r) (fmul (f_of_Z r) m) in let lo := fsub (f_of_Z r) (fmul (f_of_Z r) m) in
  ((IZR a <= IZR r * (1 + R_ m) - 1)%R -> fgt (f_of_Z a) hi = false) /\ ((IZR r * (1 + R_ m) + 1 <= IZR a)%R -> fgt (f_of_Z a) hi = true) /\
  ((IZR r * (1 - R_ m) + 1 <= IZR a)%R -> flt (f_of_Z a) lo = false) /\ ((IZR a <= IZR r * (1 - R_ m) - 1)%R -> flt (f_of_Z a) lo = true).
Proof.
  intros Ha Hr Vm Fm Hm hi lo.
  destruct (f_of_Z_exact a) as [Ea Fa]; [lia|]. destruct (f_of_Z_exact r) as [Er Fr]; [lia|].
  assert (Rr : (0 <= IZR r <= 1048576)%R) by (split; apply IZR_le; lia).
  assert (Pm : (0 <= IZR r * R_ m <= 1048576)%R). { split; [apply Rmult_le_pos; lra|]. apply Rle_trans with (1048576 * 1)%R; [apply Rmult_le_compat; lra|lra]. }
  destruct (fmul_ok (f_of_Z r) m 21) as [E1 F1]; auto with vf; [lia|rewrite Er; simpl; rewrite Rabs_pos_eq; lra|]. rewrite Er in E1.
  assert (B0 : (b2 (-150) < / 100000000)%R) by (unfold b2; simpl; lra).
  pose proof (rnd_err (IZR r * R_ m)) as K1. rewrite ur_b2, (Rabs_pos_eq (IZR r * R_ m)) in K1 by lra. rewrite <- E1 in K1. unfold ur in K1.
  set (q := fmul (f_of_Z r) m) in *. assert (Vq : vf q) by (unfold q; auto with vf). clearbody q.
  assert (K1' : (- / 10 <= R_ q - IZR r * R_ m <= / 10)%R) by (apply Rabs_le_inv; lra).
  destruct (fadd_ok (f_of_Z r) q 22) as [E2 F2]; auto with vf; [lia|rewrite Er; simpl; apply Rabs_le; lra|]. rewrite Er in E2.
  destruct (fsub_ok (f_of_Z r) q 22) as [E3 F3]; auto with vf; [lia|rewrite Er; simpl; apply Rabs_le; lra|]. rewrite Er in E3.
  pose proof (rnd_err (IZR r + R_ q)) as K2. rewrite ur_b2 in K2. rewrite <- E2 in K2. fold hi in E2, F2, K2.
  pose proof (rnd_err (IZR r - R_ q)) as K3. rewrite ur_b2 in K3. rewrite <- E3 in K3. fold lo in E3, F3, K3.
  assert (A2 : (Rabs (IZR r + R_ q) <= 3000000)%R) by (apply Rabs_le; lra). assert (A3 : (Rabs (IZR r - R_ q) <= 3000000)%R) by (apply Rabs_le; lra).
  unfold ur in *. assert (K2' : (- / 2 <= R_ hi - (IZR r + R_ q) <= / 2)%R) by (apply Rabs_le_inv; lra).
  assert (K3' : (- / 2 <= R_ lo - (IZR r - R_ q) <= / 2)%R) by (apply Rabs_le_inv; lra).
  assert (Vh : vf hi) by (unfold hi; auto with vf). assert (Vl : vf lo) by (unfold lo; auto with vf).
  unfold fgt. fold (flt hi (f_of_Z a)). split; [|split; [|split]]; intros H.
  - apply flt_false_iff; auto with vf. rewrite Ea. lra.
  - apply flt_iff; auto with vf. rewrite Ea. lra.
  - apply flt_false_iff; auto with vf. rewrite Ea. lra.
  - apply flt_iff; auto with vf. rewrite Ea. lra.
Qed.

Lemma three_halves : frel 0 (flit 3 2) (3 / 2).
Proof.
  replace (flit 3 2) with (SpecFloat.S754_finite false 12582912 (-23)) by (vm_compute; reflexivity). split; [vm_compute; reflexivity|]. split; [reflexivity|].
  unfold rel, R_. cbn. unfold F2R. simpl. lra.
Qed.

(** A wheel the even decoders can measure: teeth at least 0.001 degree apart, an averaging window of 2 to
    36 teeth spanning at most 2000 degrees, a tolerance between 0 and 1. *)
Record measurable (c : dcfg) : Prop := {
  me_dpt : vf (dc_dpt c) /\ fin (dc_dpt c) /\ (/ 1000 <= R_ (dc_dpt c))%R;
  me_window : 2 <= dc_window c <= 36 /\ (IZR (dc_window c) * R_ (dc_dpt c) <= 2000)%R;
  me_tol : vf (dc_max_change c) /\ fin (dc_max_change c) /\ (0 <= R_ (dc_max_change c) <= 1)%R }.

(** Speed in RPM of [deg] degrees in [t] ticks of 250 ns. *)
Definition true_rpm (deg : R) (t : Z) : R := (60 * 4000000 / IZR t * deg / 360)%R.

(** [r] is the speed [x] rounded down, to within one RPM and 20 half-units in the last place. *)
Definition shows (r : Z) (x : R) : Prop := (x * (1 - 20 / 16777216) - 1 <= IZR r <= x * (1 + 20 / 16777216))%R.

Lemma even_rpm_outcome c d t0 t1 tw : measurable c -> dc_window c <= dd_cur d ->
  get (dd_times d) 0 = Ok t0 -> get (dd_times d) 1 = Ok t1 -> get (dd_times d) (dc_window c) = Ok tw ->
  let diff := w32 (t0 - t1) in let span := w32 (t0 - tw) in 1 <= diff <= 2 ^ 31 -> 1 <= span ->
  let x := true_rpm (R_ (dc_dpt c)) diff in let y := true_rpm (IZR (dc_window c) * R_ (dc_dpt c)) span in (x <= 524288)%R -> (y <= 524288)%R ->
  let m := R_ (dc_max_change c) in
  exists d' k, even_tooth_trigger_update_rpm c d = Ok (d', [SetExpire (w32 (t0 + k))]) /\
  (3 / 2 * IZR diff * (1 - 5 / 16777216) - 1 <= IZR k <= 3 / 2 * IZR diff * (1 + 5 / 16777216))%R /\
  shows (dd_tooth_rpm d') x /\ shows (dd_rpm d') y /\
  (dd_since d <= dc_num c -> (IZR (dc_min_rpm c) + 3 <= x)%R -> (y * (1 - m) + 8 <= x <= y * (1 + m) - 8)%R -> dd_state d' = dd_state d /\ dd_loss d' = dd_loss d) /\
  ((x <= IZR (dc_min_rpm c))%R \/ (y * (1 + m) + 8 <= x)%R \/ (x <= y * (1 - m) - 8)%R -> dd_state d' = NOSYNC /\ (dd_since d <= dc_num c -> dd_loss d' = VARIATION)).
Proof.
  intros [(Vd & Fd & Hd) (Hw & Hu) (Vm & Fm & Hm)] Hc G0 G1 Gw diff span Hdiff Hspan x y Hx Hy m.
  assert (Sb : span < 2 ^ 33). { assert (span < W) by (apply Z.mod_pos_bound; reflexivity). unfold W in *. lia. }
  assert (Dm : (IZR 2 * R_ (dc_dpt c) <= IZR (dc_window c) * R_ (dc_dpt c))%R). { apply Rmult_le_compat_r; [lra|]. apply IZR_le. lia. } change (IZR 2) with 2%R in Dm.
  unfold even_tooth_trigger_update_rpm. rewrite G0, G1. cbn [bind]. fold diff.
  destruct (rpm_accuracy diff (dc_dpt c) (R_ (dc_dpt c)) 0) as (tooth & E1 & B1 & A1); [lia|apply frel_self; auto; lra|lra|lra|]. cbv zeta in A1.
  rewrite E1. cbn [bind]. cbv zeta. dsimp. unfold even_tooth_rpm_window_size. destruct (Z.ltb_spec (dd_cur d) (dc_window c)); [lia|]. destruct (Z.ltb_spec 1 (dc_window c)); [|lia].
  rewrite Gw. cbn [bind]. fold span.
  assert (Wd : frel 3 (fmul (dc_dpt c) (f_of_Z (dc_window c))) (IZR (dc_window c) * R_ (dc_dpt c))).
  { rewrite (Rmult_comm (IZR _)). replace 3%R with (0 + 0 + 3)%R by ring. apply frel_mul; [apply frel_self; auto; lra|apply frel_small_Z; lia|lra| | |].
    - unfold sane_mag. lra.
    - apply sane_Z. lia.
    - unfold sane_mag. rewrite Rmult_comm. lra. }
  destruct (rpm_accuracy span _ _ 3 (conj Hspan Sb) Wd) as (rpm & E2 & B2 & A2); [lra|lra|]. cbv zeta in A2. rewrite E2. cbn [bind].
  assert (P1 : (1 <= IZR diff)%R) by (apply IZR_le; lia). assert (P2 : (1 <= IZR span)%R) by (apply IZR_le; lia).
  replace (2000000 / 3 * R_ (dc_dpt c) / IZR diff)%R with x in A1 by (unfold x, true_rpm; field; lra).
  replace (2000000 / 3 * (IZR (dc_window c) * R_ (dc_dpt c)) / IZR span)%R with y in A2 by (unfold y, true_rpm; field; lra).
  assert (X0 : (0 <= x)%R). { unfold x, true_rpm, Rdiv. apply Rmult_le_pos; [|lra]. apply Rmult_le_pos; [|lra]. apply Rmult_le_pos; [lra|]. apply Rlt_le, Rinv_0_lt_compat. lra. }
  assert (Y0 : (0 <= y)%R). { unfold y, true_rpm, Rdiv. apply Rmult_le_pos; [|lra]. apply Rmult_le_pos; [|lra]. apply Rmult_le_pos; [lra|]. apply Rlt_le, Rinv_0_lt_compat. lra. }
  unfold ur in A1, A2. clearbody x y.
  assert (T1 : tooth <= 2 ^ 20) by (apply le_IZR; change (IZR (2 ^ 20)) with 1048576%R; lra). assert (T2 : rpm <= 2 ^ 20) by (apply le_IZR; change (IZR (2 ^ 20)) with 1048576%R; lra).
  pose proof (tolerance_test tooth rpm (dc_max_change c) ltac:(lia) ltac:(lia) Vm Fm Hm) as TT. cbv zeta in TT. fold m in TT, Hm. clearbody m. destruct TT as (TA & TB & TC & TD).
  set (d1 := if rpm =? 0 then _ else _).
  assert (D1 : dd_rpm d1 = rpm /\ dd_tooth_rpm d1 = tooth /\ dd_since d1 = dd_since d /\ dd_state d1 = dd_state d /\ dd_loss d1 = dd_loss d) by (unfold d1; destruct (rpm =? 0); dsimp; auto 10).
  clearbody d1. destruct D1 as (D1 & D2 & D3 & D4 & D5). rewrite D1.
  set (hi := fadd (f_of_Z rpm) _) in *. set (lo := fsub (f_of_Z rpm) _) in *. clearbody hi lo.
  destruct (frel_u32 (2 + 0 + 3) (fmul (f_of_Z diff) (flit 3 2)) (IZR diff * (3 / 2))) as (k & E3 & B3 & A3).
  { apply frel_mul; [apply frel_of_Z; lia|apply three_halves|lra|apply sane_Z; lia|unfold sane_mag; lra|].
    assert (IZR diff <= IZR (2 ^ 31))%R by (apply IZR_le; lia). change (IZR (2 ^ 31)) with 2147483648%R in *. unfold sane_mag. lra. }
  { assert (IZR diff <= IZR (2 ^ 31))%R by (apply IZR_le; lia). change (IZR (2 ^ 31)) with 2147483648%R in *. lra. }
  set (bad := _ || _ || _). set (d2 := if bad then _ else d1).
  assert (Q2 : dd_rpm d2 = rpm /\ dd_tooth_rpm d2 = tooth /\ dd_since d2 = dd_since d) by (unfold d2; destruct bad; dsimp; auto).
  assert (Q3 : if bad then dd_state d2 = NOSYNC /\ dd_loss d2 = VARIATION else dd_state d2 = dd_state d /\ dd_loss d2 = dd_loss d) by (unfold d2; destruct bad; dsimp; auto).
  clearbody d2. destruct Q2 as (Q4 & Q5 & Q6). rewrite Q6. set (d3 := if dc_num c <? _ then _ else _).
  assert (Q7 : dd_rpm d3 = rpm /\ dd_tooth_rpm d3 = tooth) by (unfold d3; destruct (_ <? _); dsimp; auto).
  assert (Q8 : if dc_num c <? dd_since d then dd_state d3 = NOSYNC else dd_state d3 = dd_state d2 /\ dd_loss d3 = dd_loss d2) by (unfold d3; destruct (_ <? _); dsimp; auto).
  clearbody d3. destruct Q7 as (Q7 & Q7'). rewrite E3. cbn [bind].
  eexists _, k. split; [reflexivity|]. split; [unfold ur in A3; lra|]. dsimp. rewrite Q7, Q7'. split; [unfold shows; lra|]. split; [unfold shows; lra|].
  split.
  - intros Cn Mi In. destruct (Z.ltb_spec (dc_num c) (dd_since d)); [lia|]. destruct Q8 as [-> ->].
    assert (Bad : bad = false).
    { unfold bad. assert (M1 : (tooth <=? dc_min_rpm c) = false). { apply Z.leb_gt. apply lt_IZR. lra. } rewrite M1, TA, TC; [reflexivity| |].
      - assert (IZR rpm * (1 - m) <= y * (1 + 20 / 16777216) * (1 - m))%R by (apply Rmult_le_compat_r; lra).
        assert (y * (1 + 20 / 16777216) * (1 - m) <= y * (1 - m) + 1)%R. { replace (y * (1 + 20 / 16777216) * (1 - m))%R with (y * (1 - m) + y * (1 - m) * (20 / 16777216))%R by ring.
          assert (y * (1 - m) <= 524288 * 1)%R by (apply Rmult_le_compat; lra). lra. } lra.
      - assert ((y * (1 - 20 / 16777216) - 1) * (1 + m) <= IZR rpm * (1 + m))%R by (apply Rmult_le_compat_r; lra).
        assert (y * (1 + m) - 4 <= (y * (1 - 20 / 16777216) - 1) * (1 + m))%R. { replace ((y * (1 - 20 / 16777216) - 1) * (1 + m))%R with (y * (1 + m) - y * (1 + m) * (20 / 16777216) - (1 + m))%R by ring.
          assert (y * (1 + m) <= 524288 * 2)%R by (apply Rmult_le_compat; lra). lra. } lra. }
    rewrite Bad in Q3. exact Q3.
  - intros Out. assert (Bad : bad = true).
    { unfold bad. destruct Out as [O|[O|O]].
      - assert (M1 : (tooth <=? dc_min_rpm c) = true). { apply Z.leb_le. apply Zlt_succ_le. apply lt_IZR. unfold Z.succ. rewrite plus_IZR. lra. } rewrite M1. reflexivity.
      - rewrite TB; [now rewrite orb_true_r|].
        assert (IZR rpm * (1 + m) <= y * (1 + 20 / 16777216) * (1 + m))%R by (apply Rmult_le_compat_r; lra).
        assert (y * (1 + 20 / 16777216) * (1 + m) <= y * (1 + m) + 2)%R. { replace (y * (1 + 20 / 16777216) * (1 + m))%R with (y * (1 + m) + y * (1 + m) * (20 / 16777216))%R by ring.
          assert (y * (1 + m) <= 524288 * 2)%R by (apply Rmult_le_compat; lra). lra. } lra.
      - rewrite TD; [now rewrite orb_true_r|].
        assert ((y * (1 - 20 / 16777216) - 1) * (1 - m) <= IZR rpm * (1 - m))%R by (apply Rmult_le_compat_r; lra).
        assert (y * (1 - m) - 4 <= (y * (1 - 20 / 16777216) - 1) * (1 - m))%R. { replace ((y * (1 - 20 / 16777216) - 1) * (1 - m))%R with (y * (1 - m) - y * (1 - m) * (20 / 16777216) - (1 - m))%R by ring.
          assert (y * (1 - m) <= 524288 * 1)%R by (apply Rmult_le_compat; lra). lra. } lra. }
    rewrite Bad in Q3. destruct Q3 as [Q3 Q3']. destruct (Z.ltb_spec (dc_num c) (dd_since d)); [split; [auto|lia]|]. destruct Q8 as [-> ->]. auto.
Qed.
