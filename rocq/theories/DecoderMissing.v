(** The missing-tooth decoder: one tooth in the synchronised state. *)
Require Import ZArith Reals List Bool Lia Lra.
From Flocq Require Import Core.
From Verif Require Import Res Word F32 F32Flocq TimeProofs TableProofs AngleProofs RelErr Arr Decoder DecoderProofs DecoderSafe DecoderRun.
Import ListNotations.
Open Scope Z_scope.

Definition wrap720 (a : f32) : f32 := if fge a (f_of_Z 720) then fsub a (f_of_Z 720) else a.

Definition window_count (c : dcfg) (d : dec) : Z := if dd_since d <? dc_required c - 1 then dc_required c else dc_required c - 1.

Lemma missing_sync_step c d t d' fx : supported c -> missing c = true -> dinv c d -> dd_state d = SYNC -> missing_tooth_trigger_update c d t = Ok (d', fx) ->
  exists p q et x, get (dd_times d) 0 = Ok p /\ get (dd_times d) (dc_required c - 1) = Ok q /\
  let ratio := fdiv (f_of_Z (w32 (t - p))) (f_of_Z (w32 (p - q) / window_count c d)) in
  let gap := near 2 ratio (dc_max_change c) in
  let normal := near 1 ratio (dc_max_change c) in
  (if dd_since d + 1 =? dc_num c - 1
   then if gap then dd_state d' = SYNC /\ dd_since d' = 0 else dd_state d' = NOSYNC /\ dd_loss d' = COUNT_HIGH
   else if normal then dd_state d' = SYNC /\ dd_since d' = dd_since d + 1 else dd_state d' = NOSYNC /\ dd_loss d' = COUNT_LOW) /\
  dd_last_angle d' = wrap720 (fadd (dd_last_angle d) (fmul (dc_dpt c) (f_of_Z (if gap then 2 else 1)))) /\
  time_from_rpm_diff (dd_rpm d) (fmul (dc_dpt c) (f_of_Z (if dd_since d' =? dc_num c - 2 then 2 else 1))) = Ok et /\
  f_to_u32 (fmul (f_of_Z et) (fadd (f_of_Z 1) (dc_max_change c))) = Ok x /\
  fx = [SetExpire (w32 (t + x))] /\ dd_expiration d' = w32 (t + x) /\ dd_last_time d' = t.
Proof.
  intros S M I St H. pose proof I as [L C N V Sy Ev Rp]. specialize (Sy St). rewrite M in *. destruct S as [Sr Sw Sn].
  unfold missing_tooth_trigger_update in H. cbv zeta in H.
  set (d1 := if dd_cur (push_time d t) <? MAX_TRIGGERS then _ else _) in H.
  assert (D : dd_cur d1 = count_up 36 (dd_cur d) /\ dd_state d1 = SYNC /\ dd_since d1 = dd_since d /\ dd_times d1 = t :: removelast (dd_times d) /\ dd_last_angle d1 = dd_last_angle d /\ dd_rpm d1 = dd_rpm d).
  { unfold d1, count_up, MAX_TRIGGERS. dsimp. destruct (dd_cur d <? 36); dsimp; auto 10. }
  clearbody d1. destruct D as (D1 & D2 & D3 & D4 & D5 & D6).
  destruct (Z.ltb_spec (dd_cur d1) (dc_required c)) as [Q|Q]; [rewrite D1 in Q; unfold count_up in Q; destruct (Z.ltb_spec (dd_cur d) 36); lia|].
  rewrite D2 in H. cbn [is_nosync] in H. apply bind_ok in H. destruct H as ((last & avg) & E & H).
  unfold missing_intervals in E. rewrite D4, D2, D3 in E. change (get (t :: removelast (dd_times d)) 0) with (Ok t) in E. cbn [bind is_sync andb] in E.
  rewrite (get_push _ _ 1), (get_push _ _ (dc_required c)) in E by (auto; lia). change (1 - 1) with 0 in E.
  apply bind_ok in E. destruct E as (p & Ep & E). apply bind_ok in E. destruct E as (q & Eq & E).
  assert (X1 : w32 (dc_required c - 1) = dc_required c - 1) by (unfold w32, W; apply Z.mod_small; lia). rewrite X1 in E.
  assert (X2 : w32 (dc_required c - 1 + 1) = dc_required c) by (unfold w32, W; rewrite Z.mod_small; lia). rewrite X2 in E.
  assert (X3 : w32 (dc_num c - 1) = dc_num c - 1) by (unfold w32, W; apply Z.mod_small; lia).
  assert (X5 : w32 (dc_num c - 2) = dc_num c - 2) by (unfold w32, W; apply Z.mod_small; lia).
  assert (X4 : w32 (dd_since d + 1) = dd_since d + 1) by (unfold w32, W; apply Z.mod_small; lia).
  assert (Ea : (last, avg) = (w32 (t - p), w32 (p - q) / window_count c d)).
  { unfold window_count. unfold udiv in E. destruct (dd_since d <? dc_required c - 1);
      [destruct (Z.eqb_spec (dc_required c) 0)|destruct (Z.eqb_spec (dc_required c - 1) 0)]; cbn [bind] in E; try discriminate; injection E as <- <-; reflexivity. }
  injection Ea as -> ->. dsimp. rewrite D2 in H. rewrite D3, X3, X4 in H.
  set (ratio := fdiv _ _) in *. set (d3 := if dd_since d + 1 =? dc_num c - 1 then _ else _) in H.
  assert (K : dd_last_angle d3 = dd_last_angle d /\ dd_rpm d3 = dd_rpm d /\ dd_times d3 = t :: removelast (dd_times d) /\
    (if dd_since d + 1 =? dc_num c - 1
     then if near 2 ratio (dc_max_change c) then dd_state d3 = SYNC /\ dd_since d3 = 0 else dd_state d3 = NOSYNC /\ dd_loss d3 = COUNT_HIGH
     else if near 1 ratio (dc_max_change c) then dd_state d3 = SYNC /\ dd_since d3 = dd_since d + 1 else dd_state d3 = NOSYNC /\ dd_loss d3 = COUNT_LOW)).
  { unfold d3. destruct (_ =? _); [destruct (near 2 _ _)|destruct (near 1 _ _)]; cbn [negb]; dsimp; auto 10. }
  clearbody d3. destruct K as (K1 & K2 & K3 & K4). unfold missing_advance in H. cbv zeta in H. dsimp. rewrite X5 in H.
  apply bind_ok in H. destruct H as (et & E1 & H). apply bind_ok in H. destruct H as (t0 & E2 & H). apply bind_ok in H. destruct H as (x & E3 & H).
  rewrite K3 in E2. injection E2 as <-. rewrite K2 in E1.
  exists p, q, et, x. split; [auto|]. split; [auto|]. cbv zeta. fold ratio. injection H as <- <-. dsimp. rewrite K1. auto 10.
Qed.

(** Acceptance windows in terms of the exact ratio.  The float computation is faithful up to
    2^-18. *)
Open Scope R_scope.
Definition margin : R := / 262144.

Lemma near_of_frel n f x m : (n = 1 \/ n = 2)%Z -> frel 8 f x -> vf m -> fin m -> 0 <= R_ m <= 1 ->
  (Rabs (x - IZR n) <= R_ m - margin -> near n f m = true) /\ (Rabs (x - IZR n) >= R_ m + margin -> near n f m = false).
Proof.
  intros Hn (Vf & Ff & (X0 & _ & F1 & F2)) Vm Fm Hm.
  assert (N : vf (f_of_Z n) /\ fin (f_of_Z n) /\ R_ (f_of_Z n) = IZR n).
  { destruct (f_of_Z_exact n) as [E F]; [destruct Hn; subst; cbn; lia|]. split; [apply vf_of_Z|]. auto. }
  destruct N as (Vn & Fn & Rn). assert (Nb : 1 <= IZR n <= 2) by (destruct Hn; subst n; lra).
  destruct (fsub_ok (f_of_Z n) m 3) as [E1 G1]; auto; [lia| |]. { rewrite Rn. change (bpow radix2 3) with 8. apply Rabs_le. lra. }
  destruct (fadd_ok (f_of_Z n) m 3) as [E2 G2]; auto; [lia| |]. { rewrite Rn. change (bpow radix2 3) with 8. apply Rabs_le. lra. }
  rewrite Rn in E1, E2.
  assert (RE : forall y, Rabs y <= 3 -> Rabs (rnd y - y) <= 4 * ur).
  { intros y Hy. pose proof (rnd_err y) as K. rewrite ur_b2 in K. assert (b2 (-150) < / 100000000000) by (unfold b2; simpl; lra). unfold ur in *. lra. }
  assert (B1 : Rabs (rnd (IZR n - R_ m) - (IZR n - R_ m)) <= 4 * ur) by (apply RE; apply Rabs_le; lra).
  assert (B2 : Rabs (rnd (IZR n + R_ m) - (IZR n + R_ m)) <= 4 * ur) by (apply RE; apply Rabs_le; lra). clear RE.
  apply Rabs_le_inv in B1, B2. rewrite <- E1 in B1. rewrite <- E2 in B2. rewrite ur_val in *. unfold margin, near. split; intros H.
  - apply Rabs_le_inv in H. assert (x <= 4) by lra.
    assert (x - / 262144 / 2 <= R_ f <= x + / 262144 / 2) by lra.
    apply andb_true_intro. split; [unfold fge; apply fle_iff; auto with vf; lra|apply fle_iff; auto with vf; lra].
  - destruct (fge f (fsub (f_of_Z n) m)) eqn:G; auto. cbn [andb]. unfold fge in G. apply fle_iff in G; auto with vf.
    destruct (fle f (fadd (f_of_Z n) m)) eqn:K; auto. apply fle_iff in K; auto with vf. exfalso.
    assert (x <= 4) by lra. assert (x - / 262144 / 2 <= R_ f <= x + / 262144 / 2) by lra.
    unfold Rabs in H. destruct (Rcase_abs _); lra.
Qed.
