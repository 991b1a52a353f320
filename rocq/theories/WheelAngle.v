(** The reference angle over many teeth. *)
Require Import ZArith Reals List Bool Lia Lra.
From Flocq Require Import Core.
From Verif Require Import Res Word F32 F32Flocq TimeProofs TableProofs AngleProofs PulseProofs RelErr Arr Decoder DecoderProofs DecoderSafe DecoderRun DecoderMissing DecoderAngle DecoderLoss Wheel WheelProofs WheelRun.
Import ListNotations.
Open Scope Z_scope.
Ltac Zify.zify_post_hook ::= idtac.

Lemma wrap_err a g : in_cycle a -> vf g -> fin g -> (0 <= R_ g <= 719)%R ->
  exists z, (Rabs (R_ (wrap720 (fadd a g)) - (R_ a + R_ g - 720 * IZR z)) <= / 4096)%R.
Proof.
  intros (Va & Fa & Ha) Vg Fg Hg. destruct f720 as (V7 & F7 & R7).
  destruct (fadd_ok a g 11) as [E F]; auto; [lia|simpl; rewrite Rabs_pos_eq; lra|].
  assert (B : (0 <= rnd (R_ a + R_ g) <= 1439)%R) by (split; [rewrite <- rnd_0; apply rnd_le; lra|]; replace 1439%R with (rnd 1439); [apply rnd_le; lra|rewrite <- (proj1 (f_of_Z_exact 1439 ltac:(cbn; lia))); apply round_generic; [typeclasses eauto|]; apply generic_R; [apply vf_of_Z|apply f_of_Z_exact; cbn; lia]]).
  assert (K : (Rabs (rnd (R_ a + R_ g) - (R_ a + R_ g)) <= / 11000)%R).
  { pose proof (rnd_err (R_ a + R_ g)) as K. rewrite ur_b2 in K. assert (B0 : (b2 (-150) < / 100000000)%R) by (unfold b2; simpl; lra).
    rewrite (Rabs_pos_eq (R_ a + R_ g)) in K by lra. unfold ur in K. lra. }
  unfold wrap720. destruct (fge (fadd a g) (f_of_Z 720)) eqn:C.
  - unfold fge in C. apply fle_iff in C; auto with vf. rewrite R7, E in C.
    destruct (fsub_ok (fadd a g) (f_of_Z 720) 11) as [E2 F2]; auto with vf; [lia|rewrite E, R7; simpl; rewrite Rabs_pos_eq; lra|].
    exists 1. rewrite E2, E, R7. set (y := rnd (R_ a + R_ g)) in *. pose proof (rnd_err (y - 720)) as K2. rewrite ur_b2 in K2. assert (B0 : (b2 (-150) < / 100000000)%R) by (unfold b2; simpl; lra).
    rewrite (Rabs_pos_eq (y - 720)) in K2 by lra. unfold ur in K2. apply Rabs_le_inv in K. apply Rabs_le_inv in K2 || (assert (K3 : (Rabs (rnd (y - 720) - (y - 720)) <= / 22000)%R) by lra; apply Rabs_le_inv in K3).
    apply Rabs_le. lra.
  - exists 0. rewrite E, Rmult_0_r, Rminus_0_r. lra.
Qed.

(** Multiples of 1/8192 of a degree are exact. *)
Definition dyadic (x : R) : Prop := exists k, x = (IZR k / 8192)%R.
Lemma dyadic_rnd x : dyadic x -> (Rabs x < 2048)%R -> rnd x = x.
Proof.
  intros [k ->] H. apply round_generic; [typeclasses eauto|]. change fexp32 with (FLT_exp (-149) 24). apply generic_format_FLT.
  exists (Float radix2 k (-13)).
  - unfold F2R. simpl. lra.
  - cbn [Fnum]. apply lt_IZR. rewrite abs_IZR. change (IZR (radix2 ^ 24)) with 16777216%R.
    unfold Rdiv in H. rewrite Rabs_mult, (Rabs_pos_eq (/ 8192)) in H by lra. lra.
  - cbn [Fexp]. lia.
Qed.
Lemma dyadic_add x y : dyadic x -> dyadic y -> dyadic (x + y).
Proof. intros [k ->] [j ->]. exists (k + j). rewrite plus_IZR. lra. Qed.
Lemma dyadic_720 x : dyadic x -> dyadic (x - 720).
Proof. intros [k ->]. exists (k - 720 * 8192). rewrite minus_IZR, mult_IZR. lra. Qed.

Lemma wrap_exact a g : in_cycle a -> vf g -> fin g -> (0 <= R_ g <= 719)%R -> dyadic (R_ a) -> dyadic (R_ g) ->
  exists z, R_ (wrap720 (fadd a g)) = (R_ a + R_ g - 720 * IZR z)%R /\ dyadic (R_ (wrap720 (fadd a g))).
Proof.
  intros (Va & Fa & Ha) Vg Fg Hg Da Dg. destruct f720 as (V7 & F7 & R7). pose proof (dyadic_add _ _ Da Dg) as D.
  destruct (fadd_ok a g 11) as [E F]; auto; [lia|simpl; rewrite Rabs_pos_eq; lra|]. rewrite (dyadic_rnd _ D) in E by (rewrite Rabs_pos_eq; lra).
  unfold wrap720. destruct (fge (fadd a g) (f_of_Z 720)) eqn:C.
  - unfold fge in C. apply fle_iff in C; auto with vf. rewrite R7, E in C.
    destruct (fsub_ok (fadd a g) (f_of_Z 720) 11) as [E2 F2]; auto with vf; [lia|rewrite E, R7; simpl; rewrite Rabs_pos_eq; lra|].
    rewrite E, R7 in E2. rewrite dyadic_rnd in E2; [|apply dyadic_720; exact D|rewrite Rabs_pos_eq; lra]. exists 1. rewrite E2. split; [lra|]. now apply dyadic_720.
  - exists 0. rewrite E. split; [lra|exact D].
Qed.

Section angle.
Variable c : dcfg.
Variable s : Z.
Notation num := (dc_num c).
Notation g := (first_gap (dc_num c) (dc_required c) s).
Hypothesis HW : wheel c.
Hypothesis num3 : 3 <= num.

Lemma step_size m : let q := fmul (dc_dpt c) (f_of_Z (if m mod (num - 1) =? 0 then 2 else 1)) in
  vf q /\ fin q /\ (0 <= R_ q <= 719)%R /\ R_ q = (R_ (dc_dpt c) * IZR (slot num m - slot num (m - 1)))%R.
Proof.
  pose proof (slot_succ num num3 (m - 1)) as SS. replace (m - 1 + 1) with m in SS by ring. set (k := if m mod (num - 1) =? 0 then 2 else 1) in *.
  destruct (dpt_times c k HW) as (V & F & R); [unfold k; destruct (m mod (num - 1) =? 0); auto|]. cbv zeta. split; [auto|]. split; [auto|]. rewrite SS, R.
  replace (slot num (m - 1) + k - slot num (m - 1)) with k by ring. split; auto. destruct HW as [_ _ B _]. unfold k. destruct (m mod (num - 1) =? 0); lra.
Qed.

Lemma angle_after_ok j : in_cycle (angle_after c s j) /\
  exists z, (Rabs (R_ (angle_after c s j) - (R_ (dc_dpt c) * IZR (slot num (g + Z.of_nat j) - slot num g) - 720 * IZR z)) <= INR j / 4096)%R.
Proof.
  induction j as [|j (I & z & H)].
  - cbn [angle_after]. split; [apply in_cycle_zero|]. exists 0. rewrite R_f_zero. replace (g + Z.of_nat 0) with g by lia. rewrite Z.sub_diag.
    replace (0 - (R_ (dc_dpt c) * 0 - 720 * 0))%R with 0%R by ring. rewrite Rabs_R0. simpl. lra.
  - cbn [angle_after]. unfold step_angle. destruct (step_size (g + Z.of_nat (S j))) as (V & F & B & E). cbv zeta in *. set (q := fmul _ _) in *. clearbody q.
    split; [apply wrap_in_cycle; auto|]. destruct (wrap_err (angle_after c s j) q I V F B) as (y & K). exists (z + y). rewrite S_INR, plus_IZR.
    apply Rabs_le_inv in H. apply Rabs_le_inv in K. apply Rabs_le. rewrite E in K. replace (g + Z.of_nat (S j) - 1) with (g + Z.of_nat j) in K by lia. rewrite !minus_IZR in *. lra.
Qed.

Lemma angle_after_exact j : dyadic (R_ (dc_dpt c)) -> dyadic (R_ (angle_after c s j)) /\
  exists z, R_ (angle_after c s j) = (R_ (dc_dpt c) * IZR (slot num (g + Z.of_nat j) - slot num g) - 720 * IZR z)%R.
Proof.
  intros D. induction j as [|j (I & z & H)].
  - cbn [angle_after]. rewrite R_f_zero. split; [exists 0; lra|]. exists 0. replace (g + Z.of_nat 0) with g by lia. rewrite Z.sub_diag. lra.
  - destruct (angle_after_ok j) as [IC _]. cbn [angle_after]. unfold step_angle. destruct (step_size (g + Z.of_nat (S j))) as (V & F & B & E). cbv zeta in *. set (q := fmul _ _) in *. clearbody q.
    assert (Dq : dyadic (R_ q)). { rewrite E. destruct D as [k ->]. exists (k * (slot num (g + Z.of_nat (S j)) - slot num (g + Z.of_nat (S j) - 1))). rewrite mult_IZR. lra. }
    destruct (wrap_exact (angle_after c s j) q IC V F B I Dq) as (y & K & Dy). split; auto. exists (z + y). rewrite K, E, H, plus_IZR.
    replace (g + Z.of_nat (S j) - 1) with (g + Z.of_nat j) by lia. rewrite !minus_IZR. lra.
Qed.
End angle.
