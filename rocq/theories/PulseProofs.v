(** From a requested crank angle to the waveform on a pin. *)
Require Import ZArith Reals Lia Lra List Bool.
From Flocq Require Import Core.
From Verif Require Import Res Word F32 F32Flocq Arr TimeProofs TableProofs AngleProofs Outputs Buffers OutputSpec OutputRun OutputProofs BufferProofs RunProofs.
Import ListNotations.
Open Scope Z_scope.

(** ** Angles *)
Lemma rnd_small y : (Rabs y <= 3900)%R -> (Rabs (rnd y - y) <= / 4000)%R.
Proof.
  intros H. pose proof (rnd_err y) as K. rewrite ur_b2 in K.
  assert (B : (b2 (-150) < / 100000000)%R) by (unfold b2; simpl; lra). unfold ur in K. lra.
Qed.

Lemma f720 : vf (f_of_Z 720) /\ fin (f_of_Z 720) /\ R_ (f_of_Z 720) = 720%R.
Proof. destruct (f_of_Z_exact 720) as [A B]; [lia|]. split; [apply vf_of_Z|]. auto. Qed.

Lemma clamp_up a m a1 : vf m -> fin m -> R_ m = 720%R -> vf a -> fin a -> (-2900 <= R_ a <= 2900)%R ->
  while_f (fun a => flt a f_zero) (fun a => fadd a m) a = Ok a1 ->
  vf a1 /\ fin a1 /\ (0 <= R_ a1 <= 2900)%R /\ exists k, 0 <= k <= 5 /\ (Rabs (R_ a1 - (R_ a + 720 * IZR k)) <= IZR k / 4000)%R /\ (k = 0 \/ (R_ a1 <= 720)%R).
Proof.
  intros Vm Fm Rm Va Fa Ha E1.
  set (I1 := fun x => vf x /\ fin x /\ exists k, 0 <= k /\ (Rabs (R_ x - (R_ a + 720 * IZR k)) <= IZR k / 4000)%R /\
                (k = 0 \/ (R_ x <= 720)%R) /\ (-2900 <= R_ x <= 2900)%R).
  assert (S1 : I1 a1 /\ flt a1 f_zero = false).
  { refine (while_f_inv _ _ I1 a a1 _ _ E1).
    - intros x (Vx & Fx & k & K0 & Kb & K1 & K2) C. apply flt_iff in C; auto with vf. rewrite R_f_zero in C.
      destruct (fadd_neg_correct x m) as (A & F & B); auto; [rewrite Rm; lra|].
      split; [auto with vf|]. split; auto. exists (k + 1). split; [lia|]. rewrite Rm in *. split; [|lra].
      assert (H' : (Rabs (rnd (R_ x + 720) - (R_ x + 720)) <= / 4000)%R) by (apply rnd_small; apply Rabs_le; lra).
      rewrite A. rewrite plus_IZR. apply Rabs_le_inv in H'. apply Rabs_le_inv in Kb. apply Rabs_le. lra.
    - split; auto. split; auto. exists 0. split; [lia|]. split; [|split; [auto|lra]].
      replace (R_ a - (R_ a + 720 * 0))%R with 0%R by ring. rewrite Rabs_R0. lra. }
  destruct S1 as [(V1 & F1 & k & K0 & Kb & K1 & K2) C1]. apply flt_false_iff in C1; auto with vf. rewrite R_f_zero in C1.
  split; auto. split; auto. split; [lra|]. exists k. split; auto. split; auto.
  destruct K1 as [->|K1]; [lia|]. assert (k < 6); [|lia]. apply lt_IZR. apply Rabs_le_inv in Kb. lra.
Qed.

Lemma clamp_down a1 m r : vf m -> fin m -> R_ m = 720%R -> vf a1 -> fin a1 -> (0 <= R_ a1 <= 2900)%R ->
  while_f (fun a => fge a m) (fun a => fsub a m) a1 = Ok r ->
  exists q, 0 <= q <= 4 /\ ((R_ a1 <= 720)%R -> q <= 1) /\ (Rabs (R_ r - (R_ a1 - 720 * IZR q)) <= IZR q / 4000)%R.
Proof.
  intros Vm Fm Rm V1 F1 H1 E.
  set (I2 := fun x => vf x /\ fin x /\ exists q, 0 <= q /\ (Rabs (R_ x - (R_ a1 - 720 * IZR q)) <= IZR q / 4000)%R /\ (0 <= R_ x <= R_ a1)%R).
  assert (S2 : I2 r /\ fge r m = false).
  { refine (while_f_inv _ _ I2 a1 r _ _ E).
    - intros x (Vx & Fx & q & Q0 & Qb & Q1) C. unfold fge in C. apply fle_iff in C; auto. rewrite Rm in C.
      destruct (fsub_pos_correct x m) as (A & F & B); auto; try (rewrite Rm; lra).
      split; [auto with vf|]. split; auto. exists (q + 1). split; [lia|]. rewrite Rm in *. split; [|lra].
      assert (H' : (Rabs (rnd (R_ x - 720) - (R_ x - 720)) <= / 4000)%R) by (apply rnd_small; apply Rabs_le; lra).
      rewrite A. rewrite plus_IZR. apply Rabs_le_inv in H'. apply Rabs_le_inv in Qb. apply Rabs_le. lra.
    - split; auto. split; auto. exists 0. split; [lia|]. split; [|lra].
      replace (R_ a1 - (R_ a1 - 720 * 0))%R with 0%R by ring. rewrite Rabs_R0. lra. }
  destruct S2 as [(_ & _ & q & Q0 & Qb & Q1) _]. exists q.
  split; [|split; [|auto]].
  - assert (q < 5); [|lia]. apply lt_IZR. apply Rabs_le_inv in Qb. lra.
  - intros. assert (q < 2); [|lia]. apply lt_IZR. apply Rabs_le_inv in Qb. lra.
Qed.

Lemma bind_inv {A B} (r : res A) (f : A -> res B) v : bind r f = Ok v -> exists a, r = Ok a /\ f a = Ok v.
Proof. destruct r; simpl; intros H; [eauto|discriminate]. Qed.

Lemma clamp_split a m r : clamp_angle a m = Ok r -> exists a1,
  while_f (fun a => flt a f_zero) (fun a => fadd a m) a = Ok a1 /\ while_f (fun a => fge a m) (fun a => fsub a m) a1 = Ok r.
Proof.
  intros H. destruct (bind_inv _ _ _ H) as (a1 & E1 & E2). exists a1. split; [exact E1|exact E2].
Qed.

Lemma clamp_approx_m a m : vf m -> fin m -> R_ m = 720%R -> vf a -> fin a -> (Rabs (R_ a) <= 2900)%R ->
  exists r k, clamp_angle a m = Ok r /\ vf r /\ fin r /\ (0 <= R_ r < 720)%R /\
    (Rabs (R_ r - (R_ a + 720 * IZR k)) <= 6 / 4000)%R.
Proof.
  intros Vm Fm Rm Va Fa Ha.
  destruct (clamp_angle_terminates a m Va Vm Fa Fm) as [r E].
  { eapply Rle_trans; [exact Ha|]. simpl. lra. } { rewrite Rm. simpl. lra. }
  assert (M0 : flt f_zero m = true) by (apply flt_iff; auto with vf; rewrite R_f_zero, Rm; lra).
  destruct (clamp_angle_range a m r Va Vm Fa Fm M0 E) as (Vr & Fr & R0 & R1).
  unfold fge in R0. apply fle_iff in R0; auto with vf. apply flt_iff in R1; auto. rewrite R_f_zero in R0. rewrite Rm in R1.
  apply Rabs_le_inv in Ha. exists r.
  assert (K : exists k, (Rabs (R_ r - (R_ a + 720 * IZR k)) <= 6 / 4000)%R).
  { destruct (clamp_split _ _ _ E) as (a1 & E1 & E2).
    destruct (clamp_up a m a1 Vm Fm Rm Va Fa Ha E1) as (V1 & F1 & B1 & k & K0 & Kb & K1).
    destruct (clamp_down a1 m r Vm Fm Rm V1 F1 B1 E2) as (q & Q0 & Q1 & Qb).
    exists (k - q). assert (T : k + q <= 6) by (destruct K1 as [->|K1]; [lia|]; specialize (Q1 K1); lia).
    apply IZR_le in T. rewrite plus_IZR in T. rewrite minus_IZR.
    apply Rabs_le_inv in Kb. apply Rabs_le_inv in Qb. apply Rabs_le. lra. }
  destruct K as [k K]. exists k. split; [exact E|]. split; [exact Vr|]. split; [exact Fr|]. split; [lra|exact K].
Qed.

Lemma clamp_approx a : vf a -> fin a -> (Rabs (R_ a) <= 2900)%R ->
  exists r k, clamp_angle a (f_of_Z 720) = Ok r /\ vf r /\ fin r /\ (0 <= R_ r < 720)%R /\
    (Rabs (R_ r - (R_ a + 720 * IZR k)) <= 6 / 4000)%R.
Proof. destruct f720 as (Vm & Fm & Rm). now apply clamp_approx_m. Qed.

Definition angle_ok (x : f32) : Prop := vf x /\ fin x /\ (Rabs (R_ x) <= 720)%R.

Lemma sub_small x y c d : vf x -> vf y -> fin x -> fin y -> (Rabs (R_ x) <= c)%R -> (Rabs (R_ y) <= d)%R -> (c + d <= 3900)%R ->
  vf (fsub x y) /\ fin (fsub x y) /\ (Rabs (R_ (fsub x y) - (R_ x - R_ y)) <= / 4000)%R /\ (Rabs (R_ (fsub x y)) <= c + d + / 4000)%R.
Proof.
  intros Vx Vy Fx Fy Hx Hy Hc. apply Rabs_le_inv in Hx. apply Rabs_le_inv in Hy.
  assert (B : (Rabs (R_ x - R_ y) <= 3900)%R) by (apply Rabs_le; lra).
  destruct (fsub_ok x y 12) as [A F]; auto; [lia|simpl; lra|].
  pose proof (rnd_small _ B) as K. rewrite <- A in K. split; [auto with vf|]. split; auto. split; auto.
  apply Rabs_le_inv in K. apply Rabs_le. lra.
Qed.
Lemma add_small x y c d : vf x -> vf y -> fin x -> fin y -> (Rabs (R_ x) <= c)%R -> (Rabs (R_ y) <= d)%R -> (c + d <= 3900)%R ->
  vf (fadd x y) /\ fin (fadd x y) /\ (Rabs (R_ (fadd x y) - (R_ x + R_ y)) <= / 4000)%R /\ (Rabs (R_ (fadd x y)) <= c + d + / 4000)%R.
Proof.
  intros Vx Vy Fx Fy Hx Hy Hc. apply Rabs_le_inv in Hx. apply Rabs_le_inv in Hy.
  assert (B : (Rabs (R_ x + R_ y) <= 3900)%R) by (apply Rabs_le; lra).
  destruct (fadd_ok x y 12) as [A F]; auto; [lia|simpl; lra|].
  pose proof (rnd_small _ B) as K. rewrite <- A in K. split; [auto with vf|]. split; auto. split; auto.
  apply Rabs_le_inv in K. apply Rabs_le. lra.
Qed.

Lemma ignition_angle ang adv last off : angle_ok ang -> angle_ok adv -> angle_ok last -> angle_ok off ->
  exists g k, clamp_angle (fadd (fsub (fsub ang adv) last) off) (f_of_Z 720) = Ok g /\ vf g /\ fin g /\ (0 <= R_ g < 720)%R /\
    (Rabs (R_ g - (R_ ang - R_ adv - R_ last + R_ off + 720 * IZR k)) <= / 400)%R.
Proof.
  intros (V1 & F1 & B1) (V2 & F2 & B2) (V3 & F3 & B3) (V4 & F4 & B4).
  destruct (sub_small ang adv 720 720) as (Va & Fa & Ea & Ba); auto; [lra|].
  destruct (sub_small (fsub ang adv) last (1440 + / 4000) 720) as (Vb & Fb & Eb & Bb); auto; [lra|lra|].
  destruct (add_small (fsub (fsub ang adv) last) off (2160 + 2 * / 4000) 720) as (Vc & Fc & Ec & Bc); auto; [lra|lra|].
  destruct (clamp_approx (fadd (fsub (fsub ang adv) last) off)) as (g & k & E & Vg & Fg & Rg & Eg); auto; [lra|].
  exists g, k. split; auto. split; auto. split; auto. split; auto.
  apply Rabs_le_inv in Ea. apply Rabs_le_inv in Eb. apply Rabs_le_inv in Ec. apply Rabs_le_inv in Eg. apply Rabs_le. lra.
Qed.
Lemma fuel_angle ang last off : angle_ok ang -> angle_ok last -> angle_ok off ->
  exists g k, clamp_angle (fadd (fsub ang last) off) (f_of_Z 720) = Ok g /\ vf g /\ fin g /\ (0 <= R_ g < 720)%R /\
    (Rabs (R_ g - (R_ ang - R_ last + R_ off + 720 * IZR k)) <= / 400)%R.
Proof.
  intros (V1 & F1 & B1) (V3 & F3 & B3) (V4 & F4 & B4).
  destruct (sub_small ang last 720 720) as (Vb & Fb & Eb & Bb); auto; [lra|].
  destruct (add_small (fsub ang last) off (1440 + / 4000) 720) as (Vc & Fc & Ec & Bc); auto; [lra|lra|].
  destruct (clamp_approx (fadd (fsub ang last) off)) as (g & k & E & Vg & Fg & Rg & Eg); auto; [lra|].
  exists g, k. split; auto. split; auto. split; auto. split; auto.
  apply Rabs_le_inv in Eb. apply Rabs_le_inv in Ec. apply Rabs_le_inv in Eg. apply Rabs_le. lra.
Qed.
