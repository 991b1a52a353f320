(** Proofs about the thermistor conversion and the derivative of a sensor. *)
Require Import ZArith Reals Lra Lia List Bool.
From Flocq Require Import Core.
From Verif Require Import Res Word F32 F32Flocq TimeProofs TableProofs AngleProofs RelErr FinBack Sensors SensorProofs.
Import ListNotations.
Open Scope Z_scope.
Ltac Zify.zify_post_hook ::= idtac.

(** The resistance of the thermistor (the lower half of a voltage divider) and the inverse of the absolute temperature, as
    computed. *)
Definition resistance (c : scfg) (raw : f32) : f32 := fdiv (c_bias c) (fsub (fdiv (c_raw_max c) raw) (f_of_Z 1)).
Definition inverse_temp (c : scfg) (l : f32) : f32 := fadd (fadd (c_a c) (fmul (c_b c) l)) (fmul (fmul (fmul (c_c c) l) l) l).
Definition kelvin0 : f32 := flit 27315 100.

(** Rounding and finite operands of a finite result. *)
Ltac back H :=
  match type of H with
  | fin (fsub ?x ?y) => pose proof (fsub_fin x y ltac:(auto 10 with vf) ltac:(auto 10 with vf) H)
  | fin (fadd ?x ?y) => pose proof (fadd_fin x y ltac:(auto 10 with vf) ltac:(auto 10 with vf) H)
  | fin (fmul ?x ?y) => pose proof (fmul_fin x y ltac:(auto 10 with vf) ltac:(auto 10 with vf) H)
  | fin (fdiv ?x ?y) => pose proof (fdiv_fin x y ltac:(auto 10 with vf) ltac:(auto 10 with vf) H)
  end.
Tactic Notation "backs" hyp(H) "as" simple_intropattern(p) := let K := fresh in (back H; match goal with X : _ |- _ => rename X into K end; destruct K as p).

Lemma one_R : R_ (f_of_Z 1) = 1%R /\ fin (f_of_Z 1). Proof. apply f_of_Z_exact. lia. Qed.
Lemma therm_eq logf c raw : feq raw f_zero = false ->
  sensor_convert_thermistor logf c raw = fsub (fdiv (f_of_Z 1) (inverse_temp c (logf (resistance c raw)))) kelvin0.
Proof. intros E. unfold sensor_convert_thermistor. rewrite E. reflexivity. Qed.

Open Scope R_scope.
Lemma inv_le a b : 0 < a -> a <= b -> / b <= / a.
Proof. intros. now apply Rinv_le. Qed.
Lemma div_le_r x a b : 0 <= x -> 0 < a -> a <= b -> x / b <= x / a.
Proof. intros. unfold Rdiv. apply Rmult_le_compat_l; auto. now apply inv_le. Qed.

(** A finite positive resistance grows with the reading. *)
Lemma resistance_mono c r1 r2 : vf (c_bias c) -> vf (c_raw_max c) -> vf r1 -> vf r2 -> fin r1 -> fin r2 -> 0 < R_ r1 <= R_ r2 -> 0 <= R_ (c_raw_max c) -> 0 <= R_ (c_bias c) ->
  fin (fsub (fdiv (c_raw_max c) r1) (f_of_Z 1)) -> fin (fsub (fdiv (c_raw_max c) r2) (f_of_Z 1)) ->
  0 < R_ (fsub (fdiv (c_raw_max c) r2) (f_of_Z 1)) ->
  fin (resistance c r1) -> fin (resistance c r2) -> R_ (resistance c r1) <= R_ (resistance c r2).
Proof.
  intros Vb Vm V1 V2 F1 F2 L P Pb G1 G2 P2 H1 H2. destruct one_R as [E1 Fo]. unfold resistance in *.
  backs G1 as (D1 & _ & S1).
  backs G2 as (D2 & _ & S2).
  backs D1 as (_ & [(_ & _ & Q1)|(N & _)]); [|contradiction].
  backs D2 as (_ & [(_ & _ & Q2)|(N & _)]); [|contradiction].
  assert (M : R_ (fsub (fdiv (c_raw_max c) r2) (f_of_Z 1)) <= R_ (fsub (fdiv (c_raw_max c) r1) (f_of_Z 1))).
  { rewrite S1, S2, Q1, Q2. apply rnd_le. apply Rplus_le_compat_r, rnd_le. apply div_le_r; lra. }
  backs H1 as (_ & [(_ & _ & T1)|(N & _)]); [|contradiction].
  backs H2 as (_ & [(_ & _ & T2)|(N & _)]); [|contradiction].
  rewrite T1, T2. apply rnd_le. apply div_le_r; lra.
Qed.

Lemma rnd_nonneg x : 0 <= x -> 0 <= rnd x.
Proof. intros H. rewrite <- rnd_0. now apply rnd_le. Qed.
Lemma rnd_nonpos x : x <= 0 -> rnd x <= 0.
Proof. intros H. rewrite <- rnd_0. now apply rnd_le. Qed.
Lemma rnd_opp x : rnd (- x) = - rnd x.
Proof. apply (round_NE_opp radix2 fexp32). Qed.
Lemma cube_mono k l m : 0 <= k -> l <= m -> rnd (rnd (rnd (k * l) * l) * l) <= rnd (rnd (rnd (k * m) * m) * m).
Proof.
  intros K.
  assert (Pos : forall l m, 0 <= l <= m -> rnd (rnd (rnd (k * l) * l) * l) <= rnd (rnd (rnd (k * m) * m) * m)).
  { intros x y H. assert (0 <= rnd (k * x)) by (apply rnd_nonneg; apply Rmult_le_pos; lra).
    assert (rnd (k * x) <= rnd (k * y)) by (apply rnd_le, Rmult_le_compat_l; lra).
    assert (0 <= rnd (rnd (k * x) * x)) by (apply rnd_nonneg; apply Rmult_le_pos; lra).
    assert (rnd (rnd (k * x) * x) <= rnd (rnd (k * y) * y)) by (apply rnd_le, Rmult_le_compat; lra).
    apply rnd_le, Rmult_le_compat; lra. }
  assert (Neg : forall x, rnd (rnd (rnd (k * - x) * - x) * - x) = - rnd (rnd (rnd (k * x) * x) * x)).
  { intros x. replace (k * - x) with (- (k * x)) by ring. rewrite rnd_opp. replace (- rnd (k * x) * - x) with (rnd (k * x) * x) by ring.
    rewrite <- rnd_opp. f_equal. ring. }
  assert (P0 : forall x, 0 <= x -> 0 <= rnd (rnd (rnd (k * x) * x) * x)).
  { intros x H. pose proof (Pos 0 x ltac:(lra)) as Q. rewrite !Rmult_0_r, !rnd_0 in Q. exact Q. }
  intros H. destruct (Rle_or_lt 0 l); [apply Pos; lra|]. replace l with (- - l) by ring. rewrite Neg.
  destruct (Rle_or_lt 0 m).
  - pose proof (P0 (- l) ltac:(lra)). pose proof (P0 m ltac:(lra)). lra.
  - replace m with (- - m) by ring. rewrite (Neg (- m)). apply Ropp_le_contravar. apply Pos. lra.
Qed.
Lemma inverse_mono c l m : vf (c_a c) -> vf (c_b c) -> vf (c_c c) -> vf l -> vf m -> 0 <= R_ (c_b c) -> 0 <= R_ (c_c c) ->
  fin (inverse_temp c l) -> fin (inverse_temp c m) -> R_ l <= R_ m -> R_ (inverse_temp c l) <= R_ (inverse_temp c m).
Proof.
  intros Va Vb Vc Vl Vm Pb Pc Fl Fm L. unfold inverse_temp in *.
  backs Fl as (A1 & B1 & S1). backs Fm as (A2 & B2 & S2).
  backs A1 as (_ & C1 & T1). backs A2 as (_ & C2 & T2).
  backs C1 as (_ & _ & U1). backs C2 as (_ & _ & U2).
  backs B1 as (D1 & _ & X1). backs B2 as (D2 & _ & X2).
  backs D1 as (G1 & _ & Y1). backs D2 as (G2 & _ & Y2).
  backs G1 as (_ & _ & Z1). backs G2 as (_ & _ & Z2).
  rewrite S1, S2, T1, T2, U1, U2, X1, X2, Y1, Y2, Z1, Z2. apply rnd_le, Rplus_le_compat.
  - apply rnd_le, Rplus_le_compat_l, rnd_le, Rmult_le_compat_l; auto.
  - now apply cube_mono.
Qed.

Lemma kelvin_R : R_ kelvin0 = IZR 8950579 / 32768 /\ fin kelvin0 /\ vf kelvin0.
Proof.
  replace kelvin0 with (SpecFloat.S754_finite false 8950579 (-15)) by (vm_compute; reflexivity). split; [|split; [reflexivity|vm_compute; reflexivity]].
  unfold R_; cbn; unfold F2R; simpl; lra.
Qed.
Lemma temp_antitone x y : vf x -> vf y -> fin x -> fin y -> 0 < R_ x <= R_ y ->
  fin (fsub (fdiv (f_of_Z 1) x) kelvin0) -> fin (fsub (fdiv (f_of_Z 1) y) kelvin0) ->
  R_ (fsub (fdiv (f_of_Z 1) y) kelvin0) <= R_ (fsub (fdiv (f_of_Z 1) x) kelvin0).
Proof.
  intros Vx Vy Fx Fy L G1 G2. destruct one_R as [E1 Fo]. destruct kelvin_R as (_ & _ & Vk).
  backs G1 as (D1 & _ & S1). backs G2 as (D2 & _ & S2).
  backs D1 as (_ & [(_ & _ & Q1)|(N & _)]); [|contradiction].
  backs D2 as (_ & [(_ & _ & Q2)|(N & _)]); [|contradiction].
  rewrite S1, S2, Q1, Q2. apply rnd_le, Rplus_le_compat_r, rnd_le. rewrite E1. apply div_le_r; lra.
Qed.

(** ** Accuracy *)
Lemma rel_sub_one k a x : rel k a x -> 64 / 63 <= x -> k <= 15 -> rel (64 * k) (a - 1) (x - 1).
Proof.
  intros (A & B & C & D) H K. rewrite ur_val in *. repeat split; try lra; rewrite ur_val.
  - apply Rle_trans with (x * (1 - k * / 16777216) - 1); [|lra]. assert (x <= 64 * (x - 1)) by lra.
    pose proof (Rmult_le_compat_l (k * / 16777216) _ _ ltac:(apply Rmult_le_pos; lra) H0). lra.
  - apply Rle_trans with (x * (1 + k * / 16777216) - 1); [lra|]. assert (x <= 64 * (x - 1)) by lra.
    pose proof (Rmult_le_compat_l (k * / 16777216) _ _ ltac:(apply Rmult_le_pos; lra) H0). lra.
Qed.
Lemma rel_add k a b x y : rel k a x -> rel k b y -> rel k (a + b) (x + y).
Proof. intros (A & B & C & D) (A' & _ & C' & D'). repeat split; lra. Qed.
Lemma frel_add k f g x y : frel k f x -> frel k g y -> k <= 800 -> sane_mag x -> sane_mag y -> sane_mag (x + y) -> frel (k + 2) (fadd f g) (x + y).
Proof.
  intros Hf Hg K Sx Sy Sxy. pose proof (frel_bound _ _ _ Hf Sx). pose proof (frel_bound _ _ _ Hg Sy).
  destruct Hf as (V1 & F1 & R1), Hg as (V2 & F2 & R2). destruct (fadd_correct f g V1 V2 F1 F2) as [E F].
  { apply rnd_abs_lt_max with 120%Z; [lia|]. rewrite Rabs_pos_eq by lra. apply Rle_trans with (bpow radix2 60 + bpow radix2 60); [lra|].
    apply Rle_trans with (bpow radix2 61); [simpl; lra|apply bpow_le; lia]. }
  split; [auto with vf|]. split; auto. rewrite E. apply rel_rnd; [now apply rel_add|lra|unfold sane_mag in Sxy; lra].
Qed.

Lemma resistance_rel c raw : vf (c_bias c) -> vf (c_raw_max c) -> vf raw -> fin (c_bias c) -> fin (c_raw_max c) -> fin raw ->
  1 / 1000 <= R_ (c_raw_max c) <= 100000 -> 1 / 1000 <= R_ (c_bias c) <= 10000000 -> R_ (c_raw_max c) / 100000 <= R_ raw <= R_ (c_raw_max c) * (63 / 64) ->
  frel 262 (resistance c raw) (R_ (c_bias c) * R_ raw / (R_ (c_raw_max c) - R_ raw)).
Proof.
  intros Vb Vm Vr Fb Fm Fr Bm Bb Br. set (M := R_ (c_raw_max c)) in *. set (r := R_ raw) in *. set (B := R_ (c_bias c)) in *.
  assert (Hr : 0 < r) by lra. assert (Ir : / M * (64 / 63) <= / r).
  { apply Rmult_le_reg_r with r; auto. rewrite Rinv_l by lra. apply Rmult_le_reg_l with M; [lra|]. replace (M * (/ M * (64 / 63) * r)) with (r * (64 / 63)) by (field; lra). lra. }
  assert (Iu : / r <= 100000 * / M).
  { apply Rmult_le_reg_r with r; auto. rewrite Rinv_l by lra. apply Rmult_le_reg_l with M; [lra|]. replace (M * (100000 * / M * r)) with (r * 100000) by (field; lra). lra. }
  assert (Q : 64 / 63 <= M / r <= 100000).
  { unfold Rdiv at 2. split; [apply Rle_trans with (M * (/ M * (64 / 63)))|apply Rle_trans with (M * (100000 * / M))]; try (apply Rmult_le_compat_l; lra).
    - right. field. lra. - right. field. lra. }
  assert (D0 : frel 4 (fdiv (c_raw_max c) raw) (M / r)).
  { replace 4 with (0 + 0 + 4) by ring. apply frel_div; try (apply frel_self; auto; fold M r; lra); try lra; unfold sane_mag; fold M r; lra. }
  destruct one_R as [E1 Fo].
  assert (D1 : frel 258 (fsub (fdiv (c_raw_max c) raw) (f_of_Z 1)) (M / r - 1)).
  { pose proof (frel_bound _ _ _ D0 ltac:(unfold sane_mag; lra)) as Bd. destruct D0 as (V & F & R0). destruct (fsub_correct _ (f_of_Z 1) V ltac:(auto with vf) F Fo) as [E G].
    { apply rnd_abs_lt_max with 60%Z; [lia|]. rewrite E1. apply Rabs_le. split; [apply Rle_trans with (-1); [|lra]; simpl; lra|lra]. }
    split; [auto with vf|]. split; auto. rewrite E, E1. replace 258 with (64 * 4 + 2) by ring. apply rel_rnd; [apply rel_sub_one; auto; lra|lra|lra]. }
  replace (B * r / (M - r)) with (B / (M / r - 1)) by (field; split; [lra|lra]).
  replace 262 with (0 + 258 + 4) by ring. unfold resistance. apply frel_div; auto; try lra; try (apply frel_self; auto; fold B; lra); try (unfold sane_mag; fold B; lra).
  assert (J : / 100000 <= / (M / r - 1) <= 63). { split; [apply Rinv_le; lra|]. replace 63 with (/ (/ 63)) by lra. apply Rinv_le; lra. }
  unfold sane_mag, Rdiv at 1 3. split; [apply Rle_trans with (1 / 1000 * / 100000); [lra|apply Rmult_le_compat; lra]|apply Rle_trans with (10000000 * 63); [apply Rmult_le_compat; lra|lra]].
Qed.

Lemma temp_accurate c l : vf (c_a c) -> vf (c_b c) -> vf (c_c c) -> vf l -> fin (c_a c) -> fin (c_b c) -> fin (c_c c) -> fin l ->
  / 1000000000 <= R_ (c_a c) <= 1 -> / 1000000000 <= R_ (c_b c) <= 1 -> / 1000000000 <= R_ (c_c c) <= 1 -> / 1000 <= R_ l <= 100 ->
  / 1000 <= R_ (c_a c) + R_ (c_b c) * R_ l + R_ (c_c c) * R_ l ^ 3 ->
  let t := fsub (fdiv (f_of_Z 1) (inverse_temp c l)) kelvin0 in
  fin t /\ Rabs (R_ t - (/ (R_ (c_a c) + R_ (c_b c) * R_ l + R_ (c_c c) * R_ l ^ 3) - 273.15)) <= 0.002.
Proof.
  intros Va Vb Vc Vl Fa Fb Fc Fl Ba Bb Bc Bl S. set (a := R_ (c_a c)) in *. set (b := R_ (c_b c)) in *. set (k := R_ (c_c c)) in *. set (x := R_ l) in *.
  assert (M : forall u v lo1 hi1 lo2 hi2, 0 < lo1 -> 0 < lo2 -> lo1 <= u <= hi1 -> lo2 <= v <= hi2 -> lo1 * lo2 <= u * v <= hi1 * hi2) by (intros; split; apply Rmult_le_compat; lra).
  pose proof (M b x (/ 1000000000) 1 (/ 1000) 100 ltac:(lra) ltac:(lra) Bb Bl) as B1.
  pose proof (M k x (/ 1000000000) 1 (/ 1000) 100 ltac:(lra) ltac:(lra) Bc Bl) as B2.
  pose proof (M (k * x) x (/ 1000000000 * / 1000) (1 * 100) (/ 1000) 100 ltac:(lra) ltac:(lra) B2 Bl) as B3.
  assert (Q1 : frel 3 (fmul (c_b c) l) (b * x)).
  { replace 3 with (0 + 0 + 3) by ring. apply frel_mul; try (apply frel_self; auto; fold a b k x; lra); try lra; unfold sane_mag; fold a b k x; lra. }
  assert (Q2 : frel 3 (fmul (c_c c) l) (k * x)).
  { replace 3 with (0 + 0 + 3) by ring. apply frel_mul; try (apply frel_self; auto; fold a b k x; lra); try lra; unfold sane_mag; fold a b k x; lra. }
  assert (Q3 : frel 6 (fmul (fmul (c_c c) l) l) (k * x * x)).
  { replace 6 with (3 + 0 + 3) by ring. apply frel_mul; try (apply frel_self; auto; fold a b k x; lra); auto; try lra; unfold sane_mag; fold a b k x; lra. }
  pose proof (M (k * x * x) x (/ 1000000000 * / 1000 * / 1000) (1 * 100 * 100) (/ 1000) 100 ltac:(lra) ltac:(lra) B3 Bl) as B4.
  assert (Hx3 : k * x ^ 3 = k * x * x * x) by ring. rewrite Hx3 in *.
  assert (B4' : / 1000000000000000000 <= k * x * x * x <= 1000000) by lra.
  assert (Q4 : frel 9 (fmul (fmul (fmul (c_c c) l) l) l) (k * x * x * x)).
  { destruct Q3 as (V3 & F3 & R3). pose proof (rel_pos _ _ _ R3) as P3. pose proof (rel_mul _ _ _ _ _ _ R3 (rel_refl x ltac:(lra)) ltac:(lra)) as R4.
    destruct (fmul_correct _ l V3 Vl F3 Fl) as [E F].
    { apply rnd_abs_lt_max with 60%Z; [lia|]. fold x. pose proof (rel_pos _ _ _ R4). rewrite Rabs_pos_eq by lra. destruct R4 as (_ & _ & _ & D). rewrite ur_val in D.
      apply Rle_trans with (1000000 * 2); [|simpl; lra]. eapply Rle_trans; [exact D|]. apply Rmult_le_compat; lra. }
    split; [auto with vf|]. split; auto. rewrite E. fold x. replace 9 with (6 + 0 + 1 + 2) by ring. apply rel_rnd; auto; lra. }
  assert (Q5 : frel 5 (fadd (c_a c) (fmul (c_b c) l)) (a + b * x)).
  { replace 5 with (3 + 2) by ring. apply frel_add; auto; try lra; try (unfold sane_mag; lra).
    destruct (frel_self (c_a c) Va Fa ltac:(fold a; lra)) as (X & Y & Z). split; auto. split; auto. apply rel_weaken with 0; auto. lra. }
  assert (Q6 : frel 11 (inverse_temp c l) (a + b * x + k * x * x * x)).
  { unfold inverse_temp. pose proof (frel_bound _ _ _ Q5 ltac:(unfold sane_mag; lra)) as P5. destruct Q5 as (V5 & F5 & R5). destruct Q4 as (V4 & F4 & R4).
    pose proof (rel_add _ _ _ _ _ (rel_weaken 5 9 _ _ R5 ltac:(lra)) R4) as R6. destruct (fadd_correct _ _ V5 V4 F5 F4) as [E F].
    { apply rnd_abs_lt_max with 60%Z; [lia|]. pose proof (rel_pos _ _ _ R6). rewrite Rabs_pos_eq by lra. destruct R6 as (_ & _ & _ & D). rewrite ur_val in D.
      apply Rle_trans with (2000000 * 2); [|simpl; lra]. eapply Rle_trans; [exact D|]. apply Rmult_le_compat; lra. }
    split; [auto with vf|]. split; auto. rewrite E. replace 11 with (9 + 2) by ring. apply rel_rnd; auto; lra. }
  assert (TU : a + b * x + k * x * x * x <= 2000000) by lra. set (T := a + b * x + k * x * x * x) in *.
  assert (IT : / 2000000 <= / T <= 1000). { split; [apply Rinv_le; lra|]. replace 1000 with (/ / 1000) by lra. apply Rinv_le; lra. }
  assert (Q7 : frel 15 (fdiv (f_of_Z 1) (inverse_temp c l)) (1 / T)).
  { replace 15 with (0 + 11 + 4) by ring. apply frel_div; auto; try lra; try apply (frel_small_Z 1 ltac:(lia)); try apply (sane_Z 1 ltac:(lia)); unfold sane_mag; lra. }
  replace (1 / T) with (/ T) in Q7 by (field; lra). destruct Q7 as (V7 & F7 & R7). pose proof (rel_pos _ _ _ R7) as P7. destruct R7 as (_ & _ & C7 & D7). rewrite ur_val in C7, D7.
  destruct kelvin_R as (Ek & Fk & Vk). set (q := R_ (fdiv (f_of_Z 1) (inverse_temp c l))) in *.
  assert (Eq : Rabs (q - / T) <= 0.001) by (apply Rabs_le; lra).
  assert (Bq : Rabs (q - R_ kelvin0) <= 1001) by (rewrite Ek; apply Rabs_le_inv in Eq; apply Rabs_le; lra).
  cbv zeta. destruct (fsub_correct _ _ V7 Vk F7 Fk) as [E F].
  { apply rnd_abs_lt_max with 60%Z; [lia|]. fold q. eapply Rle_trans; [exact Bq|]. simpl. lra. }
  split; auto. rewrite E. fold q. pose proof (rnd_err (q - R_ kelvin0)) as Er.
  assert (T1 : bpow radix2 (-150) <= / 16777216) by (change (/ 16777216) with (bpow radix2 (-24)); apply bpow_le; lia).
  change (bpow radix2 (-24)) with (/ 16777216) in Er. rewrite Ek in *. apply Rabs_le_inv in Eq. apply Rabs_le_inv in Er.
  apply Rabs_le. lra.
Qed.

(** ** Derivative *)
Lemma rate_period rate : (1 <= rate <= 1000000)%Z -> (1 <= 1000000 / rate <= 1000000)%Z.
Proof.
  intros H. split; [apply Z.div_le_lower_bound; lia|]. apply Z.div_le_upper_bound; [lia|]. nia.
Qed.
Lemma derivative_err rate o n : vf o -> vf n -> fin o -> fin n -> (1 <= rate <= 1000000)%Z -> Rabs (R_ o) <= bpow radix2 90 -> Rabs (R_ n) <= bpow radix2 90 ->
  exists d, process_derivative rate o n = Ok d /\ fin d /\ vf d /\
    let x := (R_ n - R_ o) * (1000000 / IZR (1000000 / rate)) in Rabs (R_ d - x) <= 4 * bpow radix2 (-24) * Rabs x + bpow radix2 (-120).
Proof.
  intros Vo Vn Fo Fn Hr Bo Bn. unfold process_derivative. destruct (Z.eqb_spec rate 0); [lia|]. pose proof (rate_period rate Hr) as P. set (p := (1000000 / rate)%Z) in *.
  rewrite time_from_us_exact by lia. cbn [bind]. eexists. split; [reflexivity|].
  destruct (f_of_Z_exact (4 * p)) as [Ep Fp]; [lia|]. destruct (f_of_Z_exact TICKRATE) as [Et Ft]; [unfold TICKRATE; lia|].
  assert (Bd : Rabs (R_ n - R_ o) <= bpow radix2 91).
  { replace (bpow radix2 91) with (bpow radix2 90 + bpow radix2 90) by (simpl; lra). apply Rabs_le_inv in Bo, Bn. apply Rabs_le. lra. }
  destruct (fsub_correct n o Vn Vo Fn Fo) as [E1 F1]. { apply rnd_abs_lt_max with 91%Z; [lia|auto]. }
  set (D := R_ n - R_ o) in *. pose proof (rnd_err D) as X1. rewrite <- E1 in X1. pose proof (rnd_abs_le_bpow D 91 ltac:(lia) Bd) as B1. rewrite <- E1 in B1.
  assert (TR : IZR TICKRATE = 4000000) by reflexivity.
  assert (B2 : Rabs (R_ (f_of_Z TICKRATE) * R_ (fsub n o)) <= bpow radix2 113).
  { rewrite Et, TR, Rabs_mult, (Rabs_pos_eq 4000000) by lra. replace (bpow radix2 113) with (bpow radix2 22 * bpow radix2 91) by (rewrite <- bpow_plus; reflexivity).
    apply Rmult_le_compat; try lra. apply Rabs_pos. simpl. lra. }
  destruct (fmul_correct (f_of_Z TICKRATE) (fsub n o)) as [E2 F2]; auto with vf. { apply rnd_abs_lt_max with 113%Z; [lia|auto]. }
  pose proof (rnd_err (R_ (f_of_Z TICKRATE) * R_ (fsub n o))) as X2. rewrite <- E2 in X2. pose proof (rnd_abs_le_bpow _ 113 ltac:(lia) B2) as B3. rewrite <- E2 in B3.
  set (m := R_ (fmul (f_of_Z TICKRATE) (fsub n o))) in *. set (s := R_ (fsub n o)) in *.
  assert (Pp : 1 <= IZR p <= 1000000) by (split; apply IZR_le; lia). assert (P4 : IZR (4 * p) = 4 * IZR p) by (rewrite mult_IZR; ring).
  assert (I4 : 0 < / (4 * IZR p) <= / 4). { split; [apply Rinv_0_lt_compat; lra|apply Rinv_le; lra]. }
  destruct (fdiv_correct (fmul (f_of_Z TICKRATE) (fsub n o)) (f_of_Z (4 * p))) as [E3 F3]; auto with vf.
  { rewrite Ep, P4. lra. }
  { apply rnd_abs_lt_max with 113%Z; [lia|]. fold m. rewrite Ep, P4. unfold Rdiv. rewrite Rabs_mult, (Rabs_pos_eq (/ _)) by lra.
    apply Rle_trans with (Rabs m * 1); [apply Rmult_le_compat_l; [apply Rabs_pos|lra]|lra]. }
  split; [auto|]. split; [auto with vf|]. cbv zeta. fold m in E3. rewrite E3. pose proof (rnd_err (m / R_ (f_of_Z (4 * p)))) as X3. rewrite Ep, P4 in *. rewrite Et, TR in *.
  set (i := / (4 * IZR p)) in *. assert (Ex : D * (1000000 / IZR p) = 4000000 * D * i) by (unfold i; field; lra). rewrite Ex.
  unfold Rdiv in *. fold i in X3 |- *. assert (U : bpow radix2 (-24) = / 16777216) by reflexivity. rewrite U in *. set (ty := bpow radix2 (-150)) in *.
  assert (Ty : 0 < ty) by apply bpow_gt_0.
  assert (Tb : 4000000 * ty <= bpow radix2 (-128)). { replace (bpow radix2 (-128)) with (bpow radix2 22 * ty) by (unfold ty; rewrite <- bpow_plus; reflexivity). simpl (bpow radix2 22). lra. }
  assert (Tc : 8 * bpow radix2 (-128) <= bpow radix2 (-120)). { replace (bpow radix2 (-120)) with (bpow radix2 8 * bpow radix2 (-128)) by (rewrite <- bpow_plus; reflexivity). pose proof (bpow_gt_0 radix2 (-128)). simpl (bpow radix2 8). lra. }
  (* |s| <= |D| + |s - D| etc. *)
  assert (As : Rabs s <= Rabs D + Rabs (s - D)) by (replace s with (D + (s - D)) at 1 by ring; apply Rabs_triang).
  assert (H1 : Rabs (m - 4000000 * D) <= Rabs (m - 4000000 * s) + 4000000 * Rabs (s - D)).
  { replace (m - 4000000 * D) with ((m - 4000000 * s) + 4000000 * (s - D)) by ring. eapply Rle_trans; [apply Rabs_triang|]. rewrite Rabs_mult, (Rabs_pos_eq 4000000) by lra. lra. }
  rewrite Rabs_mult, (Rabs_pos_eq 4000000) in X2 by lra. pose proof (Rabs_pos D) as PD.
  assert (H2 : Rabs (m - 4000000 * D) <= 4000000 * (2.5 * / 16777216 * Rabs D) + 8000000 * ty) by lra.
  assert (Am : Rabs m <= 4000000 * Rabs D + Rabs (m - 4000000 * D)).
  { replace m with (4000000 * D + (m - 4000000 * D)) at 1 by ring. eapply Rle_trans; [apply Rabs_triang|]. rewrite Rabs_mult, (Rabs_pos_eq 4000000) by lra. lra. }
  rewrite Rabs_mult, (Rabs_pos_eq i) in X3 by lra.
  assert (Ax : Rabs (4000000 * D * i) = 4000000 * Rabs D * i) by (rewrite !Rabs_mult, (Rabs_pos_eq 4000000), (Rabs_pos_eq i) by lra; ring). rewrite Ax.
  assert (H3 : Rabs (rnd (m * i) - 4000000 * D * i) <= Rabs (rnd (m * i) - m * i) + Rabs (m - 4000000 * D) * i).
  { replace (rnd (m * i) - 4000000 * D * i) with ((rnd (m * i) - m * i) + (m - 4000000 * D) * i) by ring. eapply Rle_trans; [apply Rabs_triang|]. rewrite Rabs_mult, (Rabs_pos_eq i) by lra. lra. }
  assert (G1 : Rabs (m - 4000000 * D) * i <= (4000000 * (2.5 * / 16777216 * Rabs D) + 8000000 * ty) * i) by (apply Rmult_le_compat_r; lra).
  assert (G2 : Rabs m * i <= (4000000 * Rabs D + (4000000 * (2.5 * / 16777216 * Rabs D) + 8000000 * ty)) * i) by (apply Rmult_le_compat_r; lra).
  set (Y := Rabs D * i) in *. assert (HY : 0 <= Y) by (apply Rmult_le_pos; lra).
  replace (4000000 * Rabs D * i) with (4000000 * Y) by (unfold Y; ring).
  replace ((4000000 * (2.5 * / 16777216 * Rabs D) + 8000000 * ty) * i) with (4000000 * (2.5 * / 16777216 * Y) + 8000000 * (ty * i)) in G1 by (unfold Y; ring).
  replace ((4000000 * Rabs D + (4000000 * (2.5 * / 16777216 * Rabs D) + 8000000 * ty)) * i) with (4000000 * Y + 4000000 * (2.5 * / 16777216 * Y) + 8000000 * (ty * i)) in G2 by (unfold Y; ring).
  assert (Ti : ty * i <= ty * / 4) by (apply Rmult_le_compat_l; lra).
  lra.
Qed.
