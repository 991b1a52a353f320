(** Accuracy of the fuelling computation (C79). *)
Require Import ZArith Reals Lia Lra Bool List.
From Flocq Require Import Core.
From Verif Require Import Res Word F32 F32Flocq TimeProofs Table TableSpec TableProofs AngleProofs RelErr Interval Calc CalcSpec CalcProofs FuelProofs FuelSpec.
Import ListNotations.
Open Scope R_scope.
Ltac Zify.zify_post_hook ::= idtac.

(** A float with its relative error and the range of what it stands for. *)
Definition fb (k : R) (f : f32) (x lo hi : R) : Prop := frel k f x /\ lo <= x <= hi.
Lemma fb_weak k f x lo hi k' lo' hi' : fb k f x lo hi -> k <= k' <= 1000 -> lo' <= lo -> hi <= hi' -> fb k' f x lo' hi'.
Proof. intros [(A & B & C) D] K L H. split; [|lra]. split; auto. split; auto. eapply rel_weaken; eauto. Qed.
Lemma fb_mul j k f g x y a b c d : fb j f x a b -> fb k g y c d -> j + k <= 800 -> / 1000000000000000 <= a -> b <= 1000000000000000 -> / 1000000000000000 <= c -> d <= 1000000000000000 ->
  / 1000000000000000 <= a * c -> b * d <= 1000000000000000 -> fb (j + k + 3) (fmul f g) (x * y) (a * c) (b * d).
Proof.
  intros [F1 B1] [F2 B2] K A B C D L H. assert (a * c <= x * y) by (apply Rmult_le_compat; lra). assert (x * y <= b * d) by (apply Rmult_le_compat; lra).
  split; [|lra]. apply frel_mul; auto; unfold sane_mag; lra.
Qed.
Lemma fb_div j k f g x y a b c d : fb j f x a b -> fb k g y c d -> j + k <= 800 -> / 1000000000000000 <= a -> b <= 1000000000000000 -> / 1000000000000000 <= c -> d <= 1000000000000000 ->
  / 1000000000000000 <= a / d -> b / c <= 1000000000000000 -> fb (j + k + 4) (fdiv f g) (x / y) (a / d) (b / c).
Proof.
  intros [F1 B1] [F2 B2] K A B C D L H. assert (/ d <= / y) by (apply Rinv_le; lra). assert (/ y <= / c) by (apply Rinv_le; lra). assert (0 < / d) by (apply Rinv_0_lt_compat; lra).
  assert (a / d <= x / y) by (apply Rmult_le_compat; lra). assert (x / y <= b / c) by (apply Rmult_le_compat; lra).
  split; [|lra]. apply frel_div; auto; unfold sane_mag; lra.
Qed.
Lemma fb_self f lo hi : iv f lo hi -> 0 < lo -> fb 0 f (R_ f) lo hi.
Proof. intros (V & F & B) L. split; [|exact B]. apply frel_self; auto. lra. Qed.
Lemma fb_Z z : (1 <= z <= 2 ^ 24)%Z -> fb 0 (f_of_Z z) (IZR z) (IZR z) (IZR z).
Proof. intros H. split; [now apply frel_small_Z|lra]. Qed.
Ltac num := lra.

Lemma rnd_e y m : Rabs y <= m -> m <= 1000000000000000 -> Rabs (rnd y - y) <= m * ur + / 1000000000000000000000000000000.
Proof.
  intros H M. pose proof (rnd_err y) as E. assert (U : b2 (-24) = ur) by (unfold b2; rewrite ur_val; simpl; lra).
  assert (T : b2 (-150) <= / 1000000000000000000000000000000) by (unfold b2; simpl; lra). rewrite U in E. pose proof ur_val as Uv. assert (ur * Rabs y <= ur * m) by (apply Rmult_le_compat_l; lra). lra.
Qed.

Lemma kelvin_fb : fb 4 kelvin_offset (27315 / 100) 273 274.
Proof.
  eapply fb_weak; [unfold kelvin_offset, flit; apply (fb_div 0 0 _ _ 27315 100 27315 27315 100 100); [apply (fb_Z 27315); lia|apply (fb_Z 100); lia|num|num|num|num|num|num|num]|num|num|num].
Qed.

Lemma kelvin_sum iat : iv iat (-100) 1000 -> fb 8 (fadd iat kelvin_offset) (27315 / 100 + R_ iat) 173 1274.
Proof.
  intros I. pose proof I as (V & F & B). destruct kelvin_fb as [(Vk & Fk & (_ & _ & K)) _]. pose proof ur_val as U. rewrite U in K.
  destruct (fadd_ok iat kelvin_offset 20) as [E Fa]; auto; [lia|rewrite Rabs_right; [|lra]; change (bpow radix2 20) with 1048576; lra|].
  split; [|lra]. split; [auto with vf|]. split; [exact Fa|]. rewrite E. set (y := R_ iat + R_ kelvin_offset) in *.
  pose proof (rnd_e y y ltac:(rewrite Rabs_right; unfold y; lra) ltac:(unfold y; lra)) as R. apply Rabs_le_inv in R. rewrite U in R.
  unfold rel. rewrite U. unfold y in *. split; [lra|]. split; [lra|]. lra.
Qed.

Lemma density_fb k frt : cfg_in_range k -> iv frt (-100) 200 ->
  fb 4 (fuel_density (k_fuel k) frt) (R_ (fu_rho_fuel (k_fuel k)) - 950 / 1000000 * (R_ frt - 15)) (5 / 16) (17 / 8).
Proof.
  intros K Fr. unfold fuel_density. pose proof (in_rho k K) as Rh. set (rho := fu_rho_fuel (k_fuel k)) in *. clearbody rho.
  assert (B1 : iv (fsub frt (f_of_Z 15)) (-115) 185) by (eapply iv_sub; [exact Fr|apply (iv_Z 15); lia|repz|repz|lra|lra]).
  assert (B2 : iv (fmul (fsub frt (f_of_Z 15)) (f_of_Z 950)) (-109250) 175750) by (eapply iv_mulc; [exact B1|apply (iv_Z 950); lia|repz|repz|lra|lra|lra]).
  assert (B3 : iv (fdiv (fmul (fsub frt (f_of_Z 15)) (f_of_Z 950)) (f_of_Z 1000000)) (-1 / 8) (3 / 16))
    by (eapply iv_divc; [exact B2|apply (iv_Z 1000000); lia|repz|repz|lra|lra|lra]).
  assert (B4 : iv (fsub rho (fdiv (fmul (fsub frt (f_of_Z 15)) (f_of_Z 950)) (f_of_Z 1000000))) (5 / 16) (17 / 8))
    by (eapply iv_sub; [exact Rh|exact B3|repz|repz|lra|lra]).
  destruct (f_of_Z_exact 15) as [X1 Y1]; [lia|]. destruct (f_of_Z_exact 950) as [X2 Y2]; [lia|]. destruct (f_of_Z_exact 1000000) as [X3 Y3]; [lia|].
  destruct Fr as (Vf & Ff & Bf). destruct Rh as (Vr & Frr & Br). destruct B1 as (V1 & F1 & I1). destruct B2 as (V2 & F2 & I2). destruct B3 as (V3 & F3 & I3). destruct B4 as (V4 & F4 & I4).
  pose proof ur_val as U.
  destruct (fsub_ok frt (f_of_Z 15) 20) as [E1 _]; auto with vf; [lia|rewrite X1; apply Rabs_le; change (bpow radix2 20) with 1048576; lra|].
  set (d1 := fsub frt (f_of_Z 15)) in *. clearbody d1.
  destruct (fmul_ok d1 (f_of_Z 950) 20) as [E2 _]; auto with vf; [lia|rewrite X2; apply Rabs_le; change (bpow radix2 20) with 1048576; lra|].
  set (d2 := fmul d1 (f_of_Z 950)) in *. clearbody d2.
  destruct (fdiv_ok d2 (f_of_Z 1000000) 20) as [E3 _]; auto with vf; [lia|rewrite X3; lra|rewrite X3; apply Rabs_le; change (bpow radix2 20) with 1048576; lra|].
  set (d3 := fdiv d2 (f_of_Z 1000000)) in *. clearbody d3.
  destruct (fsub_ok rho d3 20) as [E4 _]; auto with vf; [lia|apply Rabs_le; change (bpow radix2 20) with 1048576; lra|].
  rewrite X1 in E1. rewrite X2 in E2. rewrite X3 in E3.
  pose proof (rnd_e (R_ frt - 15) 185 ltac:(apply Rabs_le; lra) ltac:(lra)) as Q1. rewrite <- E1 in Q1. apply Rabs_le_inv in Q1.
  pose proof (rnd_e (R_ d1 * 950) 175750 ltac:(apply Rabs_le; lra) ltac:(lra)) as Q2. rewrite <- E2 in Q2. apply Rabs_le_inv in Q2.
  pose proof (rnd_e (R_ d2 / 1000000) (3 / 16) ltac:(apply Rabs_le; lra) ltac:(lra)) as Q3. rewrite <- E3 in Q3. apply Rabs_le_inv in Q3.
  pose proof (rnd_e (R_ rho - R_ d3) (R_ rho - R_ d3) ltac:(apply Req_le, Rabs_right; lra) ltac:(lra)) as Q4. rewrite <- E4 in Q4. apply Rabs_le_inv in Q4.
  rewrite U in *. split; [|lra]. split; [exact V4|]. split; [exact F4|]. unfold rel. rewrite U. split; [lra|]. split; [lra|]. lra.
Qed.

(** The air mass. *)
Lemma airmass_fb k s ve : cfg_in_range k -> sens_in_range s -> iv ve 0 (256 * (1 + / 100000)) -> breathing k s (R_ ve) ->
  fb 38 (calculate_airmass (k_fuel k) ve (s_map s) (s_iat s)) (air_grams (k_fuel k) (R_ ve) (R_ (s_map s)) (R_ (s_iat s))) (1 / 200000) 182.
Proof.
  intros K S Iv (L1 & L2 & L3 & L4). unfold calculate_airmass, air_density.
  assert (A1 : fb 0 ve (R_ ve) 5 257) by (apply fb_self; [destruct Iv as (? & ? & ?); split; auto; split; auto; lra|lra]).
  assert (A2 : fb 0 (s_map s) (R_ (s_map s)) 5 512) by (apply fb_self; [destruct (in_map s S) as (? & ? & ?); split; auto; split; auto; lra|lra]).
  assert (A3 : fb 0 (fu_cyl (k_fuel k)) (R_ (fu_cyl (k_fuel k))) 50 4096) by (apply fb_self; [destruct (in_cyl k K) as (? & ? & ?); split; auto; split; auto; lra|lra]).
  assert (A4 : fb 0 (fu_rho_air (k_fuel k)) (R_ (fu_rho_air (k_fuel k))) (/ 4096) (1 / 512)) by (apply fb_self; [destruct (in_air k K) as (? & ? & ?); split; auto; split; auto; lra|lra]).
  pose proof (fb_div _ _ _ _ _ _ _ _ _ _ A1 (fb_Z 100 ltac:(lia)) ltac:(num) ltac:(num) ltac:(num) ltac:(num) ltac:(num) ltac:(num) ltac:(num)) as C1.
  pose proof (fb_div _ _ _ _ _ _ _ _ _ _ A2 (fb_Z 100 ltac:(lia)) ltac:(num) ltac:(num) ltac:(num) ltac:(num) ltac:(num) ltac:(num) ltac:(num)) as C2.
  pose proof (fb_mul _ _ _ _ _ _ _ _ _ _ C1 C2 ltac:(num) ltac:(num) ltac:(num) ltac:(num) ltac:(num) ltac:(num) ltac:(num)) as C3.
  pose proof (fb_mul _ _ _ _ _ _ _ _ _ _ C3 A3 ltac:(num) ltac:(num) ltac:(num) ltac:(num) ltac:(num) ltac:(num) ltac:(num)) as C4.
  pose proof (fb_div _ _ _ _ _ _ _ _ _ _ kelvin_fb (kelvin_sum _ (in_iat s S)) ltac:(num) ltac:(num) ltac:(num) ltac:(num) ltac:(num) ltac:(num) ltac:(num)) as C5.
  pose proof (fb_mul _ _ _ _ _ _ _ _ _ _ A4 C5 ltac:(num) ltac:(num) ltac:(num) ltac:(num) ltac:(num) ltac:(num) ltac:(num)) as C6.
  pose proof (fb_mul _ _ _ _ _ _ _ _ _ _ C4 C6 ltac:(num) ltac:(num) ltac:(num) ltac:(num) ltac:(num) ltac:(num) ltac:(num)) as C7.
  destruct (in_iat s S) as (_ & _ & Bi).
  match type of C7 with fb _ _ ?x _ _ => assert (E : x = air_grams (k_fuel k) (R_ ve) (R_ (s_map s)) (R_ (s_iat s))) by (unfold air_grams; field; lra) end.
  rewrite E in C7. eapply fb_weak; [exact C7|num|num|num].
Qed.

(** The fuel volume. *)
Lemma fuelvol_fb k s am air lambda : cfg_in_range k -> sens_in_range s -> fb 38 am air (1 / 200000) 182 -> iv lambda (7 / 16) 9 ->
  fb 58 (fdiv (calculate_fuel_volume (k_fuel k) am (s_frt s)) lambda) (fuel_cc (k_fuel k) air (R_ (s_frt s)) (R_ lambda)) (1 / 300000000) 335.
Proof.
  intros K S Am Il. unfold calculate_fuel_volume.
  assert (A1 : fb 0 (fu_stoich (k_fuel k)) (R_ (fu_stoich (k_fuel k))) 4 64) by (apply fb_self; [apply (in_stoich k K)|lra]).
  assert (A2 : fb 0 lambda (R_ lambda) (7 / 16) 9) by (apply fb_self; [exact Il|lra]).
  pose proof (fb_div _ _ _ _ _ _ _ _ _ _ Am A1 ltac:(num) ltac:(num) ltac:(num) ltac:(num) ltac:(num) ltac:(num) ltac:(num)) as C1.
  pose proof (density_fb k (s_frt s) K (in_frt s S)) as D. pose proof D as [_ Db].
  pose proof (fb_div _ _ _ _ _ _ _ _ _ _ C1 D ltac:(num) ltac:(num) ltac:(num) ltac:(num) ltac:(num) ltac:(num) ltac:(num)) as C2.
  pose proof (fb_div _ _ _ _ _ _ _ _ _ _ C2 A2 ltac:(num) ltac:(num) ltac:(num) ltac:(num) ltac:(num) ltac:(num) ltac:(num)) as C3.
  destruct A1 as [_ B1], A2 as [_ B2].
  match type of C3 with fb _ _ ?x _ _ => assert (E : x = fuel_cc (k_fuel k) air (R_ (s_frt s)) (R_ lambda)) by (unfold fuel_cc; field; lra) end.
  rewrite E in C3. eapply fb_weak; [exact C3|num|num|num].
Qed.

(** The pulse without corrections. *)
Lemma raw_fb k vol cc tip : cfg_in_range k -> fb 58 vol cc (1 / 300000000) 335 -> iv tip 0 1001 ->
  fb 73 (raw_pulse_us (k_fuel k) vol tip) (open_us (k_fuel k) cc (R_ tip)) (1 / 100000000) 158000000.
Proof.
  intros K Vo It. unfold raw_pulse_us. pose proof ur_val as U.
  assert (T : iv (fdiv tip (f_of_Z 1000)) 0 (9 / 8)) by (eapply iv_divc; [exact It|apply (iv_Z 1000); lia|repz|repz|lra|lra|lra]).
  destruct It as (Vt & Ft & Bt). destruct (f_of_Z_exact 1000) as [X Y]; [lia|].
  destruct (fdiv_ok tip (f_of_Z 1000) 20) as [E1 _]; auto with vf; [lia|rewrite X; lra|rewrite X; apply Rabs_le; change (bpow radix2 20) with 1048576; lra|].
  rewrite X in E1. destruct T as (V1 & F1 & I1). set (t := fdiv tip (f_of_Z 1000)) in *. clearbody t.
  pose proof (rnd_e (R_ tip / 1000) (R_ tip / 1000) ltac:(apply Req_le, Rabs_right; lra) ltac:(lra)) as Q1. rewrite <- E1 in Q1. apply Rabs_le_inv in Q1.
  destruct Vo as [(V2 & F2 & (_ & _ & R2)) B2]. rewrite U in *.
  destruct (fadd_ok vol t 20) as [E2 F3]; auto with vf; [lia|rewrite Rabs_right by lra; change (bpow radix2 20) with 1048576; lra|].
  pose proof (rnd_e (R_ vol + R_ t) (R_ vol + R_ t) ltac:(apply Req_le, Rabs_right; lra) ltac:(lra)) as Q2. rewrite <- E2 in Q2. apply Rabs_le_inv in Q2. rewrite U in Q2.
  assert (S : fb 60 (fadd vol t) (cc + R_ tip / 1000) (1 / 300000000) 337).
  { split; [|lra]. split; [auto with vf|]. split; [exact F3|]. unfold rel. rewrite U. split; [lra|]. split; [lra|]. lra. }
  clear E1 E2 Q1 Q2 F3.
  assert (A1 : fb 0 (fu_cc_min (k_fuel k)) (R_ (fu_cc_min (k_fuel k))) 128 1000000) by (apply fb_self; [apply (in_ccmin k K)|lra]).
  assert (A2 : fb 0 (f_of_Z 60000000) 60000000 60000000 60000000).
  { pose proof iv_6e7 as I6. pose proof (fb_self _ _ _ I6 ltac:(lra)) as H. destruct I6 as (_ & _ & B6). replace 60000000 with (R_ (f_of_Z 60000000)) at 1 by lra. exact H. }
  pose proof (in_inj k K) as Ji. pose proof (fb_Z (fu_inj (k_fuel k)) ltac:(lia)) as A3. assert (Bi : 1 <= IZR (fu_inj (k_fuel k)) <= 16) by (split; apply IZR_le; lia).
  assert (A4 : fb 0 (f_of_Z (fu_inj (k_fuel k))) (IZR (fu_inj (k_fuel k))) 1 16) by (eapply fb_weak; [exact A3|num|num|num]).
  pose proof (fb_div _ _ _ _ _ _ _ _ _ _ S A1 ltac:(num) ltac:(num) ltac:(num) ltac:(num) ltac:(num) ltac:(num) ltac:(num)) as C1.
  pose proof (fb_mul _ _ _ _ _ _ _ _ _ _ C1 A2 ltac:(num) ltac:(num) ltac:(num) ltac:(num) ltac:(num) ltac:(num) ltac:(num)) as C2.
  pose proof (fb_div _ _ _ _ _ _ _ _ _ _ C2 A4 ltac:(num) ltac:(num) ltac:(num) ltac:(num) ltac:(num) ltac:(num) ltac:(num)) as C3.
  destruct A1 as [_ B1].
  match type of C3 with fb _ _ ?x _ _ => assert (E : x = open_us (k_fuel k) cc (R_ tip)) by (unfold open_us; field; lra) end.
  rewrite E in C3. eapply fb_weak; [exact C3|num|num|num].
Qed.

(** The whole pulse. *)
Lemma total_close raw x ete pwc idt : fb 73 raw x (1 / 100000000) 158000000 -> iv ete 0 (33 / 8) -> iv pwc 0 128 -> iv idt 0 128 ->
  let total := x * R_ ete + 1000 * R_ pwc + 1000 * R_ idt in
  total * (1 - 5 / 1000000) - / 1000000 <= R_ (total_pulse_us raw ete pwc idt) <= total * (1 + 5 / 1000000) + / 1000000.
Proof.
  intros Ra Ie Ip Ii. unfold total_pulse_us. pose proof ur_val as U. destruct Ra as [(V0 & F0 & (_ & _ & R0)) B0]. destruct Ie as (V1 & F1 & B1), Ip as (V2 & F2 & B2), Ii as (V3 & F3 & B3).
  destruct (f_of_Z_exact 1000) as [X Y]; [lia|]. rewrite U in R0.
  assert (P0 : 0 <= R_ raw <= 159000000) by lra.
  assert (M1 : 0 <= R_ raw * R_ ete <= 159000000 * (33 / 8)) by (split; [apply Rmult_le_pos; lra|apply Rmult_le_compat; lra]).
  assert (M2 : x * R_ ete * (1 - 73 * / 16777216) <= R_ raw * R_ ete <= x * R_ ete * (1 + 73 * / 16777216)).
  { split; [replace (x * R_ ete * (1 - 73 * / 16777216)) with (x * (1 - 73 * / 16777216) * R_ ete) by ring|replace (x * R_ ete * (1 + 73 * / 16777216)) with (x * (1 + 73 * / 16777216) * R_ ete) by ring]; apply Rmult_le_compat_r; lra. }
  assert (M0 : 0 <= x * R_ ete) by (apply Rmult_le_pos; lra).
  destruct (fmul_ok raw ete 40) as [E1 G1]; auto; [lia|rewrite Rabs_right by lra; change (bpow radix2 40) with 1099511627776; lra|].
  destruct (fmul_ok pwc (f_of_Z 1000) 40) as [E2 G2]; auto with vf; [lia|rewrite X, Rabs_right by lra; change (bpow radix2 40) with 1099511627776; lra|].
  destruct (fmul_ok idt (f_of_Z 1000) 40) as [E3 G3]; auto with vf; [lia|rewrite X, Rabs_right by lra; change (bpow radix2 40) with 1099511627776; lra|].
  rewrite X in E2, E3.
  pose proof (rnd_e (R_ raw * R_ ete) (R_ raw * R_ ete) ltac:(apply Req_le, Rabs_right; lra) ltac:(lra)) as Q1. rewrite <- E1 in Q1. apply Rabs_le_inv in Q1.
  pose proof (rnd_e (R_ pwc * 1000) (R_ pwc * 1000) ltac:(apply Req_le, Rabs_right; lra) ltac:(lra)) as Q2. rewrite <- E2 in Q2. apply Rabs_le_inv in Q2.
  pose proof (rnd_e (R_ idt * 1000) (R_ idt * 1000) ltac:(apply Req_le, Rabs_right; lra) ltac:(lra)) as Q3. rewrite <- E3 in Q3. apply Rabs_le_inv in Q3.
  assert (N1 : 0 <= R_ (fmul raw ete)) by (rewrite E1; rewrite <- rnd_0; apply rnd_le; lra).
  assert (N2 : 0 <= R_ (fmul pwc (f_of_Z 1000))) by (rewrite E2; rewrite <- rnd_0; apply rnd_le; lra).
  assert (N3 : 0 <= R_ (fmul idt (f_of_Z 1000))) by (rewrite E3; rewrite <- rnd_0; apply rnd_le; lra).
  assert (W1 : vf (fmul raw ete)) by auto with vf. assert (W2 : vf (fmul pwc (f_of_Z 1000))) by auto with vf. assert (W3 : vf (fmul idt (f_of_Z 1000))) by auto with vf.
  set (a := fmul raw ete) in *. set (b := fmul pwc (f_of_Z 1000)) in *. set (c := fmul idt (f_of_Z 1000)) in *. clearbody a b c. rewrite U in *.
  destruct (fadd_ok a b 40) as [E4 G4]; auto; [lia|rewrite Rabs_right by lra; change (bpow radix2 40) with 1099511627776; lra|].
  pose proof (rnd_e (R_ a + R_ b) (R_ a + R_ b) ltac:(apply Req_le, Rabs_right; lra) ltac:(lra)) as Q4. rewrite <- E4 in Q4. apply Rabs_le_inv in Q4.
  assert (N4 : 0 <= R_ (fadd a b)) by (rewrite E4; rewrite <- rnd_0; apply rnd_le; lra). assert (W4 : vf (fadd a b)) by auto with vf. set (d := fadd a b) in *. clearbody d. rewrite U in *.
  destruct (fadd_ok d c 40) as [E5 G5]; auto; [lia|rewrite Rabs_right by lra; change (bpow radix2 40) with 1099511627776; lra|].
  pose proof (rnd_e (R_ d + R_ c) (R_ d + R_ c) ltac:(apply Req_le, Rabs_right; lra) ltac:(lra)) as Q5. rewrite <- E5 in Q5. apply Rabs_le_inv in Q5. rewrite U in *.
  set (y := x * R_ ete) in *. clearbody y. cbv zeta. split; lra.
Qed.
