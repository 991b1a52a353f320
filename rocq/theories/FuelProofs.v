(** Range analysis of the fuelling computation (C34). *)
Require Import ZArith Reals Lia Lra Bool List.
Require Import Coq.Floats.SpecFloat.
From Flocq Require Import Core.
From Verif Require Import Res Word F32 F32Flocq TimeProofs Table TableSpec TableProofs AngleProofs Interval Calc CalcSpec CalcProofs.
Import ListNotations.
Open Scope Z_scope.
Ltac Zify.zify_post_hook ::= idtac.

Lemma rep_q n k : Z.abs n <= 2 ^ 24 -> 0 <= k <= 100 -> rep (IZR n / IZR (2 ^ k)).
Proof.
  intros H K. replace (IZR n / IZR (2 ^ k))%R with (IZR n * bpow radix2 (- k))%R; [apply rep_grid; lia|].
  rewrite bpow_opp. rewrite <- (IZR_Zpower radix2) by lia. reflexivity.
Qed.
Lemma rep_m n k : Z.abs n <= 2 ^ 24 -> 0 <= k <= 60 -> rep (IZR (n * 2 ^ k)).
Proof.
  intros H K. rewrite mult_IZR. change (2 ^ k) with (Zpower radix2 k). rewrite IZR_Zpower by lia. apply rep_grid; lia.
Qed.

Lemma rep_div64 n d k : d = IZR (2 ^ k) -> Z.abs n <= 2 ^ 24 -> 0 <= k <= 100 -> rep (IZR n / d).
Proof. intros ->. apply rep_q. Qed.
Ltac repz := first
  [ apply rep_Z; lia
  | match goal with |- rep (?n / ?d) => 
      let go k := (apply (rep_div64 _ d k); [reflexivity|lia|lia]) in
      first [ go 1 | go 2 | go 3 | go 4 | go 5 | go 9 | go 12 ] end ].

Lemma iv_6e7 : iv (f_of_Z 60000000) 60000000 60000000.
Proof.
  destruct (f_of_Z_u32 60000000) as [A B]; [lia|]. split; [auto with vf|]. split; [exact B|]. rewrite A.
  assert (E : rnd (IZR (234375 * 2 ^ 8)) = IZR (234375 * 2 ^ 8)) by apply (rep_m 234375 8 ltac:(lia) ltac:(lia)).
  change (234375 * 2 ^ 8) with 60000000 in E. lra.
Qed.
Lemma iv_kelvin : iv kelvin_offset 273 274.
Proof.
  unfold kelvin_offset. unfold flit. eapply iv_divc; [apply (iv_Z 27315); lia|apply (iv_Z 100); lia|repz|repz|lra|lra|lra].
Qed.

Lemma airmass_range k ve map iat : cfg_in_range k -> iv ve 0 (256 * (1 + / 100000)) -> iv map 0 512 -> iv iat (-100) 1000 ->
  iv (calculate_airmass (k_fuel k) ve map iat) 0 182.
Proof.
  intros K Ve Mp Ia. unfold calculate_airmass, air_density.
  assert (A1 : iv (fdiv ve (f_of_Z 100)) 0 (21 / 8)) by (eapply iv_divc; [exact Ve|apply (iv_Z 100); lia|repz|repz|lra|lra|lra]).
  assert (A2 : iv (fdiv map (f_of_Z 100)) 0 (21 / 4)) by (eapply iv_divc; [exact Mp|apply (iv_Z 100); lia|repz|repz|lra|lra|lra]).
  assert (A3 : iv (fmul (fdiv ve (f_of_Z 100)) (fdiv map (f_of_Z 100))) 0 14) by (eapply iv_mul; [exact A1|exact A2|repz|repz|lra|lra|lra|lra]).
  assert (A4 : iv (fmul (fmul (fdiv ve (f_of_Z 100)) (fdiv map (f_of_Z 100))) (fu_cyl (k_fuel k))) 0 57344)
    by (eapply iv_mul; [exact A3|apply (in_cyl k K)|repz|repz|lra|lra|lra|lra]).
  assert (B1 : iv (fadd iat kelvin_offset) 173 1274) by (eapply iv_add; [exact Ia|exact iv_kelvin|repz|repz|lra|lra]).
  assert (B2 : iv (fdiv kelvin_offset (fadd iat kelvin_offset)) 0 (13 / 8)) by (eapply iv_div; [exact iv_kelvin|exact B1|repz|repz|lra|lra|lra|lra|lra]).
  assert (B3 : iv (fmul (fu_rho_air (k_fuel k)) (fdiv kelvin_offset (fadd iat kelvin_offset))) 0 (13 / 4096))
    by (eapply iv_mul; [apply (in_air k K)|exact B2|repz|repz|lra|lra|lra|lra]).
  eapply iv_mul; [exact A4|exact B3|repz|repz|lra|lra|lra|lra].
Qed.

Lemma volume_range k am frt : cfg_in_range k -> iv am 0 182 -> iv frt (-100) 200 ->
  iv (calculate_fuel_volume (k_fuel k) am frt) 0 146.
Proof.
  intros K Am Fr. unfold calculate_fuel_volume, fuel_density.
  assert (A1 : iv (fdiv am (fu_stoich (k_fuel k))) 0 (91 / 2)) by (eapply iv_div; [exact Am|apply (in_stoich k K)|repz|repz|lra|lra|lra|lra|lra]).
  assert (B1 : iv (fsub frt (f_of_Z 15)) (-115) 185) by (eapply iv_sub; [exact Fr|apply (iv_Z 15); lia|repz|repz|lra|lra]).
  assert (B2 : iv (fmul (fsub frt (f_of_Z 15)) (f_of_Z 950)) (-109250) 175750) by (eapply iv_mulc; [exact B1|apply (iv_Z 950); lia|repz|repz|lra|lra|lra]).
  assert (B3 : iv (fdiv (fmul (fsub frt (f_of_Z 15)) (f_of_Z 950)) (f_of_Z 1000000)) (-1 / 8) (3 / 16))
    by (eapply iv_divc; [exact B2|apply (iv_Z 1000000); lia|repz|repz|lra|lra|lra]).
  assert (B4 : iv (fsub (fu_rho_fuel (k_fuel k)) (fdiv (fmul (fsub frt (f_of_Z 15)) (f_of_Z 950)) (f_of_Z 1000000))) (5 / 16) (17 / 8))
    by (eapply iv_sub; [apply (in_rho k K)|exact B3|repz|repz|lra|lra]).
  eapply iv_div; [exact A1|exact B4|repz|repz|lra|lra|lra|lra|lra].
Qed.

Lemma rep_big : rep 157500000 /\ rep 650000000 /\ rep 651000000.
Proof.
  split; [exact (rep_m 4921875 5 ltac:(lia) ltac:(lia))|]. split; [exact (rep_m 5078125 7 ltac:(lia) ltac:(lia))|].
  exact (rep_m 10171875 6 ltac:(lia) ltac:(lia)).
Qed.

Lemma raw_range k vol tip : cfg_in_range k -> iv vol 0 334 -> iv tip 0 1001 -> iv (raw_pulse_us (k_fuel k) vol tip) 0 157500000.
Proof.
  intros K Vo Ti. unfold raw_pulse_us. destruct rep_big as (R1 & R2 & R3).
  assert (A1 : iv (fdiv tip (f_of_Z 1000)) 0 (9 / 8)) by (eapply iv_divc; [exact Ti|apply (iv_Z 1000); lia|repz|repz|lra|lra|lra]).
  assert (A2 : iv (fadd vol (fdiv tip (f_of_Z 1000))) 0 336) by (eapply iv_add; [exact Vo|exact A1|repz|repz|lra|lra]).
  assert (A3 : iv (fdiv (fadd vol (fdiv tip (f_of_Z 1000))) (fu_cc_min (k_fuel k))) 0 (21 / 8))
    by (eapply iv_div; [exact A2|apply (in_ccmin k K)|repz|repz|lra|lra|lra|lra|lra]).
  assert (A4 : iv (fmul (fdiv (fadd vol (fdiv tip (f_of_Z 1000))) (fu_cc_min (k_fuel k))) (f_of_Z 60000000)) 0 157500000)
    by (eapply iv_mul; [exact A3|exact iv_6e7|repz|exact R1|lra|lra|lra|lra]).
  destruct (in_inj k K) as [I1 I2].
  assert (I : iv (f_of_Z (fu_inj (k_fuel k))) 1 16).
  { eapply iv_weak; [apply iv_Z; lia|apply (IZR_le 1); lia|apply (IZR_le _ 16); lia]. }
  eapply iv_div; [exact A4|exact I|repz|exact R1|lra|lra|lra|lra|lra].
Qed.

Lemma total_range raw ete pwc idt : iv raw 0 157500000 -> iv ete 0 (33 / 8) -> iv pwc 0 128 -> iv idt 0 128 ->
  iv (total_pulse_us raw ete pwc idt) 0 651000000.
Proof.
  intros Ra Et Pw Id. unfold total_pulse_us. destruct rep_big as (R1 & R2 & R3).
  assert (A1 : iv (fmul raw ete) 0 650000000) by (eapply iv_mul; [exact Ra|exact Et|repz|exact R2|lra|lra|lra|lra]).
  assert (A2 : iv (fmul pwc (f_of_Z 1000)) 0 128000) by (eapply iv_mul; [exact Pw|apply (iv_Z 1000); lia|repz|repz|lra|lra|lra|lra]).
  assert (A3 : iv (fmul idt (f_of_Z 1000)) 0 128000) by (eapply iv_mul; [exact Id|apply (iv_Z 1000); lia|repz|repz|lra|lra|lra|lra]).
  assert (R4 : rep 650240000) by exact (rep_m 10160000 6 ltac:(lia) ltac:(lia)).
  assert (A4 : iv (fadd (fmul raw ete) (fmul pwc (f_of_Z 1000))) 0 650240000) by (eapply iv_add; [exact A1|exact A2|repz|exact R4|lra|lra]).
  eapply iv_add; [exact A4|exact A3|repz|exact R3|lra|lra].
Qed.

(** Optional tables. *)
Lemma t2_or nd t lo hi x y d : opt_usable2 t lo hi -> (0 <= lo)%R -> (1 <= hi)%R -> (hi <= b2 60)%R ->
  vf x -> not_nan x -> vf y -> not_nan y -> iv d lo hi ->
  exists r, table2_or nd t x y d = Ok r /\ iv r 0 (hi * (1 + / 100000)) /\ (lo - hi * / 100000 <= R_ r)%R.
Proof.
  intros U L H1 H2 Vx Nx Vy Ny D. destruct t as [t|]; cbn [table2_or opt_usable2] in *.
  - now apply look2.
  - exists d. split; [reflexivity|]. split; [eapply iv_weak; [exact D|lra|lra]|]. destruct D as (_ & _ & D). lra.
Qed.
Lemma t1_or nd t hi x d : opt_usable1 t 0 hi -> rep hi -> rep (2 * hi) -> (0 <= hi)%R -> vf x -> not_nan x -> iv d 0 hi ->
  exists r, table1_or nd t x d = Ok r /\ iv r 0 (2 * hi).
Proof.
  intros U R1 R2 H Vx Nx D. destruct t as [t|]; cbn [table1_or opt_usable1] in *.
  - now apply look1.
  - exists d. split; [reflexivity|]. eapply iv_weak; [exact D|lra|lra].
Qed.

(** The enrichment remembered between calls. *)
Definition tip_ok (c : tipin) : Prop := iv (tp_amount c) 0 1001.

Lemma b2_60 r : (r <= 1000000)%R -> (r <= b2 60)%R.
Proof. intros. eapply Rle_trans; [exact H|]. unfold b2. eapply Rle_trans; [|apply (bpow_le radix2 24 60); lia]. simpl. lra. Qed.

Lemma nnum x : number x -> vf x /\ not_nan x.
Proof. intros [V F]. split; [exact V|now apply nn_fin]. Qed.

Lemma s32_range z : 0 <= z < 2 ^ 32 -> Z.abs (s32 z) <= 2 ^ 64.
Proof. intros. unfold s32, HALF, W. destruct (Z.ltb_spec z 2147483648); lia. Qed.

(** One tip-in computation. *)
Lemma tipin_range nd k now rpm s c : cfg_in_range k -> sens_in_range s -> 0 <= rpm < 2 ^ 32 -> tip_ok c ->
  exists r c', calculate_tipin_enrichment nd k now (s_tps s) (s_tpsrate s) rpm c = Ok (r, c') /\ tip_ok c' /\ iv r 0 1001.
Proof.
  intros K S Hr C. unfold calculate_tipin_enrichment.
  assert (Z0 : iv f_zero 0 1001) by (split; [reflexivity|split; [reflexivity|rewrite R_f_zero; lra]]).
  pose proof (in_tip_amt k K) as Ta. pose proof (in_tip_dur k K) as Td.
  destruct (k_tip_amt k) as [ta|]; [|exists f_zero, c; auto]. destruct (k_tip_dur k) as [td|]; [|exists f_zero, c; auto].
  cbn [opt_usable1 opt_usable2] in *.
  destruct (nnum _ (in_rate s S)) as [V1 N1]. destruct (nnum _ (in_tps s S)) as [V2 N2].
  destruct (look2 nd ta 0 1000 (s_tpsrate s) (s_tps s)) as (a & -> & Ia & _); auto; try lra. { apply b2_60; lra. }
  cbn [bind].
  destruct (look1 nd td 10000 (f_of_Z (s32 rpm))) as (d & -> & Id); auto; try (repz || lra); auto with vf.
  { replace (2 * 10000)%R with 20000%R by lra. repz. }
  { apply nn_of_Z. now apply s32_range. }
  assert (D1 : iv (fmul d (f_of_Z 1000)) 0 (IZR 20000000)).
  { eapply iv_mul; [exact Id|apply (iv_Z 1000); lia|repz| |lra|lra|lra|lra]. exact (rep_m 625000 5 ltac:(lia) ltac:(lia)). }
  destruct (iv_to_u32 _ _ D1) as (us & Eu & Bu); [unfold W; lia|].
  assert (exists len, time_from_us us = Ok len) as [len El].
  { destruct (Z_le_gt_dec us (2^24)); [eexists; apply time_from_us_exact; lia|].
    destruct (time_from_us_approx us) as (t & E & _); [lia|eauto]. }
  unfold tipin_update. set (act := tp_active c && _). clearbody act.
  assert (Ia' : iv a 0 1001) by (eapply iv_weak; [exact Ia|lra|lra]).
  destruct (fgt a (tp_amount c) || negb act); cbn [bind].
  - rewrite Eu. cbn [bind]. rewrite El. cbn [bind]. eexists _, _. split; [reflexivity|]. split; exact Ia'.
  - eexists _, _. split; [reflexivity|]. split; exact C.
Qed.

Lemma fueling_range nd k now rpm s v c : cfg_in_range k -> sens_in_range s -> 0 <= rpm < 2 ^ 32 -> tip_ok c ->
  exists v' c', calculate_fueling nd k now rpm s v c = Ok (v', c') /\ tip_ok c' /\ 0 <= cv_fueling v' <= 651000000.
Proof.
  intros K S Hr C. unfold calculate_fueling.
  assert (Vr : vf (f_of_Z rpm)) by auto with vf. assert (Nr : not_nan (f_of_Z rpm)) by (apply nn_of_Z; lia).
  assert (Nm : number (s_map s)) by (destruct (in_map s S) as (? & ? & _); split; auto). apply nnum in Nm. destruct Nm as [Vm Nm].
  destruct (nnum _ (in_brv s S)) as [Vb Nb]. destruct (nnum _ (in_clt s S)) as [Vc Nc].
  destruct (t2_or nd (k_ve k) 0 256 (f_of_Z rpm) (s_map s) (f_of_Z 100)) as (ve & -> & Ive & _); auto; try lra.
  { apply (in_ve k K). } { apply b2_60; lra. } { eapply iv_weak; [apply (iv_Z 100); lia|lra|lra]. }
  cbn [bind].
  destruct (t2_or nd (k_lambda k) (1/2) 8 (f_of_Z rpm) (s_map s) (f_of_Z 1)) as (la & -> & Ila & Lla); auto; try lra.
  { apply (in_lambda k K). } { apply b2_60; lra. } { eapply iv_weak; [apply (iv_Z 1); lia|lra|lra]. }
  cbn [bind].
  assert (R128 : rep (2 * 64)) by (replace (2 * 64)%R with 128%R by lra; repz).
  destruct (t1_or nd (k_idt k) 64 (s_brv s) (f_of_Z 1)) as (idt & -> & Iid); auto; try lra; try repz.
  { apply (in_idt k K). } { eapply iv_weak; [apply (iv_Z 1); lia|lra|lra]. }
  cbn [bind].
  destruct (t2_or nd (k_ete k) 0 4 (s_clt s) (s_map s) (f_of_Z 1)) as (ete & -> & Iet & _); auto; try lra.
  { apply (in_ete k K). } { apply b2_60; lra. } { eapply iv_weak; [apply (iv_Z 1); lia|lra|lra]. }
  cbn [bind].
  match goal with |- context [if ?b then ?x else ete] => set (e := if b then x else ete) end.
  assert (Ie : iv e 0 (33/8)).
  { unfold e. destruct (flt (f_of_Z rpm) _ && _); [eapply iv_weak; [apply (in_crank k K)|lra|lra]|eapply iv_weak; [exact Iet|lra|lra]]. }
  clearbody e.
  destruct (tipin_range nd k now rpm s c K S Hr C) as (tip & c' & -> & C' & It). cbn [bind].
  pose proof (airmass_range k ve (s_map s) (s_iat s) K Ive (in_map s S) (in_iat s S)) as Am.
  set (am := calculate_airmass _ _ _ _) in *. clearbody am.
  pose proof (volume_range k am (s_frt s) K Am (in_frt s S)) as Vo.
  set (fv := calculate_fuel_volume _ _ _) in *. clearbody fv.
  assert (Il : iv la (7/16) 9). { destruct Ila as (A & B & D). split; [exact A|]. split; [exact B|]. lra. }
  assert (Iv : iv (fdiv fv la) 0 334) by (eapply iv_div; [exact Vo|exact Il|repz|repz|lra|lra|lra|lra|lra]).
  set (vol := fdiv fv la) in *. clearbody vol.
  pose proof (raw_range k vol tip K Iv It) as Ir. set (raw := raw_pulse_us _ _ _) in *. clearbody raw.
  assert (Iq : iv (fdiv raw (f_of_Z 1000)) 0 157500) by (eapply iv_divc; [exact Ir|apply (iv_Z 1000); lia|repz|repz|lra|lra|lra]).
  destruct (t1_or nd (k_pwc k) 64 (fdiv raw (f_of_Z 1000)) f_zero) as (pwc & -> & Ip); auto; try lra; try repz.
  { apply (in_pwc k K). } { exact (iv_vf _ _ _ Iq). } { apply nn_fin. exact (iv_fin _ _ _ Iq). }
  { split; [reflexivity|]. split; [reflexivity|]. rewrite R_f_zero. lra. }
  cbn [bind].
  assert (It' : iv (total_pulse_us raw e pwc idt) 0 (IZR 651000000)).
  { apply total_range; auto; eapply iv_weak; eauto; lra. }
  destruct (iv_to_u32 _ _ It') as (us & -> & Bu); [unfold W; lia|]. cbn [bind].
  eexists _, _. split; [reflexivity|]. split; [exact C'|]. cbn [cv_fueling]. exact Bu.
Qed.

Lemma time_from_us_ok us : 0 <= us <= 651000000 -> exists t, time_from_us us = Ok t.
Proof.
  intros H. destruct (Z_le_gt_dec us (2^24)); [eexists; apply time_from_us_exact; lia|].
  destruct (time_from_us_approx us) as (t & E & _); [lia|eauto].
Qed.
Lemma time_720_ok rpm deg : 1 <= rpm <= 2 ^ 24 -> 0 <= deg <= 720 -> exists t, time_from_rpm_diff rpm (f_of_Z deg) = Ok t.
Proof.
  intros H D. destruct (f_of_Z_exact deg) as [A B]; [lia|].
  destruct (time_from_rpm_accuracy rpm (f_of_Z deg)) as (t & E & _); auto with vf; [|eauto].
  rewrite A. split; [apply (IZR_le 0); lia|apply (IZR_le _ 720); lia].
Qed.

Lemma cut_range k rpm s v : 1 <= rpm <= 2 ^ 24 -> 1 <= fu_inj (k_fuel k) -> 0 <= cv_fueling v <= 651000000 ->
  exists b v', ignition_cut k rpm s v = Ok (b, v') /\ cv_fueling v' = cv_fueling v.
Proof.
  intros Hr Hi Hv. unfold ignition_cut. destruct (rpm_cut k rpm v) as [r v1] eqn:E1.
  assert (F1 : cv_fueling v1 = cv_fueling v) by (unfold rpm_cut in E1; injection E1 as _ <-; reflexivity).
  destruct r; [eexists _, _; split; [reflexivity|exact F1]|].
  unfold fuel_overduty. destruct (time_720_ok rpm 720) as [t ->]; [lia|lia|]. cbn [bind].
  destruct (Z.eqb_spec (fu_inj (k_fuel k)) 0); [lia|]. cbn [bind]. rewrite F1.
  destruct (time_from_us_ok (cv_fueling v) Hv) as [p ->]. cbn [bind].
  destruct (t / fu_inj (k_fuel k) <=? p); eexists _, _; (split; [reflexivity|]); exact F1.
Qed.

Lemma ignition_range nd k rpm s v : cfg_in_range k -> sens_in_range s -> 1 <= rpm <= 2 ^ 24 ->
  exists v', calculate_ignition nd k rpm s v = Ok v' /\ cv_fueling v' = cv_fueling v.
Proof.
  intros K S Hr. unfold calculate_ignition. destruct (in_timing k K) as (t & lo & hi & -> & U). cbn [deref bind].
  assert (Nm : number (s_map s)) by (destruct (in_map s S) as (? & ? & _); split; auto). apply nnum in Nm. destruct Nm as [Vm Nm].
  destruct (look2_ok nd t lo hi (f_of_Z rpm) (s_map s)) as [adv ->]; auto with vf. { apply nn_of_Z; lia. } cbn [bind].
  assert (exists dw, match k_dwell_type k with
        | FIXED_DUTY => x <- time_from_rpm_diff rpm (f_of_Z 45) ;; Ok (x / (TICKRATE / 1000000))
        | FIXED_TIME => f_to_u32 (k_dwell_us k)
        | BRV => t <- deref (k_dwell k) ;; x <- interpolate_table_oneaxis nd t (s_brv s) ;; f_to_u32 (fmul (f_of_Z 1000) x)
        end = Ok dw) as [dw ->].
  { destruct (k_dwell_type k) eqn:E.
    - destruct (time_720_ok rpm 45) as [x ->]; [lia|lia|]. cbn [bind]. eauto.
    - destruct (iv_to_u32 (k_dwell_us k) 1000000) as (z & -> & _); [apply (in_dwell_us k K E)|unfold W; lia|eauto].
    - destruct (in_dwell_t k K E) as (td & -> & Ud). cbn [deref bind]. destruct (nnum _ (in_brv s S)) as [Vb Nb].
      destruct (look1 nd td 100 (s_brv s)) as (x & -> & Ix); auto; try repz. { replace (2 * 100)%R with 200%R by lra. repz. }
      cbn [bind]. destruct (iv_to_u32 (fmul (f_of_Z 1000) x) 200000) as (z & -> & _); [|unfold W; lia|eauto].
      eapply iv_mul; [apply (iv_Z 1000); lia|exact Ix|repz|repz|lra|lra|lra|lra]. }
  cbn [bind]. eexists. split; reflexivity.
Qed.

Lemma history_range nd acts : forall v c, Forall act_in_range acts -> tip_ok c -> 0 <= cv_fueling v <= 651000000 ->
  exists v' c', crun nd v c acts = Ok (v', c') /\ tip_ok c' /\ 0 <= cv_fueling v' <= 651000000.
Proof.
  induction acts as [|a acts IH]; intros v c F C V; [exists v, c; auto|].
  inversion F as [|? ? A F']; subst. cbn [crun].
  destruct a as [k rpm s|k rpm s|k now rpm s]; cbn [cstep act_in_range] in *; destruct A as (K & S & Hr).
  - destruct (cut_range k rpm s v) as (b & v1 & -> & E); auto; [apply (in_inj k K)|]. cbn [bind]. apply IH; auto. lia.
  - destruct (ignition_range nd k rpm s v) as (v1 & -> & E); auto. cbn [bind]. apply IH; auto. lia.
  - destruct (fueling_range nd k now rpm s v c) as (v1 & c1 & -> & E & B); auto. cbn [bind]. apply IH; auto.
Qed.
