(** C79: the injection is the amount of fuel the configuration asks for. *)
Require Import ZArith Reals Lia Lra Bool List.
Require Import Coq.Floats.SpecFloat.
From Flocq Require Import Core.
From Verif Require Import Res Word F32 F32Flocq TimeProofs Table TableSpec TableProofs AngleProofs RelErr Interval Calc CalcSpec CalcProofs FuelProofs FuelSpec FuelAccuracy P_Calc DefaultConfig.
Import ListNotations.
Open Scope Z_scope.
Ltac Zify.zify_post_hook ::= idtac.

Lemma u32_of f z : f_to_u32 f = Ok z -> fin f -> (0 <= R_ f)%R -> (R_ f - 1 < IZR z <= R_ f)%R.
Proof.
  intros E F P. unfold f_to_u32 in E. rewrite f_to_range_fin in E by auto. destruct (Ztrunc_pos_bounds (R_ f) P) as [T1 T2].
  destruct ((0 <=? Ztrunc (R_ f)) && (Ztrunc (R_ f) <=? W - 1)); [|discriminate]. assert (z = Ztrunc (R_ f)) by congruence. subst z. lra.
Qed.
Lemma close_fb k f x lo hi : fb k f x lo hi -> (k <= 80)%R -> close f x.
Proof. intros [(V & F & (A & B & C)) D] K. split; [exact F|]. rewrite ur_val in C. assert (x * k <= x * 80)%R by (apply Rmult_le_compat_l; lra). apply Rabs_le. lra. Qed.

Lemma fueling_close nd k now rpm s v c : cfg_in_range k -> sens_in_range s -> 0 <= rpm < 2 ^ 32 -> tip_ok c ->
  exists v' c', calculate_fueling nd k now rpm s v c = Ok (v', c') /\
  reads2 nd (k_ve k) (f_of_Z rpm) (s_map s) 100 (cv_ve v') /\ reads2 nd (k_lambda k) (f_of_Z rpm) (s_map s) 1 (cv_lambda v') /\
  reads1 nd (k_idt k) (s_brv s) 1 (cv_idt v') /\
  (cranking k rpm s -> cv_ete v' = fu_crank_amt (k_fuel k)) /\ (~ cranking k rpm s -> reads2 nd (k_ete k) (s_clt s) (s_map s) 1 (cv_ete v')) /\
  calculate_tipin_enrichment nd k now (s_tps s) (s_tpsrate s) rpm c = Ok (cv_tipin v', c') /\
  (breathing k s (R_ (cv_ve v')) ->
   let air := air_grams (k_fuel k) (R_ (cv_ve v')) (R_ (s_map s)) (R_ (s_iat s)) in let cc := fuel_cc (k_fuel k) air (R_ (s_frt s)) (R_ (cv_lambda v')) in let pulse := open_us (k_fuel k) cc (R_ (cv_tipin v')) in
   close (cv_airmass v') air /\ close (cv_fuelvol v') cc /\
   exists ms, close ms (pulse / 1000) /\ reads1 nd (k_pwc k) ms 0 (cv_pwc v') /\
   let total := (pulse * R_ (cv_ete v') + 1000 * R_ (cv_pwc v') + 1000 * R_ (cv_idt v'))%R in
   (total * (1 - 5 / 1000000) - 1 - / 1000000 <= IZR (cv_fueling v') <= total * (1 + 5 / 1000000) + / 1000000)%R).
Proof.
  intros K S Hr C. unfold calculate_fueling.
  assert (Vr : vf (f_of_Z rpm)) by auto with vf. assert (Nr : not_nan (f_of_Z rpm)) by (apply nn_of_Z; lia).
  assert (Nm : number (s_map s)) by (destruct (in_map s S) as (? & ? & _); split; auto). apply nnum in Nm. destruct Nm as [Vm Nm].
  destruct (nnum _ (in_brv s S)) as [Vb Nb]. destruct (nnum _ (in_clt s S)) as [Vc Nc].
  assert (D2 : forall t x y d r, table2_or nd t x y (f_of_Z d) = Ok r -> reads2 nd t x y d r) by (intros [t|] x y d r E; cbn [table2_or reads2] in *; congruence).
  assert (D1 : forall t x d r, table1_or nd t x (f_of_Z d) = Ok r -> reads1 nd t x d r) by (intros [t|] x d r E; cbn [table1_or reads1] in *; congruence).
  destruct (t2_or nd (k_ve k) 0 256 (f_of_Z rpm) (s_map s) (f_of_Z 100)) as (ve & Eve & Ive & _); auto; try lra.
  { apply (in_ve k K). } { apply b2_60; lra. } { eapply iv_weak; [apply (iv_Z 100); lia|lra|lra]. }
  rewrite Eve. cbn [bind].
  destruct (t2_or nd (k_lambda k) (1/2) 8 (f_of_Z rpm) (s_map s) (f_of_Z 1)) as (la & Ela & Ila & Lla); auto; try lra.
  { apply (in_lambda k K). } { apply b2_60; lra. } { eapply iv_weak; [apply (iv_Z 1); lia|lra|lra]. }
  rewrite Ela. cbn [bind].
  assert (R128 : rep (2 * 64)) by (replace (2 * 64)%R with 128%R by lra; repz).
  destruct (t1_or nd (k_idt k) 64 (s_brv s) (f_of_Z 1)) as (idt & Eid & Iid); auto; try lra; try repz.
  { apply (in_idt k K). } { eapply iv_weak; [apply (iv_Z 1); lia|lra|lra]. }
  rewrite Eid. cbn [bind].
  destruct (t2_or nd (k_ete k) 0 4 (s_clt s) (s_map s) (f_of_Z 1)) as (ete & Eet & Iet & _); auto; try lra.
  { apply (in_ete k K). } { apply b2_60; lra. } { eapply iv_weak; [apply (iv_Z 1); lia|lra|lra]. }
  rewrite Eet. cbn [bind].
  set (crank := flt (f_of_Z rpm) (fu_crank_rpm (k_fuel k)) && flt (s_clt s) (fu_crank_temp (k_fuel k))).
  assert (Cr : crank = true <-> cranking k rpm s) by (unfold crank, cranking; rewrite andb_true_iff; tauto).
  set (e := if crank then fu_crank_amt (k_fuel k) else ete).
  assert (Ie : iv e 0 (33/8)).
  { unfold e. destruct crank; [eapply iv_weak; [apply (in_crank k K)|lra|lra]|eapply iv_weak; [exact Iet|lra|lra]]. }
  destruct (tipin_range nd k now rpm s c K S Hr C) as (tip & c' & Et & C' & It). rewrite Et. cbn [bind].
  pose proof (airmass_range k ve (s_map s) (s_iat s) K Ive (in_map s S) (in_iat s S)) as Am.
  pose proof (airmass_fb k s ve K S Ive) as Af.
  set (am := calculate_airmass _ _ _ _) in *. clearbody am.
  pose proof (volume_range k am (s_frt s) K Am (in_frt s S)) as Vo.
  assert (Il : iv la (7/16) 9). { destruct Ila as (A & B & D). split; [exact A|]. split; [exact B|]. lra. }
  assert (Vf : forall air, fb 38 am air (1 / 200000) 182 -> fb 58 (fdiv (calculate_fuel_volume (k_fuel k) am (s_frt s)) la) (fuel_cc (k_fuel k) air (R_ (s_frt s)) (R_ la)) (1 / 300000000) 335) by (intros air A; now apply fuelvol_fb).
  set (fv := calculate_fuel_volume _ _ _) in *. clearbody fv.
  assert (Iv : iv (fdiv fv la) 0 334) by (eapply iv_div; [exact Vo|exact Il|repz|repz|lra|lra|lra|lra|lra]).
  set (vol := fdiv fv la) in *. clearbody vol.
  pose proof (raw_range k vol tip K Iv It) as Ir.
  assert (Rf : forall cc, fb 58 vol cc (1 / 300000000) 335 -> fb 73 (raw_pulse_us (k_fuel k) vol tip) (open_us (k_fuel k) cc (R_ tip)) (1 / 100000000) 158000000) by (intros cc A; now apply raw_fb).
  set (raw := raw_pulse_us _ _ _) in *. clearbody raw.
  assert (Iq : iv (fdiv raw (f_of_Z 1000)) 0 157500) by (eapply iv_divc; [exact Ir|apply (iv_Z 1000); lia|repz|repz|lra|lra|lra]).
  destruct (t1_or nd (k_pwc k) 64 (fdiv raw (f_of_Z 1000)) f_zero) as (pwc & Epw & Ip); auto; try lra; try repz.
  { apply (in_pwc k K). } { exact (iv_vf _ _ _ Iq). } { apply nn_fin. exact (iv_fin _ _ _ Iq). }
  { split; [reflexivity|]. split; [reflexivity|]. rewrite R_f_zero. lra. }
  rewrite Epw. cbn [bind].
  assert (It' : iv (total_pulse_us raw e pwc idt) 0 (IZR 651000000)).
  { apply total_range; auto; eapply iv_weak; eauto; lra. }
  destruct (iv_to_u32 _ _ It') as (us & Eu & Bu); [unfold W; lia|]. rewrite Eu. cbn [bind].
  exists (Cvals (cv_advance v) (cv_dwell v) (cv_rpm_cut v) (cv_boost_cut v) (cv_over_cut v) us tip am vol idt pwc la ve e), c'. split; [reflexivity|]. cbn [cv_ve cv_lambda cv_idt cv_ete cv_tipin cv_airmass cv_fuelvol cv_pwc cv_fueling].
  split; [now apply D2|]. split; [now apply D2|]. split; [now apply D1|].
  split; [intros H; apply Cr in H; unfold e; now rewrite H|]. split; [intros H; unfold e; destruct crank; [tauto|now apply D2]|]. split; [reflexivity|].
  intros Br. cbv zeta. specialize (Af Br). specialize (Vf _ Af). specialize (Rf _ Vf).
  split; [eapply close_fb; [exact Af|lra]|]. split; [eapply close_fb; [exact Vf|lra]|].
  exists (fdiv raw (f_of_Z 1000)). split; [|split].
  - pose proof (fb_div _ _ _ _ _ _ _ _ _ _ Rf (fb_Z 1000 ltac:(lia)) ltac:(lra) ltac:(lra) ltac:(lra) ltac:(lra) ltac:(lra) ltac:(lra) ltac:(lra)) as Q. eapply close_fb; [exact Q|lra].
  - apply D1. exact Epw.
  - assert (I1 : iv pwc 0 128) by (eapply iv_weak; eauto; lra). assert (I2 : iv idt 0 128) by (eapply iv_weak; eauto; lra).
    pose proof (total_close _ _ _ _ _ Rf Ie I1 I2) as T. cbv zeta in T. destruct It' as (_ & Ft & Bt). pose proof (u32_of _ _ Eu Ft ltac:(lra)) as Tr. lra.
Qed.

(** After any history of calls with configuration and readings in range, the next
    computation takes the efficiency, lambda, dead time, enrichments from the tables (or
    their defaults) at the current speed, pressure, voltage and temperature, and for an
    engine that breathes its results are the air mass, the fuel volume and the injection
    time of [FuelSpec], to five parts in a million and a microsecond. *)
Theorem C79_injection : forall nd acts v c k now rpm s, Forall act_in_range acts -> crun nd cvals_init tipin_init acts = Ok (v, c) ->
  cfg_in_range k -> sens_in_range s -> 0 <= rpm < 2 ^ 32 ->
  exists v' c', calculate_fueling nd k now rpm s v c = Ok (v', c') /\
  reads2 nd (k_ve k) (f_of_Z rpm) (s_map s) 100 (cv_ve v') /\ reads2 nd (k_lambda k) (f_of_Z rpm) (s_map s) 1 (cv_lambda v') /\
  reads1 nd (k_idt k) (s_brv s) 1 (cv_idt v') /\
  (cranking k rpm s -> cv_ete v' = fu_crank_amt (k_fuel k)) /\ (~ cranking k rpm s -> reads2 nd (k_ete k) (s_clt s) (s_map s) 1 (cv_ete v')) /\
  calculate_tipin_enrichment nd k now (s_tps s) (s_tpsrate s) rpm c = Ok (cv_tipin v', c') /\
  (breathing k s (R_ (cv_ve v')) ->
   let air := air_grams (k_fuel k) (R_ (cv_ve v')) (R_ (s_map s)) (R_ (s_iat s)) in let cc := fuel_cc (k_fuel k) air (R_ (s_frt s)) (R_ (cv_lambda v')) in let pulse := open_us (k_fuel k) cc (R_ (cv_tipin v')) in
   close (cv_airmass v') air /\ close (cv_fuelvol v') cc /\
   exists ms, close ms (pulse / 1000) /\ reads1 nd (k_pwc k) ms 0 (cv_pwc v') /\
   let total := (pulse * R_ (cv_ete v') + 1000 * R_ (cv_pwc v') + 1000 * R_ (cv_idt v'))%R in
   (total * (1 - 5 / 1000000) - 1 - / 1000000 <= IZR (cv_fueling v') <= total * (1 + 5 / 1000000) + / 1000000)%R).
Proof.
  intros nd acts v c k now rpm s Fa Er K S Hr. destruct (history_range nd acts cvals_init tipin_init Fa) as (v1 & c1 & E & T & _).
  - split; [reflexivity|]. split; [reflexivity|]. cbn [tipin_init tp_amount]. rewrite R_f_zero. lra.
  - cbn. lia.
  - assert (c1 = c) by congruence. subst c1. now apply fueling_close.
Qed.
Print Assumptions C79_injection.

(** The default configuration at 2000 rpm and 90 kPa meets the conditions, and its pulse of 5745 us is the
    one specified. *)
Example C79_example : exists v c, calculate_fueling true default_calc 0 2000 ex_sens cvals_init tipin_init = Ok (v, c) /\ cv_fueling v = 5745 /\
  cfg_in_range default_calc /\ sens_in_range ex_sens /\ breathing default_calc ex_sens (R_ (cv_ve v)).
Proof.
  eexists _, _. split; [vm_compute; reflexivity|]. split; [cbn [cv_fueling]; reflexivity|]. split; [exact C34_default_cfg|]. split; [exact C34_ex_sens|].
  assert (Q : forall x y, fle x y = true -> vf x -> vf y -> fin x -> fin y -> (R_ x <= R_ y)%R) by (intros x y H ? ? ? ?; apply fle_iff in H; auto).
  unfold breathing. split; [rewrite <- (R_flit_int 5) by lia; apply Q; vm_compute; reflexivity|]. split; [rewrite <- (R_flit_int 5) by lia; apply Q; vm_compute; reflexivity|].
  split; [rewrite <- (R_flit_int 50) by lia; apply Q; vm_compute; reflexivity|].
  apply Rle_trans with (R_ (flit 1 4096)); [|apply Q; vm_compute; reflexivity].
  replace (flit 1 4096) with (S754_finite false 8388608 (-35)) by (vm_compute; reflexivity). unfold R_; cbn; unfold F2R; simpl; lra.
Qed.

(** ** C80 *)
(** The advance is what the timing table says at the speed and pressure; the dwell is the configured time, or
    the table's milliseconds for the battery voltage, or the time of an eighth of a turn at the speed; nothing
    else changes. *)
Theorem C80_ignition : forall nd k rpm s v, cfg_in_range k -> sens_in_range s -> 1 <= rpm <= 2 ^ 24 ->
  exists v', calculate_ignition nd k rpm s v = Ok v' /\
  (exists t, k_timing k = Some t /\ interpolate_table_twoaxis nd t (f_of_Z rpm) (s_map s) = Ok (cv_advance v')) /\
  match k_dwell_type k with
  | FIXED_TIME => (R_ (k_dwell_us k) - 1 < IZR (cv_dwell v') <= R_ (k_dwell_us k))%R
  | BRV => exists t ms, k_dwell k = Some t /\ interpolate_table_oneaxis nd t (s_brv s) = Ok ms /\ (Rabs (IZR (cv_dwell v') - 1000 * R_ ms) <= 1 + / 50)%R
  | FIXED_DUTY => let eighth := (60 * 1000000 / IZR rpm / 8)%R in (Rabs (IZR (cv_dwell v') - eighth) <= 5 / 4 + eighth / 4000000)%R
  end /\
  v' = Cvals (cv_advance v') (cv_dwell v') (cv_rpm_cut v) (cv_boost_cut v) (cv_over_cut v) (cv_fueling v) (cv_tipin v) (cv_airmass v) (cv_fuelvol v) (cv_idt v) (cv_pwc v) (cv_lambda v) (cv_ve v) (cv_ete v).
Proof.
  intros nd k rpm s v K S Hr. unfold calculate_ignition. destruct (in_timing k K) as (t & lo & hi & Et & U). rewrite Et. cbn [deref bind].
  assert (Nm : number (s_map s)) by (destruct (in_map s S) as (? & ? & _); split; auto). apply nnum in Nm. destruct Nm as [Vm Nm].
  destruct (look2_ok nd t lo hi (f_of_Z rpm) (s_map s)) as [adv Ea]; auto with vf. { apply nn_of_Z; lia. } rewrite Ea. cbn [bind].
  destruct (k_dwell_type k) eqn:E.
  - destruct (f_of_Z_exact 45) as [X F]; [lia|]. destruct (time_from_rpm_accuracy rpm (f_of_Z 45)) as (x & Ex & Bx & Ac); auto with vf; [rewrite X; lra|]. rewrite Ex. cbn [bind].
    eexists. split; [reflexivity|]. cbn [cv_advance cv_dwell]. split; [eauto|]. split; [|reflexivity]. rewrite X in Ac. cbv zeta in *. change (TICKRATE / 1000000) with 4.
    pose proof (Z.div_mod x 4 ltac:(lia)) as M. pose proof (Z.mod_pos_bound x 4 ltac:(lia)) as B. set (q := x / 4) in *. clearbody q.
    assert (Rq : (IZR x - 3 <= 4 * IZR q <= IZR x)%R) by (rewrite <- mult_IZR, <- minus_IZR; split; apply IZR_le; lia).
    assert (R1 : (1 <= IZR rpm)%R) by (apply IZR_le; lia).
    replace (60 * 1000000 / IZR rpm / 8)%R with (2000000 / 3 * 45 / IZR rpm / 4)%R by (field; lra). set (y := (2000000 / 3 * 45 / IZR rpm)%R) in *. apply Rabs_le_inv in Ac. apply Rabs_le.
    assert (0 <= y)%R by (unfold y; apply Rle_trans with (30000000 * / IZR rpm)%R; [apply Rmult_le_pos; [lra|left; apply Rinv_0_lt_compat; lra]|unfold Rdiv; lra]). lra.
  - pose proof (in_dwell_us k K E) as I. destruct (iv_to_u32 (k_dwell_us k) 1000000) as (z & Ez & _); [exact I|unfold W; lia|]. rewrite Ez. cbn [bind].
    eexists. split; [reflexivity|]. cbn [cv_advance cv_dwell]. split; [eauto|]. split; [|reflexivity]. destruct I as (_ & F & B). apply u32_of; auto. lra.
  - destruct (in_dwell_t k K E) as (td & Ed & Ud). rewrite Ed. cbn [deref bind]. destruct (nnum _ (in_brv s S)) as [Vb Nb].
    destruct (look1 nd td 100 (s_brv s)) as (x & Ex & Ix); auto; try repz. { replace (2 * 100)%R with 200%R by lra. repz. } rewrite Ex. cbn [bind].
    assert (Im : iv (fmul (f_of_Z 1000) x) 0 200000) by (eapply iv_mul; [apply (iv_Z 1000); lia|exact Ix|repz|repz|lra|lra|lra|lra]).
    destruct (iv_to_u32 (fmul (f_of_Z 1000) x) 200000) as (z & Ez & _); [exact Im|unfold W; lia|]. rewrite Ez. cbn [bind].
    eexists. split; [reflexivity|]. cbn [cv_advance cv_dwell]. split; [eauto|]. split; [|reflexivity]. exists td, x. split; [reflexivity|]. split; [exact Ex|].
    destruct Im as (_ & Fm & Bm). pose proof (u32_of _ _ Ez Fm ltac:(lra)) as T. destruct Ix as (Vx & Fx & Bx). destruct (f_of_Z_exact 1000) as [X F]; [lia|].
    destruct (fmul_ok (f_of_Z 1000) x 40) as [Er _]; auto with vf; [lia|rewrite X, Rabs_right by lra; change (bpow radix2 40) with 1099511627776%R; lra|]. rewrite X in Er.
    pose proof (rnd_e (1000 * R_ x) 200000 ltac:(rewrite Rabs_right; lra) ltac:(lra)) as Q. rewrite <- Er in Q. rewrite ur_val in Q. apply Rabs_le_inv in Q. apply Rabs_le. lra.
Qed.
Print Assumptions C80_ignition.

(** ** C81 *)
(** After any history in range, the cut decision is true when the rev limiter is active (C31), when the
    manifold pressure is above the overboost limit, or when the injection is longer than its share of the
    cycle; and only then, with a margin of one part in a million and a microsecond for the last. *)
Theorem C81_cut : forall nd acts v c k rpm s, Forall act_in_range acts -> crun nd cvals_init tipin_init acts = Ok (v, c) ->
  1 <= rpm <= 2 ^ 24 -> 1 <= fu_inj (k_fuel k) <= 1000 -> number (s_map s) -> number (k_overboost k) ->
  exists b v', ignition_cut k rpm s v = Ok (b, v') /\
  let limited := rev_limited (rpm_samples acts ++ [RpmSample rpm (k_rpm_stop k) (k_rpm_start k)]) in
  let boost := (R_ (k_overboost k) < R_ (s_map s))%R in let share := (120 * 1000000 / IZR rpm / IZR (fu_inj (k_fuel k)))%R in let us := IZR (cv_fueling v) in
  (limited \/ boost \/ (share * (1 + / 1000000) + 1 <= us)%R -> b = true) /\
  (b = true -> limited \/ boost \/ (share * (1 - / 1000000) - 1 <= us)%R) /\
  v' = set_cuts v (cv_rpm_cut v') (cv_boost_cut v') (cv_over_cut v').
Proof.
  intros nd acts v c k rpm s Fa Er Hr Hi [Vm Fm] [Vo Fo]. destruct (history_range nd acts cvals_init tipin_init Fa) as (v1 & c1 & E & _ & Bf); [|cbn; lia|].
  { split; [reflexivity|]. split; [reflexivity|]. cbn [tipin_init tp_amount]. rewrite R_f_zero. lra. }
  assert (v1 = v) by congruence. subst v1. destruct (cut_range k rpm s v Hr ltac:(lia) Bf) as (b & v' & Ec & _).
  exists b, v'. split; [exact Ec|]. cbv zeta. pose proof (C31_cut nd acts v c k rpm s b v' Er Ec) as [L1 _].
  assert (E' : crun nd cvals_init tipin_init (acts ++ [ActCut k rpm s]) = Ok (v', c)) by (rewrite crun_app, Er; cbn [bind crun cstep]; rewrite Ec; reflexivity).
  destruct (hysteresis _ _ _ _ E') as [Z01 H]. rewrite rpm_samples_app in H. cbn [rpm_samples] in H.
  set (lim := rev_limited (rpm_samples acts ++ [RpmSample rpm (k_rpm_stop k) (k_rpm_start k)])) in *. clearbody lim.
  unfold ignition_cut in Ec. destruct (rpm_cut k rpm v) as [r v1] eqn:E1. pose proof E1 as E1'. apply rpm_cut_flag in E1'. destruct E1' as [_ Ef].
  assert (G1 : v1 = set_cuts v (cv_rpm_cut v1) (cv_boost_cut v1) (cv_over_cut v1)) by (unfold rpm_cut in E1; assert (v1 = snd (r, v1)) as -> by reflexivity; rewrite <- E1; reflexivity).
  assert (Ff : cv_fueling v1 = cv_fueling v) by (rewrite G1; reflexivity).
  destruct r.
  { assert (b = true) by congruence. assert (v' = v1) by congruence. subst b v'. split; [auto|]. split; [|exact G1]. intros _. left. apply H. destruct Z01 as [Z|Z]; [|exact Z]. rewrite Z in Ef. discriminate. }
  destruct (f_of_Z_exact 720) as [X Fx]; [lia|]. destruct (time_from_rpm_accuracy rpm (f_of_Z 720)) as (t & Et & Bt & Ac); auto with vf; [rewrite X; lra|]. rewrite X in Ac. cbv zeta in Ac.
  destruct (time_from_us_ok (cv_fueling v) Bf) as [p Ep].
  assert (Ap : 2 ^ 24 * Z.abs (p - 4 * cv_fueling v) <= 4 * cv_fueling v).
  { destruct (Z_le_gt_dec (cv_fueling v) (2 ^ 24)); [rewrite time_from_us_exact in Ep by lia; assert (p = 4 * cv_fueling v) by congruence; subst p; rewrite Z.sub_diag; cbn [Z.abs]; lia|].
    destruct (time_from_us_approx (cv_fueling v)) as (p' & Ep' & A); [lia|]. assert (p' = p) by congruence. now subst p'. }
  set (us := cv_fueling v) in *. set (inj := fu_inj (k_fuel k)) in *.
  assert (O : fuel_overduty k rpm v1 = Ok (t / inj <=? p, set_cuts v1 (cv_rpm_cut v1) (cv_boost_cut v1) (b2z (t / inj <=? p)))).
  { unfold fuel_overduty. rewrite Et. cbn [bind]. fold inj. destruct (Z.eqb_spec inj 0); [lia|]. cbn [bind]. rewrite Ff. fold us. rewrite Ep. reflexivity. }
  rewrite O in Ec. cbn [bind] in Ec.
  assert (Rr : (1 <= IZR rpm)%R) by (apply IZR_le; lia). assert (Ri : (1 <= IZR inj <= 1000)%R) by (split; apply IZR_le; lia).
  assert (Rp : (4 * IZR us * (1 - / 16777216) <= IZR p <= 4 * IZR us * (1 + / 16777216))%R).
  { assert (A1 : (IZR (2 ^ 24 * (p - 4 * us)) <= IZR (4 * us))%R) by (apply IZR_le; lia). assert (A2 : (IZR (2 ^ 24 * (4 * us - p)) <= IZR (4 * us))%R) by (apply IZR_le; lia).
    rewrite mult_IZR, minus_IZR, mult_IZR in A1. rewrite mult_IZR, minus_IZR, mult_IZR in A2. change (IZR (2 ^ 24)) with 16777216%R in *. lra. }
  assert (Us0 : (0 <= IZR us)%R) by (apply IZR_le; lia).
  pose proof (Z.div_mod t inj ltac:(lia)) as M. pose proof (Z.mod_pos_bound t inj ltac:(lia)) as B. set (q := t / inj) in *. clearbody q.
  set (share := (120 * 1000000 / IZR rpm / IZR inj)%R).
  assert (Sh : (0 < share)%R) by (unfold share; apply Rdiv_lt_0_compat; [apply Rdiv_lt_0_compat|]; lra).
  assert (Ex : (2000000 / 3 * 720 / IZR rpm = 4 * share * IZR inj)%R) by (unfold share; field; lra). rewrite Ex in Ac. apply Rabs_le_inv in Ac.
  assert (Q1 : (IZR q * IZR inj <= IZR t <= IZR q * IZR inj + IZR inj)%R) by (rewrite <- !mult_IZR, <- plus_IZR; split; apply IZR_le; lia).
  assert (Q2 : (IZR q <= 4 * share * (1 + / 4194304) + 1)%R).
  { apply Rmult_le_reg_r with (IZR inj); [lra|]. assert (4 * share * (1 + / 4194304) * IZR inj = 4 * share * IZR inj * (1 + / 4194304))%R by ring. set (z := (4 * share * IZR inj)%R) in *. lra. }
  assert (Q3 : (4 * share * (1 - / 4194304) - 2 <= IZR q)%R).
  { apply Rmult_le_reg_r with (IZR inj); [lra|]. assert (4 * share * (1 - / 4194304) * IZR inj = 4 * share * IZR inj * (1 - / 4194304))%R by ring. set (z := (4 * share * IZR inj)%R) in *. lra. }
  assert (Duty1 : (share * (1 + / 1000000) + 1 <= IZR us)%R -> (q <=? p) = true) by (intros D; apply Z.leb_le, le_IZR; lra).
  assert (Duty2 : (q <=? p) = true -> (share * (1 - / 1000000) - 1 <= IZR us)%R) by (intros D; apply Z.leb_le, IZR_le in D; lra).
  destruct (q <=? p) eqn:D.
  { assert (b = true) by congruence. assert (v' = set_cuts v1 (cv_rpm_cut v1) (cv_boost_cut v1) (b2z true)) by congruence. subst b v'. split; [auto|]. split; [auto|]. rewrite G1. reflexivity. }
  unfold boost_cut in Ec. assert (Eb : b = fgt (s_map s) (k_overboost k)) by congruence.
  assert (Ev : v' = set_cuts (set_cuts v1 (cv_rpm_cut v1) (cv_boost_cut v1) (b2z false)) (cv_rpm_cut v1) (b2z b) (b2z false)) by (rewrite Eb; cbn [set_cuts cv_rpm_cut cv_over_cut] in Ec; congruence).
  assert (Bo : fgt (s_map s) (k_overboost k) = true <-> (R_ (k_overboost k) < R_ (s_map s))%R) by (unfold fgt; apply flt_iff; auto).
  split; [|split].
  - intros [Q|[Q|Q]]; [auto|rewrite Eb; now apply Bo|specialize (Duty1 Q); discriminate].
  - intros Q. right. left. apply Bo. congruence.
  - rewrite Ev, G1. reflexivity.
Qed.
Print Assumptions C81_cut.

(** The default configuration at 2000 rpm, with its three kinds of dwell. *)
Definition with_dwell (d : dwell_type) : ccfg :=
  CCfg (k_timing default_calc) (k_ve default_calc) None None None None (k_dwell default_calc) None None default_fueling d (f_of_Z 1500) 500 (f_of_Z 260) 6700 6200.
Example C80_example : map (fun d => match calculate_ignition true (with_dwell d) 2000 ex_sens cvals_init with Ok v => (f_trunc (cv_advance v), cv_dwell v) | Err _ => (None, 0) end) [FIXED_DUTY; FIXED_TIME; BRV] =
  [(Some 15, 3750); (Some 15, 1500); (Some 15, 2500)].
Proof. vm_compute. reflexivity. Qed.
(** 5.7 ms at 2000 rpm: no cut; at 260 kPa none, above that a cut. *)
Example C81_example : let s map := Sens (f_of_Z map) (f_of_Z 25) (f_of_Z 80) (f_of_Z 14) (f_of_Z 20) f_zero (f_of_Z 30) (f_of_Z 1) in
  let acts := [ActFuel default_calc 0 2000 ex_sens] in
  Forall act_in_range acts /\ number (k_overboost default_calc) /\
  exists v c, crun true cvals_init tipin_init acts = Ok (v, c) /\
  map (fun m => match ignition_cut default_calc 2000 (s m) v with Ok (b, _) => Some b | Err _ => None end) [90; 260; 261] = [Some false; Some false; Some true].
Proof.
  cbv zeta. split; [constructor; [split; [exact C34_default_cfg|split; [exact C34_ex_sens|lia]]|constructor]|]. split; [split; reflexivity|].
  eexists _, _. split; [vm_compute; reflexivity|]. vm_compute. reflexivity.
Qed.
