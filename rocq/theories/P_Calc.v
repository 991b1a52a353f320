(** Properties C31, C33 and C34: rev limiter, tip-in enrichment and fuelling (src/calculations.c). *)
Require Import ZArith Reals Lia Lra Bool List.
Require Import Coq.Floats.SpecFloat.
From Flocq Require Import Core.
From Verif Require Import Res Word F32 F32Flocq TimeProofs Table TableSpec TableProofs Interval Calc CalcSpec CalcProofs FuelProofs DefaultConfig.
Import ListNotations.
Open Scope Z_scope.
Ltac Zify.zify_post_hook ::= idtac.

(** C31: after any history of calls the rev cut flag is set exactly when the engine speed reached the
    stop limit at some evaluation and has not been below the start limit since. *)
Theorem C31_hysteresis : forall nd acts v c, crun nd cvals_init tipin_init acts = Ok (v, c) ->
  (cv_rpm_cut v = 0 \/ cv_rpm_cut v = 1) /\ (cv_rpm_cut v = 1 <-> rev_limited (rpm_samples acts)).
Proof. exact hysteresis. Qed.
Print Assumptions C31_hysteresis.

(** The cut decision itself: with the present speed as the latest sample, limiting means a cut, and a cut
    without limiting is due to injector duty or boost. *)
Theorem C31_cut : forall nd acts v c k rpm s b v', crun nd cvals_init tipin_init acts = Ok (v, c) ->
  ignition_cut k rpm s v = Ok (b, v') ->
  let h := rpm_samples acts ++ [RpmSample rpm (k_rpm_stop k) (k_rpm_start k)] in
  (rev_limited h -> b = true) /\ (b = true -> rev_limited h \/ cv_over_cut v' = 1 \/ cv_boost_cut v' = 1).
Proof.
  intros nd acts v c k rpm s b v' E C h.
  assert (E' : crun nd cvals_init tipin_init (acts ++ [ActCut k rpm s]) = Ok (v', c)).
  { rewrite crun_app, E. cbn [bind crun cstep]. rewrite C. reflexivity. }
  destruct (hysteresis _ _ _ _ E') as [_ H]. rewrite rpm_samples_app in H. cbn [rpm_samples] in H. fold h in H.
  destruct (ignition_cut_flag _ _ _ _ _ _ C) as [_ F]. split.
  - intros L. apply F. apply H in L. lia.
  - intros ->. unfold ignition_cut in C. destruct (rpm_cut k rpm v) as [r v1] eqn:E1.
    apply rpm_cut_flag in E1. destruct E1 as [_ Er]. destruct r.
    + injection C as <-. left. apply H. destruct (hysteresis _ _ _ _ E') as [[Z|Z] _]; [|exact Z].
      rewrite Z in Er. discriminate.
    + right. apply bind_ok in C. destruct C as ([o v2] & C1 & C). destruct o.
      * injection C as <-. left. unfold fuel_overduty in C1. do 3 (apply bind_ok in C1; destruct C1 as (? & _ & C1)).
        injection C1 as Eo <-. cbn [set_cuts cv_over_cut]. now rewrite Eo.
      * right. unfold boost_cut in C. injection C as Eb <-. cbn [set_cuts cv_boost_cut]. now rewrite Eb.
Qed.
Print Assumptions C31_cut.

(** The default limits: cut at 6700, kept at 6300, released at 6199, not re-armed at 6500. *)
Definition ex_sens : sens := Sens (f_of_Z 90) (f_of_Z 25) (f_of_Z 80) (f_of_Z 14) (f_of_Z 20) (f_of_Z 1000) (f_of_Z 30) (f_of_Z 1).
Example C31_ex :
  let cut l := match crun true cvals_init tipin_init (map (fun r => ActCut default_calc r ex_sens) l) with Ok (v, _) => cv_rpm_cut v | Err _ => -1 end in
  map cut [[6000]; [6000; 6700]; [6000; 6700; 6300]; [6000; 6700; 6300; 6199]; [6000; 6700; 6300; 6199; 6500]] = [0; 1; 1; 0; 0].
Proof. vm_compute. reflexivity. Qed.

(** C33: over any history of calls at true instants, the amounts returned are those of a sequence of
    enrichments each of which stays in effect until its time is over or the table asks for more; when
    its time is over the table's present amount takes its place. *)
Theorem C33_tipin : forall nd calls samples t, Forall2 (tip_reads nd) calls samples -> tip_paced t samples ->
  exists rs c, tip_run nd tipin_init calls = Ok (rs, c) /\
  exists es, tip_trace None samples es /\ rs = map e_amount es.
Proof. intros nd calls samples t F P. apply (tip_history nd calls tipin_init None t); auto; reflexivity || exact I. Qed.
Print Assumptions C33_tipin.

(** Read off the trace: an enrichment in effect is not followed by a smaller one before its time is over ... *)
Theorem C33_held : forall e s e' ss es, tip_trace (Some e) (s :: ss) (e' :: es) ->
  ts_time s <= e_start e + e_length e -> e' = e \/ fgt (e_amount e') (e_amount e) = true.
Proof.
  intros e s e' ss es T L. inversion T as [|? ? ? ? ? N]; subst. inversion N as [|? ? L' G|? ? D]; subst; [auto|].
  destruct D as [D|D]; [lia|]. right. exact D.
Qed.
Print Assumptions C33_held.

(** ... after that the amount is the table's current one ... *)
Theorem C33_expired : forall e s e' ss es, tip_trace (Some e) (s :: ss) (e' :: es) ->
  e_start e + e_length e < ts_time s -> e_amount e' = ts_amount s.
Proof.
  intros e s e' ss es T L. inversion T as [|? ? ? ? ? N]; subst. inversion N as [|? ? L' G|? ? D]; subst; [lia|reflexivity].
Qed.
Print Assumptions C33_expired.

(** ... and every amount returned was produced by the table at that call or an earlier one. *)
Theorem C33_from_table : forall nd calls samples t, Forall2 (tip_reads nd) calls samples -> tip_paced t samples ->
  exists rs c, tip_run nd tipin_init calls = Ok (rs, c) /\
  forall i r, nth_error rs i = Some r -> exists j s, (j <= i)%nat /\ nth_error samples j = Some s /\ r = ts_amount s.
Proof.
  intros nd calls samples t F P. destruct (C33_tipin nd calls samples t F P) as (rs & c & E & es & T & ->).
  exists (map e_amount es), c. split; [exact E|].
  assert (G : forall e ss es, tip_trace e ss es -> forall i x, nth_error es i = Some x ->
    e = Some x \/ exists j s, (j <= i)%nat /\ nth_error ss j = Some s /\ e_amount x = ts_amount s).
  { clear. induction 1 as [|e s e' ss es N T IH]; intros i x Hx; [destruct i; discriminate|].
    assert (Q : e = Some e' \/ e_amount e' = ts_amount s) by (inversion N; subst; auto).
    destruct i as [|i]; cbn [nth_error] in Hx.
    - injection Hx as ->. destruct Q as [Q|Q]; [auto|]. right. exists O, s. auto.
    - destruct (IH _ _ Hx) as [A|(j & u & J1 & J2 & J3)].
      + injection A as ->. destruct Q as [Q|Q]; [auto|]. right. exists O, s. split; [lia|auto].
      + right. exists (S j), u. split; [lia|auto]. }
  intros i r Hi. rewrite nth_error_map in Hi. destruct (nth_error es i) as [x|] eqn:Ex; [|discriminate]. injection Hi as <-.
  destruct (G _ _ _ T _ _ Ex) as [A|A]; [discriminate|exact A].
Qed.
Print Assumptions C33_from_table.

(** The pacing is needed: if nothing is computed for a whole turn of the 32 bit tick counter (17.9
    minutes, an engine that stopped), an enrichment that ended long ago comes back. *)
Definition tip_at (now : Z) (rate : f32) : tip_call := TipCall default_calc now (f_of_Z 20) rate 1000.
Theorem C33_wrap_refuted : exists rs c, 
  tip_run true tipin_init [tip_at 0 (f_of_Z 1000); tip_at ((2 ^ 32 + 10) mod 2 ^ 32) f_zero] = Ok (rs, c) /\
  rs = [f_of_Z 30; f_of_Z 30] /\
  interpolate_table_twoaxis true tipin_vs_tpsrate_and_tps f_zero (f_of_Z 20) = Ok f_zero.
Proof. eexists _, _. split; [vm_compute; reflexivity|]. split; [reflexivity|]. vm_compute. reflexivity. Qed.
Print Assumptions C33_wrap_refuted.

(** The default tables: 30 mm^3 for 150 ms (600000 ticks) at 1000 rpm, then nothing. *)
Example C33_ex :
  let calls := [tip_at (2 ^ 32 - 5) (f_of_Z 1000); tip_at 100 f_zero; tip_at 599995 f_zero; tip_at 599996 f_zero] in
  let samples := [TipSample (2 ^ 32 - 5) (f_of_Z 30) 600000; TipSample (2 ^ 32 + 100) f_zero 600000;
                  TipSample (2 ^ 32 + 599995) f_zero 600000; TipSample (2 ^ 32 + 599996) f_zero 600000] in
  Forall2 (tip_reads true) calls samples /\ tip_paced (2 ^ 32 - 10) samples /\
  (exists c, tip_run true tipin_init calls = Ok ([f_of_Z 30; f_of_Z 30; f_of_Z 30; f_zero], c)).
Proof.
  cbv zeta. split; [|split].
  - repeat constructor; eexists tipin_vs_tpsrate_and_tps, tipin_duration_vs_rpm, (f_of_Z 150), 150000;
      (split; [reflexivity|]); (split; [reflexivity|]); (split; [vm_compute; reflexivity|]);
      (split; [vm_compute; reflexivity|]); (split; [vm_compute; reflexivity|]); split; vm_compute; reflexivity.
  - cbn [tip_paced ts_time ts_length]. lia.
  - eexists. vm_compute. reflexivity.
Qed.

(** C34: with configuration and readings in range, at every step of any history of calls, nothing
    divides by zero, converts an out-of-range float, reads outside a table or dereferences NULL
    ([Ok]); and the injector pulse is bounded. *)
Theorem C34_defined : forall nd acts, Forall act_in_range acts ->
  exists v c, crun nd cvals_init tipin_init acts = Ok (v, c) /\ 0 <= cv_fueling v <= 651000000.
Proof.
  intros nd acts F. destruct (history_range nd acts cvals_init tipin_init F) as (v & c & E & _ & B).
  - split; [reflexivity|]. split; [reflexivity|]. cbn [tipin_init tp_amount]. rewrite R_f_zero. lra.
  - cbn. lia.
  - eauto.
Qed.
Print Assumptions C34_defined.

(** Out of range, it is undefined: zero injections per cycle, *)
Theorem C34_injections_refuted : forall k rpm s v, fu_inj (k_fuel k) = 0 -> 1 <= rpm <= 2 ^ 24 ->
  rpm < k_rpm_start k -> ignition_cut k rpm s v = Err DivByZero.
Proof.
  intros k rpm s v I R L. unfold ignition_cut, rpm_cut.
  destruct (Z.ltb_spec rpm (k_rpm_start k)); [|lia]. cbn [negb Z.eqb]. unfold fuel_overduty.
  destruct (time_720_ok rpm 720) as [t ->]; [lia|lia|]. cbn [bind]. rewrite I. reflexivity.
Qed.
Print Assumptions C34_injections_refuted.

(** zero engine speed, *)
Theorem C34_zero_rpm_refuted : forall k s v, 0 < k_rpm_start k -> ignition_cut k 0 s v = Err FloatToInt.
Proof.
  intros k s v H. unfold ignition_cut, rpm_cut. destruct (Z.ltb_spec 0 (k_rpm_start k)); [|lia]. cbn [negb Z.eqb].
  unfold fuel_overduty.
  assert (E : time_from_rpm_diff 0 (f_of_Z 720) = Err FloatToInt) by (vm_compute; reflexivity). rewrite E. reflexivity.
Qed.
Print Assumptions C34_zero_rpm_refuted.

(** a commanded lambda of zero, and corrections that make the pulse negative. *)
Definition flat2 (x : f32) : table2 :=
  Table2 (Axis 2 (cells [f_of_Z 1; f_of_Z 2])) (Axis 2 (cells [f_of_Z 1; f_of_Z 2])) (grid [[x; x]; [x; x]]).
Definition flat1 (x : f32) : table1 := Table1 (Axis 2 (cells [f_of_Z 1; f_of_Z 2])) (cells [x; x]).
Definition with_lambda (t : table2) : ccfg :=
  CCfg (k_timing default_calc) (k_ve default_calc) (Some t) None None None None None None default_fueling BRV f_zero 500 (f_of_Z 260) 6700 6200.
Definition with_pwc (t : table1) : ccfg :=
  CCfg (k_timing default_calc) (k_ve default_calc) None None (Some t) None None None None default_fueling BRV f_zero 500 (f_of_Z 260) 6700 6200.
Theorem C34_lambda_refuted : table_valid_twoaxis (flat2 f_zero) = Ok true /\
  calculate_fueling true (with_lambda (flat2 f_zero)) 0 2000 ex_sens cvals_init tipin_init = Err FloatToInt.
Proof. split; vm_compute; reflexivity. Qed.
Print Assumptions C34_lambda_refuted.
Theorem C34_negative_refuted : table_valid_oneaxis (flat1 (f_of_Z (-20))) = Ok true /\
  calculate_fueling true (with_pwc (flat1 (f_of_Z (-20)))) 0 2000 ex_sens cvals_init tipin_init = Err FloatToInt.
Proof. split; vm_compute; reflexivity. Qed.
Print Assumptions C34_negative_refuted.

(** The default configuration of the firmware is in range. *)
Lemma R_flit_int z : Z.abs z <= 2 ^ 24 -> R_ (f_of_Z z) = IZR z.
Proof. intros H. apply f_of_Z_exact. exact H. Qed.
Lemma R_half : R_ (flit 1 2) = (1 / 2)%R.
Proof. replace (flit 1 2) with (S754_finite false 8388608 (-24)) by (vm_compute; reflexivity). unfold R_; cbn; unfold F2R; simpl; lra. Qed.
Lemma R_512 : R_ (flit 1 512) = (1 / 512)%R.
Proof. replace (flit 1 512) with (S754_finite false 8388608 (-32)) by (vm_compute; reflexivity). unfold R_; cbn; unfold F2R; simpl; lra. Qed.
Ltac use_int := rewrite <- ?(R_flit_int 0), <- ?(R_flit_int 64), <- ?(R_flit_int 256), <- ?(R_flit_int 8), <- ?(R_flit_int 4),
  <- ?(R_flit_int 1000), <- ?(R_flit_int 10000) by lia.
Example C34_default_cfg : cfg_in_range default_calc.
Proof.
  constructor; cbn [default_calc k_ve k_lambda k_idt k_pwc k_ete k_tip_amt k_tip_dur k_timing k_dwell k_dwell_type k_dwell_us k_fuel
    default_fueling fu_cyl fu_rho_air fu_stoich fu_rho_fuel fu_cc_min fu_inj fu_crank_amt opt_usable1 opt_usable2].
  - rewrite <- (R_flit_int 0), <- (R_flit_int 256) by lia. apply usable2b_ok. vm_compute. reflexivity.
  - rewrite <- R_half, <- (R_flit_int 8) by lia. apply usable2b_ok. vm_compute. reflexivity.
  - rewrite <- (R_flit_int 0), <- (R_flit_int 64) by lia. apply usable1b_ok. vm_compute. reflexivity.
  - rewrite <- (R_flit_int 0), <- (R_flit_int 64) by lia. apply usable1b_ok. vm_compute. reflexivity.
  - rewrite <- (R_flit_int 0), <- (R_flit_int 4) by lia. apply usable2b_ok. vm_compute. reflexivity.
  - rewrite <- (R_flit_int 0), <- (R_flit_int 1000) by lia. apply usable2b_ok. vm_compute. reflexivity.
  - rewrite <- (R_flit_int 0), <- (R_flit_int 10000) by lia. apply usable1b_ok. vm_compute. reflexivity.
  - exists timing_vs_rpm_and_map, (R_ (f_of_Z 0)), (R_ (f_of_Z 90)). split; [reflexivity|]. apply usable2b_ok. vm_compute. reflexivity.
  - intros _. exists dwell_ms_vs_brv. split; [reflexivity|].
    rewrite <- (R_flit_int 0), <- (R_flit_int 100) by lia. apply usable1b_ok. vm_compute. reflexivity.
  - discriminate.
  - rewrite <- (R_flit_int 0), <- (R_flit_int 4096) by lia. apply ivb_ok. vm_compute. reflexivity.
  - rewrite <- (R_flit_int 0), <- R_512 by lia. apply ivb_ok. vm_compute. reflexivity.
  - rewrite <- (R_flit_int 4), <- (R_flit_int 64) by lia. apply ivb_ok. vm_compute. reflexivity.
  - rewrite <- R_half, <- (R_flit_int 2) by lia. apply ivb_ok. vm_compute. reflexivity.
  - rewrite <- (R_flit_int 128), <- (R_flit_int 1000000) by lia. apply ivb_ok. vm_compute. reflexivity.
  - lia.
  - rewrite <- (R_flit_int 0), <- (R_flit_int 4) by lia. apply ivb_ok. vm_compute. reflexivity.
Qed.
Example C34_ex_sens : sens_in_range ex_sens.
Proof.
  constructor; cbn [ex_sens s_map s_iat s_frt s_clt s_brv s_tps s_tpsrate]; try (split; vm_compute; reflexivity).
  - rewrite <- (R_flit_int 0), <- (R_flit_int 512) by lia. apply ivb_ok. vm_compute. reflexivity.
  - rewrite <- (R_flit_int (-100)), <- (R_flit_int 1000) by lia. apply ivb_ok. vm_compute. reflexivity.
  - rewrite <- (R_flit_int (-100)), <- (R_flit_int 200) by lia. apply ivb_ok. vm_compute. reflexivity.
Qed.
(** ... and computes a plausible pulse: 5.7 ms at 2000 rpm, 90 kPa and rapidly opening throttle. *)
Example C34_ex : exists v c, calculate_fueling true default_calc 0 2000 ex_sens cvals_init tipin_init = Ok (v, c) /\
  cv_fueling v = 5745 /\ Forall act_in_range [ActIgn default_calc 2000 ex_sens; ActFuel default_calc 0 2000 ex_sens; ActCut default_calc 2000 ex_sens].
Proof.
  eexists _, _. split; [vm_compute; reflexivity|]. split; [cbn [cv_fueling]; reflexivity|].
  pose proof C34_default_cfg. pose proof C34_ex_sens.
  repeat (apply Forall_cons; [cbn [act_in_range]; split; [assumption|split; [assumption|lia]]|]). apply Forall_nil.
Qed.
