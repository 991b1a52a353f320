(** C86: the periodic tasks together drive the pump, the boost valve and the check engine light, and nothing else. *)
Require Import ZArith Reals List Bool Lia Lra.
From Flocq Require Import Core.
From Verif Require Import Res Word Arr F32 F32Flocq TimeProofs Table TableSpec Interval DefaultConfig Tasks TaskSpec TaskProofs P_Tasks.
Import ListNotations.
Open Scope Z_scope.
Ltac Zify.zify_post_hook ::= idtac.

(** A run of all tasks: that of the pump, what the boost control finds, the readings of the clock by the light's
    task, and what that finds. *)
Record trun : Type := TRun { q_pump : prun; q_boost : tview; q_a : Z; q_b : Z; q_c : Z; q_light : tview }.

(** The condition a run finds: the worst of lean in boost, lost position, sensor fault. *)
Definition condition (k : tcfg) (v : tview) : cel :=
  if flt (tk_lean_kpa k) (tv_map v) && flt (tk_lean_ego k) (tv_ego v) then CEL_FASTBLINK
  else if (tv_valid v =? 0) && (0 <? tv_rpm v) then CEL_SLOWBLINK
  else if 0 <? tv_faults v then CEL_CONSTANT else CEL_NONE.
Definition light_run (k : tcfg) (q : trun) : crun := CRun (q_a q) (q_b q) (q_c q) (condition k (q_light q)).

(** Power-on, then the runs (latest first): the ports, the commands of the last run, the kept state. *)
Fixpoint tasks_history (nd : bool) (k : tcfg) (ports : Z * Z) (h : list trun) : res (Z * Z * list cmd * tstate) :=
  match h with
  | [] => Ok (ports, [], tstate_init)
  | r :: h =>
    ' (p, _, s) <- tasks_history nd k ports h ;;
    ' (cmds, s) <- run_tasks nd k (w32 (p_tooth (q_pump r))) (q_boost r) (q_light r) (w32 (p_a (q_pump r))) (w32 (p_b (q_pump r))) (w32 (p_c (q_pump r))) (w32 (q_a r)) (w32 (q_b r)) (w32 (q_c r)) s ;;
    Ok (cmd_run p cmds, cmds, s)
  end.

(** The duty cycle of the boost valve: off below the lower pressure; fully open below the higher one with the throttle
    open; else from the table. *)
Definition duty_for (nd : bool) (b : boost) (v : tview) (d : f32) : Prop :=
  (flt (tv_map v) (bo_enable b) = true /\ d = f_of_Z 0) \/
  (flt (tv_map v) (bo_enable b) = false /\ flt (tv_map v) (bo_control b) = true /\ flt (bo_tps b) (tv_tps v) = true /\ d = f_of_Z 100) \/
  (flt (tv_map v) (bo_enable b) = false /\ (flt (tv_map v) (bo_control b) = false \/ flt (bo_tps b) (tv_tps v) = false) /\
   interpolate_table_oneaxis nd (bo_table b) (f_of_Z (tv_rpm v)) = Ok d).

(** A table of percentages with an ascending axis. *)
Definition boost_table (t : table1) : Prop := wf_table1 t /\ ascending (t1_cols t) /\ good_tail (t1_cols t) /\ 1 <= ax_num (t1_cols t) <= 23 /\
  forall k, 0 <= k <= ax_num (t1_cols t) -> fin (elt (t1_data t) k) /\ (0 <= R_ (elt (t1_data t) k) <= 100)%R.

Definition bit (port pin : Z) : bool := Z.testbit port pin.

Lemma write_bit p pin v n : 0 <= pin -> bit (port_write p pin v) n = if n =? pin then v else bit p n.
Proof.
  intros Hp. unfold bit, port_write. destruct (Z.eqb_spec n pin) as [->|N]; destruct v.
  - apply Z.setbit_eq. exact Hp.
  - apply Z.clearbit_eq.
  - apply Z.setbit_neq; auto.
  - apply Z.clearbit_neq. auto.
Qed.

Lemma condition_is k v : determine_next_cel_state (tv_faults v) (tv_valid v) (tv_rpm v) (tv_map v) (tv_ego v) (tk_lean_kpa k) (tk_lean_ego k) = condition k v.
Proof. reflexivity. Qed.

(** What the runs do to the kept state is what each task does alone. *)
Lemma tasks_split nd k ports h : in_order (map q_pump h) -> regular (map q_pump h) -> light_order (map (light_run k) h) -> light_regular (map (light_run k) h) ->
  boost_table (bo_table (tk_boost k)) -> (forall q, In q h -> 0 <= tv_rpm (q_boost q) < W) ->
  exists p cmds s pv lv, tasks_history nd k ports h = Ok (p, cmds, s) /\ pump_history (map q_pump h) = Ok (pv, ts_valid s) /\ light_history (map (light_run k) h) = Ok (lv, ts_cel s) /\
    match h with [] => p = ports | r :: h' => exists p' c' s' d, tasks_history nd k ports h' = Ok (p', c', s') /\ handle_boost_control nd (tk_boost k) (tv_map (q_boost r)) (tv_tps (q_boost r)) (tv_rpm (q_boost r)) = Ok d /\
      cmds = [SetGpio (tk_pump_pin k) pv; SetPwm (tk_boost_pin k) d; SetGpio (tk_cel_pin k) lv] /\ p = cmd_run p' cmds end.
Proof.
  induction h as [|r h IH]; intros O G LO LG BT Rp; [exists ports, [], tstate_init, 0, 0; auto|].
  cbn [map] in O, G, LO, LG. pose proof (proj2 (proj2 (proj2 O))) as O'. pose proof (proj2 (proj2 G)) as G'. pose proof (proj2 (proj2 LO)) as LO'. pose proof (proj2 (proj2 LG)) as LG'.
  destruct (IH O' G' LO' LG' BT (fun q Hq => Rp q (or_intror Hq))) as (p & c & s & pv & lv & E & E1 & E2 & _). cbn [tasks_history map pump_history light_history]. rewrite E, E1, E2. cbn [bind].
  destruct (C39_pump _ _ O G) as (pv' & lp' & P1 & _). cbn [pump_history] in P1. rewrite E1 in P1. cbn [bind] in P1.
  destruct (C40_reason _ _ LO LG) as (lv' & sv & tv & P2 & _). cbn [light_history] in P2. rewrite E2 in P2. cbn [bind] in P2.
  destruct BT as (B1 & B2 & B3 & B4 & B5).
  destruct (C41_range nd (tk_boost k) (tv_map (q_boost r)) (tv_tps (q_boost r)) (tv_rpm (q_boost r)) B1 B2 B3 B4 B5 (Rp r (or_introl eq_refl))) as (d & P3 & _).
  unfold run_tasks. rewrite P1. cbn [bind]. rewrite P3. cbn [bind]. rewrite condition_is. cbn [light_run l_a l_b l_c l_cond] in P2. rewrite P2. cbn [bind].
  eexists _, _, _, pv', lv'. split; [reflexivity|]. split; [reflexivity|]. split; [exact P2|]. exists p, c, s, d. auto.
Qed.

(** However often and whenever the tasks have run since power-on, if gaps between runs are below the wrap of the
    clock: all of them work, and after the last run
    - the pump's pin is on exactly if there was a tooth within the last second or the engine was found turning (or
      power came on) less than 4 s ago;
    - the valve was given the duty cycle for the pressure, throttle and speed found, by the only PWM command;
    - the light's pin shows a condition that was found at most 3 s ago, in its own rhythm, and one at least as bad as
      the present one, or is off;
    - every other pin is as it was at power-on. *)
Theorem C86_tasks : forall nd k ports r h, 0 <= tk_pump_pin k -> 0 <= tk_cel_pin k -> tk_pump_pin k <> tk_cel_pin k ->
  in_order (map q_pump (r :: h)) -> regular (map q_pump (r :: h)) -> light_order (map (light_run k) (r :: h)) -> light_regular (map (light_run k) (r :: h)) ->
  boost_table (bo_table (tk_boost k)) -> (forall q, In q (r :: h) -> 0 <= tv_rpm (q_boost q) < W) ->
  exists p cmds s, tasks_history nd k ports (r :: h) = Ok (p, cmds, s) /\
    (bit (snd p) (tk_pump_pin k) = true <-> turning (q_pump r) \/ p_b (q_pump r) - last_turning (map q_pump h) < 4 * second) /\
    (exists d, duty_for nd (tk_boost k) (q_boost r) d /\ vf d /\ fin d /\ (0 <= R_ d <= 100001 / 1000)%R /\ forall pin d', In (SetPwm pin d') cmds <-> pin = tk_boost_pin k /\ d' = d) /\
    (exists c, cel_level (condition k (q_light r)) <= cel_level c /\
      (c = CEL_NONE /\ bit (snd p) (tk_cel_pin k) = false \/
       exists i, In i (r :: h) /\ condition k (q_light i) = c /\ q_a r - q_b i <= 3 * second /\ light c (q_c r - q_b i) (if bit (snd p) (tk_cel_pin k) then 1 else 0))) /\
    (forall pin, pin <> tk_pump_pin k -> pin <> tk_cel_pin k -> bit (snd p) pin = bit (snd ports) pin) /\ fst p = fst ports.
Proof.
  intros nd k ports r h Hp Hc Ne O G LO LG BT Rp. destruct (tasks_split nd k ports (r :: h) O G LO LG BT Rp) as (p & cmds & s & pv & lv & E & E1 & E2 & p' & c' & s' & d & E' & Ed & Ec & Ep).
  exists p, cmds, s. split; [exact E|].
  assert (Bits : forall n, bit (snd p) n = if n =? tk_cel_pin k then negb (lv =? 0) else if n =? tk_pump_pin k then negb (pv =? 0) else bit (snd p') n).
  { intros n. rewrite Ep, Ec. unfold cmd_run. cbn [fold_left cmd_step fst snd]. rewrite !write_bit by assumption. reflexivity. }
  split; [|split; [|split; [|split]]].
  - rewrite Bits. destruct (Z.eqb_spec (tk_pump_pin k) (tk_cel_pin k)); [contradiction|]. rewrite Z.eqb_refl. cbn [map] in O, G, E1. destruct (C39_pump _ _ O G) as (v & l & P1 & V & K). assert (v = pv) by congruence. subst v. rewrite <- K. destruct V as [->| ->]; cbn; split; congruence.
  - exists d. destruct BT as (B1 & B2 & B3 & B4 & B5). destruct (C41_range nd (tk_boost k) (tv_map (q_boost r)) (tv_tps (q_boost r)) (tv_rpm (q_boost r)) B1 B2 B3 B4 B5 (Rp r (or_introl eq_refl))) as (d' & Q & Q1 & Q2 & Q3).
    assert (d' = d) by congruence. subst d'. split; [|split; [exact Q1|split; [exact Q2|split; [exact Q3|]]]].
    + destruct (C41_duty nd (tk_boost k) (tv_map (q_boost r)) (tv_tps (q_boost r)) (tv_rpm (q_boost r))) as (D1 & D2 & D3). unfold duty_for.
      destruct (flt (tv_map (q_boost r)) (bo_enable (tk_boost k))); [left; split; [reflexivity|]; specialize (D1 eq_refl); congruence|]. right. specialize (D2 eq_refl). specialize (D3 eq_refl).
      destruct (flt (tv_map (q_boost r)) (bo_control (tk_boost k))), (flt (bo_tps (tk_boost k)) (tv_tps (q_boost r)));
        [left; repeat split; auto; specialize (D2 eq_refl eq_refl); congruence|right|right|right]; (split; [reflexivity|]; split; [auto|]; rewrite <- D3 by auto; exact Ed).
    + intros pin d'. rewrite Ec. cbn [In]. split; [intros [Q0|[Q0|[Q0|[]]]]; try discriminate; split; congruence|]. intros [-> ->]. auto.
  - cbn [map] in LO, LG, E2. destruct (C40_reason _ _ LO LG) as (v & c & t & P2 & K). destruct (C40_present _ _ LO LG) as (c2 & (v2 & t2 & P3) & K2).
    assert (X1 : v = lv) by congruence. assert (X2 : c2 = c) by congruence. subst v c2. exists c. split; [exact K2|].
    assert (Bc : bit (snd p) (tk_cel_pin k) = negb (lv =? 0)) by (rewrite Bits, Z.eqb_refl; reflexivity). rewrite Bc.
    destruct K as [[K3 K4]|(q & i & x & Eh & Ci & T & L)]; [left; split; [exact K3|rewrite K4; reflexivity]|]. right.
    assert (Ii : In i (map (light_run k) (r :: h))) by (cbn [map]; rewrite Eh; apply in_elt). apply in_map_iff in Ii. destruct Ii as (j & <- & Ij). cbn [light_run l_cond l_a l_b l_c] in *. exists j. split; [exact Ij|]. split; [exact Ci|]. split; [exact T|].
    assert (V : (if negb (lv =? 0) then 1 else 0) = lv). { destruct c; cbn [light] in L; try (subst lv; reflexivity); destruct L as (? & ? & _ & _ & [-> | ->]); reflexivity. } rewrite V. exact L.
  - clear -Hp Hc O G LO LG BT Rp E. revert r p cmds s O G LO LG Rp E. 
    assert (X : forall h, in_order (map q_pump h) -> regular (map q_pump h) -> light_order (map (light_run k) h) -> light_regular (map (light_run k) h) -> (forall q, In q h -> 0 <= tv_rpm (q_boost q) < W) ->
      forall p cmds s, tasks_history nd k ports h = Ok (p, cmds, s) -> forall pin, pin <> tk_pump_pin k -> pin <> tk_cel_pin k -> bit (snd p) pin = bit (snd ports) pin).
    { clear h. induction h as [|r h IH]; intros O G LO LG Rp p cmds s E pin N1 N2; [cbn in E; congruence|].
      destruct (tasks_split nd k ports (r :: h) O G LO LG BT Rp) as (p1 & cmds1 & s1 & pv & lv & E1 & _ & _ & p' & c' & s' & d & E' & _ & Ec & Ep). assert (Q : p1 = p) by congruence. rewrite Q in Ep.
      assert (IP : bit (snd p') pin = bit (snd ports) pin). { cbn [map] in *. eapply IH; [apply O|apply G|apply LO|apply LG| |exact E'|exact N1|exact N2]. intros q Hq. apply Rp. right. exact Hq. }
      rewrite <- IP, Ep, Ec. unfold cmd_run. cbn [fold_left cmd_step fst snd]. rewrite !write_bit by assumption. destruct (Z.eqb_spec pin (tk_cel_pin k)); [contradiction|]. destruct (Z.eqb_spec pin (tk_pump_pin k)); [contradiction|]. reflexivity. }
    intros r p cmds s O G LO LG Rp E. exact (X (r :: h) O G LO LG Rp p cmds s E).
  - clear -O G LO LG BT Rp E. assert (X : forall h, in_order (map q_pump h) -> regular (map q_pump h) -> light_order (map (light_run k) h) -> light_regular (map (light_run k) h) -> (forall q, In q h -> 0 <= tv_rpm (q_boost q) < W) ->
      forall p cmds s, tasks_history nd k ports h = Ok (p, cmds, s) -> fst p = fst ports).
    { clear -BT. induction h as [|r h IH]; intros O G LO LG Rp p cmds s E; [cbn in E; congruence|].
      destruct (tasks_split nd k ports (r :: h) O G LO LG BT Rp) as (p1 & cmds1 & s1 & pv & lv & E1 & _ & _ & p' & c' & s' & d & E' & _ & Ec & Ep). assert (Q : p1 = p) by congruence. rewrite Q in Ep.
      rewrite Ep, Ec. unfold cmd_run. cbn [fold_left cmd_step fst snd]. cbn [map] in *. eapply IH; [apply O|apply G|apply LO|apply LG| |exact E']. intros q Hq. apply Rp. right. exact Hq. }
    exact (X (r :: h) O G LO LG Rp p cmds s E).
Qed.
Print Assumptions C86_tasks.

(* Example: the default valve table; the engine turned at 10 s and has lost its position at 14.5 s: the pump is off, the
   light on, other pins (0 and 3) unchanged. *)
Definition ex_tasks : tcfg := TCfg 1 default_boost 3 2 (f_of_Z 140) (flit 9 10).
Definition ex_found (rpm : Z) (valid : Z) : tview := TView valid rpm (f_of_Z 100) (f_of_Z 50) (f_of_Z 1) 0.
Definition ex_trun (ms rpm valid : Z) : trun := let t := ms * 4000 in TRun (PRun t t t 40000000) (ex_found rpm valid) t t t (ex_found rpm valid).
Definition ex_thistory : list trun := [ex_trun 14500 200 0; ex_trun 12000 200 0; ex_trun 10000 3500 1].
Lemma default_boost_table : boost_table boost_control_pwm.
Proof.
  assert (U : usable1 boost_control_pwm (R_ (f_of_Z 0)) (R_ (f_of_Z 100))) by (apply usable1b_ok; vm_compute; reflexivity). destruct U as (U1 & U2 & U3 & U4 & U5 & U6).
  rewrite (proj1 (f_of_Z_exact 0 ltac:(vm_compute; discriminate))), (proj1 (f_of_Z_exact 100 ltac:(vm_compute; discriminate))) in U6.
  split; [exact U1|]. split; [exact U2|]. split; [exact U3|]. split; [exact U4|]. intros k Hk. split; [apply (U5 k Hk)|].
  destruct (Z.eq_dec k (ax_num (t1_cols boost_control_pwm))) as [->|N]; [|apply U6; lia].
  replace (elt (t1_data boost_control_pwm) (ax_num (t1_cols boost_control_pwm))) with f_zero by (vm_compute; reflexivity). unfold R_. cbn. lra.
Qed.
Example C86_example : in_order (map q_pump ex_thistory) /\ regular (map q_pump ex_thistory) /\ light_order (map (light_run ex_tasks) ex_thistory) /\ light_regular (map (light_run ex_tasks) ex_thistory) /\
  boost_table (bo_table (tk_boost ex_tasks)) /\ exists p cmds s, tasks_history true ex_tasks (7, 15) ex_thistory = Ok (p, cmds, s) /\ p = (7, 13).
Proof.
  do 4 (split; [vm_compute; intuition discriminate|]). split; [exact default_boost_table|]. eexists _, _, _. split; vm_compute; reflexivity.
Qed.
