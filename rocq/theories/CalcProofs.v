(** Proofs about calculations.c. *)
Require Import ZArith Reals Lia Lra Bool List.
Require Import Coq.Floats.SpecFloat.
From Flocq Require Import Core.
From Verif Require Import Res Word F32 F32Flocq TimeProofs Table TableSpec TableProofs AngleProofs Interval Calc CalcSpec.
Import ListNotations.
Open Scope Z_scope.
Ltac Zify.zify_post_hook ::= idtac.

Lemma bind_ok {A B} (r : res A) (f : A -> res B) b : bind r f = Ok b -> exists a, r = Ok a /\ f a = Ok b.
Proof. destruct r; cbn [bind]; intros; [eauto|discriminate]. Qed.
Ltac inv_bind H := let a := fresh "a" in let E := fresh "E" in apply bind_ok in H; destruct H as (a & E & H).

(** ** Rev limiter *)
Lemma rpm_cut_flag k rpm v b v' : rpm_cut k rpm v = (b, v') ->
  cv_rpm_cut v' = (if rpm <? k_rpm_start k then 0 else if k_rpm_stop k <=? rpm then 1 else cv_rpm_cut v) /\
  b = negb (cv_rpm_cut v' =? 0).
Proof. unfold rpm_cut. intros E. injection E as <- <-. split; reflexivity. Qed.

Lemma overduty_flag k rpm v b v' : fuel_overduty k rpm v = Ok (b, v') -> cv_rpm_cut v' = cv_rpm_cut v.
Proof. unfold fuel_overduty. intros E. inv_bind E. inv_bind E. inv_bind E. injection E as <- <-. reflexivity. Qed.

Lemma ignition_cut_flag k rpm s v b v' : ignition_cut k rpm s v = Ok (b, v') ->
  cv_rpm_cut v' = (if rpm <? k_rpm_start k then 0 else if k_rpm_stop k <=? rpm then 1 else cv_rpm_cut v) /\
  (cv_rpm_cut v' <> 0 -> b = true).
Proof.
  unfold ignition_cut. destruct (rpm_cut k rpm v) as [r v1] eqn:E1. apply rpm_cut_flag in E1. destruct E1 as [E1 E2].
  destruct r.
  - intros E. injection E as <- <-. auto.
  - assert (Z0 : cv_rpm_cut v1 = 0). { destruct (Z.eqb_spec (cv_rpm_cut v1) 0); [auto|discriminate]. }
    intros E. inv_bind E. destruct a as [o v2]. apply overduty_flag in E0. destruct o.
    + injection E as <- <-. rewrite E0. auto.
    + unfold boost_cut in E. injection E as <- <-. cbn [set_cuts cv_rpm_cut]. rewrite E0, Z0, <- E1, Z0. auto.
Qed.

Lemma calculate_ignition_flag nd k rpm s v v' : calculate_ignition nd k rpm s v = Ok v' -> cv_rpm_cut v' = cv_rpm_cut v.
Proof. unfold calculate_ignition. intros E. inv_bind E. inv_bind E. inv_bind E. injection E as <-. reflexivity. Qed.
Lemma calculate_fueling_flag nd k now rpm s v c v' c' : calculate_fueling nd k now rpm s v c = Ok (v', c') -> cv_rpm_cut v' = cv_rpm_cut v.
Proof.
  unfold calculate_fueling. intros E. do 4 inv_bind E. inv_bind E. destruct a3 as [tip c1]. inv_bind E. inv_bind E.
  injection E as <- <-. reflexivity.
Qed.

Lemma crun_app nd v c l1 l2 : crun nd v c (l1 ++ l2) = (' (v, c) <- crun nd v c l1 ;; crun nd v c l2).
Proof.
  revert v c. induction l1 as [|a l1 IH]; intros v c; cbn [app crun bind]; [reflexivity|].
  destruct (cstep nd v c a) as [[v1 c1]|]; cbn [bind]; [apply IH|reflexivity].
Qed.

Lemma rpm_samples_app l1 l2 : rpm_samples (l1 ++ l2) = rpm_samples l1 ++ rpm_samples l2.
Proof. induction l1 as [|[] l IH]; cbn [app rpm_samples]; rewrite ?IH; reflexivity. Qed.

Lemma rev_limited_snoc l x : rev_limited (l ++ [x]) <->
  rs_start x <= rs_rpm x /\ (rs_stop x <= rs_rpm x \/ rev_limited l).
Proof.
  unfold rev_limited. split.
  - intros (h1 & y & h2 & E & S & F).
    destruct h2 as [|z h2] using rev_ind.
    + apply app_inj_tail in E. destruct E as [-> ->]. inversion F; subst. auto.
    + clear IHh2. rewrite app_comm_cons, app_assoc in E. apply app_inj_tail in E. destruct E as [-> ->].
      assert (F' : Forall (fun x => rs_start x <= rs_rpm x) (y :: h2) /\ Forall (fun x => rs_start x <= rs_rpm x) [z]).
      { apply Forall_app. exact F. }
      destruct F' as [F1 F2]. inversion F2; subst. split; [auto|]. right. exists h1, y, h2. auto.
  - intros [A [B|(h1 & y & h2 & -> & S & F)]].
    + exists l, x, []. repeat split; auto.
    + exists h1, y, (h2 ++ [x]). rewrite <- app_assoc. split; [reflexivity|]. split; [auto|].
      rewrite app_comm_cons. apply Forall_app. split; auto.
Qed.

Lemma hysteresis nd acts v c : crun nd cvals_init tipin_init acts = Ok (v, c) ->
  (cv_rpm_cut v = 0 \/ cv_rpm_cut v = 1) /\ (cv_rpm_cut v = 1 <-> rev_limited (rpm_samples acts)).
Proof.
  revert v c. induction acts as [|a acts IH] using rev_ind; intros v c E.
  - injection E as <- <-. cbn. split; [auto|]. split; [discriminate|].
    intros ([] & ? & ? & E & _); discriminate.
  - rewrite crun_app in E. inv_bind E. destruct a0 as [v1 c1]. specialize (IH _ _ E0). destruct IH as [A B].
    cbn [crun] in E. inv_bind E. destruct a0 as [v2 c2]. injection E as <- <-. rewrite rpm_samples_app.
    destruct a as [k rpm s|k rpm s|k now rpm s]; cbn [cstep rpm_samples] in *.
    + inv_bind E1. destruct a as [b v3]. injection E1 as <- <-. apply ignition_cut_flag in E. destruct E as [E _].
      rewrite rev_limited_snoc. cbn [rs_start rs_stop rs_rpm]. rewrite <- B. rewrite E.
      destruct (Z.ltb_spec rpm (k_rpm_start k)); [split; [auto|]; split; [discriminate|lia]|].
      destruct (Z.leb_spec (k_rpm_stop k) rpm); [split; [auto|]; tauto|].
      split; [auto|]. split; [tauto|]. intros [_ [?|?]]; [lia|auto].
    + inv_bind E1. injection E1 as <- <-. apply calculate_ignition_flag in E. rewrite E, app_nil_r. auto.
    + apply calculate_fueling_flag in E1. rewrite E1, app_nil_r. auto.
Qed.

(** ** Tip-in *)
Lemma w32_mod z : w32 z = z mod W. Proof. reflexivity. Qed.

Definition tip_rel (c : tipin) (e : option enrichment) : Prop :=
  match e with
  | None => tp_active c = false
  | Some e => tp_time c = e_start e mod 2 ^ 32 /\ tp_length c = e_length e /\ tp_amount c = e_amount e /\ tp_active c = true
  end.

Lemma tip_step now a us len c e d : tip_rel c e ->
  (match e with Some e => e_start e <= now < e_start e + 2 ^ 32 /\ 0 <= e_length e < 2 ^ 32 | None => fgt a (tp_amount c) = fgt a (tp_amount c) end) ->
  f_to_u32 (fmul d (f_of_Z 1000)) = Ok us -> time_from_us us = Ok len ->
  exists c' e', tipin_update (now mod 2 ^ 32) a (Ok d) c = Ok c' /\ tip_rel c' (Some e') /\ tip_next e (TipSample now a len) e'.
Proof.
  intros Rl Wn Eu El. unfold tipin_update. change (2^32) with W in *.
  destruct e as [e|]; cbn [tip_rel] in Rl; change (2^32) with W in *.
  - destruct Rl as (Et & Eln & Ea & Eac). rewrite Eac, Et, Eln, Ea. cbn [andb].
    assert (Ir : time_in_range (now mod W) (e_start e mod W) (w32 (e_start e mod W + e_length e)) = (now <=? e_start e + e_length e)).
    { rewrite w32_mod, Zplus_mod_idemp_l. apply time_in_range_spec; unfold W in *; lia. }
    rewrite Ir. destruct (Z.leb_spec now (e_start e + e_length e)) as [L|L].
    + destruct (fgt a (e_amount e)) eqn:G; cbn [orb negb bind].
      * rewrite Eu. cbn [bind]. rewrite El. cbn [bind]. eexists _, (Enrich now len a). split; [reflexivity|].
        split; [repeat split|]. apply tip_start. right. exact G.
      * eexists _, e. split; [reflexivity|]. split; [repeat split|]. now apply tip_keep.
    + rewrite orb_true_r. cbn [bind]. rewrite Eu. cbn [bind]. rewrite El. cbn [bind].
      eexists _, (Enrich now len a). split; [reflexivity|]. split; [repeat split|]. apply tip_start. left. exact L.
  - rewrite Rl. cbn [andb negb]. rewrite orb_true_r. cbn [bind]. rewrite Eu. cbn [bind]. rewrite El. cbn [bind].
    eexists _, (Enrich now len a). split; [reflexivity|]. split; [repeat split|]. apply tip_first.
Qed.

Definition tip_recent (e : option enrichment) (t : Z) : Prop :=
  match e with None => True | Some e => e_start e <= t /\ (t <= e_start e + 2 ^ 31) /\ 0 <= e_length e < 2 ^ 31 end.

Lemma tip_history nd ss : forall c e t, tip_rel c e -> tip_recent e t ->
  forall ts, Forall2 (tip_reads nd) ss ts -> tip_paced t ts ->
  exists rs c', tip_run nd c ss = Ok (rs, c') /\ exists es, tip_trace e ts es /\ rs = map e_amount es.
Proof.
  induction ss as [|s ss IH]; intros c e t Rl Rc ts F P.
  - inversion F; subst. exists [], c. split; [reflexivity|]. exists []. split; [constructor|reflexivity].
  - inversion F as [|? u ? us Rd F']; subst. destruct u as [now a len].
    cbn [tip_paced ts_time ts_length] in P. destruct P as (P1 & P2 & P3 & P4).
    destruct Rd as (ta & td & d & us0 & Ka & Kd & Ea & Ed & Eu & El & Et). cbn [ts_time ts_amount ts_length] in *.
    destruct (tip_step now a us0 len c e d) as (c1 & e1 & E1 & R1 & N1); auto.
    { destruct e as [e|]; [|reflexivity]. cbn [tip_recent] in Rc. lia. }
    assert (Rc1 : tip_recent (Some e1) now).
    { cbn [tip_recent]. inversion N1; subst; cbn [e_start e_length ts_time ts_length tip_recent] in *; lia. }
    destruct (IH c1 (Some e1) now R1 Rc1 us F' P4) as (rs & c2 & E2 & es & T & ->).
    exists (e_amount e1 :: map e_amount es), c2. split; [|exists (e1 :: es); split; [now constructor|reflexivity]].
    cbn [tip_run]. unfold calculate_tipin_enrichment. rewrite Ka, Kd, Ea. cbn [bind]. rewrite Ed, Et, E1. cbn [bind].
    rewrite E2. cbn [bind]. destruct R1 as (_ & _ & Am & _). now rewrite Am.
Qed.
