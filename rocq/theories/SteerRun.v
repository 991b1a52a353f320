(** The runs of one output with the commands of each call, for either wheel (for C87 and C88). *)
Require Import ZArith Reals List Bool Lia Lra SpecFloat.
From Flocq Require Import Core.
From Verif Require WheelProofs EvenSpec EvenRun.
From Verif Require Import Res Word F32 F32Flocq TimeProofs AngleProofs PulseProofs Arr Decoder DecoderRun Wheel WheelCam WheelCamProofs P_Wheel P_WheelCam DecoderEven EvenProofs P_Even Outputs Buffers OutputSpec OutputRun WaveProofs P_Outputs
  CrankSpec P_Crank P_CrankEven Spark SparkSpec SparkAim VarySpec SteerSpec VaryCrank VaryAim P_Spark.
Import ListNotations.
Open Scope Z_scope.
Ltac Zify.zify_post_hook ::= idtac.

(** What a run of the firmware from its start is to have done: until tick [now] the pin has seen one spark (one
    injection) per cycle, [log], from one of the first three that are due after the tooth in slot [first] when call 0 is made. *)
Definition sparks_told (p : R -> R) (dpt q1 q2 delta alpha : R) (zero : Z) (idx tt : Z -> Z) (target : Z -> R) (dwell : Z -> Z) (about : Z -> R) (late len2 : Z) (o : output) (now : Z) (log : list (Z * bool)) : Prop :=
  let ahead := slook dpt q1 q2 delta alpha late len2 0 in let err := vmiss dpt q1 q2 delta ahead in
  exists j0, soon_after dpt zero (idx 0) (target 0) j0 /\
    pulse_as_told p dpt zero idx tt target dwell about (ahead + err)%R err (splan dpt q1 q2 delta alpha 0) false (o_inv o) j0 now log.
Definition injections_told (p : R -> R) (dpt q1 q2 delta : R) (zero : Z) (idx tt : Z -> Z) (target : R) (pw : Z -> Z) (late len2 dv : Z) (o : output) (now : Z) (log : list (Z * bool)) : Prop :=
  let ahead := slook dpt q1 q2 delta 0 late len2 dv in let err := vmiss dpt q1 q2 delta ahead in
  exists j0, soon_after dpt zero (idx 0) target j0 /\
    pulse_as_told p dpt zero idx tt (fun _ => target) pw (fun _ => target) (ahead + err)%R err (splan dpt q1 q2 delta 0 dv) true (o_inv o) j0 now log.

(** ** The decoder follows the crank *)
Lemma about_of f p dpt q1 q2 delta q x : moves f p dpt q1 q2 delta -> slow_at p dpt q delta (IZR x) -> about f q delta (720 / dpt + 1) x.
Proof.
  intros Mv Sl i j Hi Hij Hj. apply IZR_le in Hij. destruct (Sl (IZR i) (IZR j) Hi Hij Hj) as [A B]. pose proof (mv_seen _ _ _ _ _ _ Mv i) as Si. pose proof (mv_seen _ _ _ _ _ _ Mv j) as Sj.
  apply Rabs_le_inv in Si. apply Rabs_le_inv in Sj. rewrite !minus_IZR. lra.
Qed.
Lemma span_ok dpt : (0 < dpt <= 720)%R -> (2 <= 720 / dpt + 1)%R.
Proof. intros H. assert (1 <= 720 / dpt)%R; [|lra]. apply Rmult_le_reg_r with dpt; [lra|]. replace (720 / dpt * dpt)%R with 720%R by (field; lra). lra. Qed.

Lemma vfollow_cam c f p ct q1 q2 delta alpha late len1 len2 dv rest s x g c0 : turning c f s -> dc_type c = MISSING_CAMSYNC -> is_first_gap (dc_num c) (dc_required c) s g -> is_first_cam (dc_num c) x g c0 ->
  0 <= x < 2 * (dc_num c - 1) -> (exists z, R_ (dc_dpt c) = IZR z / 8192)%R -> (IZR (dc_num c) * R_ (dc_dpt c) = 360)%R -> moves f p (R_ (dc_dpt c)) q1 q2 delta -> sregime (R_ (dc_dpt c)) q1 q2 delta alpha late len1 len2 dv rest ->
  forall tooth view, c0 <= tooth 0 -> g < tooth 0 -> calls_follow tooth ->
  (forall k, 0 <= k -> exists h d fx, cam_history (dc_num c) x f ct s c0 (Z.to_nat (tooth k - s + 1)) h /\ drun c dec_init h = Ok (d, fx) /\ view k = seen c d) ->
  let tt k := tooth_time (dc_num c) f (tooth k) in let idx k := Wheel.slot (dc_num c) (tooth k) in
  (forall m, 0 <= m -> exists q d, (q1 <= q <= q2)%R /\ slow_at p (R_ (dc_dpt c)) q delta (IZR (idx m)) /\ vtracks c q delta (Wheel.slot (dc_num c) (turn_start (dc_num c) x)) (idx m) (tt m) d /\ view m = seen c d) /\
  (forall m, 0 <= m -> idx m + 1 <= idx (m + 1) <= idx m + 2 \/ (idx (m + 1) = idx m /\ tt (m + 1) = tt m /\ dv_last_angle (view (m + 1)) = dv_last_angle (view m))).
Proof.
  intros Tu Ty G C Hx D N Mv Rg tooth view H0 Hg Cf Vw tt idx. destruct (vary_bounds c q1 q2 delta alpha late len1 len2 dv rest Rg) as [Q140 Hd].
  assert (Hsg : s <= g) by (destruct Tu, G as (_ & ? & _); lia). assert (Hw : (0 < R_ (dc_dpt c) <= 720)%R) by (destruct Tu as [_ _ _ (_ & _ & ?) _ _ _ _ _]; lra).
  assert (K : forall k, 0 <= k -> exists q d, (q1 <= q <= q2)%R /\ slow_at p (R_ (dc_dpt c)) q delta (IZR (idx k)) /\ view k = seen c d /\ dd_last_angle d = cam_angle c c0 (Z.to_nat (tooth k - c0)) /\
    vtracks c q delta (Wheel.slot (dc_num c) (turn_start (dc_num c) x)) (Wheel.slot (dc_num c) (tooth k)) (tooth_time (dc_num c) f (tooth k)) d).
  { intros k Hk. destruct (Vw k Hk) as (h & d & fx & Hh & E & Ev). pose proof (from_first tooth Cf k Hk).
    assert (Em : s + Z.of_nat (Z.to_nat (tooth k - s + 1)) - 1 = tooth k) by (rewrite Z2Nat.id; lia).
    destruct (mv_slow _ _ _ _ _ _ Mv (IZR (idx k))) as (q & Hq & Sl). pose proof (one_range c q1 q2 delta alpha late len1 len2 dv rest Rg q Hq) as Sr. pose proof (sr_slow _ _ _ _ _ _ _ _ _ _ Rg). pose proof (sr_fast _ _ _ _ _ _ _ _ _ _ Rg).
    destruct (vsynced_cam c f ct q delta (720 / R_ (dc_dpt c) + 1) s x g c0 (Z.to_nat (tooth k - s + 1)) h Tu Ty G C Hx D N Hh) as (d' & fx' & E' & La & Tk); rewrite ?Em in *; try lia; try lra; auto using span_ok.
    { apply about_of with p q1 q2; auto. }
    assert (d' = d) by congruence. subst d'. exists q, d. auto. }
  split; intros k Hk.
  - destruct (K k Hk) as (q & d & Hq & Sl & Ev & _ & Tk). exists q, d. auto.
  - unfold tt, idx. destruct (Cf k Hk) as [->|E].
    + left. rewrite WheelProofs.slot_succ by (destruct Tu; lia). destruct (_ =? _); lia.
    + right. rewrite E. split; [reflexivity|]. split; [reflexivity|]. destruct (K k Hk) as (_ & d & _ & _ & -> & L1 & _). destruct (K (k + 1) ltac:(lia)) as (_ & d' & _ & _ & -> & L2 & _). rewrite E in L2. cbn [seen dv_last_angle]. congruence.
Qed.
Lemma vfollow_even c f p cam q1 q2 delta alpha late len1 len2 dv rest s g : EvenSpec.even_turning c f s -> dc_type c = EVEN_CAMSYNC -> EvenSpec.is_first_cam (dc_num c) (dc_required c) s g ->
  (exists z, R_ (dc_dpt c) = IZR z / 8192)%R -> (IZR (dc_num c) * R_ (dc_dpt c) = 720)%R -> moves f p (R_ (dc_dpt c)) q1 q2 delta -> sregime (R_ (dc_dpt c)) q1 q2 delta alpha late len1 len2 dv rest -> (R_ (dc_dpt c) <= 720)%R ->
  forall tooth view, g < tooth 0 -> calls_follow tooth ->
  (forall k, 0 <= k -> exists h d fx, even_history (dc_num c) f cam s (Z.to_nat (tooth k - s + 1)) h /\ drun c dec_init h = Ok (d, fx) /\ view k = seen c d) ->
  let tt k := f (tooth k) in
  (forall m, 0 <= m -> exists q d, (q1 <= q <= q2)%R /\ slow_at p (R_ (dc_dpt c)) q delta (IZR (tooth m)) /\ vtracks c q delta 0 (tooth m) (tt m) d /\ view m = seen c d) /\
  (forall m, 0 <= m -> tooth m + 1 <= tooth (m + 1) <= tooth m + 2 \/ (tooth (m + 1) = tooth m /\ tt (m + 1) = tt m /\ dv_last_angle (view (m + 1)) = dv_last_angle (view m))).
Proof.
  intros Tu Ty G D N Mv Rg Hw tooth view Hg Cf Vw tt. destruct (vary_bounds c q1 q2 delta alpha late len1 len2 dv rest Rg) as [Q140 Hd]. pose proof (sr_width _ _ _ _ _ _ _ _ _ _ Rg) as Hw0.
  assert (Hr : 0 <= dc_required c) by (destruct Tu as [? _ [_ [? _] _] _ _]; lia). assert (Hsg : s - 1 <= g) by (destruct G as (_ & ? & _); lia).
  assert (K : forall k, 0 <= k -> exists q d, (q1 <= q <= q2)%R /\ slow_at p (R_ (dc_dpt c)) q delta (IZR (tooth k)) /\ view k = seen c d /\ dd_last_angle d = EvenRun.eangle c (Z.to_nat (tooth k mod dc_num c)) /\ vtracks c q delta 0 (tooth k) (f (tooth k)) d).
  { intros k Hk. destruct (Vw k Hk) as (h & d & fx & Hh & E & Ev). pose proof (from_first tooth Cf k Hk).
    assert (Em : s + Z.of_nat (Z.to_nat (tooth k - s + 1)) - 1 = tooth k) by (rewrite Z2Nat.id; lia).
    destruct (mv_slow _ _ _ _ _ _ Mv (IZR (tooth k))) as (q & Hq & Sl). pose proof (one_range c q1 q2 delta alpha late len1 len2 dv rest Rg q Hq) as Sr. pose proof (sr_slow _ _ _ _ _ _ _ _ _ _ Rg). pose proof (sr_fast _ _ _ _ _ _ _ _ _ _ Rg).
    destruct (vsynced_even c f cam q delta (720 / R_ (dc_dpt c) + 1) s g (Z.to_nat (tooth k - s + 1)) h Tu Ty G D N Hh) as (d' & fx' & E' & La & Tk); rewrite ?Em in *; try lia; try lra.
    { apply about_of with p q1 q2; auto. }
    { apply span_ok. lra. }
    assert (d' = d) by congruence. subst d'. exists q, d. auto. }
  split; intros k Hk.
  - destruct (K k Hk) as (q & d & Hq & Sl & Ev & _ & Tk). exists q, d. auto.
  - unfold tt. destruct (Cf k Hk) as [->|E]; [left; lia|]. right. rewrite E. split; [reflexivity|]. split; [reflexivity|].
    destruct (K k Hk) as (_ & d & _ & _ & -> & L1 & _). destruct (K (k + 1) ltac:(lia)) as (_ & d' & _ & _ & -> & L2 & _). rewrite E in L2. cbn [seen dv_last_angle]. congruence.
Qed.

(** Either kind of output on either wheel. *)
Section Run.
Variables (c : dcfg) (f : Z -> Z) (p : R -> R) (q1 q2 delta alpha : R) (zero : Z) (idx : Z -> Z) (view : Z -> dview) (late len1 len2 dv rest : Z).
Let tt k := f (idx k).
Hypothesis Rg : sregime (R_ (dc_dpt c)) q1 q2 delta alpha late len1 len2 dv rest.
Hypothesis Mv : moves f p (R_ (dc_dpt c)) q1 q2 delta.
Hypothesis Wide : (R_ (dc_dpt c) <= 720)%R.
Hypothesis Tk : forall m, 0 <= m -> exists q d, (q1 <= q <= q2)%R /\ slow_at p (R_ (dc_dpt c)) q delta (IZR (idx m)) /\ vtracks c q delta zero (idx m) (tt m) d /\ view m = seen c d.
Hypothesis Hi : forall m, 0 <= m -> idx m + 1 <= idx (m + 1) <= idx m + 2 \/ (idx (m + 1) = idx m /\ tt (m + 1) = tt m /\ dv_last_angle (view (m + 1)) = dv_last_angle (view m)).
Variables (nd : bool) (pin : Z) (i : nat) (n : Z) (os : list output) (o : output).
Hypothesis Ang : angle_ok (o_angle o).
Hypothesis Ao : angle_ok (dc_offset c).
Hypothesis Op : open_from n <= tt 0 + late.
Let Seen m : 0 <= m -> (Rabs (IZR (tt m) - p (IZR (idx m))) <= 1)%R. Proof. intros _. apply (mv_seen _ _ _ _ _ _ Mv). Qed.
Let Slow x : exists q, (q1 <= q <= q2)%R /\ slow_at p (R_ (dc_dpt c)) q delta x. Proof. apply (mv_slow _ _ _ _ _ _ Mv). Qed.

Lemma srun_coil adv dwell about l st' : dv = 0 -> (forall k, 0 <= k -> angle_ok (adv k)) -> retards_slowly (R_ (dc_dpt c)) idx adv ->
  let target k := (R_ (o_angle o) - R_ (adv k) + R_ (dc_offset c))%R in
  steers (R_ (dc_dpt c)) zero idx target dwell about alpha len1 len2 dv false -> coil_alone pin i os o ->
  let dec k d o := decide nd rest d o (adv k) (dwell k) in exec nd dec view tt i pin late (St (start_sys n os) None 0 Waiting []) l st' ->
  sparks_told p (R_ (dc_dpt c)) q1 q2 delta alpha zero idx tt target dwell about late len2 o (128 * y_n (st_sys st')) (st_log st') /\
  forall e, may tt i late st' e -> (forall a, e <> Other a) -> exists st2, go nd dec view i pin st' e = Ok st2.
Proof.
  intros Dv Aa Re target Sr (Hp & Eo & Fr & Ps & Al & To) dec Ex.
  destruct (run_pulses c p q1 q2 delta zero tt idx view 0 (o_angle o) adv about dwell alpha late len1 len2 dv rest Rg Slow Tk Seen Hi Wide Ang Aa Ao
    (st_about _ _ _ _ _ _ _ _ _ _ _ Sr) (st_drift _ _ _ _ _ _ _ _ _ _ _ Sr) Re (st_len _ _ _ _ _ _ _ _ _ _ _ Sr) false nd dec i pin n os o) with (l := l) (s := st')
    as [Q1 (j0 & Q2 & Q3)]; auto.
  - intros m o' a Hm M An. apply (decide_vary c p q1 q2 delta zero tt idx view 0 (o_angle o) adv dwell alpha late len1 len2 dv rest); auto; first [exact (st_about _ _ _ _ _ _ _ _ _ _ _ Sr)|exact (st_drift _ _ _ _ _ _ _ _ _ _ _ Sr)|exact (st_len _ _ _ _ _ _ _ _ _ _ _ Sr)].
  - discriminate.
  - rewrite To. reflexivity.
  - split; [exists j0; split; [exact Q2|]; rewrite Dv in Q3; exact Q3|exact Q1].
Qed.
Lemma srun_injector pw l st' : rest = 0 -> alpha = 0%R ->
  let target := (R_ (o_angle o) + R_ (dc_offset c))%R in
  steers (R_ (dc_dpt c)) zero idx (fun _ => target) pw (fun _ => target) alpha len1 len2 dv true -> injector_alone pin i os o ->
  let dec k d o := decide_fuel nd d o (pw k) in exec nd dec view tt i pin late (St (start_sys n os) None 0 Waiting []) l st' ->
  injections_told p (R_ (dc_dpt c)) q1 q2 delta zero idx tt target pw late len2 dv o (128 * y_n (st_sys st')) (st_log st') /\
  forall e, may tt i late st' e -> (forall a, e <> Other a) -> exists st2, go nd dec view i pin st' e = Ok st2.
Proof.
  intros R0 Z0 target Sr (Hp & Eo & Fr & Ps & Al & To) dec Ex. pose proof (sr_us _ _ _ _ _ _ _ _ _ _ Rg) as (U1 & U2 & _).
  assert (A0 : angle_ok f_zero) by (split; [reflexivity|]; split; [reflexivity|]; rewrite R_f_zero, Rabs_R0; lra).
  assert (Et : (R_ (o_angle o) - R_ f_zero + R_ (dc_offset c) = target)%R) by (rewrite R_f_zero; unfold target; ring).
  destruct (run_pulses c p q1 q2 delta zero tt idx view 0 (o_angle o) (fun _ => f_zero) (fun _ => target) pw alpha late len1 len2 dv rest Rg Slow Tk Seen Hi Wide Ang (fun _ _ => A0) Ao) with (fu := true) (nd := nd) (dec := dec) (i := i) (pin := pin) (n := n) (os := os) (o := o) (l := l) (s := st')
    as [Q1 (j0 & Q2 & Q3)]; auto.
  - unfold vtarget. rewrite Et. exact (st_about _ _ _ _ _ _ _ _ _ _ _ Sr).
  - exact (st_drift _ _ _ _ _ _ _ _ _ _ _ Sr).
  - exact (st_len _ _ _ _ _ _ _ _ _ _ _ Sr).
  - intros m o' a Hm M An. unfold dec. pose proof (st_len _ _ _ _ _ _ _ _ _ _ _ Sr m Hm). rewrite fuel_is_spark by lia. replace (decide nd 0 (view m) o' f_zero (pw m)) with (decide nd rest (view m) o' f_zero (pw m)) by (rewrite R0; reflexivity).
    apply (decide_vary c p q1 q2 delta zero tt idx view 0 (o_angle o) (fun _ => f_zero) pw alpha late len1 len2 dv rest); auto;
      first [unfold vtarget; rewrite Et; exact (st_about _ _ _ _ _ _ _ _ _ _ _ Sr)|exact (st_drift _ _ _ _ _ _ _ _ _ _ _ Sr)|exact (st_len _ _ _ _ _ _ _ _ _ _ _ Sr)].
  - intros _ m m' j. unfold vtarget. rewrite Et. exact (st_steady _ _ _ _ _ _ _ _ _ _ _ Sr eq_refl m m' j).
  - rewrite To. reflexivity.
  - unfold vtarget in Q2, Q3. rewrite Et in Q2, Q3. split; [exists j0; split; [exact Q2|]; rewrite Z0 in Q3; exact Q3|exact Q1].
Qed.
End Run.
