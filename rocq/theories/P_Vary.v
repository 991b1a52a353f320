(** C87: one spark and one injection per engine cycle while the speed changes. *)
Require Import ZArith Reals List Bool Lia Lra SpecFloat.
From Flocq Require Import Core.
From Verif Require WheelProofs EvenSpec EvenRun.
From Verif Require Import Res Word F32 F32Flocq TimeProofs AngleProofs PulseProofs Arr Decoder DecoderRun Wheel WheelCam WheelCamProofs P_Wheel P_WheelCam DecoderEven EvenProofs P_Even Outputs Buffers OutputSpec OutputRun WaveProofs P_Outputs
  CrankSpec P_Crank P_CrankEven Spark SparkSpec SparkAim VarySpec SteerSpec VaryCrank VaryAim P_Spark SteerRun.
Import ListNotations.
Open Scope Z_scope.
Ltac Zify.zify_post_hook ::= idtac.

(** What a run of the firmware from its start, in state [s] now, is to have done: the pin has seen one spark (one
    injection) per cycle, from one of the first three that are due after the tooth in slot [first]. *)
Definition sparks_due (p : R -> R) (dpt q1 q2 delta : R) (zero first : Z) (target : R) (late dwell : Z) (o : output) (s : st) : Prop :=
  let err := vmiss dpt q1 q2 delta (vlook dpt q1 q2 delta late dwell) in
  exists j0, soon_after dpt zero first target j0 /\
    pulse_when_due (due p dpt zero target) err (vplan dpt q1 q2 delta) dwell (fun ticks => Rabs (IZR ticks - 4 * IZR dwell) <= 2 * err)%R (o_inv o) j0 (128 * y_n (st_sys s)) (st_log s).
Definition injections_due (p : R -> R) (dpt q1 q2 delta : R) (zero first : Z) (target : R) (late pw : Z) (o : output) (s : st) : Prop :=
  let err := vmiss dpt q1 q2 delta (vlook dpt q1 q2 delta late pw) in
  exists j0, soon_after dpt zero first target j0 /\
    pulse_when_due (due p dpt zero target) err (vplan dpt q1 q2 delta) pw (fun ticks => ticks = 4 * pw) (o_inv o) j0 (128 * y_n (st_sys s)) (st_log s).

(** Equal commands for all calls: C87 as a case of the general run. *)
Lemma wander0 dpt q2 delta : wander dpt q2 delta 0 = 0%R.
Proof. unfold wander, Rdiv. ring. Qed.
Lemma splan0 dpt q1 q2 delta : splan dpt q1 q2 delta 0 0 = vplan dpt q1 q2 delta.
Proof. unfold splan. rewrite wander0. ring. Qed.
Lemma slook0 dpt q1 q2 delta late len : slook dpt q1 q2 delta 0 late len 0 = vlook dpt q1 q2 delta late len.
Proof. unfold slook, vlook. rewrite splan0. reflexivity. Qed.
Lemma steady_regime dpt q1 q2 delta late len rest : vregime dpt q1 q2 delta late len rest -> sregime dpt q1 q2 delta 0 late len len 0 rest.
Proof.
  intros [A1 A2 A3 A4 A5 A6 A7 A8 A9 A10 A11]. split; rewrite ?splan0, ?slook0, ?wander0, ?Rmult_0_r, ?Rplus_0_r, ?Rminus_0_r; auto; try lra; lia.
Qed.
Lemma one_due p dpt q1 q2 delta zero idx tt target len about ahead err plan exact inverted j0 now log (width : Z -> Prop) :
  pulse_as_told p dpt zero idx tt (fun _ => target) (fun _ => len) about ahead err (splan dpt q1 q2 delta 0 0) exact inverted j0 now log -> (forall j, about j = target) -> plan = vplan dpt q1 q2 delta ->
  (forall w, (if exact then w = 4 * len else (Rabs (IZR w - 4 * IZR len) <= 2 * err)%R) -> width w) -> pulse_when_due (due p dpt zero target) err plan len width inverted j0 now log.
Proof.
  intros (l & tl & A & B & C & D) Ab -> Wd. exists l, tl. split; [exact A|]. split; [|split].
  - intros k on off H. destruct (B k on off H) as [(m & _ & E) (m' & _ & E')]. cbv beta in E, E'. apply Rabs_le_inv in E. destruct exact.
    + split; [|apply Wd; lia]. rewrite E', plus_IZR, mult_IZR. apply Rabs_le. lra.
    + split; [exact E'|]. apply Wd. apply Rabs_le_inv in E'. rewrite minus_IZR. apply Rabs_le. lra.
  - destruct C as [C|(on & C & m & _ & E)]; [left; exact C|right; exists on; split; [exact C|exact E]].
  - intros j Hj H. apply D; [exact Hj|]. rewrite Ab, splan0. exact H.
Qed.
Lemma steers_same dpt zero idx target len s : steers dpt zero idx (fun _ => target) (fun _ => len) (fun _ => target) 0 len len 0 s.
Proof. split; intros; rewrite ?Rminus_diag_eq, ?Rabs_R0 by reflexivity; try lra; lia. Qed.

(** Either kind of output on either wheel. *)
Section Run.
Variables (c : dcfg) (f : Z -> Z) (p : R -> R) (q1 q2 delta : R) (zero : Z) (idx : Z -> Z) (view : Z -> dview) (late len rest : Z).
Let tt k := f (idx k).
Hypothesis Rg : vregime (R_ (dc_dpt c)) q1 q2 delta late len rest.
Hypothesis Mv : moves f p (R_ (dc_dpt c)) q1 q2 delta.
Hypothesis Wide : (R_ (dc_dpt c) <= 720)%R.
Hypothesis Tk : forall m, 0 <= m -> exists q d, (q1 <= q <= q2)%R /\ slow_at p (R_ (dc_dpt c)) q delta (IZR (idx m)) /\ vtracks c q delta zero (idx m) (tt m) d /\ view m = seen c d.
Hypothesis Hi : forall m, 0 <= m -> idx m + 1 <= idx (m + 1) <= idx m + 2 \/ (idx (m + 1) = idx m /\ tt (m + 1) = tt m /\ dv_last_angle (view (m + 1)) = dv_last_angle (view m)).
Variables (nd : bool) (pin : Z) (i : nat) (n : Z) (os : list output) (o : output).
Hypothesis Ang : angle_ok (o_angle o).
Hypothesis Ao : angle_ok (dc_offset c).
Hypothesis Op : open_from n <= tt 0 + late.

Lemma vrun_coil adv l st' : angle_ok adv -> coil_alone pin i os o ->
  let dec (_ : Z) d o := decide nd rest d o adv len in exec nd dec view tt i pin late (St (start_sys n os) None 0 Waiting []) l st' ->
  sparks_due p (R_ (dc_dpt c)) q1 q2 delta zero (idx 0) (R_ (o_angle o) - R_ adv + R_ (dc_offset c)) late len o st' /\
  forall e, may tt i late st' e -> (forall a, e <> Other a) -> exists st2, go nd dec view i pin st' e = Ok st2.
Proof.
  intros Aa Co dec Ex. destruct (srun_coil c f p q1 q2 delta 0 zero idx view late len len 0 rest (steady_regime _ _ _ _ _ _ _ Rg) Mv Wide Tk Hi nd pin i n os o Ang Ao Op
    (fun _ => adv) (fun _ => len) (fun _ => R_ (o_angle o) - R_ adv + R_ (dc_offset c))%R l st' eq_refl (fun _ _ => Aa) ltac:(intros k _; left; reflexivity) (steers_same _ _ _ (R_ (o_angle o) - R_ adv + R_ (dc_offset c)) _ _) Co Ex) as [(j0 & S1 & S2) Li].
  split; [|exact Li]. rewrite slook0 in S2. exists j0. split; [exact S1|]. eapply one_due; [exact S2|reflexivity|reflexivity|]. intros w H. exact H.
Qed.
Lemma vrun_injector l st' : rest = 0 -> injector_alone pin i os o ->
  let dec (_ : Z) d o := decide_fuel nd d o len in exec nd dec view tt i pin late (St (start_sys n os) None 0 Waiting []) l st' ->
  injections_due p (R_ (dc_dpt c)) q1 q2 delta zero (idx 0) (R_ (o_angle o) + R_ (dc_offset c)) late len o st' /\
  forall e, may tt i late st' e -> (forall a, e <> Other a) -> exists st2, go nd dec view i pin st' e = Ok st2.
Proof.
  intros R0 Co dec Ex. destruct (srun_injector c f p q1 q2 delta 0 zero idx view late len len 0 rest (steady_regime _ _ _ _ _ _ _ Rg) Mv Wide Tk Hi nd pin i n os o Ang Ao Op
    (fun _ => len) l st' R0 eq_refl (steers_same _ _ _ (R_ (o_angle o) + R_ (dc_offset c)) _ _) Co Ex) as [(j0 & S1 & S2) Li].
  split; [|exact Li]. rewrite slook0 in S2. exists j0. split; [exact S1|]. eapply one_due; [exact S2|reflexivity|reflexivity|]. intros w H. exact H.
Qed.
End Run.

(** ** C87 *)
(** As C84 and C85, for an engine that speeds up and slows down: the time per slot may drift anywhere between [q1]
    and [q2], and by a part [delta] around any moment within a cycle. Still every cycle gets exactly one spark and
    one injection. Each ends within [vmiss] ticks of the moment the crank really is at its angle; what is lost to
    the change of the speed is [4 * delta] of the time from the last adjustment to the spark. *)
Theorem C87_sparks : forall c f p ct q1 q2 delta s x g c0, turning c f s -> dc_type c = MISSING_CAMSYNC -> is_first_gap (dc_num c) (dc_required c) s g -> is_first_cam (dc_num c) x g c0 ->
  0 <= x < 2 * (dc_num c - 1) -> (exists z, R_ (dc_dpt c) = IZR z / 8192)%R -> (IZR (dc_num c) * R_ (dc_dpt c) = 360)%R -> moves f p (R_ (dc_dpt c)) q1 q2 delta -> angle_ok (dc_offset c) ->
  forall tooth view, c0 <= tooth 0 -> g < tooth 0 -> calls_follow tooth ->
  (forall k, 0 <= k -> exists h d fx, cam_history (dc_num c) x f ct s c0 (Z.to_nat (tooth k - s + 1)) h /\ drun c dec_init h = Ok (d, fx) /\ view k = seen c d) ->
  forall nd rest adv dwell late pin i n os o, vregime (R_ (dc_dpt c)) q1 q2 delta late dwell rest -> angle_ok adv -> angle_ok (o_angle o) -> coil_alone pin i os o ->
  let tt k := tooth_time (dc_num c) f (tooth k) in open_from n <= tt 0 + late ->
  let dec (_ : Z) d o := decide nd rest d o adv dwell in
  forall l st', exec nd dec view tt i pin late (St (start_sys n os) None 0 Waiting []) l st' ->
  sparks_due p (R_ (dc_dpt c)) q1 q2 delta (Wheel.slot (dc_num c) (turn_start (dc_num c) x)) (Wheel.slot (dc_num c) (tooth 0)) (R_ (o_angle o) - R_ adv + R_ (dc_offset c)) late dwell o st' /\
  forall e, may tt i late st' e -> (forall a, e <> Other a) -> exists st2, go nd dec view i pin st' e = Ok st2.
Proof.
  intros c f p ct q1 q2 delta s x g c0 Tu Ty G C Hx D N Mv Ao tooth view H0 Hg Cf Vw nd rest adv dwell late pin i n os o Rg Aa Ang Co tt Op dec l st' Ex.
  assert (Hw : (R_ (dc_dpt c) <= 720)%R) by (destruct Tu as [_ _ _ (_ & _ & ?) _ _ _ _ _]; lra).
  destruct (vfollow_cam c f p ct q1 q2 delta 0 late dwell dwell 0 rest s x g c0 Tu Ty G C Hx D N Mv (steady_regime _ _ _ _ _ _ _ Rg) tooth view H0 Hg Cf Vw) as [Tk Hi].
  exact (vrun_coil c f p q1 q2 delta _ (fun k => Wheel.slot (dc_num c) (tooth k)) view late dwell rest Rg Mv Hw Tk Hi nd pin i n os o Ang Ao Op adv l st' Aa Co Ex).
Qed.
Print Assumptions C87_sparks.

Theorem C87_sparks_even : forall c f p cam q1 q2 delta s g, EvenSpec.even_turning c f s -> dc_type c = EVEN_CAMSYNC -> EvenSpec.is_first_cam (dc_num c) (dc_required c) s g ->
  (exists z, R_ (dc_dpt c) = IZR z / 8192)%R -> (IZR (dc_num c) * R_ (dc_dpt c) = 720)%R -> moves f p (R_ (dc_dpt c)) q1 q2 delta -> angle_ok (dc_offset c) ->
  forall tooth view, g < tooth 0 -> calls_follow tooth ->
  (forall k, 0 <= k -> exists h d fx, even_history (dc_num c) f cam s (Z.to_nat (tooth k - s + 1)) h /\ drun c dec_init h = Ok (d, fx) /\ view k = seen c d) ->
  forall nd rest adv dwell late pin i n os o, vregime (R_ (dc_dpt c)) q1 q2 delta late dwell rest -> angle_ok adv -> angle_ok (o_angle o) -> coil_alone pin i os o ->
  let tt k := f (tooth k) in open_from n <= tt 0 + late ->
  let dec (_ : Z) d o := decide nd rest d o adv dwell in
  forall l st', exec nd dec view tt i pin late (St (start_sys n os) None 0 Waiting []) l st' ->
  sparks_due p (R_ (dc_dpt c)) q1 q2 delta 0 (tooth 0) (R_ (o_angle o) - R_ adv + R_ (dc_offset c)) late dwell o st' /\
  forall e, may tt i late st' e -> (forall a, e <> Other a) -> exists st2, go nd dec view i pin st' e = Ok st2.
Proof.
  intros c f p cam q1 q2 delta s g Tu Ty G D N Mv Ao tooth view Hg Cf Vw nd rest adv dwell late pin i n os o Rg Aa Ang Co tt Op dec l st' Ex.
  assert (Hw : (R_ (dc_dpt c) <= 720)%R) by (pose proof (EvenSpec.et_dpt _ _ _ Tu); lra).
  destruct (vfollow_even c f p cam q1 q2 delta 0 late dwell dwell 0 rest s g Tu Ty G D N Mv (steady_regime _ _ _ _ _ _ _ Rg) Hw tooth view Hg Cf Vw) as [Tk Hi].
  exact (vrun_coil c f p q1 q2 delta 0 tooth view late dwell rest Rg Mv Hw Tk Hi nd pin i n os o Ang Ao Op adv l st' Aa Co Ex).
Qed.
Print Assumptions C87_sparks_even.

Theorem C87_injections : forall c f p ct q1 q2 delta s x g c0, turning c f s -> dc_type c = MISSING_CAMSYNC -> is_first_gap (dc_num c) (dc_required c) s g -> is_first_cam (dc_num c) x g c0 ->
  0 <= x < 2 * (dc_num c - 1) -> (exists z, R_ (dc_dpt c) = IZR z / 8192)%R -> (IZR (dc_num c) * R_ (dc_dpt c) = 360)%R -> moves f p (R_ (dc_dpt c)) q1 q2 delta -> angle_ok (dc_offset c) ->
  forall tooth view, c0 <= tooth 0 -> g < tooth 0 -> calls_follow tooth ->
  (forall k, 0 <= k -> exists h d fx, cam_history (dc_num c) x f ct s c0 (Z.to_nat (tooth k - s + 1)) h /\ drun c dec_init h = Ok (d, fx) /\ view k = seen c d) ->
  forall nd pw late pin i n os o, vregime (R_ (dc_dpt c)) q1 q2 delta late pw 0 -> angle_ok (o_angle o) -> injector_alone pin i os o ->
  let tt k := tooth_time (dc_num c) f (tooth k) in open_from n <= tt 0 + late ->
  let dec (_ : Z) d o := decide_fuel nd d o pw in
  forall l st', exec nd dec view tt i pin late (St (start_sys n os) None 0 Waiting []) l st' ->
  injections_due p (R_ (dc_dpt c)) q1 q2 delta (Wheel.slot (dc_num c) (turn_start (dc_num c) x)) (Wheel.slot (dc_num c) (tooth 0)) (R_ (o_angle o) + R_ (dc_offset c)) late pw o st' /\
  forall e, may tt i late st' e -> (forall a, e <> Other a) -> exists st2, go nd dec view i pin st' e = Ok st2.
Proof.
  intros c f p ct q1 q2 delta s x g c0 Tu Ty G C Hx D N Mv Ao tooth view H0 Hg Cf Vw nd pw late pin i n os o Rg Ang Co tt Op dec l st' Ex.
  assert (Hw : (R_ (dc_dpt c) <= 720)%R) by (destruct Tu as [_ _ _ (_ & _ & ?) _ _ _ _ _]; lra).
  destruct (vfollow_cam c f p ct q1 q2 delta 0 late pw pw 0 0 s x g c0 Tu Ty G C Hx D N Mv (steady_regime _ _ _ _ _ _ _ Rg) tooth view H0 Hg Cf Vw) as [Tk Hi].
  exact (vrun_injector c f p q1 q2 delta _ (fun k => Wheel.slot (dc_num c) (tooth k)) view late pw 0 Rg Mv Hw Tk Hi nd pin i n os o Ang Ao Op l st' eq_refl Co Ex).
Qed.
Print Assumptions C87_injections.

Theorem C87_injections_even : forall c f p cam q1 q2 delta s g, EvenSpec.even_turning c f s -> dc_type c = EVEN_CAMSYNC -> EvenSpec.is_first_cam (dc_num c) (dc_required c) s g ->
  (exists z, R_ (dc_dpt c) = IZR z / 8192)%R -> (IZR (dc_num c) * R_ (dc_dpt c) = 720)%R -> moves f p (R_ (dc_dpt c)) q1 q2 delta -> angle_ok (dc_offset c) ->
  forall tooth view, g < tooth 0 -> calls_follow tooth ->
  (forall k, 0 <= k -> exists h d fx, even_history (dc_num c) f cam s (Z.to_nat (tooth k - s + 1)) h /\ drun c dec_init h = Ok (d, fx) /\ view k = seen c d) ->
  forall nd pw late pin i n os o, vregime (R_ (dc_dpt c)) q1 q2 delta late pw 0 -> angle_ok (o_angle o) -> injector_alone pin i os o ->
  let tt k := f (tooth k) in open_from n <= tt 0 + late ->
  let dec (_ : Z) d o := decide_fuel nd d o pw in
  forall l st', exec nd dec view tt i pin late (St (start_sys n os) None 0 Waiting []) l st' ->
  injections_due p (R_ (dc_dpt c)) q1 q2 delta 0 (tooth 0) (R_ (o_angle o) + R_ (dc_offset c)) late pw o st' /\
  forall e, may tt i late st' e -> (forall a, e <> Other a) -> exists st2, go nd dec view i pin st' e = Ok st2.
Proof.
  intros c f p cam q1 q2 delta s g Tu Ty G D N Mv Ao tooth view Hg Cf Vw nd pw late pin i n os o Rg Ang Co tt Op dec l st' Ex.
  assert (Hw : (R_ (dc_dpt c) <= 720)%R) by (pose proof (EvenSpec.et_dpt _ _ _ Tu); lra).
  destruct (vfollow_even c f p cam q1 q2 delta 0 late pw pw 0 0 s g Tu Ty G D N Mv (steady_regime _ _ _ _ _ _ _ Rg) Hw tooth view Hg Cf Vw) as [Tk Hi].
  exact (vrun_injector c f p q1 q2 delta 0 tooth view late pw 0 Rg Mv Hw Tk Hi nd pin i n os o Ang Ao Op l st' eq_refl Co Ex).
Qed.
Print Assumptions C87_injections_even.

(** ** An example run *)
(* The wheel of C84's example; at slot 50 the engine slows down, from 1111 to 1120 ticks per slot. *)
Definition p7 (x : R) : R := (100000 + 1111 * x + 9 * Rmax 0 (x - 50))%R.
Definition f7 (k : Z) : Z := 100000 + 1111 * k + 9 * Z.max 0 (k - 50).
Definition ct7 (m : Z) : Z := f7 (Wheel.slot 36 m) + 500.
Definition d7 : R := (41 / 10000)%R.
Lemma f7_p7 k : IZR (f7 k) = p7 (IZR k).
Proof.
  unfold f7, p7. rewrite !plus_IZR, !mult_IZR. do 2 f_equal. destruct (Z.max_spec 0 (k - 50)) as [[H ->]|[H ->]].
  - rewrite Rmax_right; [apply minus_IZR|]. rewrite <- minus_IZR. apply IZR_le. lia.
  - rewrite Rmax_left; [reflexivity|]. rewrite <- minus_IZR. apply IZR_le. lia.
Qed.
Lemma p7_grows y z : (y <= z)%R -> (1111 * (z - y) <= p7 z - p7 y <= 1120 * (z - y))%R.
Proof. intros H. unfold p7, Rmax. destruct (Rle_dec 0 (z - 50)), (Rle_dec 0 (y - 50)); lra. Qed.
Lemma f7_step i : 1111 <= f7 (i + 1) - f7 i <= 1120.
Proof. unfold f7. lia. Qed.
Lemma moves7 : moves f7 p7 (R_ (dc_dpt wheel36c)) 1111 1120 d7.
Proof.
  split.
  - intros i. rewrite f7_p7. replace (p7 (IZR i) - p7 (IZR i))%R with 0%R by ring. rewrite Rabs_R0. lra.
  - intros x. exists (2231 / 2)%R. split; [lra|]. intros y z _ H _. pose proof (p7_grows y z H). unfold d7. lra.
Qed.
Lemma turning7 : turning wheel36c f7 20.
Proof.
  destruct tol35 as (V & F & B). destruct (f_of_Z_exact 10) as [E Fe]; [cbn; lia|].
  split; cbn [wheel36c dc_required dc_num dc_window dc_max_change dc_dpt]; auto using vf_of_Z; try lia; rewrite ?E; try lra.
  - split; [apply vf_of_Z|]. split; [exact Fe|lra].
  - split; [exact V|]. split; [exact F|lra].
  - intros k. exists 1111, 1120. split; [split; [lia|lra|lra|lra]|]. intros i _ _. apply f7_step.
  - intros i _. pose proof (f7_step i). assert (E7 : tooth_time 36 f7 20 = f7 20) by reflexivity. rewrite E7. unfold f7 at 3. lia.
  - vm_compute. reflexivity.
Qed.
Lemma vregime7 : vregime (R_ (dc_dpt wheel36c)) 1111 1120 d7 500 1000 500 /\ vregime (R_ (dc_dpt wheel36c)) 1111 1120 d7 500 300 0.
Proof.
  assert (D : R_ (dc_dpt wheel36c) = 10%R) by (cbn [wheel36c dc_dpt]; destruct (f_of_Z_exact 10) as [E _]; [cbn; lia|exact E]).
  split; split; rewrite ?D; unfold vlook, vplan, vmiss, cycle_most, cycle_least, cycle_ticks, speed_of, d7; intros; try lra; lia.
Qed.
Definition view7 (k : Z) : dview :=
  match drun wheel36c dec_init (wheel_cam 36 40 f7 ct7 20 (Z.to_nat (44 + k - 20 + 1))) with Ok (d, _) => seen wheel36c d | Err _ => DView 0 0 0 0 f_zero f_zero end.
Definition tt7 (k : Z) : Z := tooth_time 36 f7 (44 + k).
(* the number of the swap after which call [k] comes *)
Definition n7 (k : Z) : Z := tt7 k / 128 - 1.
Definition steps7 : list ev := call6 ++ flat_map (fun k => swaps6 (n7 (k - 1)) (n7 k) ++ call6) [1; 2; 3; 4; 5; 6] ++ swaps6 (n7 6) (n7 6 + 4).

Lemma view7_ok k : 0 <= k -> exists h d fx, cam_history 36 40 f7 ct7 20 40 (Z.to_nat (44 + k - 20 + 1)) h /\ drun wheel36c dec_init h = Ok (d, fx) /\ view7 k = seen wheel36c d.
Proof.
  intros Hk. destruct fits6 as (_ & G & C & _ & _ & _ & _ & D & N & _). destruct vregime7 as [Rg _]. destruct (vary_bounds wheel36c 1111 1120 d7 0 500 1000 1000 0 500 (steady_regime _ _ _ _ _ _ _ Rg)) as [Q140 Hd].
  assert (Em : 20 + Z.of_nat (Z.to_nat (44 + k - 20 + 1)) - 1 = 44 + k) by (rewrite Z2Nat.id; lia).
  destruct (mv_slow _ _ _ _ _ _ moves7 (IZR (Wheel.slot 36 (44 + k)))) as (q & Hq & Sl). pose proof (one_range wheel36c 1111 1120 d7 0 500 1000 1000 0 500 (steady_regime _ _ _ _ _ _ _ Rg) q Hq) as Sr. pose proof (vr_slow _ _ _ _ _ _ _ Rg). pose proof (vr_fast _ _ _ _ _ _ _ Rg).
  destruct (vsynced_cam wheel36c f7 ct7 q d7 (720 / R_ (dc_dpt wheel36c) + 1) 20 40 35 40 (Z.to_nat (44 + k - 20 + 1)) _ turning7 eq_refl G C ltac:(cbn; lia) D N ltac:(left; reflexivity)) as (d & fx & E & _);
    rewrite ?Em; try lia; try lra.
  { apply about_of with p7 1111%R 1120%R; [exact moves7|exact Sl]. }
  { apply span_ok. destruct turning7 as [_ _ _ (_ & _ & ?) _ _ _ _ _]. lra. }
  eexists _, d, fx. split; [left; reflexivity|]. split; [exact E|]. unfold view7. cbn [wheel36c dc_num] in E. fold wheel36c in E. rewrite E. reflexivity.
Qed.

(* All hypotheses of the theorems hold, and these 73 steps are a run. The spark is due at slot 51, at tick 156670; the
   last adjustment comes before the engine slows down, so the pulse ends 9 ticks early. *)
Example C87_example : turning wheel36c f7 20 /\ moves f7 p7 (R_ (dc_dpt wheel36c)) 1111 1120 d7 /\ vregime (R_ (dc_dpt wheel36c)) 1111 1120 d7 500 1000 500 /\ vregime (R_ (dc_dpt wheel36c)) 1111 1120 d7 500 300 0 /\
  (forall k, 0 <= k -> exists h d fx, cam_history 36 40 f7 ct7 20 40 (Z.to_nat (44 + k - 20 + 1)) h /\ drun wheel36c dec_init h = Ok (d, fx) /\ view7 k = seen wheel36c d) /\
  open_from (n7 0) <= tt7 0 + 500 /\ due p7 10 36 (180 - 30 + 0) 0 = 156670%R /\
  (exists s', exec false (fun _ d o => decide false 500 d o (f_of_Z 30) 1000) view7 tt7 0 3 500 (St (start_sys (n7 0) [coil; injector]) None 0 Waiting []) steps7 s' /\ st_log s' = [(152661, true); (156661, false)] /\
    sparks_due p7 10 1111 1120 d7 36 45 (180 - 30 + 0) 500 1000 coil s') /\
  exists s', exec false (fun _ d o => decide_fuel false d o 300) view7 tt7 1 5 500 (St (start_sys (n7 0) [coil; squirt]) None 0 Waiting []) steps7 s' /\ st_log s' = [(155461, true); (156661, false)] /\
    injections_due p7 10 1111 1120 d7 36 45 (150 + 0) 500 300 squirt s'.
Proof.
  destruct fits6 as (_ & G & C & _ & Ao & Aa & Ac & D & N & Co & _). destruct fits5 as (Ci & Ai & _). destruct vregime7 as [Rg1 Rg2]. assert (Cf : calls_follow (fun k => 44 + k)) by (intros k _; left; lia).
  assert (O0 : open_from (n7 0) <= tt7 0 + 500) by (vm_compute; congruence).
  assert (E1 : R_ (dc_dpt wheel36c) = 10%R) by (cbn [wheel36c dc_dpt]; destruct (f_of_Z_exact 10) as [E1 _]; [cbn; lia|exact E1]).
  assert (E2 : R_ (o_angle squirt) = 150%R) by (cbn [squirt o_angle]; destruct (f_of_Z_exact 150) as [E2 _]; [cbn; lia|exact E2]).
  assert (E5 : R_ (o_angle coil) = 180%R) by (cbn [coil o_angle]; destruct (f_of_Z_exact 180) as [E5 _]; [cbn; lia|exact E5]).
  assert (E3 : R_ (f_of_Z 30) = 30%R) by (destruct (f_of_Z_exact 30) as [E3 _]; [cbn; lia|exact E3]).
  assert (E4 : R_ (dc_offset wheel36c) = 0%R) by reflexivity.
  split; [exact turning7|]. split; [exact moves7|]. split; [exact Rg1|]. split; [exact Rg2|]. split; [exact view7_ok|]. split; [exact O0|].
  split; [unfold due, p7; rewrite Rmax_right; lra|]. split.
  - assert (L : option_map st_log (runs false (fun _ d o => decide false 500 d o (f_of_Z 30) 1000) view7 tt7 0 3 500 (St (start_sys (n7 0) [coil; injector]) None 0 Waiting []) steps7) = Some [(152661, true); (156661, false)]) by (vm_compute; reflexivity).
    destruct (runs false (fun _ d o => decide false 500 d o (f_of_Z 30) 1000) view7 tt7 0 3 500 (St (start_sys (n7 0) [coil; injector]) None 0 Waiting []) steps7) as [s'|] eqn:E; [|discriminate L]. cbn [option_map] in L. assert (L' : st_log s' = [(152661, true); (156661, false)]) by congruence. clear L. rename L' into L.
    apply runs_exec in E. exists s'. split; [exact E|]. split; [exact L|].
    pose proof (C87_sparks wheel36c f7 p7 ct7 1111 1120 d7 20 40 35 40 turning7 eq_refl G C ltac:(cbn; lia) D N moves7 Ao (fun k => 44 + k) view7 ltac:(lia) ltac:(lia) Cf view7_ok
      false 500 (f_of_Z 30) 1000 500 3 0%nat (n7 0) [coil; injector] coil Rg1 Aa Ac Co O0 steps7 s' E) as [S _]. rewrite E1, E5, E3, E4 in S. exact S.
  - assert (L : option_map st_log (runs false (fun _ d o => decide_fuel false d o 300) view7 tt7 1 5 500 (St (start_sys (n7 0) [coil; squirt]) None 0 Waiting []) steps7) = Some [(155461, true); (156661, false)]) by (vm_compute; reflexivity).
    destruct (runs false (fun _ d o => decide_fuel false d o 300) view7 tt7 1 5 500 (St (start_sys (n7 0) [coil; squirt]) None 0 Waiting []) steps7) as [s'|] eqn:E; [|discriminate L]. cbn [option_map] in L. assert (L' : st_log s' = [(155461, true); (156661, false)]) by congruence. clear L. rename L' into L.
    apply runs_exec in E. exists s'. split; [exact E|]. split; [exact L|].
    pose proof (C87_injections wheel36c f7 p7 ct7 1111 1120 d7 20 40 35 40 turning7 eq_refl G C ltac:(cbn; lia) D N moves7 Ao (fun k => 44 + k) view7 ltac:(lia) ltac:(lia) Cf view7_ok
      false 300 500 5 1%nat (n7 0) [coil; squirt] squirt Rg2 Ai Ci O0 steps7 s' E) as [S _]. rewrite E1, E2, E4 in S. exact S.
Qed.
