(** C84 and C85: one spark and one injection per engine cycle, each at its angle and with its length. *)
Require Import ZArith Reals List Bool Lia Lra SpecFloat.
From Flocq Require Import Core.
From Verif Require WheelProofs EvenSpec EvenRun.
From Verif Require Import Res Word F32 F32Flocq TimeProofs AngleProofs PulseProofs Arr Decoder DecoderRun Wheel WheelCam WheelCamProofs P_Wheel P_WheelCam DecoderEven EvenProofs P_Even Outputs Buffers OutputSpec OutputRun WaveProofs P_Outputs
  CrankSpec P_Crank P_CrankEven Spark SparkSpec SparkAim.
Import ListNotations.
Open Scope Z_scope.
Ltac Zify.zify_post_hook ::= idtac.

(** The outputs at the start: nothing planned, each pin below 32, pin [pin] belongs to output [i] alone, and that
    is an output of kind [kind]. *)
Definition output_alone (kind : etype) (pin : Z) (i : nat) (os : list output) (o : output) : Prop :=
  0 <= pin < 16 /\ nth_error os i = Some o /\ Forall fresh os /\ Forall (fun o => 0 <= o_pin o mod 256 < 32) os /\ alone pin i os /\ o_type o = kind.
Definition coil_alone := output_alone IGNITION_EVENT.
Definition injector_alone := output_alone FUEL_EVENT.

(** Calls are numbered from 0; [tooth k] is the number of the last tooth the decoder has seen when call [k] is
    made. Several calls may follow the same tooth: the tooth and its cam pulse both lead to one, and the end of an
    injection leads to another for its output. *)
Definition calls_follow (tooth : Z -> Z) : Prop := forall k, 0 <= k -> tooth (k + 1) = tooth k + 1 \/ tooth (k + 1) = tooth k.

(** What a run of the firmware from its start, in state [s] now, is to have done: the pin has seen one spark (one
    injection) per cycle, from one of the first three that are due after the first tooth. *)
Definition from_start (dpt tau q : R) (zero first : Z) (target : R) (j0 : Z) : Prop :=
  (crank_at dpt tau q zero first - dpt / q * miss dpt q 0 <= target + 720 * IZR j0 <= crank_at dpt tau q zero first + 2160 + dpt / q * miss dpt q 0)%R.
Definition sparks (dpt tau q : R) (zero first : Z) (target : R) (late dwell : Z) (o : output) (s : st) : Prop :=
  exists j0, from_start dpt tau q zero first target j0 /\ spark_per_cycle dpt tau q zero target late dwell (o_inv o) j0 (128 * y_n (st_sys s)) (st_log s).
Definition injections (dpt tau q : R) (zero first : Z) (target : R) (late pw : Z) (o : output) (s : st) : Prop :=
  exists j0, from_start dpt tau q zero first target j0 /\ injection_per_cycle dpt tau q zero target late pw (o_inv o) j0 (128 * y_n (st_sys s)) (st_log s).

(** ** The decoder follows the crank *)
Lemma from_first tooth : calls_follow tooth -> forall k, 0 <= k -> tooth 0 <= tooth k.
Proof.
  intros Cf k Hk. pattern k. apply natlike_ind; [cbv beta; lia| |exact Hk]. cbv beta. intros y Hy IH. unfold Z.succ. destruct (Cf y Hy) as [->| ->]; lia.
Qed.
Lemma follow_cam c f ct tau q s x g c0 : turning c f s -> dc_type c = MISSING_CAMSYNC -> is_first_gap (dc_num c) (dc_required c) s g -> is_first_cam (dc_num c) x g c0 ->
  0 <= x < 2 * (dc_num c - 1) -> (exists z, R_ (dc_dpt c) = IZR z / 8192)%R -> (IZR (dc_num c) * R_ (dc_dpt c) = 360)%R -> constant_speed f tau q ->
  (16 <= q)%R -> (20 <= speed_of (R_ (dc_dpt c)) q <= 1000000)%R ->
  forall tooth view, c0 <= tooth 0 -> g < tooth 0 -> calls_follow tooth ->
  (forall k, 0 <= k -> exists h d fx, cam_history (dc_num c) x f ct s c0 (Z.to_nat (tooth k - s + 1)) h /\ drun c dec_init h = Ok (d, fx) /\ view k = seen c d) ->
  let tt k := tooth_time (dc_num c) f (tooth k) in let idx k := Wheel.slot (dc_num c) (tooth k) in
  (forall m, 0 <= m -> exists d, tracks c tau q (Wheel.slot (dc_num c) (turn_start (dc_num c) x)) (idx m) (tt m) d /\ view m = seen c d) /\
  (forall m, 0 <= m -> idx m + 1 <= idx (m + 1) <= idx m + 2 \/ (idx (m + 1) = idx m /\ tt (m + 1) = tt m /\ dv_last_angle (view (m + 1)) = dv_last_angle (view m))).
Proof.
  intros Tu Ty G C Hx D N CS Hq Hs tooth view H0 Hg Cf Vw tt idx.
  assert (Hsg : s <= g) by (destruct Tu, G as (_ & ? & _); lia).
  assert (K : forall k, 0 <= k -> exists d, view k = seen c d /\ dd_last_angle d = cam_angle c c0 (Z.to_nat (tooth k - c0)) /\
    tracks c tau q (Wheel.slot (dc_num c) (turn_start (dc_num c) x)) (Wheel.slot (dc_num c) (tooth k)) (tooth_time (dc_num c) f (tooth k)) d).
  { intros k Hk. destruct (Vw k Hk) as (h & d & fx & Hh & E & Ev). pose proof (from_first tooth Cf k Hk).
    assert (Em : s + Z.of_nat (Z.to_nat (tooth k - s + 1)) - 1 = tooth k) by (rewrite Z2Nat.id; lia).
    destruct (synced_crank c f ct tau q s x g c0 (Z.to_nat (tooth k - s + 1)) h Tu Ty G C Hx D N CS Hq Hs Hh) as (d' & fx' & E' & La & Tk); rewrite ?Em in *; try lia.
    assert (d' = d) by congruence. subst d'. exists d. auto. }
  split; intros k Hk.
  - destruct (K k Hk) as (d & Ev & _ & Tk). exists d. auto.
  - unfold tt, idx. destruct (Cf k Hk) as [->|E].
    + left. rewrite WheelProofs.slot_succ by (destruct Tu; lia). destruct (_ =? _); lia.
    + right. rewrite E. split; [reflexivity|]. split; [reflexivity|]. destruct (K k Hk) as (d & -> & L1 & _). destruct (K (k + 1) ltac:(lia)) as (d' & -> & L2 & _). rewrite E in L2. cbn [seen dv_last_angle]. congruence.
Qed.
Lemma follow_even c f cam tau q s g : EvenSpec.even_turning c f s -> dc_type c = EVEN_CAMSYNC -> EvenSpec.is_first_cam (dc_num c) (dc_required c) s g ->
  (exists z, R_ (dc_dpt c) = IZR z / 8192)%R -> (IZR (dc_num c) * R_ (dc_dpt c) = 720)%R -> constant_speed f tau q -> (16 <= q)%R -> (20 <= speed_of (R_ (dc_dpt c)) q <= 1000000)%R ->
  forall tooth view, g < tooth 0 -> calls_follow tooth ->
  (forall k, 0 <= k -> exists h d fx, even_history (dc_num c) f cam s (Z.to_nat (tooth k - s + 1)) h /\ drun c dec_init h = Ok (d, fx) /\ view k = seen c d) ->
  let tt k := f (tooth k) in
  (forall m, 0 <= m -> exists d, tracks c tau q 0 (tooth m) (tt m) d /\ view m = seen c d) /\
  (forall m, 0 <= m -> tooth m + 1 <= tooth (m + 1) <= tooth m + 2 \/ (tooth (m + 1) = tooth m /\ tt (m + 1) = tt m /\ dv_last_angle (view (m + 1)) = dv_last_angle (view m))).
Proof.
  intros Tu Ty G D N CS Hq Hs tooth view Hg Cf Vw tt.
  assert (Hr : 0 <= dc_required c) by (destruct Tu as [? _ [_ [? _] _] _ _]; lia). assert (Hsg : s - 1 <= g) by (destruct G as (_ & ? & _); lia).
  assert (K : forall k, 0 <= k -> exists d, view k = seen c d /\ dd_last_angle d = EvenRun.eangle c (Z.to_nat (tooth k mod dc_num c)) /\ tracks c tau q 0 (tooth k) (f (tooth k)) d).
  { intros k Hk. destruct (Vw k Hk) as (h & d & fx & Hh & E & Ev). pose proof (from_first tooth Cf k Hk).
    assert (Em : s + Z.of_nat (Z.to_nat (tooth k - s + 1)) - 1 = tooth k) by (rewrite Z2Nat.id; lia).
    destruct (synced_even c f cam tau q s g Tu Ty G CS Hq Hs D N (Z.to_nat (tooth k - s + 1)) h Hh) as (d' & fx' & E' & La & Tk); rewrite ?Em in *; try lia.
    assert (d' = d) by congruence. subst d'. exists d. auto. }
  split; intros k Hk.
  - destruct (K k Hk) as (d & Ev & _ & Tk). exists d. auto.
  - unfold tt. destruct (Cf k Hk) as [->|E]; [left; lia|]. right. rewrite E. split; [reflexivity|]. split; [reflexivity|].
    destruct (K k Hk) as (d & -> & L1 & _). destruct (K (k + 1) ltac:(lia)) as (d' & -> & L2 & _). rewrite E in L2. cbn [seen dv_last_angle]. congruence.
Qed.

(** Either kind of output on either wheel. *)
Lemma run_coil c tau q zero tt idx view adv late dwell rest nd pin i n os o l st' : regime (R_ (dc_dpt c)) q late dwell rest ->
  (forall m, 0 <= m -> exists d, tracks c tau q zero (idx m) (tt m) d /\ view m = seen c d) ->
  (forall m, 0 <= m -> idx m + 1 <= idx (m + 1) <= idx m + 2 \/ (idx (m + 1) = idx m /\ tt (m + 1) = tt m /\ dv_last_angle (view (m + 1)) = dv_last_angle (view m))) ->
  angle_ok (o_angle o) -> angle_ok adv -> angle_ok (dc_offset c) -> coil_alone pin i os o -> open_from n <= tt 0 + late ->
  let dec (_ : Z) d o := decide nd rest d o adv dwell in exec nd dec view tt i pin late (St (start_sys n os) None 0 Waiting []) l st' ->
  sparks (R_ (dc_dpt c)) tau q zero (tt 0) (R_ (o_angle o) - R_ adv + R_ (dc_offset c)) late dwell o st' /\
  forall e, may tt i late st' e -> (forall a, e <> Other a) -> exists st2, go nd dec view i pin st' e = Ok st2.
Proof.
  intros Rg Tk Hi Ang Aa Ao (Hp & Eo & Fr & Ps & Al & To) Op dec Ex.
  destruct (run_pulses c tau q zero tt idx view 0 (o_angle o) adv late dwell rest Rg Tk Hi Ang Aa Ao false nd dec (fun ticks => Rabs (IZR ticks - 4 * IZR dwell) <= 2 * miss (R_ (dc_dpt c)) q (lookahead (R_ (dc_dpt c)) q late dwell))%R i pin n os o) with (l := l) (s := st')
    as [Q1 (j0 & Q2 & Q3)]; auto.
  - intros m o' p Hm M An. apply (decide_aim c tau q zero tt idx view 0 (o_angle o) adv late dwell rest Rg Tk); auto.
  - rewrite To. reflexivity.
  - split; [exists j0; split; [exact Q2|exact Q3]|exact Q1].
Qed.
Lemma run_injector c tau q zero tt idx view late pw nd pin i n os o l st' : regime (R_ (dc_dpt c)) q late pw 0 ->
  (forall m, 0 <= m -> exists d, tracks c tau q zero (idx m) (tt m) d /\ view m = seen c d) ->
  (forall m, 0 <= m -> idx m + 1 <= idx (m + 1) <= idx m + 2 \/ (idx (m + 1) = idx m /\ tt (m + 1) = tt m /\ dv_last_angle (view (m + 1)) = dv_last_angle (view m))) ->
  angle_ok (o_angle o) -> angle_ok (dc_offset c) -> injector_alone pin i os o -> open_from n <= tt 0 + late ->
  let dec (_ : Z) d o := decide_fuel nd d o pw in exec nd dec view tt i pin late (St (start_sys n os) None 0 Waiting []) l st' ->
  injections (R_ (dc_dpt c)) tau q zero (tt 0) (R_ (o_angle o) + R_ (dc_offset c)) late pw o st' /\
  forall e, may tt i late st' e -> (forall a, e <> Other a) -> exists st2, go nd dec view i pin st' e = Ok st2.
Proof.
  intros Rg Tk Hi Ang Ao (Hp & Eo & Fr & Ps & Al & To) Op dec Ex. pose proof (rg_us _ _ _ _ _ Rg) as (U1 & _).
  assert (A0 : angle_ok f_zero) by (split; [reflexivity|]; split; [reflexivity|]; rewrite R_f_zero, Rabs_R0; lra).
  destruct (run_pulses c tau q zero tt idx view 0 (o_angle o) f_zero late pw 0 Rg Tk Hi Ang A0 Ao true nd dec (fun ticks => ticks = 4 * pw) i pin n os o) with (l := l) (s := st')
    as [Q1 (j0 & Q2 & Q3)]; auto.
  - intros m o' p Hm M An. unfold dec. rewrite fuel_is_spark by lia. apply (decide_aim c tau q zero tt idx view 0 (o_angle o) f_zero late pw 0 Rg Tk); auto.
  - rewrite To. reflexivity.
  - rewrite R_f_zero, Rminus_0_r in Q2, Q3. split; [exists j0; split; [exact Q2|exact Q3]|exact Q1].
Qed.

(** ** C84 *)
(** A steadily turning missing-tooth wheel with cam sync and a decoder that has its position. The firmware is
    called after every tooth, and once more after the cam pulse, never later than [late] ticks after the tooth;
    the swap interrupt and the work on the other outputs come in between as they like. However long this goes
    on, the pin of an ignition output sees exactly one pulse per engine cycle. It ends when the crank is at the
    output's angle less the advance, and is as long as the commanded dwell; and no step of the output or of the
    swap interrupt can go wrong. *)
Theorem C84_sparks : forall c f ct tau q s x g c0, turning c f s -> dc_type c = MISSING_CAMSYNC -> is_first_gap (dc_num c) (dc_required c) s g -> is_first_cam (dc_num c) x g c0 ->
  0 <= x < 2 * (dc_num c - 1) -> (exists z, R_ (dc_dpt c) = IZR z / 8192)%R -> (IZR (dc_num c) * R_ (dc_dpt c) = 360)%R -> constant_speed f tau q -> angle_ok (dc_offset c) ->
  forall tooth view, c0 <= tooth 0 -> g < tooth 0 -> calls_follow tooth ->
  (forall k, 0 <= k -> exists h d fx, cam_history (dc_num c) x f ct s c0 (Z.to_nat (tooth k - s + 1)) h /\ drun c dec_init h = Ok (d, fx) /\ view k = seen c d) ->
  forall nd rest adv dwell late pin i n os o, regime (R_ (dc_dpt c)) q late dwell rest -> angle_ok adv -> angle_ok (o_angle o) -> coil_alone pin i os o ->
  let tt k := tooth_time (dc_num c) f (tooth k) in open_from n <= tt 0 + late ->
  let dec (_ : Z) d o := decide nd rest d o adv dwell in
  forall l st', exec nd dec view tt i pin late (St (start_sys n os) None 0 Waiting []) l st' ->
  sparks (R_ (dc_dpt c)) tau q (Wheel.slot (dc_num c) (turn_start (dc_num c) x)) (tt 0) (R_ (o_angle o) - R_ adv + R_ (dc_offset c)) late dwell o st' /\
  forall e, may tt i late st' e -> (forall a, e <> Other a) -> exists st2, go nd dec view i pin st' e = Ok st2.
Proof.
  intros c f ct tau q s x g c0 Tu Ty G C Hx D N CS Ao tooth view H0 Hg Cf Vw nd rest adv dwell late pin i n os o Rg Aa Ang Co tt Op dec l st' Ex.
  assert (Hq : (16 <= q)%R) by apply Rg. assert (Hs : (20 <= speed_of (R_ (dc_dpt c)) q <= 1000000)%R) by apply Rg.
  destruct (follow_cam c f ct tau q s x g c0 Tu Ty G C Hx D N CS Hq Hs tooth view H0 Hg Cf Vw) as [Tk Hi].
  exact (run_coil c tau q _ tt _ view adv late dwell rest nd pin i n os o l st' Rg Tk Hi Ang Aa Ao Co Op Ex).
Qed.
Print Assumptions C84_sparks.

(** The same for a wheel with equally spaced teeth and a cam pulse. *)
Theorem C84_sparks_even : forall c f cam tau q s g, EvenSpec.even_turning c f s -> dc_type c = EVEN_CAMSYNC -> EvenSpec.is_first_cam (dc_num c) (dc_required c) s g ->
  (exists z, R_ (dc_dpt c) = IZR z / 8192)%R -> (IZR (dc_num c) * R_ (dc_dpt c) = 720)%R -> constant_speed f tau q -> angle_ok (dc_offset c) ->
  forall tooth view, g < tooth 0 -> calls_follow tooth ->
  (forall k, 0 <= k -> exists h d fx, even_history (dc_num c) f cam s (Z.to_nat (tooth k - s + 1)) h /\ drun c dec_init h = Ok (d, fx) /\ view k = seen c d) ->
  forall nd rest adv dwell late pin i n os o, regime (R_ (dc_dpt c)) q late dwell rest -> angle_ok adv -> angle_ok (o_angle o) -> coil_alone pin i os o ->
  let tt k := f (tooth k) in open_from n <= tt 0 + late ->
  let dec (_ : Z) d o := decide nd rest d o adv dwell in
  forall l st', exec nd dec view tt i pin late (St (start_sys n os) None 0 Waiting []) l st' ->
  sparks (R_ (dc_dpt c)) tau q 0 (tt 0) (R_ (o_angle o) - R_ adv + R_ (dc_offset c)) late dwell o st' /\
  forall e, may tt i late st' e -> (forall a, e <> Other a) -> exists st2, go nd dec view i pin st' e = Ok st2.
Proof.
  intros c f cam tau q s g Tu Ty G D N CS Ao tooth view Hg Cf Vw nd rest adv dwell late pin i n os o Rg Aa Ang Co tt Op dec l st' Ex.
  assert (Hq : (16 <= q)%R) by apply Rg. assert (Hs : (20 <= speed_of (R_ (dc_dpt c)) q <= 1000000)%R) by apply Rg.
  destruct (follow_even c f cam tau q s g Tu Ty G D N CS Hq Hs tooth view Hg Cf Vw) as [Tk Hi].
  exact (run_coil c tau q 0 tt tooth view adv late dwell rest nd pin i n os o l st' Rg Tk Hi Ang Aa Ao Co Op Ex).
Qed.
Print Assumptions C84_sparks_even.

(** ** C85 *)
(** The same run for a fuel output: exactly one pulse per engine cycle, which ends when the crank is at the output's
    angle. Its length is exactly the commanded pulse width, although the pulse is moved, tooth by tooth, while it
    is planned and even while it is played. *)
Theorem C85_injections : forall c f ct tau q s x g c0, turning c f s -> dc_type c = MISSING_CAMSYNC -> is_first_gap (dc_num c) (dc_required c) s g -> is_first_cam (dc_num c) x g c0 ->
  0 <= x < 2 * (dc_num c - 1) -> (exists z, R_ (dc_dpt c) = IZR z / 8192)%R -> (IZR (dc_num c) * R_ (dc_dpt c) = 360)%R -> constant_speed f tau q -> angle_ok (dc_offset c) ->
  forall tooth view, c0 <= tooth 0 -> g < tooth 0 -> calls_follow tooth ->
  (forall k, 0 <= k -> exists h d fx, cam_history (dc_num c) x f ct s c0 (Z.to_nat (tooth k - s + 1)) h /\ drun c dec_init h = Ok (d, fx) /\ view k = seen c d) ->
  forall nd pw late pin i n os o, regime (R_ (dc_dpt c)) q late pw 0 -> angle_ok (o_angle o) -> injector_alone pin i os o ->
  let tt k := tooth_time (dc_num c) f (tooth k) in open_from n <= tt 0 + late ->
  let dec (_ : Z) d o := decide_fuel nd d o pw in
  forall l st', exec nd dec view tt i pin late (St (start_sys n os) None 0 Waiting []) l st' ->
  injections (R_ (dc_dpt c)) tau q (Wheel.slot (dc_num c) (turn_start (dc_num c) x)) (tt 0) (R_ (o_angle o) + R_ (dc_offset c)) late pw o st' /\
  forall e, may tt i late st' e -> (forall a, e <> Other a) -> exists st2, go nd dec view i pin st' e = Ok st2.
Proof.
  intros c f ct tau q s x g c0 Tu Ty G C Hx D N CS Ao tooth view H0 Hg Cf Vw nd pw late pin i n os o Rg Ang Co tt Op dec l st' Ex.
  assert (Hq : (16 <= q)%R) by apply Rg. assert (Hs : (20 <= speed_of (R_ (dc_dpt c)) q <= 1000000)%R) by apply Rg.
  destruct (follow_cam c f ct tau q s x g c0 Tu Ty G C Hx D N CS Hq Hs tooth view H0 Hg Cf Vw) as [Tk Hi].
  exact (run_injector c tau q _ tt _ view late pw nd pin i n os o l st' Rg Tk Hi Ang Ao Co Op Ex).
Qed.
Print Assumptions C85_injections.

Theorem C85_injections_even : forall c f cam tau q s g, EvenSpec.even_turning c f s -> dc_type c = EVEN_CAMSYNC -> EvenSpec.is_first_cam (dc_num c) (dc_required c) s g ->
  (exists z, R_ (dc_dpt c) = IZR z / 8192)%R -> (IZR (dc_num c) * R_ (dc_dpt c) = 720)%R -> constant_speed f tau q -> angle_ok (dc_offset c) ->
  forall tooth view, g < tooth 0 -> calls_follow tooth ->
  (forall k, 0 <= k -> exists h d fx, even_history (dc_num c) f cam s (Z.to_nat (tooth k - s + 1)) h /\ drun c dec_init h = Ok (d, fx) /\ view k = seen c d) ->
  forall nd pw late pin i n os o, regime (R_ (dc_dpt c)) q late pw 0 -> angle_ok (o_angle o) -> injector_alone pin i os o ->
  let tt k := f (tooth k) in open_from n <= tt 0 + late ->
  let dec (_ : Z) d o := decide_fuel nd d o pw in
  forall l st', exec nd dec view tt i pin late (St (start_sys n os) None 0 Waiting []) l st' ->
  injections (R_ (dc_dpt c)) tau q 0 (tt 0) (R_ (o_angle o) + R_ (dc_offset c)) late pw o st' /\
  forall e, may tt i late st' e -> (forall a, e <> Other a) -> exists st2, go nd dec view i pin st' e = Ok st2.
Proof.
  intros c f cam tau q s g Tu Ty G D N CS Ao tooth view Hg Cf Vw nd pw late pin i n os o Rg Ang Co tt Op dec l st' Ex.
  assert (Hq : (16 <= q)%R) by apply Rg. assert (Hs : (20 <= speed_of (R_ (dc_dpt c)) q <= 1000000)%R) by apply Rg.
  destruct (follow_even c f cam tau q s g Tu Ty G D N CS Hq Hs tooth view Hg Cf Vw) as [Tk Hi].
  exact (run_injector c tau q 0 tt tooth view late pw nd pin i n os o l st' Rg Tk Hi Ang Ao Co Op Ex).
Qed.
Print Assumptions C85_injections_even.

(** ** An example run *)
(* Checks a list of steps and carries them out. *)
Definition run1 (nd : bool) (dec : Z -> dview -> output -> res (output * option (Z * Z))) (view : Z -> dview) (tt : Z -> Z) (i : nat) (p late : Z) (s : st) (e : ev) : option st :=
  let ok := match e with
    | Ask => match st_phase s with Waiting => true | _ => false end && (tt (st_next s) <? open_from (y_n (st_sys s)))
    | SetPins => match st_phase s with Asked => true | _ => false end
    | Write => match st_phase s with Pinned => true | _ => false end
    | SwapIrq now => (now / 128 =? y_n (st_sys s) + 1) && (open_from (y_n (st_sys s) + 1) <=? tt (st_next s) + late)
    | Other _ => false
    end in
  if ok then match go nd dec view i p s e with Ok s' => Some s' | Err _ => None end else None.
Fixpoint runs nd dec view tt i p late s (l : list ev) : option st :=
  match l with [] => Some s | e :: l => match run1 nd dec view tt i p late s e with Some s1 => runs nd dec view tt i p late s1 l | None => None end end.
Lemma runs_exec nd dec view tt i p late l : forall s s', runs nd dec view tt i p late s l = Some s' -> exec nd dec view tt i p late s l s'.
Proof.
  induction l as [|e l IH]; intros s s'; cbn [runs]; [intros H; assert (s = s') by congruence; subst; constructor|].
  unfold run1. cbv zeta. intros H. match type of H with context [if ?b then _ else _] => destruct b eqn:Ok1 end; [|discriminate]. destruct (go nd dec view i p s e) as [s1|] eqn:Eg; [|discriminate].
  apply Exec_cons with s1; auto. destruct e; cbn [may].
  - apply andb_true_iff in Ok1. destruct Ok1 as [A B]. apply Z.ltb_lt in B. destruct (st_phase s); try discriminate. auto.
  - destruct (st_phase s); try discriminate. auto.
  - destruct (st_phase s); try discriminate. auto.
  - apply andb_true_iff in Ok1. destruct Ok1 as [A B]. apply Z.eqb_eq in A. apply Z.leb_le in B. auto.
  - discriminate.
Qed.

(* The wheel of C75's example at 6000 RPM: 1111 ticks for 10 degrees. The coil of P_Outputs (180 degrees) with 30
   degrees of advance and 300 us of dwell (1200 ticks); calls are done within 500 ticks of their tooth. The
   first call is that after tooth 48, at 130 degrees. *)
Definition f6 (k : Z) : Z := 100000 + 1111 * k.
Definition view6 (k : Z) : dview :=
  match drun wheel36c dec_init (wheel_cam 36 40 f6 (fun m => 100500 + 1111 * Wheel.slot 36 m) 20 (Z.to_nat (48 + k - 20 + 1))) with Ok (d, _) => seen wheel36c d | Err _ => DView 0 0 0 0 f_zero f_zero end.
Definition tt6 (k : Z) : Z := tooth_time 36 f6 (48 + k).
Definition call6 : list ev := [Ask; SetPins; Write].
Definition swaps6 (from to : Z) : list ev := map (fun j => SwapIrq (128 * (Z.of_nat j + 1))) (seq (Z.to_nat from) (Z.to_nat (to - from))).
Definition steps6 : list ev := call6 ++ swaps6 1205 1214 ++ call6 ++ swaps6 1214 1222 ++ call6 ++ swaps6 1222 1227.
Lemma regime6 : regime (R_ (dc_dpt wheel36c)) 1111 500 300 500.
Proof.
  assert (D : R_ (dc_dpt wheel36c) = 10%R) by (cbn [wheel36c dc_dpt]; destruct (f_of_Z_exact 10) as [E _]; [cbn; lia|exact E]).
  split; rewrite ?D; unfold lookahead, miss, cycle_ticks, speed_of; intros; try lra. lia.
Qed.
Lemma fits6 : turning wheel36c f6 20 /\ is_first_gap 36 4 20 35 /\ is_first_cam 36 40 35 40 /\ constant_speed f6 100000 1111 /\ angle_ok (dc_offset wheel36c) /\ angle_ok (f_of_Z 30) /\ angle_ok (o_angle coil) /\
  (exists z, R_ (dc_dpt wheel36c) = IZR z / 8192)%R /\ (IZR (dc_num wheel36c) * R_ (dc_dpt wheel36c) = 360)%R /\ coil_alone 3 0 [coil; injector] coil /\ calls_follow (fun k => 48 + k).
Proof.
  assert (D : R_ (dc_dpt wheel36c) = 10%R) by (cbn [wheel36c dc_dpt]; destruct (f_of_Z_exact 10) as [E _]; [cbn; lia|exact E]).
  assert (A : forall z, 0 <= z <= 720 -> angle_ok (f_of_Z z)).
  { intros z Hz. destruct (f_of_Z_exact z) as [E F]; [cbn; lia|]. split; [apply vf_of_Z|]. split; [exact F|]. rewrite E. rewrite Rabs_pos_eq; [apply IZR_le; lia|apply IZR_le; lia]. }
  split; [unfold f6; apply turning36c; vm_compute; repeat split; try congruence|]. split.
  { split; [reflexivity|]. split; [lia|]. intros m H1 H2. apply Z.mod_divide in H2; [|lia]. destruct H2 as [k ->]. lia. }
  split; [apply (first_cam_ok 36 40 35 0); lia|].
  split; [intros i; unfold f6; rewrite plus_IZR, mult_IZR; replace (100000 + 1111 * IZR i - (100000 + 1111 * IZR i))%R with 0%R by ring; rewrite Rabs_R0; lra|].
  split; [cbn [wheel36c dc_offset]; split; [reflexivity|]; split; [reflexivity|]; unfold R_, f_zero; cbn; rewrite Rabs_R0; lra|].
  split; [apply A; lia|]. split; [apply A; lia|].
  split; [exists 81920; rewrite D; lra|]. split; [rewrite D; cbn [wheel36c dc_num]; lra|]. split.
  - split; [lia|]. split; [reflexivity|]. split; [repeat constructor; cbn; try reflexivity; unfold W; lia|]. split; [repeat constructor; cbn; lia|]. split; [|reflexivity].
    intros [|[|m]] o E; cbn in E; [| |destruct m; discriminate]; assert (o = coil \/ o = injector) as [->| ->] by (first [left; congruence|right; congruence]); cbn; split; intros; try discriminate; try reflexivity; lia.
  - intros k _. left. lia.
Qed.
Lemma view6_ok k : 0 <= k -> exists h d fx, cam_history 36 40 f6 (fun m => 100500 + 1111 * Wheel.slot 36 m) 20 40 (Z.to_nat (48 + k - 20 + 1)) h /\ drun wheel36c dec_init h = Ok (d, fx) /\ view6 k = seen wheel36c d.
Proof.
  intros Hk. destruct fits6 as (Tu & G & C & CS & _ & _ & _ & D & N & _). pose proof regime6 as Rg.
  assert (Em : 20 + Z.of_nat (Z.to_nat (48 + k - 20 + 1)) - 1 = 48 + k) by (rewrite Z2Nat.id; lia).
  destruct (synced_crank wheel36c f6 (fun m => 100500 + 1111 * Wheel.slot 36 m) 100000 1111 20 40 35 40 (Z.to_nat (48 + k - 20 + 1)) _ Tu eq_refl G C ltac:(cbn; lia) D N CS ltac:(lra) ltac:(apply Rg) ltac:(left; reflexivity)) as (d & fx & E & _);
    rewrite ?Em; try lia.
  eexists _, d, fx. split; [left; reflexivity|]. split; [exact E|]. unfold view6. cbn [wheel36c dc_num] in E. fold wheel36c in E. rewrite E. reflexivity.
Qed.

(* All hypotheses of the theorem hold, and these 31 steps are a run: the pulse ends exactly when tooth 50, at
   150 degrees, is due. *)
Example C84_example : regime (R_ (dc_dpt wheel36c)) 1111 500 300 500 /\ turning wheel36c f6 20 /\ is_first_gap 36 4 20 35 /\ is_first_cam 36 40 35 40 /\ constant_speed f6 100000 1111 /\ coil_alone 3 0 [coil; injector] coil /\
  (forall k, 0 <= k -> exists h d fx, cam_history 36 40 f6 (fun m => 100500 + 1111 * Wheel.slot 36 m) 20 40 (Z.to_nat (48 + k - 20 + 1)) h /\ drun wheel36c dec_init h = Ok (d, fx) /\ view6 k = seen wheel36c d) /\
  open_from 1205 <= tt6 0 + 500 /\
  exists s', exec false (fun _ d o => decide false 500 d o (f_of_Z 30) 300) view6 tt6 0 3 500 (St (start_sys 1205 [coil; injector]) None 0 Waiting []) steps6 s' /\ st_log s' = [(155461, true); (156661, false)] /\ tt6 2 = 156661 /\
    sparks 10 100000 1111 36 (tt6 0) (180 - 30 + 0) 500 300 coil s'.
Proof.
  destruct fits6 as (Tu & G & C & CS & Ao & Aa & Ac & D & N & Co & Cf). pose proof regime6 as Rg. do 6 (split; [assumption|]). split; [exact view6_ok|]. split; [vm_compute; congruence|].
  destruct (runs false (fun _ d o => decide false 500 d o (f_of_Z 30) 300) view6 tt6 0 3 500 (St (start_sys 1205 [coil; injector]) None 0 Waiting []) steps6) as [s'|] eqn:E; [|vm_compute in E; discriminate].
  assert (L : match runs false (fun _ d o => decide false 500 d o (f_of_Z 30) 300) view6 tt6 0 3 500 (St (start_sys 1205 [coil; injector]) None 0 Waiting []) steps6 with Some s => st_log s | None => [] end = [(155461, true); (156661, false)]) by (vm_compute; reflexivity).
  rewrite E in L. apply runs_exec in E. exists s'. split; [exact E|]. split; [exact L|]. split; [reflexivity|].
  assert (O0 : open_from 1205 <= tt6 0 + 500) by (vm_compute; congruence).
  pose proof (C84_sparks wheel36c f6 (fun m => 100500 + 1111 * Wheel.slot 36 m) 100000 1111 20 40 35 40 Tu eq_refl G C ltac:(cbn; lia) D N CS Ao (fun k => 48 + k) view6 ltac:(lia) ltac:(lia) Cf view6_ok
    false 500 (f_of_Z 30) 300 500 3 0%nat 1205 [coil; injector] coil Rg Aa Ac Co O0 steps6 s' E) as [S _].
  assert (E1 : R_ (dc_dpt wheel36c) = 10%R) by (cbn [wheel36c dc_dpt]; destruct (f_of_Z_exact 10) as [E1 _]; [cbn; lia|exact E1]).
  assert (E2 : R_ (o_angle coil) = 180%R) by (cbn [coil o_angle]; destruct (f_of_Z_exact 180) as [E2 _]; [cbn; lia|exact E2]).
  assert (E3 : R_ (f_of_Z 30) = 30%R) by (destruct (f_of_Z_exact 30) as [E3 _]; [cbn; lia|exact E3]).
  assert (E4 : R_ (dc_offset wheel36c) = 0%R) by reflexivity. rewrite E1, E2, E3, E4 in S. exact S.
Qed.

(** The same wheel with an injector at 150 degrees and a pulse width of 300 us; the fourth call is that of the
    timer at the end of the pulse, after tooth 50 like the third. *)
Definition squirt : output := Output FUEL_EVENT (f_of_Z 150) 5 false entry0 entry0.
Definition tooth5 (k : Z) : Z := if k <=? 2 then 48 + k else 47 + k.
Definition view5 (k : Z) : dview :=
  match drun wheel36c dec_init (wheel_cam 36 40 f6 (fun m => 100500 + 1111 * Wheel.slot 36 m) 20 (Z.to_nat (tooth5 k - 20 + 1))) with Ok (d, _) => seen wheel36c d | Err _ => DView 0 0 0 0 f_zero f_zero end.
Definition tt5 (k : Z) : Z := tooth_time 36 f6 (tooth5 k).
Definition steps5 : list ev := steps6 ++ call6.
Lemma regime5 : regime (R_ (dc_dpt wheel36c)) 1111 3000 300 0.
Proof.
  assert (D : R_ (dc_dpt wheel36c) = 10%R) by (cbn [wheel36c dc_dpt]; destruct (f_of_Z_exact 10) as [E _]; [cbn; lia|exact E]).
  split; rewrite ?D; unfold lookahead, miss, cycle_ticks, speed_of; intros; try lra. lia.
Qed.
Lemma fits5 : injector_alone 5 1 [coil; squirt] squirt /\ angle_ok (o_angle squirt) /\ calls_follow tooth5.
Proof.
  split; [|split].
  - split; [lia|]. split; [reflexivity|]. split; [repeat constructor; cbn; try reflexivity; unfold W; lia|]. split; [repeat constructor; cbn; lia|]. split; [|reflexivity].
    intros [|[|m]] o E; cbn in E; [| |destruct m; discriminate]; assert (o = coil \/ o = squirt) as [->| ->] by (first [left; congruence|right; congruence]); cbn; split; intros; try discriminate; try reflexivity; lia.
  - cbn [squirt o_angle]. destruct (f_of_Z_exact 150) as [E F]; [cbn; lia|]. split; [apply vf_of_Z|]. split; [exact F|]. rewrite E. rewrite Rabs_pos_eq; lra.
  - intros k Hk. unfold tooth5. destruct (Z.leb_spec (k + 1) 2), (Z.leb_spec k 2); lia.
Qed.
Lemma view5_ok k : 0 <= k -> exists h d fx, cam_history 36 40 f6 (fun m => 100500 + 1111 * Wheel.slot 36 m) 20 40 (Z.to_nat (tooth5 k - 20 + 1)) h /\ drun wheel36c dec_init h = Ok (d, fx) /\ view5 k = seen wheel36c d.
Proof.
  intros Hk. destruct fits6 as (Tu & G & C & CS & _ & _ & _ & D & N & _). pose proof regime6 as Rg. assert (T5 : 48 <= tooth5 k) by (unfold tooth5; destruct (Z.leb_spec k 2); lia).
  assert (Em : 20 + Z.of_nat (Z.to_nat (tooth5 k - 20 + 1)) - 1 = tooth5 k) by (rewrite Z2Nat.id; lia).
  destruct (synced_crank wheel36c f6 (fun m => 100500 + 1111 * Wheel.slot 36 m) 100000 1111 20 40 35 40 (Z.to_nat (tooth5 k - 20 + 1)) _ Tu eq_refl G C ltac:(cbn; lia) D N CS ltac:(lra) ltac:(apply Rg) ltac:(left; reflexivity)) as (d & fx & E & _);
    rewrite ?Em; try lia.
  eexists _, d, fx. split; [left; reflexivity|]. split; [exact E|]. unfold view5. cbn [wheel36c dc_num] in E. fold wheel36c in E. rewrite E. reflexivity.
Qed.

(* All hypotheses hold, and these 34 steps are a run; the pulse is exactly 1200 ticks long. *)
Example C85_example : regime (R_ (dc_dpt wheel36c)) 1111 3000 300 0 /\ injector_alone 5 1 [coil; squirt] squirt /\ calls_follow tooth5 /\
  (forall k, 0 <= k -> exists h d fx, cam_history 36 40 f6 (fun m => 100500 + 1111 * Wheel.slot 36 m) 20 40 (Z.to_nat (tooth5 k - 20 + 1)) h /\ drun wheel36c dec_init h = Ok (d, fx) /\ view5 k = seen wheel36c d) /\
  open_from 1205 <= tt5 0 + 3000 /\
  exists s', exec false (fun _ d o => decide_fuel false d o 300) view5 tt5 1 5 3000 (St (start_sys 1205 [coil; squirt]) None 0 Waiting []) steps5 s' /\ st_log s' = [(155461, true); (156661, false)] /\ tt5 2 = 156661 /\
    injections 10 100000 1111 36 (tt5 0) (150 + 0) 3000 300 squirt s'.
Proof.
  destruct fits6 as (Tu & G & C & CS & Ao & _ & _ & D & N & _). destruct fits5 as (Co & Ac & Cf). pose proof regime5 as Rg. do 3 (split; [assumption|]). split; [exact view5_ok|]. split; [vm_compute; congruence|].
  destruct (runs false (fun _ d o => decide_fuel false d o 300) view5 tt5 1 5 3000 (St (start_sys 1205 [coil; squirt]) None 0 Waiting []) steps5) as [s'|] eqn:E; [|vm_compute in E; discriminate].
  assert (L : match runs false (fun _ d o => decide_fuel false d o 300) view5 tt5 1 5 3000 (St (start_sys 1205 [coil; squirt]) None 0 Waiting []) steps5 with Some s => st_log s | None => [] end = [(155461, true); (156661, false)]) by (vm_compute; reflexivity).
  rewrite E in L. apply runs_exec in E. exists s'. split; [exact E|]. split; [exact L|]. split; [reflexivity|].
  assert (O0 : open_from 1205 <= tt5 0 + 3000) by (vm_compute; congruence).
  pose proof (C85_injections wheel36c f6 (fun m => 100500 + 1111 * Wheel.slot 36 m) 100000 1111 20 40 35 40 Tu eq_refl G C ltac:(cbn; lia) D N CS Ao tooth5 view5 ltac:(cbn; lia) ltac:(cbn; lia) Cf view5_ok
    false 300 3000 5 1%nat 1205 [coil; squirt] squirt Rg Ac Co O0 steps5 s' E) as [S _].
  assert (E1 : R_ (dc_dpt wheel36c) = 10%R) by (cbn [wheel36c dc_dpt]; destruct (f_of_Z_exact 10) as [E1 _]; [cbn; lia|exact E1]).
  assert (E2 : R_ (o_angle squirt) = 150%R) by (cbn [squirt o_angle]; destruct (f_of_Z_exact 150) as [E2 _]; [cbn; lia|exact E2]).
  assert (E4 : R_ (dc_offset wheel36c) = 0%R) by reflexivity. rewrite E1, E2, E4 in S. exact S.
Qed.
