(** C88: one spark and one injection per engine cycle while the speed, the advance, the dwell and the pulse width change. *)
Require Import ZArith Reals List Bool Lia Lra SpecFloat.
From Flocq Require Import Core.
From Verif Require WheelProofs EvenSpec EvenRun.
From Verif Require Import Res Word F32 F32Flocq TimeProofs AngleProofs PulseProofs Arr Decoder DecoderRun Wheel WheelCam WheelCamProofs P_Wheel P_WheelCam DecoderEven EvenProofs P_Even Outputs Buffers OutputSpec OutputRun WaveProofs P_Outputs
  CrankSpec P_Crank P_CrankEven Spark SparkSpec SparkAim VarySpec SteerSpec VaryCrank VaryAim P_Spark SteerRun P_Vary.
Import ListNotations.
Open Scope Z_scope.
Ltac Zify.zify_post_hook ::= idtac.

(** ** C88 *)
(** As C87, for a firmware that is told another advance and another length with every call, as it is by
    src/calculations.c. Over the life of the engine they may become anything; the calls for one cycle agree up to
    [alpha] degrees (and, for an injector, [dv] microseconds), and the advance is not retarded by more from a call to
    the next than the crank has turned. Then every cycle gets exactly one spark: it begins and ends where calls for
    this cycle wanted it. *)
Theorem C88_sparks : forall c f p ct q1 q2 delta s x g c0, turning c f s -> dc_type c = MISSING_CAMSYNC -> is_first_gap (dc_num c) (dc_required c) s g -> is_first_cam (dc_num c) x g c0 ->
  0 <= x < 2 * (dc_num c - 1) -> (exists z, R_ (dc_dpt c) = IZR z / 8192)%R -> (IZR (dc_num c) * R_ (dc_dpt c) = 360)%R -> moves f p (R_ (dc_dpt c)) q1 q2 delta -> angle_ok (dc_offset c) ->
  forall tooth view, c0 <= tooth 0 -> g < tooth 0 -> calls_follow tooth ->
  (forall k, 0 <= k -> exists h d fx, cam_history (dc_num c) x f ct s c0 (Z.to_nat (tooth k - s + 1)) h /\ drun c dec_init h = Ok (d, fx) /\ view k = seen c d) ->
  let idx k := Wheel.slot (dc_num c) (tooth k) in let tt k := tooth_time (dc_num c) f (tooth k) in let zero := Wheel.slot (dc_num c) (turn_start (dc_num c) x) in
  forall nd rest adv dwell about alpha len1 len2 late pin i n os o, (forall k, 0 <= k -> angle_ok (adv k)) -> angle_ok (o_angle o) -> coil_alone pin i os o -> open_from n <= tt 0 + late ->
  let target k := (R_ (o_angle o) - R_ (adv k) + R_ (dc_offset c))%R in
  sregime (R_ (dc_dpt c)) q1 q2 delta alpha late len1 len2 0 rest -> steers (R_ (dc_dpt c)) zero idx target dwell about alpha len1 len2 0 false -> retards_slowly (R_ (dc_dpt c)) idx adv ->
  let dec k d o := decide nd rest d o (adv k) (dwell k) in
  forall l st', exec nd dec view tt i pin late (St (start_sys n os) None 0 Waiting []) l st' ->
  sparks_told p (R_ (dc_dpt c)) q1 q2 delta alpha zero idx tt target dwell about late len2 o (128 * y_n (st_sys st')) (st_log st') /\
  forall e, may tt i late st' e -> (forall a, e <> Other a) -> exists st2, go nd dec view i pin st' e = Ok st2.
Proof.
  intros c f p ct q1 q2 delta s x g c0 Tu Ty G C Hx D N Mv Ao tooth view H0 Hg Cf Vw idx tt zero nd rest adv dwell about alpha len1 len2 late pin i n os o Aa Ang Co Op target Rg Sr Re dec l st' Ex.
  assert (Hw : (R_ (dc_dpt c) <= 720)%R) by (destruct Tu as [_ _ _ (_ & _ & ?) _ _ _ _ _]; lra).
  destruct (vfollow_cam c f p ct q1 q2 delta alpha late len1 len2 0 rest s x g c0 Tu Ty G C Hx D N Mv Rg tooth view H0 Hg Cf Vw) as [Tk Hi].
  exact (srun_coil c f p q1 q2 delta alpha zero idx view late len1 len2 0 rest Rg Mv Hw Tk Hi nd pin i n os o Ang Ao Op adv dwell about l st' eq_refl Aa Re Sr Co Ex).
Qed.
Print Assumptions C88_sparks.

Theorem C88_sparks_even : forall c f p cam q1 q2 delta s g, EvenSpec.even_turning c f s -> dc_type c = EVEN_CAMSYNC -> EvenSpec.is_first_cam (dc_num c) (dc_required c) s g ->
  (exists z, R_ (dc_dpt c) = IZR z / 8192)%R -> (IZR (dc_num c) * R_ (dc_dpt c) = 720)%R -> moves f p (R_ (dc_dpt c)) q1 q2 delta -> angle_ok (dc_offset c) ->
  forall tooth view, g < tooth 0 -> calls_follow tooth ->
  (forall k, 0 <= k -> exists h d fx, even_history (dc_num c) f cam s (Z.to_nat (tooth k - s + 1)) h /\ drun c dec_init h = Ok (d, fx) /\ view k = seen c d) ->
  let idx := tooth in let tt k := f (tooth k) in let zero := 0 in
  forall nd rest adv dwell about alpha len1 len2 late pin i n os o, (forall k, 0 <= k -> angle_ok (adv k)) -> angle_ok (o_angle o) -> coil_alone pin i os o -> open_from n <= tt 0 + late ->
  let target k := (R_ (o_angle o) - R_ (adv k) + R_ (dc_offset c))%R in
  sregime (R_ (dc_dpt c)) q1 q2 delta alpha late len1 len2 0 rest -> steers (R_ (dc_dpt c)) zero idx target dwell about alpha len1 len2 0 false -> retards_slowly (R_ (dc_dpt c)) idx adv ->
  let dec k d o := decide nd rest d o (adv k) (dwell k) in
  forall l st', exec nd dec view tt i pin late (St (start_sys n os) None 0 Waiting []) l st' ->
  sparks_told p (R_ (dc_dpt c)) q1 q2 delta alpha zero idx tt target dwell about late len2 o (128 * y_n (st_sys st')) (st_log st') /\
  forall e, may tt i late st' e -> (forall a, e <> Other a) -> exists st2, go nd dec view i pin st' e = Ok st2.
Proof.
  intros c f p cam q1 q2 delta s g Tu Ty G D N Mv Ao tooth view Hg Cf Vw idx tt zero nd rest adv dwell about alpha len1 len2 late pin i n os o Aa Ang Co Op target Rg Sr Re dec l st' Ex.
  assert (Hw : (R_ (dc_dpt c) <= 720)%R) by (pose proof (EvenSpec.et_dpt _ _ _ Tu); lra).
  destruct (vfollow_even c f p cam q1 q2 delta alpha late len1 len2 0 rest s g Tu Ty G D N Mv Rg Hw tooth view Hg Cf Vw) as [Tk Hi].
  exact (srun_coil c f p q1 q2 delta alpha zero idx view late len1 len2 0 rest Rg Mv Hw Tk Hi nd pin i n os o Ang Ao Op adv dwell about l st' eq_refl Aa Re Sr Co Ex).
Qed.
Print Assumptions C88_sparks_even.

(** Every cycle gets exactly one injection, and it is exactly as long as one of the calls for this cycle wanted it. *)
Theorem C88_injections : forall c f p ct q1 q2 delta s x g c0, turning c f s -> dc_type c = MISSING_CAMSYNC -> is_first_gap (dc_num c) (dc_required c) s g -> is_first_cam (dc_num c) x g c0 ->
  0 <= x < 2 * (dc_num c - 1) -> (exists z, R_ (dc_dpt c) = IZR z / 8192)%R -> (IZR (dc_num c) * R_ (dc_dpt c) = 360)%R -> moves f p (R_ (dc_dpt c)) q1 q2 delta -> angle_ok (dc_offset c) ->
  forall tooth view, c0 <= tooth 0 -> g < tooth 0 -> calls_follow tooth ->
  (forall k, 0 <= k -> exists h d fx, cam_history (dc_num c) x f ct s c0 (Z.to_nat (tooth k - s + 1)) h /\ drun c dec_init h = Ok (d, fx) /\ view k = seen c d) ->
  let idx k := Wheel.slot (dc_num c) (tooth k) in let tt k := tooth_time (dc_num c) f (tooth k) in let zero := Wheel.slot (dc_num c) (turn_start (dc_num c) x) in
  forall nd pw len1 len2 dv late pin i n os o, angle_ok (o_angle o) -> injector_alone pin i os o -> open_from n <= tt 0 + late ->
  let target := (R_ (o_angle o) + R_ (dc_offset c))%R in
  sregime (R_ (dc_dpt c)) q1 q2 delta 0 late len1 len2 dv 0 -> steers (R_ (dc_dpt c)) zero idx (fun _ => target) pw (fun _ => target) 0 len1 len2 dv true ->
  let dec k d o := decide_fuel nd d o (pw k) in
  forall l st', exec nd dec view tt i pin late (St (start_sys n os) None 0 Waiting []) l st' ->
  injections_told p (R_ (dc_dpt c)) q1 q2 delta zero idx tt target pw late len2 dv o (128 * y_n (st_sys st')) (st_log st') /\
  forall e, may tt i late st' e -> (forall a, e <> Other a) -> exists st2, go nd dec view i pin st' e = Ok st2.
Proof.
  intros c f p ct q1 q2 delta s x g c0 Tu Ty G C Hx D N Mv Ao tooth view H0 Hg Cf Vw idx tt zero nd pw len1 len2 dv late pin i n os o Ang Co Op target Rg Sr dec l st' Ex.
  assert (Hw : (R_ (dc_dpt c) <= 720)%R) by (destruct Tu as [_ _ _ (_ & _ & ?) _ _ _ _ _]; lra).
  destruct (vfollow_cam c f p ct q1 q2 delta 0 late len1 len2 dv 0 s x g c0 Tu Ty G C Hx D N Mv Rg tooth view H0 Hg Cf Vw) as [Tk Hi].
  exact (srun_injector c f p q1 q2 delta 0 zero idx view late len1 len2 dv 0 Rg Mv Hw Tk Hi nd pin i n os o Ang Ao Op pw l st' eq_refl eq_refl Sr Co Ex).
Qed.
Print Assumptions C88_injections.

Theorem C88_injections_even : forall c f p cam q1 q2 delta s g, EvenSpec.even_turning c f s -> dc_type c = EVEN_CAMSYNC -> EvenSpec.is_first_cam (dc_num c) (dc_required c) s g ->
  (exists z, R_ (dc_dpt c) = IZR z / 8192)%R -> (IZR (dc_num c) * R_ (dc_dpt c) = 720)%R -> moves f p (R_ (dc_dpt c)) q1 q2 delta -> angle_ok (dc_offset c) ->
  forall tooth view, g < tooth 0 -> calls_follow tooth ->
  (forall k, 0 <= k -> exists h d fx, even_history (dc_num c) f cam s (Z.to_nat (tooth k - s + 1)) h /\ drun c dec_init h = Ok (d, fx) /\ view k = seen c d) ->
  let idx := tooth in let tt k := f (tooth k) in let zero := 0 in
  forall nd pw len1 len2 dv late pin i n os o, angle_ok (o_angle o) -> injector_alone pin i os o -> open_from n <= tt 0 + late ->
  let target := (R_ (o_angle o) + R_ (dc_offset c))%R in
  sregime (R_ (dc_dpt c)) q1 q2 delta 0 late len1 len2 dv 0 -> steers (R_ (dc_dpt c)) zero idx (fun _ => target) pw (fun _ => target) 0 len1 len2 dv true ->
  let dec k d o := decide_fuel nd d o (pw k) in
  forall l st', exec nd dec view tt i pin late (St (start_sys n os) None 0 Waiting []) l st' ->
  injections_told p (R_ (dc_dpt c)) q1 q2 delta zero idx tt target pw late len2 dv o (128 * y_n (st_sys st')) (st_log st') /\
  forall e, may tt i late st' e -> (forall a, e <> Other a) -> exists st2, go nd dec view i pin st' e = Ok st2.
Proof.
  intros c f p cam q1 q2 delta s g Tu Ty G D N Mv Ao tooth view Hg Cf Vw idx tt zero nd pw len1 len2 dv late pin i n os o Ang Co Op target Rg Sr dec l st' Ex.
  assert (Hw : (R_ (dc_dpt c) <= 720)%R) by (pose proof (EvenSpec.et_dpt _ _ _ Tu); lra).
  destruct (vfollow_even c f p cam q1 q2 delta 0 late len1 len2 dv 0 s g Tu Ty G D N Mv Rg Hw tooth view Hg Cf Vw) as [Tk Hi].
  exact (srun_injector c f p q1 q2 delta 0 zero idx view late len1 len2 dv 0 Rg Mv Hw Tk Hi nd pin i n os o Ang Ao Op pw l st' eq_refl eq_refl Sr Co Ex).
Qed.
Print Assumptions C88_injections_even.

(** ** An example run *)
(* The engine of C87's example, which slows down at slot 50. The advance is retarded from 30 to 29 degrees with call
   4, while the coil is on; the dwell is raised from 1100 to 1200 us with call 1. *)
Definition adv7 (k : Z) : f32 := if k <=? 3 then f_of_Z 30 else f_of_Z 29.
Definition dwell7 (k : Z) : Z := if k <=? 0 then 1100 else 1200.
Definition pw7 (k : Z) : Z := if k <=? 2 then 300 else 310.
Lemma sregime7 : sregime (R_ (dc_dpt wheel36c)) 1111 1120 d7 1 500 1100 1200 0 500 /\ sregime (R_ (dc_dpt wheel36c)) 1111 1120 d7 0 500 300 310 10 0.
Proof.
  assert (D : R_ (dc_dpt wheel36c) = 10%R) by (cbn [wheel36c dc_dpt]; destruct (f_of_Z_exact 10) as [E _]; [cbn; lia|exact E]).
  split; split; rewrite ?D; unfold slook, splan, wander, vplan, vmiss, cycle_most, cycle_least, cycle_ticks, speed_of, d7; intros; try lra; lia.
Qed.
Lemma adv7_ok k : angle_ok (adv7 k) /\ (R_ (adv7 k) = 30 \/ R_ (adv7 k) = 29)%R.
Proof.
  assert (A : forall z, 0 <= z <= 720 -> angle_ok (f_of_Z z) /\ R_ (f_of_Z z) = IZR z).
  { intros z Hz. destruct (f_of_Z_exact z) as [E F]; [cbn; lia|]. split; [|exact E]. split; [apply vf_of_Z|]. split; [exact F|]. rewrite E. rewrite Rabs_pos_eq; [apply IZR_le; lia|apply IZR_le; lia]. }
  destruct (A 30 ltac:(lia)) as [A1 A2]. destruct (A 29 ltac:(lia)) as [A3 A4]. unfold adv7. destruct (k <=? 3); auto.
Qed.
Lemma slot7 k : 0 <= k -> Wheel.slot 36 (44 + k) < Wheel.slot 36 (44 + (k + 1)).
Proof. intros Hk. replace (44 + (k + 1)) with (44 + k + 1) by ring. rewrite WheelProofs.slot_succ by lia. destruct (_ =? _); lia. Qed.
Lemma steers7 zero : let target k := (180 - R_ (adv7 k) + 0)%R in steers 10 zero (fun k => Wheel.slot 36 (44 + k)) target dwell7 (fun _ => 150%R) 1 1100 1200 0 false /\
  retards_slowly 10 (fun k => Wheel.slot 36 (44 + k)) adv7.
Proof.
  intros target. split; [split|].
  - intros k j _ _. unfold target. destruct (adv7_ok k) as [_ [->| ->]]; apply Rabs_le; lra.
  - intros j. apply Rabs_le. lra.
  - intros k _. unfold dwell7. destruct (k <=? 0); lia.
  - discriminate.
  - intros k Hk. right. pose proof (slot7 k Hk) as L. assert (L1 : 1 <= Wheel.slot 36 (44 + (k + 1)) - Wheel.slot 36 (44 + k)) by lia. apply IZR_le in L1. destruct (adv7_ok k) as [_ [->| ->]], (adv7_ok (k + 1)) as [_ [->| ->]]; lra.
Qed.
Lemma steers7_pw zero : steers 10 zero (fun k => Wheel.slot 36 (44 + k)) (fun _ => 150 + 0)%R pw7 (fun _ => 150 + 0)%R 0 300 310 10 true.
Proof.
  split; intros.
  - apply Rabs_le. lra.
  - apply Rabs_le. lra.
  - unfold pw7. destruct (k <=? 2); lia.
  - unfold pw7. destruct (k <=? 2), (k' <=? 2); lia.
Qed.

(* All hypotheses of the theorems hold, and the 73 steps are a run. The coil is switched on 4800 ticks before the
   spark is due at 150 degrees, as call 1 wanted, and off when it is due at 151 degrees, as call 4 wanted. The
   injection is 310 us long, as call 3 wanted. *)
Example C88_example : sregime 10 1111 1120 d7 1 500 1100 1200 0 500 /\ sregime 10 1111 1120 d7 0 500 300 310 10 0 /\
  (let target k := (180 - R_ (adv7 k) + 0)%R in steers 10 36 (fun k => Wheel.slot 36 (44 + k)) target dwell7 (fun _ => 150%R) 1 1100 1200 0 false /\ retards_slowly 10 (fun k => Wheel.slot 36 (44 + k)) adv7 /\
   exists s', exec false (fun k d o => decide false 500 d o (adv7 k) (dwell7 k)) view7 tt7 0 3 500 (St (start_sys (n7 0) [coil; injector]) None 0 Waiting []) steps7 s' /\ st_log s' = [(151861, true); (156782, false)] /\
     sparks_told p7 10 1111 1120 d7 1 36 (fun k => Wheel.slot 36 (44 + k)) tt7 target dwell7 (fun _ => 150%R) 500 1200 coil (128 * y_n (st_sys s')) (st_log s')) /\
  steers 10 36 (fun k => Wheel.slot 36 (44 + k)) (fun _ => 150 + 0)%R pw7 (fun _ => 150 + 0)%R 0 300 310 10 true /\
  exists s', exec false (fun k d o => decide_fuel false d o (pw7 k)) view7 tt7 1 5 500 (St (start_sys (n7 0) [coil; squirt]) None 0 Waiting []) steps7 s' /\ st_log s' = [(155421, true); (156661, false)] /\
    injections_told p7 10 1111 1120 d7 36 (fun k => Wheel.slot 36 (44 + k)) tt7 (150 + 0)%R pw7 500 310 10 squirt (128 * y_n (st_sys s')) (st_log s').
Proof.
  destruct fits6 as (_ & G & C & _ & Ao & _ & Ac & D & N & Co & _). destruct fits5 as (Ci & Ai & _). destruct sregime7 as [Rg1 Rg2]. assert (Cf : calls_follow (fun k => 44 + k)) by (intros k _; left; lia).
  assert (O0 : open_from (n7 0) <= tt7 0 + 500) by (vm_compute; congruence).
  assert (E1 : R_ (dc_dpt wheel36c) = 10%R) by (cbn [wheel36c dc_dpt]; destruct (f_of_Z_exact 10) as [E1 _]; [cbn; lia|exact E1]).
  assert (E2 : R_ (o_angle squirt) = 150%R) by (cbn [squirt o_angle]; destruct (f_of_Z_exact 150) as [E2 _]; [cbn; lia|exact E2]).
  assert (E5 : R_ (o_angle coil) = 180%R) by (cbn [coil o_angle]; destruct (f_of_Z_exact 180) as [E5 _]; [cbn; lia|exact E5]).
  assert (E4 : R_ (dc_offset wheel36c) = 0%R) by reflexivity.
  destruct (steers7 36) as [St1 Rs]. pose proof (steers7_pw 36) as St2. cbv zeta in St1.
  split; [rewrite <- E1; exact Rg1|]. split; [rewrite <- E1; exact Rg2|]. split; [|split; [exact St2|]].
  - cbv zeta. split; [exact St1|]. split; [exact Rs|].
    assert (L : option_map st_log (runs false (fun k d o => decide false 500 d o (adv7 k) (dwell7 k)) view7 tt7 0 3 500 (St (start_sys (n7 0) [coil; injector]) None 0 Waiting []) steps7) = Some [(151861, true); (156782, false)]) by (vm_compute; reflexivity).
    destruct (runs false (fun k d o => decide false 500 d o (adv7 k) (dwell7 k)) view7 tt7 0 3 500 (St (start_sys (n7 0) [coil; injector]) None 0 Waiting []) steps7) as [s'|] eqn:E; [|discriminate L]. cbn [option_map] in L. assert (L' : st_log s' = [(151861, true); (156782, false)]) by congruence. clear L. rename L' into L.
    apply runs_exec in E. exists s'. split; [exact E|]. split; [exact L|].
    pose proof (C88_sparks wheel36c f7 p7 ct7 1111 1120 d7 20 40 35 40 turning7 eq_refl G C ltac:(cbn; lia) D N moves7 Ao (fun k => 44 + k) view7 ltac:(lia) ltac:(lia) Cf view7_ok
      false 500 adv7 dwell7 (fun _ => 150%R) 1%R 1100 1200 500 3 0%nat (n7 0) [coil; injector] coil (fun k _ => proj1 (adv7_ok k)) Ac Co O0) as S. cbv zeta in S. rewrite E1, E5, E4 in S.
    destruct (S (eq_ind _ (fun r => sregime r _ _ _ _ _ _ _ _ _) Rg1 _ E1) St1 Rs steps7 s' E) as [S1 _]. exact S1.
  - assert (L : option_map st_log (runs false (fun k d o => decide_fuel false d o (pw7 k)) view7 tt7 1 5 500 (St (start_sys (n7 0) [coil; squirt]) None 0 Waiting []) steps7) = Some [(155421, true); (156661, false)]) by (vm_compute; reflexivity).
    destruct (runs false (fun k d o => decide_fuel false d o (pw7 k)) view7 tt7 1 5 500 (St (start_sys (n7 0) [coil; squirt]) None 0 Waiting []) steps7) as [s'|] eqn:E; [|discriminate L]. cbn [option_map] in L. assert (L' : st_log s' = [(155421, true); (156661, false)]) by congruence. clear L. rename L' into L.
    apply runs_exec in E. exists s'. split; [exact E|]. split; [exact L|].
    pose proof (C88_injections wheel36c f7 p7 ct7 1111 1120 d7 20 40 35 40 turning7 eq_refl G C ltac:(cbn; lia) D N moves7 Ao (fun k => 44 + k) view7 ltac:(lia) ltac:(lia) Cf view7_ok
      false pw7 300 310 10 500 5 1%nat (n7 0) [coil; squirt] squirt Ai Ci O0) as S. cbv zeta in S. rewrite E1, E2, E4 in S.
    destruct (S (eq_ind _ (fun r => sregime r _ _ _ _ _ _ _ _ _) Rg2 _ E1) St2 steps7 s' E) as [S1 _]. exact S1.
Qed.

(** ** The advance must not jump back faster than the crank turns *)
(* The same wheel at 600 ticks per slot. Call 0, after the tooth at 150 degrees, wants the spark at 149 degrees: that is
   one for the next cycle, at tick 173140. Call 1, after the tooth at 160 degrees, wants it at 165 degrees: that is
   5 degrees ahead. The start of the planned pulse cannot be moved there, but its end is. *)
Definition f8 (k : Z) : Z := 100000 + 600 * k.
Definition p8 (x : R) : R := (100000 + 600 * x)%R.
Definition ct8 (m : Z) : Z := 100200 + 600 * Wheel.slot 36 m.
Definition view8 (k : Z) : dview :=
  match drun wheel36c dec_init (wheel_cam 36 40 f8 ct8 20 (Z.to_nat (50 + k - 20 + 1))) with Ok (d, _) => seen wheel36c d | Err _ => DView 0 0 0 0 f_zero f_zero end.
Definition tt8 (k : Z) : Z := tooth_time 36 f8 (50 + k).
Definition n8 (k : Z) : Z := tt8 k / 128 - 1.
Definition adv8 (k : Z) : f32 := if k =? 0 then f_of_Z 31 else f_of_Z 15.
Definition steps8 : list ev := call6 ++ flat_map (fun k => swaps6 (n8 (k - 1)) (n8 k) ++ call6) (map Z.of_nat (seq 1 73)).
Lemma moves8 : moves f8 p8 (R_ (dc_dpt wheel36c)) 600 600 0.
Proof.
  split.
  - intros i. unfold f8, p8. rewrite plus_IZR, mult_IZR. replace (100000 + 600 * IZR i - (100000 + 600 * IZR i))%R with 0%R by ring. rewrite Rabs_R0. lra.
  - intros x. exists 600%R. split; [lra|]. intros y z _ _ _. unfold p8. lra.
Qed.
Lemma turning8 : turning wheel36c f8 20.
Proof. unfold f8. apply turning36c; vm_compute; repeat split; congruence. Qed.
Lemma sregime8 : sregime (R_ (dc_dpt wheel36c)) 600 600 0 8 500 700 700 0 0.
Proof.
  assert (D : R_ (dc_dpt wheel36c) = 10%R) by (cbn [wheel36c dc_dpt]; destruct (f_of_Z_exact 10) as [E _]; [cbn; lia|exact E]).
  split; rewrite ?D; unfold slook, splan, wander, vplan, vmiss, cycle_most, cycle_least, cycle_ticks, speed_of; intros; try lra; lia.
Qed.
Lemma view8_ok k : 0 <= k -> exists h d fx, cam_history 36 40 f8 ct8 20 40 (Z.to_nat (50 + k - 20 + 1)) h /\ drun wheel36c dec_init h = Ok (d, fx) /\ view8 k = seen wheel36c d.
Proof.
  intros Hk. destruct fits6 as (_ & G & C & _ & _ & _ & _ & D & N & _). pose proof sregime8 as Rg. destruct (vary_bounds wheel36c 600 600 0 8 500 700 700 0 0 Rg) as [Q140 Hd].
  assert (Em : 20 + Z.of_nat (Z.to_nat (50 + k - 20 + 1)) - 1 = 50 + k) by (rewrite Z2Nat.id; lia).
  destruct (mv_slow _ _ _ _ _ _ moves8 (IZR (Wheel.slot 36 (50 + k)))) as (q & Hq & Sl). pose proof (one_range wheel36c 600 600 0 8 500 700 700 0 0 Rg q Hq) as Sr. pose proof (sr_slow _ _ _ _ _ _ _ _ _ _ Rg). pose proof (sr_fast _ _ _ _ _ _ _ _ _ _ Rg).
  destruct (vsynced_cam wheel36c f8 ct8 q 0 (720 / R_ (dc_dpt wheel36c) + 1) 20 40 35 40 (Z.to_nat (50 + k - 20 + 1)) _ turning8 eq_refl G C ltac:(cbn; lia) D N ltac:(left; reflexivity)) as (d & fx & E & _);
    rewrite ?Em; try lia; try lra.
  { apply about_of with p8 600%R 600%R; [exact moves8|exact Sl]. }
  { apply span_ok. destruct turning8 as [_ _ _ (_ & _ & ?) _ _ _ _ _]. lra. }
  eexists _, d, fx. split; [left; reflexivity|]. split; [exact E|]. unfold view8. cbn [wheel36c dc_num] in E. fold wheel36c in E. rewrite E. reflexivity.
Qed.
Lemma adv8_ok k : angle_ok (adv8 k) /\ (R_ (adv8 k) = 31 \/ R_ (adv8 k) = 15)%R.
Proof.
  assert (A : forall z, 0 <= z <= 720 -> angle_ok (f_of_Z z) /\ R_ (f_of_Z z) = IZR z).
  { intros z Hz. destruct (f_of_Z_exact z) as [E F]; [cbn; lia|]. split; [|exact E]. split; [apply vf_of_Z|]. split; [exact F|]. rewrite E. rewrite Rabs_pos_eq; [apply IZR_le; lia|apply IZR_le; lia]. }
  destruct (A 31 ltac:(lia)) as [A1 A2]. destruct (A 15 ltac:(lia)) as [A3 A4]. unfold adv8. destruct (k =? 0); auto.
Qed.
(* What the pin sees: switched off once more, then the coil is on, and stays on past the moment of the spark. *)
Lemma stuck8 : exists s', exec false (fun k d o => decide false 0 d o (adv8 k) 700) view8 tt8 0 3 500 (St (start_sys (n8 0) [coil; injector]) None 0 Waiting []) steps8 s' /\
  st_log s' = [(131500, false); (171900, true)] /\ 128 * y_n (st_sys s') = 175360.
Proof.
  assert (L : option_map (fun s => (st_log s, y_n (st_sys s))) (runs false (fun k d o => decide false 0 d o (adv8 k) 700) view8 tt8 0 3 500 (St (start_sys (n8 0) [coil; injector]) None 0 Waiting []) steps8) = Some ([(131500, false); (171900, true)], 1370)) by (vm_compute; reflexivity).
  destruct (runs false (fun k d o => decide false 0 d o (adv8 k) 700) view8 tt8 0 3 500 (St (start_sys (n8 0) [coil; injector]) None 0 Waiting []) steps8) as [s'|] eqn:E; [|discriminate L]. cbn [option_map] in L.
  apply runs_exec in E. exists s'. split; [exact E|]. assert (L1 : st_log s' = [(131500, false); (171900, true)]) by congruence. assert (L2 : y_n (st_sys s') = 1370) by congruence. rewrite L2. auto.
Qed.

(** Without that condition the claim of [C88_sparks] is false: the spark of the next cycle is lost, and the coil is
    switched on before it and left on. *)
Theorem C88_jump_refuted : ~ (forall c f p ct q1 q2 delta s x g c0, turning c f s -> dc_type c = MISSING_CAMSYNC -> is_first_gap (dc_num c) (dc_required c) s g -> is_first_cam (dc_num c) x g c0 ->
  0 <= x < 2 * (dc_num c - 1) -> (exists z, R_ (dc_dpt c) = IZR z / 8192)%R -> (IZR (dc_num c) * R_ (dc_dpt c) = 360)%R -> moves f p (R_ (dc_dpt c)) q1 q2 delta -> angle_ok (dc_offset c) ->
  forall tooth view, c0 <= tooth 0 -> g < tooth 0 -> calls_follow tooth ->
  (forall k, 0 <= k -> exists h d fx, cam_history (dc_num c) x f ct s c0 (Z.to_nat (tooth k - s + 1)) h /\ drun c dec_init h = Ok (d, fx) /\ view k = seen c d) ->
  let idx k := Wheel.slot (dc_num c) (tooth k) in let tt k := tooth_time (dc_num c) f (tooth k) in let zero := Wheel.slot (dc_num c) (turn_start (dc_num c) x) in
  forall nd rest adv dwell about alpha len1 len2 late pin i n os o, (forall k, 0 <= k -> angle_ok (adv k)) -> angle_ok (o_angle o) -> coil_alone pin i os o -> open_from n <= tt 0 + late ->
  let target k := (R_ (o_angle o) - R_ (adv k) + R_ (dc_offset c))%R in
  sregime (R_ (dc_dpt c)) q1 q2 delta alpha late len1 len2 0 rest -> steers (R_ (dc_dpt c)) zero idx target dwell about alpha len1 len2 0 false ->
  let dec k d o := decide nd rest d o (adv k) (dwell k) in
  forall l st', exec nd dec view tt i pin late (St (start_sys n os) None 0 Waiting []) l st' ->
  sparks_told p (R_ (dc_dpt c)) q1 q2 delta alpha zero idx tt target dwell about late len2 o (128 * y_n (st_sys st')) (st_log st') /\
  forall e, may tt i late st' e -> (forall a, e <> Other a) -> exists st2, go nd dec view i pin st' e = Ok st2).
Proof.
  intros Claim. destruct fits6 as (_ & G & C & _ & Ao & _ & Ac & D & N & Co & _). pose proof sregime8 as Rg. assert (Cf : calls_follow (fun k => 50 + k)) by (intros k _; left; lia).
  assert (O0 : open_from (n8 0) <= tt8 0 + 500) by (vm_compute; congruence).
  assert (E5 : R_ (o_angle coil) = 180%R) by (cbn [coil o_angle]; destruct (f_of_Z_exact 180) as [E5 _]; [cbn; lia|exact E5]).
  assert (E4 : R_ (dc_offset wheel36c) = 0%R) by reflexivity.
  destruct stuck8 as (s' & E & L & Y).
  destruct (Claim wheel36c f8 p8 ct8 600%R 600%R 0%R 20 40 35 40 turning8 eq_refl G C ltac:(cbn; lia) D N moves8 Ao (fun k => 50 + k) view8 ltac:(lia) ltac:(lia) Cf view8_ok
    false 0 adv8 (fun _ => 700) (fun _ => 157%R) 8%R 700 700 500 3 0%nat (n8 0) [coil; injector] coil (fun k _ => proj1 (adv8_ok k)) Ac Co O0 Rg) with (l := steps8) (st' := s') as [(j0 & _ & (l & tl & A & _ & B & _)) _].
  - split; intros; try lia; try discriminate; rewrite ?E5, ?E4.
    + destruct (adv8_ok k) as [_ [->| ->]]; apply Rabs_le; lra.
    + apply Rabs_le. lra.
  - exact E.
  - rewrite L in A. destruct l as [|[a b] l].
    + destruct B as [->|(on & -> & _)]; [discriminate A|]. cbn in A. discriminate A.
    + cbn in A. discriminate A.
Qed.
Print Assumptions C88_jump_refuted.
