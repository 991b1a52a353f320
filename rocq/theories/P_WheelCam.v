(** C75: a missing-tooth decoder with cam sync on a turning wheel. *)
Require Import ZArith Reals List Bool Lia Lra SpecFloat.
From Flocq Require Import Core.
From Verif Require Import Res Word F32 F32Flocq TimeProofs TableProofs AngleProofs PulseProofs RelErr Arr Decoder DecoderProofs DecoderSafe DecoderRun DecoderMissing DecoderAngle DecoderLoss
  Wheel WheelProofs WheelRun WheelAngle WheelCam WheelCamProofs P_Wheel.
Import ListNotations.
Open Scope Z_scope.
Ltac Zify.zify_post_hook ::= idtac.

Lemma turning_cam c f ct s x g c0 : turning c f s -> dc_type c = MISSING_CAMSYNC -> is_first_gap (dc_num c) (dc_required c) s g -> is_first_cam (dc_num c) x g c0 ->
  g = first_gap (dc_num c) (dc_required c) s /\ supported c /\ wheel c /\ 3 <= dc_num c /\
  (forall n, exists d es, drun c dec_init (wheel_cam (dc_num c) x f ct s n) = Ok (d, map (fun e => SetExpire (w32 e)) es) /\
    ctracked c f s x c0 (Z.of_nat n) (last_cam c c0 (s + Z.of_nat n - 1)) d /\ Z.of_nat (length es) = Z.max 0 (s + Z.of_nat n - 1 - g) /\ expiries c f (g + 1) es) /\
  (forall n, exists d es e, drun c dec_init (wheel_cam (dc_num c) x f ct s n ++ [tooth_pulse (dc_num c) f (s + Z.of_nat n)]) = Ok (d, map (fun e => SetExpire (w32 e)) (es ++ e)) /\
    ctracked c f s x c0 (Z.of_nat n + 1) (last_cam c c0 (s + Z.of_nat n - 1)) d).
Proof.
  intros [Tr Tw Tn (Td1 & Td2 & Td3) Tt (Tm1 & Tm2 & Tm3) Ts Te To] Ty G C.
  assert (S : supported c) by (split; lia). assert (Wh : wheel c) by (split; auto). assert (N3 : 3 <= dc_num c) by lia.
  pose proof (first_gap_unique _ _ _ _ N3 G) as Eg. subst g.
  split; [auto|]. split; [auto|]. split; [auto|]. split; [auto|]. split; intros n; [apply cam_run|apply cam_run_tooth]; auto; lia.
Qed.

(** After every number of teeth, each followed by its cam pulse if it has one, the position is valid exactly
    when a cam pulse has come since the first gap; so it becomes valid there, is never lost, and nothing is
    ever cancelled. *)
Theorem C75_sync : forall c f ct s x g c0 n, turning c f s -> dc_type c = MISSING_CAMSYNC -> is_first_gap (dc_num c) (dc_required c) s g -> is_first_cam (dc_num c) x g c0 ->
  exists d fx, drun c dec_init (wheel_cam (dc_num c) x f ct s n) = Ok (d, fx) /\
  (dd_valid d = if c0 <=? s + Z.of_nat n - 1 then 1 else 0) /\ ~ In CancelOutputs fx /\
  (g < s + Z.of_nat n - 1 -> dd_last_time d = w32 (tooth_time (dc_num c) f (s + Z.of_nat n - 1))).
Proof.
  intros c f ct s x g c0 n Tu Ty G C. destruct (turning_cam c f ct s x g c0 Tu Ty G C) as (Eg & _ & _ & N3 & R & _). destruct (R n) as (d & es & E & [A I Se Fl So Ti] & _).
  exists d, (map (fun e => SetExpire (w32 e)) es). split; [exact E|]. split.
  - unfold last_cam in Fl. destruct (Z.ltb_spec (s + Z.of_nat n - 1) c0), (Z.leb_spec c0 (s + Z.of_nat n - 1)); try lia; apply Fl.
  - split; [intros H; apply in_map_iff in H; destruct H as (y & H & _); discriminate|]. rewrite Eg. exact Ti.
Qed.
Print Assumptions C75_sync.

(** The same between a tooth and the cam pulse behind it. *)
Theorem C75_sync_before_cam : forall c f ct s x g c0 n, turning c f s -> dc_type c = MISSING_CAMSYNC -> is_first_gap (dc_num c) (dc_required c) s g -> is_first_cam (dc_num c) x g c0 ->
  exists d fx, drun c dec_init (wheel_cam (dc_num c) x f ct s n ++ [tooth_pulse (dc_num c) f (s + Z.of_nat n)]) = Ok (d, fx) /\
  (dd_valid d = if c0 <? s + Z.of_nat n then 1 else 0) /\ ~ In CancelOutputs fx.
Proof.
  intros c f ct s x g c0 n Tu Ty G C. destruct (turning_cam c f ct s x g c0 Tu Ty G C) as (Eg & _ & _ & N3 & _ & R). destruct (R n) as (d & es & e & E & [A I Se Fl So Ti]).
  exists d, (map (fun e => SetExpire (w32 e)) (es ++ e)). split; [exact E|]. split.
  - unfold last_cam in Fl. destruct (Z.ltb_spec (s + Z.of_nat n - 1) c0), (Z.ltb_spec c0 (s + Z.of_nat n)); try lia; apply Fl.
  - intros H. apply in_map_iff in H. destruct H as (y & H & _). discriminate.
Qed.
Print Assumptions C75_sync_before_cam.

(** The expiry armed at each tooth behind the first gap lies after the next tooth. *)
Theorem C75_expiry : forall c f ct s x g c0 n, turning c f s -> dc_type c = MISSING_CAMSYNC -> is_first_gap (dc_num c) (dc_required c) s g -> is_first_cam (dc_num c) x g c0 ->
  exists d es, drun c dec_init (wheel_cam (dc_num c) x f ct s n) = Ok (d, map (fun e => SetExpire (w32 e)) es) /\
  Z.of_nat (length es) = Z.max 0 (s + Z.of_nat n - 1 - g) /\
  forall k e, nth_error es k = Some e -> tooth_time (dc_num c) f (g + 1 + Z.of_nat k + 1) < e < tooth_time (dc_num c) f (g + 1 + Z.of_nat k) + 2 ^ 32.
Proof.
  intros c f ct s x g c0 n Tu Ty G C. destruct (turning_cam c f ct s x g c0 Tu Ty G C) as (Eg & _ & _ & N3 & R & _). destruct (R n) as (d & es & E & _ & L & X).
  exists d, es. split; [exact E|]. split; [exact L|]. clear E L R G C Eg. set (m := g + 1) in *. clearbody m. revert m X. induction es as [|y es IH]; intros m X k e K; [destruct k; discriminate|].
  cbn [expiries] in X. destruct X as [X1 X2]. destruct k as [|k].
  - cbn in K. injection K as <-. replace (m + Z.of_nat 0) with m by lia. exact X1.
  - cbn [nth_error] in K. specialize (IH _ X2 k e K). replace (m + Z.of_nat (S k)) with (m + 1 + Z.of_nat k) by lia. exact IH.
Qed.
Print Assumptions C75_expiry.

(** Once valid, the reference angle counts from the first tooth of the turn in which the cam pulse came,
    modulo 720 degrees, to within 1/4096 degree for each tooth since the first cam pulse. *)
Theorem C75_angle : forall c f ct s x g c0 n, turning c f s -> dc_type c = MISSING_CAMSYNC -> is_first_gap (dc_num c) (dc_required c) s g -> is_first_cam (dc_num c) x g c0 ->
  let m := s + Z.of_nat n - 1 in c0 <= m ->
  exists d fx z, drun c dec_init (wheel_cam (dc_num c) x f ct s n) = Ok (d, fx) /\ (0 <= R_ (dd_last_angle d) < 720)%R /\
  (Rabs (R_ (dd_last_angle d) - (R_ (dc_dpt c) * IZR (slot (dc_num c) m - slot (dc_num c) (turn_start (dc_num c) c0)) - 720 * IZR z)) <= IZR (m - c0 + 1) / 4096)%R.
Proof.
  intros c f ct s x g c0 n Tu Ty G C m Hm. destruct (turning_cam c f ct s x g c0 Tu Ty G C) as (Eg & S & Wh & N3 & R & _). destruct (R n) as (d & es & E & [A I Se Fl So Ti] & _).
  unfold last_cam in Fl. fold m in Fl. destruct (Z.ltb_spec m c0); [lia|]. destruct Fl as (_ & _ & _ & An & _).
  destruct (cam_angle_ok c c0 S Wh ltac:(unfold missing; now rewrite Ty) ltac:(destruct Tu; lia) ltac:(apply Tu) (Z.to_nat (m - c0))) as ((_ & _ & B) & z & K).
  exists d, (map (fun e => SetExpire (w32 e)) es), z. split; [exact E|]. rewrite An. split; [exact B|]. rewrite INR_IZR_INZ, Z2Nat.id in K by lia. replace (c0 + (m - c0)) with m in K by ring.
  rewrite plus_IZR. exact K.
Qed.
Print Assumptions C75_angle.

(** For a tooth width that is a multiple of 1/8192 degree and a divisor of 360 the angle is exact, however
    long the engine runs, and does not depend on when the decoder started: it counts from the first tooth of
    the turn in which the cam pulse comes. *)
Theorem C75_angle_exact : forall c f ct s x g c0 n, turning c f s -> dc_type c = MISSING_CAMSYNC -> is_first_gap (dc_num c) (dc_required c) s g -> is_first_cam (dc_num c) x g c0 ->
  0 <= x < 2 * (dc_num c - 1) -> (exists q, R_ (dc_dpt c) = IZR q / 8192)%R -> (IZR (dc_num c) * R_ (dc_dpt c) = 360)%R ->
  let m := s + Z.of_nat n - 1 in c0 <= m ->
  exists d fx z, drun c dec_init (wheel_cam (dc_num c) x f ct s n) = Ok (d, fx) /\ (0 <= R_ (dd_last_angle d) < 720)%R /\
  R_ (dd_last_angle d) = (R_ (dc_dpt c) * IZR (slot (dc_num c) m - slot (dc_num c) (turn_start (dc_num c) x)) - 720 * IZR z)%R.
Proof.
  intros c f ct s x g c0 n Tu Ty G C Hx D N360 m Hm. destruct (turning_cam c f ct s x g c0 Tu Ty G C) as (Eg & S & Wh & N3 & R & _). destruct (R n) as (d & es & E & [A I Se Fl So Ti] & _).
  unfold last_cam in Fl. fold m in Fl. destruct (Z.ltb_spec m c0); [lia|]. destruct Fl as (_ & _ & _ & An & _).
  assert (Hr : dc_required c <= dc_num c - 1) by (destruct Tu; lia).
  destruct (cam_angle_ok c c0 S Wh ltac:(unfold missing; now rewrite Ty) Hr ltac:(apply Tu) (Z.to_nat (m - c0))) as ((_ & _ & B) & _). destruct (cam_angle_exact c c0 S Wh ltac:(unfold missing; now rewrite Ty) Hr ltac:(apply Tu) (Z.to_nat (m - c0)) D) as (_ & z & K).
  rewrite Z2Nat.id in K by lia. replace (c0 + (m - c0)) with m in K by ring.
  set (P := dc_num c - 1) in *. set (k := c0 / (2 * P)).
  assert (Ec : c0 = x + k * (2 * P)). { destruct C as [C _]. unfold cam_after in C. apply Z.eqb_eq in C. fold P in C. pose proof (Z.div_mod c0 (2 * P) ltac:(unfold P; lia)) as DM. unfold k. lia. }
  assert (Es : slot (dc_num c) (turn_start (dc_num c) c0) = slot (dc_num c) (turn_start (dc_num c) x) + 2 * dc_num c * k).
  { unfold turn_start, slot. fold P. rewrite !(Z.mul_comm P (_ / P)), !Z.div_mul, !Z_mod_mult by (unfold P; lia).
    assert (Q : c0 / P = x / P + 2 * k) by (rewrite Ec; replace (k * (2 * P)) with (2 * k * P) by ring; apply Z.div_add; unfold P; lia). rewrite Q. ring. }
  exists d, (map (fun e => SetExpire (w32 e)) es), (z + k). split; [exact E|]. rewrite An. split; [exact B|]. rewrite K, Es, plus_IZR, !minus_IZR, plus_IZR, !mult_IZR.
  replace (R_ (dc_dpt c) * (IZR (slot (dc_num c) m) - (IZR (slot (dc_num c) (turn_start (dc_num c) x)) + 2 * IZR (dc_num c) * IZR k)))%R
    with (R_ (dc_dpt c) * (IZR (slot (dc_num c) m) - IZR (slot (dc_num c) (turn_start (dc_num c) x))) - 2 * (IZR (dc_num c) * R_ (dc_dpt c)) * IZR k)%R by ring. rewrite N360. ring.
Qed.
Print Assumptions C75_angle_exact.

(** The reported speed is that of the wheel, as in C25. *)
Theorem C75_speed : forall c f ct s x g c0 n a b, turning c f s -> dc_type c = MISSING_CAMSYNC -> is_first_gap (dc_num c) (dc_required c) s g -> is_first_cam (dc_num c) x g c0 ->
  let m := s + Z.of_nat n - 1 in g <= m -> band (R_ (dc_dpt c)) (R_ (dc_max_change c)) a b ->
  (forall i, slot (dc_num c) s <= i -> dc_num c * (m / (dc_num c - 1)) - dc_num c <= i < slot (dc_num c) m -> a <= f (i + 1) - f i <= b) ->
  exists d fx, drun c dec_init (wheel_cam (dc_num c) x f ct s n) = Ok (d, fx) /\
  let speed p := (60 * 4000000 / IZR p * R_ (dc_dpt c) / 360)%R in
  (speed b * (1 - 20 / 16777216) - 1 <= IZR (dd_rpm d) <= speed a * (1 + 20 / 16777216))%R.
Proof.
  intros c f ct s x g c0 n a b Tu Ty G C m Hm Bd Sp. destruct (turning_cam c f ct s x g c0 Tu Ty G C) as (Eg & _ & Wh & N3 & R & _). destruct (R n) as (d & es & E & [A I Se Fl So Ti] & _).
  rewrite Eg in Hm. exists d, (map (fun e => SetExpire (w32 e)) es). split; [exact E|].
  destruct (af_sync _ _ _ _ _ A Hm) as (_ & _ & K). specialize (K a b (conj Bd Sp)). unfold rpm_in, ur in K.
  destruct Bd as [Br _ _ _]. assert (P : (0 < IZR a /\ 0 < IZR b)%R) by (split; apply IZR_lt; lia). destruct P as [Pa Pb].
  cbv zeta. replace (60 * 4000000 / IZR a * R_ (dc_dpt c) / 360)%R with (2000000 / 3 * R_ (dc_dpt c) / IZR a)%R by (field; lra).
  replace (60 * 4000000 / IZR b * R_ (dc_dpt c) / 360)%R with (2000000 / 3 * R_ (dc_dpt c) / IZR b)%R by (field; lra). lra.
Qed.
Print Assumptions C75_speed.

(** Constant speed. *)
Definition wheel36c : dcfg := DCfg MISSING_CAMSYNC f_zero (flit 7 20) 80 4 36 (f_of_Z 10) 0.
Lemma turning_type t c f s : turning c f s -> turning (DCfg t (dc_offset c) (dc_max_change c) (dc_min_rpm c) (dc_required c) (dc_num c) (dc_dpt c) (dc_window c)) f s.
Proof. intros [A B C D E F G H I]. split; assumption. Qed.
Lemma turning36c t0 p s : 24 <= p < 2 ^ 20 -> 8 * p <= t0 + p * slot 36 s -> t0 + p * slot 36 (s + 4) < 2 ^ 32 -> turning wheel36c (fun k => t0 + p * k) s.
Proof. intros H1 H2 H3. apply (turning_type MISSING_CAMSYNC wheel36n). now apply turning36. Qed.

Lemma first_cam_ok num x g k : 3 <= num -> 0 <= x < 2 * (num - 1) -> g <= x + k * (2 * (num - 1)) < g + 2 * (num - 1) -> is_first_cam num x g (x + k * (2 * (num - 1))).
Proof.
  intros N X H. unfold is_first_cam, cam_after. split; [rewrite Z.mod_add, Z.mod_small by lia; apply Z.eqb_refl|]. split; [lia|]. intros m Hm E. apply Z.eqb_eq in E.
  pose proof (Z.div_mod m (2 * (num - 1)) ltac:(lia)) as D. rewrite E in D. assert (k - 1 < m / (2 * (num - 1))) by (apply (Z.mul_lt_mono_pos_l (2 * (num - 1))); lia). nia.
Qed.

(* A 36-1 wheel at 1666 RPM seen from tooth 20 on, with a cam pulse behind tooth 5 of every second turn
   (tooth 40 of every 70): the first gap comes at tooth 35, the first cam pulse behind tooth 40, where the
   angle is 50 degrees; six turns and three teeth after the gap it is 30 degrees. *)
Example C75_example : turning wheel36c (fun k => 100000 + 4000 * k) 20 /\ is_first_gap 36 4 20 35 /\ is_first_cam 36 40 35 40 /\
  (exists d, drun wheel36c dec_init (wheel_cam 36 40 (fun k => 100000 + 4000 * k) (fun m => 102000 + 4000 * slot 36 m) 20 16) = Ok (d, []) /\ dd_valid d = 0) /\
  (exists d fx, drun wheel36c dec_init (wheel_cam 36 40 (fun k => 100000 + 4000 * k) (fun m => 102000 + 4000 * slot 36 m) 20 21) = Ok (d, fx) /\ dd_valid d = 1 /\ dd_last_angle d = f_of_Z 50) /\
  (exists d fx, drun wheel36c dec_init (wheel_cam 36 40 (fun k => 100000 + 4000 * k) (fun m => 102000 + 4000 * slot 36 m) 20 229) = Ok (d, fx) /\ dd_valid d = 1 /\ dd_last_angle d = f_of_Z 30 /\ dd_rpm d = 1666).
Proof.
  split; [apply turning36c; vm_compute; repeat split; try congruence|]. split.
  { split; [reflexivity|]. split; [lia|]. intros m H1 H2. apply Z.mod_divide in H2; [|lia]. destruct H2 as [k ->]. lia. }
  split; [apply (first_cam_ok 36 40 35 0); lia|].
  split; [eexists; split; [vm_compute; reflexivity|reflexivity]|]. split; eexists _, _; (split; [vm_compute; reflexivity|]); repeat split; vm_compute; reflexivity.
Qed.

(** Independence of the starting point, spelled out: two decoders that started at different teeth agree on
    the angle at every tooth, once both are valid. *)
Theorem C75_absolute : forall c f ct s1 s2 x g1 g2 c1 c2 n1 n2, dc_type c = MISSING_CAMSYNC -> turning c f s1 -> turning c f s2 ->
  is_first_gap (dc_num c) (dc_required c) s1 g1 -> is_first_gap (dc_num c) (dc_required c) s2 g2 -> is_first_cam (dc_num c) x g1 c1 -> is_first_cam (dc_num c) x g2 c2 ->
  0 <= x < 2 * (dc_num c - 1) -> (exists q, R_ (dc_dpt c) = IZR q / 8192)%R -> (IZR (dc_num c) * R_ (dc_dpt c) = 360)%R ->
  s1 + Z.of_nat n1 = s2 + Z.of_nat n2 -> c1 <= s1 + Z.of_nat n1 - 1 -> c2 <= s1 + Z.of_nat n1 - 1 ->
  exists d1 f1 d2 f2, drun c dec_init (wheel_cam (dc_num c) x f ct s1 n1) = Ok (d1, f1) /\ drun c dec_init (wheel_cam (dc_num c) x f ct s2 n2) = Ok (d2, f2) /\
  R_ (dd_last_angle d1) = R_ (dd_last_angle d2).
Proof.
  intros c f ct s1 s2 x g1 g2 c1 c2 n1 n2 Ty T1 T2 G1 G2 C1 C2 Hx D N En H1 H2.
  destruct (C75_angle_exact c f ct s1 x g1 c1 n1 T1 Ty G1 C1 Hx D N H1) as (d1 & f1 & z1 & E1 & B1 & A1).
  destruct (C75_angle_exact c f ct s2 x g2 c2 n2 T2 Ty G2 C2 Hx D N ltac:(lia)) as (d2 & f2 & z2 & E2 & B2 & A2).
  exists d1, f1, d2, f2. split; [auto|]. split; [auto|]. rewrite <- En in A2. set (y := (R_ (dc_dpt c) * _)%R) in *.
  assert (z1 = z2); [|subst; lra].
  assert (Z1 : (IZR z1 - 1 < IZR z2 < IZR z1 + 1)%R) by lra.
  rewrite <- minus_IZR, <- plus_IZR in Z1. destruct Z1 as [Z1 Z2]. apply lt_IZR in Z1. apply lt_IZR in Z2. lia.
Qed.
Print Assumptions C75_absolute.

(** * C76: a lost or an extra cam pulse is noticed *)
(** The last cam pulse up to tooth [m] is the one behind tooth [l]. *)
Definition is_last_cam (num x m l : Z) : Prop := cam_after num x l = true /\ l <= m /\ forall k, l < k <= m -> cam_after num x k = false.

Lemma last_cam_is c x g c0 m l : 3 <= dc_num c -> is_first_cam (dc_num c) x g c0 -> c0 <= m -> is_last_cam (dc_num c) x m l -> last_cam c c0 m = Some l.
Proof.
  intros N (C1 & C2 & C3) Hm (L1 & L2 & L3). unfold last_cam. destruct (Z.ltb_spec m c0); [lia|]. f_equal. set (Q := 2 * (dc_num c - 1)) in *. assert (HQ : 0 < Q) by (unfold Q; lia).
  set (y := c0 + Q * ((m - c0) / Q)). pose proof (Z.div_mod (m - c0) Q ltac:(lia)) as DM. pose proof (Z.mod_pos_bound (m - c0) Q HQ) as MB.
  assert (Y : cam_after (dc_num c) x y = true). { unfold cam_after in *. fold Q in C1 |- *. apply Z.eqb_eq in C1. apply Z.eqb_eq. unfold y. rewrite (Z.mul_comm Q), Z.mod_add by lia. exact C1. }
  destruct (Z.lt_trichotomy y l) as [H1|[H1|H1]]; auto.
  - unfold cam_after in *. fold Q in Y, L1. apply Z.eqb_eq in Y. apply Z.eqb_eq in L1. pose proof (Z.div_mod y Q ltac:(lia)). pose proof (Z.div_mod l Q ltac:(lia)).
    assert (y / Q < l / Q) by (apply (Z.mul_lt_mono_pos_l Q); lia). assert (y + Q <= l) by nia. unfold y in *. lia.
  - rewrite (L3 y) in Y; [discriminate|]. unfold y in *. lia.
Qed.

(** If the cam pulses stop after [n] teeth, the position stays valid up to the third turn after the one with
    the last cam pulse, and at the first tooth of that turn it is given up and the pending outputs are
    cancelled. *)
Theorem C76_missing_cam : forall c f ct s x g c0 n k l, turning c f s -> dc_type c = MISSING_CAMSYNC -> is_first_gap (dc_num c) (dc_required c) s g -> is_first_cam (dc_num c) x g c0 ->
  let m := s + Z.of_nat n - 1 in c0 <= m -> is_last_cam (dc_num c) x m l ->
  let third := turn_start (dc_num c) l + 3 * (dc_num c - 1) in
  (m + Z.of_nat k < third -> exists d fx, drun c dec_init (wheel_cam (dc_num c) x f ct s n ++ wheel_teeth (dc_num c) f (s + Z.of_nat n) k) = Ok (d, fx) /\ dd_valid d = 1 /\ ~ In CancelOutputs fx) /\
  (m + Z.of_nat k + 1 = third -> exists d fx, drun c dec_init (wheel_cam (dc_num c) x f ct s n ++ wheel_teeth (dc_num c) f (s + Z.of_nat n) (S k)) = Ok (d, fx ++ [CancelOutputs]) /\ dd_valid d = 0).
Proof.
  intros c f ct s x g c0 n k l Tu Ty G C m Hm Hl third. destruct (turning_cam c f ct s x g c0 Tu Ty G C) as (Eg & S & Wh & N3 & R & _). destruct (R n) as (d & es & E & Tr & _).
  assert (Tu' := Tu). destruct Tu' as [Tr1 Tw Tn (Td1 & Td2 & Td3) Tt (Tm1 & Tm2 & Tm3) Ts Te To]. rewrite Eg in C.
  fold m in Tr. rewrite (last_cam_is c x _ c0 m l N3 C Hm Hl) in Tr.
  assert (Stop : m + Z.of_nat k < third -> exists d' fx, drun c d (wheel_teeth (dc_num c) f (s + Z.of_nat n) k) = Ok (d', fx) /\ ctracked c f s x c0 (Z.of_nat (n + k)) (Some l) d' /\ ~ In CancelOutputs fx).
  { intros H. apply cam_stops; auto; try lia. unfold third, turn_start in H. fold m. replace (s + Z.of_nat n + Z.of_nat k - 1) with (m + Z.of_nat k) by (unfold m; ring).
    assert ((m + Z.of_nat k) / (dc_num c - 1) < l / (dc_num c - 1) + 3) by (apply Z.div_lt_upper_bound; lia). lia. }
  split.
  - intros H. destruct (Stop H) as (d' & fx & E' & T' & N'). rewrite drun_app, E. cbn [bind]. rewrite E'. cbn [bind]. eexists d', _. split; [reflexivity|]. split; [apply (ct_flags _ _ _ _ _ _ _ _ T')|].
    intros Q. apply in_app_or in Q. destruct Q as [Q|Q]; [|auto]. apply in_map_iff in Q. destruct Q as (y & Q & _). discriminate.
  - intros H. destruct (Stop ltac:(lia)) as (d' & fx & E' & T' & N').
    destruct (lost_cam c f s x c0 S Wh Ty ltac:(lia) Tm1 Tm2 Tm3 Ts Te To (Z.of_nat (n + k)) l d' T') as (d2 & fx2 & E2 & V2).
    { replace (s + Z.of_nat (n + k)) with ((l / (dc_num c - 1) + 3) * (dc_num c - 1)) by (unfold third, turn_start, m in H; lia). apply Z.div_mul. lia. }
    rewrite wheel_teeth_snoc, !drun_app, E. cbn [bind]. rewrite drun_app, E'. cbn [bind drun]. replace (s + Z.of_nat n + Z.of_nat k) with (s + Z.of_nat (n + k)) by lia. rewrite E2. cbn [bind]. rewrite app_nil_r.
    eexists d2, _. split; [|exact V2]. rewrite !app_assoc. reflexivity.
Qed.
Print Assumptions C76_missing_cam.

(** A second cam pulse in the turn of a cam pulse or in the next turn makes the decoder give up the position
    and cancel the pending outputs at once. *)
Theorem C76_extra_cam : forall c f ct s x g c0 n l t, turning c f s -> dc_type c = MISSING_CAMSYNC -> is_first_gap (dc_num c) (dc_required c) s g -> is_first_cam (dc_num c) x g c0 ->
  let m := s + Z.of_nat n - 1 in c0 <= m -> is_last_cam (dc_num c) x m l -> m < turn_start (dc_num c) l + 2 * (dc_num c - 1) ->
  exists d fx, drun c dec_init (wheel_cam (dc_num c) x f ct s n ++ [Trigger 1 t]) = Ok (d, fx ++ [CancelOutputs]) /\ dd_valid d = 0.
Proof.
  intros c f ct s x g c0 n l t Tu Ty G C m Hm Hl H. destruct (turning_cam c f ct s x g c0 Tu Ty G C) as (Eg & S & Wh & N3 & R & _). destruct (R n) as (d & es & E & Tr & _).
  rewrite Eg in C. fold m in Tr. rewrite (last_cam_is c x _ c0 m l N3 C Hm Hl) in Tr.
  assert (T3 : 1 <= Z.of_nat n). { destruct C as (_ & C2 & _). destruct (first_gap_spec (dc_num c) (dc_required c) s N3) as (_ & F2 & _). destruct Tu as [Tr1 _ _ _ _ _ _ _ _]. unfold m in Hm. lia. }
  assert (Tu' := Tu). destruct Tu' as [Tr1 Tw Tn (Td1 & Td2 & Td3) Tt (Tm1 & Tm2 & Tm3) Ts Te To].
  edestruct (extra_cam c f s x c0) with (n := Z.of_nat n) (l := l) (d := d) (t := t) as (d2 & E2 & V2); eauto; try lia.
  - fold m. unfold turn_start in H. assert (m / (dc_num c - 1) < l / (dc_num c - 1) + 2) by (apply Z.div_lt_upper_bound; lia). lia.
  - rewrite drun_app, E. cbn [bind drun]. rewrite E2. cbn [bind]. eexists d2, _. split; [|exact V2]. reflexivity.
Qed.
Print Assumptions C76_extra_cam.

(* The wheel of C75_example: after 21 teeth the last cam pulse is that behind tooth 40; the third turn after
   it starts with tooth 140.  The hypotheses hold for both theorems. *)
Example C76_example : is_last_cam 36 40 40 40 /\ turn_start 36 40 + 3 * 35 = 140 /\
  (exists d fx, drun wheel36c dec_init (wheel_cam 36 40 (fun k => 100000 + 4000 * k) (fun m => 102000 + 4000 * slot 36 m) 20 21 ++ wheel_teeth 36 (fun k => 100000 + 4000 * k) 41 99) = Ok (d, fx) /\ dd_valid d = 1) /\
  (exists d fx, drun wheel36c dec_init (wheel_cam 36 40 (fun k => 100000 + 4000 * k) (fun m => 102000 + 4000 * slot 36 m) 20 21 ++ wheel_teeth 36 (fun k => 100000 + 4000 * k) 41 100) = Ok (d, fx) /\ dd_valid d = 0) /\
  (exists d fx, drun wheel36c dec_init (wheel_cam 36 40 (fun k => 100000 + 4000 * k) (fun m => 102000 + 4000 * slot 36 m) 20 60 ++ [Trigger 1 500000]) = Ok (d, fx) /\ dd_valid d = 0).
Proof.
  split; [split; [reflexivity|]; split; [lia|]; intros k H; lia|]. split; [reflexivity|].
  split; [|split]; eexists _, _; (split; [vm_compute; reflexivity|reflexivity]).
Qed.
