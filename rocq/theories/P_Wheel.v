(** C25: a missing-tooth decoder on a turning wheel. *)
Require Import ZArith Reals List Bool Lia Lra SpecFloat.
From Flocq Require Import Core.
From Verif Require Import Res Word F32 F32Flocq TimeProofs TableProofs AngleProofs PulseProofs RelErr Arr Decoder DecoderProofs DecoderSafe DecoderRun DecoderMissing DecoderAngle DecoderLoss
  Wheel WheelProofs WheelRun WheelAngle.
Import ListNotations.
Open Scope Z_scope.
Ltac Zify.zify_post_hook ::= idtac.

Lemma first_gap_unique num r s g : 3 <= num -> is_first_gap num r s g -> g = first_gap num r s.
Proof. intros H (G1 & G2 & G3). destruct (first_gap_spec num r s H) as (F1 & F2 & F3). apply Z.le_antisymm; auto. Qed.

Lemma turning_run c f s : turning c f s -> dc_type c = MISSING_NOSYNC -> supported c /\ wheel c /\ 3 <= dc_num c /\
  forall n, exists d es, drun c dec_init (wheel_teeth (dc_num c) f s n) = Ok (d, map (fun e => SetExpire (w32 e)) es) /\ tracked c f s (Z.of_nat n) d /\
  Z.of_nat (length es) = Z.max 0 (s + Z.of_nat n - 1 - first_gap (dc_num c) (dc_required c) s) /\ expiries c f (first_gap (dc_num c) (dc_required c) s + 1) es.
Proof.
  intros [Tr Tw Tn (Td1 & Td2 & Td3) Tt (Tm1 & Tm2 & Tm3) Ts Te To] Ty.
  assert (S : supported c) by (split; lia). assert (Wh : wheel c) by (split; auto).
  split; [auto|]. split; [auto|]. split; [lia|]. intros n. apply wheel_run; auto; try lia. unfold missing. now rewrite Ty.
Qed.

(** After every number of teeth the position is valid exactly when the first gap with enough teeth before
    it has been passed; so sync is gained there and never lost, and nothing is ever cancelled. *)
Theorem C25_sync : forall c f s g n, turning c f s -> dc_type c = MISSING_NOSYNC -> is_first_gap (dc_num c) (dc_required c) s g ->
  exists d fx, drun c dec_init (wheel_teeth (dc_num c) f s n) = Ok (d, fx) /\
  (dd_valid d = if g <=? s + Z.of_nat n - 1 then 1 else 0) /\ ~ In CancelOutputs fx /\
  (g <= s + Z.of_nat n - 1 -> dd_loss d = NO_LOSS) /\
  (g < s + Z.of_nat n - 1 -> dd_last_time d = w32 (tooth_time (dc_num c) f (s + Z.of_nat n - 1))).
Proof.
  intros c f s g n Tu Ty G. destruct (turning_run c f s Tu Ty) as (_ & _ & N3 & R). destruct (R n) as (d & es & E & [A I V An Ti] & _).
  rewrite (first_gap_unique _ _ _ _ N3 G) in *. exists d, (map (fun e => SetExpire (w32 e)) es). split; [exact E|]. split; [exact V|].
  split; [intros H; apply in_map_iff in H; destruct H as (x & H & _); discriminate|]. split; [intros H; apply An; exact H|exact Ti].
Qed.
Print Assumptions C25_sync.

(** The expiry armed at each tooth after that lies after the next tooth and less than one turn of the timer
    ahead: the decoder never expires while the wheel turns.  Tooth number [g + 1 + k] arms the k-th. *)
Theorem C25_expiry : forall c f s g n, turning c f s -> dc_type c = MISSING_NOSYNC -> is_first_gap (dc_num c) (dc_required c) s g ->
  exists d es, drun c dec_init (wheel_teeth (dc_num c) f s n) = Ok (d, map (fun e => SetExpire (w32 e)) es) /\
  Z.of_nat (length es) = Z.max 0 (s + Z.of_nat n - 1 - g) /\
  forall k e, nth_error es k = Some e -> tooth_time (dc_num c) f (g + 1 + Z.of_nat k + 1) < e < tooth_time (dc_num c) f (g + 1 + Z.of_nat k) + 2 ^ 32.
Proof.
  intros c f s g n Tu Ty G. destruct (turning_run c f s Tu Ty) as (_ & _ & N3 & R). destruct (R n) as (d & es & E & _ & L & X).
  rewrite (first_gap_unique _ _ _ _ N3 G) in *. exists d, es. split; [exact E|]. split; [exact L|].
  clear E L R G. set (m := first_gap (dc_num c) (dc_required c) s + 1) in *. clearbody m. revert m X. induction es as [|x es IH]; intros m X k e K; [destruct k; discriminate|].
  cbn [expiries] in X. destruct X as [X1 X2]. destruct k as [|k].
  - cbn in K. injection K as <-. replace (m + Z.of_nat 0) with m by lia. exact X1.
  - cbn [nth_error] in K. specialize (IH _ X2 k e K). replace (m + Z.of_nat (S k)) with (m + 1 + Z.of_nat k) by lia. exact IH.
Qed.
Print Assumptions C25_expiry.

(** Once valid, the reference angle at tooth [m] is the number of tooth widths past tooth [g], the missing
    tooth counted, modulo 720 degrees, to within 1/4096 degree for each tooth since. *)
Theorem C25_angle : forall c f s g n, turning c f s -> dc_type c = MISSING_NOSYNC -> is_first_gap (dc_num c) (dc_required c) s g ->
  let m := s + Z.of_nat n - 1 in g <= m ->
  exists d fx z, drun c dec_init (wheel_teeth (dc_num c) f s n) = Ok (d, fx) /\ (0 <= R_ (dd_last_angle d) < 720)%R /\
  (Rabs (R_ (dd_last_angle d) - (R_ (dc_dpt c) * IZR (slot (dc_num c) m - slot (dc_num c) g) - 720 * IZR z)) <= IZR (m - g) / 4096)%R.
Proof.
  intros c f s g n Tu Ty G m Hm. destruct (turning_run c f s Tu Ty) as (_ & Wh & N3 & R). destruct (R n) as (d & es & E & [A I V An Ti] & _).
  rewrite (first_gap_unique _ _ _ _ N3 G) in *. set (g0 := first_gap (dc_num c) (dc_required c) s) in *.
  destruct (angle_after_ok c s Wh N3 (Z.to_nat (m - g0))) as ((_ & _ & B) & z & H). exists d, (map (fun e => SetExpire (w32 e)) es), z.
  split; [exact E|]. destruct (An Hm) as [-> _]. fold m. split; [exact B|]. rewrite INR_IZR_INZ in H. rewrite Z2Nat.id in H by lia. fold g0 in H. replace (g0 + (m - g0)) with m in H by ring. exact H.
Qed.
Print Assumptions C25_angle.

(** For tooth widths that are multiples of 1/8192 degree the angle is exact, however long the engine runs. *)
Theorem C25_angle_exact : forall c f s g n, turning c f s -> dc_type c = MISSING_NOSYNC -> is_first_gap (dc_num c) (dc_required c) s g ->
  (exists q, R_ (dc_dpt c) = IZR q / 8192)%R -> let m := s + Z.of_nat n - 1 in g <= m ->
  exists d fx z, drun c dec_init (wheel_teeth (dc_num c) f s n) = Ok (d, fx) /\ (0 <= R_ (dd_last_angle d) < 720)%R /\
  R_ (dd_last_angle d) = (R_ (dc_dpt c) * IZR (slot (dc_num c) m - slot (dc_num c) g) - 720 * IZR z)%R.
Proof.
  intros c f s g n Tu Ty G D m Hm. destruct (turning_run c f s Tu Ty) as (_ & Wh & N3 & R). destruct (R n) as (d & es & E & [A I V An Ti] & _).
  rewrite (first_gap_unique _ _ _ _ N3 G) in *. set (g0 := first_gap (dc_num c) (dc_required c) s) in *.
  destruct (angle_after_exact c s Wh N3 (Z.to_nat (m - g0)) D) as (_ & z & H). destruct (angle_after_ok c s Wh N3 (Z.to_nat (m - g0))) as ((_ & _ & B) & _).
  exists d, (map (fun e => SetExpire (w32 e)) es), z.
  split; [exact E|]. destruct (An Hm) as [-> _]. fold m. split; [exact B|]. rewrite Z2Nat.id in H by lia. fold g0 in H. replace (g0 + (m - g0)) with m in H by ring. exact H.
Qed.
Print Assumptions C25_angle_exact.

(** The speed reported while valid is that of the wheel: if every slot since one turn before the last gap
    took between [a] and [b] ticks, it is between the two corresponding speeds (rounded down, within 20
    half-units in the last place of a float).  4000000 ticks per second, 360 degrees per turn. *)
Theorem C25_speed : forall c f s g n a b, turning c f s -> dc_type c = MISSING_NOSYNC -> is_first_gap (dc_num c) (dc_required c) s g ->
  let m := s + Z.of_nat n - 1 in g <= m -> band (R_ (dc_dpt c)) (R_ (dc_max_change c)) a b ->
  (forall i, slot (dc_num c) s <= i -> dc_num c * (m / (dc_num c - 1)) - dc_num c <= i < slot (dc_num c) m -> a <= f (i + 1) - f i <= b) ->
  exists d fx, drun c dec_init (wheel_teeth (dc_num c) f s n) = Ok (d, fx) /\
  let speed p := (60 * 4000000 / IZR p * R_ (dc_dpt c) / 360)%R in
  (speed b * (1 - 20 / 16777216) - 1 <= IZR (dd_rpm d) <= speed a * (1 + 20 / 16777216))%R.
Proof.
  intros c f s g n a b Tu Ty G m Hm Bd Sp. destruct (turning_run c f s Tu Ty) as (_ & Wh & N3 & R). destruct (R n) as (d & es & E & [A I V An Ti] & _).
  rewrite (first_gap_unique _ _ _ _ N3 G) in *. exists d, (map (fun e => SetExpire (w32 e)) es). split; [exact E|].
  destruct (af_sync _ _ _ _ _ A Hm) as (_ & _ & K). specialize (K a b (conj Bd Sp)). unfold rpm_in, ur in K.
  destruct Bd as [Br _ _ _]. assert (P : (0 < IZR a /\ 0 < IZR b)%R) by (split; apply IZR_lt; lia). destruct P as [Pa Pb].
  cbv zeta. replace (60 * 4000000 / IZR a * R_ (dc_dpt c) / 360)%R with (2000000 / 3 * R_ (dc_dpt c) / IZR a)%R by (field; lra).
  replace (60 * 4000000 / IZR b * R_ (dc_dpt c) / 360)%R with (2000000 / 3 * R_ (dc_dpt c) / IZR b)%R by (field; lra). lra.
Qed.
Print Assumptions C25_speed.

(** Constant speed: every wheel, phase, slot time [p] and starting time [t0] within these limits is one of
    the turning wheels above. *)
Lemma constant_turning c s t0 p :
  2 <= dc_required c <= dc_num c - 1 -> dc_required c <= 36 -> 0 <= dc_window c <= 36 -> dc_num c < 2 ^ 32 ->
  missing c = true -> wheel c -> vf (dc_max_change c) -> fin (dc_max_change c) -> (/ 65536 <= R_ (dc_max_change c) <= 3 / 5)%R ->
  16 <= p < 2 ^ 25 -> (8 <= IZR p * R_ (dc_max_change c))%R -> (3 <= 2000000 / 3 * R_ (dc_dpt c) / IZR p)%R ->
  2 * dc_required c * p <= t0 + p * slot (dc_num c) s -> t0 + p * slot (dc_num c) (s + dc_required c) < 2 ^ 32 ->
  turning c (fun k => t0 + p * k) s.
Proof.
  intros H1 H2 H3 H4 M [Hv Hf Hd Hn] Vm Fm Hm Hp Ht Hr He Hw. specialize (Hn M). split; auto; try lia; try lra.
  - split; [auto|]. split; [auto|]. lra.
  - intros k. exists p, p. split.
    + split; auto; [lia|]. assert (0 < IZR p)%R by (apply IZR_lt; lia). rewrite <- (Rmult_1_r (IZR p)) at 1. apply Rmult_le_compat_l; lra.
    + intros i _ _. lia.
  - intros i _. unfold tooth_time. replace (t0 + p * (i + 1) - (t0 + p * i)) with p by ring. exact He.
Qed.

Definition wheel36n : dcfg := DCfg MISSING_NOSYNC f_zero (flit 7 20) 80 4 36 (f_of_Z 10) 0.
Lemma tol35 : vf (flit 7 20) /\ fin (flit 7 20) /\ (/ 3 <= R_ (flit 7 20) <= 3 / 5)%R.
Proof.
  replace (flit 7 20) with (S754_finite false 11744051 (-25)) by (vm_compute; reflexivity). split; [vm_compute; reflexivity|]. split; [reflexivity|].
  unfold R_. cbn. unfold F2R. simpl. lra.
Qed.
Lemma turning36 t0 p s : 24 <= p < 2 ^ 20 -> 8 * p <= t0 + p * slot 36 s -> t0 + p * slot 36 (s + 4) < 2 ^ 32 -> turning wheel36n (fun k => t0 + p * k) s.
Proof.
  intros Hp H1 H2. destruct tol35 as (V & F & B). destruct (f_of_Z_exact 10) as [E Fe]; [cbn; lia|]. assert (Pr : (24 <= IZR p < 1048576)%R) by (split; [apply IZR_le|apply IZR_lt]; lia).
  apply constant_turning; cbn [wheel36n dc_required dc_num dc_window dc_max_change dc_dpt]; auto; try lia; try lra.
  - split; cbn [wheel36n dc_dpt dc_num]; auto using vf_of_Z; rewrite E; lra.
  - apply Rle_trans with (24 * / 3)%R; [lra|]. apply Rmult_le_compat; lra.
  - rewrite E. apply Rmult_le_reg_r with (IZR p); [lra|]. unfold Rdiv. rewrite !Rmult_assoc, Rinv_l by lra. lra.
Qed.

(* A 36-1 wheel at 1666 RPM seen from tooth 20 on: the first gap comes at tooth 35, sync is gained there,
   and ten turns and three teeth later the angle is 30 degrees. *)
Example C25_example : turning wheel36n (fun k => 100000 + 4000 * k) 20 /\ is_first_gap 36 4 20 35 /\
  (exists d, drun wheel36n dec_init (wheel_teeth 36 (fun k => 100000 + 4000 * k) 20 15) = Ok (d, []) /\ dd_valid d = 0) /\
  (exists d, drun wheel36n dec_init (wheel_teeth 36 (fun k => 100000 + 4000 * k) 20 16) = Ok (d, []) /\ dd_valid d = 1) /\
  (exists d fx, drun wheel36n dec_init (wheel_teeth 36 (fun k => 100000 + 4000 * k) 20 369) = Ok (d, fx) /\ dd_valid d = 1 /\ dd_last_angle d = f_of_Z 30 /\ dd_rpm d = 1666).
Proof.
  split; [apply turning36; vm_compute; repeat split; try congruence|]. split.
  { split; [reflexivity|]. split; [lia|]. intros m H1 H2. apply Z.mod_divide in H2; [|lia]. destruct H2 as [k ->]. lia. }
  split; [eexists; split; [vm_compute; reflexivity|reflexivity]|]. split; [eexists; split; [vm_compute; reflexivity|reflexivity]|].
  eexists _, _. split; [vm_compute; reflexivity|]. repeat split; vm_compute; reflexivity.
Qed.

(** ** The angle drifts when the tooth width is not a short binary fraction *)
Definition wheel33n : dcfg := DCfg MISSING_NOSYNC f_zero (flit 7 20) 80 4 33 (fdiv (f_of_Z 360) (f_of_Z 33)) 0.
Fixpoint angle_loop (c : dcfg) (j : nat) (i : Z) (a : f32) : f32 := match j with O => a | S j => angle_loop c j (i + 1) (step_angle c (i + 1) a) end.
Lemma angle_loop_ok c s j k : angle_loop c j (first_gap (dc_num c) (dc_required c) s + Z.of_nat k) (angle_after c s k) = angle_after c s (k + j).
Proof.
  revert k. induction j as [|j IH]; intros k; cbn [angle_loop]; [now rewrite Nat.add_0_r|].
  replace (first_gap (dc_num c) (dc_required c) s + Z.of_nat k + 1) with (first_gap (dc_num c) (dc_required c) s + Z.of_nat (S k)) by lia.
  change (step_angle c (first_gap (dc_num c) (dc_required c) s + Z.of_nat (S k)) (angle_after c s k)) with (angle_after c s (S k)). rewrite IH. f_equal. lia.
Qed.

Lemma dpt33 : let q := fdiv (f_of_Z 360) (f_of_Z 33) in vf q /\ fin q /\ (109 / 10 <= R_ q <= 360 / 33 + / 10000)%R.
Proof.
  cbv zeta. replace (fdiv (f_of_Z 360) (f_of_Z 33)) with (S754_finite false 11439011 (-20)) by (vm_compute; reflexivity). split; [vm_compute; reflexivity|]. split; [reflexivity|].
  unfold R_. cbn. unfold F2R. simpl. lra.
Qed.
Lemma turning33 : turning wheel33n (fun k => 100000 + 4000 * k) 20.
Proof.
  destruct tol35 as (V & F & B). destruct dpt33 as (Vd & Fd & Bd).
  apply constant_turning; cbn [wheel33n dc_required dc_num dc_window dc_max_change dc_dpt]; auto; try lia; try lra; try (vm_compute; congruence); try (vm_compute; reflexivity).
  split; cbn [wheel33n dc_dpt dc_num]; auto; lra.
Qed.

(* A 33-1 wheel: after exactly 600 turns from the tooth where sync was gained at angle 0 the true angle is
   0 again; the reported one is more than a tenth of a degree off.  Nothing ever corrects it. *)
Theorem C25_drift_refuted : exists n m d fx, turning wheel33n (fun k => 100000 + 4000 * k) 20 /\ is_first_gap 33 4 20 32 /\
  20 + Z.of_nat n - 1 = m /\ slot 33 m - slot 33 32 = 33 * 600 /\
  drun wheel33n dec_init (wheel_teeth 33 (fun k => 100000 + 4000 * k) 20 n) = Ok (d, fx) /\ dd_valid d = 1 /\
  (/ 10 < R_ (dd_last_angle d) < 1)%R.
Proof.
  assert (G : is_first_gap 33 4 20 32). { split; [reflexivity|]. split; [lia|]. intros m H1 H2. apply Z.mod_divide in H2; [|lia]. destruct H2 as [k ->]. lia. }
  set (n := Z.to_nat (32 * 600 + 13)). destruct (turning_run wheel33n _ 20 turning33 eq_refl) as (_ & _ & _ & R). destruct (R n) as (d & es & E & [A I V An Ti] & _).
  assert (En : 20 + Z.of_nat n - 1 = 32 * 600 + 32) by (unfold n; rewrite Z2Nat.id; lia). clearbody n. rewrite En in *.
  exists n, (32 * 600 + 32), d, (map (fun e => SetExpire (w32 e)) es). split; [apply turning33|]. split; [exact G|]. split; [exact En|].
  split; [reflexivity|]. split; [exact E|]. split; [rewrite V; reflexivity|].
  destruct (An ltac:(change (first_gap (dc_num wheel33n) (dc_required wheel33n) 20) with 32; lia)) as [Ea _]. rewrite Ea.
  assert (L : forall j, angle_after wheel33n 20 j = angle_loop wheel33n j 32 f_zero) by (intros j; symmetry; exact (angle_loop_ok wheel33n 20 j 0)). rewrite L. clear.
  set (a := angle_loop _ _ _ _). assert (K : a = S754_finite false 14745600 (-27)) by (vm_cast_no_check (eq_refl (S754_finite false 14745600 (-27)))).
  rewrite K. unfold R_. cbn. unfold F2R. simpl. lra.
Qed.
Print Assumptions C25_drift_refuted.

(* Without the condition on the first tooth the zeroed history is taken for a tooth at time 0: with two
   required teeth, the second tooth after power-on looks like the end of a gap. *)
Theorem C25_early_refuted : exists d fx, drun (DCfg MISSING_NOSYNC f_zero (flit 7 20) 80 2 36 (f_of_Z 10) 0) dec_init
  (wheel_teeth 36 (fun k => 2000 + 4000 * k) 0 2) = Ok (d, fx) /\ dd_valid d = 1.
Proof. eexists _, _. split; [vm_compute; reflexivity|reflexivity]. Qed.
Print Assumptions C25_early_refuted.
