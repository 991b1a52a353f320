(** Properties C04-C07: lookup tables (src/table.c). *)
Require Import ZArith Reals Lia Lra Bool List.
Require Import Coq.Floats.SpecFloat.
From Flocq Require Import Core.
From Verif Require Import Res Word F32 F32Flocq Table TableSpec TableProofs.
Import ListNotations.
Open Scope Z_scope.

(** The tables of the project's own unit tests (src/table.c 118-141). *)
Definition ex_t1 : table1 :=
  Table1 (Axis 5 (pad24 (map f_of_Z [5; 10; 12; 15; 20]))) (pad24 (map f_of_Z [50; 100; 120; 150; 200])).
Definition ex_t2 : table2 :=
  Table2 (Axis 4 (pad24 (map f_of_Z [-50; -40; -30; -20]))) (Axis 4 (pad24 (map f_of_Z [5; 10; 15; 20])))
   (map pad24 (map (map f_of_Z) [[50; 100; 250; 200]; [60; 110; 260; 210]; [70; 120; 270; 220]; [80; 130; 280; 230]])
    ++ repeat (pad24 []) 20).

Ltac forall_vf := repeat (apply Forall_cons; [vm_compute; reflexivity|]); apply Forall_nil.
Example ex_t1_wf : wf_table1 ex_t1.
Proof. repeat split; try reflexivity; try (vm_compute; discriminate); forall_vf. Qed.
Example ex_t2_wf : wf_table2 ex_t2.
Proof.
  repeat split; try reflexivity; try (vm_compute; discriminate); try forall_vf.
  repeat (apply Forall_cons; [split; [reflexivity|forall_vf]|]). apply Forall_nil.
Qed.
Example ex_t1_asc : ascending (t1_cols ex_t1). Proof. apply ascendingb_ok. vm_compute. reflexivity. Qed.
Example ex_t2_asc : ascending (t2_cols ex_t2) /\ ascending (t2_rows ex_t2).
Proof. split; apply ascendingb_ok; vm_compute; reflexivity. Qed.

(** C04: memory safety.  [Ok] means that no access outside the arrays was made.
    Release firmware is built with asserts off ([true]); the second theorem covers
    both builds.  No assumption is made on the contents or on the lookup value. *)
Theorem C04_one_axis : forall t val, wf_table1 t -> 1 <= ax_num (t1_cols t) <= 23 ->
  exists r, interpolate_table_oneaxis true t val = Ok r.
Proof. exact lookup1_safe. Qed.
Print Assumptions C04_one_axis.

Theorem C04_two_axis : forall t x y, wf_table2 t ->
  1 <= ax_num (t2_cols t) <= 23 -> 1 <= ax_num (t2_rows t) <= 23 ->
  exists r, interpolate_table_twoaxis true t x y = Ok r.
Proof. exact lookup2_safe. Qed.
Print Assumptions C04_two_axis.

(** With an ascending axis the asserts hold too, and a full axis is safe below its
    last breakpoint. *)
Theorem C04_full_axis : forall nd t val, wf_table1 t -> ascending (t1_cols t) ->
  1 <= ax_num (t1_cols t) <= 24 -> vf val -> not_nan val ->
  (ax_num (t1_cols t) = 24 -> flt val (elt (ax_values (t1_cols t)) 23) = true) ->
  exists r, interpolate_table_oneaxis nd t val = Ok r.
Proof. exact lookup1_safe_full. Qed.
Print Assumptions C04_full_axis.

(** The claim "lookups never leave the table" is false for full tables, which the
    validator accepts: every lookup at or above the last breakpoint overruns. *)
Theorem C04_full_axis_refuted : forall nd t val, wf_table1 t -> ascending (t1_cols t) ->
  ax_num (t1_cols t) = 24 -> vf val -> not_nan val -> fge val (elt (ax_values (t1_cols t)) 23) = true ->
  interpolate_table_oneaxis nd t val = Err OutOfBounds.
Proof. exact lookup1_oob. Qed.
Print Assumptions C04_full_axis_refuted.

(** ... and for empty ones, also accepted: every lookup reads values[-1]. *)
Theorem C04_empty_axis_refuted : forall nd t val, wf_table1 t -> ax_num (t1_cols t) = 0 ->
  interpolate_table_oneaxis nd t val = Err OutOfBounds.
Proof. exact lookup1_empty. Qed.
Print Assumptions C04_empty_axis_refuted.

Definition ex_full : table1 :=
  Table1 (Axis 24 (map (fun i => f_of_Z (Z.of_nat i)) (seq 0 24))) (map (fun i => f_of_Z (Z.of_nat i)) (seq 0 24)).
Example C04_ex : table_valid_oneaxis ex_full = Ok true /\ wf_table1 ex_full /\ ascending (t1_cols ex_full) /\
  interpolate_table_oneaxis true ex_full (f_of_Z 23) = Err OutOfBounds /\
  interpolate_table_oneaxis true ex_full (f_of_Z 22) = Ok (f_of_Z 22) /\
  interpolate_table_oneaxis true ex_t1 S754_nan = Ok S754_nan.
Proof.
  split; [vm_compute; reflexivity|]. split.
  { repeat split; try reflexivity; try (vm_compute; discriminate); forall_vf. }
  split; [apply ascendingb_ok; vm_compute; reflexivity|]. repeat split; vm_compute; reflexivity.
Qed.

(** C05: at a breakpoint, or beyond an end of the axis, the lookup returns the stored
    cell ([feq] is C's ==). *)
Theorem C05_one_axis : forall nd t val i, wf_table1 t -> ascending (t1_cols t) -> good_tail (t1_cols t) ->
  1 <= ax_num (t1_cols t) <= 23 ->
  (forall k, 0 <= k <= ax_num (t1_cols t) -> sane (elt (t1_data t) k)) ->
  0 <= i < ax_num (t1_cols t) -> vf val -> at_breakpoint (t1_cols t) val i ->
  exists r, interpolate_table_oneaxis nd t val = Ok r /\ feq r (elt (t1_data t) i) = true.
Proof. exact lookup1_exact. Qed.
Print Assumptions C05_one_axis.

Theorem C05_two_axis : forall nd t x y i j, wf_table2 t ->
  ascending (t2_cols t) -> good_tail (t2_cols t) -> ascending (t2_rows t) -> good_tail (t2_rows t) ->
  1 <= ax_num (t2_cols t) <= 23 -> 1 <= ax_num (t2_rows t) <= 23 ->
  (forall r c, 0 <= r <= ax_num (t2_rows t) -> 0 <= c <= ax_num (t2_cols t) -> sane (elt2 (t2_data t) r c)) ->
  0 <= i < ax_num (t2_cols t) -> 0 <= j < ax_num (t2_rows t) -> vf x -> vf y ->
  at_breakpoint (t2_cols t) x i -> at_breakpoint (t2_rows t) y j ->
  exists r, interpolate_table_twoaxis nd t x y = Ok r /\ feq r (elt2 (t2_data t) j i) = true.
Proof. exact lookup2_exact. Qed.
Print Assumptions C05_two_axis.

(** Without [good_tail] the claim is false: if the unused storage after the axis holds
    the last breakpoint's value, every lookup at or above the top returns NaN. *)
Theorem C05_top_refuted : forall nd t val, wf_table1 t -> ascending (t1_cols t) -> 1 <= ax_num (t1_cols t) <= 23 ->
  feq (elt (ax_values (t1_cols t)) (ax_num (t1_cols t))) (elt (ax_values (t1_cols t)) (ax_num (t1_cols t) - 1)) = true ->
  vf val -> fge val (elt (ax_values (t1_cols t)) (ax_num (t1_cols t) - 1)) = true ->
  interpolate_table_oneaxis nd t val = Ok S754_nan.
Proof. exact lookup1_top_nan. Qed.
Print Assumptions C05_top_refuted.

(** Hypotheses met by the unit-test tables; a zero-ended axis shows the NaN. *)
Definition ex_zero : table1 :=
  Table1 (Axis 3 (pad24 (map f_of_Z [-20; -10; 0]))) (pad24 (map f_of_Z [1; 2; 3])).
Example C05_ex : good_tail (t1_cols ex_t1) /\ good_tail (t2_cols ex_t2) /\ good_tail (t2_rows ex_t2) /\
  (forall k, 0 <= k <= 5 -> sane (elt (t1_data ex_t1) k)) /\
  at_breakpoint (t1_cols ex_t1) (f_of_Z 12) 2 /\ at_breakpoint (t1_cols ex_t1) (S754_infinity false) 4 /\
  interpolate_table_twoaxis false ex_t2 (f_of_Z 30) (f_of_Z (-40)) = Ok (f_of_Z 210) /\
  interpolate_table_oneaxis false ex_zero (f_of_Z 5) = Ok S754_nan.
Proof.
  assert (G : forall a, saneb (elt (ax_values a) (ax_num a)) = true ->
    feq (elt (ax_values a) (ax_num a)) (elt (ax_values a) (ax_num a - 1)) = false -> good_tail a)
    by (split; [now apply saneb_ok|assumption]).
  split; [apply G; vm_compute; reflexivity|]. split; [apply G; vm_compute; reflexivity|].
  split; [apply G; vm_compute; reflexivity|]. split; [|split; [|split; [|split; vm_compute; reflexivity]]].
  - intros k Hk. apply saneb_ok.
    assert (k = 0 \/ k = 1 \/ k = 2 \/ k = 3 \/ k = 4 \/ k = 5) as [->|[->|[->|[->|[-> | ->]]]]] by lia; vm_compute; reflexivity.
  - left. vm_compute. reflexivity.
  - right; right. split; vm_compute; reflexivity.
Qed.

(** C06: inside a cell the result lies between the cell's values, up to the rounding
    of the far end ([rnd] rounds a real to binary32). *)
Theorem C06_one_axis : forall nd t val i, wf_table1 t -> ascending (t1_cols t) -> 1 <= ax_num (t1_cols t) <= 23 ->
  vf val -> in_cell (t1_cols t) val i -> sane (elt (t1_data t) i) -> sane (elt (t1_data t) (i + 1)) ->
  let a := R_ (elt (t1_data t) i) in let b := R_ (elt (t1_data t) (i + 1)) in
  exists r, interpolate_table_oneaxis nd t val = Ok r /\ fin r /\
    ((a <= b)%R -> (a <= R_ r <= rnd (a + rnd (b - a)))%R) /\
    ((b <= a)%R -> (rnd (a + rnd (b - a)) <= R_ r <= a)%R).
Proof. exact lookup1_between. Qed.
Print Assumptions C06_one_axis.

(** Two axes: the result is within the range of the four surrounding cells, widened by
    2^-18 (4 parts per million) of the largest magnitude, and never negative when
    the cells are not. *)
Theorem C06_two_axis : forall nd t x y i j lo hi M,
  wf_table2 t -> ascending (t2_cols t) -> ascending (t2_rows t) ->
  1 <= ax_num (t2_cols t) <= 23 -> 1 <= ax_num (t2_rows t) <= 23 ->
  vf x -> vf y -> in_cell (t2_cols t) x i -> in_cell (t2_rows t) y j ->
  (forall r c, r = j \/ r = j + 1 -> c = i \/ c = i + 1 ->
     sane (elt2 (t2_data t) r c) /\ (lo <= R_ (elt2 (t2_data t) r c) <= hi)%R) ->
  (- M <= lo)%R -> (hi <= M)%R -> (M <= bpow radix2 100)%R ->
  let slack := (bpow radix2 (-18) * M + bpow radix2 (-144))%R in
  exists r, interpolate_table_twoaxis nd t x y = Ok r /\ fin r /\
    (lo - slack <= R_ r <= hi + slack)%R /\ (0 <= lo -> 0 <= R_ r)%R.
Proof. exact lookup2_between. Qed.
Print Assumptions C06_two_axis.

(** Exact containment is false: rounding can carry the result past the far cell. *)
Definition ex_round : table1 :=
  Table1 (Axis 2 (pad24 [f_of_Z (-1); flit 1 (2 ^ 40)])) (pad24 [f_of_Z (-1); flit 3 (2 ^ 25)]).
Theorem C06_containment_refuted : exists t val i r,
  wf_table1 t /\ ascending (t1_cols t) /\ in_cell (t1_cols t) val i /\
  interpolate_table_oneaxis true t val = Ok r /\
  fgt r (elt (t1_data t) i) = true /\ fgt r (elt (t1_data t) (i + 1)) = true.
Proof.
  exists ex_round, (flit 1 (2 ^ 41)), 0, (flit 1 (2 ^ 23)).
  split. { repeat split; try reflexivity; try (vm_compute; discriminate); forall_vf. }
  split; [apply ascendingb_ok; vm_compute; reflexivity|].
  repeat split; try lia; vm_compute; reflexivity.
Qed.
Print Assumptions C06_containment_refuted.

Example C06_ex : in_cell (t1_cols ex_t1) (flit 15 2) 0 /\
  interpolate_table_oneaxis true ex_t1 (flit 15 2) = Ok (f_of_Z 75) /\
  in_cell (t2_cols ex_t2) (flit 15 2) 0 /\ in_cell (t2_rows ex_t2) (f_of_Z (-45)) 0 /\
  interpolate_table_twoaxis true ex_t2 (flit 15 2) (f_of_Z (-45)) = Ok (f_of_Z 80).
Proof. repeat split; vm_compute; try reflexivity; discriminate. Qed.

(** C07: validation accepts exactly the axes of at most 24 entries with no descent. *)
Theorem C07_axis : forall a, wf_axis a -> exists b, table_valid_axis a = Ok b /\
  (b = true <-> ax_num a <= 24 /\
     forall k, 0 <= k -> k + 1 < ax_num a -> fgt (elt (ax_values a) k) (elt (ax_values a) (k + 1)) = false).
Proof. exact table_valid_axis_spec. Qed.
Print Assumptions C07_axis.

Theorem C07_two_axis : forall t, wf_table2 t -> exists b, table_valid_twoaxis t = Ok b /\
  (b = true <-> table_valid_axis (t2_cols t) = Ok true /\ table_valid_axis (t2_rows t) = Ok true).
Proof.
  intros t (Wc & Wr & _). unfold table_valid_twoaxis.
  destruct (table_valid_axis_spec _ Wc) as (b & -> & _). destruct (table_valid_axis_spec _ Wr) as (c & -> & _).
  cbn [bind]. destruct b; eexists; (split; [reflexivity|]); destruct c; split; intuition congruence.
Qed.
Print Assumptions C07_two_axis.

(** Whatever ascending axis is looked up, the cell used is the one that brackets the value. *)
Theorem C07_bracketing : forall nd a v i, wf_axis a -> ascending a -> 1 <= ax_num a <= 23 -> vf v ->
  in_cell a v i -> axis_find_cell_lower nd a v = Ok i.
Proof. intros. destruct (in_cell_clamp a v i) as (_ & _ & _ & _ & F); auto. Qed.
Print Assumptions C07_bracketing.

(** An ascending axis is accepted. *)
Theorem C07_accepts_ascending : forall a, wf_axis a -> ascending a -> ax_num a <= 24 -> table_valid_axis a = Ok true.
Proof.
  intros a Wa [S A] L. destruct (table_valid_axis_spec a Wa) as (b & E & H). rewrite E. f_equal. apply H.
  split; [exact L|]. intros k K1 K2. rewrite fgt_flt. pose proof (S k ltac:(lia)). pose proof (S (k+1) ltac:(lia)).
  apply flt_false_iff; auto with vf. apply Rlt_le. apply A; lia.
Qed.
Print Assumptions C07_accepts_ascending.

Example C07_ex : table_valid_oneaxis ex_t1 = Ok true /\ table_valid_twoaxis ex_t2 = Ok true /\
  table_valid_axis (Axis 3 (pad24 (map f_of_Z [1; 3; 2]))) = Ok false /\
  table_valid_axis (Axis 25 (pad24 [])) = Ok false /\
  axis_find_cell_lower false (t1_cols ex_t1) (f_of_Z 13) = Ok 2.
Proof. repeat split; vm_compute; reflexivity. Qed.
