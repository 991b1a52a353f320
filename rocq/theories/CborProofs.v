(** The byte-at-a-time CBOR reader meets the contract of FramingSpec. *)
Require Import ZArith List Bool Lia.
Require Import Verif.Framing Verif.FramingSpec Verif.FramingProofs Verif.CborGrammar.
Import ListNotations.
Open Scope Z_scope.
Ltac Zify.zify_post_hook ::= idtac.

Lemma complete_inj a b : Complete a = Complete b -> a = b.
Proof. congruence. Qed.

Lemma scan_shift b : forall st n, scan st b n =
  match scan st b 0 with Complete k => Complete (n + k) | v => v end.
Proof.
  induction b as [|x b IH]; intros st n; cbn [scan]; [reflexivity|].
  destruct (feed st x).
  - rewrite IH. rewrite (IH st0 (0 + 1)). destruct (scan st0 b 0); [f_equal; lia|reflexivity|reflexivity].
  - f_equal; lia.
  - reflexivity.
Qed.

Lemma scan_complete b : forall st n, scan st b 0 = Complete n ->
  0 < n <= len b /\
  (forall x, scan st (firstn (Z.to_nat n) b ++ x) 0 = Complete n) /\
  (forall k, (k < Z.to_nat n)%nat -> scan st (firstn k b) 0 = Incomplete).
Proof.
  induction b as [|x b IH]; intros st n; cbn [scan]; [discriminate|].
  destruct (feed st x) as [st'| |] eqn:F; [| |discriminate].
  - rewrite scan_shift. destruct (scan st' b 0) as [m| |] eqn:S; [|discriminate|discriminate].
    intros E. apply complete_inj in E. subst n. destruct (IH _ _ S) as (Hm & Hx & Hk).
    rewrite len_cons. split; [lia|].
    assert (Hn : Z.to_nat (0 + 1 + m) = Datatypes.S (Z.to_nat m)) by lia. rewrite Hn.
    split.
    + intros y. cbn [firstn app scan]. rewrite F, scan_shift, Hx. reflexivity.
    + intros k Hkm. destruct k as [|k]; [reflexivity|]. cbn [firstn scan]. rewrite F, scan_shift.
      rewrite Hk by lia. reflexivity.
  - intros E. apply complete_inj in E. subst n. rewrite len_cons. pose proof (len_nonneg b).
    split; [lia|]. change (Z.to_nat (0 + 1)) with 1%nat. split.
    + intros y. cbn [firstn app scan]. rewrite F. reflexivity.
    + intros k Hk. destruct k; [reflexivity|lia].
Qed.

(** The argument bytes of the head are read before the item can end. *)
Lemma scan_arg k : forall b major acc st n, 1 <= k ->
  scan (Arg major k acc :: st) b 0 = Complete n -> k <= n.
Proof.
  intros b. revert k. induction b as [|x b IH]; intros k major acc st n Hk; cbn [scan]; [discriminate|].
  cbn [feed]. destruct (Z.ltb_spec 1 k).
  - rewrite scan_shift.
    destruct (scan (Arg major (k - 1) (256 * acc + x) :: st) b 0) as [m| |] eqn:S; [|discriminate|discriminate].
    intros E. apply complete_inj in E. subst n. apply IH in S; lia.
  - assert (k = 1) by lia. subst k. intros E.
    match type of E with (match ?o with _ => _ end) = _ => destruct o as [st'| |]; [| |discriminate] end.
    + rewrite scan_shift in E. destruct (scan st' b 0) as [m| |] eqn:S; [|discriminate|discriminate].
      apply complete_inj in E. subst n. apply scan_complete in S. lia.
    + apply complete_inj in E. subst n. lia.
Qed.

Lemma map_head_firstn b n : map_head b = true -> scan [Items 1] b 0 = Complete n ->
  forall c, firstn (Z.to_nat n) c = firstn (Z.to_nat n) b -> n <= len c -> map_head c = true.
Proof.
  intros Hm Hs c Hc Hlc. destruct b as [|x b]; [discriminate|].
  pose proof (scan_complete _ _ _ Hs) as (Hn & _).
  assert (Hcx : exists c', c = x :: c').
  { destruct c as [|y c']; [unfold len in Hlc; cbn [length] in Hlc; lia|].
    destruct (Z.to_nat n) as [|k] eqn:Ek; [lia|]. cbn [firstn] in Hc. injection Hc as -> _. exists c'. reflexivity. }
  destruct Hcx as (c' & ->).
  unfold map_head in *.
  apply andb_true_iff in Hm. destruct Hm as [H5 Hm]. rewrite H5. cbn [andb].
  apply orb_true_iff in Hm. destruct Hm as [Hm|Hm]; [rewrite Hm; reflexivity|].
  apply andb_true_iff in Hm. destruct Hm as [H28 Hlen]. rewrite H28. cbn [andb].
  destruct (x mod 32 <? 24) eqn:H24; [reflexivity|].
  destruct (x mod 32 =? 31) eqn:H31; [reflexivity|]. cbn [orb].
  cbn [scan feed count] in Hs. unfold initial in Hs. rewrite H24, H28 in Hs.
  rewrite scan_shift in Hs.
  match type of Hs with (match ?o with _ => _ end) = _ => destruct o as [m| |] eqn:S; [|discriminate|discriminate] end.
  apply complete_inj in Hs. subst n.
  assert (Hp : 1 <= 2 ^ (x mod 32 - 24)).
  { apply Z.ltb_ge in H24. pose proof (Z.pow_pos_nonneg 2 (x mod 32 - 24)). lia. }
  apply scan_arg in S; [|exact Hp]. apply Z.ltb_lt. lia.
Qed.

Lemma cbor_ok : reads_cbor cbor.
Proof.
  constructor; cbn [starts_map validate cbor].
  - intros b n Hm Hv. pose proof (scan_complete _ _ _ Hv) as (Hn & Hx & _). split; [exact Hn|].
    assert (Hl : len (firstn (Z.to_nat n) b) = n) by (unfold len in *; rewrite firstn_length; lia).
    split; cbn [starts_map validate cbor].
    + apply (map_head_firstn b n Hm Hv); [|lia]. rewrite firstn_firstn, Nat.min_id. reflexivity.
    + rewrite Hl. specialize (Hx []). rewrite app_nil_r in Hx. exact Hx.
  - intros m x [Hm Hv]. cbn [starts_map validate cbor] in *.
    pose proof (scan_complete _ _ _ Hv) as (Hn & Hx & _).
    assert (Hnat : Z.to_nat (len m) = length m) by (unfold len; lia).
    rewrite Hnat, firstn_all in Hx. split; [|apply Hx].
    apply (map_head_firstn m (len m) Hm Hv).
    + rewrite Hnat, firstn_app, firstn_all, Nat.sub_diag. cbn [firstn]. apply app_nil_r.
    + rewrite len_app. pose proof (len_nonneg x). lia.
  - intros q x [_ Hv] Hx _. cbn [validate cbor] in *.
    pose proof (scan_complete _ _ _ Hv) as (_ & _ & Hk).
    specialize (Hk (length q)). rewrite firstn_app, firstn_all, Nat.sub_diag in Hk. cbn [firstn] in Hk.
    rewrite app_nil_r in Hk. apply Hk. rewrite len_app. unfold len.
    destruct x; [congruence|]. cbn [length]. lia.
  - intros x b Hx. unfold map_head. unfold short_map_byte in Hx.
    destruct Hx as [Hx| ->]; [|reflexivity].
    assert (H5 : x / 32 = 5) by (symmetry; apply (Z.div_unique x 32 5 (x - 160)); lia).
    assert (Hmod : x mod 32 = x - 160) by (symmetry; apply (Z.mod_unique x 32 5); lia).
    rewrite H5, Hmod. change (5 =? 5) with true. cbn [andb].
    assert (H24 : x - 160 <? 24 = true) by (apply Z.ltb_lt; lia). rewrite H24. reflexivity.
  - intros x b Hx. unfold map_head.
    assert (H5 : x / 32 =? 5 = false).
    { apply Z.eqb_neq. intros C. apply Hx. unfold map_byte.
      pose proof (Z.div_mod x 32 ltac:(lia)). pose proof (Z.mod_pos_bound x 32 ltac:(lia)). lia. }
    rewrite H5. reflexivity.
Qed.
