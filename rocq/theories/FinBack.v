(** A finite result comes from finite operands and is correctly rounded; absolute rounding error. *)
Require Import ZArith Reals Lra Lia Bool.
From Flocq Require Import Core Binary BinarySingleNaN Relative.
Require Import Coq.Floats.SpecFloat.
From Verif Require Import Res Word F32 F32Flocq.
Open Scope Z_scope.
Ltac Zify.zify_post_hook ::= idtac.

Lemma fadd_fin x y : vf x -> vf y -> fin (fadd x y) -> fin x /\ fin y /\ R_ (fadd x y) = rnd (R_ x + R_ y).
Proof.
  intros Vx Vy F.
  assert (D : fin x /\ fin y).
  { destruct x as [a|a| |a m e], y as [b|b| |b n f]; try (split; reflexivity); exfalso; revert F; unfold fin, fadd, SFadd, is_finite_SF; try discriminate.
    destruct (Bool.eqb a b); discriminate. }
  destruct D as [Fx Fy]. split; auto. split; auto.
  destruct (Rlt_or_le (Rabs (rnd (R_ x + R_ y))) fmaxR) as [L|L]; [now apply fadd_correct|]. exfalso.
  destruct (vf_B x Vx) as [a ->]. destruct (vf_B y Vy) as [b ->].
  rewrite fadd_equiv in F. rewrite !R_B2SF in *. rewrite !fin_B2SF in *.
  generalize (Bplus_correct fprec femax Hprec24 Hmax24 mode_NE a b Fx Fy). cbn [round_mode]. rewrite Rlt_bool_false by exact L.
  intros (A & _). destruct (Bplus _ a b); simpl in A; try discriminate.
Qed.

Lemma fsub_fin x y : vf x -> vf y -> fin (fsub x y) -> fin x /\ fin y /\ R_ (fsub x y) = rnd (R_ x - R_ y).
Proof.
  intros Vx Vy F.
  assert (D : fin x /\ fin y).
  { destruct x as [a|a| |a m e], y as [b|b| |b n f]; try (split; reflexivity); exfalso; revert F; unfold fin, fsub, SFsub, is_finite_SF; try discriminate.
    destruct a, b; discriminate. }
  destruct D as [Fx Fy]. split; auto. split; auto.
  destruct (Rlt_or_le (Rabs (rnd (R_ x - R_ y))) fmaxR) as [L|L]; [now apply fsub_correct|]. exfalso.
  destruct (vf_B x Vx) as [a ->]. destruct (vf_B y Vy) as [b ->].
  rewrite fsub_equiv in F. rewrite !R_B2SF in *. rewrite !fin_B2SF in *.
  generalize (Bminus_correct fprec femax Hprec24 Hmax24 mode_NE a b Fx Fy). cbn [round_mode]. rewrite Rlt_bool_false by exact L.
  intros (A & _). destruct (Bminus _ a b); simpl in A; try discriminate.
Qed.

Lemma fmul_fin x y : vf x -> vf y -> fin (fmul x y) -> fin x /\ fin y /\ R_ (fmul x y) = rnd (R_ x * R_ y).
Proof.
  intros Vx Vy F.
  assert (D : fin x /\ fin y).
  { destruct x as [a|a| |a m e], y as [b|b| |b n f]; try (split; reflexivity); exfalso; revert F; unfold fin, fmul, SFmul, is_finite_SF; try discriminate. }
  destruct D as [Fx Fy]. split; auto. split; auto.
  destruct (Rlt_or_le (Rabs (rnd (R_ x * R_ y))) fmaxR) as [L|L]; [now apply fmul_correct|]. exfalso.
  destruct (vf_B x Vx) as [a ->]. destruct (vf_B y Vy) as [b ->].
  rewrite fmul_equiv in F. rewrite !R_B2SF in *. rewrite !fin_B2SF in *.
  generalize (Bmult_correct fprec femax Hprec24 Hmax24 mode_NE a b). cbn [round_mode]. rewrite Rlt_bool_false by exact L.
  intros A. destruct (Bmult _ a b); simpl in A; try discriminate.
Qed.

(** The divisor may be infinite: the quotient is then zero. *)
Lemma fdiv_fin x y : vf x -> vf y -> fin (fdiv x y) -> fin x /\
  ((fin y /\ R_ y <> 0%R /\ R_ (fdiv x y) = rnd (R_ x / R_ y)) \/ (~ fin y /\ R_ (fdiv x y) = 0%R)).
Proof.
  intros Vx Vy F.
  assert (D : fin x /\ ((fin y /\ R_ y <> 0%R) \/ (~ fin y /\ R_ (fdiv x y) = 0%R))).
  { destruct x as [a|a| |a m e], y as [b|b| |b n f]; try (exfalso; revert F; unfold fin, fdiv, SFdiv, is_finite_SF; discriminate).
    - split; [reflexivity|]. right. split; [discriminate|]. reflexivity.
    - split; [reflexivity|]. left. split; [reflexivity|]. unfold R_, SF2R. apply F2R_neq_0. destruct b; discriminate.
    - split; [reflexivity|]. right. split; [discriminate|]. reflexivity.
    - split; [reflexivity|]. left. split; [reflexivity|]. unfold R_, SF2R. apply F2R_neq_0. destruct b; discriminate. }
  destruct D as [Fx [[Fy Ny]|D]]; split; auto. left. split; auto. split; auto.
  destruct (Rlt_or_le (Rabs (rnd (R_ x / R_ y))) fmaxR) as [L|L]; [now apply fdiv_correct|]. exfalso.
  destruct (vf_B x Vx) as [a ->]. destruct (vf_B y Vy) as [b ->].
  rewrite fdiv_equiv in F. rewrite !R_B2SF in *. rewrite !fin_B2SF in *.
  generalize (Bdiv_correct fprec femax Hprec24 Hmax24 mode_NE a b Ny). cbn [round_mode]. rewrite Rlt_bool_false by exact L.
  intros A. destruct (Bdiv _ a b); simpl in A; try discriminate.
Qed.

Lemma rnd_err x : (Rabs (rnd x - x) <= bpow radix2 (-24) * Rabs x + bpow radix2 (-150))%R.
Proof.
  destruct (error_N_FLT radix2 (-149) 24 ltac:(lia) (fun z => negb (Z.even z)) x) as (eps & eta & He & Ht & _ & E).
  assert (E2 : rnd x = (x * (1 + eps) + eta)%R) by exact E. rewrite E2. replace (x * (1 + eps) + eta - x)%R with (x * eps + eta)%R by ring.
  eapply Rle_trans; [apply Rabs_triang|]. rewrite Rabs_mult.
  assert (B1 : (/ 2 * bpow radix2 (- (24) + 1) = bpow radix2 (-24))%R) by (cbn [bpow Z.add Z.opp Z.pos_sub]; simpl; lra).
  assert (B2 : (/ 2 * bpow radix2 (-149) = bpow radix2 (-150))%R) by (replace (-150) with (-1 + -149) by lia; rewrite (bpow_plus radix2 (-1)); reflexivity).
  rewrite B1 in He. rewrite B2 in Ht. pose proof (Rabs_pos x). nra.
Qed.
