(** Bridge from the executable binary32 model to Flocq's proved arithmetic. *)
Require Import ZArith Reals Lia Lra Bool.
Require Import Coq.Floats.SpecFloat.
From Flocq Require Import Core IEEE754.BinarySingleNaN.
From Verif Require Import Res Word F32.
Open Scope Z_scope.

Global Instance Hprec24 : Prec_gt_0 fprec.
Proof. reflexivity. Qed.
Global Instance Hmax24 : Prec_lt_emax fprec femax.
Proof. reflexivity. Qed.

Notation fexp32 := (SpecFloat.fexp fprec femax).
Notation rnd := (round radix2 (SpecFloat.fexp fprec femax) ZnearestE).
Notation bfloat := (binary_float fprec femax).

(** Well-formed binary32 values: every value a C float object can hold. *)
Definition vf (x : f32) : Prop := valid_binary fprec femax x = true.
(** Finite (neither NaN nor infinite). *)
Definition fin (x : f32) : Prop := is_finite_SF x = true.
(** Real value of a finite float. *)
Definition R_ (x : f32) : R := SF2R radix2 x.

Lemma fexp32_FLT : SpecFloat.fexp fprec femax = FLT_exp (-149) 24.
Proof. reflexivity. Qed.

Global Instance valid_fexp32 : Valid_exp (SpecFloat.fexp fprec femax).
Proof. apply fexp_correct. reflexivity. Qed.

Global Instance mono_fexp32 : Monotone_exp (SpecFloat.fexp fprec femax).
Proof. change (SpecFloat.fexp fprec femax) with (FLT_exp (-149) 24). apply FLT_exp_monotone. Qed.

Lemma round_nearest_even_equiv s m l :
  round_nearest_even m l = choice_mode mode_NE s m l.
Proof.
  case l; [reflexivity|intro c]. case c; [ | reflexivity..].
  now simpl; unfold Round.cond_incr; case Z.even.
Qed.

Lemma binary_round_aux_equiv sx mx ex lx :
  SpecFloat.binary_round_aux fprec femax sx mx ex lx
  = binary_round_aux fprec femax mode_NE sx mx ex lx.
Proof.
  unfold SpecFloat.binary_round_aux, binary_round_aux.
  set (mrse' := shr_fexp _ _ _ _ _). case mrse'; intros mrs' e'; simpl.
  now rewrite (round_nearest_even_equiv sx).
Qed.

Lemma binary_round_equiv s m e :
  SpecFloat.binary_round fprec femax s m e = binary_round fprec femax mode_NE s m e.
Proof.
  unfold SpecFloat.binary_round, binary_round, shl_align_fexp.
  set (mez := shl_align _ _ _); case mez as [mz ez].
  apply binary_round_aux_equiv.
Qed.

Lemma binary_normalize_equiv m e szero :
  SpecFloat.binary_normalize fprec femax m e szero
  = B2SF (binary_normalize fprec femax Hprec24 Hmax24 mode_NE m e szero).
Proof.
  case m as [ | p | p].
  - now simpl.
  - simpl; rewrite B2SF_SF2B; apply binary_round_equiv.
  - simpl; rewrite B2SF_SF2B; apply binary_round_equiv.
Qed.

Lemma fadd_equiv (x y : bfloat) : fadd (B2SF x) (B2SF y) = B2SF (Bplus mode_NE x y).
Proof.
  unfold fadd.
  case x as [sx|sx| |sx mx ex Bx]; case y as [sy|sy| |sy my ey By];
    [now (trivial || simpl; case Bool.eqb).. | ].
  apply binary_normalize_equiv.
Qed.

Lemma fsub_equiv (x y : bfloat) : fsub (B2SF x) (B2SF y) = B2SF (Bminus mode_NE x y).
Proof.
  unfold fsub.
  case x as [sx|sx| |sx mx ex Bx]; case y as [sy|sy| |sy my ey By];
    [now (trivial || simpl; case Bool.eqb).. | ].
  simpl. unfold Zminus. rewrite <- cond_Zopp_negb. apply binary_normalize_equiv.
Qed.

Lemma fmul_equiv (x y : bfloat) : fmul (B2SF x) (B2SF y) = B2SF (Bmult mode_NE x y).
Proof.
  unfold fmul.
  case x as [sx|sx| |sx mx ex Bx]; case y as [sy|sy| |sy my ey By]; [now trivial.. | ].
  simpl. rewrite B2SF_SF2B. apply binary_round_aux_equiv.
Qed.

Lemma fdiv_equiv (x y : bfloat) : fdiv (B2SF x) (B2SF y) = B2SF (Bdiv mode_NE x y).
Proof.
  unfold fdiv.
  case x as [sx|sx| |sx mx ex Bx]; case y as [sy|sy| |sy my ey By];
    [now (trivial || simpl; case Bool.eqb).. | ].
  simpl. rewrite B2SF_SF2B.
  set (melz := SFdiv_core_binary _ _ _ _ _ _). case melz as [[mz ez] lz].
  apply binary_round_aux_equiv.
Qed.

(** Every well-formed float is the image of a Flocq float. *)
Lemma vf_B x : vf x -> exists b : bfloat, x = B2SF b.
Proof. intros Hv. exists (SF2B x Hv). now rewrite B2SF_SF2B. Qed.

Lemma vf_B2SF (b : bfloat) : vf (B2SF b).
Proof. apply valid_binary_B2SF. Qed.

Lemma R_B2SF (b : bfloat) : R_ (B2SF b) = B2R b.
Proof. apply SF2R_B2SF. Qed.

Lemma fin_B2SF (b : bfloat) : fin (B2SF b) <-> is_finite b = true.
Proof. unfold fin. rewrite is_finite_SF_B2SF. tauto. Qed.

Ltac tob :=
  repeat match goal with
  | H : vf ?x |- _ =>
      let b := fresh "b" in
      first [ is_var x; destruct (vf_B x H) as [b ->]; clear H
            | clear H ]
  end.

(** All operations produce well-formed floats. *)
Lemma vf_fadd x y : vf x -> vf y -> vf (fadd x y).
Proof. intros; tob; rewrite fadd_equiv; apply vf_B2SF. Qed.
Lemma vf_fsub x y : vf x -> vf y -> vf (fsub x y).
Proof. intros; tob; rewrite fsub_equiv; apply vf_B2SF. Qed.
Lemma vf_fmul x y : vf x -> vf y -> vf (fmul x y).
Proof. intros; tob; rewrite fmul_equiv; apply vf_B2SF. Qed.
Lemma vf_fdiv x y : vf x -> vf y -> vf (fdiv x y).
Proof. intros; tob; rewrite fdiv_equiv; apply vf_B2SF. Qed.
Lemma vf_of_Z z : vf (f_of_Z z).
Proof. unfold f_of_Z. rewrite binary_normalize_equiv. apply vf_B2SF. Qed.
Lemma vf_zero s : vf (S754_zero s).
Proof. reflexivity. Qed.
Lemma vf_nan : vf f_nan.
Proof. reflexivity. Qed.
Lemma vf_f_zero : vf f_zero.
Proof. reflexivity. Qed.
Lemma fin_f_zero : fin f_zero.
Proof. reflexivity. Qed.
Lemma R_f_zero : R_ f_zero = 0%R.
Proof. reflexivity. Qed.
Global Hint Resolve vf_f_zero fin_f_zero : vf.
Global Hint Resolve vf_fadd vf_fsub vf_fmul vf_fdiv vf_of_Z vf_zero vf_nan : vf.

Definition fmaxR : R := bpow radix2 femax.

(** Correctness of the operations on finite operands when the result is in range. *)
Lemma fadd_correct x y :
  vf x -> vf y -> fin x -> fin y -> (Rabs (rnd (R_ x + R_ y)) < fmaxR)%R ->
  R_ (fadd x y) = rnd (R_ x + R_ y) /\ fin (fadd x y).
Proof.
  intros Vx Vy Fx Fy Hr. destruct (vf_B x Vx) as [a ->]. destruct (vf_B y Vy) as [b ->].
  rewrite fadd_equiv. rewrite !R_B2SF in *. rewrite !fin_B2SF in *.
  generalize (Bplus_correct fprec femax Hprec24 Hmax24 mode_NE a b Fx Fy).
  cbn [round_mode]. rewrite Rlt_bool_true by exact Hr.
  intros (A & B & _). split; assumption.
Qed.

Lemma fsub_correct x y :
  vf x -> vf y -> fin x -> fin y -> (Rabs (rnd (R_ x - R_ y)) < fmaxR)%R ->
  R_ (fsub x y) = rnd (R_ x - R_ y) /\ fin (fsub x y).
Proof.
  intros Vx Vy Fx Fy Hr. destruct (vf_B x Vx) as [a ->]. destruct (vf_B y Vy) as [b ->].
  rewrite fsub_equiv. rewrite !R_B2SF in *. rewrite !fin_B2SF in *.
  generalize (Bminus_correct fprec femax Hprec24 Hmax24 mode_NE a b Fx Fy).
  cbn [round_mode]. rewrite Rlt_bool_true by exact Hr.
  intros (A & B & _). split; assumption.
Qed.

Lemma fmul_correct x y :
  vf x -> vf y -> fin x -> fin y -> (Rabs (rnd (R_ x * R_ y)) < fmaxR)%R ->
  R_ (fmul x y) = rnd (R_ x * R_ y) /\ fin (fmul x y).
Proof.
  intros Vx Vy Fx Fy Hr. destruct (vf_B x Vx) as [a ->]. destruct (vf_B y Vy) as [b ->].
  rewrite fmul_equiv. rewrite !R_B2SF in *. rewrite !fin_B2SF in *.
  generalize (Bmult_correct fprec femax Hprec24 Hmax24 mode_NE a b).
  cbn [round_mode]. rewrite Rlt_bool_true by exact Hr.
  intros (A & B & _). rewrite Fx, Fy in B. split; assumption.
Qed.

Lemma fdiv_correct x y :
  vf x -> vf y -> fin x -> fin y -> R_ y <> 0%R -> (Rabs (rnd (R_ x / R_ y)) < fmaxR)%R ->
  R_ (fdiv x y) = rnd (R_ x / R_ y) /\ fin (fdiv x y).
Proof.
  intros Vx Vy Fx Fy Hy Hr. destruct (vf_B x Vx) as [a ->]. destruct (vf_B y Vy) as [b ->].
  rewrite fdiv_equiv. rewrite !R_B2SF in *. rewrite !fin_B2SF in *.
  generalize (Bdiv_correct fprec femax Hprec24 Hmax24 mode_NE a b Hy).
  cbn [round_mode]. rewrite Rlt_bool_true by exact Hr.
  intros (A & B & _). rewrite Fx in B. split; assumption.
Qed.

(** Comparisons of finite floats are comparisons of reals. *)
Lemma fle_correct x y : vf x -> vf y -> fin x -> fin y ->
  fle x y = Rle_bool (R_ x) (R_ y).
Proof.
  intros Vx Vy Fx Fy. destruct (vf_B x Vx) as [a ->]. destruct (vf_B y Vy) as [b ->].
  rewrite !R_B2SF. rewrite !fin_B2SF in *. apply (Bleb_correct _ _ a b Fx Fy).
Qed.
Lemma flt_correct x y : vf x -> vf y -> fin x -> fin y ->
  flt x y = Rlt_bool (R_ x) (R_ y).
Proof.
  intros Vx Vy Fx Fy. destruct (vf_B x Vx) as [a ->]. destruct (vf_B y Vy) as [b ->].
  rewrite !R_B2SF. rewrite !fin_B2SF in *. apply (Bltb_correct _ _ a b Fx Fy).
Qed.
Lemma feq_correct x y : vf x -> vf y -> fin x -> fin y ->
  feq x y = Req_bool (R_ x) (R_ y).
Proof.
  intros Vx Vy Fx Fy. destruct (vf_B x Vx) as [a ->]. destruct (vf_B y Vy) as [b ->].
  rewrite !R_B2SF. rewrite !fin_B2SF in *. apply (Beqb_correct _ _ a b Fx Fy).
Qed.

Lemma fle_iff x y : vf x -> vf y -> fin x -> fin y -> fle x y = true <-> (R_ x <= R_ y)%R.
Proof.
  intros. rewrite fle_correct by assumption. destruct (Rle_bool_spec (R_ x) (R_ y)); split; intros; lra || easy.
Qed.
Lemma flt_iff x y : vf x -> vf y -> fin x -> fin y -> flt x y = true <-> (R_ x < R_ y)%R.
Proof.
  intros. rewrite flt_correct by assumption. destruct (Rlt_bool_spec (R_ x) (R_ y)); split; intros; lra || easy.
Qed.
Lemma feq_iff x y : vf x -> vf y -> fin x -> fin y -> feq x y = true <-> (R_ x = R_ y)%R.
Proof.
  intros. rewrite feq_correct by assumption. destruct (Req_bool_spec (R_ x) (R_ y)); split; intros; lra || easy.
Qed.
Lemma flt_false_iff x y : vf x -> vf y -> fin x -> fin y -> flt x y = false <-> (R_ y <= R_ x)%R.
Proof.
  intros. rewrite flt_correct by assumption. destruct (Rlt_bool_spec (R_ x) (R_ y)); split; intros; lra || easy.
Qed.
Lemma fle_false_iff x y : vf x -> vf y -> fin x -> fin y -> fle x y = false <-> (R_ y < R_ x)%R.
Proof.
  intros. rewrite fle_correct by assumption. destruct (Rle_bool_spec (R_ x) (R_ y)); split; intros; lra || easy.
Qed.

(** Finite floats with the same real value are equal up to the sign of zero. *)
Lemma R_inj_nonzero x y : vf x -> vf y -> fin x -> fin y ->
  R_ x = R_ y -> R_ x <> 0%R -> x = y.
Proof.
  intros Vx Vy Fx Fy E N. destruct (vf_B x Vx) as [a ->]. destruct (vf_B y Vy) as [b ->].
  rewrite !R_B2SF in *. f_equal. apply B2R_inj; [| |exact E].
  - destruct a; try easy; simpl in *; exfalso; now apply N.
  - rewrite E in N. destruct b; try easy; simpl in *; exfalso; now apply N.
Qed.

Lemma generic_R x : vf x -> fin x -> generic_format radix2 fexp32 (R_ x).
Proof.
  intros V F. destruct (vf_B x V) as [a ->]. rewrite R_B2SF. apply generic_format_B2R.
Qed.

Lemma rnd_R x : vf x -> fin x -> rnd (R_ x) = R_ x.
Proof. intros. apply round_generic; [apply valid_rnd_N|apply generic_R; assumption]. Qed.

Lemma rnd_le x y : (x <= y)%R -> (rnd x <= rnd y)%R.
Proof. apply round_le; typeclasses eauto. Qed.

Lemma rnd_0 : rnd 0 = 0%R.
Proof. apply round_0. typeclasses eauto. Qed.

Lemma R_lt_max x : vf x -> fin x -> (Rabs (R_ x) < fmaxR)%R.
Proof.
  intros V F. destruct (vf_B x V) as [a ->]. rewrite R_B2SF. apply abs_B2R_lt_emax.
Qed.

(** Integers of magnitude at most 2^24 are exact. *)
Lemma generic_Z z : Z.abs z <= 2 ^ 24 -> generic_format radix2 fexp32 (IZR z).
Proof.
  intros Hz. change fexp32 with (FLT_exp (-149) 24).
  destruct (Z.eq_dec (Z.abs z) (2 ^ 24)) as [E|N].
  - assert (IZR z = F2R (Float radix2 (Z.sgn z) 24)) as ->.
    { unfold F2R; simpl Fnum; simpl Fexp. rewrite <- (Z.abs_sgn z) at 1. rewrite E.
      rewrite mult_IZR, Rmult_comm. reflexivity. }
    apply generic_format_FLT.
    eapply (FLT_spec _ _ _ _ (Float radix2 (Z.sgn z) 24)); [reflexivity| |].
    + simpl Fnum. destruct z; simpl; lia.
    + simpl Fexp. lia.
  - apply generic_format_FLT.
    eapply (FLT_spec _ _ _ _ (Float radix2 z 0)).
    + unfold F2R; simpl. lra.
    + simpl Fnum. change (Zpower radix2 24) with (2 ^ 24). lia.
    + simpl. lia.
Qed.

Lemma f_of_Z_correct z :
  (Rabs (rnd (IZR z)) < fmaxR)%R -> R_ (f_of_Z z) = rnd (IZR z) /\ fin (f_of_Z z).
Proof.
  intros Hr. unfold f_of_Z. rewrite binary_normalize_equiv, R_B2SF, fin_B2SF.
  generalize (binary_normalize_correct fprec femax Hprec24 Hmax24 mode_NE z 0 false).
  cbn [round_mode]. cbv zeta.
  replace (F2R (Float radix2 z 0)) with (IZR z) by (unfold F2R; simpl; lra).
  rewrite Rlt_bool_true by exact Hr. tauto.
Qed.

Lemma fmaxR_val : fmaxR = IZR (2 ^ 128).
Proof. unfold fmaxR. change (bpow radix2 femax) with (IZR (Zpower radix2 128)). reflexivity. Qed.

(** Rounding keeps the magnitude below a power of two. *)
Lemma rnd_abs_le_bpow x e : -149 <= e -> (Rabs x <= bpow radix2 e)%R -> (Rabs (rnd x) <= bpow radix2 e)%R.
Proof.
  intros He Hx. apply abs_round_le_generic; try typeclasses eauto; [|exact Hx].
  apply generic_format_bpow. change fexp32 with (FLT_exp (-149) 24). unfold FLT_exp. lia.
Qed.

Lemma rnd_abs_lt_max x e : -149 <= e < 128 -> (Rabs x <= bpow radix2 e)%R -> (Rabs (rnd x) < fmaxR)%R.
Proof.
  intros He Hx. eapply Rle_lt_trans; [apply (rnd_abs_le_bpow x e); [lia|exact Hx]|].
  unfold fmaxR. apply bpow_lt. unfold femax. lia.
Qed.

Lemma f_of_Z_u32 z : Z.abs z <= 2 ^ 64 -> R_ (f_of_Z z) = rnd (IZR z) /\ fin (f_of_Z z).
Proof.
  intros Hz. apply f_of_Z_correct. apply (rnd_abs_lt_max _ 64); [lia|].
  rewrite <- abs_IZR. change (bpow radix2 64) with (IZR (2 ^ 64)). now apply IZR_le.
Qed.

Lemma f_of_Z_exact z : Z.abs z <= 2 ^ 24 -> R_ (f_of_Z z) = IZR z /\ fin (f_of_Z z).
Proof.
  intros Hz. destruct (f_of_Z_u32 z) as [A B]; [change (2^64) with (2^24*2^40); lia|].
  split; [|exact B]. rewrite A. apply round_generic; [typeclasses eauto|now apply generic_Z].
Qed.

(** Truncation of a finite float is the truncation of its real value. *)
Lemma f_trunc_correct x : fin x -> f_trunc x = Some (Ztrunc (R_ x)).
Proof.
  intros F. destruct x as [s|s| |s m e]; try discriminate F.
  - unfold f_trunc, R_. simpl. now rewrite Ztrunc_IZR.
  - unfold f_trunc, R_, SF2R. f_equal.
    assert (P : forall a:R, Ztrunc (- a) = - Ztrunc a) by apply Ztrunc_opp.
    replace (F2R (Float radix2 (cond_Zopp s (Z.pos m)) e))
      with (if s then (- F2R (Float radix2 (Z.pos m) e))%R else F2R (Float radix2 (Z.pos m) e))
      by (destruct s; [rewrite <- F2R_Zopp|]; reflexivity).
    assert (E : (if 0 <=? e then Z.pos m * 2 ^ e else Z.pos m / 2 ^ (- e)) = Ztrunc (F2R (Float radix2 (Z.pos m) e))).
    { unfold F2R; simpl Fnum; simpl Fexp. destruct (Z.leb_spec 0 e).
      - rewrite <- (IZR_Zpower radix2) by lia. rewrite <- mult_IZR, Ztrunc_IZR. reflexivity.
      - rewrite Ztrunc_floor.
        2:{ apply Rmult_le_pos; [apply IZR_le; lia | apply bpow_ge_0]. }
        replace e with (- (- e)) at 2 by lia. rewrite bpow_opp.
        rewrite <- (IZR_Zpower radix2) by lia.
        change (IZR (Z.pos m) * / IZR (Zpower radix2 (- e)))%R with (IZR (Z.pos m) / IZR (Zpower radix2 (- e)))%R.
        rewrite Zfloor_div; [reflexivity|].
        change (Zpower radix2 (- e)) with (2 ^ (- e)). apply Z.pow_nonzero; lia. }
    rewrite E. destruct s; [rewrite P|]; reflexivity.
Qed.

Lemma f_to_range_fin lo hi x : fin x ->
  f_to_range lo hi x = if (lo <=? Ztrunc (R_ x)) && (Ztrunc (R_ x) <=? hi) then Ok (Ztrunc (R_ x)) else Err FloatToInt.
Proof. intros F. unfold f_to_range. now rewrite f_trunc_correct. Qed.
