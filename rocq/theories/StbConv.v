(** * StbConv: conversions between [float] and [double] that change nothing *)

From Coq Require Import ZArith QArith Qabs Reals Qreals Lia Lra SpecFloat.
From Flocq Require Import Core.Core BinarySingleNaN.
From Verif Require Import Base SpecFp64 Fp64 Fp64Near StbArith.
Open Scope Z_scope.

Section Gen.
  Variables prec emax : Z.
  Hypothesis Hp : Prec_gt_0 prec.
  Hypothesis Hm : Prec_lt_emax prec emax.

  Lemma aux_equiv_gen sx mx ex lx : SpecFloat.binary_round_aux prec emax sx mx ex lx = binary_round_aux prec emax mode_NE sx mx ex lx.
  Proof.
    unfold SpecFloat.binary_round_aux, binary_round_aux. set (mrse' := shr_fexp _ _ _ _ _). case mrse'; intros mrs' e'; simpl.
    now rewrite (rne_equiv sx).
  Qed.
  Lemma round_equiv_gen s m e : SpecFloat.binary_round prec emax s m e = binary_round prec emax mode_NE s m e.
  Proof. unfold SpecFloat.binary_round, binary_round, shl_align_fexp. set (mez := shl_align _ _ _); case mez as [mz ez]. apply aux_equiv_gen. Qed.
  Lemma mul_equiv_gen (x y : binary_float prec emax) : SFmul prec emax (B2SF x) (B2SF y) = B2SF (@Bmult prec emax Hp Hm mode_NE x y).
  Proof. case x as [sx|sx| |sx mx ex Bx]; case y as [sy|sy| |sy my ey By]; [now trivial..|]. simpl. rewrite B2SF_SF2B. apply aux_equiv_gen. Qed.

  (** Two numbers of the format with the same non-zero value are the same. *)
  Lemma same_value (x y : spec_float) (q : Q) : valid_binary prec emax x = true -> valid_binary prec emax y = true -> denotes x q -> denotes y q -> ~ (q == 0)%Q -> x = y.
  Proof.
    intros Vx Vy (v & Ev & Eq) (w & Ew & Eq') Hq.
    assert (F : forall z u (V : valid_binary prec emax z = true), sf_value z = Some u -> (u == q)%Q -> is_finite_strict (SF2B z V) = true /\ B2R (SF2B z V) = Q2R q).
    { intros z u V E Eu. split.
      - destruct z as [s|s| |s m e]; cbn [sf_value] in E; try discriminate; [injection E as <-; exfalso; apply Hq; rewrite <- Eu; reflexivity|reflexivity].
      - rewrite B2R_SF2B. destruct (sf_value_R _ _ E) as [<- _]. apply Qeq_eqR. exact Eu. }
    destruct (F x v Vx Ev Eq) as [F1 F2]. destruct (F y w Vy Ew Eq') as [F3 F4].
    assert (E : SF2B x Vx = SF2B y Vy) by (apply B2R_inj; congruence).
    rewrite <- (B2SF_SF2B prec emax x Vx), <- (B2SF_SF2B prec emax y Vy), E. reflexivity.
  Qed.

  (** Rounding a value of the format. *)
  Lemma round_exact (s : bool) (m : positive) (e : Z) (y : spec_float) (q : Q) : valid_binary prec emax y = true -> denotes y q -> (q == (if s then - inject_Z (Zpos m) else inject_Z (Zpos m)) * pow2 e)%Q ->
    SpecFloat.binary_round prec emax s m e = y.
  Proof.
    intros Vy Dy Eq. assert (Hm0 : (0 < inject_Z (Zpos m) * pow2 e)%Q) by (apply Qmult_lt_0_compat; [reflexivity|apply pow2_pos]).
    assert (Hq : ~ (q == 0)%Q).
    { rewrite Eq. intros C. destruct s.
      - apply (Qlt_not_eq _ _ Hm0). setoid_replace (inject_Z (Zpos m) * pow2 e)%Q with (- (- inject_Z (Zpos m) * pow2 e))%Q by ring. rewrite C. reflexivity.
      - apply (Qlt_not_eq _ _ Hm0). rewrite C. reflexivity. }
    rewrite round_equiv_gen. pose proof (binary_round_correct prec emax Hp Hm mode_NE s m e) as H. cbv zeta in H. destruct H as [V H].
    assert (Ex : F2R (Float radix2 (cond_Zopp s (Zpos m)) e) = Q2R q).
    { rewrite F2R_Q. apply Qeq_eqR. rewrite Eq. destruct s; cbn [cond_Zopp]; [change (inject_Z (Z.neg m)) with (- inject_Z (Zpos m))%Q; reflexivity|reflexivity]. }
    rewrite Ex in H. destruct Dy as (w & Ew & Ewq).
    assert (By : B2R (SF2B y Vy) = Q2R q). { rewrite B2R_SF2B. destruct (sf_value_R _ _ Ew) as [<- _]. apply Qeq_eqR. exact Ewq. }
    assert (Er : round radix2 (SpecFloat.fexp prec emax) (round_mode mode_NE) (Q2R q) = Q2R q).
    { apply round_generic; [apply valid_rnd_round_mode|]. rewrite <- By. apply generic_format_B2R. }
    rewrite Er in H. rewrite Rlt_bool_true in H by (rewrite <- By; apply abs_B2R_lt_emax). destruct H as (H1 & H2 & _).
    apply (same_value _ _ q); [exact V|exact Vy| |exists w; auto|exact Hq].
    destruct (sf_value_finite _ H2) as [u Eu]. exists u. split; [exact Eu|]. apply eqR_Qeq. destruct (sf_value_R _ _ Eu) as [-> _]. exact H1.
  Qed.
End Gen.

Lemma p24 : Prec_gt_0 24. Proof. reflexivity. Qed.
Lemma m24 : Prec_lt_emax 24 128. Proof. reflexivity. Qed.

Lemma float_bounds s m e : is_float (S754_finite s m e) -> Zpos m < 2 ^ 24 /\ -149 <= e <= 104.
Proof.
  unfold is_float. cbn [valid_binary]. unfold SpecFloat.bounded. intros H. apply andb_prop in H as [H1 H2]. apply Zle_bool_imp_le in H2.
  unfold SpecFloat.canonical_mantissa in H1. apply Zeq_bool_eq in H1. unfold SpecFloat.fexp, SpecFloat.emin in H1.
  assert (D : Zpos (digits2_pos m) = Z.log2 (Zpos m) + 1).
  { clear. induction m as [p IH|p IH|]; [| |reflexivity]; cbn [digits2_pos]; rewrite Pos2Z.inj_succ, IH; unfold Z.succ.
    - rewrite (Pos2Z.inj_xI p), Z.log2_succ_double by lia. lia.
    - rewrite (Pos2Z.inj_xO p), Z.log2_double by lia. lia. }
  pose proof (Z.log2_spec (Zpos m) eq_refl) as [L1 L2]. assert (Z.log2 (Zpos m) <= 23) by lia.
  split; [|lia]. apply Z.lt_le_trans with (2 ^ Z.succ (Z.log2 (Zpos m))); [exact L2|]. apply Z.pow_le_mono_r; lia.
Qed.

(** A [float] converted to [double] keeps its value and sign. *)
Lemma to64_exact x q : is_float x -> denotes x q -> is_double (to64 x) /\ denotes (to64 x) q.
Proof.
  intros Hx Dx. destruct x as [s|s| |s m e]; cbn [to64]; try (split; [reflexivity|exact Dx]).
  destruct (float_bounds _ _ _ Hx) as (B1 & B2). destruct Dx as (v & Ev & Eq). cbn [sf_value] in Ev. injection Ev as <-.
  assert (R : rounded (SpecFloat.binary_round 53 1024 s m e) q).
  { pose proof (binary_round_correct 53 1024 Hprec Hmax mode_NE s m e) as H. cbv zeta in H. destruct H as [V H].
    assert (Ex : F2R (Float radix2 (cond_Zopp s (Zpos m)) e) = Q2R q).
    { rewrite F2R_Q. apply Qeq_eqR. rewrite <- Eq. destruct s; cbn [cond_Zopp]; [change (inject_Z (Z.neg m)) with (- inject_Z (Zpos m))%Q; reflexivity|reflexivity]. }
    rewrite Ex, no_ovf in H.
    - destruct H as (H1 & H2 & _). rewrite (round_equiv_gen 53 1024). split; [exact V|]. destruct (sf_value_finite _ H2) as [u Eu]. exists u. split; [exact Eu|].
      destruct (sf_value_R _ _ Eu) as [-> _]. exact H1.
    - rewrite <- Eq. apply (Qle_trans _ (Qabs (inject_Z (if s then - Zpos m else Zpos m) * pow2 e))); [destruct s; [change (inject_Z (- Zpos m)) with (- inject_Z (Zpos m))%Q|]; apply Qle_refl|].
      apply fits53_maxd. exists (if s then - Zpos m else Zpos m), 0. split; [lia|]. assert (2 ^ 24 < 2 ^ 53) by reflexivity. destruct s; lia. }
  apply (rounded_repr _ q (if s then - Zpos m else Zpos m) e R); [rewrite <- Eq; destruct s; reflexivity|assert (2 ^ 24 < 2 ^ 53) by reflexivity; destruct s; lia|lia].
Qed.

(** A [double] with the value of a [float], not zero, converted to [float]. *)
Lemma to32_exact z x q : is_float x -> denotes x q -> denotes z q -> ~ (q == 0)%Q -> to32 z = x.
Proof.
  intros Hx Dx (v & Ev & Eq) Hq. destruct z as [s|s| |s m e]; cbn [sf_value] in Ev; try discriminate; injection Ev as <-.
  - exfalso. apply Hq. rewrite <- Eq. reflexivity.
  - cbn [to32]. apply (round_exact 24 128 p24 m24) with q; [exact Hx|exact Dx|symmetry; exact Eq].
Qed.

(** The opposite of a [float]. *)
Lemma fneg m e : is_float (S754_finite false m e) -> fmul (S754_finite false m e) (flt (-1)) = S754_finite true m e.
Proof.
  intros H. pose (x := SF2B (prec := 24) (emax := 128) (S754_finite false m e) H).
  assert (V : is_float (flt (-1))) by reflexivity. pose (y := SF2B (prec := 24) (emax := 128) (flt (-1)) V).
  assert (Ex : B2SF x = S754_finite false m e) by apply B2SF_SF2B.
  assert (Ey : B2SF y = flt (-1)) by apply B2SF_SF2B.
  unfold fmul. rewrite <- Ex at 1. rewrite <- Ey. rewrite (mul_equiv_gen 24 128 p24 m24).
  pose proof (Bmult_correct 24 128 p24 m24 mode_NE x y) as C.
  assert (Rx : B2R x = Q2R (inject_Z (Zpos m) * pow2 e)).
  { unfold x. rewrite B2R_SF2B. destruct (sf_value_R (S754_finite false m e) _ eq_refl) as [<- _]. reflexivity. }
  assert (Ry : B2R y = Q2R (-1)).
  { unfold y. rewrite B2R_SF2B. change (flt (-1)) with (S754_finite true 8388608 (-23)). destruct (sf_value_R (S754_finite true 8388608 (-23)) _ eq_refl) as [<- _].
    apply Qeq_eqR. reflexivity. }
  assert (Rz : forall V', B2R (SF2B (prec := 24) (emax := 128) (S754_finite true m e) V') = (B2R x * B2R y)%R).
  { intros V'. rewrite B2R_SF2B. destruct (sf_value_R (S754_finite true m e) _ eq_refl) as [<- _]. rewrite Rx, Ry, <- Q2R_mult. apply Qeq_eqR.
    change (-1)%Q with (- (1))%Q. ring. }
  pose (z := SF2B (prec := 24) (emax := 128) (S754_finite true m e) H). specialize (Rz H). fold z in Rz.
  rewrite <- Rz in C. rewrite (round_generic _ _ _ _ (generic_format_B2R 24 128 z)) in C.
  rewrite Rlt_bool_true in C by apply abs_B2R_lt_emax. destruct C as (C1 & C2 & _).
  set (w := Bmult _ x y) in *.
  assert (M : (0 < inject_Z (Zpos m) * pow2 e)%Q) by (apply Qmult_lt_0_compat; [reflexivity|apply pow2_pos]).
  assert (Fw : is_finite_SF (B2SF w) = true) by (rewrite is_finite_SF_B2SF; exact C2).
  destruct (sf_value_finite _ Fw) as [u Eu]. destruct (sf_value_R _ _ Eu) as [Ru _].
  apply (same_value 24 128) with (- inject_Z (Zpos m) * pow2 e)%Q; [apply valid_binary_B2SF|exact H| |eexists; split; reflexivity|intros C; apply (Qlt_not_eq _ _ M); setoid_replace (inject_Z (Zpos m) * pow2 e)%Q with (- (- inject_Z (Zpos m) * pow2 e))%Q by ring; rewrite C; reflexivity].
  exists u. split; [exact Eu|]. apply eqR_Qeq. rewrite Ru. rewrite SF2R_B2SF, C1. unfold z. rewrite B2R_SF2B.
  destruct (sf_value_R (S754_finite true m e) _ eq_refl) as [<- _]. reflexivity.
Qed.
