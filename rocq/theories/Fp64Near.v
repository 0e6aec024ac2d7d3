(** * Fp64Near: the operations round to nearest

    Flocq's correctness theorems, for the operations of [SpecFloat] on binary64,
    stated with rational numbers.  Uses the real numbers and their axioms. *)

From Coq Require Import ZArith QArith Qabs Qpower Reals Qreals Lra Lia SpecFloat.
From Flocq Require Import Core.Core Relative BinarySingleNaN.
From Verif Require Import SpecFp64 Fp64.
Open Scope Z_scope.

Local Instance Hprec : Prec_gt_0 53 := eq_refl.
Local Instance Hmax : Prec_lt_emax 53 1024 := eq_refl.
Notation fexp64 := (SpecFloat.fexp 53 1024).
Notation rnd64 := (round radix2 fexp64 ZnearestE).

Lemma rne_equiv s m l : round_nearest_even m l = choice_mode mode_NE s m l.
Proof. case l; [reflexivity|intro c]. case c; [|reflexivity..]. simpl. unfold Round.cond_incr. now case Z.even. Qed.
Lemma aux_equiv sx mx ex lx : SpecFloat.binary_round_aux 53 1024 sx mx ex lx = binary_round_aux 53 1024 mode_NE sx mx ex lx.
Proof.
  unfold SpecFloat.binary_round_aux, binary_round_aux. set (mrse' := shr_fexp _ _ _ _ _). case mrse'; intros mrs' e'; simpl.
  now rewrite (rne_equiv sx).
Qed.
Lemma round_equiv s m e : SpecFloat.binary_round 53 1024 s m e = binary_round 53 1024 mode_NE s m e.
Proof. unfold SpecFloat.binary_round, binary_round, shl_align_fexp. set (mez := shl_align _ _ _); case mez as [mz ez]. apply aux_equiv. Qed.
Lemma normalize_equiv m e szero : SpecFloat.binary_normalize 53 1024 m e szero = B2SF (binary_normalize 53 1024 Hprec Hmax mode_NE m e szero).
Proof. case m as [|p|p]; [now simpl| |]; simpl; rewrite B2SF_SF2B; apply round_equiv. Qed.

Lemma mul_equiv (x y : binary_float 53 1024) : dmul (B2SF x) (B2SF y) = B2SF (Bmult mode_NE x y).
Proof. unfold dmul. case x as [sx|sx| |sx mx ex Bx]; case y as [sy|sy| |sy my ey By]; [now trivial..|]. simpl. rewrite B2SF_SF2B. apply aux_equiv. Qed.
Lemma add_equiv (x y : binary_float 53 1024) : dadd (B2SF x) (B2SF y) = B2SF (Bplus mode_NE x y).
Proof.
  unfold dadd. case x as [sx|sx| |sx mx ex Bx]; case y as [sy|sy| |sy my ey By]; [now (trivial || simpl; case Bool.eqb)..|].
  apply normalize_equiv.
Qed.
Lemma div_equiv (x y : binary_float 53 1024) : ddiv (B2SF x) (B2SF y) = B2SF (Bdiv mode_NE x y).
Proof.
  unfold ddiv. case x as [sx|sx| |sx mx ex Bx]; case y as [sy|sy| |sy my ey By]; [now trivial..|]. simpl. rewrite B2SF_SF2B.
  set (melz := SFdiv_core_binary _ _ _ _ _ _). case melz as [[mz ez] lz]. apply aux_equiv.
Qed.

(** ** Rational and real values *)
Lemma Q2R_Z z : Q2R (inject_Z z) = IZR z.
Proof. unfold Q2R, inject_Z. cbn [Qnum Qden]. field. Qed.
Lemma Q2R_pow2_pos e : 0 <= e -> Q2R (pow2 e) = bpow radix2 e.
Proof.
  intros He. unfold pow2. transitivity (Q2R (inject_Z (2 ^ e))).
  - apply Qeq_eqR. rewrite Zpower_Qpower by exact He. reflexivity.
  - rewrite Q2R_Z. apply (IZR_Zpower radix2). exact He.
Qed.
Lemma pow2_pos e : (0 < pow2 e)%Q.
Proof. unfold pow2. apply Qpower_0_lt. reflexivity. Qed.
Lemma Q2R_pow2 e : Q2R (pow2 e) = bpow radix2 e.
Proof.
  destruct (Z.le_ge_cases 0 e) as [He|He]; [apply Q2R_pow2_pos; exact He|].
  transitivity (Q2R (/ pow2 (- e))).
  - apply Qeq_eqR. unfold pow2. rewrite Qpower_opp. rewrite Qinv_involutive. reflexivity.
  - rewrite Q2R_inv; [|intros E; pose proof (pow2_pos (- e)) as H; rewrite E in H; discriminate].
    rewrite Q2R_pow2_pos by lia. rewrite <- bpow_opp. f_equal. lia.
Qed.
Lemma Q2R_abs q : Q2R (Qabs q) = Rabs (Q2R q).
Proof.
  destruct (Qlt_le_dec q 0) as [H|H].
  - rewrite (Qeq_eqR _ _ (Qabs_neg q (Qlt_le_weak _ _ H))), Q2R_opp. rewrite Rabs_left; [reflexivity|].
    apply Qlt_Rlt in H. unfold Q2R at 2 in H. cbn in H. lra.
  - rewrite (Qeq_eqR _ _ (Qabs_pos q H)). rewrite Rabs_pos_eq; [reflexivity|].
    apply Qle_Rle in H. unfold Q2R at 1 in H. cbn in H. lra.
Qed.

Lemma sf_value_R x v : sf_value x = Some v -> Q2R v = SF2R radix2 x /\ is_finite_SF x = true.
Proof.
  destruct x as [s|s| |s m e]; cbn [sf_value]; intros E; try discriminate; injection E as <-; (split; [|reflexivity]).
  - unfold Q2R; cbn. lra.
  - cbn [SF2R]. unfold F2R. cbn [Fnum Fexp]. rewrite Q2R_mult, Q2R_pow2. f_equal.
    destruct s; cbn [cond_Zopp]; [rewrite Q2R_opp, Q2R_Z, <- opp_IZR; reflexivity|apply Q2R_Z].
Qed.
Lemma sf_value_finite x : is_finite_SF x = true -> exists v, sf_value x = Some v.
Proof. destruct x; cbn; intros E; try discriminate; eexists; reflexivity. Qed.

(** [z] is [q] rounded to the nearest double. *)
Definition rounded (z : spec_float) (q : Q) : Prop :=
  is_double z /\ exists v, sf_value z = Some v /\ Q2R v = rnd64 (Q2R q).

Lemma double_B x a : is_double x -> denotes x a -> exists b : binary_float 53 1024, B2SF b = x /\ is_finite b = true /\ B2R b = Q2R a.
Proof.
  intros Hx (v & Ev & Eq). exists (SF2B x Hx). split; [apply B2SF_SF2B|]. destruct (sf_value_R x v Ev) as [E1 E2].
  split; [rewrite is_finite_SF2B; exact E2|]. rewrite B2R_SF2B, <- E1. apply Qeq_eqR. exact Eq.
Qed.
Lemma B_rounded (b : binary_float 53 1024) q : is_finite b = true -> B2R b = rnd64 (Q2R q) -> rounded (B2SF b) q.
Proof.
  intros Hf E. split; [apply valid_binary_B2SF|]. destruct (sf_value_finite (B2SF b)) as [v Ev]; [rewrite is_finite_SF_B2SF; exact Hf|].
  exists v. split; [exact Ev|]. destruct (sf_value_R _ _ Ev) as [E1 _]. rewrite E1, SF2R_B2SF. exact E.
Qed.

Lemma no_overflow q : (Qabs q <= pow2 1000)%Q -> Rlt_bool (Rabs (round radix2 fexp64 (round_mode mode_NE) (Q2R q))) (bpow radix2 1024) = true.
Proof.
  intros H. apply Qle_Rle in H. rewrite Q2R_abs, Q2R_pow2 in H. apply Rlt_bool_true.
  apply Rle_lt_trans with (bpow radix2 1000); [|apply bpow_lt; lia].
  apply abs_round_le_generic; [apply fexp_correct; reflexivity|apply valid_rnd_N| |exact H].
  apply generic_format_bpow. unfold SpecFloat.fexp, SpecFloat.emin. lia.
Qed.

Lemma ddiv_rounded x y a b : is_double x -> denotes x a -> is_double y -> denotes y b -> ~ (b == 0)%Q ->
  (Qabs (a / b) <= pow2 1000)%Q -> rounded (ddiv x y) (a / b).
Proof.
  intros Hx Dx Hy Dy Hb Ho. destruct (double_B x a Hx Dx) as (X & <- & Fx & Ex). destruct (double_B y b Hy Dy) as (Y & <- & Fy & Ey).
  rewrite div_equiv. assert (Hy0 : B2R Y <> 0%R).
  { rewrite Ey. intros E. apply Hb. apply eqR_Qeq. rewrite E. unfold Q2R; cbn; lra. }
  pose proof (Bdiv_correct 53 1024 Hprec Hmax mode_NE X Y Hy0) as H. rewrite Ex, Ey, <- (Q2R_div a b Hb) in H. rewrite (no_overflow _ Ho) in H.
  destruct H as (H1 & H2 & _). apply B_rounded; [rewrite H2; exact Fx|exact H1].
Qed.
Lemma dmul_rounded x y a b : is_double x -> denotes x a -> is_double y -> denotes y b ->
  (Qabs (a * b) <= pow2 1000)%Q -> rounded (dmul x y) (a * b).
Proof.
  intros Hx Dx Hy Dy Ho. destruct (double_B x a Hx Dx) as (X & <- & Fx & Ex). destruct (double_B y b Hy Dy) as (Y & <- & Fy & Ey).
  rewrite mul_equiv.
  pose proof (Bmult_correct 53 1024 Hprec Hmax mode_NE X Y) as H. rewrite Ex, Ey, <- (Q2R_mult a b) in H. rewrite (no_overflow _ Ho) in H.
  destruct H as (H1 & H2 & _). apply B_rounded; [rewrite H2, Fx, Fy; reflexivity|exact H1].
Qed.
Lemma dadd_rounded x y a b : is_double x -> denotes x a -> is_double y -> denotes y b ->
  (Qabs (a + b) <= pow2 1000)%Q -> rounded (dadd x y) (a + b).
Proof.
  intros Hx Dx Hy Dy Ho. destruct (double_B x a Hx Dx) as (X & <- & Fx & Ex). destruct (double_B y b Hy Dy) as (Y & <- & Fy & Ey).
  rewrite add_equiv.
  pose proof (Bplus_correct 53 1024 Hprec Hmax mode_NE X Y Fx Fy) as H. rewrite Ex, Ey, <- (Q2R_plus a b) in H. rewrite (no_overflow _ Ho) in H.
  destruct H as (H1 & H2 & _). apply B_rounded; [exact H2|exact H1].
Qed.

(** ** What rounding means *)
Lemma double_format y w : is_double y -> sf_value y = Some w -> generic_format radix2 fexp64 (Q2R w).
Proof.
  intros Hy Ew. destruct (sf_value_R y w Ew) as [E _]. rewrite E. rewrite <- (B2R_SF2B 53 1024 y Hy). apply generic_format_B2R.
Qed.

Lemma rounded_nearest z q : rounded z q -> nearest is_double z q.
Proof.
  intros (Hz & v & Ev & Er). split; [exact Hz|]. exists v. split; [exact Ev|]. intros y w Hy Ew.
  apply Rle_Qle. rewrite !Q2R_abs, !Q2R_minus, Er.
  destruct (round_N_pt radix2 fexp64 (fun x => negb (Z.even x)) (Q2R q)) as [_ HN]. apply HN. eapply double_format; eauto.
Qed.

Lemma rounded_error z q : rounded z q -> (pow2 (-1022) <= Qabs q)%Q ->
  exists v, denotes z v /\ (Qabs (v - q) <= pow2 (-53) * Qabs q)%Q.
Proof.
  intros (Hz & v & Ev & Er) Hq. exists v. split; [exists v; split; [exact Ev|reflexivity]|].
  apply Rle_Qle. rewrite Q2R_mult, !Q2R_abs, Q2R_minus, Er, Q2R_pow2. apply Qle_Rle in Hq. rewrite Q2R_abs, Q2R_pow2 in Hq.
  pose proof (relative_error_N_FLT radix2 (-1074) 53 eq_refl (fun x => negb (Z.even x)) (Q2R q) Hq) as H.
  change (FLT_exp (-1074) 53) with fexp64 in H. replace (bpow radix2 (-53)) with (/ 2 * bpow radix2 (-53 + 1))%R; [exact H|].
  change (-53 + 1) with (-52). change (-52) with (-53 + 1). rewrite bpow_plus. change (bpow radix2 1) with 2%R. lra.
Qed.

Lemma rounded_denotes z q : rounded z q -> is_double z /\ exists v, denotes z v.
Proof. intros (Hz & v & Ev & _). split; [exact Hz|]. exists v, v. split; [exact Ev|reflexivity]. Qed.

Lemma rounded_eq z q q' : (q == q')%Q -> rounded z q -> rounded z q'.
Proof. intros E (Hz & v & Ev & Er). split; [exact Hz|]. exists v. split; [exact Ev|]. rewrite Er. f_equal. apply Qeq_eqR. exact E. Qed.

Lemma rounded_zero z q : rounded z q -> (q == 0)%Q -> denotes z 0.
Proof.
  intros (Hz & v & Ev & Er) Hq. exists v. split; [exact Ev|]. apply eqR_Qeq. rewrite Er.
  rewrite (Qeq_eqR _ _ Hq). replace (Q2R 0) with 0%R by (unfold Q2R; cbn; lra). apply round_0. apply valid_rnd_N.
Qed.

(** [x * -1] is exact. *)
Lemma dneg_value x a : is_double x -> denotes x a -> (Qabs a <= pow2 1000)%Q -> is_double (dmul x (dbl (-1))) /\ denotes (dmul x (dbl (-1))) (- a).
Proof.
  intros Hx Dx Ha.
  assert (D1 : denotes (dbl (-1)) (-1 # 1)) by (eexists; split; [vm_compute; reflexivity|reflexivity]).
  assert (R : rounded (dmul x (dbl (-1))) (a * (-1 # 1))).
  { apply dmul_rounded; [exact Hx|exact Dx|reflexivity|exact D1|].
    setoid_replace (a * (-1 # 1))%Q with (- a)%Q by ring. rewrite Qabs_opp. exact Ha. }
  destruct R as (Hz & v & Ev & Er). split; [exact Hz|]. exists v. split; [exact Ev|]. apply eqR_Qeq. rewrite Er, Q2R_opp, Q2R_mult.
  replace (Q2R (-1 # 1)) with (-1)%R by (unfold Q2R; cbn; lra). replace (Q2R a * -1)%R with (- Q2R a)%R by ring.
  apply round_generic; [apply valid_rnd_N|]. apply generic_format_opp. destruct Dx as (w & Ew & Eq). rewrite <- (Qeq_eqR _ _ Eq). apply (double_format x w Hx Ew).
Qed.

Lemma rounded_neg x q : rounded x q -> (Qabs q <= pow2 999)%Q -> rounded (dmul x (dbl (-1))) (- q).
Proof.
  intros R Hq. pose proof R as (Hx & w & Ew & Er).
  assert (Hw : (Qabs w <= pow2 1000)%Q).
  { apply Rle_Qle. rewrite Q2R_abs, Q2R_pow2, Er. apply abs_round_le_generic; [apply fexp_correct; reflexivity|apply valid_rnd_N| |].
    - apply generic_format_bpow. unfold SpecFloat.fexp, SpecFloat.emin. lia.
    - apply Qle_Rle in Hq. rewrite Q2R_abs, Q2R_pow2 in Hq. eapply Rle_trans; [exact Hq|]. apply bpow_le. lia. }
  destruct (dneg_value x w Hx (ex_intro _ w (conj Ew (Qeq_refl w))) Hw) as [Hz (v & Ev & Eq)].
  split; [exact Hz|]. exists v. split; [exact Ev|]. rewrite (Qeq_eqR _ _ Eq), !Q2R_opp, Er. symmetry. apply round_NE_opp.
Qed.

(** Adding to a zero changes nothing. *)
Lemma dadd_zero_l s x q : rounded x q -> rounded (dadd (S754_zero s) x) q.
Proof.
  intros (Hx & w & Ew & Er). destruct x as [s'|s'| |s' m e]; cbn [sf_value] in Ew; try discriminate.
  - unfold dadd. cbn [SFadd]. injection Ew as <-. split; [destruct s, s'; reflexivity|]. exists 0%Q. split; [destruct s, s'; reflexivity|exact Er].
  - split; [exact Hx|]. exists w. split; [exact Ew|exact Er].
Qed.
