(** * StbArith: rounding of sums, differences and products of doubles *)

From Coq Require Import ZArith QArith Qabs Qpower Reals Qreals Lra Lia SpecFloat.
From Flocq Require Import Core.Core Relative BinarySingleNaN.
From Verif Require Import Base SpecFp64 Fp64 Fp64Near Stb.
Open Scope Z_scope.

Local Existing Instances Fp64Near.Hprec Fp64Near.Hmax.

(** The largest finite double. *)
Definition maxd : Q := (inject_Z (2 ^ 53 - 1) * pow2 971)%Q.
(** [z] is a double of value [q]. *)
Definition dv (z : spec_float) (q : Q) : Prop := is_double z /\ denotes z q.
(** [q] is a multiple of the least positive double. *)
Definition grid (q : Q) : Prop := exists n, (q == inject_Z n * pow2 (-1074))%Q.

Lemma dv_eq z q q' : (q == q')%Q -> dv z q -> dv z q'.
Proof. intros E (H & v & Ev & Eq). split; [exact H|]. exists v. split; [exact Ev|]. rewrite Eq. exact E. Qed.

Lemma sub_equiv (x y : binary_float 53 1024) : dsub (B2SF x) (B2SF y) = B2SF (Bminus mode_NE x y).
Proof.
  unfold dsub. case x as [sx|sx| |sx mx ex Bx]; case y as [sy|sy| |sy my ey By];
    [now (trivial || simpl; destruct sx, sy; reflexivity)..|].
  cbn [B2SF SFsub Bminus]. rewrite <- normalize_equiv. unfold Fplus_naive. cbv zeta. f_equal.
  destruct sy; cbn [cond_Zopp negb]; lia.
Qed.

Lemma F2R_Q n e : F2R (Float radix2 n e) = Q2R (inject_Z n * pow2 e).
Proof. unfold F2R. cbn [Fnum Fexp]. rewrite Q2R_mult, Q2R_Z, Q2R_pow2. reflexivity. Qed.

Lemma repr_format n e : Z.abs n <= 2 ^ 53 -> -1074 <= e -> generic_format radix2 fexp64 (Q2R (inject_Z n * pow2 e)).
Proof.
  intros Hn He. change fexp64 with (FLT_exp (-1074) 53). apply generic_format_FLT.
  destruct (Z.eq_dec (Z.abs n) (2 ^ 53)) as [E|E].
  - exists (Float radix2 (n / 2) (e + 1)); cbn [Fnum Fexp]; [| |lia].
    + rewrite F2R_Q.
      assert (E2 : n = 2 * (n / 2)).
      { destruct (Z.abs_spec n) as [[_ A]|[_ A]]; rewrite A in E.
        - rewrite E. reflexivity.
        - assert (E3 : n = - 2 ^ 53) by lia. rewrite E3. reflexivity. }
      rewrite E2 at 1. apply Qeq_eqR. unfold pow2. rewrite Qpower_plus by discriminate.
      rewrite inject_Z_mult. change (inject_Z 2) with (2 # 1)%Q. change ((2 # 1) ^ 1)%Q with (2 # 1)%Q. ring.
    + destruct (Z.abs_spec n) as [[_ A]|[_ A]]; rewrite A in E.
      * rewrite E. reflexivity.
      * assert (E3 : n = - 2 ^ 53) by lia. rewrite E3. reflexivity.
  - exists (Float radix2 n e); cbn [Fnum Fexp]; [symmetry; apply F2R_Q|change (Z.pow radix2 53) with (2 ^ 53); lia|lia].
Qed.

Lemma no_ovf q : (Qabs q <= maxd)%Q -> Rlt_bool (Rabs (round radix2 fexp64 (round_mode mode_NE) (Q2R q))) (bpow radix2 1024) = true.
Proof.
  intros H. apply Qle_Rle in H. rewrite Q2R_abs in H. apply Rlt_bool_true.
  apply Rle_lt_trans with (Q2R maxd).
  - apply abs_round_le_generic; [apply fexp_correct; reflexivity|apply valid_rnd_N| |exact H]. apply repr_format; [cbn; lia|lia].
  - unfold maxd. rewrite Q2R_mult, Q2R_Z, Q2R_pow2. change 1024 with (53 + 971). rewrite bpow_plus.
    apply Rmult_lt_compat_r; [apply bpow_gt_0|]. change (bpow radix2 53) with (IZR (2 ^ 53)). apply IZR_lt. lia.
Qed.

Lemma mul_rounded x y a b : dv x a -> dv y b -> (Qabs (a * b) <= maxd)%Q -> rounded (dmul x y) (a * b).
Proof.
  intros [Hx Dx] [Hy Dy] Ho. destruct (double_B x a Hx Dx) as (X & <- & Fx & Ex). destruct (double_B y b Hy Dy) as (Y & <- & Fy & Ey).
  rewrite mul_equiv.
  pose proof (Bmult_correct 53 1024 Hprec Hmax mode_NE X Y) as H. rewrite Ex, Ey, <- (Q2R_mult a b) in H. rewrite (no_ovf _ Ho) in H.
  destruct H as (H1 & H2 & _). apply B_rounded; [rewrite H2, Fx, Fy; reflexivity|exact H1].
Qed.
Lemma add_rounded x y a b : dv x a -> dv y b -> (Qabs (a + b) <= maxd)%Q -> rounded (dadd x y) (a + b).
Proof.
  intros [Hx Dx] [Hy Dy] Ho. destruct (double_B x a Hx Dx) as (X & <- & Fx & Ex). destruct (double_B y b Hy Dy) as (Y & <- & Fy & Ey).
  rewrite add_equiv.
  pose proof (Bplus_correct 53 1024 Hprec Hmax mode_NE X Y Fx Fy) as H. rewrite Ex, Ey, <- (Q2R_plus a b) in H. rewrite (no_ovf _ Ho) in H.
  destruct H as (H1 & H2 & _). apply B_rounded; [exact H2|exact H1].
Qed.
Lemma sub_rounded x y a b : dv x a -> dv y b -> (Qabs (a - b) <= maxd)%Q -> rounded (dsub x y) (a - b).
Proof.
  intros [Hx Dx] [Hy Dy] Ho. destruct (double_B x a Hx Dx) as (X & <- & Fx & Ex). destruct (double_B y b Hy Dy) as (Y & <- & Fy & Ey).
  rewrite sub_equiv.
  pose proof (Bminus_correct 53 1024 Hprec Hmax mode_NE X Y Fx Fy) as H. rewrite Ex, Ey, <- (Q2R_minus a b) in H. rewrite (no_ovf _ Ho) in H.
  destruct H as (H1 & H2 & _). apply B_rounded; [exact H2|exact H1].
Qed.

(** ** What the rounded value is *)
Lemma rounded_repr z q n e : rounded z q -> (q == inject_Z n * pow2 e)%Q -> Z.abs n <= 2 ^ 53 -> -1074 <= e -> dv z q.
Proof.
  intros (Hz & v & Ev & Er) Eq Hn He. split; [exact Hz|]. exists v. split; [exact Ev|]. apply eqR_Qeq. rewrite Er.
  apply round_generic; [apply valid_rnd_N|]. rewrite (Qeq_eqR _ _ Eq). apply repr_format; assumption.
Qed.

Lemma grid_small q : grid q -> ~ (pow2 (-1022) <= Qabs q)%Q -> exists n, (q == inject_Z n * pow2 (-1074))%Q /\ Z.abs n <= 2 ^ 53.
Proof.
  intros (n & E) H. exists n. split; [exact E|]. apply Znot_gt_le. intros Hgt. apply H. rewrite E, Qabs_Qmult.
  rewrite (Qabs_pos (pow2 (-1074))) by (apply Qlt_le_weak, pow2_pos).
  change (-1022) with (52 + -1074). unfold pow2 at 1. rewrite Qpower_plus by discriminate.
  apply Qmult_le_compat_r; [|apply Qlt_le_weak, pow2_pos].
  change (Qabs (inject_Z n)) with (inject_Z (Z.abs n)). change ((2 # 1) ^ 52)%Q with (inject_Z (2 ^ 52)). rewrite <- Zle_Qle.
  assert (2 ^ 52 < 2 ^ 53) by reflexivity. lia.
Qed.

Lemma rounded_rel z q : rounded z q -> grid q -> exists v, dv z v /\ (Qabs (v - q) <= pow2 (-53) * Qabs q)%Q.
Proof.
  intros H G. destruct (Qlt_le_dec (Qabs q) (pow2 (-1022))) as [Hs|Hl].
  - destruct (grid_small q G) as (n & E & Hn); [apply Qlt_not_le; exact Hs|].
    exists q. split; [eapply rounded_repr; eauto; lia|]. setoid_replace (q - q)%Q with 0%Q by ring. cbn [Qabs].
    change (Qabs 0) with 0%Q. apply Qmult_le_0_compat; [apply Qlt_le_weak, pow2_pos|apply Qabs_nonneg].
  - destruct (rounded_error z q H Hl) as (v & Hv & He). exists v. split; [split; [apply H|exact Hv]|exact He].
Qed.

Lemma rounded_same z z' q v : rounded z q -> rounded z' q -> dv z v -> dv z' v.
Proof.
  intros (_ & w & Ew & Er) (Hz' & w' & Ew' & Er') (_ & u & Eu & Ev). split; [exact Hz'|]. exists w'. split; [exact Ew'|].
  rewrite Ew in Eu. injection Eu as <-. rewrite <- Ev. apply eqR_Qeq. congruence.
Qed.

Lemma pow2_add a b : (pow2 (a + b) == pow2 a * pow2 b)%Q.
Proof. unfold pow2. apply Qpower_plus. discriminate. Qed.
Lemma pow2_Z k : 0 <= k -> (pow2 k == inject_Z (2 ^ k))%Q.
Proof. intros H. unfold pow2. rewrite Zpower_Qpower by exact H. reflexivity. Qed.
Lemma pow2_shift n k e : 0 <= k -> (inject_Z n * pow2 (e + k) == inject_Z (n * 2 ^ k) * pow2 e)%Q.
Proof. intros H. rewrite inject_Z_mult, pow2_add, (pow2_Z k H). ring. Qed.

(** In the binade [2^(e+52), 2^(e+53)) the doubles are the multiples of [2^e]. *)
Lemma rounded_binade z q e : rounded z q -> (pow2 (e + 52) <= Qabs q)%Q -> (Qabs q < pow2 (e + 53))%Q -> -1074 <= e ->
  exists n, dv z (inject_Z n * pow2 e) /\ Z.abs n <= 2 ^ 53 /\ (Qabs (inject_Z n * pow2 e - q) <= pow2 (e - 1))%Q.
Proof.
  intros (Hz & v & Ev & Er) H1 H2 He. apply Qle_Rle in H1. apply Qlt_Rlt in H2. rewrite Q2R_abs, Q2R_pow2 in H1, H2.
  assert (Hq : Q2R q <> 0%R). { intros E0. rewrite E0, Rabs_R0 in H1. pose proof (bpow_gt_0 radix2 (e + 52)). lra. }
  assert (Hm : mag radix2 (Q2R q) = e + 53 :> Z).
  { apply mag_unique. replace (e + 53 - 1) with (e + 52) by lia. split; assumption. }
  assert (Hc : cexp radix2 fexp64 (Q2R q) = e).
  { unfold cexp. rewrite Hm. change (fexp64 (e + 53)) with (Z.max (e + 53 - 53) (-1074)). lia. }
  exists (ZnearestE (scaled_mantissa radix2 fexp64 (Q2R q))). set (n := ZnearestE _).
  assert (En : Q2R (inject_Z n * pow2 e) = rnd64 (Q2R q)). { rewrite <- F2R_Q. unfold round. rewrite Hc. reflexivity. }
  split; [split; [exact Hz|]; exists v; split; [exact Ev|apply eqR_Qeq; congruence]|]. split.
  - assert (HB : (Rabs (rnd64 (Q2R q)) <= bpow radix2 (e + 53))%R).
    { apply abs_round_le_generic; [apply fexp_correct; reflexivity|apply valid_rnd_N| |lra].
      apply generic_format_bpow. change (fexp64 (e + 53 + 1)) with (Z.max (e + 53 + 1 - 53) (-1074)). lia. }
    rewrite <- En, <- F2R_Q, <- F2R_Zabs in HB. rewrite <- (F2R_bpow radix2) in HB.
    apply le_IZR. apply Rmult_le_reg_r with (bpow radix2 e); [apply bpow_gt_0|].
    unfold F2R in HB. cbn [Fnum Fexp] in HB. rewrite Rmult_1_l in HB. rewrite (Z.add_comm e 53), bpow_plus in HB.
    change (bpow radix2 53) with (IZR (2 ^ 53)) in HB. exact HB.
  - apply Rle_Qle. rewrite Q2R_abs, Q2R_minus, En, Q2R_pow2.
    pose proof (error_le_half_ulp radix2 fexp64 (fun x => negb (Z.even x)) (Q2R q)) as H.
    rewrite (ulp_neq_0 radix2 fexp64 _ Hq), Hc in H. replace (bpow radix2 (e - 1)) with (/ 2 * bpow radix2 e)%R; [exact H|].
    replace e with (e - 1 + 1) at 1 by lia. rewrite bpow_plus. change (bpow radix2 1) with 2%R. lra.
Qed.

(** Every double is on the grid. *)
Lemma dv_grid z q : dv z q -> grid q.
Proof.
  intros (Hz & v & Ev & Eq). destruct z as [s|s| |s m e]; cbn [sf_value] in Ev; try discriminate; injection Ev as <-.
  - exists 0. rewrite <- Eq. ring.
  - assert (He : -1074 <= e).
    { unfold is_double in Hz. cbn [valid_binary] in Hz. unfold SpecFloat.bounded in Hz. apply andb_prop in Hz as [Hz _].
      unfold SpecFloat.canonical_mantissa in Hz. apply Zeq_bool_eq in Hz. unfold SpecFloat.fexp, SpecFloat.emin in Hz. lia. }
    exists ((if s then - Zpos m else Zpos m) * 2 ^ (e + 1074)). rewrite <- Eq.
    rewrite <- pow2_shift by lia. replace (-1074 + (e + 1074)) with e by lia. destruct s; [rewrite inject_Z_opp|]; reflexivity.
Qed.
Lemma grid_add a b : grid a -> grid b -> grid (a + b).
Proof. intros [n En] [m Em]. exists (n + m). rewrite inject_Z_plus, En, Em. ring. Qed.
Lemma grid_sub a b : grid a -> grid b -> grid (a - b).
Proof. intros [n En] [m Em]. exists (n - m). unfold Zminus. rewrite inject_Z_plus, inject_Z_opp, En, Em. ring. Qed.

(** ** Operations *)
Lemma add_rel x y a b : dv x a -> dv y b -> (Qabs (a + b) <= maxd)%Q ->
  exists v, dv (dadd x y) v /\ (Qabs (v - (a + b)) <= pow2 (-53) * Qabs (a + b))%Q.
Proof. intros Hx Hy Ho. apply rounded_rel; [apply add_rounded; assumption|apply grid_add; eapply dv_grid; eauto]. Qed.
Lemma sub_rel x y a b : dv x a -> dv y b -> (Qabs (a - b) <= maxd)%Q ->
  exists v, dv (dsub x y) v /\ (Qabs (v - (a - b)) <= pow2 (-53) * Qabs (a - b))%Q.
Proof. intros Hx Hy Ho. apply rounded_rel; [apply sub_rounded; assumption|apply grid_sub; eapply dv_grid; eauto]. Qed.
Lemma mul_rel x y a b : dv x a -> dv y b -> grid (a * b) -> (Qabs (a * b) <= maxd)%Q ->
  exists v, dv (dmul x y) v /\ (Qabs (v - (a * b)) <= pow2 (-53) * Qabs (a * b))%Q.
Proof. intros Hx Hy G Ho. apply rounded_rel; [apply mul_rounded; assumption|exact G]. Qed.

(** Results that need no rounding: [n * 2^e] where [n = M * 2^k], [|M| <= 2^53]. *)
Definition fits53 (n e : Z) : Prop := exists M k, n = M * 2 ^ k /\ 0 <= k /\ Z.abs M <= 2 ^ 53 /\ -1074 <= e + k /\ (e + k <= 970 \/ (Z.abs M < 2 ^ 53 /\ e + k = 971)).
Lemma fits53_maxd n e : fits53 n e -> (Qabs (inject_Z n * pow2 e) <= maxd)%Q.
Proof.
  intros (M & k & -> & Hk & HM & He & He2). rewrite <- pow2_shift by exact Hk. rewrite Qabs_Qmult.
  rewrite (Qabs_pos (pow2 _)) by (apply Qlt_le_weak, pow2_pos). change (Qabs (inject_Z M)) with (inject_Z (Z.abs M)).
  destruct He2 as [He2|[HM2 ->]]; [|unfold maxd; apply Qmult_le_compat_r; [rewrite <- Zle_Qle; lia|apply Qlt_le_weak, pow2_pos]].
  apply Qle_trans with (inject_Z (2 ^ 53) * pow2 (e + k))%Q; [apply Qmult_le_compat_r; [rewrite <- Zle_Qle; exact HM|apply Qlt_le_weak, pow2_pos]|].
  apply Qle_trans with (inject_Z (2 ^ 53) * pow2 970)%Q.
  - rewrite !(Qmult_comm (inject_Z (2 ^ 53))). apply Qmult_le_compat_r; [|rewrite <- (Zle_Qle 0); lia].
    replace 970 with ((e + k) + (970 - (e + k))) by lia. rewrite (pow2_add (e + k) (970 - (e + k))), (pow2_Z (970 - (e + k))) by lia.
    rewrite <- (Qmult_1_r (pow2 (e + k))) at 1. rewrite !(Qmult_comm (pow2 (e + k))). apply Qmult_le_compat_r; [|apply Qlt_le_weak, pow2_pos].
    change 1%Q with (inject_Z 1). rewrite <- Zle_Qle. assert (0 < 2 ^ (970 - (e + k))) by (apply Z.pow_pos_nonneg; lia). lia.
  - unfold maxd. vm_compute. discriminate.
Qed.
Lemma fits53_repr z q n e : rounded z q -> (q == inject_Z n * pow2 e)%Q -> fits53 n e -> dv z q.
Proof.
  intros H E (M & k & -> & Hk & HM & He & He2). eapply rounded_repr; [exact H| |exact HM|exact He]. rewrite E. symmetry. apply pow2_shift. exact Hk.
Qed.

Lemma add_exact x y a b e : dv x (inject_Z a * pow2 e) -> dv y (inject_Z b * pow2 e) -> fits53 (a + b) e ->
  dv (dadd x y) (inject_Z (a + b) * pow2 e).
Proof.
  intros Hx Hy F. assert (E : (inject_Z (a + b) * pow2 e == inject_Z a * pow2 e + inject_Z b * pow2 e)%Q) by (rewrite inject_Z_plus; ring).
  eapply dv_eq; [symmetry; exact E|]. eapply fits53_repr; [apply add_rounded; eauto; rewrite <- E; apply fits53_maxd; exact F|symmetry; exact E|exact F].
Qed.
Lemma sub_exact x y a b e : dv x (inject_Z a * pow2 e) -> dv y (inject_Z b * pow2 e) -> fits53 (a - b) e ->
  dv (dsub x y) (inject_Z (a - b) * pow2 e).
Proof.
  intros Hx Hy F. assert (E : (inject_Z (a - b) * pow2 e == inject_Z a * pow2 e - inject_Z b * pow2 e)%Q) by (unfold Zminus; rewrite inject_Z_plus, inject_Z_opp; ring).
  eapply dv_eq; [symmetry; exact E|]. eapply fits53_repr; [apply sub_rounded; eauto; rewrite <- E; apply fits53_maxd; exact F|symmetry; exact E|exact F].
Qed.
Lemma mul_exact x y a b e f : dv x (inject_Z a * pow2 e) -> dv y (inject_Z b * pow2 f) -> fits53 (a * b) (e + f) ->
  dv (dmul x y) (inject_Z (a * b) * pow2 (e + f)).
Proof.
  intros Hx Hy F. assert (E : (inject_Z (a * b) * pow2 (e + f) == inject_Z a * pow2 e * (inject_Z b * pow2 f))%Q) by (rewrite inject_Z_mult, pow2_add; ring).
  eapply dv_eq; [symmetry; exact E|]. eapply fits53_repr; [apply mul_rounded; eauto; rewrite <- E; apply fits53_maxd; exact F|symmetry; exact E|exact F].
Qed.

(** ** Clearing the low bits *)
Lemma finite_bounds s m e : is_double (S754_finite s m e) -> Zpos m < 2 ^ 53 /\ -1074 <= e <= 971 /\ (2 ^ 52 <= Zpos m \/ e = -1074).
Proof.
  unfold is_double. cbn [valid_binary]. unfold SpecFloat.bounded. intros H. apply andb_prop in H as [H1 H2]. apply Zle_bool_imp_le in H2.
  unfold SpecFloat.canonical_mantissa in H1. apply Zeq_bool_eq in H1. unfold SpecFloat.fexp, SpecFloat.emin in H1.
  assert (D : Zpos (digits2_pos m) = Z.log2 (Zpos m) + 1).
  { clear. induction m as [p IH|p IH|]; [| |reflexivity]; cbn [digits2_pos]; rewrite Pos2Z.inj_succ, IH; unfold Z.succ.
    - rewrite (Pos2Z.inj_xI p), Z.log2_succ_double by lia. lia.
    - rewrite (Pos2Z.inj_xO p), Z.log2_double by lia. lia. }
  pose proof (Z.log2_spec (Zpos m) eq_refl) as [L1 L2].
  assert (Z.log2 (Zpos m) <= 52) by lia.
  split; [|split; [lia|]].
  - apply Z.lt_le_trans with (2 ^ Z.succ (Z.log2 (Zpos m))); [exact L2|]. apply Z.pow_le_mono_r; lia.
  - destruct (Z.eq_dec e (-1074)) as [E|E]; [right; exact E|left]. assert (E2 : Z.log2 (Zpos m) = 52) by lia. rewrite E2 in L1. exact L1.
Qed.
Lemma double_intro s m e : Zpos m < 2 ^ 53 -> -1074 <= e <= 971 -> 2 ^ 52 <= Zpos m \/ e = -1074 -> is_double (S754_finite s m e).
Proof.
  intros H1 H2 H3. unfold is_double. cbn [valid_binary]. unfold SpecFloat.bounded. apply andb_true_intro. split; [|apply Zle_imp_le_bool; lia].
  unfold SpecFloat.canonical_mantissa. apply Zeq_is_eq_bool. unfold SpecFloat.fexp, SpecFloat.emin.
  assert (D : Zpos (digits2_pos m) = Z.log2 (Zpos m) + 1).
  { clear. induction m as [p IH|p IH|]; [| |reflexivity]; cbn [digits2_pos]; rewrite Pos2Z.inj_succ, IH; unfold Z.succ.
    - rewrite (Pos2Z.inj_xI p), Z.log2_succ_double by lia. lia.
    - rewrite (Pos2Z.inj_xO p), Z.log2_double by lia. lia. }
  assert (L : Z.log2 (Zpos m) < 53) by (apply Z.log2_lt_pow2; lia).
  destruct H3 as [H3| ->]; [|lia]. assert (52 <= Z.log2 (Zpos m)) by (apply Z.log2_le_pow2; [lia|exact H3]). lia.
Qed.

Lemma finite_dv m e : is_double (S754_finite false m e) -> dv (S754_finite false m e) (inject_Z (Zpos m) * pow2 e).
Proof. intros H. split; [exact H|]. eexists. split; [reflexivity|reflexivity]. Qed.

Lemma mask27_dv m e : is_double (S754_finite false m e) ->
  let al := Zpos m mod 2 ^ 27 in let ah := Zpos m - al in
  dv (mask27 (S754_finite false m e)) (inject_Z ah * pow2 e) /\
  dv (dsub (S754_finite false m e) (mask27 (S754_finite false m e))) (inject_Z al * pow2 e).
Proof.
  intros H al ah. destruct (finite_bounds _ _ _ H) as (B1 & B2 & B3).
  assert (Hal : 0 <= al < 2 ^ 27) by (apply Z.mod_pos_bound; reflexivity).
  assert (Hah : 0 <= ah). { unfold ah, al. pose proof (Z.mod_le (Zpos m) (2 ^ 27)). lia. }
  assert (A1 : dv (mask27 (S754_finite false m e)) (inject_Z ah * pow2 e)).
  { cbn [mask27]. fold al. fold ah. destruct ah as [|p|p] eqn:E; [split; [reflexivity|exists 0%Q; split; [reflexivity|ring]]| |lia].
    apply finite_dv. apply double_intro; [lia|exact B2|]. destruct B3 as [B3|B3]; [left|right; exact B3].
    rewrite <- E. unfold ah, al. pose proof (Z.div_mod (Zpos m) (2 ^ 27) ltac:(discriminate)) as D.
    assert (2 ^ 25 <= Zpos m / 2 ^ 27) by (apply Z.div_le_lower_bound; [reflexivity|exact B3]). change (2 ^ 52) with (2 ^ 27 * 2 ^ 25). lia. }
  split; [exact A1|]. replace al with (Zpos m - ah) by (unfold ah; lia).
  apply sub_exact; [apply finite_dv; exact H|exact A1|].
  exists al, 0. split; [unfold ah; lia|]. split; [lia|]. assert (2 ^ 27 < 2 ^ 53) by reflexivity. split; [lia|]. lia.
Qed.
