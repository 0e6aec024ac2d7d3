(** * StbExact: the product of a double and a power of ten in two parts *)

From Coq Require Import ZArith QArith Qabs Qpower Lqa Lia SpecFloat.
From Verif Require Import Base SpecFp64 Fp64 Fp64Near Stb StbArith.
Open Scope Z_scope.

Lemma fits_intro n e k : (exists M, n = M * 2 ^ k /\ Z.abs M <= 2 ^ 53) -> 0 <= k -> -1074 <= e -> e + k <= 970 -> fits53 n e.
Proof. intros (M & -> & HM) Hk H1 H2. exists M, k. repeat split; lia. Qed.

Lemma abs_Q_Z n e b f : (Qabs (inject_Z n * pow2 e) <= inject_Z b * pow2 f)%Q -> f = e -> Z.abs n <= b.
Proof.
  intros H ->. rewrite Qabs_Qmult, (Qabs_pos (pow2 e)) in H by (apply Qlt_le_weak, pow2_pos).
  apply Qmult_lt_0_le_reg_r in H; [|apply pow2_pos]. change (Qabs (inject_Z n)) with (inject_Z (Z.abs n)) in H. rewrite <- Zle_Qle in H. exact H.
Qed.

Lemma ddmulthi_exact mx ex my ey :
  let x := S754_finite false mx ex in let y := S754_finite false my ey in let u := ex + ey in
  is_double x -> is_double y -> 2 ^ 52 <= Zpos mx -> 2 ^ 52 <= Zpos my -> Zpos my mod 2 = 0 ->
  -1074 <= u <= 800 ->
  exists n s, (s = 52 \/ s = 53) /\ Z.abs n <= 2 ^ 53 /\ Z.abs (Zpos mx * Zpos my - n * 2 ^ s) <= 2 ^ (s - 1) /\
    dv (fst (ddmulthi x y)) (inject_Z (n * 2 ^ s) * pow2 u) /\
    dv (snd (ddmulthi x y)) (inject_Z (Zpos mx * Zpos my - n * 2 ^ s) * pow2 u) /\
    rounded (fst (ddmulthi x y)) (inject_Z (Zpos mx * Zpos my) * pow2 u).
Proof.
  intros x y u Hx Hy Bx By Ey Hu.
  destruct (finite_bounds _ _ _ Hx) as (Bx' & _ & _). destruct (finite_bounds _ _ _ Hy) as (By' & _ & _).
  destruct (mask27_dv mx ex Hx) as (DA & DAl). destruct (mask27_dv my ey Hy) as (DB & DBl).
  cbn [ddmulthi fst snd]. fold x in DA, DAl |- *. fold y in DB, DBl |- *.
  set (al := Zpos mx mod 2 ^ 27) in *. set (bl := Zpos my mod 2 ^ 27) in *.
  assert (Hal : 0 <= al < 2 ^ 27) by (apply Z.mod_pos_bound; reflexivity).
  assert (Hbl : 0 <= bl < 2 ^ 27) by (apply Z.mod_pos_bound; reflexivity).
  assert (EA : exists A, Zpos mx - al = A * 2 ^ 27 /\ 0 <= A < 2 ^ 26).
  { exists (Zpos mx / 2 ^ 27). split; [unfold al; pose proof (Z.div_mod (Zpos mx) (2 ^ 27) ltac:(discriminate)); lia|].
    split; [apply Z.div_pos; [lia|reflexivity]|]. apply Z.div_lt_upper_bound; [reflexivity|exact Bx']. }
  assert (EB : exists B, Zpos my - bl = B * 2 ^ 27 /\ 0 <= B < 2 ^ 26).
  { exists (Zpos my / 2 ^ 27). split; [unfold bl; pose proof (Z.div_mod (Zpos my) (2 ^ 27) ltac:(discriminate)); lia|].
    split; [apply Z.div_pos; [lia|reflexivity]|]. apply Z.div_lt_upper_bound; [reflexivity|exact By']. }
  assert (Eb : exists b', bl = 2 * b').
  { exists (bl / 2). unfold bl. pose proof (Z.div_mod (Zpos my) (2 ^ 27) ltac:(discriminate)) as D.
    assert (E2 : (Zpos my mod 2 ^ 27) mod 2 = 0).
    { rewrite <- (Znumtheory.Zmod_div_mod 2 (2 ^ 27) (Zpos my)); [exact Ey|reflexivity|reflexivity|]. exists (2 ^ 26). reflexivity. }
    pose proof (Z.div_mod (Zpos my mod 2 ^ 27) 2 ltac:(discriminate)). lia. }
  destruct EA as (A & EA & HA). destruct EB as (B & EB & HB). destruct Eb as (b' & Eb).
  rewrite EA in DA. rewrite EB in DB.
  set (P := Zpos mx * Zpos my).
  assert (EP : P = A * B * 2 ^ 54 + A * bl * 2 ^ 27 + al * B * 2 ^ 27 + al * bl).
  { unfold P. replace (Zpos mx) with (A * 2 ^ 27 + al) by lia. replace (Zpos my) with (B * 2 ^ 27 + bl) by lia. ring. }
  assert (P1 : 2 ^ 104 <= P) by (unfold P; change (2 ^ 104) with (2 ^ 52 * 2 ^ 52); apply Z.mul_le_mono_nonneg; lia).
  assert (P2 : P < 2 ^ 106) by (unfold P; change (2 ^ 106) with (2 ^ 53 * 2 ^ 53); apply Z.mul_lt_mono_nonneg; lia).
  assert (EPQ : (inject_Z P * pow2 u == inject_Z (Zpos mx) * pow2 ex * (inject_Z (Zpos my) * pow2 ey))%Q).
  { unfold P, u. rewrite inject_Z_mult, pow2_add. ring. }
  assert (R : rounded (dmul x y) (inject_Z P * pow2 u)).
  { eapply rounded_eq; [symmetry; exact EPQ|]. apply mul_rounded; [apply finite_dv; exact Hx|apply finite_dv; exact Hy|].
    rewrite <- EPQ. apply Qle_trans with (Qabs (inject_Z (2 ^ 106) * pow2 u)).
    - rewrite !Qabs_Qmult, (Qabs_pos (pow2 u)) by (apply Qlt_le_weak, pow2_pos). apply Qmult_le_compat_r; [|apply Qlt_le_weak, pow2_pos].
      change (inject_Z (Z.abs P) <= inject_Z (Z.abs (2 ^ 106)))%Q. rewrite <- Zle_Qle. lia.
    - apply fits53_maxd. apply (fits_intro _ _ 106); [exists 1; split; [reflexivity|cbn; lia]|lia|lia|lia]. }
  assert (HPa : (Qabs (inject_Z P * pow2 u) == inject_Z P * pow2 u)%Q).
  { rewrite Qabs_pos; [reflexivity|]. apply Qmult_le_0_compat; [rewrite <- (Zle_Qle 0); lia|apply Qlt_le_weak, pow2_pos]. }
  assert (HS : exists s, (s = 52 \/ s = 53) /\ 2 ^ (s + 52) <= P < 2 ^ (s + 53)).
  { destruct (Z.lt_ge_cases P (2 ^ 105)); [exists 52|exists 53]; (split; [auto|]); cbn [Z.add]; change (52 + 52) with 104; change (52 + 53) with 105; change (53 + 52) with 105; change (53 + 53) with 106; lia. }
  destruct HS as (s & Hs & HP).
  destruct (rounded_binade _ _ (u + s) R) as (n & Dn & Bn & Rn).
  { rewrite HPa. replace (u + s + 52) with (u + (s + 52)) by lia. rewrite pow2_add, (Qmult_comm (pow2 u)), (pow2_Z (s + 52)) by lia.
    apply Qmult_le_compat_r; [rewrite <- Zle_Qle; lia|apply Qlt_le_weak, pow2_pos]. }
  { rewrite HPa. replace (u + s + 53) with (u + (s + 53)) by lia. rewrite pow2_add, (Qmult_comm (pow2 u)), (pow2_Z (s + 53)) by lia.
    apply Qmult_lt_compat_r; [apply pow2_pos|rewrite <- Zlt_Qlt; lia]. }
  { lia. }
  assert (EN : (inject_Z n * pow2 (u + s) == inject_Z (n * 2 ^ s) * pow2 u)%Q) by (apply pow2_shift; lia).
  assert (Dn' : dv (dmul x y) (inject_Z (n * 2 ^ s) * pow2 u)) by (eapply dv_eq; [exact EN|exact Dn]).
  assert (Bd : Z.abs (P - n * 2 ^ s) <= 2 ^ (s - 1)).
  { rewrite <- Z.abs_opp. replace (- (P - n * 2 ^ s)) with (n * 2 ^ s - P) by lia. apply (abs_Q_Z _ u _ u); [|reflexivity].
    unfold Zminus. rewrite inject_Z_plus, inject_Z_opp.
    assert (EQ : ((inject_Z (n * 2 ^ s) + - inject_Z P) * pow2 u == inject_Z n * pow2 (u + s) - inject_Z P * pow2 u)%Q) by (rewrite EN; ring).
    rewrite EQ. eapply Qle_trans; [exact Rn|]. replace (u + s - 1) with (u + (s - 1)) by lia. rewrite pow2_add, (pow2_Z (s - 1)) by lia.
    rewrite Qmult_comm. apply Qle_refl. }
  exists n, s. split; [exact Hs|]. split; [exact Bn|]. split; [exact Bd|]. split; [exact Dn'|]. split; [|exact R].
  (* the four products *)
  assert (D1 : dv (dmul (mask27 x) (mask27 y)) (inject_Z (A * 2 ^ 27 * (B * 2 ^ 27)) * pow2 u)).
  { apply mul_exact; [exact DA|exact DB|]. apply (fits_intro _ _ 54); [exists (A * B); split; [ring|]|lia|fold u; lia|fold u; lia].
    rewrite Z.abs_eq by (apply Z.mul_nonneg_nonneg; lia). apply Z.le_trans with (2 ^ 26 * 2 ^ 26); [apply Z.mul_le_mono_nonneg; lia|cbn; lia]. }
  assert (D2 : dv (dmul (mask27 x) (dsub y (mask27 y))) (inject_Z (A * 2 ^ 27 * bl) * pow2 u)).
  { apply mul_exact; [exact DA|exact DBl|]. apply (fits_intro _ _ 27); [exists (A * bl); split; [ring|]|lia|fold u; lia|fold u; lia].
    rewrite Z.abs_eq by (apply Z.mul_nonneg_nonneg; lia). apply Z.le_trans with (2 ^ 26 * 2 ^ 27); [apply Z.mul_le_mono_nonneg; lia|cbn; lia]. }
  assert (D3 : dv (dmul (dsub x (mask27 x)) (mask27 y)) (inject_Z (al * (B * 2 ^ 27)) * pow2 u)).
  { apply mul_exact; [exact DAl|exact DB|]. apply (fits_intro _ _ 27); [exists (al * B); split; [ring|]|lia|fold u; lia|fold u; lia].
    rewrite Z.abs_eq by (apply Z.mul_nonneg_nonneg; lia). apply Z.le_trans with (2 ^ 27 * 2 ^ 26); [apply Z.mul_le_mono_nonneg; lia|cbn; lia]. }
  assert (D4 : dv (dmul (dsub x (mask27 x)) (dsub y (mask27 y))) (inject_Z (al * bl) * pow2 u)).
  { apply mul_exact; [exact DAl|exact DBl|]. apply (fits_intro _ _ 1); [exists (al * b'); split; [rewrite Eb; ring|]|lia|fold u; lia|fold u; lia].
    rewrite Z.abs_eq by (apply Z.mul_nonneg_nonneg; lia). apply Z.le_trans with (2 ^ 27 * 2 ^ 26); [apply Z.mul_le_mono_nonneg; lia|cbn; lia]. }
  (* the sums *)
  assert (Q2 : al * bl <= (2 ^ 27 - 1) * (2 ^ 27 - 1)) by (apply Z.mul_le_mono_nonneg; lia).
  assert (Q3 : al * Zpos my <= (2 ^ 27 - 1) * (2 ^ 53 - 1)) by (apply Z.mul_le_mono_nonneg; lia).
  assert (Q4 : A * 2 ^ 27 * bl <= 2 ^ 53 * (2 ^ 27 - 1)) by (apply Z.mul_le_mono_nonneg; lia).
  assert (Q5 : 0 <= al * bl /\ 0 <= al * Zpos my /\ 0 <= A * 2 ^ 27 * bl) by (repeat split; apply Z.mul_nonneg_nonneg; lia).
  assert (Q6 : al * Zpos my = al * (B * 2 ^ 27) + al * bl) by (replace (Zpos my) with (B * 2 ^ 27 + bl) by (clear - EB; lia); ring).
  assert (Hs2 : 2 ^ (s - 1) <= 2 ^ 52) by (destruct Hs; subst s; cbn; lia).
  assert (Es : exists s', 2 ^ s = 2 ^ 27 * 2 ^ 25 * s') by (destruct Hs; subst s; [exists 1|exists 2]; reflexivity).
  destruct Es as (s' & Es).
  assert (D5 := sub_exact _ _ _ _ _ D1 Dn').
  assert (F5 : fits53 (A * 2 ^ 27 * (B * 2 ^ 27) - n * 2 ^ s) u).
  { apply (fits_intro _ _ 52); [exists (A * B * 4 - n * s'); split; [rewrite Es; ring|]|lia|lia|lia].
    assert (E : (A * B * 4 - n * s') * 2 ^ 52 = P - n * 2 ^ s - (A * 2 ^ 27 * bl + al * Zpos my)) by (rewrite Q6, EP, Es; ring).
    assert (HC : 2 ^ 53 * (2 ^ 27 - 1) + (2 ^ 27 - 1) * (2 ^ 53 - 1) + 2 ^ 52 <= 2 ^ 53 * 2 ^ 52) by (vm_compute; discriminate). clear - E HC Bd Hs2 Q2 Q3 Q4 Q5. lia. }
  specialize (D5 F5).
  assert (D6 := add_exact _ _ _ _ _ D5 D2).
  assert (F6 : fits53 (A * 2 ^ 27 * (B * 2 ^ 27) - n * 2 ^ s + A * 2 ^ 27 * bl) u).
  { apply (fits_intro _ _ 27); [exists (A * B * 2 ^ 27 - n * (2 ^ 25 * s') + A * bl); split; [rewrite Es; ring|]|lia|lia|lia].
    assert (E : (A * B * 2 ^ 27 - n * (2 ^ 25 * s') + A * bl) * 2 ^ 27 = P - n * 2 ^ s - al * Zpos my) by (rewrite Q6, EP, Es; ring).
    assert (HC : (2 ^ 27 - 1) * (2 ^ 53 - 1) + 2 ^ 52 <= 2 ^ 53 * 2 ^ 27) by (vm_compute; discriminate). clear - E HC Bd Hs2 Q2 Q3 Q4 Q5. lia. }
  specialize (D6 F6).
  assert (D7 := add_exact _ _ _ _ _ D6 D3).
  assert (F7 : fits53 (A * 2 ^ 27 * (B * 2 ^ 27) - n * 2 ^ s + A * 2 ^ 27 * bl + al * (B * 2 ^ 27)) u).
  { apply (fits_intro _ _ 27); [exists (A * B * 2 ^ 27 - n * (2 ^ 25 * s') + A * bl + al * B); split; [rewrite Es; ring|]|lia|lia|lia].
    assert (E : (A * B * 2 ^ 27 - n * (2 ^ 25 * s') + A * bl + al * B) * 2 ^ 27 = P - n * 2 ^ s - al * bl) by (rewrite EP, Es; ring).
    assert (HC : (2 ^ 27 - 1) * (2 ^ 27 - 1) + 2 ^ 52 <= 2 ^ 53 * 2 ^ 27) by (vm_compute; discriminate). clear - E HC Bd Hs2 Q2 Q3 Q4 Q5. lia. }
  specialize (D7 F7).
  assert (D8 := add_exact _ _ _ _ _ D7 D4).
  replace (A * 2 ^ 27 * (B * 2 ^ 27) - n * 2 ^ s + A * 2 ^ 27 * bl + al * (B * 2 ^ 27) + al * bl) with (P - n * 2 ^ s) in D8 by (rewrite EP; ring).
  apply D8. apply (fits_intro _ _ 0); [exists (P - n * 2 ^ s); split; [ring|]|lia|lia|lia]. change (2 ^ 53) with (2 * 2 ^ 52). clear - Bd Hs2. lia.
Qed.
