(** * StbFinal: the decimal digits computed for a double *)

From Coq Require Import ZArith QArith Qabs Qpower Lqa Lia SpecFloat.
From Verif Require Import Base Spec SpecDec SpecFp SpecFp64 Reader Coo Ascii AsciiLemmas Fp64 Fp64Near Stb StbArith StbLemmas StbExact StbBits StbInt StbCoarse StbRaise StbTables StbFar.
Open Scope Z_scope.

(** ** The number printed for an approximation of [P = v * 10^k] *)
Lemma mill_err bits k v c : (Qabs (inject_Z bits - v * ten k) <= c)%Q ->
  (Qabs (inject_Z (millionths bits k) - v * inject_Z (10 ^ 6)) <= (1 # 2) + c * ten (6 - k))%Q.
Proof.
  intros H. apply Qabs_Qle_condition in H. apply Qabs_Qle_condition.
  assert (E : (v * inject_Z (10 ^ 6) == v * ten k * ten (6 - k))%Q).
  { setoid_replace (v * ten k * ten (6 - k))%Q with (v * (ten k * ten (6 - k)))%Q by ring. rewrite <- ten_add. replace (k + (6 - k)) with 6 by lia. reflexivity. }
  rewrite E. clear E. set (P := (v * ten k)%Q) in *.
  assert (T0 := ten_pos (6 - k)).
  assert (M : (- (c * ten (6 - k)) <= (inject_Z bits - P) * ten (6 - k) <= c * ten (6 - k))%Q).
  { split; [setoid_replace (- (c * ten (6 - k)))%Q with (- c * ten (6 - k))%Q by ring|]; apply Qmult_le_compat_r; tauto || lra. }
  assert (W : (- (1 # 2) <= inject_Z (millionths bits k) - inject_Z bits * ten (6 - k) <= 1 # 2)%Q).
  { unfold millionths. destruct (Z.leb_spec k 6) as [Hk|Hk].
    - rewrite inject_Z_mult, <- (ten_Z (6 - k)) by lia. split; lra.
    - set (r := 10 ^ (k - 6)). assert (Hr : 0 < r) by (apply Z.pow_pos_nonneg; lia).
      assert (Hev : r = 2 * (r / 2)).
      { unfold r. replace (k - 6) with (1 + (k - 7)) by lia. rewrite Z.pow_add_r by lia. change (10 ^ 1) with (2 * 5). rewrite <- Z.mul_assoc.
        rewrite (Z.mul_comm 2 (5 * 10 ^ (k - 7))), Z.div_mul by lia. ring. }
      assert (Et : (inject_Z bits * ten (6 - k) * inject_Z r == inject_Z bits)%Q).
      { unfold r. rewrite <- (ten_Z (k - 6)) by lia. rewrite <- Qmult_assoc, <- ten_add. replace (6 - k + (k - 6)) with 0 by lia. change (ten 0) with 1%Q. ring. }
      set (w := (bits + r / 2) / r). pose proof (Z.div_mod (bits + r / 2) r ltac:(lia)) as DM. fold w in DM. pose proof (Z.mod_pos_bound (bits + r / 2) r Hr) as MB.
      assert (RQ : (0 < inject_Z r)%Q) by (rewrite <- (Zlt_Qlt 0); exact Hr).
      assert (Z1 : - r <= 2 * (w * r - bits) <= r) by lia.
      assert (Q1 : (- inject_Z r <= 2 * (inject_Z w * inject_Z r - inject_Z bits) <= inject_Z r)%Q).
      { assert (EQ : (2 * (inject_Z w * inject_Z r - inject_Z bits) == inject_Z (2 * (w * r - bits)))%Q).
        { unfold Zminus. rewrite inject_Z_mult, inject_Z_plus, inject_Z_mult, inject_Z_opp. change (inject_Z 2) with 2%Q. ring. }
        rewrite EQ, <- inject_Z_opp, <- !Zle_Qle. exact Z1. }
      split; apply Qmult_lt_0_le_reg_r with (inject_Z r); try exact RQ; lra. }
  lra.
Qed.

Lemma mill_exact bits k v N : (inject_Z bits == v * ten k)%Q -> (v * inject_Z (10 ^ 6) == inject_Z N)%Q -> 0 <= bits -> millionths bits k = N.
Proof.
  intros Hb HN H0. assert (E : (inject_Z bits * ten (6 - k) == inject_Z N)%Q).
  { rewrite Hb, <- HN. rewrite <- Qmult_assoc, <- ten_add. replace (k + (6 - k)) with 6 by lia. reflexivity. }
  unfold millionths. destruct (Z.leb_spec k 6) as [Hk|Hk].
  - rewrite (ten_Z (6 - k)), <- inject_Z_mult in E by lia. apply inject_Z_injective. exact E.
  - set (r := 10 ^ (k - 6)). assert (Hr : 0 < r) by (apply Z.pow_pos_nonneg; lia).
    assert (Eb : bits = N * r).
    { apply inject_Z_injective. rewrite inject_Z_mult, <- E. unfold r. rewrite <- (ten_Z (k - 6)) by lia. rewrite <- Qmult_assoc, <- ten_add.
      replace (6 - k + (k - 6)) with 0 by lia. change (ten 0) with 1%Q. ring. }
    rewrite Eb, Z.div_add_l by lia. rewrite Z.div_small; [lia|]. split; [apply Z.div_pos; lia|apply Z.div_lt; lia].
Qed.

Lemma mill_tiny bits k : 0 <= bits < 2 ^ 62 -> 300 <= k -> millionths bits k = 0.
Proof.
  intros Hb Hk. unfold millionths. destruct (Z.leb_spec k 6); [lia|]. apply Z.div_small.
  assert (Hr : 10 ^ 30 <= 10 ^ (k - 6)) by (apply Z.pow_le_mono_r; lia). assert (2 ^ 62 * 4 < 10 ^ 30) by reflexivity.
  pose proof (Z.div_mod (10 ^ (k - 6)) 2 ltac:(lia)). pose proof (Z.mod_pos_bound (10 ^ (k - 6)) 2 ltac:(lia)). lia.
Qed.

(** ** The exponent *)
Lemma denormal_spec fuel : forall m v expo L, v = 2 ^ (Z.of_nat fuel - 1) -> 0 < m < 2 ^ Z.of_nat fuel -> 2 ^ L <= m < 2 ^ (L + 1) -> 0 <= L ->
  denormal_expo fuel m v expo = Ok (expo + L + 1 - Z.of_nat fuel).
Proof.
  induction fuel as [|f IH]; intros m v expo L Ev Hm HL HL0; [cbn in Hm; lia|].
  replace (Z.of_nat (S f) - 1) with (Z.of_nat f) in Ev by lia. cbn [denormal_expo].
  assert (Hlog : Z.log2 m = L) by (apply Z.log2_unique; [exact HL0|unfold Z.succ; exact HL]).
  assert (HLf : L <= Z.of_nat f). { rewrite <- Hlog. assert (Z.log2 m < Z.of_nat (S f)) by (apply Z.log2_lt_pow2; lia). lia. }
  destruct (Z.eq_dec L (Z.of_nat f)) as [E|E].
  - assert (Hn : Z.land m v <> 0).
    { intros C. assert (T : Z.testbit (Z.land m v) L = false) by (rewrite C; apply Z.testbit_0_l). rewrite Z.land_spec, Ev, <- E, Z.pow2_bits_true in T by lia.
      rewrite Bool.andb_true_r, <- Hlog, Z.bit_log2 in T by lia. discriminate. }
    destruct (Z.eqb_spec (Z.land m v) 0); [contradiction|]. f_equal. lia.
  - assert (Hz : Z.land m v = 0).
    { apply Z.bits_inj'. intros i Hi. rewrite Z.land_spec, Z.bits_0, Ev. destruct (Z.eq_dec i (Z.of_nat f)) as [->|Ne].
      - rewrite Z.bits_above_log2; [reflexivity|lia|lia].
      - rewrite Z.pow2_bits_false by lia. apply Bool.andb_false_r. }
    rewrite Hz. cbn [Z.eqb]. rewrite (IH m (Z.shiftr v 1) (expo - 1) L).
    + f_equal. lia.
    + rewrite Ev, Z.shiftr_div_pow2 by lia. replace (Z.of_nat f) with (Z.of_nat f - 1 + 1) at 1 by lia.
      destruct f as [|f]; [lia|]. rewrite Z.pow_add_r by lia. change (2 ^ 1) with 2. apply Z.div_mul. lia.
    + split; [lia|]. apply Z.lt_le_trans with (2 ^ (L + 1)); [apply HL|]. apply Z.pow_le_mono_r; lia.
    + exact HL.
    + exact HL0.
Qed.

Lemma expo_spec m e : is_double (S754_finite false m e) -> exists E, expo_of (Zpos m) e = Ok (E + 1023) /\ -1074 <= E <= 1023 /\
  (pow2 E <= inject_Z (Zpos m) * pow2 e)%Q /\ (inject_Z (Zpos m) * pow2 e < pow2 (E + 1))%Q /\ (E < -1022 <-> Zpos m < 2 ^ 52) /\ (2 ^ 52 <= Zpos m -> E = e + 52).
Proof.
  intros H. destruct (finite_bounds _ _ _ H) as (B1 & B2 & B3).
  pose proof (Z.log2_spec (Zpos m) eq_refl) as [L1 L2]. set (L := Z.log2 (Zpos m)) in *. assert (L0 : 0 <= L) by apply Z.log2_nonneg.
  assert (L52 : L <= 52). { unfold L. assert (Z.log2 (Zpos m) < 53) by (apply Z.log2_lt_pow2; lia). lia. }
  exists (e + L). assert (Q1 : (pow2 (e + L) <= inject_Z (Zpos m) * pow2 e)%Q).
  { rewrite Z.add_comm, pow2_add, (pow2_Z L L0). apply Qmult_le_compat_r; [rewrite <- Zle_Qle; exact L1|apply pow2_ge0]. }
  assert (Q2 : (inject_Z (Zpos m) * pow2 e < pow2 (e + L + 1))%Q).
  { replace (e + L + 1) with (L + 1 + e) by lia. rewrite pow2_add, (pow2_Z (L + 1)) by lia. apply Qmult_lt_compat_r; [apply pow2_pos|]. rewrite <- Zlt_Qlt. exact L2. }
  unfold expo_of. destruct (Z.leb_spec (2 ^ 52) (Zpos m)) as [Hn|Hn].
  - assert (L = 52). { assert (52 <= L) by (apply Z.log2_le_pow2; lia). lia. }
    split; [f_equal; lia|]. split; [lia|]. split; [exact Q1|]. split; [exact Q2|]. split; [split; lia|lia].
  - destruct B3 as [B3|B3]; [lia|]. assert (L < 52) by (apply Z.log2_lt_pow2; lia).
    rewrite (denormal_spec 52 (Zpos m) (2 ^ 51) 0 L); [|reflexivity|change (Z.of_nat 52) with 52; lia|unfold Z.succ in L2; split; assumption|exact L0].
    split; [f_equal; change (Z.of_nat 52) with 52; lia|]. split; [lia|]. split; [exact Q1|]. split; [exact Q2|]. split; [split; lia|lia].
Qed.

Lemma far_bits m e E : is_double (S754_finite false m e) -> let v := (inject_Z (Zpos m) * pow2 e)%Q in
  (pow2 E <= v)%Q -> (v < pow2 (E + 1))%Q -> -1074 <= E <= 1023 -> let k := 18 - tens_est (E + 1023) in ~ (0 <= k <= 22) ->
  exists bits ph pl, raise_to_power10 (S754_finite false m e) k = Ok (ph, pl) /\ ddtoS64 ph pl = Ok bits /\ 10 ^ 17 <= bits < 2 ^ 62 /\
    (inject_Z (10 ^ 17) <= v * ten k)%Q /\ (E < -1022 \/ (Qabs (inject_Z bits - v * ten k) <= 51 # 50)%Q).
Proof.
  intros Hd v Q1 Q2 HE k Hk.
  destruct (raise_far _ v E (finite_dv m e Hd) Q1 (Qlt_le_weak _ _ Q2) HE Hk) as (P1 & P2 & P3 & [ph pl] & R1 & (h & l & Dh & Dl & Eh & El)).
  fold k in P1, P2, P3, R1, Eh, El. cbn [fst snd] in Dh, Dl. set (P := (v * ten k)%Q) in *.
  set (D := if E <? -1022 then dmax else d1) in *.
  assert (C1 : (inject_Z (10 ^ 17 + 2) == 100000000000000002 # 1)%Q) by reflexivity.
  assert (C2 : (inject_Z (2 ^ 62 - 10 ^ 6) == 4611686018426387904 # 1)%Q) by reflexivity.
  assert (C3 : (inject_Z (2 ^ 53) == 9007199254740992 # 1)%Q) by reflexivity.
  assert (C4 : (inject_Z (2 ^ 62) == 4611686018427387904 # 1)%Q) by reflexivity.
  assert (C5 : (inject_Z (2 ^ 61) == 2305843009213693952 # 1)%Q) by reflexivity.
  assert (C6 : (inject_Z (10 ^ 17 + 10 ^ 6) == 100000000001000000 # 1)%Q) by reflexivity.
  rewrite C1 in P1. rewrite C2 in P2. rewrite C6 in P3.
  assert (HD : (D * P <= dmax * P)%Q).
  { apply DX; [lra|]. unfold D. destruct (E <? -1022); discriminate. }
  assert (Eh' := Eh). assert (El' := El). consts.
  destruct (ddtoS64_spec _ _ _ _ Dh Dl) as (bits & B1 & B2).
  - rewrite C3. lra.
  - rewrite C4. lra.
  - apply Qabs_Qlt_condition. rewrite C5. split; lra.
  - apply Qabs_Qlt_condition in B2. destruct B2 as [B2 B3].
    exists bits, ph, pl. split; [exact R1|]. split; [exact B1|].
    assert (HB : E < -1022 \/ (Qabs (inject_Z bits - P) <= 51 # 50)%Q).
    { unfold D in *. destruct (Z.ltb_spec E (-1022)) as [C|C]; [left; exact C|right]. apply Qabs_Qle_condition. consts2. split; lra. }
    split; [|split; [|exact HB]].
    + split.
      * apply Z.lt_le_incl. rewrite Zlt_Qlt. change (inject_Z (10 ^ 17)) with (100000000000000000 # 1)%Q. destruct HB as [HB|HB].
        -- specialize (P3 HB). lra.
        -- apply Qabs_Qle_condition in HB. lra.
      * rewrite Zlt_Qlt, C4. lra.
    + change (inject_Z (10 ^ 17)) with (100000000000000000 # 1)%Q. lra.
Qed.

Lemma bits_any m e : is_double (S754_finite false m e) -> let v := (inject_Z (Zpos m) * pow2 e)%Q in
  exists E bits ph pl, let k := 18 - tens_est (E + 1023) in
    expo_of (Zpos m) e = Ok (E + 1023) /\ raise_to_power10 (S754_finite false m e) k = Ok (ph, pl) /\ ddtoS64 ph pl = Ok bits /\
    10 ^ 17 <= bits < 2 ^ 62 /\ -290 <= k <= 400 /\ -1074 <= E /\ (pow2 E <= v)%Q /\ (v < pow2 (E + 1))%Q /\ (inject_Z (10 ^ 17) <= v * ten k)%Q /\
    (E < -1022 \/ (Qabs (inject_Z bits - v * ten k) <= 51 # 50)%Q) /\ (-16 <= E <= 59 -> (Qabs (inject_Z bits - v * ten k) < 1)%Q).
Proof.
  intros Hd v. destruct (expo_spec m e Hd) as (E & Ee & HE & Q1 & Q2 & Hn & He). fold v in Q1, Q2.
  pose proof (far_all E HE) as F. unfold far_ok in F. cbv zeta in F. apply andb_prop in F as [F F0]. apply andb_prop in F as [F1 F2]. apply Z.leb_le in F1, F2.
  set (k := 18 - tens_est (E + 1023)) in *.
  destruct (Z_le_gt_dec 0 k) as [K1|K1]; [destruct (Z_le_gt_dec k 22) as [K2|K2]|].
  - assert (HE2 : -16 <= E <= 59).
    { apply Bool.orb_prop in F0 as [F0|F0].
      - apply andb_prop in F0 as [F0 G2]. apply andb_prop in F0 as [_ G1]. apply Z.leb_le in G1, G2. lia.
      - apply andb_prop in F0 as [_ F0]. apply Bool.orb_prop in F0 as [F0|F0]; repeat (apply andb_prop in F0 as [F0 _]); apply Z.ltb_lt in F0; lia. }
    assert (Bm : 2 ^ 52 <= Zpos m) by (destruct (Z_lt_ge_dec (Zpos m) (2 ^ 52)) as [C|C]; [apply Hn in C; lia|lia]).
    specialize (He Bm). subst E. destruct (bits_exact m e Hd Bm ltac:(lia)) as (P1 & P2 & ph & pl & bits & R1 & R2 & R3).
    set (k0 := 18 - tens_est (e + 1075)) in *. assert (Ek : k = k0) by (unfold k, k0; replace (e + 52 + 1023) with (e + 1075) by lia; reflexivity).
    assert (EP : (inject_Z (Zpos m * 10 ^ k0) * pow2 e == v * ten k0)%Q) by (unfold v; rewrite inject_Z_mult, (ten_Z k0) by lia; ring).
    rewrite EP in P1, P2, R3. rewrite <- Ek in P1, P2, R3, R1. apply Qabs_Qlt_condition in R3 as R3'. destruct R3' as [R4 R5].
    assert (Hb : 10 ^ 17 <= bits < 2 ^ 62).
    { split.
      - assert (G : (inject_Z (10 ^ 17 - 1) < inject_Z bits)%Q).
        { unfold Zminus. rewrite inject_Z_plus. change (inject_Z (- (1))) with (-1 # 1)%Q. lra. }
        rewrite <- Zlt_Qlt in G. lia.
      - assert (G : (inject_Z bits < inject_Z (2 * 10 ^ 18 + 1))%Q) by (rewrite inject_Z_plus; change (inject_Z 1) with 1%Q; lra).
        rewrite <- Zlt_Qlt in G. assert (2 * 10 ^ 18 + 1 < 2 ^ 62) by reflexivity. lia. }
    exists (e + 52), bits, ph, pl. cbv zeta. fold k.
    split; [exact Ee|]. split; [exact R1|]. split; [exact R2|]. split; [exact Hb|]. split; [lia|]. split; [lia|]. split; [exact Q1|]. split; [exact Q2|]. split; [exact P1|].
    split; [right; apply Qlt_le_weak; eapply Qlt_trans; [exact R3|reflexivity]|]. intros _. exact R3.
  - destruct (far_bits m e E Hd Q1 Q2 HE) as (bits & ph & pl & R1 & R2 & R3 & R4 & R5); [fold k; lia|].
    exists E, bits, ph, pl. cbv zeta. fold k. fold k in R1, R4, R5. fold v in R4, R5. assert (HK : -290 <= k <= 400) by lia.
    split; [exact Ee|]. split; [exact R1|]. split; [exact R2|]. split; [exact R3|]. split; [exact HK|]. split; [lia|]. split; [exact Q1|]. split; [exact Q2|]. split; [exact R4|].
    split; [exact R5|]. intros C. exfalso. destruct (est_range E C) as [C1 _]. fold k in C1. lia.
  - destruct (far_bits m e E Hd Q1 Q2 HE) as (bits & ph & pl & R1 & R2 & R3 & R4 & R5); [fold k; lia|].
    exists E, bits, ph, pl. cbv zeta. fold k. fold k in R1, R4, R5. fold v in R4, R5. assert (HK : -290 <= k <= 400) by lia.
    split; [exact Ee|]. split; [exact R1|]. split; [exact R2|]. split; [exact R3|]. split; [exact HK|]. split; [lia|]. split; [exact Q1|]. split; [exact Q2|]. split; [exact R4|].
    split; [exact R5|]. intros C. exfalso. destruct (est_range E C) as [C1 _]. fold k in C1. lia.
Qed.

(** ** The digits *)
Definition neg_bit (x : spec_float) : bool :=
  match x with S754_zero s | S754_infinity s => s | S754_finite s _ _ => s | S754_nan => false end.

Lemma k_six E : -16 <= E <= 39 -> 6 <= 18 - tens_est (E + 1023).
Proof.
  intros H. assert (K : forallb (fun i => 6 <=? 18 - tens_est (i + 1023)) (map (fun j => -16 + Z.of_nat j) (seq 0 56)) = true) by (vm_compute; reflexivity).
  rewrite forallb_forall in K. apply Z.leb_le. apply K. apply In_range. lia.
Qed.
Lemma k_tiny E : -1074 <= E < -1022 -> 300 <= 18 - tens_est (E + 1023).
Proof.
  intros H. assert (K : forallb (fun i => 300 <=? 18 - tens_est (i + 1023)) (map (fun j => -1074 + Z.of_nat j) (seq 0 52)) = true) by (vm_compute; reflexivity).
  rewrite forallb_forall in K. apply Z.leb_le. apply K. apply In_range. lia.
Qed.
Lemma pow2_lt_inv a b : (pow2 a < pow2 b)%Q -> a < b.
Proof. intros H. apply Z.nle_gt. intros C. apply (Qlt_not_le _ _ H). apply pow2_mono. exact C. Qed.
Lemma Qeq_refl_int a b : a = b -> (inject_Z a == inject_Z b)%Q.
Proof. intros ->. reflexivity. Qed.

Lemma real_spec x q : is_double x -> denotes x q ->
  exists sn dp, real_to_str x = Ok (RFinite (neg_bit x) sn dp) /\ all_digits sn /\ (sn = [] -> dp <= 0) /\ dp <= 310 /\
    (Qabs (inject_Z (sixth sn dp) - Qabs q * inject_Z (10 ^ 6)) <= (1 # 2) + (51 # 50) * (Qabs q * (1 # 100000000000)))%Q /\
    (forall n, (Qabs q * 64 == inject_Z n)%Q -> (Qabs q < pow2 40)%Q -> sixth sn dp = n * 15625) /\
    (forall n, (Qabs q == inject_Z n)%Q -> (Qabs q < pow2 60)%Q -> sixth sn dp = n * 10 ^ 6).
Proof.
  intros Hx (w & Ew & Eq). destruct x as [s|s| |s m e]; cbn [sf_value] in Ew; try discriminate; injection Ew as <-.
  - exists [ch_0], 1. assert (EQ : (Qabs q == 0)%Q) by (rewrite <- Eq; reflexivity). cbn [real_to_str neg_bit]. split; [reflexivity|].
    split; [repeat constructor|]. split; [discriminate|]. split; [lia|]. change (sixth [ch_0] 1) with 0. rewrite EQ. split; [vm_compute; discriminate|].
    split; intros n En _; rewrite EQ in En; assert (n = 0) by (apply inject_Z_injective; rewrite <- En; reflexivity); subst n; reflexivity.
  - assert (Hd : is_double (S754_finite false m e)) by exact Hx.
    destruct (bits_any m e Hd) as (E & bits & ph & pl & R1 & R2 & R3 & Hb & Hk & HE0 & Q1 & Q2 & P1 & B1 & B2).
    set (v := (inject_Z (Zpos m) * pow2 e)%Q) in *. set (t0 := tens_est (E + 1023)) in *. set (k := 18 - t0) in *.
    assert (Hv : (0 < v)%Q) by (apply Qlt_le_trans with (pow2 E); [apply pow2_pos|exact Q1]).
    assert (EQ : (Qabs q == v)%Q).
    { rewrite <- Eq. fold v. destruct s.
      - setoid_replace (- inject_Z (Zpos m) * pow2 e)%Q with (- v)%Q by (unfold v; ring). rewrite Qabs_opp, Qabs_pos by lra. reflexivity.
      - fold v. rewrite Qabs_pos by lra. reflexivity. }
    cbn [real_to_str neg_bit]. rewrite R1. cbn [bind]. fold t0. fold k. rewrite R2. cbn [bind]. rewrite R3. cbn [bind].
    destruct (finish_spec s bits t0 Hb ltac:(unfold k in Hk; lia)) as (sn & dp & F1 & F2 & F3 & F4 & F5 & F6). cbv zeta in F1.
    exists sn, dp. fold k in F6. rewrite F6. split; [exact F1|]. split; [exact F2|]. split; [exact F3|]. split; [unfold k in Hk; lia|].
    rewrite EQ. split; [|split].
    + destruct B1 as [B1|B1].
      * pose proof (k_tiny E ltac:(lia)) as K300. fold t0 in K300. fold k in K300.
        rewrite (mill_tiny bits k) by lia. change (inject_Z 0) with 0%Q. change (inject_Z (10 ^ 6)) with (1000000 # 1)%Q.
        assert (V1 : (v <= 1 # 10000000)%Q). { apply Qlt_le_weak. eapply Qlt_le_trans; [exact Q2|]. eapply Qle_trans; [apply (pow2_mono _ (-30)); lia|]. vm_compute. discriminate. }
        apply Qabs_Qle_condition. split; lra.
      * eapply Qle_trans; [apply mill_err; exact B1|]. assert (T : (ten (6 - k) <= v * (1 # 100000000000))%Q).
        { apply Qmult_lt_0_le_reg_r with (ten k); [apply ten_pos|]. rewrite <- ten_add. replace (6 - k + k) with 6 by lia.
          change (ten 6) with (1000000 # 1)%Q. change (inject_Z (10 ^ 17)) with (100000000000000000 # 1)%Q in P1. lra. }
        lra.
    + intros n En Hlt. rewrite EQ in En, Hlt. apply mill_exact with v; [|rewrite inject_Z_mult, <- En; change (inject_Z 15625) with (15625 # 1)%Q; change (inject_Z (10 ^ 6)) with (1000000 # 1)%Q; lra|lia].
      assert (Hn : 1 <= n).
      { assert (G : (inject_Z 0 < inject_Z n)%Q) by (rewrite <- En; change (inject_Z 0) with 0%Q; lra). rewrite <- Zlt_Qlt in G. lia. }
      assert (HE : -16 <= E <= 39).
      { assert (G : (1 <= inject_Z n)%Q) by (change 1%Q with (inject_Z 1); rewrite <- Zle_Qle; exact Hn). split.
        - assert (-7 < E); [|lia]. apply pow2_lt_inv. apply Qlt_le_trans with (pow2 (E + 1) * (1 # 2))%Q; [change (pow2 (-7)) with (1 # 128)%Q; lra|].
          rewrite pow2_add. change (pow2 1) with 2%Q. lra.
        - assert (E < 40); [|lia]. apply pow2_lt_inv. eapply Qle_lt_trans; [exact Q1|exact Hlt]. }
      pose proof (k_six E HE) as K6. fold t0 in K6. fold k in K6.
      assert (EN : (v * ten k == inject_Z (n * 15625 * 10 ^ (k - 6)))%Q).
      { replace k with (6 + (k - 6)) at 1 by lia. rewrite ten_add, (ten_Z (k - 6)) by lia. change (ten 6) with (1000000 # 1)%Q.
        rewrite !inject_Z_mult, <- En. change (inject_Z 15625) with (15625 # 1)%Q. setoid_replace (1000000 # 1)%Q with (64 * (15625 # 1))%Q by reflexivity. ring. }
      rewrite EN. apply Qeq_refl_int. apply Qabs_lt_int. rewrite <- EN. apply B2. lia.
    + intros n En Hlt. rewrite EQ in En, Hlt. apply mill_exact with v; [|rewrite inject_Z_mult, <- En; reflexivity|lia].
      assert (Hn : 1 <= n).
      { assert (G : (inject_Z 0 < inject_Z n)%Q) by (rewrite <- En; change (inject_Z 0) with 0%Q; lra). rewrite <- Zlt_Qlt in G. lia. }
      assert (HE : -16 <= E <= 59).
      { assert (G : (1 <= inject_Z n)%Q) by (change 1%Q with (inject_Z 1); rewrite <- Zle_Qle; exact Hn). split.
        - assert (-1 < E); [|lia]. apply pow2_lt_inv. apply Qlt_le_trans with (pow2 (E + 1) * (1 # 2))%Q; [change (pow2 (-1)) with (1 # 2)%Q; lra|].
          rewrite pow2_add. change (pow2 1) with 2%Q. lra.
        - assert (E < 60); [|lia]. apply pow2_lt_inv. eapply Qle_lt_trans; [exact Q1|exact Hlt]. }
      destruct (est_range E HE) as (K0 & _). fold t0 in K0. fold k in K0.
      assert (EN : (v * ten k == inject_Z (n * 10 ^ k))%Q) by (rewrite (ten_Z k), inject_Z_mult, <- En by lia; reflexivity).
      rewrite EN. apply Qeq_refl_int. apply Qabs_lt_int. rewrite <- EN. apply B2. exact HE.
Qed.
