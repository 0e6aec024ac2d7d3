(** * StbInt: rounding and printing of the digits *)

From Coq Require Import ZArith Lia.
From Verif Require Import Base Sched Spec SpecDec SpecFp Coo Ascii AsciiLemmas StbLemmas Stb.
Open Scope Z_scope.

Notation lenZ l := (Z.of_nat (length l)).

Lemma is_digit_0 d : 0 <= d <= 9 -> is_digit (ch_0 + d) = true.
Proof. intros H. unfold is_digit, ch_0, ch_9. apply andb_true_intro. split; apply Z.leb_le; lia. Qed.

Lemma put_pairs_spec f : forall n out, 0 <= n < 100 ^ Z.of_nat f ->
  exists l j, put_pairs (S f) n out = Ok (l ++ out) /\ all_digits l /\ dval l = n /\ lenZ l = 2 * j /\ 0 <= j /\
    (n = 0 -> l = []) /\ (0 < n -> 1 <= j /\ 100 ^ (j - 1) <= n).
Proof.
  induction f as [|f IH]; intros n out Hn.
  - exists [], 0. assert (n = 0) by (cbn in Hn; lia). subst n. cbn [put_pairs]. rewrite Z.eqb_refl.
    split; [reflexivity|]. split; [constructor|]. split; [reflexivity|]. split; [reflexivity|]. split; [lia|]. split; [reflexivity|lia].
  - change (put_pairs (S (S f)) n out) with (if n =? 0 then Ok out else put_pairs (S f) (n / 100) (ch_0 + (n mod 100) / 10 :: ch_0 + (n mod 100) mod 10 :: out)).
    destruct (Z.eqb_spec n 0) as [->|H0].
    { exists [], 0. split; [reflexivity|]. split; [constructor|]. split; [reflexivity|]. split; [reflexivity|]. split; [lia|]. split; [reflexivity|lia]. }
    pose proof (Z.div_mod n 100 ltac:(discriminate)) as D. pose proof (Z.mod_pos_bound n 100 ltac:(reflexivity)) as M.
    rewrite Nat2Z.inj_succ, Z.pow_succ_r in Hn by lia.
    assert (Hq : 0 <= n / 100 < 100 ^ Z.of_nat f) by (split; [apply Z.div_pos; lia|apply Z.div_lt_upper_bound; lia]).
    set (a := ch_0 + (n mod 100) / 10). set (b := ch_0 + (n mod 100) mod 10).
    destruct (IH (n / 100) (a :: b :: out) Hq) as (l & j & E & Hd & Hv & Hl & Hj & Hz & Hp).
    pose proof (Z.div_mod (n mod 100) 10 ltac:(discriminate)) as D2. pose proof (Z.mod_pos_bound (n mod 100) 10 ltac:(reflexivity)) as M2.
    assert (0 <= n mod 100 / 10 <= 9) by (split; [apply Z.div_pos; lia|apply Z.lt_succ_r; apply Z.div_lt_upper_bound; lia]).
    exists (l ++ [a; b]), (j + 1). split; [rewrite E, <- app_assoc; reflexivity|]. split.
    { apply Forall_app. split; [exact Hd|]. constructor; [apply is_digit_0; lia|]. constructor; [apply is_digit_0; lia|constructor]. }
    split.
    { rewrite dval_app_pow. cbn [length]. change (Z.of_nat 2) with 2. change (10 ^ 2) with 100. rewrite Hv. unfold dval. cbn [fold_left]. unfold a, b. lia. }
    split; [rewrite app_length; cbn [length]; lia|]. split; [lia|]. split; [intros C; contradiction|]. intros Hpos. split; [lia|].
    replace (j + 1 - 1) with j by lia. destruct (Z.eq_dec (n / 100) 0) as [E0|E0].
    + specialize (Hz E0). subst l. cbn [length] in Hl. assert (j = 0) by lia. subst j. change (100 ^ 0) with 1. lia.
    + destruct Hp as [Hj1 Hp]; [lia|]. replace j with (Z.succ (j - 1)) by lia. rewrite Z.pow_succ_r by lia. lia.
Qed.

Lemma digits_loop_spec f : forall bits out, 0 < bits < 10 ^ (8 * Z.of_nat f) ->
  exists l, digits_loop f bits out = Ok (l ++ out) /\ all_digits l /\ dval l = bits /\ 10 ^ (lenZ l - 1) <= bits /\ 1 <= lenZ l.
Proof.
  induction f as [|f IH]; intros bits out Hb; [cbn in Hb; lia|]. cbn [digits_loop].
  destruct (Z.leb_spec 100000000 bits) as [Hbig|Hsm].
  - rewrite Z.rem_mod_nonneg, Z.quot_div_nonneg by lia.
    pose proof (Z.mod_pos_bound bits 100000000 ltac:(reflexivity)) as M. pose proof (Z.div_mod bits 100000000 ltac:(discriminate)) as D.
    destruct (put_pairs_spec 5 (bits mod 100000000) out) as (l0 & j & E & Hd & Hv & Hl & Hj & Hz & Hp); [cbn; lia|].
    rewrite E. cbn [bind]. assert (Hq : 1 <= bits / 100000000) by (apply Z.div_le_lower_bound; lia).
    destruct (Z.eqb_spec (bits / 100000000) 0) as [E0|_]; [lia|].
    assert (Hlen : (length l0 <= 8)%nat).
    { destruct (Z.eq_dec (bits mod 100000000) 0) as [E0|E0]; [rewrite (Hz E0); cbn; lia|]. destruct Hp as [Hj1 Hp]; [lia|].
      assert (j - 1 < 4); [|lia]. apply (Z.pow_lt_mono_r_iff 100); [lia|lia|]. change (100 ^ 4) with 100000000. lia. }
    rewrite app_length. replace (length l0 + length out - length out)%nat with (length l0) by lia.
    set (pad := (repeat ch_0 (8 - length l0))%nat).
    destruct (IH (bits / 100000000) ((pad ++ l0) ++ out)) as (l & E2 & Hd2 & Hv2 & Hl2 & Hl3).
    { split; [lia|]. apply Z.div_lt_upper_bound; [lia|]. replace (8 * Z.of_nat (S f)) with (8 + 8 * Z.of_nat f) in Hb by lia. rewrite Z.pow_add_r in Hb by lia. change (10 ^ 8) with 100000000 in Hb. lia. }
    assert (Hpl : lenZ (pad ++ l0) = 8) by (unfold pad; rewrite app_length, repeat_length; lia).
    exists (l ++ pad ++ l0). split; [rewrite app_assoc, E2, <- !app_assoc; reflexivity|]. split.
    { apply Forall_app. split; [exact Hd2|]. apply Forall_app. split; [apply all_digits_zeros|exact Hd]. }
    split.
    { rewrite dval_app_pow, Hpl, Hv2. rewrite dval_app_pow. unfold pad. rewrite dval_zeros, Hv. change (10 ^ 8) with 100000000. lia. }
    rewrite app_length, Nat2Z.inj_add, Hpl. split; [|lia].
    replace (lenZ l + 8 - 1) with (8 + (lenZ l - 1)) by lia. rewrite Z.pow_add_r by lia. change (10 ^ 8) with 100000000. lia.
  - replace (wrap u32 bits) with bits by (unfold wrap; cbn [isigned u32 ibits]; rewrite Z.mod_small; [reflexivity|change (2 ^ 32) with 4294967296; lia]).
    destruct (put_pairs_spec 5 bits out) as (l0 & j & E & Hd & Hv & Hl & Hj & Hz & Hp); [cbn; lia|].
    rewrite E. cbn [bind]. rewrite Z.eqb_refl. destruct Hp as [Hj1 Hp]; [lia|].
    destruct l0 as [|c l0]; [cbn [length] in Hl; lia|]. cbn [app]. inversion Hd as [|? ? Hc Hd0]; subst.
    assert (Hc2 : 0 <= c - ch_0 <= 9) by (unfold is_digit, ch_0, ch_9 in Hc; apply andb_prop in Hc as [C1 C2]; apply Z.leb_le in C1, C2; unfold ch_0; lia).
    assert (Hv0 : dval (c :: l0) = (c - ch_0) * 10 ^ lenZ l0 + dval l0).
    { change (c :: l0) with ([c] ++ l0). rewrite dval_app_pow. f_equal. }
    pose proof (dval_range l0 Hd0) as R. cbn [length] in Hl. rewrite Nat2Z.inj_succ in Hl.
    destruct (Z.eqb_spec c ch_0) as [->|Hne].
    + exists l0. split; [reflexivity|]. split; [exact Hd0|]. split; [lia|]. split; [|lia].
      assert (E100 : 10 ^ (lenZ l0 - 1) = 100 ^ (j - 1)).
      { replace (lenZ l0 - 1) with (2 * (j - 1)) by lia. rewrite Z.pow_mul_r by lia. reflexivity. }
      lia.
    + exists (c :: l0). split; [reflexivity|]. split; [constructor; assumption|]. split; [reflexivity|]. cbn [length]. rewrite Nat2Z.inj_succ.
      split; [|lia]. replace (Z.succ (lenZ l0) - 1) with (lenZ l0) by lia.
      assert (1 <= c - ch_0) by lia. assert (0 < 10 ^ lenZ l0) by (apply Z.pow_pos_nonneg; lia). nia.
Qed.

Lemma kill64_spec f : forall bits, 0 < bits <= 4294967295 * 1000 ^ Z.of_nat f ->
  exists b s j, kill64 (S f) bits = Ok (b, s) /\ 0 <= j /\ bits = b * 10 ^ (3 * j) /\ 0 < b /\ (s = true -> b <= 4294967295).
Proof.
  induction f as [|f IH]; intros bits Hb.
  - exists bits, true, 0. cbn [kill64]. destruct (Z.leb_spec bits 4294967295) as [H|H]; [|cbn in Hb; lia].
    split; [reflexivity|]. split; [lia|]. split; [cbn; lia|]. split; [lia|auto].
  - change (kill64 (S (S f)) bits) with (if bits <=? 4294967295 then Ok (bits, true) else if Z.rem bits 1000 =? 0 then kill64 (S f) (Z.quot bits 1000) else Ok (bits, false)).
    destruct (Z.leb_spec bits 4294967295) as [H|H].
    { exists bits, true, 0. split; [reflexivity|]. split; [lia|]. split; [cbn; lia|]. split; [lia|auto]. }
    rewrite Z.rem_mod_nonneg, Z.quot_div_nonneg by lia. destruct (Z.eqb_spec (bits mod 1000) 0) as [E|E].
    + pose proof (Z.div_mod bits 1000 ltac:(discriminate)) as D. rewrite Nat2Z.inj_succ, Z.pow_succ_r in Hb by lia.
      destruct (IH (bits / 1000)) as (b & s & j & E1 & Hj & E2 & Hb0 & Hs); [lia|].
      exists b, s, (j + 1). split; [exact E1|]. split; [lia|]. split; [|split; assumption].
      replace (3 * (j + 1)) with (3 + 3 * j) by lia. rewrite Z.pow_add_r by lia. change (10 ^ 3) with 1000. lia.
    + exists bits, false, 0. split; [reflexivity|]. split; [lia|]. split; [cbn; lia|]. split; [lia|discriminate].
Qed.
Lemma kill32_spec f : forall n, 0 < n < 1000 ^ Z.of_nat f ->
  exists b j, kill32 f n = Ok b /\ 0 <= j /\ n = b * 10 ^ (3 * j) /\ 0 < b.
Proof.
  induction f as [|f IH]; intros n Hn; [cbn in Hn; lia|]. cbn [kill32]. destruct (Z.eqb_spec (n mod 1000) 0) as [E|E].
  - pose proof (Z.div_mod n 1000 ltac:(discriminate)) as D. rewrite Nat2Z.inj_succ, Z.pow_succ_r in Hn by lia.
    destruct (IH (n / 1000)) as (b & j & E1 & Hj & E2 & Hb0); [lia|].
    exists b, (j + 1). split; [exact E1|]. split; [lia|]. split; [|assumption].
    replace (3 * (j + 1)) with (3 + 3 * j) by lia. rewrite Z.pow_add_r by lia. change (10 ^ 3) with 1000. lia.
  - exists n, 0. split; [reflexivity|]. split; [lia|]. split; [cbn; lia|lia].
Qed.
Lemma kill_zeros_spec bits : 0 < bits < 10 ^ 19 -> exists b j, kill_zeros bits = Ok b /\ 0 <= j /\ bits = b * 10 ^ (3 * j) /\ 0 < b.
Proof.
  intros Hb. unfold kill_zeros. destruct (Z.eqb_spec bits 0) as [E|E]; [lia|].
  destruct (kill64_spec 6 bits) as (b & s & j & E1 & Hj & E2 & Hb0 & Hs).
  { assert (10 ^ 19 <= 4294967295 * 1000 ^ Z.of_nat 6) by (vm_compute; discriminate). lia. }
  rewrite E1. cbn [bind]. destruct s.
  - specialize (Hs eq_refl). replace (wrap u32 b) with b by (unfold wrap; cbn [isigned u32 ibits]; rewrite Z.mod_small; [reflexivity|change (2 ^ 32) with 4294967296; lia]).
    destruct (kill32_spec 5 b) as (b' & j' & E3 & Hj' & E4 & Hb'); [change (1000 ^ Z.of_nat 5) with 1000000000000000; lia|].
    exists b', (j + j'). split; [exact E3|]. split; [lia|]. split; [|exact Hb'].
    replace (3 * (j + j')) with (3 * j' + 3 * j) by lia. rewrite Z.pow_add_r by lia. rewrite E2, E4. ring.
  - exists b, j. auto.
Qed.

(** The text of [bits]: digits that denote [bits] in units of [10^(tens-L)],
    where [bits] has [L] decimal digits. *)
Definition scaled (bits q : Z) : Z := if 0 <=? q then bits * 10 ^ q else bits / 10 ^ (- q).

Lemma print_bits s bits tens L : 0 < bits < 10 ^ 19 -> 10 ^ (L - 1) <= bits < 10 ^ L -> 1 <= L ->
  exists sn, (b <- kill_zeros bits ;; sn <- digits_loop 4 b [] ;; Ok (RFinite s sn tens)) = Ok (RFinite s sn tens) /\
    all_digits sn /\ sn <> [] /\ (length sn <= 19)%nat /\ sixth sn tens = scaled bits (tens - L + 6).
Proof.
  intros Hb HL HL1. destruct (kill_zeros_spec bits Hb) as (b & j & E1 & Hj & E2 & Hb0). rewrite E1. cbn [bind].
  assert (Hp : 0 < 10 ^ (3 * j)) by (apply Z.pow_pos_nonneg; lia).
  assert (Hle : b <= bits) by nia.
  destruct (digits_loop_spec 4 b []) as (l & E3 & Hd & Hv & Hl & Hl1).
  { assert (10 ^ 19 < 10 ^ (8 * Z.of_nat 4)) by reflexivity. lia. }
  rewrite E3, app_nil_r. cbn [bind]. exists l. split; [reflexivity|]. split; [exact Hd|]. split; [intros ->; cbn in Hl1; lia|].
  assert (EL : L = lenZ l + 3 * j).
  { pose proof (dval_range l Hd) as R. rewrite Hv in R.
    assert (A1 : 10 ^ (L - 1) < 10 ^ (lenZ l + 3 * j)) by (rewrite Z.pow_add_r by lia; nia).
    assert (A2 : 10 ^ (lenZ l - 1 + 3 * j) < 10 ^ L) by (rewrite Z.pow_add_r by lia; nia).
    apply Z.pow_lt_mono_r_iff in A1; [|lia|lia]. apply Z.pow_lt_mono_r_iff in A2; lia. }
  split.
  { assert (A : 10 ^ (lenZ l - 1) < 10 ^ 19) by lia. apply Z.pow_lt_mono_r_iff in A; lia. }
  unfold sixth, scaled. rewrite Hv. set (q := tens - L + 6). replace (tens - lenZ l + 6) with (q + 3 * j) by (unfold q; lia).
  destruct (Z.leb_spec 0 (q + 3 * j)) as [A|A]; destruct (Z.leb_spec 0 q) as [B|B]; try lia.
  - rewrite E2, Z.pow_add_r by lia. ring.
  - rewrite E2. replace (3 * j) with (q + 3 * j + - q) at 2 by lia. rewrite (Z.pow_add_r 10 (q + 3 * j) (- q)) by lia. rewrite Z.mul_assoc, Z.div_mul; [reflexivity|].
    apply Z.pow_nonzero; lia.
  - rewrite E2. replace (- q) with (3 * j + - (q + 3 * j)) by lia. rewrite (Z.pow_add_r 10 (3 * j) (- (q + 3 * j))) by lia. rewrite (Z.mul_comm b), Z.div_mul_cancel_l; [reflexivity| |]; apply Z.pow_nonzero; lia.
Qed.

(** ** The rounding *)
Lemma powten_tab i : 0 <= i <= 19 -> tab powten i = Ok (10 ^ i).
Proof.
  intros Hi. unfold tab. destruct (Z.ltb_spec i 0); [lia|]. unfold powten. rewrite nth_error_map.
  assert (E : nth_error (seq 0 20) (Z.to_nat i) = Some (Z.to_nat i)).
  { rewrite (nth_error_nth' _ 0%nat) by (rewrite seq_length; lia). rewrite seq_nth by lia. reflexivity. }
  rewrite E. cbn [option_map]. rewrite Z2Nat.id by lia. reflexivity.
Qed.

Lemma count_digits_spec f : forall ub dg L, 1 <= dg <= L -> L <= 19 -> L - dg < Z.of_nat f -> 10 ^ (L - 1) <= ub < 10 ^ L ->
  count_digits f ub dg = Ok (Some L).
Proof.
  induction f as [|f IH]; intros ub dg L H1 H2 H3 H4; [lia|]. cbn [count_digits]. rewrite powten_tab by lia. cbn [bind].
  destruct (Z.leb_spec (10 ^ dg) ub) as [H|H].
  - assert (dg < L). { assert (A : 10 ^ dg < 10 ^ L) by lia. apply Z.pow_lt_mono_r_iff in A; lia. }
    destruct (Z.eqb_spec (dg + 1) 20); [lia|]. apply IH; lia.
  - assert (L <= dg); [|replace dg with L by lia; reflexivity]. assert (A : 10 ^ (L - 1) < 10 ^ dg) by lia. apply Z.pow_lt_mono_r_iff in A; lia.
Qed.

(** The number printed for [bits * 10^-k], in millionths: rounded half up. *)
Definition millionths (bits k : Z) : Z :=
  if k <=? 6 then bits * 10 ^ (6 - k) else (bits + 10 ^ (k - 6) / 2) / 10 ^ (k - 6).

Lemma finish_spec s bits t0 : 10 ^ 17 <= bits < 2 ^ 62 -> -400 <= t0 <= 400 ->
  let tens := if tento19th <=? wrap u64 bits then t0 + 1 else t0 in
  exists sn dp, ('(b, t) <- round_bits bits tens ;; b' <- kill_zeros b ;; sn <- digits_loop 4 b' [] ;; Ok (RFinite s sn t)) = Ok (RFinite s sn dp) /\
    all_digits sn /\ (sn = [] -> dp <= 0) /\ (length sn <= 19)%nat /\ dp <= t0 + 2 /\ sixth sn dp = millionths bits (18 - t0).
Proof.
  intros Hb Ht tens. assert (Hlim : 2 ^ 62 < 10 ^ 19) by reflexivity.
  assert (Ew : wrap u64 bits = bits) by (unfold wrap; cbn [isigned u64 ibits]; apply Z.mod_small; assert (2 ^ 62 < 2 ^ 64) by reflexivity; lia).
  unfold tens. rewrite Ew. clear tens.
  assert (HL : exists L, (L = 18 \/ L = 19) /\ 10 ^ (L - 1) <= bits < 10 ^ L /\ (if tento19th <=? bits then t0 + 1 else t0) = L - (18 - t0)).
  { unfold tento19th. destruct (Z.leb_spec (10 ^ 18) bits) as [H|H]; [exists 19|exists 18].
    - split; [auto|]. change (19 - 1) with 18. split; [lia|lia].
    - split; [auto|]. change (18 - 1) with 17. split; [lia|lia]. }
  destruct HL as (L & HL18 & HLb & ->). set (k := 18 - t0). set (tens := L - k).
  assert (Hfd : wrap u32 (tens + 6) = if tens + 6 <? 0 then tens + 6 + 2 ^ 32 else tens + 6).
  { unfold wrap. cbn [isigned u32 ibits]. assert (-2000 <= tens + 6 <= 2000) by (unfold tens, k; lia). change (2 ^ 32) with 4294967296 in *.
    destruct (Z.ltb_spec (tens + 6) 0) as [H0|H0]; [|apply Z.mod_small; lia].
    rewrite <- (Z.mod_add _ 1) by discriminate. apply Z.mod_small. lia. }
  unfold round_bits. rewrite Hfd, Ew. change (2 ^ 32) with 4294967296.
  (* unchanged *)
  assert (Hsame : (k <= 6 \/ L < k - 6) ->
    exists sn dp, ('(b, t) <- Ok (bits, tens) ;; b' <- kill_zeros b ;; sn <- digits_loop 4 b' [] ;; Ok (RFinite s sn t)) = Ok (RFinite s sn dp) /\
    all_digits sn /\ (sn = [] -> dp <= 0) /\ (length sn <= 19)%nat /\ dp <= t0 + 2 /\ sixth sn dp = millionths bits k).
  { intros Hk. cbn [bind]. destruct (print_bits s bits tens L ltac:(lia) HLb ltac:(lia)) as (sn & E & H1 & H2 & H3 & H4).
    exists sn, tens. split; [exact E|]. split; [exact H1|]. split; [intros C; contradiction|]. split; [exact H3|]. split; [unfold tens, k; lia|].
    rewrite H4. unfold scaled, millionths. replace (tens - L + 6) with (6 - k) by (unfold tens; lia).
    destruct Hk as [Hk|Hk].
    - destruct (Z.leb_spec 0 (6 - k)); [|lia]. destruct (Z.leb_spec k 6); [|lia]. reflexivity.
    - destruct (Z.leb_spec 0 (6 - k)); [lia|]. destruct (Z.leb_spec k 6); [lia|]. replace (- (6 - k)) with (k - 6) by lia.
      assert (Hpk : 10 ^ L * 10 <= 10 ^ (k - 6)).
      { replace (k - 6) with (L + 1 + (k - 6 - L - 1)) by lia. rewrite !Z.pow_add_r by lia. change (10 ^ 1) with 10.
        assert (0 < 10 ^ (k - 6 - L - 1)) by (apply Z.pow_pos_nonneg; lia). assert (0 < 10 ^ L * 10) by (assert (0 < 10 ^ L) by (apply Z.pow_pos_nonneg; lia); lia). nia. }
      rewrite !Z.div_small; [reflexivity| |lia]. split; [|].
      + assert (0 <= 10 ^ (k - 6) / 2) by (apply Z.div_pos; lia). lia.
      + pose proof (Z.mul_div_le (10 ^ (k - 6)) 2 ltac:(lia)). lia. }
  destruct (Z.ltb_spec (tens + 6) 0) as [Hneg|Hnn].
  { destruct (Z.ltb_spec (tens + 6 + 4294967296) 24); [unfold tens, k in *; lia|]. apply Hsame. right. unfold tens in Hneg. lia. }
  destruct (Z.ltb_spec (tens + 6) 24) as [H24|H24]; [|apply Hsame; left; unfold tens in *; lia].
  rewrite powten_tab by lia. cbn [bind].
  assert (Ecnt : count_digits 20 bits (if 10 ^ 9 <=? bits then 10 else 1) = Ok (Some L)).
  { assert (H9 : 10 ^ 9 <= 10 ^ 17) by (vm_compute; discriminate). destruct (Z.leb_spec (10 ^ 9) bits); [|lia]. apply count_digits_spec; [lia|lia|cbn; lia|exact HLb]. }
  rewrite Ecnt. cbn [bind].
  destruct (Z.ltb_spec (tens + 6) L) as [Hlt|Hge]; [|apply Hsame; left; unfold tens in *; lia].
  replace (L - (tens + 6)) with (k - 6) by (unfold tens; lia). set (e := k - 6). assert (He : 1 <= e <= L) by (unfold e, tens in *; lia).
  destruct (Z.leb_spec 24 e); [lia|]. rewrite !powten_tab by lia. cbn [bind].
  assert (Hpe : 0 < 10 ^ e) by (apply Z.pow_pos_nonneg; lia).
  assert (HpeL : 10 ^ e <= 10 ^ L) by (apply Z.pow_le_mono_r; lia).
  assert (HL19 : 10 ^ L <= 10 ^ 19) by (apply Z.pow_le_mono_r; lia).
  assert (Hpe2 : 10 <= 10 ^ e) by (apply (Z.pow_le_mono_r 10 1 e); lia).
  pose proof (Z.mul_div_le (10 ^ e) 2 ltac:(lia)) as Hh. assert (Hh0 : 0 <= 10 ^ e / 2) by (apply Z.div_pos; lia).
  assert (Ew2 : wrap u64 (bits + 10 ^ e / 2) = bits + 10 ^ e / 2).
  { unfold wrap. cbn [isigned u64 ibits]. apply Z.mod_small. assert (2 ^ 62 + 10 ^ 19 < 2 ^ 64) by reflexivity. lia. }
  rewrite Ew2. set (B := bits + 10 ^ e / 2) in *. set (b1 := B / 10 ^ e).
  assert (Hb1 : 0 <= b1 < 2 ^ 62).
  { unfold b1. split; [apply Z.div_pos; unfold B; lia|]. apply Z.div_lt_upper_bound; [lia|].
    assert (2 ^ 62 + 10 ^ 19 < 10 * 2 ^ 62) by reflexivity. unfold B. nia. }
  assert (Ew3 : wrap i64 b1 = b1).
  { unfold wrap. cbn [isigned i64 ibits]. change (64 - 1) with 63. rewrite Z.mod_small; [lia|]. change (2 ^ 64) with (2 * 2 ^ 63). change (2 ^ 63) with (2 * 2 ^ 62). lia. }
  rewrite Ew3. assert (Em : millionths bits k = b1).
  { unfold millionths. destruct (Z.leb_spec k 6); [unfold e in He; lia|]. reflexivity. }
  rewrite Em. assert (EpL : 10 ^ L = 10 ^ e * 10 ^ (L - e)) by (rewrite <- Z.pow_add_r by lia; f_equal; lia).
  assert (HpLe : 0 < 10 ^ (L - e)) by (apply Z.pow_pos_nonneg; lia).
  destruct (Z.leb_spec (10 ^ L) B) as [Hc|Hnc].
  - (* carry *)
    assert (E1 : b1 = 10 ^ (L - e)).
    { unfold b1. symmetry. apply Z.div_unique with (r := B - 10 ^ L); [left; unfold B; lia|rewrite EpL; lia]. }
    assert (E1' : 10 ^ (L - e) <= 10 ^ 18) by (apply Z.pow_le_mono_r; lia).
    destruct (print_bits s b1 (tens + 1) (L - e + 1)) as (sn & E & H1 & H2 & H3 & H4).
    + rewrite E1. assert (10 ^ 18 < 10 ^ 19) by reflexivity. lia.
    + rewrite E1. replace (L - e + 1 - 1) with (L - e) by lia. split; [lia|]. apply Z.pow_lt_mono_r; lia.
    + lia.
    + cbn [bind]. exists sn, (tens + 1). split; [exact E|]. split; [exact H1|]. split; [intros C; contradiction|]. split; [exact H3|]. split; [unfold tens, k; lia|].
      rewrite H4. unfold scaled. replace (tens + 1 - (L - e + 1) + 6) with 0 by (unfold tens, e; lia). cbn [Z.leb Z.compare]. change (10 ^ 0) with 1. lia.
  - destruct (Z.eq_dec e L) as [EL|EL].
    + assert (E1 : b1 = 0). { unfold b1. apply Z.div_small. rewrite EL. unfold B in *. lia. }
      rewrite E1. cbn [bind]. exists [], tens. split; [reflexivity|]. split; [constructor|]. split; [intros _; unfold tens, e in *; lia|]. split; [cbn; lia|].
      split; [unfold tens, k; lia|]. unfold sixth. replace (tens - lenZ (@nil byte) + 6) with 0 by (cbn [length]; unfold tens, e in *; lia). reflexivity.
    + assert (Hb2 : 10 ^ (L - e - 1) <= b1 < 10 ^ (L - e)).
      { unfold b1. split; [apply Z.div_le_lower_bound; [lia|]|apply Z.div_lt_upper_bound; [lia|rewrite <- EpL; exact Hnc]].
        rewrite <- Z.pow_add_r by lia. replace (e + (L - e - 1)) with (L - 1) by lia. unfold B. lia. }
      assert (E1' : 10 ^ (L - e) <= 10 ^ 18) by (apply Z.pow_le_mono_r; lia).
      assert (0 < 10 ^ (L - e - 1)) by (apply Z.pow_pos_nonneg; lia).
      destruct (print_bits s b1 tens (L - e)) as (sn & E & H1 & H2 & H3 & H4).
      * assert (10 ^ 18 < 10 ^ 19) by reflexivity. lia.
      * exact Hb2.
      * lia.
      * cbn [bind]. exists sn, tens. split; [exact E|]. split; [exact H1|]. split; [intros C; contradiction|]. split; [exact H3|]. split; [unfold tens, k; lia|].
        rewrite H4. unfold scaled. replace (tens - (L - e) + 6) with 0 by (unfold tens, e; lia). cbn [Z.leb Z.compare]. change (10 ^ 0) with 1. lia.
Qed.
