(** * Fp64Lemmas: operations on integers of at most [prec] bits are exact *)

From Coq Require Import ZArith SpecFloat Lia.
From Verif Require Import Base.
Open Scope Z_scope.

Lemma digits2_log2 p : Zpos (digits2_pos p) = Z.log2 (Zpos p) + 1.
Proof.
  induction p as [p IH|p IH|]; [| |reflexivity]; cbn [digits2_pos]; rewrite Pos2Z.inj_succ, IH; unfold Z.succ.
  - rewrite (Pos2Z.inj_xI p), Z.log2_succ_double by lia. lia.
  - rewrite (Pos2Z.inj_xO p), Z.log2_double by lia. lia.
Qed.
Lemma digits2_mul_pow2 p M k : 0 <= k -> Zpos p = Zpos M * 2 ^ k -> Zpos (digits2_pos p) = Zpos (digits2_pos M) + k.
Proof. intros Hk E. rewrite !digits2_log2, E, Z.log2_mul_pow2 by lia. lia. Qed.

Lemma iter_pos_iter {A} (f : A -> A) p x : SpecFloat.iter_pos f p x = Pos.iter f x p.
Proof.
  revert x. induction p as [p IH|p IH|]; intros x; cbn [SpecFloat.iter_pos Pos.iter]; [|rewrite !IH; reflexivity|reflexivity].
  rewrite !IH. rewrite <- !Pos.iter_swap. reflexivity.
Qed.

Lemma shr_1_double M : 0 < M -> shr_1 (Build_shr_record (2 * M) false false) = Build_shr_record M false false.
Proof. destruct M as [|p|p]; try lia. reflexivity. Qed.

Lemma iter_shr M p : 0 < M -> SpecFloat.iter_pos shr_1 p (Build_shr_record (M * 2 ^ Zpos p) false false) = Build_shr_record M false false.
Proof.
  intros HM. rewrite iter_pos_iter. revert M HM. induction p as [|p IH] using Pos.peano_ind; intros M HM.
  - cbn [Pos.iter]. change (2 ^ 1) with 2. rewrite Z.mul_comm. apply shr_1_double. exact HM.
  - rewrite Pos.iter_succ. rewrite Pos2Z.inj_succ, Z.pow_succ_r by lia.
    replace (M * (2 * 2 ^ Z.pos p)) with ((M * 2) * 2 ^ Z.pos p) by ring. rewrite IH by lia.
    rewrite Z.mul_comm. apply shr_1_double. exact HM.
Qed.

Section Prec.
  Variables prec emax : Z.
  Hypothesis Hprec : 1 < prec.
  Hypothesis Hemax : 2 * prec < emax.

  Lemma fexp_in D : emin prec emax <= D - prec -> fexp prec emax D = D - prec.
  Proof. unfold fexp. lia. Qed.

  (** Rounding a number that is representable with a full mantissa. *)
  Lemma aux_exact s m e M p E : 0 <= p -> Zpos m = Zpos M * 2 ^ p -> Zpos (digits2_pos M) = prec -> E = e + p ->
    emin prec emax <= E <= emax - prec -> binary_round_aux prec emax s (Zpos m) e loc_Exact = S754_finite s M E.
  Proof.
    intros Hp Em HM HE HB. unfold binary_round_aux, shr_fexp. cbn [Zdigits2 shr_record_of_loc].
    rewrite (digits2_mul_pow2 _ _ _ Hp Em), HM.
    rewrite fexp_in by lia. replace (prec + p + e - prec - e) with p by lia.
    assert (Es : shr (Build_shr_record (Zpos m) false false) e p = (Build_shr_record (Zpos M) false false, E)).
    { unfold shr. destruct p as [|p|p]; [|rewrite Em, iter_shr by lia; subst E; reflexivity|lia].
      rewrite Em, Z.mul_1_r. subst E. rewrite Z.add_0_r. reflexivity. }
    rewrite Es. cbn [shr_m loc_of_shr_record round_nearest_even]. unfold shr_fexp. cbn [Zdigits2 shr_record_of_loc]. rewrite HM.
    rewrite fexp_in by lia. replace (prec + E - prec - E) with 0 by lia. cbn [shr shr_m].
    replace (Zle_bool E (emax - prec)) with true by (symmetry; apply Zle_imp_le_bool; lia). reflexivity.
  Qed.

  Lemma round_exact s m e M E : Zpos (digits2_pos M) = prec -> emin prec emax <= E <= emax - prec ->
    (e <= E -> Zpos m = Zpos M * 2 ^ (E - e)) -> (E <= e -> Zpos M = Zpos m * 2 ^ (e - E)) ->
    binary_round prec emax s m e = S754_finite s M E.
  Proof.
    intros HM HB H1 H2. unfold binary_round.
    assert (ED : Zpos (digits2_pos m) + e = prec + E).
    { destruct (Z.le_ge_cases e E) as [H|H].
      - rewrite (digits2_mul_pow2 m M (E - e)) by (try lia; apply H1; exact H). lia.
      - pose proof (digits2_mul_pow2 M m (e - E) ltac:(lia) (H2 ltac:(lia))). lia. }
    rewrite ED, fexp_in by lia. replace (prec + E - prec) with E by lia.
    unfold shl_align. destruct (E - e) as [|d|d] eqn:Ed.
    - apply aux_exact with (p := 0); [lia| |exact HM|lia|lia]. rewrite H1 by lia. replace (E - e) with 0 by lia. reflexivity.
    - apply aux_exact with (p := Zpos d); [lia| |exact HM|lia|lia]. rewrite H1 by lia. replace (E - e) with (Zpos d) by lia. reflexivity.
    - apply aux_exact with (p := 0); [lia| |exact HM|lia|lia]. rewrite H2 by lia. rewrite shift_pos_correct.
      change (Zpower_pos 2 d) with (2 ^ Zpos d). replace (e - E) with (Zpos d) by lia. change (2 ^ 0) with 1. lia.
  Qed.

  (** [M * 2^E] is the integer [N > 0], with a full mantissa. *)
  Definition canon (N : Z) (M : positive) (E : Z) : Prop :=
    Zpos (digits2_pos M) = prec /\ (E <= 0 -> Zpos M = N * 2 ^ (- E)) /\ (0 <= E -> N = Zpos M * 2 ^ E).

  Lemma canon_ex N : 0 < N <= 2 ^ prec -> exists M E, canon N M E /\ 1 - prec <= E <= 1.
  Proof.
    intros HN. assert (Hp : 0 < 2 ^ prec) by (apply Z.pow_pos_nonneg; lia). destruct (Z.eq_dec N (2 ^ prec)) as [->|Hne].
    - assert (Hq : 0 < 2 ^ (prec - 1)) by (apply Z.pow_pos_nonneg; lia).
      exists (Z.to_pos (2 ^ (prec - 1))), 1. split; [|lia]. split; [|split].
      + rewrite digits2_log2, Z2Pos.id, Z.log2_pow2 by lia. lia.
      + lia.
      + intros _. rewrite Z2Pos.id by lia. change (2 ^ 1) with 2. rewrite <- (Z.pow_succ_r 2) || rewrite Z.mul_comm, <- Z.pow_succ_r by lia.
        f_equal. lia.
    - assert (HL : Z.log2 N < prec) by (apply Z.log2_lt_pow2; lia). pose proof (Z.log2_nonneg N).
      assert (Hq : 0 < 2 ^ (prec - 1 - Z.log2 N)) by (apply Z.pow_pos_nonneg; lia).
      exists (Z.to_pos (N * 2 ^ (prec - 1 - Z.log2 N))), (Z.log2 N + 1 - prec). split; [|lia]. split; [|split].
      + rewrite digits2_log2, Z2Pos.id by (apply Z.mul_pos_pos; lia). rewrite Z.log2_mul_pow2 by lia. lia.
      + intros _. rewrite Z2Pos.id by (apply Z.mul_pos_pos; lia). do 2 f_equal. lia.
      + intros HE. rewrite Z2Pos.id by (apply Z.mul_pos_pos; lia). replace (Z.log2 N + 1 - prec) with 0 by lia.
        replace (prec - 1 - Z.log2 N) with 0 by lia. change (2 ^ 0) with 1. lia.
  Qed.

  Lemma canon_scaled N M E K : canon N M E -> 0 <= E + K -> 0 <= K -> Zpos M * 2 ^ (E + K) = N * 2 ^ K.
  Proof.
    intros (_ & H1 & H2) HK HK0. destruct (Z.le_ge_cases E 0) as [H|H].
    - rewrite H1 by exact H. rewrite <- Z.mul_assoc, <- Z.pow_add_r by lia. do 2 f_equal. lia.
    - rewrite (H2 H). rewrite <- Z.mul_assoc, <- Z.pow_add_r by lia. reflexivity.
  Qed.

  Lemma scaled_eq m e M E K : Zpos m * 2 ^ (e + K) = Zpos M * 2 ^ (E + K) -> 0 <= e + K -> 0 <= E + K ->
    (e <= E -> Zpos m = Zpos M * 2 ^ (E - e)) /\ (E <= e -> Zpos M = Zpos m * 2 ^ (e - E)).
  Proof using.
    clear. intros H He HE. split; intros Hle.
    - replace (E + K) with ((E - e) + (e + K)) in H by lia. rewrite (Z.pow_add_r 2 (E - e) (e + K)), Z.mul_assoc in H by lia.
      apply Z.mul_cancel_r in H; [exact H|]. pose proof (Z.pow_pos_nonneg 2 (e + K) ltac:(lia) He). lia.
    - replace (e + K) with ((e - E) + (E + K)) in H by lia. rewrite (Z.pow_add_r 2 (e - E) (E + K)), Z.mul_assoc in H by lia.
      apply Z.mul_cancel_r in H; [symmetry; exact H|]. pose proof (Z.pow_pos_nonneg 2 (E + K) ltac:(lia) HE). lia.
  Qed.

  Lemma canon_range M E N : canon N M E -> 1 - prec <= E <= 1 -> emin prec emax <= E <= emax - prec.
  Proof. unfold emin. lia. Qed.

  Lemma round_val s m e N M E K : canon N M E -> 1 - prec <= E <= 1 -> 0 <= e + K -> 0 <= E + K -> 0 <= K ->
    Zpos m * 2 ^ (e + K) = N * 2 ^ K -> binary_round prec emax s m e = S754_finite s M E.
  Proof.
    intros HC HE He HEK HK H. pose proof (canon_scaled N M E K HC HEK HK) as HS. rewrite <- HS in H.
    destruct (scaled_eq m e M E K H He HEK) as [H1 H2]. apply round_exact; [apply HC| |exact H1|exact H2].
    eapply canon_range; eauto.
  Qed.

  Definition sfint (z : Z) : spec_float := binary_normalize prec emax z 0 false.

  Lemma sfint_canon N M E : 0 < N -> canon N M E -> 1 - prec <= E <= 1 -> sfint N = S754_finite false M E.
  Proof.
    intros HN HC HE. destruct N as [|n|n]; try lia. unfold sfint, binary_normalize.
    apply (round_val false n 0 (Zpos n) M E prec HC HE); try lia. reflexivity.
  Qed.

  Lemma sfint_neg N M E : 0 < N -> canon N M E -> 1 - prec <= E <= 1 -> sfint (- N) = S754_finite true M E.
  Proof.
    intros HN HC HE. destruct N as [|n|n]; try lia. unfold sfint, binary_normalize. cbn [Z.opp].
    apply (round_val true n 0 (Zpos n) M E prec HC HE); try lia. reflexivity.
  Qed.

  Lemma mul_canon sa sb a b Ma Ea Mb Eb M E : canon a Ma Ea -> canon b Mb Eb -> canon (a * b) M E ->
    1 - prec <= Ea <= 1 -> 1 - prec <= Eb <= 1 -> 1 - prec <= E <= 1 ->
    SFmul prec emax (S754_finite sa Ma Ea) (S754_finite sb Mb Eb) = S754_finite (xorb sa sb) M E.
  Proof.
    intros HCa HCb HC HEa HEb HE. cbn [SFmul].
    pose proof (canon_scaled a Ma Ea prec HCa ltac:(lia) ltac:(lia)) as Sa.
    pose proof (canon_scaled b Mb Eb prec HCb ltac:(lia) ltac:(lia)) as Sb.
    pose proof (canon_scaled (a * b) M E (2 * prec) HC ltac:(lia) ltac:(lia)) as Sab.
    assert (Sm : Zpos (Ma * Mb) * 2 ^ (Ea + Eb + 2 * prec) = Zpos M * 2 ^ (E + 2 * prec)).
    { rewrite Sab, Pos2Z.inj_mul. replace (Ea + Eb + 2 * prec) with ((Ea + prec) + (Eb + prec)) by lia.
      replace (2 * prec) with (prec + prec) by lia. rewrite (Z.pow_add_r 2 (Ea + prec) (Eb + prec)), (Z.pow_add_r 2 prec prec) by lia.
      transitivity ((Zpos Ma * 2 ^ (Ea + prec)) * (Zpos Mb * 2 ^ (Eb + prec))); [ring|]. rewrite Sa, Sb. ring. }
    destruct (scaled_eq _ _ _ _ _ Sm ltac:(lia) ltac:(lia)) as [H1 H2].
    assert (Hp : Ea + Eb <= E).
    { destruct (Z.le_gt_cases (Ea + Eb) E) as [|Hgt]; [assumption|]. exfalso.
      pose proof (digits2_mul_pow2 M (Ma * Mb) (Ea + Eb - E) ltac:(lia) (H2 ltac:(lia))) as HD.
      destruct HC as (HM & _). destruct HCa as (HMa & _). destruct HCb as (HMb & _).
      rewrite digits2_log2 in HMa. rewrite digits2_log2 in HMb. rewrite HM, digits2_log2, Pos2Z.inj_mul in HD.
      pose proof (Z.log2_mul_below (Zpos Ma) (Zpos Mb)). lia. }
    apply aux_exact with (p := E - (Ea + Eb)); [lia|apply H1; exact Hp|apply HC|lia|eapply canon_range; eauto].
  Qed.

  Lemma sfint_mul a b : 0 <= a <= 2 ^ prec -> 0 <= b <= 2 ^ prec -> a * b <= 2 ^ prec ->
    SFmul prec emax (sfint a) (sfint b) = sfint (a * b).
  Proof.
    intros Ha Hb Hab. destruct (Z.eq_dec a 0) as [->|Ha0].
    { destruct (Z.eq_dec b 0) as [->|Hb0]; [reflexivity|]. destruct (canon_ex b) as (M & E & HC & HE); [lia|].
      rewrite (sfint_canon b M E) by (try lia; assumption). reflexivity. }
    destruct (canon_ex a) as (Ma & Ea & HCa & HEa); [lia|]. rewrite (sfint_canon a Ma Ea) by (try lia; assumption).
    destruct (Z.eq_dec b 0) as [->|Hb0]; [rewrite Z.mul_0_r; reflexivity|].
    destruct (canon_ex b) as (Mb & Eb & HCb & HEb); [lia|]. rewrite (sfint_canon b Mb Eb) by (try lia; assumption).
    assert (Hpos : 0 < a * b) by (apply Z.mul_pos_pos; lia).
    destruct (canon_ex (a * b)) as (M & E & HC & HE); [lia|]. rewrite (sfint_canon (a * b) M E) by (try lia; assumption).
    apply (mul_canon false false a b); assumption.
  Qed.

  Lemma sfint_opp N : 0 < N <= 2 ^ prec -> SFmul prec emax (sfint N) (sfint (-1)) = sfint (- N).
  Proof.
    intros HN. destruct (canon_ex N) as (M & E & HC & HE); [lia|]. rewrite (sfint_canon N M E), (sfint_neg N M E) by (try lia; assumption).
    assert (Hp : 0 < 2 ^ prec) by (apply Z.pow_pos_nonneg; lia).
    destruct (canon_ex 1) as (M1 & E1 & HC1 & HE1); [lia|]. change (-1) with (- (1)). rewrite (sfint_neg 1 M1 E1) by (try lia; assumption).
    apply (mul_canon false true N 1); try assumption. rewrite Z.mul_1_r. exact HC.
  Qed.

  Lemma canon_valid N M E s : canon N M E -> 1 - prec <= E <= 1 -> valid_binary prec emax (S754_finite s M E) = true.
  Proof.
    intros HC HE. pose proof (canon_range M E N HC HE) as HR. cbn [valid_binary]. unfold bounded, canonical_mantissa.
    destruct HC as (HM & _). rewrite HM, fexp_in by lia. replace (prec + E - prec) with E by lia.
    apply andb_true_intro. split; [apply Zeq_is_eq_bool; reflexivity|apply Zle_imp_le_bool; lia].
  Qed.

  Lemma shl_align_min m e ez : ez <= e -> Zpos (fst (shl_align m e ez)) = Zpos m * 2 ^ (e - ez).
  Proof using.
    clear. intros H. unfold shl_align. destruct (ez - e) as [|d|d] eqn:Ed; cbn [fst]; [|lia|].
    - replace (e - ez) with 0 by lia. rewrite Z.mul_1_r. reflexivity.
    - rewrite shift_pos_correct. change (Zpower_pos 2 d) with (2 ^ Zpos d). replace (e - ez) with (Zpos d) by lia. lia.
  Qed.

  Lemma sfint_add a b : 0 <= a <= 2 ^ prec -> 0 <= b <= 2 ^ prec -> a + b <= 2 ^ prec ->
    SFadd prec emax (sfint a) (sfint b) = sfint (a + b).
  Proof.
    intros Ha Hb Hab. destruct (Z.eq_dec a 0) as [->|Ha0].
    { destruct (Z.eq_dec b 0) as [->|Hb0]; [reflexivity|]. destruct (canon_ex b) as (M & E & HC & HE); [lia|].
      cbn [Z.add]. rewrite (sfint_canon b M E) by (try lia; assumption). reflexivity. }
    destruct (canon_ex a) as (Ma & Ea & HCa & HEa); [lia|].
    destruct (Z.eq_dec b 0) as [->|Hb0].
    { rewrite Z.add_0_r, (sfint_canon a Ma Ea) by (try lia; assumption). reflexivity. }
    rewrite (sfint_canon a Ma Ea) by (try lia; assumption).
    destruct (canon_ex b) as (Mb & Eb & HCb & HEb); [lia|]. rewrite (sfint_canon b Mb Eb) by (try lia; assumption).
    destruct (canon_ex (a + b)) as (M & E & HC & HE); [lia|]. rewrite (sfint_canon (a + b) M E) by (try lia; assumption).
    cbn [SFadd cond_Zopp]. set (ez := Z.min Ea Eb).
    pose proof (shl_align_min Ma Ea ez ltac:(lia)) as Fa. pose proof (shl_align_min Mb Eb ez ltac:(lia)) as Fb.
    change (binary_round prec emax false (fst (shl_align Ma Ea ez) + fst (shl_align Mb Eb ez)) ez = S754_finite false M E).
    apply (round_val false _ ez (a + b) M E prec HC HE); [lia|lia|lia|].
    rewrite Pos2Z.inj_add, Fa, Fb, Z.mul_add_distr_r, <- !Z.mul_assoc, <- (Z.pow_add_r 2 (Ea - ez)), <- (Z.pow_add_r 2 (Eb - ez)) by lia.
    replace (Ea - ez + (ez + prec)) with (Ea + prec) by lia. replace (Eb - ez + (ez + prec)) with (Eb + prec) by lia.
    rewrite (canon_scaled a Ma Ea prec), (canon_scaled b Mb Eb prec) by (try assumption; lia). ring.
  Qed.
End Prec.

(** Conversion of an integer between two formats. *)
Lemma sfint_convert prec emax prec' emax' N :
  1 < prec -> 2 * prec < emax -> 1 < prec' -> 2 * prec' < emax' -> 0 <= N <= 2 ^ prec -> N <= 2 ^ prec' ->
  (fun x => match x with S754_finite s m e => binary_round prec' emax' s m e | _ => x end) (sfint prec emax N) = sfint prec' emax' N.
Proof.
  intros H1 H2 H1' H2' HN HN'. destruct (Z.eq_dec N 0) as [->|H0]; [reflexivity|].
  destruct (canon_ex prec H1 N) as (M & E & HC & HE); [lia|]. rewrite (sfint_canon prec emax H1 H2 N M E) by (try assumption; lia).
  destruct (canon_ex prec' H1' N) as (M' & E' & HC' & HE'); [lia|]. rewrite (sfint_canon prec' emax' H1' H2' N M' E') by (try assumption; lia).
  apply (round_val prec' emax' H1' H2' false M E N M' E' (prec + prec') HC' HE'); try lia.
  apply (canon_scaled prec N M E); try assumption; lia.
Qed.
