(** * Property C56: weights of type [double] and [float]

    [read_fp (fp_double pw) m e d] is [FileReader::read_fp<double>] with the
    reader at byte [d] of the file [m] and its end at byte [e], in IEEE 754
    arithmetic; [pw] is [std::pow(10., _)]. *)

From Coq Require Import QArith Qabs Qpower SpecFloat.
From Verif Require Import Base Reader Spec SpecFp SpecFp64 ReaderLemmas Coo CooLemmas WeightLemmas ElSpec ElFinal
  Fp64 Fp64Lemmas P_Float.
Close Scope Q_scope.
Open Scope Z_scope.

(** The integer [n] as a value of the format; a zero may have either sign. *)
Definition is_int (prec emax : Z) (v : spec_float) (n : Z) : Prop :=
  v = sfint prec emax n \/ (n = 0 /\ v = S754_zero true).

Lemma is_int_denotes prec emax v n : 1 < prec -> 2 * prec < emax -> Z.abs n <= 2 ^ prec -> is_int prec emax v n ->
  valid_binary prec emax v = true /\ denotes v (inject_Z n).
Proof.
  intros H1 H2 Hn [->|[-> ->]]; [|split; [reflexivity|exists 0%Q; split; reflexivity]].
  destruct (Z.eq_dec n 0) as [->|H0]; [split; [reflexivity|exists 0%Q; split; reflexivity]|].
  destruct (canon_ex prec H1 (Z.abs n)) as (M & E & HC & HE); [lia|].
  assert (Ev : (inject_Z (Zpos M) * pow2 E == inject_Z (Z.abs n))%Q).
  { destruct HC as (_ & C1 & C2). unfold pow2. destruct (Z.le_ge_cases E 0) as [H|H].
    - rewrite (C1 H). rewrite inject_Z_mult. rewrite Zpower_Qpower by lia. change (inject_Z 2) with (2 # 1)%Q.
      rewrite <- Qmult_assoc, <- Qpower_plus by discriminate. replace (- E + E) with 0 by lia. change ((2 # 1) ^ 0)%Q with 1%Q. ring.
    - rewrite (C2 H). rewrite inject_Z_mult. rewrite Zpower_Qpower by lia. reflexivity. }
  destruct (Z.lt_ge_cases n 0) as [Hlt|Hge].
  - assert (En : n = - Z.abs n) by lia. rewrite En. rewrite (sfint_neg prec emax H1 H2 (Z.abs n) M E) by (try assumption; lia).
    split; [eapply canon_valid; eauto|]. eexists. split; [reflexivity|]. cbn beta iota. rewrite inject_Z_opp, <- Ev. ring.
  - assert (En : n = Z.abs n) by lia. rewrite En. rewrite (sfint_canon prec emax H1 H2 (Z.abs n) M E) by (try assumption; lia).
    split; [eapply canon_valid; eauto|]. eexists. split; [reflexivity|]. cbn beta iota. exact Ev.
Qed.

Lemma dbl_sfint z : dbl z = sfint 53 1024 z. Proof. reflexivity. Qed.
Lemma flt_sfint z : flt z = sfint 24 128 z. Proof. reflexivity. Qed.

Lemma double_integers pw : exact_integers (fp_double pw) (is_int 53 1024) (2 ^ 53).
Proof.
  split; [left; reflexivity|]. split.
  - intros a n k Ha Hn Hk HB. left. cbn [fp_double fp_dig]. unfold dadd, dmul. rewrite !dbl_sfint.
    destruct Ha as [->|[-> ->]].
    + rewrite sfint_mul, sfint_add by lia. reflexivity.
    + change (SFmul 53 1024 (S754_zero true) (sfint 53 1024 10)) with (S754_zero true).
      assert (K : k = 0 \/ k = 1 \/ k = 2 \/ k = 3 \/ k = 4 \/ k = 5 \/ k = 6 \/ k = 7 \/ k = 8 \/ k = 9) by lia.
      repeat (destruct K as [->|K]; [reflexivity|]). subst k. reflexivity.
  - intros a n Ha Hn. cbn [fp_double fp_opp]. unfold dmul. rewrite dbl_sfint. destruct (Z.eq_dec n 0) as [->|H0].
    + destruct Ha as [->|[_ ->]]; [right; split; reflexivity|left; reflexivity].
    + left. destruct Ha as [->|[-> _]]; [|lia]. apply sfint_opp; lia.
Qed.

Lemma float_integers pw : exact_integers (fp_float pw) (is_int 24 128) (2 ^ 24).
Proof.
  assert (T64 : forall n, 0 <= n <= 2 ^ 24 -> to64 (flt n) = dbl n).
  { intros n Hn. rewrite flt_sfint, dbl_sfint. apply (sfint_convert 24 128 53 1024); lia. }
  assert (T32 : forall n, 0 <= n <= 2 ^ 24 -> to32 (dbl n) = flt n).
  { intros n Hn. rewrite flt_sfint, dbl_sfint. apply (sfint_convert 53 1024 24 128); lia. }
  split; [left; reflexivity|]. split.
  - intros a n k Ha Hn Hk HB. left. cbn [fp_float fp_dig]. unfold dadd, dmul. rewrite (T64 k) by lia.
    destruct Ha as [->|[-> ->]].
    + rewrite <- flt_sfint, T64, !dbl_sfint, sfint_mul, sfint_add by lia. rewrite <- dbl_sfint. apply T32. lia.
    + change (SFmul 53 1024 (to64 (S754_zero true)) (dbl 10)) with (S754_zero true).
      assert (K : k = 0 \/ k = 1 \/ k = 2 \/ k = 3 \/ k = 4 \/ k = 5 \/ k = 6 \/ k = 7 \/ k = 8 \/ k = 9) by lia.
      repeat (destruct K as [->|K]; [reflexivity|]). subst k. reflexivity.
  - intros a n Ha Hn. cbn [fp_float fp_opp]. unfold fmul. rewrite flt_sfint. destruct (Z.eq_dec n 0) as [->|H0].
    + destruct Ha as [->|[_ ->]]; [right; split; reflexivity|left; reflexivity].
    + left. destruct Ha as [->|[-> _]]; [|lia]. apply sfint_opp; lia.
Qed.

(** Integers of magnitude at most 2^53 (2^24 for [float]), written without point
    and exponent, are read exactly. *)
Theorem C56_double_integer : forall pw s ds pre c post pg e,
  digits ds -> dval ds <= 2 ^ 53 -> is_fp c = false ->
  let lit := (sign_text s ++ ds)%list in
  (length (pre ++ lit) <= e)%nat ->
  exists v, read_fp (fp_double pw) (mkMem (pre ++ lit ++ c :: post) pg) e (length pre) = Ok (v, length (pre ++ lit)) /\
    is_double v /\ denotes v (inject_Z (match s with SMinus => - dval ds | _ => dval ds end)).
Proof.
  intros pw s ds pre c post pg e Hds HB Hc lit He.
  destruct (C42_integer (fp_double pw) _ _ s ds pre c post pg e (double_integers pw) Hds HB Hc He) as (v & E & Hv).
  exists v. split; [exact E|]. assert (0 <= dval ds) by (apply dval_nonneg; apply Hds).
  apply (is_int_denotes 53 1024); [lia|lia|destruct s; lia|exact Hv].
Qed.
Print Assumptions C56_double_integer.

Theorem C56_float_integer : forall pw s ds pre c post pg e,
  digits ds -> dval ds <= 2 ^ 24 -> is_fp c = false ->
  let lit := (sign_text s ++ ds)%list in
  (length (pre ++ lit) <= e)%nat ->
  exists v, read_fp (fp_float pw) (mkMem (pre ++ lit ++ c :: post) pg) e (length pre) = Ok (v, length (pre ++ lit)) /\
    is_float v /\ denotes v (inject_Z (match s with SMinus => - dval ds | _ => dval ds end)).
Proof.
  intros pw s ds pre c post pg e Hds HB Hc lit He.
  destruct (C42_integer (fp_float pw) _ _ s ds pre c post pg e (float_integers pw) Hds HB Hc He) as (v & E & Hv).
  exists v. split; [exact E|]. assert (0 <= dval ds) by (apply dval_nonneg; apply Hds).
  apply (is_int_denotes 24 128); [lia|lia|destruct s; lia|exact Hv].
Qed.
Print Assumptions C56_float_integer.

(** ** What is not exact

    "1.14" is read as 1 + 14/100 with two roundings: the result is not the double
    nearest to 1.14 (that is 5134103575202365 * 2^-52), even if [pow(10., 2.)] is
    100. *)
Theorem C56_decimal_not_nearest : forall pw pre c post pg e,
  pw (dbl 2) = dbl 100 -> is_fp c = false ->
  let f := mkFplit SNone [49] (Some [49; 52]) None in
  (length (pre ++ fplit_text f) <= e)%nat ->
  exists v, read_fp (fp_double pw) (mkMem (pre ++ fplit_text f ++ c :: post) pg) e (length pre) = Ok (v, length (pre ++ fplit_text f)) /\
    is_double v /\ ~ nearest is_double v (114 # 100).
Proof.
  intros pw pre c post pg e Hpw Hc f He.
  assert (Hf : wf_fplit f) by (split; [repeat constructor|]; split; [repeat constructor|]; split; [left; discriminate|exact I]).
  exists (S754_finite false 5134103575202366 (-52)). split; [|split; [reflexivity|]].
  - replace (S754_finite false 5134103575202366 (-52)) with (fp_value (fp_double pw) f).
    + rewrite app_length in He |- *. pose proof (has_all (mkMem (pre ++ fplit_text f ++ c :: post) pg)) as Hh. cbn [bytes] in Hh.
      apply has_app in Hh as [_ Hh]. cbn [plus] in Hh. pose proof Hh as Hh2. apply has_app in Hh as [Hh _]. apply has_app in Hh2 as [_ Hh2].
      apply read_fp_at with (c := c); auto. eapply load_has. exact Hh2.
    + unfold fp_value, f, fp_signed. cbn [fl_sign fl_int fl_frac fl_exp neg_of fp_double fp_frac fp_fold].
      change (Z.of_nat (length [49; 52])) with 2. rewrite Hpw. vm_compute. reflexivity.
  - intros (_ & v & Ev & Hn). injection Ev as <-. specialize (Hn (S754_finite false 5134103575202365 (-52)) _ eq_refl eq_refl).
    revert Hn. apply Qlt_not_le. vm_compute. reflexivity.
Qed.
Print Assumptions C56_decimal_not_nearest.

(** "3e-1" is read as 3 * pow(10., -1.): not the double nearest to 0.3, if
    [pow(10., -1.)] is the double nearest to 0.1 (7205759403792794 * 2^-56). *)
Theorem C56_negative_exponent_not_nearest : forall pw pre c post pg e,
  pw (dbl (-1)) = S754_finite false 7205759403792794 (-56) -> is_fp c = false ->
  let f := mkFplit SNone [51] None (Some (ch_e, SMinus, [49])) in
  (length (pre ++ fplit_text f) <= e)%nat ->
  exists v, read_fp (fp_double pw) (mkMem (pre ++ fplit_text f ++ c :: post) pg) e (length pre) = Ok (v, length (pre ++ fplit_text f)) /\
    is_double v /\ ~ nearest is_double v (3 # 10).
Proof.
  intros pw pre c post pg e Hpw Hc f He.
  assert (Hf : wf_fplit f) by (split; [repeat constructor|]; split; [exact I|]; split; [left; discriminate|]; split; [left; reflexivity|]; split; [discriminate|repeat constructor]).
  exists (S754_finite false 5404319552844596 (-54)). split; [|split; [reflexivity|]].
  - replace (S754_finite false 5404319552844596 (-54)) with (fp_value (fp_double pw) f).
    + rewrite app_length in He |- *. pose proof (has_all (mkMem (pre ++ fplit_text f ++ c :: post) pg)) as Hh. cbn [bytes] in Hh.
      apply has_app in Hh as [_ Hh]. cbn [plus] in Hh. pose proof Hh as Hh2. apply has_app in Hh as [Hh _]. apply has_app in Hh2 as [_ Hh2].
      apply read_fp_at with (c := c); auto. eapply load_has. exact Hh2.
    + unfold fp_value, f, fp_signed. cbn [fl_sign fl_int fl_frac fl_exp neg_of fp_double fp_exp fp_opp].
      change (dmul (fp_fold (fp_double pw) [49]) (dbl (-1))) with (dbl (-1)). rewrite Hpw. vm_compute. reflexivity.
  - intros (_ & v & Ev & Hn). injection Ev as <-. specialize (Hn (S754_finite false 5404319552844595 (-54)) _ eq_refl eq_refl).
    revert Hn. apply Qlt_not_le. vm_compute. reflexivity.
Qed.
Print Assumptions C56_negative_exponent_not_nearest.

(** A [float] rounds after every digit: the integer "167798355" is not read as the
    nearest [float] (167798352). *)
Theorem C56_float_integer_not_nearest : forall pw pre c post pg e,
  is_fp c = false ->
  let ds := [49; 54; 55; 55; 57; 56; 51; 53; 53] in
  (length (pre ++ ds) <= e)%nat ->
  exists v, read_fp (fp_float pw) (mkMem (pre ++ ds ++ c :: post) pg) e (length pre) = Ok (v, length (pre ++ ds)) /\
    is_float v /\ dval ds = 167798355 /\ ~ nearest is_float v (inject_Z (dval ds)).
Proof.
  intros pw pre c post pg e Hc ds He. set (f := mkFplit SNone ds None None).
  change (length (pre ++ fplit_text f) <= e)%nat in He.
  assert (Hf : wf_fplit f) by (split; [repeat constructor|]; split; [exact I|]; split; [left; discriminate|exact I]).
  exists (fp_value (fp_float pw) f). split.
  - change (read_fp (fp_float pw) (mkMem (pre ++ fplit_text f ++ c :: post) pg) e (length pre) = Ok (fp_value (fp_float pw) f, length (pre ++ fplit_text f))).
    rewrite app_length in He |- *. pose proof (has_all (mkMem (pre ++ fplit_text f ++ c :: post) pg)) as Hh. cbn [bytes] in Hh.
    apply has_app in Hh as [_ Hh]. cbn [plus] in Hh. pose proof Hh as Hh2. apply has_app in Hh as [Hh _]. apply has_app in Hh2 as [_ Hh2].
    apply read_fp_at with (c := c); auto. eapply load_has. exact Hh2.
  - clear. set (v := fp_value (fp_float pw) f). vm_compute in v. subst v. split; [reflexivity|]. split; [reflexivity|].
    intros (_ & v & Ev & Hn). injection Ev as <-. specialize (Hn (flt 167798352) _ eq_refl eq_refl).
    revert Hn. apply Qlt_not_le. vm_compute. reflexivity.
Qed.
Print Assumptions C56_float_integer_not_nearest.

(** Concrete cases: "-9007199254740992" (-2^53) as a double, "16777216" (2^24) as
    a float, in a file. *)
Example C56_integer_applies : forall pw, exists v,
  read_fp (fp_double pw) (mkMem ([ch_sp] ++ (ch_minus :: [57;48;48;55;49;57;57;50;53;52;55;52;48;57;57;50]) ++ [ch_nl]) 64) 19 1 = Ok (v, 18%nat) /\
  is_double v /\ denotes v (inject_Z (- 2 ^ 53)).
Proof.
  intros pw. apply (C56_double_integer pw SMinus [57;48;48;55;49;57;57;50;53;52;55;52;48;57;57;50] [ch_sp] ch_nl [] 64 19).
  - split; [discriminate|repeat constructor].
  - vm_compute. discriminate.
  - reflexivity.
  - cbn. lia.
Qed.
Example C56_float_applies : forall pw, exists v,
  read_fp (fp_float pw) (mkMem ([ch_sp] ++ [49;54;55;55;55;50;49;54] ++ [ch_nl]) 64) 10 1 = Ok (v, 9%nat) /\
  is_float v /\ denotes v (inject_Z (2 ^ 24)).
Proof.
  intros pw. apply (C56_float_integer pw SNone [49;54;55;55;55;50;49;54] [ch_sp] ch_nl [] 64 10).
  - split; [discriminate|repeat constructor].
  - vm_compute. discriminate.
  - reflexivity.
  - cbn. lia.
Qed.
