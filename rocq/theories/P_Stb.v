(** * Property C58: weights of type [double] and [float] written as text

    [fmt_double base lb nb] is the pair [write_size<double>] /
    [write_ascii<double>], with the digits computed by the IEEE 754 arithmetic of
    [stbsp__real_to_str]; [fmt_float] converts a [float] to [double] first.
    [base], [lb] and [nb] are the addresses of the output file, of the buffer of
    [write_size] and of the digit buffer (the code fills zeros depending on
    alignment).  The theorems of this file use the axioms of the standard
    library's real numbers (through Flocq); see [Print Assumptions]. *)

From Coq Require Import String QArith Qabs Qpower Lqa SpecFloat.
From Verif Require Import Base Reader Sched Spec SpecDec SpecFp SpecFp64 SpecText ReaderLemmas Coo CooLemmas WeightLemmas ElSpec ElFinal ElThms ElExamples
  Ascii AsciiLemmas StbLemmas WriteLemmas TextRound Fp64 Fp64Lemmas Fp64Near Fp64Err P_Float P_Double P_DoubleNear P_Text Stb StbArith StbFinal StbConv.
Close Scope Q_scope.
Open Scope list_scope.
Open Scope Z_scope.
Notation length := List.length.

(** ** Specification *)

(** What it means that a formatter writes [txt] for [v]: it announces the length
    of [txt], and placed at byte [a] of the file it stores [txt] there, stores
    nothing outside these bytes and the one behind them, and advances by the
    length of [txt]. *)
Definition writes {V} (fm : fmt V) (v : V) (txt : list byte) : Prop :=
  f_size fm v = Ok (length txt) /\
  forall a, exists ps, f_put fm (Z.of_nat a) v = Ok (ps, Z.of_nat (a + length txt)) /\
    (forall i, In i ps -> Z.of_nat a <= paddr i <= Z.of_nat (a + length txt)) /\
    forall pre mid c post, length pre = a -> length mid = length txt ->
      exists c', exec_all pexec ps (pre ++ mid ++ c :: post) = Ok (pre ++ txt ++ c' :: post)%list.

(** [-]ddd.dddddd *)
Definition six_decimals (neg : bool) (f : fplit) : Prop :=
  exists ip fp, f = mkFplit (if neg then SMinus else SNone) ip (Some fp) None /\ digits ip /\ all_digits fp /\ length fp = 6%nat.

(** Multiples of 1/64 below 2^40 in magnitude. *)
Definition sixty_fourths (q : Q) : Prop := (exists n, q * 64 == inject_Z n)%Q /\ (Qabs q < pow2 40)%Q.
Definition integer_below (B : Z) (q : Q) : Prop := (exists n, q == inject_Z n)%Q /\ (Qabs q < inject_Z B)%Q.

(** ** The text *)
Definition dtext (x : spec_float) : list byte := match real_to_str x with Ok r => stb_chars 0 0 r | _ => [] end.
Definition dreal (x : spec_float) : realstr := match real_to_str x with Ok r => r | _ => RSpecial false [] end.
Definition dlit_of (x : spec_float) : fplit := real_lit (dreal x).

Lemma formats_double base lb nb x r : real_to_str x = Ok r -> (length (stb_chars 0 0 r) < 1024)%nat -> formats (fmt_double base lb nb) x (stb_chars 0 0 r).
Proof.
  intros E Hl. destruct (formats_fp (fun r => r) base lb nb r Hl) as [F1 F2]. split; cbn [f_size f_put fmt_double].
  - rewrite E. exact F1.
  - intros a. destruct (F2 a) as (ps & P1 & P2). exists ps. rewrite E. split; [exact P1|exact P2].
Qed.
Lemma formats_writes {V} (fm : fmt V) v txt : formats fm v txt <-> writes fm v txt.
Proof. split; intros H; exact H. Qed.

Lemma pow10_m6 : (pow10 (- Z.of_nat 6) == 1 # 1000000)%Q. Proof. reflexivity. Qed.

Lemma six_value (neg : bool) ip fp : length fp = 6%nat ->
  (fplit_value (mkFplit (if neg then SMinus else SNone) ip (Some fp) None) ==
    (if neg then - (inject_Z (dval (ip ++ fp)) * (1 # 1000000)) else inject_Z (dval (ip ++ fp)) * (1 # 1000000)))%Q.
Proof.
  intros Hl. unfold fplit_value, fplit_exp, fplit_frac. cbn [fl_sign fl_int fl_frac fl_exp].
  rewrite dval_app_pow, Hl. change (10 ^ Z.of_nat 6) with 1000000. rewrite inject_Z_plus, inject_Z_mult. change (inject_Z 1000000) with (1000000 # 1)%Q.
  change (pow10 0) with 1%Q. destruct neg; cbn [neg_of]; rewrite pow10_m6; ring.
Qed.

Lemma denotes_sign x q : denotes x q -> (q == if neg_bit x then - Qabs q else Qabs q)%Q.
Proof.
  intros (v & Ev & Eq). destruct x as [s|s| |s m e]; cbn [sf_value neg_bit] in *; try discriminate; injection Ev as <-.
  - assert (E : (q == 0)%Q) by (rewrite <- Eq; reflexivity). destruct s; rewrite E; reflexivity.
  - pose proof (pow2_pos e) as P. assert (M : (0 < inject_Z (Zpos m) * pow2 e)%Q) by (apply Qmult_lt_0_compat; [reflexivity|exact P]). destruct s.
    + assert (E : (q == - (inject_Z (Zpos m) * pow2 e))%Q) by (rewrite <- Eq; ring). rewrite E, Qabs_opp, Qabs_pos by lra. reflexivity.
    + rewrite <- Eq, Qabs_pos by lra. reflexivity.
Qed.

Lemma abs_int q n : (q == inject_Z n)%Q -> (Qabs q == inject_Z (Z.abs n))%Q.
Proof. intros E. rewrite E. reflexivity. Qed.

(** Everything about the text of a double. *)
Lemma dlit_spec x q : is_double x -> denotes x q ->
  exists r ip fp, real_to_str x = Ok r /\ wf_real r /\ dtext x = stb_chars 0 0 r /\ (length (dtext x) <= 318)%nat /\
    dlit_of x = mkFplit (if neg_bit x then SMinus else SNone) ip (Some fp) None /\ digits ip /\ all_digits fp /\ length fp = 6%nat /\
    fplit_text (dlit_of x) = dtext x /\ wf_fplit (dlit_of x) /\
    (Qabs (inject_Z (dval (ip ++ fp)) * (1 # 1000000) - Qabs q) <= (1 # 2000000) + (102 # 10000000000000000000) * Qabs q)%Q /\
    (sixty_fourths q \/ integer_below (2 ^ 60) q -> (inject_Z (dval (ip ++ fp)) * (1 # 1000000) == Qabs q)%Q).
Proof.
  intros Hx Dx. destruct (real_spec x q Hx Dx) as (sn & dp & R & Hd & Hn & Hdp & He & H64 & Hi).
  set (r := RFinite (neg_bit x) sn dp) in *.
  assert (Hw : wf_real r) by (split; assumption).
  destruct (fp_post (fp_double pow_ref) r Hw) as (_ & P1 & P2 & _ & _).
  destruct (stb_layout 0 0 (neg_bit x) sn dp Hd Hn) as (ip & fp & E & Hip & Hfp & Hl & Hv & Hlen). fold r in E.
  assert (Elit : real_lit r = mkFplit (if neg_bit x then SMinus else SNone) ip (Some fp) None).
  { unfold real_lit, r. fold r. rewrite E.
    assert (Eb : (if neg_bit x then skipn 1 ((if neg_bit x then [ch_minus] else []) ++ ip ++ ch_dot :: fp) else (if neg_bit x then [ch_minus] else []) ++ ip ++ ch_dot :: fp) = ip ++ ch_dot :: fp) by (destruct (neg_bit x); reflexivity).
    rewrite Eb, app_length. cbn [length]. rewrite Hl.
    replace (length ip + 7 - 7)%nat with (length ip + 0)%nat by lia. replace (length ip + 7 - 6)%nat with (length ip + 1)%nat by lia.
    rewrite firstn_app_2. cbn [firstn]. rewrite app_nil_r. rewrite skipn_app, skipn_all2 by lia.
    replace (length ip + 1 - length ip)%nat with 1%nat by lia. reflexivity. }
  exists r, ip, fp. unfold dlit_of, dtext, dreal. rewrite R. split; [reflexivity|]. split; [exact Hw|]. split; [reflexivity|]. split.
  { rewrite E, !app_length. cbn [length]. rewrite Hl. destruct (neg_bit x); cbn [length]; lia. }
  split; [exact Elit|]. split; [exact Hip|]. split; [exact Hfp|]. split; [exact Hl|]. split; [exact P1|]. split; [exact P2|]. rewrite Hv. split.
  - change (inject_Z (10 ^ 6)) with (1000000 # 1)%Q in He. pose proof (Qabs_nonneg q) as Q0.
    setoid_replace (inject_Z (sixth sn dp) * (1 # 1000000) - Qabs q)%Q with ((inject_Z (sixth sn dp) - Qabs q * (1000000 # 1)) * (1 # 1000000))%Q by ring.
    rewrite Qabs_Qmult. change (Qabs (1 # 1000000)) with (1 # 1000000)%Q.
    set (A := Qabs (inject_Z (sixth sn dp) - Qabs q * (1000000 # 1))) in *. clearbody A. lra.
  - intros [((n & En) & Hb)|((n & En) & Hb)].
    + rewrite (H64 (Z.abs n)); [|rewrite <- (abs_int _ _ En), Qabs_Qmult; reflexivity|exact Hb].
      assert (E2 : (Qabs q * 64 == inject_Z (Z.abs n))%Q) by (rewrite <- (abs_int _ _ En), Qabs_Qmult; reflexivity).
      rewrite inject_Z_mult. change (inject_Z 15625) with (15625 # 1)%Q. rewrite <- E2. ring.
    + rewrite (Hi (Z.abs n) (abs_int _ _ En)).
      * rewrite inject_Z_mult. change (inject_Z (10 ^ 6)) with (1000000 # 1)%Q. rewrite <- (abs_int _ _ En). ring.
      * rewrite pow2_Z by lia. exact Hb.
Qed.

Theorem C58_double_text : forall base lb nb x q, is_double x -> denotes x q ->
  exists f, writes (fmt_double base lb nb) x (fplit_text f) /\ six_decimals (neg_bit x) f /\ (length (fplit_text f) <= 318)%nat /\
    (Qabs (fplit_value f - q) <= (1 # 2) * pow10 (-6) + (102 # 100) * pow10 (-17) * Qabs q)%Q /\
    (sixty_fourths q \/ integer_below (2 ^ 60) q -> fplit_value f == q)%Q.
Proof.
  intros base lb nb x q Hx Dx. destruct (dlit_spec x q Hx Dx) as (r & ip & fp & R & Hw & Et & Hlen & El & Hip & Hfp & Hl & Ef & Hwf & He & Hex).
  exists (dlit_of x). split; [|split; [|split; [|split]]].
  - apply formats_writes. rewrite Ef, Et. apply formats_double; [exact R|]. rewrite <- Et. lia.
  - exists ip, fp. rewrite El. auto.
  - rewrite Ef. exact Hlen.
  - rewrite El, (six_value (neg_bit x) ip fp Hl). change (pow10 (-6)) with (1 # 1000000)%Q. change (pow10 (-17)) with (1 # 100000000000000000)%Q.
    assert (Eq : (Qabs ((if neg_bit x then - (inject_Z (dval (ip ++ fp)) * (1 # 1000000)) else inject_Z (dval (ip ++ fp)) * (1 # 1000000)) - q) == Qabs (inject_Z (dval (ip ++ fp)) * (1 # 1000000) - Qabs q))%Q).
    { pose proof (denotes_sign x q Dx) as S. set (A := (inject_Z (dval (ip ++ fp)) * (1 # 1000000))%Q) in *. clearbody A. destruct (neg_bit x); [|apply Qabs_wd; lra].
      rewrite <- Qabs_opp. apply Qabs_wd. lra. }
    rewrite Eq. pose proof (Qabs_nonneg q). set (A := Qabs (inject_Z (dval (ip ++ fp)) * (1 # 1000000) - Qabs q)) in *. clearbody A. lra.
  - intros H. rewrite El, (six_value (neg_bit x) ip fp Hl). specialize (Hex H). pose proof (denotes_sign x q Dx) as S.
    set (A := (inject_Z (dval (ip ++ fp)) * (1 # 1000000))%Q) in *. clearbody A. destruct (neg_bit x); lra.
Qed.
Print Assumptions C58_double_text.

(** A [float] is written like the [double] of the same value. *)
Theorem C58_float_text : forall base lb nb x q, is_float x -> denotes x q ->
  exists f neg, writes (fmt_float base lb nb) x (fplit_text f) /\ six_decimals neg f /\ (neg = true -> q <= 0)%Q /\ (neg = false -> 0 <= q)%Q /\
    (Qabs (fplit_value f - q) <= (1 # 2) * pow10 (-6) + (102 # 100) * pow10 (-17) * Qabs q)%Q /\
    (sixty_fourths q \/ integer_below (2 ^ 60) q -> fplit_value f == q)%Q.
Proof.
  intros base lb nb x q Hx Dx. destruct (to64_exact x q Hx Dx) as [Hy Dy].
  destruct (C58_double_text base lb nb (to64 x) q Hy Dy) as (f & (W1 & W2) & H1 & _ & H2 & H3). exists f, (neg_bit (to64 x)).
  pose proof (denotes_sign _ _ Dy) as S. pose proof (Qabs_nonneg q).
  split; [split; [exact W1|exact W2]|]. split; [exact H1|]. split; [intros E; rewrite E in S; lra|]. split; [intros E; rewrite E in S; lra|]. split; [exact H2|exact H3].
Qed.
Print Assumptions C58_float_text.

(** The number of digits does not grow with the precision of the number: a weight
    below half a millionth becomes zero. *)
Theorem C58_small_weights_vanish : forall base lb nb x q, is_double x -> denotes x q -> (Qabs q <= (4999 # 10000) * pow10 (-6))%Q ->
  exists f, writes (fmt_double base lb nb) x (fplit_text f) /\ six_decimals (neg_bit x) f /\ (fplit_value f == 0)%Q.
Proof.
  intros base lb nb x q Hx Dx Hq. destruct (dlit_spec x q Hx Dx) as (r & ip & fp & R & Hw & Et & Hlen & El & Hip & Hfp & Hl & Ef & Hwf & He & _).
  exists (dlit_of x). split; [|split].
  - apply formats_writes. rewrite Ef, Et. apply formats_double; [exact R|]. rewrite <- Et. lia.
  - exists ip, fp. rewrite El. auto.
  - assert (N0 : 0 <= dval (ip ++ fp)) by (apply dval_nonneg, Forall_app; split; [apply Hip|exact Hfp]).
    assert (E : dval (ip ++ fp) = 0).
    { destruct (Z.eq_dec (dval (ip ++ fp)) 0) as [E|E]; [exact E|exfalso].
      assert (B : (1 <= inject_Z (dval (ip ++ fp)))%Q) by (change 1%Q with (inject_Z 1); rewrite <- Zle_Qle; lia).
      change (pow10 (-6)) with (1 # 1000000)%Q in Hq. apply Qabs_Qle_condition in He. lra. }
    rewrite El, (six_value (neg_bit x) ip fp Hl), E. destruct (neg_bit x); reflexivity.
Qed.
Print Assumptions C58_small_weights_vanish.

(** ** Infinities and NaN *)
Theorem C58_special_text : forall base lb nb,
  writes (fmt_double base lb nb) (S754_infinity false) (bs "Inf") /\
  writes (fmt_double base lb nb) (S754_infinity true) (bs "-Inf") /\
  writes (fmt_double base lb nb) S754_nan (bs "NaN").
Proof.
  intros base lb nb.
  split; [|split]; apply formats_writes; [apply (formats_double base lb nb _ (RSpecial false (bs "Inf")))|apply (formats_double base lb nb _ (RSpecial true (bs "Inf")))|apply (formats_double base lb nb _ (RSpecial false (bs "NaN")))];
    try reflexivity; apply Nat.ltb_lt; reflexivity.
Qed.
Print Assumptions C58_special_text.

(** ** Reading the text back *)
Lemma zero_digits ds : all_digits ds -> dval ds = 0 -> Forall (fun c => c = ch_0) ds.
Proof.
  induction ds as [|c ds IH] using rev_ind; intros Hd H0; [constructor|]. apply Forall_app in Hd as [H1 H2]. inversion_clear H2.
  rewrite dval_app_pow in H0. cbn [length] in H0. change (10 ^ Z.of_nat 1) with 10 in H0. pose proof (dval_nonneg ds H1). pose proof (dval_nonneg [c] ltac:(constructor; [assumption|constructor])).
  apply Forall_app. split; [apply IH; [exact H1|lia]|]. constructor; [|constructor]. assert (E : dval [c] = 0) by lia. unfold dval in E. cbn in E. unfold ch_0 in *. lia.
Qed.
Lemma fold_zeros pw ds : all_digits ds -> dval ds = 0 -> fp_fold (fp_double pw) ds = S754_zero false /\ fp_fold (fp_float pw) ds = S754_zero false.
Proof.
  intros Hd H0. pose proof (zero_digits ds Hd H0) as HF. unfold fp_fold. induction HF as [|c ds -> _ IH]; [split; reflexivity|]. cbn [fold_left].
  inversion_clear Hd. apply IH; [assumption|]. clear - H0. change (ch_0 :: ds) with ([ch_0] ++ ds)%list in H0. rewrite dval_app_pow in H0. exact H0.
Qed.

Definition sfabs (x : spec_float) : spec_float := match x with S754_zero _ => S754_zero false | S754_finite _ m e => S754_finite false m e | _ => x end.
Lemma sfabs_denotes x q : denotes x q -> denotes (sfabs x) (Qabs q).
Proof.
  intros D. destruct D as (v & Ev & Eq). destruct x as [s|s| |s m e]; cbn [sf_value sfabs] in *; try discriminate; injection Ev as <-; eexists; (split; [reflexivity|]).
  - rewrite <- Eq. reflexivity.
  - assert (M : (0 < inject_Z (Zpos m) * pow2 e)%Q) by (apply Qmult_lt_0_compat; [reflexivity|apply pow2_pos]). rewrite <- Eq. destruct s.
    + setoid_replace (- inject_Z (Zpos m) * pow2 e)%Q with (- (inject_Z (Zpos m) * pow2 e))%Q by ring. rewrite Qabs_opp, Qabs_pos by lra. reflexivity.
    + rewrite Qabs_pos by lra. reflexivity.
Qed.
Lemma sfabs_double x : is_double x -> is_double (sfabs x).
Proof. destruct x as [s|s| |s m e]; exact (fun H => H) || reflexivity. Qed.
Lemma sfabs_float x : is_float x -> is_float (sfabs x).
Proof. destruct x as [s|s| |s m e]; exact (fun H => H) || reflexivity. Qed.

Lemma rounded_of_double z x q : rounded z q -> is_double x -> denotes x q -> is_double z /\ denotes z q.
Proof.
  intros R Hx (w & Ew & Eq). split; [apply R|]. destruct R as (Hz & v & Ev & E). exists v. split; [exact Ev|].
  apply Qreals.eqR_Qeq. rewrite E. apply Generic_fmt.round_generic; [apply Generic_fmt.valid_rnd_N|].
  rewrite <- (Qreals.Qeq_eqR _ _ Eq). apply (double_format x w Hx Ew).
Qed.

(** The fraction. *)
Lemma sum_rounded x a y b p q : is_double x -> denotes x (inject_Z a) -> is_double y -> denotes y (inject_Z b) -> is_double p -> denotes p (pow10 6) ->
  0 <= a <= 2 ^ 53 -> 0 <= b < 1000000 -> (inject_Z (a * 1000000 + b) * (1 # 1000000) == q)%Q -> (exists n, q * 64 == inject_Z n)%Q ->
  rounded (dadd x (ddiv y p)) q.
Proof.
  intros Hx Dx Hy Dy Hp Dp Ha Hb Hv (n & En).
  assert (Eb : b = (n - 64 * a) * 15625).
  { assert (E : n * 15625 = a * 1000000 + b); [|lia]. apply inject_Z_injective. rewrite inject_Z_mult, <- En, <- Hv. change (inject_Z 15625) with (15625 # 1)%Q. ring. }
  set (k := n - 64 * a) in *.
  assert (Bb : (0 <= inject_Z b <= 1000000 # 1)%Q) by (change 0%Q with (inject_Z 0); change (1000000 # 1)%Q with (inject_Z 1000000); rewrite <- !Zle_Qle; lia).
  assert (Ba : (0 <= inject_Z a <= inject_Z (2 ^ 53))%Q) by (change 0%Q with (inject_Z 0); rewrite <- !Zle_Qle; lia).
  change (pow10 6) with (1000000 # 1)%Q in Dp.
  assert (Eq : (inject_Z b / (1000000 # 1) == inject_Z k * pow2 (-6))%Q).
  { rewrite Eb, inject_Z_mult. change (inject_Z 15625) with (15625 # 1)%Q. change (pow2 (-6)) with (1 # 64)%Q. field. }
  assert (R : rounded (ddiv y p) (inject_Z b / (1000000 # 1))).
  { apply ddiv_rounded; auto; [discriminate|]. apply Qle_trans with 1%Q; [|vm_compute; discriminate]. rewrite Qabs_pos.
    - apply Qle_shift_div_r; [reflexivity|lra].
    - apply Qle_shift_div_l; [reflexivity|lra]. }
  destruct (rounded_repr _ _ k (-6) R Eq) as [Hd Dd]; [assert (0 <= k < 64) by lia; assert (64 < 2 ^ 53) by reflexivity; lia|lia|].
  apply (rounded_eq _ (inject_Z a + inject_Z b / (1000000 # 1))); [rewrite <- Hv, inject_Z_plus, inject_Z_mult; change (inject_Z 1000000) with (1000000 # 1)%Q; field|].
  apply dadd_rounded; auto.
  assert (D0 : (0 <= inject_Z b / (1000000 # 1) <= 1)%Q) by (split; [apply Qle_shift_div_l; [reflexivity|lra]|apply Qle_shift_div_r; [reflexivity|lra]]).
  set (d := (inject_Z b / (1000000 # 1))%Q) in *. clearbody d.
  rewrite Qabs_pos by lra. apply Qle_trans with (inject_Z (2 ^ 53) + 1)%Q; [lra|vm_compute; discriminate].
Qed.

Lemma six_split ip fp : digits ip -> all_digits fp -> length fp = 6%nat ->
  0 <= dval ip /\ 0 <= dval fp < 1000000 /\ dval (ip ++ fp) = dval ip * 1000000 + dval fp.
Proof.
  intros Hip Hfp Hl. split; [apply dval_nonneg, Hip|]. pose proof (dval_range fp Hfp) as R. rewrite Hl in R. change (10 ^ Z.of_nat 6) with 1000000 in R.
  split; [exact R|]. rewrite dval_app_pow, Hl. reflexivity.
Qed.

Lemma abs_64 q : (exists n, q * 64 == inject_Z n)%Q -> (exists n, Qabs q * 64 == inject_Z n)%Q.
Proof. intros (n & E). exists (Z.abs n). rewrite <- (abs_int _ _ E), Qabs_Qmult. reflexivity. Qed.
Lemma lt53 q : (Qabs q < inject_Z (2 ^ 53))%Q -> forall ip b, 0 <= b -> (inject_Z (ip * 1000000 + b) * (1 # 1000000) == Qabs q)%Q -> ip <= 2 ^ 53.
Proof.
  intros Hq ip b Hb E. rewrite Zle_Qle. rewrite inject_Z_plus, inject_Z_mult in E. change (inject_Z 1000000) with (1000000 # 1)%Q in E.
  assert (B : (0 <= inject_Z b)%Q) by (change 0%Q with (inject_Z 0); rewrite <- Zle_Qle; exact Hb). lra.
Qed.
Lemma exact_64 q : sixty_fourths q \/ integer_below (2 ^ 53) q ->
  (exists n, q * 64 == inject_Z n)%Q /\ (Qabs q < inject_Z (2 ^ 53))%Q /\ (sixty_fourths q \/ integer_below (2 ^ 60) q).
Proof.
  intros [(E & H)|((n & E) & H)].
  - split; [exact E|]. split; [|left; split; assumption]. eapply Qlt_trans; [exact H|]. reflexivity.
  - split; [exists (n * 64); rewrite E, inject_Z_mult; reflexivity|]. split; [exact H|right]. split; [exists n; exact E|]. eapply Qlt_trans; [exact H|]. reflexivity.
Qed.
Lemma zero_is x q : denotes x q -> (q == 0)%Q -> x = S754_zero (neg_bit x).
Proof.
  intros (v & Ev & Eq) E. destruct x as [s|s| |s m e]; cbn [sf_value] in Ev; try discriminate; [reflexivity|injection Ev as <-; exfalso].
  assert (M : (0 < inject_Z (Zpos m) * pow2 e)%Q) by (apply Qmult_lt_0_compat; [reflexivity|apply pow2_pos]). rewrite E in Eq. destruct s; lra.
Qed.
Lemma six_positive p : denotes p (pow10 6) -> exists m e, p = S754_finite false m e.
Proof.
  intros (v & Ev & Eq). destruct p as [s|s| |s m e]; cbn [sf_value] in Ev; try discriminate; injection Ev as <-; [discriminate|].
  destruct s; [exfalso|exists m, e; reflexivity].
  assert (M : (0 < inject_Z (Zpos m) * pow2 e)%Q) by (apply Qmult_lt_0_compat; [reflexivity|apply pow2_pos]). change (pow10 6) with (1000000 # 1)%Q in Eq. lra.
Qed.

Lemma double_reads pw x q : pow_exact pw -> is_double x -> denotes x q -> sixty_fourths q \/ integer_below (2 ^ 53) q ->
  fp_value (fp_double pw) (dlit_of x) = x.
Proof.
  intros Hpw Hx Dx Hq. destruct (exact_64 q Hq) as (H64 & H53 & Hex).
  destruct (dlit_spec x q Hx Dx) as (r & ip & fp & R & Hw & Et & Hlen & El & Hip & Hfp & Hl & Ef & Hwf & He & HE). specialize (HE Hex).
  destruct (six_split ip fp Hip Hfp Hl) as (A0 & B0 & EN). rewrite EN in HE.
  destruct (of_nat_double 6) as [Hn Dn]; [lia|]. destruct (Hpw _ _ Hn Dn) as [Hp Dp]; [lia|].
  rewrite El. unfold fp_value. cbn [fl_sign fl_int fl_frac fl_exp]. rewrite Hl. change (fp_frac (fp_double pw)) with (fun a b n => dadd a (ddiv b (pw (dbl (Z.of_nat n))))). cbv beta.
  destruct (Qeq_dec q 0) as [E0|E0].
  - assert (Z0 : dval ip = 0 /\ dval fp = 0).
    { assert (E : dval ip * 1000000 + dval fp = 0); [|lia]. apply inject_Z_injective. change (inject_Z 0) with 0%Q. rewrite E0 in HE. change (Qabs 0) with 0%Q in HE.
      set (A := inject_Z (dval ip * 1000000 + dval fp)) in *. clearbody A. lra. }
    rewrite (proj1 (fold_zeros pw ip (proj2 Hip) (proj1 Z0))), (proj1 (fold_zeros pw fp Hfp (proj2 Z0))).
    destruct (six_positive _ Dp) as (m & e & ->). rewrite (zero_is x q Dx E0). cbn [neg_bit]. destruct (neg_bit x); reflexivity.
  - destruct (fold_double pw ip (proj2 Hip)) as [Ha Da]; [exact (lt53 q H53 _ _ (proj1 B0) HE)|].
    destruct (fold_double pw fp Hfp) as [Hb Db]; [assert (1000000 <= 2 ^ 53) by (vm_compute; discriminate); lia|].
    assert (Rd : rounded (dadd (fp_fold (fp_double pw) ip) (ddiv (fp_fold (fp_double pw) fp) (pw (dbl (Z.of_nat 6))))) (Qabs q)).
    { apply (sum_rounded _ (dval ip) _ (dval fp) _ _ Ha Da Hb Db Hp Dp); auto; [split; [exact A0|exact (lt53 q H53 _ _ (proj1 B0) HE)]|apply abs_64; exact H64]. }
    destruct (rounded_of_double _ (sfabs x) _ Rd (sfabs_double x Hx) (sfabs_denotes x q Dx)) as [Hz Dz].
    set (z := dadd _ _) in *. clearbody z. pose proof (denotes_sign x q Dx) as S.
    apply (same_value 53 1024) with q; [|exact Hx| |exact Dx|exact E0]; unfold fp_signed; destruct (neg_bit x); cbn [neg_of fp_opp fp_double]; auto.
    + apply (dneg_value z (Qabs q) Hz Dz). rewrite Qabs_pos by apply Qabs_nonneg. apply Qlt_le_weak. eapply Qlt_trans; [exact H53|reflexivity].
    + destruct (dneg_value z (Qabs q) Hz Dz) as [_ D]; [rewrite Qabs_pos by apply Qabs_nonneg; apply Qlt_le_weak; eapply Qlt_trans; [exact H53|reflexivity]|].
      eapply denotes_eq; [|exact D]. symmetry. exact S.
    + eapply denotes_eq; [|exact Dz]. symmetry. exact S.
Qed.

(** ** [float] *)

Lemma fold_float pw ds : all_digits ds -> dval ds <= 2 ^ 24 ->
  is_float (fp_fold (fp_float pw) ds) /\ denotes (fp_fold (fp_float pw) ds) (inject_Z (dval ds)).
Proof.
  intros Hd HB. apply (is_int_denotes 24 128); [lia|lia|assert (0 <= dval ds) by (apply dval_nonneg; exact Hd); lia|].
  exact (fold_integers (fp_float pw) _ _ ds (float_integers pw) Hd HB).
Qed.

(** The sign survives the conversion. *)
Lemma to64_neg x q : is_float x -> denotes x q -> neg_bit (to64 x) = neg_bit x.
Proof.
  intros Hx Dx. destruct (to64_exact x q Hx Dx) as [_ D]. destruct (Qeq_dec q 0) as [E|E].
  - rewrite (zero_is x q Dx E). reflexivity.
  - pose proof (denotes_sign _ _ Dx) as S1. pose proof (denotes_sign _ _ D) as S2.
    assert (A : (0 < Qabs q)%Q) by (destruct (Qabs_gt0 q); [lra|lra] || (apply Qabs_case; intros; lra)).
    destruct (neg_bit (to64 x)), (neg_bit x); try reflexivity; exfalso; lra.
Qed.

(** Multiples of 1/64 up to 2^24. *)
Definition sixty_fourths24 (q : Q) : Prop := (exists n, q * 64 == inject_Z n)%Q /\ (Qabs q <= pow2 24)%Q.

Lemma float_reads pw x q : pow_exact pw -> is_float x -> denotes x q -> sixty_fourths24 q ->
  fp_value (fp_float pw) (dlit_of (to64 x)) = x.
Proof.
  intros Hpw Hx Dx (H64 & H24). destruct (to64_exact x q Hx Dx) as [Hy Dy].
  assert (H53 : (Qabs q < inject_Z (2 ^ 53))%Q) by (eapply Qle_lt_trans; [exact H24|reflexivity]).
  assert (Hex : sixty_fourths q) by (split; [exact H64|eapply Qle_lt_trans; [exact H24|reflexivity]]).
  destruct (dlit_spec (to64 x) q Hy Dy) as (r & ip & fp & R & Hw & Et & Hlen & El & Hip & Hfp & Hl & Ef & Hwf & He & HE). specialize (HE (or_introl Hex)).
  destruct (six_split ip fp Hip Hfp Hl) as (A0 & B0 & EN). rewrite EN in HE.
  destruct (of_nat_double 6) as [Hn Dn]; [lia|]. destruct (Hpw _ _ Hn Dn) as [Hp Dp]; [lia|].
  rewrite El, (to64_neg x q Hx Dx). unfold fp_value. cbn [fl_sign fl_int fl_frac fl_exp]. rewrite Hl. change (fp_frac (fp_float pw)) with (fun a b n => to32 (dadd (to64 a) (ddiv (to64 b) (pw (dbl (Z.of_nat n)))))). cbv beta.
  destruct (Qeq_dec q 0) as [E0|E0].
  - assert (Z0 : dval ip = 0 /\ dval fp = 0).
    { assert (E : dval ip * 1000000 + dval fp = 0); [|lia]. apply inject_Z_injective. change (inject_Z 0) with 0%Q. rewrite E0 in HE. change (Qabs 0) with 0%Q in HE.
      set (A := inject_Z (dval ip * 1000000 + dval fp)) in *. clearbody A. lra. }
    rewrite (proj2 (fold_zeros pw ip (proj2 Hip) (proj1 Z0))), (proj2 (fold_zeros pw fp Hfp (proj2 Z0))).
    destruct (six_positive _ Dp) as (m & e & ->). rewrite (zero_is x q Dx E0). cbn [neg_bit]. destruct (neg_bit x); reflexivity.
  - assert (Hi24 : dval ip <= 2 ^ 24).
    { rewrite Zle_Qle. rewrite pow2_Z in H24 by lia. rewrite inject_Z_plus, inject_Z_mult in HE. change (inject_Z 1000000) with (1000000 # 1)%Q in HE.
      assert (B : (0 <= inject_Z (dval fp))%Q) by (change 0%Q with (inject_Z 0); rewrite <- Zle_Qle; lia). lra. }
    destruct (fold_float pw ip (proj2 Hip) Hi24) as [Ha Da].
    destruct (fold_float pw fp Hfp) as [Hb Db]; [assert (1000000 <= 2 ^ 24) by (vm_compute; discriminate); lia|].
    destruct (to64_exact _ _ Ha Da) as [Ha' Da']. destruct (to64_exact _ _ Hb Db) as [Hb' Db'].
    assert (Rd : rounded (dadd (to64 (fp_fold (fp_float pw) ip)) (ddiv (to64 (fp_fold (fp_float pw) fp)) (pw (dbl (Z.of_nat 6))))) (Qabs q)).
    { apply (sum_rounded _ (dval ip) _ (dval fp) _ _ Ha' Da' Hb' Db' Hp Dp); auto; [split; [exact A0|assert (2 ^ 24 <= 2 ^ 53) by (vm_compute; discriminate); lia]|apply abs_64; exact H64]. }
    destruct (rounded_of_double _ (sfabs (to64 x)) _ Rd (sfabs_double _ Hy) (sfabs_denotes _ q Dy)) as [Hz Dz].
    set (z := dadd _ _) in *. clearbody z.
    rewrite (to32_exact z (sfabs x) (Qabs q) (sfabs_float x Hx) (sfabs_denotes x q Dx) Dz).
    2:{ intros C. apply E0. pose proof (denotes_sign x q Dx) as S. destruct (neg_bit x); lra. }
    destruct x as [s|s| |s m e]; [exfalso; destruct Dx as (v & Ev & Eq); injection Ev as <-; apply E0; rewrite <- Eq; reflexivity|destruct Dx as (v & Ev & _); discriminate..|].
    cbn [sfabs neg_bit]. unfold fp_signed. destruct s; cbn [neg_of fp_opp fp_float]; [|reflexivity]. apply fneg. exact Hx.
Qed.

(** ** The error of writing and reading back *)
Lemma double_reads_near pw x q : pow_accurate pw -> is_double x -> denotes x q -> (Qabs q <= pow2 52)%Q ->
  is_double (fp_value (fp_double pw) (dlit_of x)) /\
  exists v, denotes (fp_value (fp_double pw) (dlit_of x)) v /\ (Qabs (v - q) <= (501 # 1000) * pow10 (-6) + pow2 (-49) * Qabs q)%Q.
Proof.
  intros Hpw Hx Dx Hq.
  destruct (dlit_spec x q Hx Dx) as (r & ip & fp & R & Hw & Et & Hlen & El & Hip & Hfp & Hl & Ef & Hwf & He & _).
  destruct (six_split ip fp Hip Hfp Hl) as (A0 & B0 & EN). apply Qabs_Qle_condition in He.
  set (N := (inject_Z (dval (ip ++ fp)) * (1 # 1000000))%Q) in *.
  assert (N0 : (0 <= N)%Q) by (unfold N; apply Qmult_le_0_compat; [change 0%Q with (inject_Z 0); rewrite <- Zle_Qle; lia|discriminate]).
  change (pow2 52) with (4503599627370496 # 1)%Q in Hq.
  assert (M : moderate (dlit_of x)).
  { rewrite El. unfold moderate, fplit_frac, fplit_exp. cbn [fl_int fl_frac fl_exp]. split; [|split; [|split]].
    - rewrite Zle_Qle. assert (E : (inject_Z (dval ip) + inject_Z (dval fp) * (1 # 1000000) == N)%Q).
      { unfold N. rewrite EN, inject_Z_plus, inject_Z_mult. change (inject_Z 1000000) with (1000000 # 1)%Q. ring. }
      assert (B : (0 <= inject_Z (dval fp))%Q) by (change 0%Q with (inject_Z 0); rewrite <- Zle_Qle; lia).
      change (inject_Z (2 ^ 53)) with (9007199254740992 # 1)%Q. clearbody N. lra.
    - assert (1000000 <= 2 ^ 53) by (vm_compute; discriminate). lia.
    - rewrite Hl. lia.
    - lia. }
  assert (Hc : is_fp ch_nl = false) by reflexivity.
  destruct (C56_double_error pw (dlit_of x) [] ch_nl [] 1 (length (fplit_text (dlit_of x))) Hpw Hwf M Hc (le_n _)) as (z & v & E1 & Hz & Dz & Ez).
  rewrite (lit_read (fp_double pw) (dlit_of x) [] ch_nl [] 1 (length (fplit_text (dlit_of x))) Hwf Hc (le_n _)) in E1. injection E1 as <-.
  split; [exact Hz|]. exists v. split; [exact Dz|].
  assert (EV : (fplit_value (dlit_of x) == if neg_bit x then - N else N)%Q) by (rewrite El; apply (six_value (neg_bit x) ip fp Hl)).
  assert (EA : (Qabs (fplit_value (dlit_of x)) == N)%Q) by (rewrite EV; destruct (neg_bit x); [rewrite Qabs_opp|]; apply Qabs_pos; exact N0).
  rewrite EA in Ez. pose proof (denotes_sign x q Dx) as S. pose proof (Qabs_nonneg q) as Q0. apply Qabs_Qle_condition in Ez. apply Qabs_Qle_condition.
  change (pow2 (-50)) with (1 # 1125899906842624)%Q in Ez. change (pow2 (-49)) with (1 # 562949953421312)%Q. change (pow10 (-6)) with (1 # 1000000)%Q.
  set (A := Qabs q) in *. clearbody A N. clear - Ez EV S Q0 He N0.
  set (fv := fplit_value (dlit_of x)) in *. clearbody fv. destruct (neg_bit x); split; lra.
Qed.

(** ** Files *)
Lemma coo_write_double base lb nb L (es : list (Z * Z * spec_float)) c parts sched (conv : spec_float -> spec_float) fm :
  (forall v, f_size fm v = f_size (fmt_double base lb nb) (conv v)) -> (forall a v, f_put fm a v = f_put (fmt_double base lb nb) a (conv v)) ->
  (forall e, In e es -> exists q, is_double (conv (snd e)) /\ denotes (conv (snd e)) q) ->
  is_ity L -> holds c es -> holds_weights c es -> Forall (label_ok L) es -> es <> [] -> concat parts = seq 0 (length es) ->
  (forall e, In e es -> formats fm (snd e) (dtext (conv (snd e)))) /\
  coo_write (fmt_int L) (Some fm) c parts sched = Ok (coo_text dec (Some (fun w => dtext (conv w))) es).
Proof.
  intros Hs Hp Hd HL Hc Hcw HF Hne Hparts.
  assert (Hfm : forall e, In e es -> formats fm (snd e) (dtext (conv (snd e)))).
  { intros e He. destruct (Hd e He) as (q & Hx & Dx). destruct (dlit_spec _ q Hx Dx) as (r & ip & fp & R & Hw & Et & Hlen & _).
    destruct (formats_double base lb nb _ r R) as [F1 F2]; [rewrite <- Et; lia|]. rewrite <- Et in F1, F2. split; [rewrite Hs; exact F1|].
    intros a. destruct (F2 a) as (ps & P). exists ps. rewrite Hp. exact P. }
  split; [exact Hfm|].
  destruct (coo_write_ok (fmt_int L) (Some fm) c es dec (fun w => dtext (conv w)) Hc (fun _ => Hcw)
    (formats_labels L es HL HF) ltac:(intros f e Ef; injection Ef as <-; apply Hfm) parts sched (perm_bounds es parts Hparts)) as (f & ps & _ & _ & _ & _ & E).
  { rewrite Hparts. destruct es; [congruence|discriminate]. }
  rewrite (pick_ordered es parts Hparts) in E. exact E.
Qed.


Lemma double_post F x q : is_double x -> denotes x q ->
  rest (ch_sp :: dtext x) /\ wpost (WFloat F) (ch_sp :: dtext x) (fp_value F (dlit_of x)).
Proof.
  intros H1 H2. destruct (dlit_spec _ q H1 H2) as (r & ip & fp & R & Hw & Et & _).
  destruct (fp_post F r Hw) as (P1 & _ & _ & _ & P2). rewrite Et. unfold dlit_of, dreal. rewrite R. split; assumption.
Qed.

(** A COO with [double] weights that are multiples of 1/64 below 2^40, or
    integers below 2^53, comes back with the same weights: the file written by
    any team is read by any team to the same entries. *)
Theorem C58_double_round_trip : forall pw L O base lb nb (es : list (Z * Z * spec_float)) c parts sched,
  pow_exact pw -> is_ity L -> is_ity O -> holds c es -> holds_weights c es -> Forall (label_ok L) es ->
  Forall (fun e => is_double (snd e) /\ exists q, denotes (snd e) q /\ (sixty_fourths q \/ integer_below (2 ^ 53) q)) es ->
  es <> [] -> Z.of_nat (length es) <= imax O -> concat parts = seq 0 (length es) ->
  exists s, coo_write (fmt_int L) (Some (fmt_double base lb nb)) c parts sched = Ok s /\
    forall T sched' pg, off_page pg s -> (1 <= T)%nat ->
    exists c', read_el L O (Some (wr_float (fp_double pw))) no_flags (mkMem s pg) 0 (length s) T sched' = Ok c' /\
      holds c' es /\ holds_weights c' es.
Proof.
  intros pw L O base lb nb es c parts sched Hpw HL HO Hc Hcw HF HW Hne Hm Hp. rewrite Forall_forall in HW.
  destruct (coo_write_double base lb nb L es c parts sched (fun w => w) (fmt_double base lb nb)) as [Hfm Ew]; auto.
  { intros e He. destruct (HW e He) as (H1 & q & H2 & _). exists q. auto. }
  eexists. split; [exact Ew|]. intros T sched' pg Hpg HT.
  destruct (round_weighted (WFloat (fp_double pw)) (fmt_double base lb nb) dtext (fun w => fp_value (fp_double pw) (dlit_of w)) L O es c parts sched T sched' pg)
    as (s & c' & E1 & E2 & E3 & E4 & E5); auto.
  - exact I.
  - intros e He. destruct (HW e He) as (H1 & q & H2 & _). exact (double_post (fp_double pw) _ q H1 H2).
  - subst s. exists c'. split; [exact E3|]. split; [exact E4|]. refine (eq_trans E5 _). apply map_ext_in. intros e He. f_equal.
    destruct (HW e He) as (H1 & q & H2 & H3). apply (double_reads pw _ q Hpw H1 H2 H3).
Qed.
Print Assumptions C58_double_round_trip.

(** The same for [float] weights that are multiples of 1/64 up to 2^24. *)
Theorem C58_float_round_trip : forall pw L O base lb nb (es : list (Z * Z * spec_float)) c parts sched,
  pow_exact pw -> is_ity L -> is_ity O -> holds c es -> holds_weights c es -> Forall (label_ok L) es ->
  Forall (fun e => is_float (snd e) /\ exists q, denotes (snd e) q /\ sixty_fourths24 q) es ->
  es <> [] -> Z.of_nat (length es) <= imax O -> concat parts = seq 0 (length es) ->
  exists s, coo_write (fmt_int L) (Some (fmt_float base lb nb)) c parts sched = Ok s /\
    forall T sched' pg, off_page pg s -> (1 <= T)%nat ->
    exists c', read_el L O (Some (wr_float (fp_float pw))) no_flags (mkMem s pg) 0 (length s) T sched' = Ok c' /\
      holds c' es /\ holds_weights c' es.
Proof.
  intros pw L O base lb nb es c parts sched Hpw HL HO Hc Hcw HF HW Hne Hm Hp. rewrite Forall_forall in HW.
  destruct (coo_write_double base lb nb L es c parts sched to64 (fmt_float base lb nb)) as [Hfm Ew]; auto.
  { intros e He. destruct (HW e He) as (H1 & q & H2 & _). exists q. apply to64_exact; assumption. }
  eexists. split; [exact Ew|]. intros T sched' pg Hpg HT.
  destruct (round_weighted (WFloat (fp_float pw)) (fmt_float base lb nb) (fun w => dtext (to64 w)) (fun w => fp_value (fp_float pw) (dlit_of (to64 w))) L O es c parts sched T sched' pg)
    as (s & c' & E1 & E2 & E3 & E4 & E5); auto.
  - exact I.
  - intros e He. destruct (HW e He) as (H1 & q & H2 & _). destruct (to64_exact _ _ H1 H2) as [H3 H4]. exact (double_post (fp_float pw) _ q H3 H4).
  - subst s. exists c'. split; [exact E3|]. split; [exact E4|]. refine (eq_trans E5 _). apply map_ext_in. intros e He. f_equal.
    destruct (HW e He) as (H1 & q & H2 & H3). apply (float_reads pw _ q Hpw H1 H2 H3).
Qed.
Print Assumptions C58_float_round_trip.

(** Any [double] weights of magnitude at most 2^52 come back with an error of at
    most 0.501 millionths plus a relative error of 2^-49. *)
Theorem C58_double_round_trip_error : forall pw L O base lb nb (es : list (Z * Z * spec_float)) c parts sched,
  pow_accurate pw -> is_ity L -> is_ity O -> holds c es -> holds_weights c es -> Forall (label_ok L) es ->
  Forall (fun e => is_double (snd e) /\ exists q, denotes (snd e) q /\ (Qabs q <= pow2 52)%Q) es ->
  es <> [] -> Z.of_nat (length es) <= imax O -> concat parts = seq 0 (length es) ->
  exists s, coo_write (fmt_int L) (Some (fmt_double base lb nb)) c parts sched = Ok s /\
    forall T sched' pg, off_page pg s -> (1 <= T)%nat ->
    exists c' ws, read_el L O (Some (wr_float (fp_double pw))) no_flags (mkMem s pg) 0 (length s) T sched' = Ok c' /\
      holds c' es /\ co_w c' = map Some ws /\
      Forall2 (fun e w => exists q v, denotes (snd e) q /\ is_double w /\ denotes w v /\
        (Qabs (v - q) <= (501 # 1000) * pow10 (-6) + pow2 (-49) * Qabs q)%Q) es ws.
Proof.
  intros pw L O base lb nb es c parts sched Hpw HL HO Hc Hcw HF HW Hne Hm Hp. rewrite Forall_forall in HW.
  destruct (coo_write_double base lb nb L es c parts sched (fun w => w) (fmt_double base lb nb)) as [Hfm Ew]; auto.
  { intros e He. destruct (HW e He) as (H1 & q & H2 & _). exists q. auto. }
  eexists. split; [exact Ew|]. intros T sched' pg Hpg HT.
  destruct (round_weighted (WFloat (fp_double pw)) (fmt_double base lb nb) dtext (fun w => fp_value (fp_double pw) (dlit_of w)) L O es c parts sched T sched' pg)
    as (s & c' & E1 & E2 & E3 & E4 & E5); auto.
  - exact I.
  - intros e He. destruct (HW e He) as (H1 & q & H2 & _). exact (double_post (fp_double pw) _ q H1 H2).
  - subst s. exists c', (map (fun e => fp_value (fp_double pw) (dlit_of (snd e))) es). split; [exact E3|]. split; [exact E4|]. split; [rewrite map_map; exact E5|].
    clear - HW Hpw. induction es as [|e es IH]; cbn [map]; constructor; [|apply IH; intros; apply HW; right; assumption].
    destruct (HW e (or_introl eq_refl)) as (H1 & q & H2 & H3). destruct (double_reads_near pw _ q Hpw H1 H2 H3) as (Hd & v & Dv & Ev). exists q, v. auto.
Qed.
Print Assumptions C58_double_round_trip_error.

(** ** What does not hold *)

(** The text is not always the decimal nearest to the number: 2^40 + 1/64 is
    1099511627776.015625, which has six decimals. *)
Theorem C58_nearest_refuted : let x := S754_finite false 4503599627370560 (-12) in let q := (70368744177665 # 64)%Q in
  is_double x /\ denotes x q /\
  (fplit_value (mkFplit SNone (bs "1099511627776") (Some (bs "015625")) None) == q)%Q /\
  forall base lb nb, writes (fmt_double base lb nb) x (bs "1099511627776.015630").
Proof.
  cbv zeta. split; [reflexivity|]. split; [eexists; split; reflexivity|]. split; [reflexivity|].
  intros base lb nb. apply formats_writes. apply (formats_double base lb nb _ (RFinite false (bs "109951162777601563") 13)); [vm_compute; reflexivity|apply Nat.ltb_lt; reflexivity].
Qed.
Print Assumptions C58_nearest_refuted.

(** A weight that is not a number (or infinite) is written, but the file does not
    come back: the reader takes the next number in the file, the first label of
    the next line, for the weight and loses that line; the array has a cell more
    than entries were stored. *)
Definition ex_special : list (Z * Z * spec_float) := [(1, 2, S754_nan); (3, 4, dbl 5); (6, 7, dbl 8)].
Definition coo_of_entries (es : list (Z * Z * spec_float)) : coo spec_float :=
  mkCoo (map (fun e => Some (fst (fst e))) es) (map (fun e => Some (snd (fst e))) es) (map (fun e => Some (snd e)) es) (Some 8) (Some 7) (Some 8) (Z.of_nat (length es)).
Theorem C58_not_a_number_refuted : forall base lb nb, let c := coo_of_entries ex_special in
  holds c ex_special /\ holds_weights c ex_special /\ Forall (label_ok u32) ex_special /\
  exists s c', coo_write (fmt_int u32) (Some (fmt_double base lb nb)) c (static_parts 3 1) [] = Ok s /\
    s = (bs "1 2 NaN" ++ [ch_nl] ++ bs "3 4 5.000000" ++ [ch_nl] ++ bs "6 7 8.000000" ++ [ch_nl])%list /\
    off_page 64 s /\
    read_el u32 u32 (Some (wr_float (fp_double pow_ref))) no_flags (mkMem s 64) 0 (length s) 1 [] = Ok c' /\
    co_m c' = 3 /\ co_x c' = [Some 1; Some 6; None] /\ co_y c' = [Some 2; Some 7; None] /\ co_w c' = [Some (dbl 3); Some (dbl 8); None].
Proof.
  intros base lb nb c. split; [repeat split|]. split; [reflexivity|]. split.
  { assert (E : imax u32 = 4294967295%Z) by reflexivity. repeat (constructor; [unfold label_ok; cbn [fst snd]; rewrite E; lia|]). constructor. }
  assert (Hf : forall w r, real_to_str w = Ok r -> (length (stb_chars 0 0 r) <? 1024)%nat = true -> formats (fmt_double base lb nb) w (dtext w)).
  { intros w r E H. unfold dtext. rewrite E. apply formats_double; [exact E|]. apply Nat.ltb_lt. exact H. }
  destruct (coo_write_ok (fmt_int u32) (Some (fmt_double base lb nb)) c ex_special dec dtext) with (parts := static_parts 3 1) (sched := @nil nat) as (f & ps & _ & _ & _ & _ & E).
  - repeat split.
  - reflexivity.
  - apply formats_labels; [cbn; tauto|]. assert (E : imax u32 = 4294967295%Z) by reflexivity. repeat (constructor; [unfold label_ok; cbn [fst snd]; rewrite E; lia|]). constructor.
  - intros f e Ef He. injection Ef as <-. destruct He as [<-|[<-|[<-|[]]]]; cbn [snd]; eapply Hf; try (vm_compute; reflexivity).
  - apply (perm_bounds ex_special). reflexivity.
  - discriminate.
  - eexists. eexists. split; [exact E|]. split; [vm_compute; reflexivity|]. split; [split; [apply Nat.ltb_lt; reflexivity|vm_compute; discriminate]|].
    split; [vm_compute; reflexivity|]. vm_compute. repeat split.
Qed.
Print Assumptions C58_not_a_number_refuted.

(** ** The hypotheses hold in concrete cases *)
Definition ex_doubles : list (Z * Z * spec_float) := [(1, 2, dlit false 25 (-1)); (3, 4, dlit true 15625 (-6)); (0, 9, S754_zero true); (6, 7, dbl (2 ^ 53 - 1))].
Example C58_applies :
  Forall (fun e => is_double (snd e) /\ exists q, denotes (snd e) q /\ (sixty_fourths q \/ integer_below (2 ^ 53) q)) ex_doubles /\
  holds (coo_of_entries ex_doubles) ex_doubles /\ holds_weights (coo_of_entries ex_doubles) ex_doubles /\
  pow_exact pow_ref /\ pow_accurate pow_ref /\
  map (fun e => dtext (snd e)) ex_doubles = [bs "2.500000"; bs "-0.015625"; bs "-0.000000"; bs "9007199254740991.000000"] /\
  coo_write (fmt_int u32) (Some (fmt_double 0 0 0)) (coo_of_entries ex_doubles) (static_parts 4 2) [1; 0; 1]%nat =
    Ok (bs "1 2 2.500000" ++ [ch_nl] ++ bs "3 4 -0.015625" ++ [ch_nl] ++ bs "0 9 -0.000000" ++ [ch_nl] ++ bs "6 7 9007199254740991.000000" ++ [ch_nl])%list.
Proof.
  split.
  { constructor; [split; [reflexivity|]|constructor; [split; [reflexivity|]|constructor; [split; [reflexivity|]|constructor; [split; [reflexivity|]|constructor]]]].
    - exists (5 # 2)%Q. split; [eexists; split; reflexivity|left; split; [exists 160; reflexivity|reflexivity]].
    - exists (-1 # 64)%Q. split; [eexists; split; reflexivity|left; split; [exists (-1); reflexivity|reflexivity]].
    - exists 0%Q. split; [eexists; split; reflexivity|left; split; [exists 0; reflexivity|reflexivity]].
    - exists (inject_Z (2 ^ 53 - 1))%Q. split; [eexists; split; reflexivity|right; split; [eexists; reflexivity|reflexivity]]. }
  split; [repeat split|]. split; [reflexivity|]. split; [exact pow_ref_exact|]. split; [exact pow_ref_accurate|]. split; vm_compute; reflexivity.
Qed.
Example C58_applies_float : let x := flt 100 in let y := S754_finite true 13107200 (-30) in
  Forall (fun x => is_float x /\ exists q, denotes x q /\ sixty_fourths24 q) [x; S754_finite true 8388608 (-28); S754_zero true] /\
  is_float y /\ dtext (to64 y) = bs "-0.012207" /\ dtext (to64 x) = bs "100.000000".
Proof.
  cbv zeta. split; [|split; [reflexivity|split; vm_compute; reflexivity]].
  constructor; [split; [reflexivity|]|constructor; [split; [reflexivity|]|constructor; [split; [reflexivity|]|constructor]]].
  - exists (100 # 1)%Q. split; [eexists; split; reflexivity|split; [exists 6400; reflexivity|vm_compute; discriminate]].
  - exists (-1 # 32)%Q. split; [eexists; split; reflexivity|split; [exists (-2); reflexivity|vm_compute; discriminate]].
  - exists 0%Q. split; [eexists; split; reflexivity|split; [exists 0; reflexivity|vm_compute; discriminate]].
Qed.
