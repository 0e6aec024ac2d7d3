(** * Property C42: floating-point literals

    [read_fp F m e d] is [FileReader::read_fp] with the reader at byte [d] of the
    file [m] and its end at byte [e]; the arithmetic of the type is [F]. *)

From Coq Require Import QArith Qround.
From Verif Require Import Base Reader Spec SpecFp ReaderLemmas Coo CooLemmas WeightLemmas ElSpec ElFinal.
Close Scope Q_scope.

(** [val] reads the elements of the type as rational numbers, and the operations
    are exact: [r*10. + digit], [r + fraction/pow(10., n)], [r*pow(10., z)] for
    integral [z], and [r * -1]. *)
Definition exact (F : fpops) (val : fpT F -> Q) : Prop :=
  (val (fp_zero F) == 0)%Q /\
  (forall a k, val (fp_dig F a k) == (10 # 1) * val a + inject_Z k)%Q /\
  (forall a b n, val (fp_frac F a b n) == val a + val b * pow10 (- Z.of_nat n))%Q /\
  (forall a b z, val b == inject_Z z -> val (fp_exp F a b) == val a * pow10 z)%Q /\
  (forall a, val (fp_opp F a) == - val a)%Q.

Lemma dval_snoc ds c : dval (ds ++ [c]) = (dval ds * 10 + (c - ch_0))%Z.
Proof. unfold dval. rewrite fold_left_app. reflexivity. Qed.

Lemma fold_exact F val ds : exact F val -> (val (fp_fold F ds) == inject_Z (dval ds))%Q.
Proof.
  intros (H0 & H1 & _). unfold fp_fold. induction ds as [|c ds IH] using rev_ind; [exact H0|].
  rewrite fold_left_app. cbn [fold_left]. rewrite H1, IH, dval_snoc, inject_Z_plus, inject_Z_mult.
  setoid_replace (10 # 1)%Q with (inject_Z 10) by reflexivity. ring.
Qed.

Lemma signed_exact F val s v : exact F val -> (val (fp_signed F s v) == if neg_of s then - val v else val v)%Q.
Proof. intros (_ & _ & _ & _ & H). unfold fp_signed. destruct (neg_of s); [apply H|reflexivity]. Qed.

Lemma value_exact F val f : exact F val -> (val (fp_value F f) == fplit_value f)%Q.
Proof.
  intros H. pose proof H as (_ & _ & H2 & H3 & _). unfold fp_value, fplit_value. rewrite (signed_exact F val _ _ H).
  assert (E : forall a b : Q, (a == b)%Q -> ((if neg_of (fl_sign f) then - a else a) == (if neg_of (fl_sign f) then - b else b))%Q) by (intros a b E; destruct (neg_of _); rewrite E; reflexivity).
  apply E. clear E.
  assert (Em : (val (match fl_frac f with None => fp_fold F (fl_int f) | Some ds => fp_frac F (fp_fold F (fl_int f)) (fp_fold F ds) (length ds) end) ==
     inject_Z (dval (fl_int f)) + inject_Z (dval (fplit_frac f)) * pow10 (- Z.of_nat (length (fplit_frac f))))%Q).
  { unfold fplit_frac. destruct (fl_frac f) as [ds|]; [rewrite H2, (fold_exact F val (fl_int f) H), (fold_exact F val ds H); reflexivity|].
    rewrite (fold_exact F val (fl_int f) H). change (inject_Z (dval [])) with 0%Q. ring. }
  unfold fplit_exp. destruct (fl_exp f) as [[[c s] ds]|].
  - rewrite (H3 _ _ (if neg_of s then - dval ds else dval ds)%Z); [rewrite Em; reflexivity|].
    rewrite (signed_exact F val s _ H). pose proof (fold_exact F val ds H) as Ef. destruct (neg_of s); [rewrite inject_Z_opp|]; rewrite Ef; reflexivity.
  - rewrite Em. change (pow10 0) with 1%Q. ring.
Qed.

(** The reader consumes the literal and nothing else; the value is the number the
    literal denotes. *)
Theorem C42_literal : forall F val f pre c post pg e,
  exact F val -> wf_fplit f -> is_fp c = false ->
  length (pre ++ fplit_text f) <= e ->
  exists v, read_fp F (mkMem (pre ++ fplit_text f ++ c :: post) pg) e (length pre) = Ok (v, length (pre ++ fplit_text f)) /\
    (val v == fplit_value f)%Q.
Proof.
  intros F val f pre c post pg e HF Hf Hc He. exists (fp_value F f). rewrite app_length in He |- *. split; [|apply value_exact; exact HF].
  pose proof (has_all (mkMem (pre ++ fplit_text f ++ c :: post) pg)) as Hh. cbn [bytes] in Hh.
  apply has_app in Hh as [_ Hh]. cbn [plus] in Hh. pose proof Hh as Hh2. apply has_app in Hh as [Hh _]. apply has_app in Hh2 as [_ Hh2].
  apply read_fp_at with (c := c); auto. eapply load_has. exact Hh2.
Qed.
Print Assumptions C42_literal.

(** The same for a literal that ends the file, if a byte of the mapping follows. *)
Theorem C42_literal_at_end : forall F val f pre pg,
  exact F val -> wf_fplit f -> off_page pg (pre ++ fplit_text f) ->
  exists v, read_fp F (mkMem (pre ++ fplit_text f) pg) (length (pre ++ fplit_text f)) (length pre) = Ok (v, length (pre ++ fplit_text f)) /\
    (val v == fplit_value f)%Q.
Proof.
  intros F val f pre pg HF Hf Hpg. exists (fp_value F f). split; [|apply value_exact; exact HF].
  pose proof (load_eof _ (slack_off_page _ _ Hpg)) as Hl. unfold flen in Hl; cbn [bytes] in Hl. rewrite app_length in *.
  pose proof (has_all (mkMem (pre ++ fplit_text f) pg)) as Hh. cbn [bytes] in Hh. apply has_app in Hh as [_ Hh]. cbn [plus] in Hh.
  apply read_fp_at with (c := 0%Z); auto.
Qed.
Print Assumptions C42_literal_at_end.

(** The rational numbers themselves are such an arithmetic. *)
Definition exactQ : fpops :=
  mkFp Q 0%Q (fun a k => (10 # 1) * a + inject_Z k)%Q
    (fun a b n => a + b * pow10 (- Z.of_nat n))%Q
    (fun a b => a * pow10 (Qfloor b))%Q Qopp.
Lemma exactQ_exact : exact exactQ (fun v => v).
Proof.
  split; [reflexivity|]. split; [reflexivity|]. split; [reflexivity|]. split; [|reflexivity].
  intros a b z E. cbn [exactQ fp_exp]. rewrite E, Qfloor_Z. reflexivity.
Qed.

(** A type with rounding: [is v n] (the value [v] is the integer [n]) is kept by
    the operations as long as the integers are within [B]. *)
Definition exact_integers (F : fpops) (is : fpT F -> Z -> Prop) (B : Z) : Prop :=
  is (fp_zero F) 0%Z /\
  (forall a n k, is a n -> 0 <= n -> 0 <= k < 10 -> n * 10 + k <= B -> is (fp_dig F a k) (n * 10 + k))%Z /\
  (forall a n, is a n -> 0 <= n <= B -> is (fp_opp F a) (- n))%Z.

Lemma fold_integers F is B ds : exact_integers F is B -> all_digits ds -> (dval ds <= B)%Z -> is (fp_fold F ds) (dval ds).
Proof.
  intros (H0 & H1 & _). unfold fp_fold. induction ds as [|c ds IH] using rev_ind; intros Hd HB; [exact H0|].
  apply Forall_app in Hd as [Hd Hc]. apply forall_hd in Hc. rewrite fold_left_app. cbn [fold_left]. rewrite dval_snoc in HB |- *.
  assert (0 <= dval ds)%Z by (apply dval_nonneg; exact Hd).
  unfold is_digit in Hc. apply H1; try lia; [apply IH; [exact Hd|]|]; unfold ch_0, ch_9 in *; lia.
Qed.

(** Integers written without point and exponent are then read exactly. *)
Theorem C42_integer : forall F is B s ds pre c post pg e,
  exact_integers F is B -> digits ds -> (dval ds <= B)%Z -> is_fp c = false ->
  let lit := sign_text s ++ ds in
  length (pre ++ lit) <= e ->
  exists v, read_fp F (mkMem (pre ++ lit ++ c :: post) pg) e (length pre) = Ok (v, length (pre ++ lit)) /\
    is v (match s with SMinus => - dval ds | _ => dval ds end)%Z.
Proof.
  intros F is B s ds pre c post pg e HF Hds HB Hc lit He.
  assert (El : lit = fplit_text (mkFplit s ds None None)) by (unfold lit, fplit_text; cbn [fl_sign fl_int fl_frac fl_exp frac_text exp_text]; rewrite !app_nil_r; reflexivity).
  rewrite El in He |- *. clear lit El.
  assert (Hf : wf_fplit (mkFplit s ds None None)).
  { split; [apply Hds|]. split; [exact I|]. split; [left; apply Hds|exact I]. }
  exists (fp_value F (mkFplit s ds None None)). rewrite app_length in He |- *. split.
  - pose proof (has_all (mkMem (pre ++ fplit_text (mkFplit s ds None None) ++ c :: post) pg)) as Hh. cbn [bytes] in Hh.
    apply has_app in Hh as [_ Hh]. cbn [plus] in Hh. pose proof Hh as Hh2. apply has_app in Hh as [Hh _]. apply has_app in Hh2 as [_ Hh2].
    apply read_fp_at with (c := c); auto. eapply load_has. exact Hh2.
  - pose proof (fold_integers F is B ds HF (proj2 Hds) HB) as E.
    assert (0 <= dval ds)%Z by (apply dval_nonneg; apply Hds).
    destruct HF as (_ & _ & Ho). unfold fp_value, fp_signed. cbn [fl_sign fl_int fl_frac fl_exp].
    destruct s; cbn [neg_of]; [exact E|exact E|apply Ho; [exact E|lia]].
Qed.
Print Assumptions C42_integer.

Lemma exactQ_integers B : exact_integers exactQ (fun v n => v == inject_Z n)%Q B.
Proof.
  split; [reflexivity|]. split.
  - intros a n k E _ _ _. cbn [exactQ fp_dig]. rewrite E, inject_Z_plus, inject_Z_mult.
    setoid_replace (10 # 1)%Q with (inject_Z 10) by reflexivity. ring.
  - intros a n E _. cbn [exactQ fp_opp]. rewrite E, inject_Z_opp. reflexivity.
Qed.

(** "-12.50e+1" *)
Example C42_applies : exists v, read_fp exactQ (mkMem (ch_sp :: [45;49;50;46;53;48;101;43;49] ++ [ch_nl])%Z 64) 11 1 = Ok (v, 10) /\ (v == - (125 # 1))%Q.
Proof.
  destruct (C42_literal exactQ (fun v => v) (mkFplit SMinus [49;50]%Z (Some [53;48]%Z) (Some (ch_e, SPlus, [49]%Z))) [ch_sp] ch_nl [] 64 11) as (v & E & Hv).
  - exact exactQ_exact.
  - split; [repeat constructor|]. split; [repeat constructor|]. split; [left; discriminate|]. split; [left; reflexivity|]. split; [discriminate|repeat constructor].
  - reflexivity.
  - vm_compute. lia.
  - exists v. split; [exact E|]. rewrite Hv. reflexivity.
Qed.
