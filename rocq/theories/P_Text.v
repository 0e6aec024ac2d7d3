(** * Properties C12-C14, C41: writing text *)

From Coq Require Import String Permutation.
From Verif Require Import Base Reader Sched Spec SpecDec SpecFp SpecText Coo WeightLemmas ElSpec ElThms ElExamples
  Ascii AsciiLemmas StbLemmas WriteLemmas TextRound.
Open Scope list_scope.
Notation length := List.length.

(** A value of type [t] other than the least of a signed type. *)
Definition printable (t : ity) (z : Z) : Prop := inrange t z = true /\ (isigned t = true -> z <> imin t).

(** C12: the announced size, the advance of the file position and the number of
    bytes stored agree; what is stored is the canonical decimal numeral of [z]
    at the file position, and no other byte of the file changes. *)
Theorem C12_write_size_exact : forall t z, is_ity t -> printable t z ->
  exists txt, write_size t z = Ok (length txt) /\
    (exists ds, txt = (if (z <? 0)%Z then ch_minus :: ds else ds) /\ canonical (Z.abs z) ds) /\
    forall a, exists ps, write_ascii t (Z.of_nat a) z = Ok (ps, Z.of_nat (a + length txt)) /\
      (forall i, In i ps -> (Z.of_nat a <= paddr i < Z.of_nat (a + length txt))%Z) /\
      forall pre mid post, length pre = a -> length mid = length txt ->
        exec_all pexec ps (pre ++ mid ++ post) = Ok (pre ++ txt ++ post).
Proof.
  intros t z Ht [Hr Hm]. exists (dec z). destruct (formats_int t z Ht Hr Hm) as [Hs _].
  split; [exact Hs|]. split.
  - unfold dec. destruct (Z.ltb_spec z 0).
    + exists (dec_abs (- z)). split; [reflexivity|]. replace (Z.abs z) with (- z)%Z by lia. apply dec_abs_canonical; lia.
    + exists (dec_abs z). split; [reflexivity|]. replace (Z.abs z) with z by lia. apply dec_abs_canonical; lia.
  - intros a. destruct (write_ascii_dec t a z Ht Hr Hm) as (ps & E & X1 & X2). exists ps. auto.
Qed.
Print Assumptions C12_write_size_exact.

Theorem C12_canonical_unique : forall z ds ds', canonical z ds -> canonical z ds' -> ds = ds'.
Proof. exact canonical_unique. Qed.
Print Assumptions C12_canonical_unique.

(** The least value of a signed type: for 8 and 16 bits the file position is
    advanced one byte more than announced; for 32 and 64 bits the negation
    overflows. *)
Theorem C12_minimum_refuted : forall t a, is_ity t -> isigned t = true ->
  exists n, write_size t (imin t) = Ok n /\
    ((exists ps, write_ascii t a (imin t) = Ok (ps, (a + Z.of_nat n + 1)%Z)) \/ write_ascii t a (imin t) = UB).
Proof.
  intros t a Ht Hs. unfold is_ity in Ht; cbn [In] in Ht.
  repeat destruct Ht as [<-|Ht]; try discriminate; try contradiction.
  - exists 4. split; [reflexivity|]. left. eexists. unfold write_ascii.
    change (isigned i8 && (imin i8 <? 0)%Z) with true. cbv iota.
    change (get_positive i8 (imin i8)) with (@Ok Z (-128)%Z). cbn [bind].
    change (write_size i8 (-128)%Z) with (@Ok nat 4). cbn [bind].
    change (dfuel (-128)) with 8. cbn [wdigits]. change (Z.quot (-128) 10) with (-12)%Z.
    change (Z.quot (-12) 10) with (-1)%Z. change (Z.quot (-1) 10) with 0%Z. cbn [Z.eqb bind].
    f_equal. f_equal. cbn. lia.
  - exists 6. split; [reflexivity|]. left. eexists. unfold write_ascii.
    change (isigned i16 && (imin i16 <? 0)%Z) with true. cbv iota.
    change (get_positive i16 (imin i16)) with (@Ok Z (-32768)%Z). cbn [bind].
    change (write_size i16 (-32768)%Z) with (@Ok nat 6). cbn [bind].
    change (dfuel (-32768)) with 16. cbn [wdigits]. change (Z.quot (-32768) 10) with (-3276)%Z.
    change (Z.quot (-3276) 10) with (-327)%Z. change (Z.quot (-327) 10) with (-32)%Z. change (Z.quot (-32) 10) with (-3)%Z.
    change (Z.quot (-3) 10) with 0%Z. cbn [Z.eqb bind].
    f_equal. f_equal. cbn. lia.
  - exists 11. split; [reflexivity|]. right. reflexivity.
  - exists 20. split; [reflexivity|]. right. reflexivity.
Qed.
Print Assumptions C12_minimum_refuted.

Example C12_applies : write_size i16 (-1203) = Ok 5 /\ printable i16 (-1203) /\
  exec_all pexec (match write_ascii i16 2 (-1203) with Ok (ps, _) => ps | _ => [] end) (bs "ab.....cd") = Ok (bs "ab-1203cd").
Proof. repeat split. discriminate. Qed.

(** C13: the text of the file is one line per entry, in the order in which the
    iterations are distributed; threads store into disjoint, increasing
    regions of the file. *)
Definition stores_apart (n : nat) (ps : list (list put)) : Prop :=
  (forall q i, In q ps -> In i q -> (0 <= paddr i < Z.of_nat n)%Z) /\
  (forall i j p q a b, i < j -> nth_error ps i = Some p -> nth_error ps j = Some q ->
     In a p -> In b q -> (paddr a < paddr b)%Z).

Lemma fop_apart ps : ForallOrdPairs (fun p q => forall i j, In i p -> In j q -> (paddr i < paddr j)%Z) ps ->
  forall i j p q a b, i < j -> nth_error ps i = Some p -> nth_error ps j = Some q -> In a p -> In b q -> (paddr a < paddr b)%Z.
Proof.
  induction 1 as [|x l F H IH]; intros i j p q a b Hij Ei Ej Ha Hb; [destruct i; discriminate|].
  destruct j as [|j]; [lia|]. cbn [nth_error] in Ej. destruct i as [|i]; cbn [nth_error] in Ei.
  - injection Ei as <-. rewrite Forall_forall in F. exact (F q (nth_error_In _ _ Ej) a b Ha Hb).
  - apply (IH i j p q a b); auto; lia.
Qed.

Lemma bounds_perm {A} (es : list A) parts : Permutation (concat parts) (seq 0 (length es)) ->
  Forall (Forall (fun i => i < length es)) parts.
Proof.
  intros E. apply Forall_forall. intros p Hp. apply Forall_forall. intros i Hi.
  assert (H : In i (concat parts)) by (apply in_concat; eauto). apply (Permutation_in _ E) in H. apply in_seq in H. lia.
Qed.

Lemma perm_nonempty {A} (es : list A) parts : Permutation (concat parts) (seq 0 (length es)) -> es <> [] -> concat parts <> [].
Proof. intros E Hne H. rewrite H in E. apply Permutation_nil in E. destruct es; [congruence|discriminate]. Qed.

Lemma formats_printable {W} L (es : list (Z * Z * W)) : is_ity L ->
  Forall (fun e => printable L (fst (fst e)) /\ printable L (snd (fst e))) es ->
  forall e, In e es -> formats (fmt_int L) (fst (fst e)) (dec (fst (fst e))) /\
                       formats (fmt_int L) (snd (fst e)) (dec (snd (fst e))).
Proof.
  intros HL HF e Hi. rewrite Forall_forall in HF. destruct (HF e Hi) as [[H1 H2] [H3 H4]].
  split; apply formats_int; assumption.
Qed.

Theorem C13_coo_write_text : forall L (es : list (Z * Z * unit)) c parts sched,
  is_ity L -> holds c es -> es <> [] ->
  Forall (fun e => printable L (fst (fst e)) /\ printable L (snd (fst e))) es ->
  Permutation (concat parts) (seq 0 (length es)) ->
  exists f ps, coo_write_plan (fmt_int L) None c parts = Ok (f, ps) /\ stores_apart (length f) ps /\
    coo_write (fmt_int L) None c parts sched = Ok (coo_text dec None (pick es (concat parts))) /\
    (concat parts = seq 0 (length es) -> pick es (concat parts) = es).
Proof.
  intros L es c parts sched HL Hc Hne HF HP.
  destruct (coo_write_ok (fmt_int L) None c es dec (fun _ => []) Hc ltac:(discriminate)
    (formats_printable L es HL HF) ltac:(discriminate) parts sched (bounds_perm es parts HP) (perm_nonempty es parts HP Hne))
    as (f & ps & E1 & E2 & E3 & E4 & E5).
  exists f, ps. split; [exact E1|]. split; [split; [exact E3|apply fop_apart; exact E4]|]. split; [exact E5|]. apply pick_ordered.
Qed.
Print Assumptions C13_coo_write_text.

Theorem C13_coo_write_text_int_weights : forall L Wt (es : list (Z * Z * Z)) c parts sched,
  is_ity L -> is_ity Wt -> holds c es -> holds_weights c es -> es <> [] ->
  Forall (fun e => printable L (fst (fst e)) /\ printable L (snd (fst e)) /\ printable Wt (snd e)) es ->
  Permutation (concat parts) (seq 0 (length es)) ->
  exists f ps, coo_write_plan (fmt_int L) (Some (fmt_int Wt)) c parts = Ok (f, ps) /\ stores_apart (length f) ps /\
    coo_write (fmt_int L) (Some (fmt_int Wt)) c parts sched = Ok (coo_text dec (Some dec) (pick es (concat parts))) /\
    (concat parts = seq 0 (length es) -> pick es (concat parts) = es).
Proof.
  intros L Wt es c parts sched HL HW Hc Hcw Hne HF HP.
  assert (HF1 : Forall (fun e => printable L (fst (fst e)) /\ printable L (snd (fst e))) es) by (eapply Forall_impl; [|exact HF]; cbn beta; tauto).
  destruct (coo_write_ok (fmt_int L) (Some (fmt_int Wt)) c es dec dec Hc (fun _ => Hcw)
    (formats_printable L es HL HF1)) with (parts := parts) (sched := sched)
    as (f & ps & E1 & E2 & E3 & E4 & E5).
  - intros f e Ef He. injection Ef as <-. rewrite Forall_forall in HF. destruct (HF e He) as (_ & _ & H1 & H2).
    apply formats_int; assumption.
  - apply (bounds_perm es parts HP).
  - apply (perm_nonempty es parts HP Hne).
  - exists f, ps. split; [exact E1|]. split; [split; [exact E3|apply fop_apart; exact E4]|]. split; [exact E5|]. apply pick_ordered.
Qed.
Print Assumptions C13_coo_write_text_int_weights.

(** The static schedule distributes the iterations in index order, for every
    team size; so the file lists the entries in index order. *)
Theorem C13_static_schedule : forall n T, 1 <= T -> concat (static_parts n T) = seq 0 n.
Proof. exact static_concat. Qed.
Print Assumptions C13_static_schedule.

(** A COO without entries cannot be written. *)
Theorem C13_empty_throws : forall {W} lf (wf : option (fmt W)) c T sched,
  coo_write lf wf c (repeat [] T) sched = Throw EError.
Proof.
  intros W lf wf c T sched. unfold coo_write, coo_write_plan.
  assert (E : mapM (fun es => sizes lf wf c es 0) (repeat [] T) = Ok (repeat 0 T)).
  { induction T as [|T IH]; [reflexivity|]. cbn [repeat mapM sizes bind]. rewrite IH. reflexivity. }
  rewrite E. cbn [bind]. replace (sum_nat (repeat 0 T)) with 0 by (clear; induction T; cbn in *; auto). reflexivity.
Qed.
Print Assumptions C13_empty_throws.

Definition ex_coo : coo Z := mkCoo [Some 10; Some 0; Some 7]%Z [Some 2; Some 31; Some 0]%Z [Some (-5); Some 66; Some 0]%Z
  (Some 32%Z) (Some 11%Z) (Some 32%Z) 3.
Example C13_applies :
  coo_write (fmt_int u32) (Some (fmt_int i8)) ex_coo (static_parts 3 2) [1;0;1;1;0] =
    Ok (bs "10 2 -5" ++ [ch_nl] ++ bs "0 31 66" ++ [ch_nl] ++ bs "7 0 0" ++ [ch_nl])%list /\
  holds ex_coo [(10, 2, -5); (0, 31, 66); (7, 0, 0)]%Z /\ holds_weights ex_coo [(10, 2, -5); (0, 31, 66); (7, 0, 0)]%Z /\
  printable u32 31 /\ printable i8 (-5).
Proof. repeat split; discriminate. Qed.

(** C14: writing and reading back. *)
Theorem C14_text_round_trip : forall L O (es : list (Z * Z * unit)) c parts sched T sched' pg,
  is_ity L -> is_ity O -> holds c es -> Forall (label_ok L) es -> es <> [] ->
  (Z.of_nat (length es) <= imax O)%Z -> concat parts = seq 0 (length es) ->
  off_page pg (coo_text dec None es) -> 1 <= T ->
  exists s c', coo_write (fmt_int L) None c parts sched = Ok s /\
    read_el L O None no_flags (mkMem s pg) 0 (length s) T sched' = Ok c' /\ holds c' es.
Proof. exact round_unweighted. Qed.
Print Assumptions C14_text_round_trip.

Definition int_kind (t : ity) : wkind := if isigned t then WSigned t else WUnsigned t.

Theorem C14_text_round_trip_unsigned_weights : forall L O t (es : list (Z * Z * Z)) c parts sched T sched' pg,
  is_ity L -> is_ity O -> is_ity t -> isigned t = false -> holds c es -> holds_weights c es ->
  Forall (label_ok L) es -> Forall (fun e => inrange t (snd e) = true) es -> es <> [] ->
  (Z.of_nat (length es) <= imax O)%Z -> concat parts = seq 0 (length es) ->
  off_page pg (coo_text dec (Some dec) es) -> 1 <= T ->
  exists s c', coo_write (fmt_int L) (Some (fmt_int t)) c parts sched = Ok s /\
    read_el L O (Some (wr_unsigned t)) no_flags (mkMem s pg) 0 (length s) T sched' = Ok c' /\
    holds c' es /\ holds_weights c' es.
Proof.
  intros L O t es c parts sched T sched' pg HL HO Ht Hs Hc Hcw HF HW Hne Hm Hp Hpg HT.
  destruct (round_weighted (WUnsigned t) (fmt_int t) dec (fun w => w) L O es c parts sched T sched' pg) as (s & c' & E1 & _ & E2 & E3 & E4); auto.
  - split; assumption.
  - intros e He. apply formats_int; [exact Ht| |congruence]. rewrite Forall_forall in HW. apply HW; exact He.
  - intros e He. rewrite Forall_forall in HW. pose proof (int_post t (snd e) Ht (HW e He)) as P. rewrite Hs in P. apply P. discriminate.
  - exists s, c'. auto.
Qed.
Print Assumptions C14_text_round_trip_unsigned_weights.

Theorem C14_text_round_trip_signed_weights : forall L O t (es : list (Z * Z * Z)) c parts sched T sched' pg,
  is_ity L -> is_ity O -> is_ity t -> isigned t = true -> holds c es -> holds_weights c es ->
  Forall (label_ok L) es -> Forall (fun e => printable t (snd e)) es -> es <> [] ->
  (Z.of_nat (length es) <= imax O)%Z -> concat parts = seq 0 (length es) ->
  off_page pg (coo_text dec (Some dec) es) -> 1 <= T ->
  exists s c', coo_write (fmt_int L) (Some (fmt_int t)) c parts sched = Ok s /\
    read_el L O (Some (wr_signed t)) no_flags (mkMem s pg) 0 (length s) T sched' = Ok c' /\
    holds c' es /\ holds_weights c' es.
Proof.
  intros L O t es c parts sched T sched' pg HL HO Ht Hs Hc Hcw HF HW Hne Hm Hp Hpg HT.
  destruct (round_weighted (WSigned t) (fmt_int t) dec (fun w => w) L O es c parts sched T sched' pg) as (s & c' & E1 & _ & E2 & E3 & E4); auto.
  - split; assumption.
  - intros e He. rewrite Forall_forall in HW. apply formats_int; [exact Ht|apply HW; exact He|apply HW; exact He].
  - intros e He. rewrite Forall_forall in HW. destruct (HW e He) as [H1 H2]. pose proof (int_post t (snd e) Ht H1 H2) as P. rewrite Hs in P. exact P.
  - exists s, c'. auto.
Qed.
Print Assumptions C14_text_round_trip_signed_weights.

(** Floating-point weights come back as the value of the written literal. *)
Theorem C14_text_round_trip_float_weights : forall F L O rts base lb nb (es : list (Z * Z * fpT F)) c parts sched T sched' pg,
  is_ity L -> is_ity O -> holds c es -> holds_weights c es ->
  Forall (label_ok L) es ->
  Forall (fun e => wf_real (rts (snd e)) /\ length (stb_chars 0 0 (rts (snd e))) < 1024) es -> es <> [] ->
  (Z.of_nat (length es) <= imax O)%Z -> concat parts = seq 0 (length es) ->
  off_page pg (coo_text dec (Some (fun w => stb_chars 0 0 (rts w))) es) -> 1 <= T ->
  exists s c', coo_write (fmt_int L) (Some (fmt_fp rts base lb nb)) c parts sched = Ok s /\
    s = coo_text dec (Some (fun w => stb_chars 0 0 (rts w))) es /\
    read_el L O (Some (wr_float F)) no_flags (mkMem s pg) 0 (length s) T sched' = Ok c' /\
    holds c' es /\
    co_w c' = map (fun e => Some (fp_value F (real_lit (rts (snd e))))) es /\
    (forall e, In e es -> fplit_text (real_lit (rts (snd e))) = stb_chars 0 0 (rts (snd e)) /\ wf_fplit (real_lit (rts (snd e)))).
Proof.
  intros F L O rts base lb nb es c parts sched T sched' pg HL HO Hc Hcw HF HW Hne Hm Hp Hpg HT. rewrite Forall_forall in HW.
  destruct (round_weighted (WFloat F) (fmt_fp rts base lb nb) (fun w => stb_chars 0 0 (rts w)) (fun w => fp_value F (real_lit (rts w))) L O es c parts sched T sched' pg) as (s & c' & E1 & E2 & E3 & E4 & E5); auto.
  - exact I.
  - intros e He. apply formats_fp. apply HW; exact He.
  - intros e He. destruct (fp_post F (rts (snd e))) as (P1 & _ & _ & _ & P2); [apply HW; exact He|]. split; assumption.
  - exists s, c'. split; [exact E1|]. split; [exact E2|]. split; [exact E3|]. split; [exact E4|]. split; [exact E5|].
    intros e He. destruct (fp_post F (rts (snd e))) as (_ & P1 & P2 & _); [apply HW; exact He|]. split; assumption.
Qed.
Print Assumptions C14_text_round_trip_float_weights.

Example C14_applies : Forall (label_ok u32) [(10, 2, -5); (0, 31, 66); (7, 0, 0)]%Z /\
  off_page 4096 (coo_text dec (Some dec) [(10, 2, -5); (0, 31, 66); (7, 0, 0)]%Z) /\
  concat (static_parts 3 2) = seq 0 3 /\ concat [[0]; [1;2]; []] = seq 0 3.
Proof.
  split; [|split; [|split; reflexivity]].
  - assert (E : imax u32 = 4294967295%Z) by reflexivity.
    repeat (constructor; [unfold label_ok; cbn [fst snd]; rewrite E; lia|]). constructor.
  - split; [apply Nat.ltb_lt; reflexivity|vm_compute; discriminate].
Qed.

(** C41: floating-point formatting.  Whatever the double arithmetic of
    [real_to_str] computes (a sign, digits [sn], a decimal position [dp]), and
    whatever the alignment of the buffers: the announced size is the number of
    characters stored and the advance; the text is sign, integer part, point
    and six decimals, and denotes 0.sn * 10^dp cut to six decimals. *)
Theorem C41_float_format : forall {V} (rts : V -> realstr) base lb nb v neg sn dp,
  rts v = RFinite neg sn dp -> all_digits sn -> (sn = [] -> (dp <= 0)%Z) -> (dp <= 400)%Z ->
  exists ip fp, let txt := ((if neg then [ch_minus] else []) ++ ip ++ ch_dot :: fp)%list in
    digits ip /\ all_digits fp /\ length fp = 6 /\ dval (ip ++ fp) = sixth sn dp /\
    f_size (fmt_fp rts base lb nb) v = Ok (length txt) /\
    forall a, exists ps, f_put (fmt_fp rts base lb nb) (Z.of_nat a) v = Ok (ps, Z.of_nat (a + length txt)) /\
      (forall i, In i ps -> (Z.of_nat a <= paddr i <= Z.of_nat (a + length txt))%Z) /\
      forall pre mid c post, length pre = a -> length mid = length txt ->
        exists c', exec_all pexec ps (pre ++ mid ++ c :: post) = Ok (pre ++ txt ++ c' :: post).
Proof.
  intros V rts base lb nb v neg sn dp E Hd Hne Hdp.
  destruct (stb_layout 0 0 neg sn dp Hd Hne) as (ip & fp & Et & Hi & Hf & Hl & Hv & Hlen).
  exists ip, fp. cbv zeta. split; [exact Hi|]. split; [exact Hf|]. split; [exact Hl|]. split; [exact Hv|].
  assert (Hb : length (stb_chars 0 0 (rts v)) < 1024).
  { rewrite E, Et, !app_length. cbn [length]. rewrite Hl. assert (Z.to_nat dp <= 400) by lia.
    destruct neg; cbn [length]; apply Nat.ltb_lt; apply Nat.ltb_lt; lia. }
  destruct (formats_fp rts base lb nb v Hb) as [F1 F2]. rewrite E, Et in F1, F2. split; [exact F1|exact F2].
Qed.
Print Assumptions C41_float_format.

Example C41_applies :
  stb_chars 3 1 (RFinite true (bs "12345") 3) = bs "-123.450000" /\
  stb_chars 0 2 (RFinite false (bs "5") (-2)) = bs "0.005000" /\
  stb_chars 7 5 (RFinite false (bs "17") 9) = bs "170000000.000000" /\ sixth (bs "5") (-2) = 5000%Z /\
  wf_real (RFinite true (bs "12345") 3) /\ fplit_text (real_lit (RFinite true (bs "12345") 3)) = bs "-123.450000".
Proof.
  split; [reflexivity|]. split; [reflexivity|]. split; [reflexivity|]. split; [reflexivity|]. split; [|reflexivity].
  split; [|discriminate]. repeat (constructor; [reflexivity|]). constructor.
Qed.
