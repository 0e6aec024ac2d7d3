(** * Reweigh: reading a binary file with another weight parameter *)

From Coq Require Import String.
From Verif Require Import Base Reader Sched SchedLemmas Coo Ascii Csr SpecCsr CsrLemmas Codec Bin SpecBin BinLemmas BinSave BinLoad Graph Load Tensor BinOpen SpecReweigh.
Notation length := List.length.
Open Scope list_scope.

Lemma run_ext {S I} (f g : I -> S -> res S) : (forall i s, f i s = g i s) -> forall sched ps s, run f sched ps s = run g sched ps s.
Proof.
  intros H. assert (HE : forall l s, exec_all f l s = exec_all g l s).
  { induction l as [|i l IH]; intros s; [reflexivity|]. cbn [exec_all]. rewrite H. destruct (g i s); cbn [bind]; auto. }
  induction sched as [|t sched IH]; intros ps s; cbn [run]; [apply HE|].
  destruct (pop t ps) as [[i ps']|]; [|apply IH]. rewrite H. destruct (g i s); cbn [bind]; auto.
Qed.

Lemma paged_between pg n k : 1 <= pg -> n <= k -> k <= paged pg n -> paged pg k = paged pg n.
Proof.
  intros Hp H1 H2. unfold paged in *. f_equal. apply Nat.le_antisymm.
  - pose proof (Nat.div_mod (n + (pg - 1)) pg ltac:(lia)) as E. set (q := (n + (pg - 1)) / pg) in *.
    assert (Hlt : (k + (pg - 1)) / pg < S q); [|lia]. apply Nat.div_lt_upper_bound; [lia|]. nia.
  - apply Nat.div_le_mono; lia.
Qed.

Lemma paged_le pg n : 1 <= pg -> n <= paged pg n.
Proof.
  intros Hp. unfold paged. pose proof (Nat.div_mod (n + (pg - 1)) pg ltac:(lia)) as E.
  pose proof (Nat.mod_upper_bound (n + (pg - 1)) pg ltac:(lia)). nia.
Qed.

Lemma nth_lt {A} (l : list A) i a : nth_error l i = Some a -> i < length l.
Proof. intros H. apply nth_error_Some. congruence. Qed.

Lemma firstn_repeat {A} (a : A) k : forall n, firstn k (repeat a n) = repeat a (Nat.min k n).
Proof. induction k as [|k IH]; intros [|n]; cbn; [reflexivity..|]. rewrite IH. reflexivity. Qed.

(** Zero bytes up to the end of the page are as good as bytes of the file. *)
Lemma load_pad s pg z i : 1 <= pg -> length s + z <= paged pg (length s) -> load (mkMem s pg) i = load (mkMem (s ++ repeat 0%Z z) pg) i.
Proof.
  intros Hp Hz. unfold load. cbn [bytes].
  assert (EM : map_len (mkMem (s ++ repeat 0%Z z) pg) = map_len (mkMem s pg)).
  { unfold map_len, flen. cbn [bytes page]. rewrite app_length, repeat_length.
    apply (paged_between pg (length s) (length s + z)); lia. }
  rewrite EM. destruct (Nat.lt_ge_cases i (length s)) as [H|H].
  - rewrite nth_error_app1 by exact H. reflexivity.
  - rewrite (proj2 (nth_error_None s i)) by exact H. rewrite nth_error_app2 by exact H.
    match goal with |- _ = match ?X with _ => _ end => destruct X as [b|] eqn:E end; [|reflexivity].
    pose proof (nth_error_In _ _ E) as Hin. apply repeat_spec in Hin. subst b.
    pose proof (nth_lt _ _ _ E) as Hlt. rewrite repeat_length in Hlt.
    destruct (Nat.ltb_spec i (map_len (mkMem s pg))) as [|Hge]; [reflexivity|].
    unfold map_len, flen in Hge. cbn [bytes page] in Hge. fold (paged pg (length s)) in Hge. lia.
Qed.

Lemma par_read_pad s pg fn pre r n tm : 1 <= pg -> s = pre ++ r -> 1 <= fst tm -> length pre + n <= paged pg (length s) ->
  par_read n n tm (reading s pg fn pre) = Ok (map Some (firstn n (r ++ repeat 0%Z n)), mkRfile (mkMem s pg) (length pre + n) fn).
Proof.
  intros Hp E HT Hn. destruct tm as [T sched]. cbn [fst] in HT.
  set (z := length pre + n - length s).
  assert (Hz : length s + z <= paged pg (length s)) by (pose proof (paged_le pg (length s) Hp); unfold z; lia).
  set (s' := s ++ repeat 0%Z z). set (b := firstn n (r ++ repeat 0%Z n)).
  assert (Lb : length b = n) by (unfold b; rewrite firstn_length, app_length, repeat_length; lia).
  assert (E' : exists post, s' = pre ++ b ++ post).
  { exists (skipn n (r ++ repeat 0%Z z)). unfold s', b. rewrite E, <- app_assoc. f_equal.
    replace (firstn n (r ++ repeat 0%Z n)) with (firstn n (r ++ repeat 0%Z z)); [symmetry; apply firstn_skipn|].
    assert (Ls : length s = length pre + length r) by (rewrite E, app_length; reflexivity).
    rewrite !firstn_app. f_equal. destruct (Nat.le_gt_cases (length r) n) as [H|H].
    - rewrite !firstn_repeat. f_equal. unfold z; lia.
    - replace (n - length r) with 0 by lia. rewrite !firstn_O. reflexivity. }
  destruct E' as (post & E').
  pose proof (par_read_ok s' pg fn pre b post T sched n n E' HT (eq_sym Lb) (eq_sym Lb)) as H.
  unfold par_read, reading in *. cbn [rf_mem rf_fp rf_name fst snd] in *.
  rewrite (run_ext (rcopy (mkMem s pg) (length pre)) (rcopy (mkMem s' pg) (length pre))).
  2:{ intros i a. unfold rcopy. rewrite (load_pad s pg z) by assumption. reflexivity. }
  destruct (run (rcopy (mkMem s' pg) (length pre)) sched (shares n T) (fresh n)) as [a| | |]; cbn [bind] in *; try discriminate.
  injection H as -> _. reflexivity.
Qed.

Lemma all_some_firstn k (l : list byte) : all_some (firstn k (map Some l)) = Some (firstn k l).
Proof. rewrite firstn_map. apply all_some_ok. Qed.

Lemma unraw_values {V} (c : codec V) k : forall bs, unraw c k (map Some bs) = map Some (values c k bs).
Proof.
  induction k as [|k IH]; intros bs; [reflexivity|]. cbn [unraw values map]. rewrite all_some_firstn.
  replace (skipn (cd_size c) (map Some bs)) with (map Some (skipn (cd_size c) bs)) by (rewrite skipn_map; reflexivity). rewrite IH. reflexivity.
Qed.

Lemma values_prefix {V} (c : codec V) k : forall bs n, cd_size c * k <= n -> values c k (firstn n bs) = values c k bs.
Proof.
  induction k as [|k IH]; intros bs n Hn; [reflexivity|]. cbn [values].
  rewrite firstn_firstn, Nat.min_l by lia. f_equal. rewrite skipn_firstn_comm. apply IH. lia.
Qed.

Lemma get_weights_pad {W} (c : codec W) s pg fn pre r m_ tm : 1 <= pg -> 0 < cd_size c -> s = pre ++ r -> 1 <= fst tm ->
  length pre + cd_size c * m_ <= paged pg (length s) ->
  get_weights (Some c) (fresh m_) m_ tm (reading s pg fn pre) =
    Ok (map Some (seen c m_ r), mkRfile (mkMem s pg) (length pre + cd_size c * m_) fn).
Proof.
  intros Hp Hc E HT Hn. unfold get_weights. rewrite fresh_length. destruct (Nat.ltb_spec 0 (cd_size c * m_)).
  - unfold rd_array. rewrite (par_read_pad s pg fn pre r) by assumption. cbn [bind].
    rewrite unraw_values. unfold seen. rewrite values_prefix by lia. reflexivity.
  - assert (m_ = 0) by nia. subst m_. rewrite Nat.mul_0_r, Nat.add_0_r. reflexivity.
Qed.

Lemma get_weights_past {W} (c : codec W) s pg fn pre m_ tm : 1 <= pg -> length pre <= length s -> 1 <= fst tm ->
  paged pg (length s) < length pre + cd_size c * m_ ->
  get_weights (Some c) (fresh m_) m_ tm (reading s pg fn pre) = UB.
Proof.
  intros Hp Hl HT Hn. pose proof (paged_le pg (length s) Hp). unfold get_weights. rewrite fresh_length.
  destruct (Nat.ltb_spec 0 (cd_size c * m_)); [|lia]. unfold rd_array. destruct tm as [T sched].
  rewrite (par_read_past _ _ T sched _ (paged pg (length s) - length pre)); [reflexivity|exact HT|lia|].
  unfold reading. cbn [rf_mem rf_fp]. unfold load. cbn [bytes]. rewrite (proj2 (nth_error_None _ _)) by lia.
  unfold map_len, flen. cbn [bytes page]. fold (paged pg (length s)).
  destruct (Nat.ltb_spec (length pre + (paged pg (length s) - length pre)) (paged pg (length s))); [lia|reflexivity].
Qed.

(** ** The part of the files before the weights *)
Section Before.
  Context {W W' : Type}.
  Variables (L O : ity) (wc : option (codec W)) (wc' : option (codec W')) (P : W -> Prop).
  Hypothesis HL : is_ity L.
  Hypothesis HO : is_ity O.

  Lemma coo_before (c : coo W) tx ty tw : coo_shape wc c -> coo_full L O wc P c -> 1 <= fst tx -> 1 <= fst ty ->
    exists b wb, coo_layout L O wc c = map Some (b ++ wb) /\ wgts wc (co_w c) = map Some wb /\ b <> [] /\
      (0 <= co_m c)%Z /\
      forall s pg fn pre post, s = pre ++ b ++ post ->
        coo_read_bin L O wc' (reading s pg fn pre) tx ty tw =
          '(w, f) <- get_weights wc' (if is_some wc' then fresh (Z.to_nat (co_m c)) else []) (Z.to_nat (co_m c)) tw (reading s pg fn (pre ++ b)) ;;
          Ok (mkCoo (co_x c) (co_y c) w (co_n c) (co_nrows c) (co_ncols c) (co_m c), f).
  Proof.
    destruct c as [x y w n nr nc m]. intros (Hx & Hy & Hw) (Fr & Fc & Fn & Fm & Fx & Fy & Fw) Tx Ty.
    unfold coo_layout. cbn [co_x co_y co_w co_n co_nrows co_ncols co_m] in *.
    destruct Fr as (zr & -> & Hr). destruct Fc as (zc & -> & Hc). destruct Fn as (zn & -> & Hn).
    destruct (fits_values L x Fx) as (xs & -> & Hxs). destruct (fits_values L y Fy) as (ys & -> & Hys).
    rewrite !map_length in *. set (m_ := Z.to_nat m). assert (Em : m = Z.of_nat m_) by (unfold m_; lia).
    rewrite Em in Hw. destruct (wfit_values wc P w m_ Hw Fw) as (ws & -> & Ew & _ & Hws).
    unfold known. rewrite Ew, !scalar_some, !sizeof_some, !labels_some by assumption.
    change (text "PIGO-COO-v1"%string) with (map Some coo_magic).
    exists (coo_magic ++ cd_enc (cint u8) (size_byte L) ++ cd_enc (cint u8) (size_byte O) ++ cd_enc (cint L) zr ++ cd_enc (cint L) zc ++
       cd_enc (cint L) zn ++ cd_enc (cint O) m ++ flat_map (cd_enc (cint L)) xs ++ flat_map (cd_enc (cint L)) ys), (wvals wc ws).
    split; [rewrite !map_app, <- !app_assoc; reflexivity|]. split; [reflexivity|]. split; [discriminate|]. split; [lia|].
    intros s pg fn pre post E. rewrite <- !app_assoc in E. unfold coo_read_bin.
    rewrite (rd_str_ok _ _ _ _ _ _ E). 2:{ intros HH. apply (f_equal (@length byte)) in HH. rewrite app_length, enc_len in HH. discriminate. }
    cbn [bind]. nxt E.
    rds E. rewrite dec_enc by (auto using u8_ity, size_byte_range).
    rds E. rewrite dec_enc by (auto using u8_ity, size_byte_range).
    rewrite !Z.eqb_refl. cbn [negb].
    rds E. rewrite dec_enc by assumption.
    rds E. rewrite dec_enc by assumption.
    rds E. rewrite dec_enc by assumption.
    rds E. rewrite dec_enc by assumption.
    unfold coo_alloc. destruct (Z.ltb_spec m 0); [lia|]. cbn [bind cx cy cw]. fold m_. rewrite !fresh_length.
    destruct tx as [T1 s1], ty as [T2 s2]. cbn [fst] in *.
    rewrite (rd_array_ok (cint L) _ _ _ _ _ _ _ _ _ _ _ (cint_f _ HL) Hxs E); [|exact Tx|lia|replace (length xs) with m_ by lia; reflexivity]. cbn [bind]. nxt E.
    rewrite (rd_array_ok (cint L) _ _ _ _ _ _ _ _ _ _ _ (cint_f _ HL) Hys E); [|exact Ty|lia|replace (length ys) with m_ by lia; reflexivity]. cbn [bind]. nxt E.
    rewrite <- !app_assoc. reflexivity.
  Qed.

  Lemma csr_before (c : csr W) t_o te tw : csr_shape wc c -> csr_full L O wc P c -> room L (cs_n c) -> 1 <= fst t_o -> 1 <= fst te ->
    exists b wb, csr_layout L O wc c = map Some (b ++ wb) /\ wgts wc (cs_w c) = map Some wb /\ begins b csr_magic /\
      (0 <= cs_m c)%Z /\
      forall s pg fn pre post, s = pre ++ b ++ post ->
        csr_read_bin L O O wc' (reading s pg fn pre) t_o te tw =
          '(w, f) <- get_weights wc' (if is_some wc' then fresh (Z.to_nat (cs_m c)) else []) (Z.to_nat (cs_m c)) tw (reading s pg fn (pre ++ b)) ;;
          Ok (mkCsr (cs_off c) (cs_end c) w (cs_n c) (cs_m c) (cs_nrows c) (cs_ncols c), f).
  Proof.
    destruct c as [o e w n m nr nc]. intros (H0 & Ho & He & Hw) (Fn & Fm & Fr & Fc & Fo & Fe & Fw) HR To Te.
    unfold csr_layout. cbn [cs_off cs_end cs_w cs_n cs_nrows cs_ncols cs_m] in *.
    destruct Fr as (zr & -> & Hr). destruct Fc as (zc & -> & Hc).
    destruct (fits_values O o Fo) as (os & -> & Hos). destruct (fits_values L e Fe) as (es & -> & Hes).
    rewrite !map_length in *. set (m_ := Z.to_nat m). assert (Em : m = Z.of_nat m_) by (unfold m_; lia).
    rewrite Em in Hw. destruct (wfit_values wc P w m_ Hw Fw) as (ws & -> & Ew & _ & Hws).
    unfold known. rewrite Ew, !scalar_some, !sizeof_some, !labels_some by assumption.
    change (text "PIGO-CSR-v2"%string) with (map Some csr_magic).
    exists (csr_magic ++ cd_enc (cint u8) (size_byte L) ++ cd_enc (cint u8) (size_byte O) ++ cd_enc (cint L) n ++ cd_enc (cint O) m ++
       cd_enc (cint L) zr ++ cd_enc (cint L) zc ++ flat_map (cd_enc (cint O)) os ++ flat_map (cd_enc (cint L)) es), (wvals wc ws).
    split; [rewrite !map_app, <- !app_assoc; reflexivity|]. split; [reflexivity|].
    split; [eexists; eexists; reflexivity|]. split; [lia|].
    intros s pg fn pre post E. rewrite <- !app_assoc in E. unfold csr_read_bin.
    rewrite (rd_str_ok _ _ _ _ _ _ E). 2:{ intros HH. apply (f_equal (@length byte)) in HH. rewrite app_length, enc_len in HH. discriminate. }
    cbn [bind]. nxt E.
    rds E. rewrite dec_enc by (auto using u8_ity, size_byte_range).
    rds E. rewrite dec_enc by (auto using u8_ity, size_byte_range).
    rewrite !Z.eqb_refl. cbn [negb].
    rds E. rewrite dec_enc by assumption.
    rds E. rewrite dec_enc by assumption.
    rds E. rewrite dec_enc by assumption.
    rds E. rewrite dec_enc by assumption.
    pose proof (plus1_ok L n HL H0 HR) as E1.
    unfold csr_alloc, alloc. rewrite E1. destruct (Z.ltb_spec m 0); [lia|]. cbn [bind]. fold m_.
    assert (EA : (if is_some wc' then Ok (fresh m_) else Ok []) = Ok (if is_some wc' then @fresh W' m_ else [])) by (destruct wc'; reflexivity).
    rewrite EA. cbn [bind]. destruct (Z.ltb_spec (n + 1) 0); [lia|]. cbn [bind]. rewrite !fresh_length.
    destruct t_o as [T1 s1], te as [T2 s2]. cbn [fst] in *.
    rewrite (rd_array_ok (cint O) _ _ _ _ _ _ _ _ _ _ _ (cint_f _ HO) Hos E); [|exact To|lia|cbn [cint cd_size]; replace (length os) with (Z.to_nat (n + 1)) by lia; reflexivity]. cbn [bind]. nxt E.
    rewrite (rd_array_ok (cint L) _ _ _ _ _ _ _ _ _ _ _ (cint_f _ HL) Hes E); [|exact Te|lia|replace (length es) with m_ by lia; reflexivity]. cbn [bind]. nxt E.
    rewrite <- !app_assoc. reflexivity.
  Qed.
End Before.
