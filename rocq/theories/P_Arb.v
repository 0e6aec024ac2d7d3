(** * Property C43: what is built from arbitrary bytes

    Any byte string, read as an edge list or a Matrix Market file: the
    constructors throw, or return the COO, CSR or DiGraph of some list of pairs
    of labels, the same for every interleaving. *)

From Coq Require Import String Permutation Sorted.
From Verif Require Import Base Reader ReaderLemmas Sched Spec SpecFp SpecMm Coo Ascii Csr CooLemmas WeightLemmas ElSpec ElFinal ElThms ElExamples
  SpecCsr SpecPipe CsrLemmas CsrMain CsrBack CsrSort CsrQuery Codec Bin SpecBin MmLemmas BinLemmas BinSave BinLoad Graph Load BinOpen Safe Arb ArbFull P_Bin P_Mm P_Csr P_Pipe.
Open Scope list_scope.
Notation length := List.length.

(** ** Specification *)

(** The last byte is not one of the characters 0 .. 9. *)
Definition no_digit_at_end (s : list byte) : Prop := forall p c, s = p ++ [c] -> (c < 48 \/ 57 < c)%Z.

(** The caller asks for Matrix Market, or leaves it to the contents and the name. *)
Definition as_mtx (ft : ftype) (fn s : list byte) : Prop :=
  ft = MATRIX_MARKET \/ (ft = AUTO /\ ~ begins s (chars "PIGO") /\ ends_in fn (chars ".mtx")).

(** Pairs of labels of the type [L]; as entries without weights. *)
Definition label_pairs (L : ity) (ps : list (Z * Z)) : Prop :=
  Forall (fun p => 0 <= fst p <= imax L /\ 0 <= snd p <= imax L)%Z ps.
Definition unweighted (ps : list (Z * Z)) : list (Z * Z * unit) := map (fun p => (p, tt)) ps.

(** One more than the largest first (second) label of the entries that count for
    the dimensions, in the arithmetic of the type. *)
Definition rows_for (L : ity) (fl : flags) (ps : list (Z * Z)) : Z :=
  wrap L (1 + max_of (map (fun e => fst (fst e)) (counted fl (unweighted ps)))).
Definition cols_for (L : ity) (fl : flags) (ps : list (Z * Z)) : Z :=
  wrap L (1 + max_of (map (fun e => snd (fst e)) (counted fl (unweighted ps)))).

(** ** Lemmas *)
Lemma last_nondig s pg : s <> [] -> no_digit_at_end s -> nondig (mkMem s pg) (length s - 1).
Proof.
  intros Hs Hd. destruct (exists_last Hs) as (p & c & ->). specialize (Hd p c eq_refl). exists c.
  rewrite app_length. cbn [length]. replace (length p + 1 - 1) with (length p) by lia.
  split; [|unfold is_digit, ch_0, ch_9; lia]. unfold load. cbn [bytes]. rewrite nth_error_app2, Nat.sub_diag by lia. reflexivity.
Qed.

Lemma mtx_detect pg fn s ft : s <> [] -> as_mtx ft fn s -> used (reading s pg fn []) ft = Ok MATRIX_MARKET.
Proof.
  intros Hs [->|(-> & H1 & H2)]; [reflexivity|].
  destruct (C21_detection pg fn s Hs) as (g & Eg & _ & _ & _ & _ & HD). rewrite open_reading in Eg by exact Hs. injection Eg as <-. cbn [used].
  assert (P : forall t, ~ begins s (chars "PIGO" ++ t)).
  { intros t (b & r & E). apply H1. rewrite <- app_assoc in E. destruct t as [|x t]; [exists b, r; exact E|exists x, (t ++ b :: r); exact E]. }
  destruct (HD (P (chars "-COO-v1")) (P (chars "-CSR-v2")) (P (chars "-DiGraph-v1")) (P (chars "-Tensor-2"))) as (_ & HE & _).
  apply HE; assumption.
Qed.

Lemma mtx_open {W} L O (wm : option (wmode W)) fl s pg fn ft ch : s <> [] -> as_mtx ft fn s ->
  coo_open L O wm fl pg fn (Some s) ft ch =
  read_mm L O (wtext wm) fl (mkMem s pg) 0 (length s) (lc_T ch) (lc_el ch).
Proof.
  intros Hs Hg. unfold coo_open. rewrite open_reading by exact Hs. cbn [bind]. unfold coo_read.
  rewrite (mtx_detect pg fn s ft Hs Hg). cbn [bind]. unfold with_reader. cbn [reading rf_mem rf_fp List.length].
  change (flen (mkMem s pg)) with (length s). destruct (read_mm _ _ _ _ _ _ _ _ _); reflexivity.
Qed.

(** ** Edge lists: contents *)
Lemma el_contents_len : forall L O fl s pg fn ft T,
  is_ity L -> isigned L = false -> is_ity O -> off_page pg s -> no_digit_at_end s -> as_el ft fn s -> 1 <= T ->
  (Z.of_nat (2 * T * length s) <= imax O)%Z ->
  exists ps, label_pairs L ps /\ length (stored fl (unweighted ps)) <= 2 * T * length s /\
    forall ch, lc_T ch = T -> exists c : coo unit, coo_open L O None fl pg fn (Some s) ft ch = Ok c /\
      holds c (stored fl (unweighted ps)) /\
      co_nrows c = Some (rows_for L fl ps) /\ co_ncols c = Some (cols_for L fl ps) /\ co_n c = Some (Z.max (rows_for L fl ps) (cols_for L fl ps)).
Proof.
  intros L O fl s pg fn ft T HL Hu HO Hpg Hd Hg HT Hm. pose proof (off_page_ne _ _ Hpg) as Hne.
  destruct (read_el_exact L O HL Hu HO fl (mkMem s pg) (slack_off_page _ _ Hpg) T HT 0 (Nat.le_0_l _) (last_nondig s pg Hne Hd)) as (ps & Hps & Hb & HE).
  exists ps. split; [exact Hps|]. change (flen (mkMem s pg)) with (length s) in Hb. change (stored_ fl ps) with (stored fl (unweighted ps)) in Hb, HE.
  split; [lia|]. intros ch HC. rewrite el_open by assumption. cbn [wtext option_map]. rewrite HC.
  change (length s) with (flen (mkMem s pg)) at 1.
  eexists. split; [apply HE; lia|]. cbn zeta. unfold rows_for, cols_for. rewrite !(Z.add_comm 1). repeat split.
Qed.

Theorem C43_edge_list_contents : forall L O fl s pg fn ft T,
  is_ity L -> isigned L = false -> is_ity O -> off_page pg s -> no_digit_at_end s -> as_el ft fn s -> 1 <= T ->
  (Z.of_nat (2 * T * length s) <= imax O)%Z ->
  exists ps, label_pairs L ps /\
    forall ch, lc_T ch = T -> exists c : coo unit, coo_open L O None fl pg fn (Some s) ft ch = Ok c /\
      holds c (stored fl (unweighted ps)) /\
      co_nrows c = Some (rows_for L fl ps) /\ co_ncols c = Some (cols_for L fl ps) /\ co_n c = Some (Z.max (rows_for L fl ps) (cols_for L fl ps)).
Proof.
  intros L O fl s pg fn ft T HL Hu HO Hpg Hd Hg HT Hm.
  destruct (el_contents_len L O fl s pg fn ft T HL Hu HO Hpg Hd Hg HT Hm) as (ps & H1 & _ & H2). exists ps. auto.
Qed.
Print Assumptions C43_edge_list_contents.

(** ** Matrix Market *)
Definition mm_check {W} (O : ity) (fl : flags) (nr nc nnz : Z) (c : coo W) : res (coo W) :=
    match co_nrows c, co_ncols c with
    | Some nrows_, Some ncols_ =>
        if (nr <? nrows_)%Z then Throw EError
        else if (nc <? ncols_)%Z then Throw EError
        else
          bad <- (if f_sym fl then m2 <- twice O (co_m c) ;; Ok (m2 <? nnz)%Z
                  else if f_sl fl then Ok (co_m c <? nnz)%Z
                  else Ok (negb (nnz =? co_m c)%Z)) ;;
          if (bad : bool) then Throw EError
          else Ok (mkCoo (co_x c) (co_y c) (co_w c)
                     (Some (if (nc <? nr)%Z then nr else nc))
                     (Some nr) (Some nc) (co_m c))
    | _, _ => UB
    end.

Lemma mm_header_read s pg L O fl : modular L -> modular O -> off_page pg s ->
  (~ begins s mm_banner /\ forall T sched, read_mm (W:=unit) L O None fl (mkMem s pg) 0 (length s) T sched = Throw ENotYetImplemented) \/
  exists nr nc nnz d, d <= length s /\ forall T sched,
    read_mm (W:=unit) L O None fl (mkMem s pg) 0 (length s) T sched =
    (c <- read_el L O None fl (mkMem s pg) d (length s) T sched ;; mm_check O fl nr nc nnz c).
Proof.
  intros HL HO Hpg. pose proof (slack_off_page _ _ Hpg) as Hs. unfold read_mm.
  rewrite (at_str_spec s pg [] s mm_header eq_refl : at_str (mkMem s pg) (length s) 0 mm_header = _). cbn [bind].
  destruct (if length s <=? length mm_header then false else str_eq mm_header (firstn (length mm_header) s)) eqn:Eh; cbn [negb].
  2:{ left. apply begins_false in Eh. rewrite <- banner_eq in Eh. split; [exact Eh|reflexivity]. }
  right. set (m := mkMem s pg) in *. change (length s) with (flen m) in *. set (e := flen m) in *.
  destruct (safe_ok _ _ _ Hs (move_to_next_int_safe m e (le_n _) 0 ltac:(lia))) as (d1 & E1 & B1 & _). rewrite E1. cbn [bind].
  destruct (safe_ok _ _ _ Hs (read_int_safe m e (le_n _) L d1 HL ltac:(lia))) as ([nr d2] & E2 & B2 & _). rewrite E2. cbn [bind snd] in *.
  rewrite arith_modular by exact HL. cbn [bind].
  destruct (safe_ok _ _ _ Hs (move_to_next_int_safe m e (le_n _) d2 ltac:(lia))) as (d3 & E3 & B3 & _). rewrite E3. cbn [bind].
  destruct (safe_ok _ _ _ Hs (read_int_safe m e (le_n _) L d3 HL ltac:(lia))) as ([nc d4] & E4 & B4 & _). rewrite E4. cbn [bind snd] in *.
  rewrite arith_modular by exact HL. cbn [bind].
  destruct (safe_ok _ _ _ Hs (move_to_next_int_safe m e (le_n _) d4 ltac:(lia))) as (d5 & E5 & B5 & _). rewrite E5. cbn [bind].
  destruct (safe_ok _ _ _ Hs (read_int_safe m e (le_n _) O d5 HO ltac:(lia))) as ([nnz d6] & E6 & B6 & _). rewrite E6. cbn [bind snd] in *.
  destruct (safe_ok _ _ _ Hs (next_line_safe m e (le_n _) d6 ltac:(lia))) as (d7 & E7 & B7 & _). rewrite E7. cbn [bind].
  exists (wrap L (nr + 1)), (wrap L (nc + 1)), nnz, d7. split; [lia|]. reflexivity.
Qed.

Lemma twice_ok O z : is_ity O -> (0 <= 2 * z <= imax O)%Z -> twice O z = Ok (2 * z)%Z.
Proof.
  intros HO Hz. pose proof (ity_facts O HO) as (F1 & F2 & _). unfold twice. destruct (ibits O <? 32)%Z; [reflexivity|]. apply arith_in; [exact HO|lia].
Qed.

Lemma read_el_dims L O fl m d e T sched (c : coo unit) : read_el L O None fl m d e T sched = Ok c ->
  exists nr nc, co_nrows c = Some nr /\ co_ncols c = Some nc.
Proof.
  unfold read_el. destruct (el_pass1 _ _ _ _ _ _ _) as [[chunks counts]| | |]; try discriminate. cbn [bind].
  destruct (coo_alloc _ _) as [st0| | |]; try discriminate. cbn [bind].
  destruct (el_pass2 _ _ _ _ _ _) as [p2| | |]; try discriminate. cbn [bind].
  destruct (run _ _ _ _) as [st| | |]; try discriminate. cbn [bind].
  destruct (arith L _) as [nr| | |]; try discriminate. cbn [bind].
  destruct (arith L _) as [nc| | |]; try discriminate. cbn [bind]. intros E. injection E as <-. cbn [co_nrows co_ncols]. eauto.
Qed.

(** Any contents, any ending: nothing outside the mapping and the arrays is
    touched. *)
Theorem C43_mm_arbitrary_bytes : forall L O fl s pg fn ft ch,
  is_ity L -> is_ity O -> modular L -> modular O -> off_page pg s -> as_mtx ft fn s -> 1 <= lc_T ch ->
  (Z.of_nat (4 * lc_T ch * length s) <= imax O)%Z ->
  let r := coo_open (W:=unit) L O None fl pg fn (Some s) ft ch in
  (r = Throw ENotYetImplemented /\ ~ begins s mm_banner) \/ r = Throw EError \/
  exists c, r = Ok c /\ co_m c = Z.of_nat (length (co_x c)) /\ length (co_y c) = length (co_x c) /\
    exists nr nc, co_nrows c = Some nr /\ co_ncols c = Some nc /\ co_n c = Some (Z.max nr nc).
Proof.
  intros L O fl s pg fn ft ch HL HO Lm Om Hpg Hg HT Hm r. pose proof (off_page_ne _ _ Hpg) as Hne.
  unfold r. rewrite mtx_open by assumption. cbn [wtext option_map].
  destruct (mm_header_read s pg L O fl Lm Om Hpg) as [[Hb E]|(nr & nc & nnz & d & Hd & E)]; [left; rewrite E; auto|].
  rewrite E. right.
  destruct (read_el_total L O Lm HO fl (mkMem s pg) (slack_off_page _ _ Hpg) (lc_T ch) HT d Hd) as (k & Hk & H).
  change (flen (mkMem s pg)) with (length s) in H, Hk.
  destruct (H ltac:(lia) (lc_el ch)) as (c & Ec & Cm & Cx & Cy). unfold none in Ec. rewrite Ec. cbn [bind].
  destruct (read_el_dims _ _ _ _ _ _ _ _ _ Ec) as (nr' & nc' & R1 & R2). unfold mm_check. rewrite R1, R2.
  destruct (nr <? nr')%Z; [left; reflexivity|]. destruct (nc <? nc')%Z; [left; reflexivity|].
  assert (Hbad : exists bad : bool, (if f_sym fl then m2 <- twice O (co_m c) ;; Ok (m2 <? nnz)%Z
                  else if f_sl fl then Ok (co_m c <? nnz)%Z else Ok (negb (nnz =? co_m c)%Z)) = Ok bad).
  { destruct (f_sym fl); [|destruct (f_sl fl); eauto]. rewrite twice_ok by (auto; lia). cbn [bind]. eauto. }
  destruct Hbad as ([] & Eb); rewrite Eb; cbn [bind]; [left; reflexivity|]. right. eexists. split; [reflexivity|].
  cbn [co_m co_x co_y co_nrows co_ncols co_n]. split; [lia|]. split; [lia|]. exists nr, nc. split; [reflexivity|]. split; [reflexivity|].
  f_equal. destruct (Z.ltb_spec nc nr); lia.
Qed.
Print Assumptions C43_mm_arbitrary_bytes.

(** What the header must say of the entries. *)
Definition announced (fl : flags) (nnz : Z) (k : Z) : Prop :=
  if f_sym fl then (nnz <= 2 * k)%Z else if f_sl fl then (nnz <= k)%Z else nnz = k.

Lemma mm_contents_len : forall L O fl s pg fn ft T,
  is_ity L -> isigned L = false -> is_ity O -> modular O -> off_page pg s -> no_digit_at_end s -> as_mtx ft fn s -> begins s mm_banner -> 1 <= T ->
  (Z.of_nat (4 * T * length s) <= imax O)%Z ->
  exists ps nr nc nnz, label_pairs L ps /\ length (stored fl (unweighted ps)) <= 4 * T * length s /\
    forall ch, lc_T ch = T ->
      let believed := (rows_for L fl ps <= nr /\ cols_for L fl ps <= nc)%Z /\ announced fl nnz (Z.of_nat (length (stored fl (unweighted ps)))) in
      (~ believed -> coo_open (W:=unit) L O None fl pg fn (Some s) ft ch = Throw EError) /\
      (believed -> exists c : coo unit, coo_open L O None fl pg fn (Some s) ft ch = Ok c /\
        holds c (stored fl (unweighted ps)) /\
        co_nrows c = Some nr /\ co_ncols c = Some nc /\ co_n c = Some (Z.max nr nc)).
Proof.
  intros L O fl s pg fn ft T HL Hu HO Om Hpg Hd Hg Hb HT Hm. pose proof (off_page_ne _ _ Hpg) as Hne.
  destruct (mm_header_read s pg L O fl (or_introl Hu) Om Hpg) as [[Hb' _]|(nr & nc & nnz & d & Hd0 & E)]; [contradiction|].
  destruct (read_el_exact L O HL Hu HO fl (mkMem s pg) (slack_off_page _ _ Hpg) T HT d Hd0 (last_nondig s pg Hne Hd)) as (ps & Hps & Hk & HE).
  change (flen (mkMem s pg)) with (length s) in Hk, HE. change (stored_ fl ps) with (stored fl (unweighted ps)) in Hk, HE.
  change (counted_ fl ps) with (counted fl (unweighted ps)) in HE. cbn zeta in HE. rewrite !(Z.add_comm _ 1) in HE.
  fold (rows_for L fl ps) (cols_for L fl ps) in HE.
  exists ps, nr, nc, nnz. split; [exact Hps|]. split; [lia|]. intros ch HC believed. rewrite mtx_open by assumption. cbn [wtext option_map]. rewrite HC, E.
  unfold none in HE. rewrite (HE ltac:(lia)). cbn [bind]. unfold mm_check. cbn [co_nrows co_ncols co_m co_x co_y co_w].
  set (K := Z.of_nat (length (stored fl (unweighted ps)))) in *.
  assert (Hbad : exists bad : bool, (if f_sym fl then m2 <- twice O K ;; Ok (m2 <? nnz)%Z
                  else if f_sl fl then Ok (K <? nnz)%Z else Ok (negb (nnz =? K)%Z)) = Ok bad /\ (bad = false <-> announced fl nnz K)).
  { unfold announced. destruct (f_sym fl); [|destruct (f_sl fl)].
    - rewrite twice_ok by (auto; lia). cbn [bind]. eexists. split; [reflexivity|]. lia.
    - eexists. split; [reflexivity|]. lia.
    - eexists. split; [reflexivity|]. destruct (Z.eqb_spec nnz K); cbn; split; congruence. }
  destruct Hbad as (bad & Eb & Hbad). rewrite Eb. cbn [bind].
  destruct (Z.ltb_spec nr (rows_for L fl ps)) as [H1|H1].
  { split; [reflexivity|]. unfold believed. intros [[] _]. lia. }
  destruct (Z.ltb_spec nc (cols_for L fl ps)) as [H2|H2].
  { split; [reflexivity|]. unfold believed. intros [[] _]. lia. }
  destruct bad.
  - split; [reflexivity|]. unfold believed. intros [_ H]. apply Hbad in H. discriminate.
  - split; [intros H; elim H; split; [split; assumption|apply Hbad; reflexivity]|]. intros _. eexists. split; [reflexivity|].
    split; [repeat split|]. cbn [co_nrows co_ncols co_n]. split; [reflexivity|]. split; [reflexivity|]. f_equal. destruct (Z.ltb_spec nc nr); lia.
Qed.

Theorem C43_mm_contents : forall L O fl s pg fn ft T,
  is_ity L -> isigned L = false -> is_ity O -> modular O -> off_page pg s -> no_digit_at_end s -> as_mtx ft fn s -> begins s mm_banner -> 1 <= T ->
  (Z.of_nat (4 * T * length s) <= imax O)%Z ->
  exists ps nr nc nnz, label_pairs L ps /\
    forall ch, lc_T ch = T ->
      let believed := (rows_for L fl ps <= nr /\ cols_for L fl ps <= nc)%Z /\ announced fl nnz (Z.of_nat (length (stored fl (unweighted ps)))) in
      (~ believed -> coo_open (W:=unit) L O None fl pg fn (Some s) ft ch = Throw EError) /\
      (believed -> exists c : coo unit, coo_open L O None fl pg fn (Some s) ft ch = Ok c /\
        holds c (stored fl (unweighted ps)) /\
        co_nrows c = Some nr /\ co_ncols c = Some nc /\ co_n c = Some (Z.max nr nc)).
Proof.
  intros L O fl s pg fn ft T HL Hu HO Om Hpg Hd Hg Hb HT Hm.
  destruct (mm_contents_len L O fl s pg fn ft T HL Hu HO Om Hpg Hd Hg Hb HT Hm) as (ps & nr & nc & nnz & H1 & _ & H2). exists ps, nr, nc, nnz. auto.
Qed.
Print Assumptions C43_mm_contents.

(** ** Graphs

    Unless the largest label is so close to the end of the type that [n+1]
    offsets cannot be indexed. *)
Lemma unweighted_pairs ps : pairs (unweighted ps) = ps.
Proof. unfold pairs, unweighted. rewrite map_map. cbn [fst]. apply map_id. Qed.

Lemma nonneg_below L ps : label_pairs L ps -> Forall (fun p => 0 <= fst p < vertices ps /\ 0 <= snd p < vertices ps)%Z ps.
Proof.
  intros H. apply Forall_forall. intros p Hp. unfold label_pairs in H. rewrite Forall_forall in H. specialize (H p Hp). unfold vertices.
  assert (X : (fst p <= max_of (map fst ps ++ map snd ps) /\ snd p <= max_of (map fst ps ++ map snd ps))%Z).
  { split; apply max_of_in; apply in_or_app; [left|right]; apply in_map; exact Hp. }
  lia.
Qed.

Lemma vertices_dims L ps : is_ity L -> (vertices ps < imax L)%Z -> Z.max (rows_for L no_flags ps) (cols_for L no_flags ps) = vertices ps.
Proof.
  intros HL H. unfold rows_for, cols_for, vertices in *. rewrite counted_no_flags. rewrite max_app in *. unfold unweighted. rewrite !map_map. cbn [fst snd].
  assert (A : forall l, (0 <= max_of l)%Z) by (intros l; unfold max_of; induction l; cbn; lia).
  pose proof (A (map fst ps)). pose proof (A (map snd ps)).
  change (map (fun x : Z * Z => fst x) ps) with (map fst ps). change (map (fun x : Z * Z => snd x) ps) with (map snd ps).
  rewrite !wrap_small by (auto; lia). lia.
Qed.

Theorem C43_edge_list_graphs : forall L O s pg fn ft T,
  is_ity L -> isigned L = false -> is_ity O -> off_page pg s -> no_digit_at_end s -> as_el ft fn s -> 1 <= T ->
  (Z.of_nat (2 * T * length s) <= imax O)%Z ->
  exists ps, label_pairs L ps /\
    (forall ch, lc_T ch = T -> exists c : coo unit, coo_open L O None no_flags pg fn (Some s) ft ch = Ok c /\ holds c (unweighted ps)) /\
    ((vertices ps < imax L)%Z ->
    (forall ch, lc_T ch = T -> legal (length ps) (lc_conv ch) ->
     exists c : csr unit, csr_open L O None pg fn (Some s) ft ch = Ok c /\
       is_graph O c (vertices ps) (Z.of_nat (length ps)) (succs ps)) /\
    (forall ch ch2 c1 c2, lc_T ch = T -> legal (length ps) c1 -> legal (length ps) c2 ->
     exists i o : csr unit, digraph_open L O None pg fn (Some s) ft ch ch2 c1 c2 = Ok (i, o) /\
       is_graph O o (vertices ps) (Z.of_nat (length ps)) (succs ps) /\
       is_graph O i (vertices ps) (Z.of_nat (length ps)) (preds ps))).
Proof.
  intros L O s pg fn ft T HL Hu HO Hpg Hd Hg HT Hm. pose proof (off_page_ne _ _ Hpg) as Hne.
  destruct (read_el_exact L O HL Hu HO no_flags (mkMem s pg) (slack_off_page _ _ Hpg) T HT 0 (Nat.le_0_l _) (last_nondig s pg Hne Hd)) as (ps & Hps & Hb & HE).
  change (flen (mkMem s pg)) with (length s) in Hb, HE. change (stored_ no_flags ps) with (stored no_flags (unweighted ps)) in Hb, HE.
  change (counted_ no_flags ps) with (counted no_flags (unweighted ps)) in HE. cbn zeta in HE. rewrite !(Z.add_comm _ 1) in HE.
  fold (rows_for L no_flags ps) (cols_for L no_flags ps) in HE.
  rewrite stored_no_flags in Hb, HE. assert (Hlen : length (unweighted ps) = length ps) by apply map_length.
  exists ps. split; [exact Hps|]. split.
  { intros ch HC. rewrite el_open by assumption. cbn [wtext option_map]. rewrite HC. eexists. split; [apply HE; lia|repeat split]. }
  intros Hv. rewrite (vertices_dims L ps HL Hv) in HE.
  pose proof (nonneg_below L ps Hps) as HB.
  assert (HV : (0 <= vertices ps)%Z).
  { unfold vertices. assert (A : forall l, (0 <= max_of l)%Z) by (intros l; unfold max_of; induction l; cbn; lia). pose proof (A (map fst ps ++ map snd ps)). lia. }
  set (c := mkCoo _ _ _ _ _ _ _) in HE.
  assert (Hh : holds c (unweighted ps)) by (repeat split).
  assert (HF : Forall (fun e => 0 <= fst (fst e) < vertices ps /\ 0 <= snd (fst e) < vertices ps)%Z (unweighted ps)).
  { unfold unweighted. rewrite Forall_map. exact HB. }
  assert (EC : forall ch, lc_T ch = T -> coo_open L O None no_flags pg fn (Some s) ft ch = Ok c).
  { intros ch HC. rewrite el_open by assumption. cbn [wtext option_map]. rewrite HC. apply HE. lia. }
  split.
  - intros ch HC Hl. rewrite (csr_via L O None _ pg fn ft ch c EDGE_LIST Hne (el_detect pg fn _ ft Hne Hg) (or_introl eq_refl) (EC ch HC)).
    destruct (coo_graph L O false c (unweighted ps) (vertices ps) (lc_conv ch)) as (r & rows & Er & _ & _ & HG & _);
      [exact HL|exact HO|exact Hh|discriminate|reflexivity|exact HV|apply room_less; exact Hv|lia| |rewrite Hlen; exact Hl|].
    { eapply Forall_impl; [|exact HF]. cbn beta. tauto. }
    exists r. split; [exact Er|]. rewrite unweighted_pairs, Hlen in HG. exact HG.
  - intros ch ch2 c1 c2 HC HC1 HC2.
    rewrite (digraph_via L O None _ pg fn ft ch ch2 c1 c2 c EDGE_LIST Hne (el_detect pg fn _ ft Hne Hg) ltac:(discriminate) (EC ch HC)).
    destruct (coo_graph L O false (coo_transpose c) (map swap3 (unweighted ps)) (vertices ps) c1) as (i & ir & Ei & _ & _ & GI & _);
      [exact HL|exact HO|apply transpose_holds; exact Hh|discriminate|reflexivity|exact HV|apply room_less; exact Hv|rewrite map_length; lia| |rewrite map_length, Hlen; exact HC1|].
    { rewrite Forall_map. eapply Forall_impl; [|exact HF]. cbn [swap3 fst]. intros [[x y] w]. cbn. tauto. }
    destruct (coo_graph L O false c (unweighted ps) (vertices ps) c2) as (o & orr & Eo & _ & _ & GO & _);
      [exact HL|exact HO|exact Hh|discriminate|reflexivity|exact HV|apply room_less; exact Hv|lia| |rewrite Hlen; exact HC2|].
    { eapply Forall_impl; [|exact HF]. cbn beta. tauto. }
    exists i, o. unfold digraph_of_coo. cbn [is_some]. rewrite Ei. cbn [bind]. rewrite Eo. cbn [bind]. split; [reflexivity|].
    rewrite unweighted_pairs, Hlen in GO. split; [exact GO|]. rewrite map_length, Hlen in GI.
    destruct GI as (G1 & G2 & G3). split; [exact G1|]. split; [exact G2|]. intros u Hu'. destruct (G3 u Hu') as (ns & N1 & N2 & N3). exists ns.
    rewrite swap_preds, unweighted_pairs in N2, N3. auto.
Qed.
Print Assumptions C43_edge_list_graphs.

(** The same for a CSR and a DiGraph built from any bytes behind the banner: a
    constructor refuses the file exactly when that of the COO does, and the graph
    is that of the pairs, with the announced number of vertices (plus one). *)
Lemma mtx_throw {W} L O (wm : option (wmode W)) s pg fn ft ch ch2 c1 c2 e : s <> [] -> as_mtx ft fn s ->
  coo_open L O wm no_flags pg fn (Some s) ft ch = Throw e ->
  csr_open L O wm pg fn (Some s) ft ch = Throw e /\ digraph_open L O wm pg fn (Some s) ft ch ch2 c1 c2 = Throw e.
Proof.
  intros Hs Hg. pose proof (mtx_detect pg fn s ft Hs Hg) as HU. unfold coo_open, csr_open, digraph_open. rewrite !open_reading by exact Hs. cbn [bind].
  unfold csr_read, digraph_read. rewrite HU. cbn [bind].
  assert (E : coo_read L O wm no_flags (reading s pg fn []) MATRIX_MARKET ch = coo_read L O wm no_flags (reading s pg fn []) ft ch).
  { unfold coo_read. rewrite HU. reflexivity. }
  rewrite E. set (X := coo_read L O wm no_flags (reading s pg fn []) ft ch). destruct X as [[c' f']| e' | |]; cbn [bind]; try discriminate.
  intros H. injection H as ->. split; reflexivity.
Qed.

Theorem C43_mm_graphs : forall L O s pg fn ft T,
  is_ity L -> isigned L = false -> is_ity O -> modular O -> off_page pg s -> no_digit_at_end s -> as_mtx ft fn s -> begins s mm_banner -> 1 <= T ->
  (Z.of_nat (4 * T * length s) <= imax O)%Z ->
  exists ps nr nc nnz, label_pairs L ps /\
    let believed := (rows_for L no_flags ps <= nr /\ cols_for L no_flags ps <= nc)%Z /\ nnz = Z.of_nat (length ps) in
    let n := Z.max nr nc in
    (~ believed -> forall ch ch2 c1 c2, lc_T ch = T ->
      coo_open (W:=unit) L O None no_flags pg fn (Some s) ft ch = Throw EError /\
      csr_open (W:=unit) L O None pg fn (Some s) ft ch = Throw EError /\
      digraph_open (W:=unit) L O None pg fn (Some s) ft ch ch2 c1 c2 = Throw EError) /\
    (believed ->
      (forall ch, lc_T ch = T -> exists c : coo unit, coo_open L O None no_flags pg fn (Some s) ft ch = Ok c /\ holds c (unweighted ps) /\ co_n c = Some n) /\
      ((vertices ps < imax L)%Z -> (n < imax L)%Z ->
       (forall ch, lc_T ch = T -> legal (length ps) (lc_conv ch) ->
        exists c : csr unit, csr_open L O None pg fn (Some s) ft ch = Ok c /\ is_graph O c n (Z.of_nat (length ps)) (succs ps)) /\
       (forall ch ch2 c1 c2, lc_T ch = T -> legal (length ps) c1 -> legal (length ps) c2 ->
        exists i o : csr unit, digraph_open L O None pg fn (Some s) ft ch ch2 c1 c2 = Ok (i, o) /\
          is_graph O o n (Z.of_nat (length ps)) (succs ps) /\
          is_graph O i n (Z.of_nat (length ps)) (preds ps)))).
Proof.
  intros L O s pg fn ft T HL Hu HO HMO Hpg Hd Hg Hb HT Hm. pose proof (off_page_ne _ _ Hpg) as Hne.
  destruct (mm_contents_len L O no_flags s pg fn ft T HL Hu HO HMO Hpg Hd Hg Hb HT Hm) as (ps & nr & nc & nnz & Hps & Hk & HE).
  exists ps, nr, nc, nnz. split; [exact Hps|]. intros believed n.
  assert (EB : announced no_flags nnz (Z.of_nat (length (stored no_flags (unweighted ps)))) <-> nnz = Z.of_nat (length ps)).
  { rewrite stored_no_flags. unfold unweighted. rewrite map_length. unfold announced. cbn. tauto. }
  assert (Hlen : length (unweighted ps) = length ps) by apply map_length.
  split.
  - intros Hn ch ch2 c1 c2 HC. destruct (HE ch HC) as [H1 _]. pose proof (H1 ltac:(unfold believed in Hn; tauto)) as E.
    split; [exact E|]. exact (mtx_throw L O None s pg fn ft ch ch2 c1 c2 _ Hne Hg E).
  - intros HB.
    assert (EC : forall ch, lc_T ch = T -> exists c : coo unit, coo_open L O None no_flags pg fn (Some s) ft ch = Ok c /\ holds c (unweighted ps) /\ co_n c = Some n).
    { intros ch HC. destruct (HE ch HC) as [_ H1]. destruct (H1 ltac:(unfold believed in HB; tauto)) as (c & E & Hh & _ & _ & En).
      rewrite stored_no_flags in Hh. exists c. split; [exact E|]. split; [exact Hh|exact En]. }
    assert (Hsz : (Z.of_nat (length ps) <= imax O)%Z) by (rewrite stored_no_flags, Hlen in Hk; lia).
    split; [exact EC|]. intros Hv Hn.
    pose proof (vertices_dims L ps HL Hv) as HVd.
    assert (HVn : (vertices ps <= n)%Z) by (unfold believed in HB; unfold n; lia).
    assert (HV : (0 <= vertices ps)%Z).
    { unfold vertices. assert (A : forall l, (0 <= max_of l)%Z) by (intros l; unfold max_of; induction l; cbn; lia). pose proof (A (map fst ps ++ map snd ps)). lia. }
    pose proof (nonneg_below L ps Hps) as HBl.
    assert (HF : Forall (fun e => 0 <= fst (fst e) < n /\ 0 <= snd (fst e) < n)%Z (unweighted ps)).
    { unfold unweighted. rewrite Forall_map. eapply Forall_impl; [|exact HBl]. cbn [fst]. intros p Hp. lia. }
    pose proof (mtx_detect pg fn s ft Hne Hg) as HU.
    split.
    + intros ch HC Hl. destruct (EC ch HC) as (c & Ec & Hh & En).
      rewrite (csr_via L O None _ pg fn ft ch c MATRIX_MARKET Hne HU (or_intror eq_refl) Ec).
      destruct (coo_graph L O false c (unweighted ps) n (lc_conv ch)) as (r & rows & Er & _ & _ & HG & _);
        [exact HL|exact HO|exact Hh|discriminate|exact En|lia|apply room_less; exact Hn|lia| |rewrite Hlen; exact Hl|].
      { eapply Forall_impl; [|exact HF]. cbn beta. tauto. }
      exists r. split; [exact Er|]. rewrite unweighted_pairs, Hlen in HG. exact HG.
    + intros ch ch2 c1 c2 HC HC1 HC2. destruct (EC ch HC) as (c & Ec & Hh & En).
      rewrite (digraph_via L O None _ pg fn ft ch ch2 c1 c2 c MATRIX_MARKET Hne HU ltac:(discriminate) Ec).
      destruct (coo_graph L O false (coo_transpose c) (map swap3 (unweighted ps)) n c1) as (i & ir & Ei & _ & _ & GI & _);
        [exact HL|exact HO|apply transpose_holds; exact Hh|discriminate|exact En|lia|apply room_less; exact Hn|rewrite map_length; lia| |rewrite map_length, Hlen; exact HC1|].
      { rewrite Forall_map. eapply Forall_impl; [|exact HF]. cbn [swap3 fst]. intros [[x y] w]. cbn. tauto. }
      destruct (coo_graph L O false c (unweighted ps) n c2) as (o & orr & Eo & _ & _ & GO & _);
        [exact HL|exact HO|exact Hh|discriminate|exact En|lia|apply room_less; exact Hn|lia| |rewrite Hlen; exact HC2|].
      { eapply Forall_impl; [|exact HF]. cbn beta. tauto. }
      exists i, o. unfold digraph_of_coo. cbn [is_some]. rewrite Ei. cbn [bind]. rewrite Eo. cbn [bind]. split; [reflexivity|].
      rewrite unweighted_pairs, Hlen in GO. split; [exact GO|]. rewrite map_length, Hlen in GI.
      destruct GI as (G1 & G2 & G3). split; [exact G1|]. split; [exact G2|]. intros u Hu'. destruct (G3 u Hu') as (ns & N1 & N2 & N3). exists ns.
      rewrite swap_preds, unweighted_pairs in N2, N3. auto.
Qed.
Print Assumptions C43_mm_graphs.

(** Garbage: the theorems apply to it, and what it is read as. *)
Definition ex_dump : list byte := chars ("x 3%1 2 -7 999 4#
a 12;5 9
-- 7
300.4 x ").
Definition ex_dump_ch (sched : list nat) : lchoice :=
  mkLchoice 3 sched (1, []) (1, []) (1, []) (mkGchoice 1 [] []) (mkChoice 1 0 [] [] [] [] []) [] [].
Lemma ex_dump_off : off_page 4096 ex_dump.
Proof. split; [apply Nat.ltb_lt; reflexivity|]. vm_compute. discriminate. Qed.
Lemma ex_dump_end : no_digit_at_end ex_dump.
Proof. intros p c E. change ex_dump with (removelast ex_dump ++ [32%Z]) in E. apply app_inj_tail in E as [_ <-]. left. reflexivity. Qed.
Example C43_dump_applies : exists ps, label_pairs u8 ps /\
  (forall ch, lc_T ch = 3 -> exists c : coo unit, coo_open u8 u32 None no_flags 4096 (chars "f.txt") (Some ex_dump) EDGE_LIST ch = Ok c /\ holds c (unweighted ps)).
Proof.
  destruct (C43_edge_list_graphs u8 u32 ex_dump 4096 (chars "f.txt") EDGE_LIST 3) as (ps & H1 & H2 & _); [cbn; tauto|reflexivity|cbn; tauto|exact ex_dump_off|exact ex_dump_end|left; reflexivity|lia|vm_compute; discriminate|].
  exists ps. split; assumption.
Qed.
Example C43_dump_result : exists c : coo unit,
  coo_open u8 u32 None no_flags 4096 (chars "f.txt") (Some ex_dump) EDGE_LIST (ex_dump_ch [2;0;1]) = Ok c /\
  holds c (unweighted [(12, 5); (7, 44)]%Z).
Proof. eexists. split; [vm_compute; reflexivity|]. repeat split. Qed.

(** A Matrix Market banner and garbage. *)
Definition ex_mdump : list byte := mm_banner ++ chars (" q
9,,9-2 zz
% 8 8
4 1 x
;5;6").
Example C43_mdump_applies : forall ch, lc_T ch = 2 ->
  let r := coo_open (W:=unit) u8 u32 None no_flags 4096 (chars "f.mtx") (Some ex_mdump) AUTO ch in
  (r = Throw ENotYetImplemented /\ ~ begins ex_mdump mm_banner) \/ r = Throw EError \/
  exists c, r = Ok c /\ co_m c = Z.of_nat (length (co_x c)) /\ length (co_y c) = length (co_x c) /\
    exists nr nc, co_nrows c = Some nr /\ co_ncols c = Some nc /\ co_n c = Some (Z.max nr nc).
Proof.
  intros ch HC. apply C43_mm_arbitrary_bytes; [cbn; tauto|cbn; tauto|left; reflexivity|left; reflexivity| | |lia|rewrite HC; vm_compute; discriminate].
  - split; [apply Nat.ltb_lt; reflexivity|]. vm_compute. discriminate.
  - right. split; [reflexivity|]. split; [|exists (chars "f"); reflexivity]. intros (b & r & E). vm_compute in E. discriminate.
Qed.
Example C43_mdump_result : exists c : coo unit,
  coo_open u8 u32 None no_flags 4096 (chars "f.mtx") (Some ex_mdump) AUTO
    (mkLchoice 2 [] (1, []) (1, []) (1, []) (mkGchoice 1 [] []) (mkChoice 1 0 [] [] [] [] []) [] []) = Ok c /\
  co_x c = [Some 4%Z; None] /\ co_y c = [Some 1%Z; None] /\ co_n c = Some 10%Z.
Proof. eexists. split; [vm_compute; reflexivity|]. repeat split. Qed.
Lemma ex_mdump_end : no_digit_at_end (ex_mdump ++ [10%Z]).
Proof. intros p c E. apply app_inj_tail in E as [_ <-]. left. reflexivity. Qed.
Example C43_mdump_contents : exists ps nr nc nnz, label_pairs u8 ps /\
    forall ch, lc_T ch = 2 ->
      let believed := (rows_for u8 no_flags ps <= nr /\ cols_for u8 no_flags ps <= nc)%Z /\ announced no_flags nnz (Z.of_nat (length (stored no_flags (unweighted ps)))) in
      (~ believed -> coo_open (W:=unit) u8 u32 None no_flags 4096 (chars "f.mtx") (Some (ex_mdump ++ [10%Z])) AUTO ch = Throw EError) /\
      (believed -> exists c : coo unit, coo_open u8 u32 None no_flags 4096 (chars "f.mtx") (Some (ex_mdump ++ [10%Z])) AUTO ch = Ok c /\
        holds c (stored no_flags (unweighted ps)) /\
        co_nrows c = Some nr /\ co_ncols c = Some nc /\ co_n c = Some (Z.max nr nc)).
Proof.
  apply C43_mm_contents; [cbn; tauto|reflexivity|cbn; tauto|left; reflexivity| |exact ex_mdump_end| | |lia|vm_compute; discriminate].
  - split; [apply Nat.ltb_lt; reflexivity|]. vm_compute. discriminate.
  - right. split; [reflexivity|]. split; [|exists (chars "f"); reflexivity]. intros (b & r & E). vm_compute in E. discriminate.
  - unfold ex_mdump. rewrite <- app_assoc. eexists _, _. cbn [chars app]. reflexivity.
Qed.
(** A CSR and a DiGraph of garbage that the announced sizes happen to fit:
    the entries 4 1 and 5 6. *)
Definition ex_mgood : list byte := mm_banner ++ chars (" q
9,,9-2 zz
4 1 x
;5;6
").
Lemma ex_mgood_end : no_digit_at_end ex_mgood.
Proof. intros p c E. change ex_mgood with (removelast ex_mgood ++ [10%Z]) in E. apply app_inj_tail in E as [_ <-]. left. reflexivity. Qed.
Lemma ex_mgood_mtx : as_mtx AUTO (chars "f.mtx") ex_mgood.
Proof. right. split; [reflexivity|]. split; [|exists (chars "f"); reflexivity]. intros (b & r & E). vm_compute in E. discriminate. Qed.
Lemma ex_mgood_off : off_page 4096 ex_mgood.
Proof. split; [apply Nat.ltb_lt; reflexivity|]. vm_compute. discriminate. Qed.
Example C43_mm_graphs_applies : exists ps n, label_pairs u8 ps /\
  ((forall ch ch2 c1 c2, lc_T ch = 2 -> 
      csr_open (W:=unit) u8 u32 None 4096 (chars "f.mtx") (Some ex_mgood) AUTO ch = Throw EError /\
      digraph_open (W:=unit) u8 u32 None 4096 (chars "f.mtx") (Some ex_mgood) AUTO ch ch2 c1 c2 = Throw EError) \/
   ((vertices ps < imax u8)%Z -> (n < imax u8)%Z ->
    forall ch ch2 c1 c2, lc_T ch = 2 -> legal (length ps) c1 -> legal (length ps) c2 ->
      exists i o : csr unit, digraph_open u8 u32 None 4096 (chars "f.mtx") (Some ex_mgood) AUTO ch ch2 c1 c2 = Ok (i, o) /\
        is_graph u32 o n (Z.of_nat (length ps)) (succs ps) /\ is_graph u32 i n (Z.of_nat (length ps)) (preds ps))).
Proof.
  destruct (C43_mm_graphs u8 u32 ex_mgood 4096 (chars "f.mtx") AUTO 2) as (ps & nr & nc & nnz & H1 & H2 & H3);
    [cbn; tauto|reflexivity|cbn; tauto|left; reflexivity|exact ex_mgood_off|exact ex_mgood_end|exact ex_mgood_mtx| |lia|vm_compute; discriminate|].
  - eexists _, _. cbn [ex_mgood mm_banner chars app]. reflexivity.
  - exists ps, (Z.max nr nc). split; [exact H1|].
    assert (D : forall a b, {(a <= b)%Z} + {~ (a <= b)%Z}) by (intros a b; apply Z_le_dec).
    destruct (D (rows_for u8 no_flags ps) nr) as [A|A]; [|left; intros; apply H2; tauto].
    destruct (D (cols_for u8 no_flags ps) nc) as [B|B]; [|left; intros; apply H2; tauto].
    destruct (Z.eq_dec nnz (Z.of_nat (length ps))) as [C|C]; [|left; intros; apply H2; tauto].
    right. intros V N ch ch2 c1 c2 HC HL1 HL2. destruct H3 as [_ H3]; [tauto|]. destruct (H3 V N) as [_ H4]. eapply H4; eassumption.
Qed.
Example C43_mm_graphs_result : exists i o : csr unit,
  digraph_open u8 u32 None 4096 (chars "f.mtx") (Some ex_mgood) AUTO
    (mkLchoice 2 [1;0] (1, []) (1, []) (1, []) (mkGchoice 1 [] []) (mkChoice 1 0 [] [] [] [] []) [] [])
    (mkLchoice 2 [] (1, []) (1, []) (1, []) (mkGchoice 1 [] []) (mkChoice 1 0 [] [] [] [] []) [] [])
    (mkChoice 2 1 [[0]; [1]] [[1]; [0]] [1] [0; 1] [1; 0; 1]) (mkChoice 2 0 [[1]; [0]] [[0]; [1]] [] [1; 1] [0; 1]) = Ok (i, o) /\
  cs_n o = 10%Z /\ cs_m o = 2%Z /\ cs_off o = map Some [0;0;0;0;0;1;2;2;2;2;2]%Z /\ cs_end o = map Some [1;6]%Z /\ cs_end i = map Some [4;5]%Z.
Proof. eexists _, _. split; [vm_compute; reflexivity|]. repeat split. Qed.
