(** * Property C70: the largest label of the label type

    [1 + largest label] does not fit in the label type: what a COO, a CSR and a
    DiGraph become when the largest label occurs in an edge list. *)

From Coq Require Import String Permutation.
From Verif Require Import Base Reader ReaderLemmas Sched SchedMore Spec SpecFp Coo Ascii Csr CooLemmas CooMain WeightLemmas ElSpec ElFinal ElThms ElLarge ElExamples
  SpecCsr SpecPipe CsrLemmas CsrMain CsrBack CsrQuery RetypeLemmas Codec Bin SpecBin BinLemmas BinSave BinLoad Graph Load BinOpen P_Bin P_Csr SpecMm MmLemmas P_Mm P_Pipe.
Open Scope list_scope.
Notation length := List.length.

(** The number reported for labels whose largest is [mx]: one more, but the
    least value of the type if that does not fit. *)
Definition reported (L : ity) (mx : Z) : Z := if (mx =? imax L)%Z then imin L else (1 + mx)%Z.

(** How an edge list is read: without weights, or with weights of any kind; [ws]
    are the weights in the file. *)
Inductive reads_as : forall W : Type, option (wmode W) -> el_file -> list W -> Prop :=
| reads_plain f : reads_as unit None f (no_weights f)
| reads_weighted k bc f ws : wf_kind k -> weights_are k f ws -> reads_as (wtype k) (Some (mkWmode _ (wreader k) bc)) f ws.

Lemma reads_len W wm f ws : reads_as W wm f ws -> length ws = length (el_lines f).
Proof. destruct 1; [apply no_weights_len|eapply weights_len; eassumption]. Qed.

Lemma reads_owok W wm f ws : reads_as W wm f ws -> owend (wtext wm) /\ Forall2 (owok (wtext wm)) (map l_post (el_lines f)) ws.
Proof.
  destruct 1 as [f|k bc f ws Hk Hw]; [split; [exact Logic.I|apply owok_none, no_weights_len]|].
  split; [apply (wend_kind k Hk)|apply (owok_some k f ws Hk Hw)].
Qed.

Definition most {W} (g : Z * Z * W -> Z) (es : list (Z * Z * W)) : Z := max_of (map g es).
Definition first_label {W} (e : Z * Z * W) : Z := fst (fst e).
Definition second_label {W} (e : Z * Z * W) : Z := snd (fst e).

Lemma large_open W (wm : option (wmode W)) L O fl f ws pg fn ft ch : reads_as W wm f ws ->
  is_ity L -> is_ity O -> wf_el f -> labels_fit (imax L) f -> (wm = None \/ Forall (keeps fl) (triples f ws)) ->
  (Z.of_nat (length (stored fl (triples f ws))) <= imax O)%Z -> off_page pg (el_text f) -> as_el ft fn (el_text f) -> 1 <= lc_T ch ->
  coo_open L O wm fl pg fn (Some (el_text f)) ft ch =
   (nr <- arith L (most first_label (counted fl (triples f ws)) + 1)%Z ;;
    nc <- arith L (most second_label (counted fl (triples f ws)) + 1)%Z ;;
    Ok (mkCoo (map (fun e => Some (fst (fst e))) (stored fl (triples f ws))) (map (fun e => Some (snd (fst e))) (stored fl (triples f ws)))
          (match wtext wm with None => [] | Some _ => map (fun e => Some (snd e)) (stored fl (triples f ws)) end)
          (Some (Z.max nr nc)) (Some nr) (Some nc) (Z.of_nat (length (stored fl (triples f ws)))))).
Proof.
  intros HR HL HO Hwf Hfit Hd Hm Hpg Hg HT. destruct (reads_owok W wm f ws HR) as [Hwe Hwo].
  rewrite el_open by (try exact Hg; apply (off_page_ne _ _ Hpg)).
  apply (large_main L O (wtext wm) fl f ws pg HL HO Hwf (reads_len W wm f ws HR) Hfit Hm Hpg Hwe Hwo); [|exact HT].
  destruct Hd as [->|Hd]; [left; reflexivity|right; exact Hd].
Qed.

Lemma counted_range {W} L fl f (ws : list W) (g : Z * Z * W -> Z) : is_ity L -> wf_el f -> length ws = length (el_lines f) -> labels_fit (imax L) f ->
  g = first_label \/ g = second_label -> (0 <= most g (counted fl (triples f ws)) <= imax L)%Z.
Proof.
  intros HL Hwf Hl Hf Hg. unfold most. split; [apply max_of_nonneg|]. apply max_of_le; [pose proof (ity_facts L HL); lia|].
  rewrite Forall_map. apply Forall_forall. intros e He. apply counted_incl in He. unfold stored in He. apply in_flat_map in He as (t & Ht & He).
  assert (Hp : In (fst t) (el_pairs f)).
  { unfold triples in Ht. apply in_map_iff in Ht as ([p w] & <- & Hin). apply in_combine_l in Hin. destruct p; exact Hin. }
  unfold labels_fit in Hf. rewrite Forall_forall in Hf. specialize (Hf _ Hp). destruct t as [[x y] w]. cbn [fst snd] in Hf.
  unfold expand in He. destruct fl as [[] [] []]; cbn [f_sym f_ut f_sl andb] in He;
    repeat match goal with H : context [if ?b then _ else _] |- _ => destruct b end; cbn [In] in He;
    repeat match goal with H : _ \/ _ |- _ => destruct H end; try contradiction; subst; unfold first_label, second_label; cbn [fst snd]; try lia.
  all: try congruence.
Qed.

Lemma reported_dim L mx : dim L mx = reported L mx.
Proof. unfold dim, reported. destruct (mx =? imax L)%Z; lia. Qed.

(** ** The COO *)
Theorem C70_coo : forall W (wm : option (wmode W)) L O fl f ws pg fn ft ch, reads_as W wm f ws ->
  is_ity L -> is_ity O -> wf_el f -> labels_fit (imax L) f -> (wm = None \/ Forall (keeps fl) (triples f ws)) ->
  (Z.of_nat (length (stored fl (triples f ws))) <= imax O)%Z -> off_page pg (el_text f) -> as_el ft fn (el_text f) -> 1 <= lc_T ch ->
  (isigned L = false \/ (ibits L < 32)%Z) ->
  exists c, coo_open L O wm fl pg fn (Some (el_text f)) ft ch = Ok c /\
    holds c (stored fl (triples f ws)) /\ (wm <> None -> holds_weights c (stored fl (triples f ws))) /\
    dims c (reported L (most first_label (counted fl (triples f ws)))) (reported L (most second_label (counted fl (triples f ws)))).
Proof.
  intros W wm L O fl f ws pg fn ft ch HR HL HO Hwf Hfit Hd Hm Hpg Hg HT Hs. pose proof (reads_len W wm f ws HR) as Hl.
  rewrite (large_open W wm L O fl f ws pg fn ft ch HR HL HO Hwf Hfit Hd Hm Hpg Hg HT).
  rewrite (arith_dim L _ HL Hs (counted_range L fl f ws first_label HL Hwf Hl Hfit (or_introl eq_refl))). cbn [bind].
  rewrite (arith_dim L _ HL Hs (counted_range L fl f ws second_label HL Hwf Hl Hfit (or_intror eq_refl))). cbn [bind].
  rewrite !reported_dim. eexists. split; [reflexivity|]. split; [split; [reflexivity|split; reflexivity]|]. split.
  - intros Hw. unfold holds_weights. cbn [co_w]. destruct wm; [reflexivity|congruence].
  - split; [reflexivity|split; reflexivity].
Qed.
Print Assumptions C70_coo.

(** With [int32_t] or [int64_t] labels the sum overflows. *)
Theorem C70_coo_undefined : forall W (wm : option (wmode W)) L O fl f ws pg fn ft ch e, reads_as W wm f ws ->
  L = i32 \/ L = i64 -> is_ity O -> wf_el f -> labels_fit (imax L) f -> (wm = None \/ Forall (keeps fl) (triples f ws)) ->
  (Z.of_nat (length (stored fl (triples f ws))) <= imax O)%Z -> off_page pg (el_text f) -> as_el ft fn (el_text f) -> 1 <= lc_T ch ->
  In e (counted fl (triples f ws)) -> first_label e = imax L \/ second_label e = imax L ->
  coo_open L O wm fl pg fn (Some (el_text f)) ft ch = UB.
Proof.
  intros W wm L O fl f ws pg fn ft ch e HR HLw HO Hwf Hfit Hd Hm Hpg Hg HT Hin He. pose proof (reads_len W wm f ws HR) as Hl.
  assert (HL : is_ity L) by (destruct HLw as [->| ->]; cbn; tauto).
  rewrite (large_open W wm L O fl f ws pg fn ft ch HR HL HO Hwf Hfit Hd Hm Hpg Hg HT).
  pose proof (counted_range L fl f ws first_label HL Hwf Hl Hfit (or_introl eq_refl)) as R1.
  pose proof (counted_range L fl f ws second_label HL Hwf Hl Hfit (or_intror eq_refl)) as R2.
  assert (G : forall g, In e (counted fl (triples f ws)) -> (g e <= most g (counted fl (triples f ws)))%Z).
  { intros g Hi. unfold most. apply max_of_in. apply in_map. exact Hi. }
  assert (U : arith L (imax L + 1) = UB) by (rewrite arith_top by exact HL; destruct HLw as [->| ->]; reflexivity).
  destruct (Z.eqb_spec (most first_label (counted fl (triples f ws))) (imax L)) as [->|N1]; [rewrite U; reflexivity|].
  assert (A : exists z, arith L (most first_label (counted fl (triples f ws)) + 1) = Ok z).
  { eexists. apply arith_in; [exact HL|]. pose proof (ity_facts L HL) as (_ & Hmin & _). lia. }
  destruct A as (z & ->). cbn [bind].
  replace (most second_label (counted fl (triples f ws))) with (imax L); [rewrite U; reflexivity|].
  pose proof (G first_label Hin) as G1. pose proof (G second_label Hin) as G2. destruct He as [He|He]; [lia|]. lia.
Qed.
Print Assumptions C70_coo_undefined.

(** ** The graph *)
Lemma convert_or {W} L O weighted (c : coo W) es n ch :
  is_ity L -> is_ity O -> holds c es -> (weighted = true -> holds_weights c es) -> co_n c = Some n -> (0 <= n)%Z -> room L n ->
  (Z.of_nat (length es) <= imax O)%Z -> legal (length es) ch ->
  (Forall (fun e => 0 <= fst (fst e) < n)%Z es /\ exists r, convert_coo L O weighted c ch = Ok r) \/
  (~ Forall (fun e => 0 <= fst (fst e) < n)%Z es /\ convert_coo L O weighted c ch = UB).
Proof.
  intros HL HO Hc Hw Hn H0 Hr Hm HC.
  destruct (Forall_dec (fun e : Z * Z * W => 0 <= fst (fst e) < n)%Z (fun e => ltac:(destruct (Z_le_dec 0 (fst (fst e))), (Z_lt_dec (fst (fst e)) n); [left; lia|right; lia..])) es) as [HF|HF].
  - left. split; [exact HF|]. destruct (C22_coo_to_csr L O weighted c es n ch HL HO Hc Hw Hn H0 Hr Hm HF HC) as (r & _ & E & _). eauto.
  - right. split; [exact HF|]. apply neg_Forall_Exists_neg in HF.
    + apply Exists_exists in HF as (e & Hin & Hbad). apply (convert_bad L O weighted c es n ch e); assumption.
    + intros e. destruct (Z_le_dec 0 (fst (fst e))), (Z_lt_dec (fst (fst e)) n); [left; lia|right; lia..].
Qed.

Lemma max_of_att l : max_of l = 0%Z \/ In (max_of l) l.
Proof.
  unfold max_of. induction l as [|a l IH]; [left; reflexivity|]. cbn [fold_right]. destruct (Z.max_spec a (fold_right Z.max 0%Z l)) as [[_ ->]|[_ ->]]; [|right; left; reflexivity].
  destruct IH as [->|IH]; [left; reflexivity|right; right; exact IH].
Qed.

(** No label is one less than the largest one (C45). *)
Definition skips (L : ity) (f : el_file) : Prop := Forall (fun p => fst p <> imax L - 1 /\ snd p <> imax L - 1)%Z (el_pairs f).

Lemma no_flags_lists {W} (l : list (Z * Z * W)) : counted no_flags l = l /\ stored no_flags l = l.
Proof.
  split; [|apply stored_no_flags]. unfold counted. induction l as [|[[x y] w] l IH]; [reflexivity|]. cbn [flat_map]. rewrite IH. reflexivity.
Qed.

Lemma triple_pair {W} f (ws : list W) e : In e (triples f ws) -> In (fst e) (el_pairs f).
Proof. unfold triples. intros H. apply in_map_iff in H as ([p w] & <- & Hin). apply in_combine_l in Hin. destruct p; exact Hin. Qed.

Lemma reported_room {W} L f (ws : list W) g : is_ity L -> isigned L = false -> labels_fit (imax L) f -> skips L f -> g = first_label \/ g = second_label ->
  (0 <= reported L (most g (triples f ws)) < imax L)%Z.
Proof.
  intros HL Hs Hf Hk Hg. pose proof (imax_2 L HL) as H2. unfold reported.
  assert (Hmin : imin L = 0%Z) by (unfold imin; rewrite Hs; reflexivity).
  destruct (Z.eqb_spec (most g (triples f ws)) (imax L)) as [_|N]; [lia|]. unfold most in *.
  destruct (max_of_att (map g (triples f ws))) as [->|Hin]; [lia|]. apply in_map_iff in Hin as (e & E & Hin). rewrite <- E in *.
  apply triple_pair in Hin. unfold labels_fit, skips in *. rewrite Forall_forall in Hf, Hk. specialize (Hf _ Hin). specialize (Hk _ Hin).
  pose proof (max_of_nonneg (map g (triples f ws))) as Hn. rewrite <- E in Hn. destruct Hg as [->| ->]; unfold first_label, second_label in *; lia.
Qed.

Lemma large_facts W (wm : option (wmode W)) L O f ws pg fn ft ch : reads_as W wm f ws ->
  is_ity L -> is_ity O -> isigned L = false -> wf_el f -> labels_fit (imax L) f -> skips L f ->
  (Z.of_nat (length (el_pairs f)) <= imax O)%Z -> off_page pg (el_text f) -> as_el ft fn (el_text f) -> 1 <= lc_T ch ->
  exists c n, coo_open L O wm no_flags pg fn (Some (el_text f)) ft ch = Ok c /\ holds c (triples f ws) /\
    (is_some wm = true -> holds_weights c (triples f ws)) /\ co_n c = Some n /\ (0 <= n)%Z /\ room L n /\
    length (triples f ws) = length (el_pairs f) /\
    n = Z.max (reported L (most first_label (triples f ws))) (reported L (most second_label (triples f ws))).
Proof.
  intros HR HL HO Hs Hwf Hfit Hk Hm Hpg Hg HT.
  assert (Hlt : length (triples f ws) = length (el_pairs f)).
  { unfold triples. rewrite map_length, combine_length, (reads_len W wm f ws HR). unfold el_pairs. rewrite map_length. lia. }
  destruct (no_flags_lists (triples f ws)) as [E1 E2].
  destruct (C70_coo W wm L O no_flags f ws pg fn ft ch HR HL HO Hwf Hfit) as (c & E & Hh & Hw & Hd); auto.
  - right. apply Forall_forall. intros [[x y] w] _. cbn. discriminate.
  - rewrite E2, Hlt. exact Hm.
  - rewrite E1 in Hd. rewrite E2 in Hh, Hw. destruct Hd as (_ & _ & Hn).
    pose proof (reported_room L f ws first_label HL Hs Hfit Hk (or_introl eq_refl)) as R1.
    pose proof (reported_room L f ws second_label HL Hs Hfit Hk (or_intror eq_refl)) as R2.
    exists c. eexists. split; [exact E|]. split; [exact Hh|]. split; [intros H; apply Hw; destruct wm; [discriminate|discriminate H]|].
    split; [exact Hn|]. split; [lia|]. split; [unfold room; lia|]. split; [exact Hlt|reflexivity].
Qed.

(** A row of the largest number does not fit below n: the offsets are written
    out of bounds. *)
Theorem C70_csr : forall W (wm : option (wmode W)) L O f ws pg fn ft ch e, reads_as W wm f ws ->
  is_ity L -> is_ity O -> isigned L = false -> wf_el f -> labels_fit (imax L) f -> skips L f ->
  (Z.of_nat (length (el_pairs f)) <= imax O)%Z -> off_page pg (el_text f) -> as_el ft fn (el_text f) -> 1 <= lc_T ch ->
  legal (length (el_pairs f)) (lc_conv ch) ->
  In e (el_pairs f) -> fst e = imax L ->
  csr_open L O wm pg fn (Some (el_text f)) ft ch = UB.
Proof.
  intros W wm L O f ws pg fn ft ch e HR HL HO Hs Hwf Hfit Hk Hm Hpg Hg HT HC Hin He. pose proof (off_page_ne _ _ Hpg) as Hne.
  destruct (large_facts W wm L O f ws pg fn ft ch HR HL HO Hs Hwf Hfit Hk Hm Hpg Hg HT) as (c & n & E & Hh & Hw & Hn & H0 & Hr & Hlt & En).
  rewrite (csr_via L O wm _ pg fn ft ch _ EDGE_LIST Hne (el_detect pg fn _ ft Hne Hg) (or_introl eq_refl) E).
  assert (Hp : pairs (triples f ws) = el_pairs f).
  { apply triples_pairs. rewrite (reads_len W wm f ws HR). unfold el_pairs. rewrite map_length. reflexivity. }
  rewrite <- Hp in Hin. unfold pairs in Hin. apply in_map_iff in Hin as (t & <- & Hin).
  apply (convert_bad L O (is_some wm) c (triples f ws) n (lc_conv ch) t); auto; [|rewrite Hlt; exact HC].
  rewrite He. destruct Hr as [Hr _]. lia.
Qed.
Print Assumptions C70_csr.

(** A DiGraph needs its columns to be below n, too. *)
Theorem C70_digraph : forall W (wm : option (wmode W)) L O f ws pg fn ft ch ch2 c1 c2 e, reads_as W wm f ws ->
  is_ity L -> is_ity O -> isigned L = false -> wf_el f -> labels_fit (imax L) f -> skips L f ->
  (Z.of_nat (length (el_pairs f)) <= imax O)%Z -> off_page pg (el_text f) -> as_el ft fn (el_text f) -> 1 <= lc_T ch ->
  legal (length (el_pairs f)) c1 -> legal (length (el_pairs f)) c2 ->
  In e (el_pairs f) -> fst e = imax L \/ snd e = imax L ->
  digraph_open L O wm pg fn (Some (el_text f)) ft ch ch2 c1 c2 = UB.
Proof.
  intros W wm L O f ws pg fn ft ch ch2 c1 c2 e HR HL HO Hs Hwf Hfit Hk Hm Hpg Hg HT HC1 HC2 Hin He. pose proof (off_page_ne _ _ Hpg) as Hne.
  destruct (large_facts W wm L O f ws pg fn ft ch HR HL HO Hs Hwf Hfit Hk Hm Hpg Hg HT) as (c & n & E & Hh & Hw & Hn & H0 & Hr & Hlt & En).
  rewrite (digraph_via L O wm _ pg fn ft ch ch2 c1 c2 _ EDGE_LIST Hne (el_detect pg fn _ ft Hne Hg) ltac:(discriminate) E).
  assert (Hp : pairs (triples f ws) = el_pairs f).
  { apply triples_pairs. rewrite (reads_len W wm f ws HR). unfold el_pairs. rewrite map_length. reflexivity. }
  rewrite <- Hp in Hin. unfold pairs in Hin. apply in_map_iff in Hin as (t & <- & Hin).
  assert (Hni : (n <= imax L)%Z) by apply Hr.
  unfold digraph_of_coo.
  destruct (convert_or L O (is_some wm) (coo_transpose c) (map swap3 (triples f ws)) n c1) as [[HF (i & Ei)]|[_ Eu]]; auto.
  - apply transpose_holds. exact Hh.
  - intros Hx. apply transpose_weights. auto.
  - rewrite map_length, Hlt. exact Hm.
  - rewrite map_length, Hlt. exact HC1.
  - rewrite Ei. cbn [bind]. destruct He as [He|He].
    + rewrite (convert_bad L O (is_some wm) c (triples f ws) n c2 t); auto; [rewrite He; lia|rewrite Hlt; exact HC2].
    + exfalso. rewrite Forall_forall in HF. specialize (HF (swap3 t) (in_map _ _ _ Hin)). destruct t as [[x y] w]. cbn [swap3 fst snd] in *. lia.
  - rewrite Eu. reflexivity.
Qed.
Print Assumptions C70_digraph.

(** ** Matrix Market: as many rows or columns as the largest value *)
(** The announced sizes plus one are compared with the ones read: the file is
    refused whatever its entries are, or the read is undefined. *)
Theorem C70_matrix_market : forall W (wm : option (wmode W)) L O fl f ws pg fn ft ch, reads_as W wm (mm_body f) ws ->
  is_ity L -> is_ity O -> wf_mm f -> labels_fit (imax L - 1) (mm_body f) ->
  (dval (mm_r f) <= imax L)%Z -> (dval (mm_c f) <= imax L)%Z -> (dval (mm_z f) <= imax O)%Z ->
  (wm = None \/ Forall (keeps fl) (triples (mm_body f) ws)) ->
  (Z.of_nat (length (stored fl (triples (mm_body f) ws))) <= imax O)%Z -> off_page pg (mm_text f) -> as_mm ft fn -> 1 <= lc_T ch ->
  dval (mm_r f) = imax L \/ dval (mm_c f) = imax L ->
  (isigned L = false \/ (ibits L < 32)%Z -> coo_open L O wm fl pg fn (Some (mm_text f)) ft ch = Throw EError) /\
  (L = i32 \/ L = i64 -> coo_open L O wm fl pg fn (Some (mm_text f)) ft ch = UB).
Proof.
  intros W wm L O fl f ws pg fn ft ch HR HL HO Hf Hfit Hr Hc Hz Hd Hm Hpg Hg HT Hx. destruct (reads_owok W wm _ ws HR) as [Hwe Hwo].
  pose proof (mm_main_gen L O (wtext wm) fl f ws pg HL HO Hf (reads_len W wm _ ws HR) Hfit (conj Hr (conj Hc Hz)) Hm Hpg Hwe Hwo (lc_T ch) HT) as M.
  rewrite (mm_open L O wm fl f pg fn ft ch Hg). rewrite M; clear M.
  2:{ destruct Hd as [->|Hd]; [left; reflexivity|right; left; exact Hd]. }
  pose proof (ity_facts L HL) as (HL1 & HL2 & _). destruct Hf as (_ & _ & W3 & _ & W5 & _).
  pose proof (dval_nonneg _ (proj2 W3)) as N3. pose proof (dval_nonneg _ (proj2 W5)) as N5.
  assert (Ok1 : forall v, (0 <= v <= imax L)%Z -> v <> imax L -> arith L (v + 1) = Ok (v + 1)%Z) by (intros v Hv Hn; apply arith_in; [exact HL|lia]).
  split; intros HLw.
  - assert (Top : arith L (imax L + 1) = Ok (imin L)).
    { rewrite (arith_dim L (imax L) HL HLw ltac:(lia)). unfold dim. rewrite Z.eqb_refl. reflexivity. }
    assert (D : exists nr nc, co_nrows (el_result (wtext wm) fl (mm_body f) ws) = Some nr /\ co_ncols (el_result (wtext wm) fl (mm_body f) ws) = Some nc /\ (1 <= nr)%Z /\ (1 <= nc)%Z).
    { unfold el_result. cbn [co_nrows co_ncols]. do 2 eexists. split; [reflexivity|]. split; [reflexivity|].
      split; match goal with |- context [max_of ?l] => pose proof (max_of_nonneg l); lia end. }
    destruct D as (nr & nc & D1 & D2 & D3 & D4).
    assert (Thr : forall a b, (a < nr)%Z \/ (b < nc)%Z -> mm_check_with O fl f a b (el_result (wtext wm) fl (mm_body f) ws) = Throw EError).
    { intros a b0 H. unfold mm_check_with. rewrite D1, D2. destruct (Z.ltb_spec a nr); [reflexivity|]. destruct (Z.ltb_spec b0 nc); [reflexivity|lia]. }
    destruct (Z.eq_dec (dval (mm_r f)) (imax L)) as [E|N].
    + rewrite E, Top. cbn [bind]. destruct (Z.eq_dec (dval (mm_c f)) (imax L)) as [E2|N2]; [rewrite E2, Top|rewrite Ok1 by lia]; cbn [bind]; apply Thr; lia.
    + rewrite Ok1 by lia. cbn [bind]. replace (dval (mm_c f)) with (imax L) by lia. rewrite Top. cbn [bind]. apply Thr. lia.
  - assert (Top : arith L (imax L + 1) = UB) by (rewrite arith_top by exact HL; destruct HLw as [->| ->]; reflexivity).
    destruct (Z.eq_dec (dval (mm_r f)) (imax L)) as [E|N]; [rewrite E, Top; reflexivity|].
    rewrite Ok1 by lia. cbn [bind]. replace (dval (mm_c f)) with (imax L) by lia. rewrite Top. reflexivity.
Qed.
Print Assumptions C70_matrix_market.

(** ** "255 3", "4 7" with [uint8_t] labels *)
Definition ex_lg : el_file := mkEl [] [ mkLine (bs "255") (bs " ") (bs "3") [] []; mkLine (bs "4") (bs " ") (bs "7") [] [] ].
Lemma ex_lg_ok : wf_el ex_lg /\ labels_fit (imax u8) ex_lg /\ skips u8 ex_lg /\ off_page 64 (el_text ex_lg) /\ as_el AUTO (chars "g.el") (el_text ex_lg).
Proof.
  assert (EP : el_pairs ex_lg = [(255, 3); (4, 7)]%Z) by reflexivity.
  split; [|split; [|split; [|split]]].
  - split; cbn [ex_lg el_lines el_head]; [apply gap_nil|]. repeat split; try digits_t; try (repeat constructor; fail); try discriminate; apply gap_nil.
  - unfold labels_fit. rewrite EP. repeat constructor; vm_compute; discriminate.
  - unfold skips. rewrite EP. repeat constructor; vm_compute; discriminate.
  - split; [lia|]. vm_compute. discriminate.
  - right. split; [reflexivity|]. split; [intros (b & r & E); discriminate|].
    split; intros (a & E); apply (f_equal (@rev _)) in E; rewrite rev_app_distr in E; discriminate.
Qed.
Definition ex_lgc : cchoice := mkChoice 2 1 [[0]; [1]] [[1]; [0]] [1] [0; 1] [1; 0; 1].
Definition ex_lgl : lchoice := mkLchoice 2 [1; 0; 1] (1, []) (1, []) (1, []) (mkGchoice 2 [] []) ex_lgc [[0]] [0].
Lemma ex_lgc_ok : legal 2 ex_lgc.
Proof.
  unfold legal. cbn [ch_T ch_single ch_parts1 ch_parts2 ex_lgc concat app]. split; [lia|]. split; [lia|].
  split; (apply NoDup_Permutation; [repeat constructor; cbn; intuition discriminate|apply seq_NoDup|intros x; cbn; intuition]).
Qed.

(** The COO has no rows and 8 columns; the graphs cannot be built.  With
    [int32_t] labels "2147483647 3" cannot be read. *)
Example C70_applies :
  (exists c : coo unit, coo_open u8 u32 None no_flags 64 (chars "g.el") (Some (el_text ex_lg)) AUTO ex_lgl = Ok c /\
     holds c [(255, 3, tt); (4, 7, tt)]%Z /\ dims c 0 8) /\
  csr_open (W := unit) u8 u32 None 64 (chars "g.el") (Some (el_text ex_lg)) AUTO ex_lgl = UB /\
  digraph_open (W := unit) u8 u32 None 64 (chars "g.el") (Some (el_text ex_lg)) AUTO ex_lgl ex_lgl ex_lgc ex_lgc = UB.
Proof.
  destruct ex_lg_ok as (H1 & H2 & H3 & H4 & H5). assert (H8 : is_ity u8) by (cbn; tauto). assert (H32 : is_ity u32) by (cbn; tauto).
  split; [|split].
  - destruct (C70_coo unit None u8 u32 no_flags ex_lg _ 64 (chars "g.el") AUTO ex_lgl (reads_plain ex_lg) H8 H32 H1 H2) as (c & E & A & _ & B);
      [left; reflexivity|vm_compute; discriminate|exact H4|exact H5|cbn; lia|left; reflexivity|].
    exists c. split; [exact E|]. split; [exact A|exact B].
  - apply (C70_csr unit None u8 u32 ex_lg (no_weights ex_lg) 64 (chars "g.el") AUTO ex_lgl (255, 3)%Z (reads_plain ex_lg) H8 H32 eq_refl H1 H2 H3);
      [vm_compute; discriminate|exact H4|exact H5|cbn; lia|exact ex_lgc_ok|left; reflexivity|reflexivity].
  - apply (C70_digraph unit None u8 u32 ex_lg (no_weights ex_lg) 64 (chars "g.el") AUTO ex_lgl ex_lgl ex_lgc ex_lgc (255, 3)%Z (reads_plain ex_lg) H8 H32 eq_refl H1 H2 H3);
      [vm_compute; discriminate|exact H4|exact H5|cbn; lia|exact ex_lgc_ok|exact ex_lgc_ok|left; reflexivity|left; reflexivity].
Qed.

Definition ex_lg32 : el_file := mkEl [] [ mkLine (bs "3") (bs " ") (bs "2147483647") (bs " -7") [] ].
Example C70_undefined_applies : coo_open i32 u32 (Some (mkWmode _ (wreader (WSigned i32)) (cint i32))) no_flags 64 (chars "g.el") (Some (el_text ex_lg32)) AUTO ex_lgl = UB.
Proof.
  apply (C70_coo_undefined Z (Some (mkWmode _ (wreader (WSigned i32)) (cint i32))) i32 u32 no_flags ex_lg32 [-7]%Z 64 (chars "g.el") AUTO ex_lgl (3, 2147483647, -7)%Z).
  - apply (reads_weighted (WSigned i32) (cint i32) ex_lg32 [-7]%Z); [split; [cbn; tauto|reflexivity]|].
    constructor; [|constructor]. split; [|vm_compute; split; discriminate].
    assert (Hsp : sgn_sep (bs " ")) by (split; [split; [discriminate|repeat constructor]|repeat constructor]).
    apply (post_signed_minus (bs " ") (bs "7") [] Hsp); [digits_t|split; [constructor|exact Logic.I]].
  - left; reflexivity.
  - cbn; tauto.
  - split; cbn [ex_lg32 el_lines el_head]; [apply gap_nil|]. repeat split; try digits_t; try (repeat constructor; fail); try discriminate; apply gap_nil.
  - unfold labels_fit. change (el_pairs ex_lg32) with [(3, 2147483647)]%Z. repeat constructor; vm_compute; discriminate.
  - right. repeat constructor; discriminate.
  - vm_compute; discriminate.
  - split; [lia|]. vm_compute. discriminate.
  - right. split; [reflexivity|]. split; [intros (b & r & E); discriminate|].
    split; intros (a & E); apply (f_equal (@rev _)) in E; rewrite rev_app_distr in E; discriminate.
  - cbn; lia.
  - left; reflexivity.
  - right; reflexivity.
Qed.

(** "255 4 1" with one entry and [uint8_t] labels: refused, although every
    label fits. *)
Definition ex_lgm : mm_file :=
  mkMm (bs " pattern general") [] (bs "255") (bs " ") (bs "4") (bs " ") (bs "1") [] (mkEl [] [ mkLine (bs "4") (bs " ") (bs "3") [] [] ]).
Lemma ex_lgm_wf : wf_mm ex_lgm.
Proof.
  unfold ex_lgm, wf_mm; cbn [mm_kind mm_pre mm_r mm_s1 mm_c mm_s2 mm_z mm_rest mm_body].
  split; [repeat constructor|]. split; [apply gap_nil|].
  split; [digits_t|]. split; [split; [discriminate|repeat constructor]|]. split; [digits_t|]. split; [split; [discriminate|repeat constructor]|].
  split; [digits_t|]. split; [split; [constructor|exact Logic.I]|].
  split; cbn [el_lines el_head]; [apply gap_nil|].
  repeat split; try digits_t; try (repeat constructor; fail); try discriminate; apply gap_nil.
Qed.
Example C70_matrix_market_applies :
  coo_open (W := unit) u8 u32 None no_flags 64 (chars "a.mtx") (Some (mm_text ex_lgm)) AUTO ex_lgl = Throw EError.
Proof.
  refine (proj1 (C70_matrix_market unit None u8 u32 no_flags ex_lgm (no_weights (mm_body ex_lgm)) 64 (chars "a.mtx") AUTO ex_lgl (reads_plain _) _ _ ex_lgm_wf _ _ _ _ _ _ _ _ _ _) _).
  - cbn; tauto.
  - cbn; tauto.
  - unfold labels_fit. change (el_pairs (mm_body ex_lgm)) with [(4, 3)]%Z. repeat constructor; vm_compute; discriminate.
  - vm_compute; discriminate.
  - vm_compute; discriminate.
  - vm_compute; discriminate.
  - left; reflexivity.
  - vm_compute; discriminate.
  - split; [lia|]. vm_compute. discriminate.
  - right. split; [reflexivity|]. exists (chars "a"). reflexivity.
  - cbn; lia.
  - left. reflexivity.
  - left. reflexivity.
Qed.
