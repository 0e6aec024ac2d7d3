(** * Property C66: a Matrix built from a file; more of C59 *)

From Coq Require Import String Permutation Sorted.
From Verif Require Import Base Reader ReaderLemmas Sched Spec SpecFp SpecMm Coo Ascii Csr CooLemmas WeightLemmas ElSpec ElFinal ElThms ElExamples
  SpecCsr SpecPipe CsrLemmas CsrMain CsrBack CsrSort CsrQuery Codec Bin SpecBin BinLemmas BinSave BinLoad Graph Load BinOpen P_Bin P_Mm P_Csr P_Pipe
  SchedLemmas Retype Matrix SpecGraph P_Graph P_GraphEx.
Open Scope list_scope.
Notation length := List.length.

(** Both directions of a COO. *)
Lemma both_directions {W} L O weighted (c : coo W) es n c1 c2 :
  is_ity L -> is_ity O -> holds c es -> (weighted = true -> holds_weights c es) ->
  co_n c = Some n -> (0 <= n)%Z -> room L n -> (Z.of_nat (length es) <= imax O)%Z ->
  Forall (fun e => 0 <= fst (fst e) < n /\ 0 <= snd (fst e) < n)%Z es -> legal (length es) c1 -> legal (length es) c2 ->
  exists i o, convert_coo L O weighted (coo_transpose c) c1 = Ok i /\ convert_coo L O weighted c c2 = Ok o /\
    is_graph O o n (Z.of_nat (length es)) (succs (pairs es)) /\ is_graph O i n (Z.of_nat (length es)) (preds (pairs es)) /\
    (weighted = true -> has_weights o n (wsuccs es) /\ has_weights i n (wpreds es)) /\
    cs_nrows o = co_nrows c /\ cs_ncols o = co_ncols c /\ cs_nrows i = co_nrows c /\ cs_ncols i = co_ncols c.
Proof.
  intros HL HO Hh Hw Hn H0 Hr Hm HF HC1 HC2.
  assert (ELs : length (map swap3 es) = length es) by apply map_length.
  destruct (coo_graph L O weighted (coo_transpose c) (map swap3 es) n c1) as (i & ir & Ei & _ & _ & GI & WI); auto.
  { apply transpose_holds. exact Hh. }
  { intros Hs. apply transpose_weights. auto. }
  { rewrite ELs. exact Hm. }
  { rewrite Forall_map. eapply Forall_impl; [|exact HF]. cbn [swap3 fst]. tauto. }
  { rewrite ELs. exact HC1. }
  destruct (coo_graph L O weighted c es n c2) as (o & orr & Eo & _ & _ & GO & WO); auto.
  { eapply Forall_impl; [|exact HF]. cbn beta. tauto. }
  destruct (C22_coo_to_csr L O weighted (coo_transpose c) (map swap3 es) n c1) as (i' & ? & Ei' & _ & _ & _ & I1 & I2 & _); auto.
  { apply transpose_holds. exact Hh. }
  { intros Hs. apply transpose_weights. auto. }
  { rewrite ELs. exact Hm. }
  { rewrite Forall_map. eapply Forall_impl; [|exact HF]. cbn [swap3 fst]. tauto. }
  { rewrite ELs. exact HC1. }
  destruct (C22_coo_to_csr L O weighted c es n c2) as (o' & ? & Eo' & _ & _ & _ & O1 & O2 & _); auto.
  { eapply Forall_impl; [|exact HF]. cbn beta. tauto. }
  assert (i' = i) by congruence. assert (o' = o) by congruence. subst i' o'.
  exists i, o. split; [exact Ei|]. split; [exact Eo|]. split; [exact GO|]. rewrite ELs in GI. split.
  - destruct GI as (G1 & G2 & G3). split; [exact G1|]. split; [exact G2|]. intros u Hu. destruct (G3 u Hu) as (ns & N1 & N2 & N3). exists ns.
    rewrite swap_preds in N2, N3. auto.
  - split; [|auto]. intros Hs. split; [auto|]. eapply has_weights_ext; [|exact (WI Hs)]. intros u. apply swap_wpreds.
Qed.

(** What [csr()], [csc()], [nrows()] and [ncols()] of a Matrix answer: row [u] of
    the CSR holds the columns of the entries in row [u], row [v] of the CSC the
    rows of the entries in column [v]; the dimensions are those of the CSR,
    converted to the ordinal type; the CSC has the same, unswapped. *)
Definition is_matrix {W : Type} (O : ity) (x : matrix W) (n m nr nc : Z) (ps : list (Z * Z)) : Prop :=
  is_graph O (mx_csr x) n m (succs ps) /\ is_graph O (mx_csc x) n m (preds ps) /\
  matrix_nrows O x = Some (wrap O nr) /\ matrix_ncols O x = Some (wrap O nc) /\
  cs_nrows (mx_csr x) = Some nr /\ cs_ncols (mx_csr x) = Some nc /\
  cs_nrows (mx_csc x) = Some nr /\ cs_ncols (mx_csc x) = Some nc.
Definition matrix_weights {W : Type} (x : matrix W) (n : Z) (es : list (Z * Z * W)) : Prop :=
  has_weights (mx_csr x) n (wsuccs es) /\ has_weights (mx_csc x) n (wpreds es).

Lemma matrix_of {W} L O (wm : option (wmode W)) pg fn d ch c1 c2 (c : coo W) es n nr nc :
  coo_open L O wm no_flags pg fn d AUTO ch = Ok c ->
  is_ity L -> is_ity O -> holds c es -> (is_some wm = true -> holds_weights c es) ->
  co_n c = Some n -> co_nrows c = Some nr -> co_ncols c = Some nc -> (0 <= n)%Z -> room L n -> (Z.of_nat (length es) <= imax O)%Z ->
  Forall (fun e => 0 <= fst (fst e) < n /\ 0 <= snd (fst e) < n)%Z es -> legal (length es) c1 -> legal (length es) c2 ->
  exists x, matrix_open L O wm pg fn d ch c1 c2 = Ok x /\ is_matrix O x n (Z.of_nat (length es)) nr nc (pairs es) /\
    (is_some wm = true -> matrix_weights x n es).
Proof.
  intros E HL HO Hh Hw Hn Hnr Hnc H0 Hr Hm HF HC1 HC2.
  destruct (both_directions L O (is_some wm) c es n c1 c2 HL HO Hh Hw Hn H0 Hr Hm HF HC1 HC2) as (i & o & Ei & Eo & G1 & G2 & GW & D1 & D2 & D3 & D4).
  exists (mkMatrix o i). unfold matrix_open, matrix_of_coo. rewrite E. cbn [bind]. rewrite Ei. cbn [bind]. rewrite Eo. cbn [bind].
  split; [reflexivity|]. unfold is_matrix, matrix_weights, matrix_nrows, matrix_ncols. cbn [mx_csr mx_csc]. rewrite D1, D2, D3, D4, Hnr, Hnc.
  split; [|exact GW]. repeat (split; [first [assumption|reflexivity]|]). reflexivity.
Qed.

(** ** From an edge list *)
Theorem C66_from_edge_list : forall L O f pg fn ch c1 c2,
  is_ity L -> is_ity O -> wf_el f -> labels_fit (imax L - 2) f -> (Z.of_nat (length (el_pairs f)) <= imax O)%Z ->
  off_page pg (el_text f) -> as_el AUTO fn (el_text f) -> 1 <= lc_T ch ->
  legal (length (el_pairs f)) c1 -> legal (length (el_pairs f)) c2 ->
  exists x : matrix unit, matrix_open L O None pg fn (Some (el_text f)) ch c1 c2 = Ok x /\
    is_matrix O x (vertices (el_pairs f)) (Z.of_nat (length (el_pairs f)))
      (1 + max_of (map fst (el_pairs f))) (1 + max_of (map snd (el_pairs f))) (el_pairs f).
Proof.
  intros L O f pg fn ch c1 c2 HL HO Hf Hfit Hm Hpg Hg HT HC1 HC2.
  pose proof (coo_unweighted L O f pg fn AUTO ch HL HO Hf Hfit Hm Hpg Hg HT) as E.
  assert (Hl : length (no_weights f) = length (el_pairs f)) by apply map_length.
  assert (Hes : pairs (triples f (no_weights f)) = el_pairs f) by (apply triples_pairs; exact Hl).
  assert (Hle : length (triples f (no_weights f)) = length (el_pairs f)) by (rewrite <- Hes; unfold pairs; symmetry; apply map_length).
  pose proof (imax_2 L HL) as H2. pose proof (vertices_le (imax L - 2) f ltac:(lia) Hfit) as Hv.
  pose proof (result_holds (None : option (wrd unit)) no_flags f (no_weights f)) as Hh. rewrite stored_no_flags in Hh.
  destruct (matrix_of L O None pg fn (Some (el_text f)) ch c1 c2 (el_result None no_flags f (no_weights f)) (triples f (no_weights f)) (vertices (el_pairs f))
    (1 + max_of (map fst (el_pairs f))) (1 + max_of (map snd (el_pairs f))) E HL HO Hh) as (x & Ex & HX & _).
  - discriminate.
  - apply result_n. exact Hl.
  - unfold el_result. cbn [co_nrows]. rewrite counted_no_flags. rewrite <- Hes. unfold pairs. rewrite map_map. reflexivity.
  - unfold el_result. cbn [co_ncols]. rewrite counted_no_flags. rewrite <- Hes. unfold pairs. rewrite map_map. reflexivity.
  - lia.
  - apply room_less. lia.
  - rewrite Hle. exact Hm.
  - apply below_triples; assumption.
  - rewrite Hle. exact HC1.
  - rewrite Hle. exact HC2.
  - exists x. split; [exact Ex|]. rewrite Hle, Hes in HX. exact HX.
Qed.
Print Assumptions C66_from_edge_list.

Theorem C66_from_weighted_edge_list : forall k L O f ws bc pg fn ch c1 c2,
  wf_kind k -> weights_are k f ws ->
  is_ity L -> is_ity O -> wf_el f -> labels_fit (imax L - 2) f -> (Z.of_nat (length (el_pairs f)) <= imax O)%Z ->
  off_page pg (el_text f) -> as_el AUTO fn (el_text f) -> 1 <= lc_T ch ->
  legal (length (el_pairs f)) c1 -> legal (length (el_pairs f)) c2 ->
  exists x, matrix_open L O (Some (mkWmode _ (wreader k) bc)) pg fn (Some (el_text f)) ch c1 c2 = Ok x /\
    is_matrix O x (vertices (el_pairs f)) (Z.of_nat (length (el_pairs f)))
      (1 + max_of (map fst (el_pairs f))) (1 + max_of (map snd (el_pairs f))) (el_pairs f) /\
    matrix_weights x (vertices (el_pairs f)) (triples f ws).
Proof.
  intros k L O f ws bc pg fn ch c1 c2 Hk Hw HL HO Hf Hfit Hm Hpg Hg HT HC1 HC2.
  pose proof (coo_weighted k L O f ws bc pg fn AUTO ch Hk Hw HL HO Hf Hfit Hm Hpg Hg HT) as E.
  pose proof (weights_pairs_len k f ws Hw) as Hl.
  assert (Hes : pairs (triples f ws) = el_pairs f) by (apply triples_pairs; exact Hl).
  assert (Hle : length (triples f ws) = length (el_pairs f)) by (rewrite <- Hes; unfold pairs; symmetry; apply map_length).
  pose proof (imax_2 L HL) as H2. pose proof (vertices_le (imax L - 2) f ltac:(lia) Hfit) as Hv.
  pose proof (result_holds (Some (wreader k)) no_flags f ws) as Hh. rewrite stored_no_flags in Hh.
  pose proof (result_weights (wreader k) no_flags f ws) as Hhw. rewrite stored_no_flags in Hhw.
  destruct (matrix_of L O (Some (mkWmode _ (wreader k) bc)) pg fn (Some (el_text f)) ch c1 c2 (el_result (Some (wreader k)) no_flags f ws) (triples f ws) (vertices (el_pairs f))
    (1 + max_of (map fst (el_pairs f))) (1 + max_of (map snd (el_pairs f))) E HL HO Hh) as (x & Ex & HX & HW).
  - intros _. exact Hhw.
  - apply result_n. exact Hl.
  - unfold el_result. cbn [co_nrows]. rewrite counted_no_flags. rewrite <- Hes. unfold pairs. rewrite map_map. reflexivity.
  - unfold el_result. cbn [co_ncols]. rewrite counted_no_flags. rewrite <- Hes. unfold pairs. rewrite map_map. reflexivity.
  - lia.
  - apply room_less. lia.
  - rewrite Hle. exact Hm.
  - apply below_triples; assumption.
  - rewrite Hle. exact HC1.
  - rewrite Hle. exact HC2.
  - exists x. split; [exact Ex|]. rewrite Hle, Hes in HX. split; [exact HX|apply HW; reflexivity].
Qed.
Print Assumptions C66_from_weighted_edge_list.

(** ** From a Matrix Market file

    Its header tells the truth, and everything fits the types. *)
Record honest (L O : ity) (f : mm_file) : Prop := {
  ho_n : (1 + Z.max (dval (mm_r f)) (dval (mm_c f)) < imax L)%Z;
  ho_z : (dval (mm_z f) <= imax O)%Z;
  ho_lab : labels_fit (imax L - 1) (mm_body f);
  ho_count : dval (mm_z f) = Z.of_nat (length (el_pairs (mm_body f)));
  ho_dims : Forall (fun p => fst p <= dval (mm_r f) /\ snd p <= dval (mm_c f))%Z (el_pairs (mm_body f))
}.

Lemma triples_bound {W} L O f (ws : list W) : wf_mm f -> honest L O f ->
  Forall (fun e => 0 <= fst (fst e) < 1 + Z.max (dval (mm_r f)) (dval (mm_c f)) /\
                   0 <= snd (fst e) < 1 + Z.max (dval (mm_r f)) (dval (mm_c f)))%Z (triples (mm_body f) ws).
Proof.
  intros Hf [H1 H2 H3 H4 H5]. pose proof (mm_pairs_nonneg f Hf) as HN. unfold triples. rewrite Forall_map. cbn [fst snd].
  apply Forall_forall. intros [p w] Hp. apply in_combine_l in Hp. cbn [fst snd]. rewrite Forall_forall in HN, H5. specialize (HN p Hp). specialize (H5 p Hp). cbn beta in HN, H5. lia.
Qed.

Lemma mm_weighted k L O f ws bc pg fn ft ch :
  wf_kind k -> weights_are k (mm_body f) ws ->
  is_ity L -> is_ity O -> wf_mm f -> off_page pg (mm_text f) -> as_mm ft fn -> 1 <= lc_T ch -> honest L O f ->
  exists c, coo_open L O (Some (mkWmode _ (wreader k) bc)) no_flags pg fn (Some (mm_text f)) ft ch = Ok c /\
    holds c (triples (mm_body f) ws) /\ holds_weights c (triples (mm_body f) ws) /\ dims c (dval (mm_r f) + 1) (dval (mm_c f) + 1).
Proof.
  intros Hk Hw HL HO Hf Hpg Hg HT [H1 H2 H3 H4 H5]. pose proof (weights_pairs_len k (mm_body f) ws Hw) as Hl.
  assert (Hle : length (triples (mm_body f) ws) = length (el_pairs (mm_body f))).
  { rewrite <- (triples_pairs (mm_body f) ws Hl). unfold pairs. symmetry. apply map_length. }
  destruct (C33_matrix_market_weighted k L O no_flags f ws bc pg fn ft ch Hk Hw HL HO Hf Hpg Hg HT) as [HA _].
  { left. apply keeps_all. }
  { unfold mm_fits. rewrite stored_no_flags, Hle. repeat split; try assumption; try lia. discriminate. }
  rewrite stored_no_flags in HA. apply HA. unfold mm_believed. rewrite stored_no_flags, counted_no_flags, Hle. cbn [no_flags f_sym f_sl]. split; [|exact H4].
  unfold triples. rewrite Forall_map. cbn [fst snd]. apply Forall_forall. intros [p w] Hp. apply in_combine_l in Hp. rewrite Forall_forall in H5. exact (H5 p Hp).
Qed.

Lemma mm_unweighted L O f pg fn ft ch :
  is_ity L -> is_ity O -> wf_mm f -> off_page pg (mm_text f) -> as_mm ft fn -> 1 <= lc_T ch -> honest L O f ->
  exists c : coo unit, coo_open L O None no_flags pg fn (Some (mm_text f)) ft ch = Ok c /\
    holds c (triples (mm_body f) (no_weights (mm_body f))) /\ dims c (dval (mm_r f) + 1) (dval (mm_c f) + 1).
Proof.
  intros HL HO Hf Hpg Hg HT [H1 H2 H3 H4 H5].
  destruct (C33_plain L O f pg fn ft ch HL HO Hf Hpg Hg HT) as [HA _].
  { unfold mm_fits. rewrite stored_no_flags, map_length. repeat split; try assumption; try lia. discriminate. }
  rewrite triples_no_weights. apply HA. split; [rewrite H4; unfold el_pairs; rewrite map_length; reflexivity|exact H5].
Qed.

Lemma mm_dim_nonneg f : wf_mm f -> (0 <= 1 + Z.max (dval (mm_r f)) (dval (mm_c f)))%Z.
Proof. intros (_ & _ & Wr & _). pose proof (dval_nonneg _ (proj2 Wr)). lia. Qed.

(** With weights: what a CSR, a DiGraph and a Matrix read from the same file
    answer. *)
Theorem C59_weighted_matrix_market : forall k L O f ws bc pg fn ft ch ch2 c1 c2,
  wf_kind k -> weights_are k (mm_body f) ws ->
  is_ity L -> is_ity O -> wf_mm f -> off_page pg (mm_text f) -> as_mm ft fn -> 1 <= lc_T ch -> honest L O f ->
  let ps := el_pairs (mm_body f) in
  let es := triples (mm_body f) ws in
  let n := (1 + Z.max (dval (mm_r f)) (dval (mm_c f)))%Z in
  legal (length ps) (lc_conv ch) -> legal (length ps) c1 -> legal (length ps) c2 ->
  (exists c, csr_open L O (Some (mkWmode _ (wreader k) bc)) pg fn (Some (mm_text f)) ft ch = Ok c /\
     is_graph O c n (Z.of_nat (length ps)) (succs ps) /\ has_weights c n (wsuccs es)) /\
  (exists i o, digraph_open L O (Some (mkWmode _ (wreader k) bc)) pg fn (Some (mm_text f)) ft ch ch2 c1 c2 = Ok (i, o) /\
     is_graph O o n (Z.of_nat (length ps)) (succs ps) /\ is_graph O i n (Z.of_nat (length ps)) (preds ps) /\
     has_weights o n (wsuccs es) /\ has_weights i n (wpreds es)).
Proof.
  intros k L O f ws bc pg fn ft ch ch2 c1 c2 Hk Hw HL HO Hf Hpg Hg HT HH ps es n HC HC1 HC2.
  destruct (mm_weighted k L O f ws bc pg fn ft ch Hk Hw HL HO Hf Hpg Hg HT HH) as (c & E & Hh & Hhw & Hd1 & Hd2 & Hd3).
  pose proof (weights_pairs_len k (mm_body f) ws Hw) as Hl. pose proof (triples_pairs (mm_body f) ws Hl) as Hes. fold ps es in Hes, Hh, Hhw.
  assert (Hle : length es = length ps) by (rewrite <- Hes; unfold pairs; symmetry; apply map_length).
  pose proof (triples_bound L O f ws Hf HH) as HB. pose proof HH as [H1 H2 H3 H4 H5]. fold es n in HB. fold ps in H4.
  assert (Hn : co_n c = Some n) by (rewrite Hd3; f_equal; subst n; lia). pose proof (mm_dim_nonneg f Hf) as H0. fold n in H0, H1.
  destruct (both_directions L O true c es n c1 c2 HL HO Hh (fun _ => Hhw) Hn H0 (room_less L n H1)) as (i & o & Ei & Eo & G1 & G2 & GW & _); try (rewrite Hle; assumption).
  { rewrite Hle; lia. } { exact HB. }
  split.
  - rewrite (csr_via L O _ _ pg fn ft ch _ MATRIX_MARKET (mm_ne f) (mm_detect pg fn f ft Hg) (or_intror eq_refl) E).
    destruct (coo_graph L O true c es n (lc_conv ch) HL HO Hh (fun _ => Hhw) Hn H0 (room_less L n H1)) as (r & rows & Er & _ & _ & G & GW'); try (rewrite Hle; assumption).
    { rewrite Hle; lia. } { eapply Forall_impl; [|exact HB]. cbn beta. tauto. }
    exists r. rewrite Hes, Hle in G. split; [exact Er|]. split; [exact G|apply GW'; reflexivity].
  - rewrite (digraph_via L O _ _ pg fn ft ch ch2 c1 c2 _ MATRIX_MARKET (mm_ne f) (mm_detect pg fn f ft Hg) ltac:(discriminate) E).
    rewrite Hes, Hle in G1, G2. destruct (GW eq_refl) as (W1 & W2). exists i, o. unfold digraph_of_coo. cbn [is_some]. rewrite Ei. cbn [bind]. rewrite Eo. cbn [bind]. auto 6.
Qed.
Print Assumptions C59_weighted_matrix_market.

Theorem C59_digraph_from_matrix_market : forall L O f pg fn ft ch ch2 c1 c2,
  is_ity L -> is_ity O -> wf_mm f -> off_page pg (mm_text f) -> as_mm ft fn -> 1 <= lc_T ch -> honest L O f ->
  let ps := el_pairs (mm_body f) in
  let n := (1 + Z.max (dval (mm_r f)) (dval (mm_c f)))%Z in
  legal (length ps) c1 -> legal (length ps) c2 ->
  exists i o : csr unit, digraph_open L O None pg fn (Some (mm_text f)) ft ch ch2 c1 c2 = Ok (i, o) /\
    is_graph O o n (Z.of_nat (length ps)) (succs ps) /\ is_graph O i n (Z.of_nat (length ps)) (preds ps).
Proof.
  intros L O f pg fn ft ch ch2 c1 c2 HL HO Hf Hpg Hg HT HH ps n HC1 HC2.
  destruct (mm_unweighted L O f pg fn ft ch HL HO Hf Hpg Hg HT HH) as (c & E & Hh & Hd1 & Hd2 & Hd3).
  set (es := triples (mm_body f) (no_weights (mm_body f))) in *.
  assert (Hl : length (no_weights (mm_body f)) = length ps) by apply map_length. pose proof (triples_pairs (mm_body f) _ Hl) as Hes. fold ps es in Hes.
  assert (Hle : length es = length ps) by (rewrite <- Hes; unfold pairs; symmetry; apply map_length).
  pose proof (triples_bound L O f (no_weights (mm_body f)) Hf HH) as HB. pose proof HH as [H1 H2 H3 H4 H5]. fold es n in HB. fold ps in H4.
  assert (Hn : co_n c = Some n) by (rewrite Hd3; f_equal; subst n; lia). pose proof (mm_dim_nonneg f Hf) as H0. fold n in H0, H1.
  destruct (both_directions L O false c es n c1 c2 HL HO Hh ltac:(discriminate) Hn H0 (room_less L n H1)) as (i & o & Ei & Eo & G1 & G2 & _); try (rewrite Hle; assumption).
  { rewrite Hle; lia. } { exact HB. }
  rewrite (digraph_via L O _ _ pg fn ft ch ch2 c1 c2 _ MATRIX_MARKET (mm_ne f) (mm_detect pg fn f ft Hg) ltac:(discriminate) E).
  rewrite Hes, Hle in G1, G2. exists i, o. unfold digraph_of_coo. cbn [is_some]. rewrite Ei. cbn [bind]. rewrite Eo. cbn [bind]. auto 6.
Qed.
Print Assumptions C59_digraph_from_matrix_market.

Theorem C66_from_matrix_market : forall L O f pg fn ch c1 c2,
  is_ity L -> is_ity O -> wf_mm f -> off_page pg (mm_text f) -> ends_in fn (chars ".mtx") -> 1 <= lc_T ch -> honest L O f ->
  let ps := el_pairs (mm_body f) in
  legal (length ps) c1 -> legal (length ps) c2 ->
  exists x : matrix unit, matrix_open L O None pg fn (Some (mm_text f)) ch c1 c2 = Ok x /\
    is_matrix O x (1 + Z.max (dval (mm_r f)) (dval (mm_c f))) (Z.of_nat (length ps)) (dval (mm_r f) + 1) (dval (mm_c f) + 1) ps.
Proof.
  intros L O f pg fn ch c1 c2 HL HO Hf Hpg Hg HT HH ps HC1 HC2.
  destruct (mm_unweighted L O f pg fn AUTO ch HL HO Hf Hpg (or_intror (conj eq_refl Hg)) HT HH) as (c & E & Hh & Hd1 & Hd2 & Hd3).
  set (es := triples (mm_body f) (no_weights (mm_body f))) in *.
  assert (Hl : length (no_weights (mm_body f)) = length ps) by apply map_length. pose proof (triples_pairs (mm_body f) _ Hl) as Hes. fold ps es in Hes.
  assert (Hle : length es = length ps) by (rewrite <- Hes; unfold pairs; symmetry; apply map_length).
  pose proof (triples_bound L O f (no_weights (mm_body f)) Hf HH) as HB. pose proof HH as [H1 H2 H3 H4 H5]. fold es in HB. fold ps in H4.
  set (n := (1 + Z.max (dval (mm_r f)) (dval (mm_c f)))%Z) in *.
  assert (Hn : co_n c = Some n) by (rewrite Hd3; f_equal; subst n; lia). pose proof (mm_dim_nonneg f Hf) as H0. fold n in H0.
  destruct (matrix_of L O None pg fn (Some (mm_text f)) ch c1 c2 c es n _ _ E HL HO Hh ltac:(discriminate) Hn Hd1 Hd2 H0 (room_less L n H1)) as (x & Ex & HX & _);
    try (rewrite Hle; assumption).
  { rewrite Hle; lia. } { exact HB. }
  exists x. rewrite Hes, Hle in HX. auto.
Qed.
Print Assumptions C66_from_matrix_market.

Theorem C66_from_weighted_matrix_market : forall k L O f ws bc pg fn ch c1 c2,
  wf_kind k -> weights_are k (mm_body f) ws ->
  is_ity L -> is_ity O -> wf_mm f -> off_page pg (mm_text f) -> ends_in fn (chars ".mtx") -> 1 <= lc_T ch -> honest L O f ->
  let ps := el_pairs (mm_body f) in
  let n := (1 + Z.max (dval (mm_r f)) (dval (mm_c f)))%Z in
  legal (length ps) c1 -> legal (length ps) c2 ->
  exists x, matrix_open L O (Some (mkWmode _ (wreader k) bc)) pg fn (Some (mm_text f)) ch c1 c2 = Ok x /\
    is_matrix O x n (Z.of_nat (length ps)) (dval (mm_r f) + 1) (dval (mm_c f) + 1) ps /\ matrix_weights x n (triples (mm_body f) ws).
Proof.
  intros k L O f ws bc pg fn ch c1 c2 Hk Hw HL HO Hf Hpg Hg HT HH ps n HC1 HC2.
  destruct (mm_weighted k L O f ws bc pg fn AUTO ch Hk Hw HL HO Hf Hpg (or_intror (conj eq_refl Hg)) HT HH) as (c & E & Hh & Hhw & Hd1 & Hd2 & Hd3).
  set (es := triples (mm_body f) ws) in *.
  pose proof (weights_pairs_len k (mm_body f) ws Hw) as Hl. pose proof (triples_pairs (mm_body f) _ Hl) as Hes. fold ps es in Hes.
  assert (Hle : length es = length ps) by (rewrite <- Hes; unfold pairs; symmetry; apply map_length).
  pose proof (triples_bound L O f ws Hf HH) as HB. pose proof HH as [H1 H2 H3 H4 H5]. fold es n in HB. fold ps in H4.
  assert (Hn : co_n c = Some n) by (rewrite Hd3; f_equal; subst n; lia). pose proof (mm_dim_nonneg f Hf) as H0. fold n in H0, H1.
  destruct (matrix_of L O (Some (mkWmode _ (wreader k) bc)) pg fn (Some (mm_text f)) ch c1 c2 c es n _ _ E HL HO Hh (fun _ => Hhw) Hn Hd1 Hd2 H0 (room_less L n H1)) as (x & Ex & HX & HW);
    try (rewrite Hle; assumption).
  { rewrite Hle; lia. } { exact HB. }
  exists x. rewrite Hes, Hle in HX. auto.
Qed.
Print Assumptions C66_from_weighted_matrix_market.

(** ** From an adjacency file

    The arcs: [(u, v)] for every [v] in row [u]. *)
Fixpoint arcs_from (u : nat) (rows : list (list Z)) : list (Z * Z) :=
  match rows with [] => [] | r :: rs => map (fun v => (Z.of_nat u, v)) r ++ arcs_from (S u) rs end.
Definition arcs (rows : list (list Z)) : list (Z * Z) := arcs_from 0 rows.

Lemma arcs_entries rows : pairs (entries (unweighted rows)) = arcs rows.
Proof.
  unfold entries, arcs, unweighted, pairs. generalize 0 as u. induction rows as [|r rows IH]; intros u; [reflexivity|].
  cbn [map entries_from arcs_from]. rewrite map_app, IH, !map_map. reflexivity.
Qed.

Lemma entries_bound (rows : list (list Z)) n : Forall (fun v => 0 <= v < n)%Z (concat rows) -> n = Z.of_nat (length rows) ->
  Forall (fun e => 0 <= fst (fst e) < n /\ 0 <= snd (fst e) < n)%Z (entries (unweighted rows)).
Proof.
  intros HF Hn. unfold entries. assert (G : forall u (rws : list (list Z)), Forall (fun v => 0 <= v < n)%Z (concat rws) -> (Z.of_nat (u + length rws) <= n)%Z ->
    Forall (fun e => 0 <= fst (fst e) < n /\ 0 <= snd (fst e) < n)%Z (entries_from u (unweighted rws))).
  { intros u rws. revert u. induction rws as [|r rws IH]; intros u H Hl; [constructor|]. cbn [unweighted map entries_from concat length] in *.
    apply Forall_app in H as (H1 & H2). apply Forall_app. split; [|apply IH; [exact H2|lia]].
    rewrite map_map. apply Forall_forall. intros e He. apply in_map_iff in He as (v & <- & Hv). rewrite Forall_forall in H1. specialize (H1 v Hv). cbn [fst snd]. lia. }
  apply G; [exact HF|]. cbn [Nat.add]. lia.
Qed.

Lemma adj_coo L O f pg fn ft ch :
  is_ity L -> is_ity O -> wf_adj f -> off_page pg (adj_text f) -> as_graph ft fn (adj_text f) -> graph_fits L O f ->
  0 < gc_T (lc_graph ch) -> has_zero (a_body f) ->
  let rows := adj_rows (a_body f) in
  (Z.of_nat (length (concat rows)) <= imax L)%Z -> dval (a_n f) = Z.of_nat (length rows) ->
  (Z.of_nat (length (concat rows)) = dval (a_m f) \/ Z.of_nat (length (concat rows)) = 2 * dval (a_m f))%Z ->
  Permutation (concat (lc_parts ch)) (seq 0 (length rows)) -> Forall (fun v => 0 <= v < Z.of_nat (length rows))%Z (concat rows) ->
  forall c1 c2, legal (length (concat rows)) c1 -> legal (length (concat rows)) c2 ->
  exists (c : coo unit) (i o : csr unit), coo_open L O None no_flags pg fn (Some (adj_text f)) ft ch = Ok c /\
    convert_coo L O false (coo_transpose c) c1 = Ok i /\ convert_coo L O false c c2 = Ok o /\
    is_graph O o (Z.of_nat (length rows)) (Z.of_nat (length (concat rows))) (succs (arcs rows)) /\
    is_graph O i (Z.of_nat (length rows)) (Z.of_nat (length (concat rows))) (preds (arcs rows)) /\
    cs_nrows o = co_nrows c /\ cs_ncols o = co_ncols c.
Proof.
  intros HL HO Hf Hpg Hg Hfit HT Hz rows HmL Hn Hm HP HB c1 c2 HC1 HC2.
  destruct (C34_coo L O f pg fn ft ch HL HO Hf Hpg Hg Hfit HT Hz HmL Hn Hm HP) as (c & E & Hh & Hcn). fold rows in Hh, Hcn.
  assert (Hle : length (entries (unweighted rows)) = length (concat rows)).
  { unfold entries. rewrite entries_length, unweighted_concat, map_length. reflexivity. }
  destruct Hfit as (F1 & F2 & F3 & F4 & F5). fold rows in F3, F4.
  assert (Hr : room L (Z.of_nat (length rows))) by (destruct F3 as [G1 G2]; split; [lia|destruct G2; [left; assumption|right; lia]]).
  destruct (both_directions L O false c (entries (unweighted rows)) (Z.of_nat (length rows)) c1 c2 HL HO Hh ltac:(discriminate) Hcn ltac:(lia) Hr)
    as (i & o & Ei & Eo & G1 & G2 & _ & D1 & D2 & _); try (rewrite Hle; assumption).
  { apply entries_bound; [exact HB|reflexivity]. }
  rewrite arcs_entries, Hle in G1, G2. exists c, i, o. auto 8.
Qed.

Theorem C59_digraph_from_adjacency : forall L O f pg fn ft ch ch2 c1 c2,
  is_ity L -> is_ity O -> wf_adj f -> off_page pg (adj_text f) -> as_graph ft fn (adj_text f) -> graph_fits L O f ->
  0 < gc_T (lc_graph ch) -> has_zero (a_body f) ->
  let rows := adj_rows (a_body f) in
  (Z.of_nat (length (concat rows)) <= imax L)%Z -> dval (a_n f) = Z.of_nat (length rows) ->
  (Z.of_nat (length (concat rows)) = dval (a_m f) \/ Z.of_nat (length (concat rows)) = 2 * dval (a_m f))%Z ->
  Permutation (concat (lc_parts ch)) (seq 0 (length rows)) -> Forall (fun v => 0 <= v < Z.of_nat (length rows))%Z (concat rows) ->
  legal (length (concat rows)) c1 -> legal (length (concat rows)) c2 ->
  exists i o : csr unit, digraph_open L O None pg fn (Some (adj_text f)) ft ch ch2 c1 c2 = Ok (i, o) /\
    is_graph O o (Z.of_nat (length rows)) (Z.of_nat (length (concat rows))) (succs (arcs rows)) /\
    is_graph O i (Z.of_nat (length rows)) (Z.of_nat (length (concat rows))) (preds (arcs rows)).
Proof.
  intros L O f pg fn ft ch ch2 c1 c2 HL HO Hf Hpg Hg Hfit HT Hz rows HmL Hn Hm HP HB HC1 HC2.
  destruct (adj_coo L O f pg fn ft ch HL HO Hf Hpg Hg Hfit HT Hz HmL Hn Hm HP HB c1 c2 HC1 HC2) as (c & i & o & E & Ei & Eo & G1 & G2 & _).
  pose proof (adj_text_ne f Hf) as Hne.
  rewrite (digraph_via L O None _ pg fn ft ch ch2 c1 c2 _ GRAPH Hne (graph_detect pg fn _ ft Hne Hg) ltac:(discriminate) E).
  exists i, o. unfold digraph_of_coo. cbn [is_some]. rewrite Ei. cbn [bind]. rewrite Eo. cbn [bind]. auto.
Qed.
Print Assumptions C59_digraph_from_adjacency.

(** [succs (arcs rows) u] is row [u]. *)
Theorem C59_adjacency_rows : forall rows u r, nth_error rows u = Some r -> succs (arcs rows) (Z.of_nat u) = r.
Proof.
  intros rows u r H. unfold arcs, succs. assert (G : forall rows k u r, nth_error rows u = Some r ->
    map snd (filter (fun p => (fst p =? Z.of_nat (k + u))%Z) (arcs_from k rows)) = r).
  { clear. assert (Z0 : forall k a (rows : list (list Z)), k < a -> filter (fun p => (fst p =? Z.of_nat k)%Z) (arcs_from a rows) = []).
    { intros k a rows. revert a. induction rows as [|q rows IH]; intros a Ha; [reflexivity|]. cbn [arcs_from]. rewrite filter_app, IH by lia. rewrite app_nil_r.
      induction q as [|y q IHq]; [reflexivity|]. cbn [map filter fst]. destruct (Z.eqb_spec (Z.of_nat a) (Z.of_nat k)); [lia|]. exact IHq. }
    assert (Z1 : forall a b (q : list Z), map snd (filter (fun p => (fst p =? Z.of_nat a)%Z) (map (fun v => (Z.of_nat b, v)) q)) = if a =? b then q else []).
    { intros a b q. induction q as [|y q IH]; [destruct (a =? b); reflexivity|]. cbn [map filter fst].
      destruct (Z.eqb_spec (Z.of_nat b) (Z.of_nat a)) as [E|E].
      - cbn [map snd]. rewrite IH. destruct (Nat.eqb_spec a b); [reflexivity|lia].
      - rewrite IH. destruct (Nat.eqb_spec a b); [lia|reflexivity]. }
    induction rows as [|q rows IH]; intros k u r H; [destruct u; discriminate|]. cbn [arcs_from]. rewrite filter_app, map_app, Z1. destruct u as [|u].
    - cbn in H. injection H as ->. rewrite Z0 by lia. cbn [map]. rewrite app_nil_r. destruct (Nat.eqb_spec (k + 0) k); [reflexivity|lia].
    - cbn [nth_error] in H. replace (k + S u) with (S k + u) by lia. rewrite (IH (S k) u r H). destruct (Nat.eqb_spec (S k + u) k); [lia|reflexivity]. }
  exact (G rows 0 u r H).
Qed.
Print Assumptions C59_adjacency_rows.

(** ** The dimensions of a Matrix that was not read from a list of entries

    A COO built from a CSR has no dimensions (C27); the Matrix takes them from
    the COO. *)
Lemma convert_dims {W} L O weighted (c : coo W) ch r : convert_coo L O weighted c ch = Ok r -> cs_nrows r = co_nrows c /\ cs_ncols r = co_ncols c.
Proof.
  unfold convert_coo. destruct (co_n c) as [n|]; [|discriminate]. cbn zeta. intros H.
  apply bind_ok_inv in H as ([[e w] o] & _ & H). destruct (n <? 0)%Z; [discriminate|].
  apply bind_ok_inv in H as (incs & _ & H). apply bind_ok_inv in H as (degs & _ & H). apply bind_ok_inv in H as (off & _ & H).
  apply bind_ok_inv in H as (st & _ & H). injection H as <-. split; reflexivity.
Qed.

Theorem C66_no_dimensions : forall {W} L O (wm : option (wmode W)) pg fn s ch c1 c2 x,
  begins s (chars "PIGO-CSR-v2") \/ as_graph AUTO fn s -> matrix_open L O wm pg fn (Some s) ch c1 c2 = Ok x ->
  matrix_nrows O x = None /\ matrix_ncols O x = None.
Proof.
  intros W L O wm pg fn s ch c1 c2 x Hg H. unfold matrix_open in H. apply bind_ok_inv in H as (c & E & H).
  assert (Hs : s <> []) by (intros ->; cbn in E; discriminate).
  assert (HC : co_nrows c = None /\ co_ncols c = None).
  { unfold coo_open in E. rewrite open_reading in E by exact Hs. cbn [bind] in E. apply bind_ok_inv in E as ([c' f'] & E & H'). injection H' as ->.
    unfold coo_read in E. assert (HU : exists t, used (reading s pg fn []) AUTO = Ok t /\ (t = PIGO_CSR_BIN \/ t = GRAPH)).
    { destruct Hg as [Hg|Hg].
      - exists PIGO_CSR_BIN. split; [|left; reflexivity]. destruct (C21_detection pg fn s Hs) as (g & Eg & _ & HD & _). rewrite open_reading in Eg by exact Hs.
        injection Eg as <-. exact (HD Hg).
      - exists GRAPH. split; [apply graph_detect; assumption|right; reflexivity]. }
    destruct HU as (t & HU & Ht). rewrite HU in E. cbn [bind] in E.
    assert (G : exists q g, convert_csr O no_flags (is_some wm) q (lc_parts ch) (lc_back ch) = Ok c /\ g = f').
    { destruct Ht as [-> | ->]; apply bind_ok_inv in E as ([q g] & _ & E); apply bind_ok_inv in E as (r & E & E'); injection E' as -> ->; eauto. }
    destruct G as (q & g & G & _). destruct (C27_dimensions_unassigned _ _ _ _ _ _ _ G) as (D1 & D2 & _). auto. }
  unfold matrix_of_coo in H. apply bind_ok_inv in H as (cc & _ & H). apply bind_ok_inv in H as (cr & E2 & H). injection H as <-.
  destruct (convert_dims _ _ _ _ _ _ E2) as (D1 & D2). destruct HC as (C1 & C2). unfold matrix_nrows, matrix_ncols. cbn [mx_csr].
  rewrite D1, D2, C1, C2. split; reflexivity.
Qed.
Print Assumptions C66_no_dimensions.

(** A Matrix cannot be read from a saved DiGraph or Tensor. *)
Theorem C66_rejected : forall {W} L O (wm : option (wmode W)) pg fn s ch c1 c2,
  begins s (chars "PIGO-DiGraph-v1") \/ begins s (chars "PIGO-Tensor-2") ->
  matrix_open L O wm pg fn (Some s) ch c1 c2 = Throw ENotYetImplemented.
Proof.
  intros W L O wm pg fn s ch c1 c2 Hg. assert (Hs : s <> []).
  { intros ->. destruct Hg as [(b & r & E)|(b & r & E)]; discriminate. }
  destruct (C21_detection pg fn s Hs) as (g & Eg & _ & _ & HD & HT & _). rewrite open_reading in Eg by exact Hs. injection Eg as <-.
  unfold matrix_open, coo_open. rewrite open_reading by exact Hs. cbn [bind]. unfold coo_read. cbn [used].
  destruct Hg as [Hg|Hg]; [rewrite (HD Hg)|rewrite (HT Hg)]; reflexivity.
Qed.
Print Assumptions C66_rejected.

(** ** Concrete cases

    The edge list "0 2", "2 1", "0 2", "2 2", on two threads. *)
Example C66_edge_list_applies : exists x : matrix unit,
  matrix_open u8 u32 None 64 (chars "g.el") (Some (el_text ex_pf)) ex_pch ex_pconv ex_pconv = Ok x /\
  is_matrix u32 x 3 4 3 3 [(0, 2); (2, 1); (0, 2); (2, 2)]%Z.
Proof.
  destruct ex_pf_ok as (H1 & H2 & H3 & H4 & H5 & _ & _). assert (H8 : is_ity u8) by (cbn; auto). assert (H32 : is_ity u32) by (cbn; auto).
  assert (Hm : (Z.of_nat (length (el_pairs ex_pf)) <= imax u32)%Z) by (vm_compute; discriminate).
  exact (C66_from_edge_list u8 u32 ex_pf 64 (chars "g.el") ex_pch ex_pconv ex_pconv H8 H32 H1 H2 Hm H3 H4 ltac:(cbn; lia) H5 H5).
Qed.

(** A weighted edge list: "1 2 -12", "3 0 7", "2 2 4". *)
Definition ex_mconv : cchoice := mkChoice 2 1 [[0]; [2; 1]] [[2]; [0; 1]] [1] [0; 1] [1; 0; 1].
Lemma ex_mconv_legal : legal 3 ex_mconv.
Proof.
  unfold legal. cbn [ch_T ch_single ch_parts1 ch_parts2 ex_mconv concat app]. split; [cbn; lia|]. split; [cbn; lia|].
  split; (apply NoDup_Permutation; [repeat constructor; cbn; intuition discriminate|apply seq_NoDup|intros x; cbn; intuition]).
Qed.
Example C66_weighted_applies : exists x,
  matrix_open u32 u32 (Some (mkWmode _ (wreader (WSigned i32)) (cint i32))) 4096 (chars "g.el") (Some (el_text ex_elw)) ex_pch ex_mconv ex_mconv = Ok x /\
  is_matrix u32 x 4 3 4 3 [(1, 2); (3, 0); (2, 2)]%Z /\ matrix_weights x 4 [(1, 2, -12); (3, 0, 7); (2, 2, 4)]%Z.
Proof.
  assert (H32 : is_ity u32) by (cbn; auto). assert (EP : el_pairs ex_elw = [(1, 2); (3, 0); (2, 2)]%Z) by reflexivity.
  assert (Hk : wf_kind (WSigned i32)) by (split; [cbn; tauto|reflexivity]).
  assert (Hm : (Z.of_nat (length (el_pairs ex_elw)) <= imax u32)%Z) by (vm_compute; discriminate).
  assert (Hf : labels_fit (imax u32 - 2) ex_elw) by (unfold labels_fit; rewrite EP; repeat constructor; vm_compute; discriminate).
  assert (Hg : as_el AUTO (chars "g.el") (el_text ex_elw)).
  { right. split; [reflexivity|]. split; [intros (b & r & E); discriminate|].
    split; intros (a & E); apply (f_equal (@rev _)) in E; rewrite rev_app_distr in E; discriminate. }
  exact (C66_from_weighted_edge_list (WSigned i32) u32 u32 ex_elw _ (cint i32) 4096 (chars "g.el") ex_pch ex_mconv ex_mconv Hk ex_elw_weights H32 H32 ex_elw_wf Hf Hm
    ex_elw_off Hg ltac:(cbn; lia) ex_mconv_legal ex_mconv_legal).
Qed.

(** A Matrix Market file, "3 3 3". *)
Lemma ex_mm_honest : honest u8 u16 ex_mm.
Proof.
  assert (EP : el_pairs (mm_body ex_mm) = [(1, 2); (3, 3); (2, 1)]%Z) by reflexivity.
  constructor; [vm_compute; reflexivity|vm_compute; discriminate|unfold labels_fit; rewrite EP; repeat constructor; vm_compute; discriminate|reflexivity|].
  rewrite EP. repeat constructor; vm_compute; discriminate.
Qed.
Example C66_matrix_market_applies :
  (exists x : matrix unit, matrix_open u8 u16 None 64 (chars "a.mtx") (Some (mm_text ex_mm)) ex_mm_teams ex_mconv ex_mconv = Ok x /\
     is_matrix u16 x 4 3 4 4 [(1, 2); (3, 3); (2, 1)]%Z) /\
  (exists i o : csr unit, digraph_open u8 u16 None 64 (chars "a.mtx") (Some (mm_text ex_mm)) AUTO ex_mm_teams ex_mm_teams ex_mconv ex_mconv = Ok (i, o) /\
     is_graph u16 o 4 3 (succs [(1, 2); (3, 3); (2, 1)]%Z) /\ is_graph u16 i 4 3 (preds [(1, 2); (3, 3); (2, 1)]%Z)).
Proof.
  assert (H8 : is_ity u8) by (cbn; auto). assert (H16 : is_ity u16) by (cbn; auto).
  assert (He : ends_in (chars "a.mtx") (chars ".mtx")) by (exists (chars "a"); reflexivity).
  split.
  - exact (C66_from_matrix_market u8 u16 ex_mm 64 (chars "a.mtx") ex_mm_teams ex_mconv ex_mconv H8 H16 ex_mm_wf ex_mm_off He ltac:(cbn; lia) ex_mm_honest ex_mconv_legal ex_mconv_legal).
  - exact (C59_digraph_from_matrix_market u8 u16 ex_mm 64 (chars "a.mtx") AUTO ex_mm_teams ex_mm_teams ex_mconv ex_mconv H8 H16 ex_mm_wf ex_mm_off (or_intror (conj eq_refl He))
      ltac:(cbn; lia) ex_mm_honest ex_mconv_legal ex_mconv_legal).
Qed.

(** An adjacency file of four rows; a saved CSR. *)
Definition ex_gconv : cchoice := mkChoice 2 0 [[5; 0; 3]; [1; 4; 2]] [[0; 1; 2]; [3; 4; 5]] [1] [0; 1] [1; 0; 1; 1].
Definition ex_gl : lchoice :=
  mkLchoice 2 [] (1, []) (1, []) (1, []) (mkGchoice 2 [] []) (mkChoice 1 0 [] [] [] [] []) [[3; 0]; [1; 2]] [1; 0].
Example C59_adjacency_applies : exists i o : csr unit,
  digraph_open u32 u64 None 4096 (chars "a.graph") (Some (adj_text ex_g0)) AUTO ex_gl ex_gl ex_gconv ex_gconv = Ok (i, o) /\
  is_graph u64 o 4 6 (succs [(0, 1); (0, 3); (1, 0); (1, 2); (2, 1); (3, 0)]%Z) /\
  is_graph u64 i 4 6 (preds [(0, 1); (0, 3); (1, 0); (1, 2); (2, 1); (3, 0)]%Z) /\
  (exists x : matrix unit, matrix_open u32 u64 None 4096 (chars "a.graph") (Some (adj_text ex_g0)) ex_gl ex_gconv ex_gconv = Ok x /\
     matrix_nrows u64 x = None /\ matrix_ncols u64 x = None).
Proof.
  assert (H32 : is_ity u32) by (cbn; tauto). assert (H64 : is_ity u64) by (cbn; tauto).
  assert (Hg : as_graph AUTO (chars "a.graph") (adj_text ex_g0)).
  { right; split; [reflexivity|]; split; [intros (b & r & E); discriminate|exists (chars "a"); reflexivity]. }
  assert (Hfit : graph_fits u32 u64 ex_g0) by fits.
  assert (Hz : has_zero (a_body ex_g0)).
  { unfold has_zero; match goal with |- In _ ?l => let l' := eval vm_compute in l in change l with l' end; simpl; auto 10. }
  assert (ER : adj_rows (a_body ex_g0) = [[1; 3]; [0; 2]; [1]; [0]]%Z) by reflexivity.
  assert (HC : legal 6 ex_gconv).
  { unfold legal. cbn [ch_T ch_single ch_parts1 ch_parts2 ex_gconv concat app]. split; [lia|]. split; [lia|].
    split; (apply NoDup_Permutation; [repeat constructor; cbn; intuition discriminate|apply seq_NoDup|intros x; cbn; intuition]). }
  assert (HP : Permutation (concat (lc_parts ex_gl)) (seq 0 4)).
  { apply NoDup_Permutation; [repeat constructor; cbn; intuition discriminate|apply seq_NoDup|intros x; cbn; intuition]. }
  assert (HB : Forall (fun v => 0 <= v < Z.of_nat 4)%Z (concat [[1; 3]; [0; 2]; [1]; [0]]%Z)) by (cbn [concat app]; repeat constructor; lia).
  destruct (C59_digraph_from_adjacency u32 u64 ex_g0 4096 (chars "a.graph") AUTO ex_gl ex_gl ex_gconv ex_gconv H32 H64 ex_g0_wf
    ltac:(split; [lia|discriminate]) Hg Hfit ltac:(cbn; lia) Hz ltac:(vm_compute; discriminate) eq_refl ltac:(right; reflexivity) HP HB HC HC) as (i & o & E & G1 & G2).
  exists i, o. split; [exact E|]. split; [exact G1|]. split; [exact G2|].
  assert (EX : exists x : matrix unit, matrix_open u32 u64 None 4096 (chars "a.graph") (Some (adj_text ex_g0)) ex_gl ex_gconv ex_gconv = Ok x) by (eexists; vm_compute; reflexivity).
  destruct EX as (x & EX). exists x. split; [exact EX|]. exact (C66_no_dimensions _ _ _ _ _ _ _ _ _ x (or_intror Hg) EX).
Qed.

(** A weighted Matrix Market file. *)
Definition ex_mmw : mm_file :=
  mkMm (bs " integer general") [] (bs "3") (bs " ") (bs "3") (bs " ") (bs "3") [] ex_elw.
Lemma ex_mmw_wf : wf_mm ex_mmw.
Proof.
  unfold ex_mmw, wf_mm; cbn [mm_kind mm_pre mm_r mm_s1 mm_c mm_s2 mm_z mm_rest mm_body].
  split; [repeat constructor|]. split; [apply gap_nil|].
  split; [digits_t|]. split; [split; [discriminate|repeat constructor]|]. split; [digits_t|]. split; [split; [discriminate|repeat constructor]|].
  split; [digits_t|]. split; [split; [constructor|exact I]|]. exact ex_elw_wf.
Qed.
Lemma ex_mmw_honest : honest u8 u16 ex_mmw.
Proof.
  assert (EP : el_pairs (mm_body ex_mmw) = [(1, 2); (3, 0); (2, 2)]%Z) by reflexivity.
  constructor; [vm_compute; reflexivity|vm_compute; discriminate|unfold labels_fit; rewrite EP; repeat constructor; vm_compute; discriminate|reflexivity|].
  rewrite EP. repeat constructor; vm_compute; discriminate.
Qed.
Example C66_weighted_matrix_market_applies : exists x,
  matrix_open u8 u16 (Some (mkWmode _ (wreader (WSigned i32)) (cint i32))) 64 (chars "a.mtx") (Some (mm_text ex_mmw)) ex_mm_teams ex_mconv ex_mconv = Ok x /\
  is_matrix u16 x 4 3 4 4 [(1, 2); (3, 0); (2, 2)]%Z /\ matrix_weights x 4 [(1, 2, -12); (3, 0, 7); (2, 2, 4)]%Z.
Proof.
  assert (H8 : is_ity u8) by (cbn; auto). assert (H16 : is_ity u16) by (cbn; auto). assert (Hk : wf_kind (WSigned i32)) by (split; [cbn; tauto|reflexivity]).
  assert (He : ends_in (chars "a.mtx") (chars ".mtx")) by (exists (chars "a"); reflexivity).
  assert (Ho : off_page 64 (mm_text ex_mmw)) by (split; [lia|vm_compute; discriminate]).
  exact (C66_from_weighted_matrix_market (WSigned i32) u8 u16 ex_mmw _ (cint i32) 64 (chars "a.mtx") ex_mm_teams ex_mconv ex_mconv Hk ex_elw_weights H8 H16 ex_mmw_wf Ho He
    ltac:(cbn; lia) ex_mmw_honest ex_mconv_legal ex_mconv_legal).
Qed.

Example C66_rejected_applies : matrix_open (W := unit) u8 u16 None 64 (chars "t") (Some (chars "PIGO-Tensor-2 rest")) ex_mm_teams ex_mconv ex_mconv = Throw ENotYetImplemented.
Proof. apply C66_rejected. right. exists 32%Z, (chars "rest"). reflexivity. Qed.
