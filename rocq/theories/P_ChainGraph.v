(** * Property C69: a chain of conversions that begins with a GRAPH file

    Vertices without arcs beyond the last one that has some survive the binary
    format, not the text of an edge list; the lists of neighbours keep their order
    in the binary format. *)

From Coq Require Import String Permutation Sorted.
From Verif Require Import Base Reader ReaderLemmas Sched SchedLemmas Spec SpecDec SpecFp SpecText SpecMm Coo Ascii Csr CooLemmas WeightLemmas ElSpec ElFinal ElThms ElExamples AsciiLemmas WriteLemmas TextRound
  SpecCsr SpecPipe CsrLemmas CsrMain CsrBack CsrSort CsrQuery Codec Bin SpecBin BinLemmas BinSave BinLoad SpecGraph Graph GraphLemmas GraphFinal Load BinOpen P_Text P_Bin P_Mm P_Csr P_Pipe P_CrashText P_Chain P_Graph P_GraphEx P_Matrix.
Open Scope list_scope.
Notation length := List.length.

(** The arcs as entries without weights. *)
Definition plain (ps : list (Z * Z)) : list (Z * Z * unit) := map (fun p => (p, tt)) ps.

Lemma entries_plain rows : entries (unweighted rows) = plain (arcs rows).
Proof.
  rewrite <- arcs_entries. unfold pairs, plain. rewrite map_map. symmetry. rewrite <- map_id. apply map_ext. intros [p []]. reflexivity.
Qed.

(** A GRAPH file numbering vertices from 0, loaded as a CSR; stored and loaded in
    the binary format: the same CSR; turned into a COO and written as text: one
    line for each arc, in the order of the rows; the text loaded as a CSR: the same
    arcs, as many vertices as the largest label asks for. *)
Theorem C69_graph_chain : forall L O f pg fn ft ch t1 t2 t3 pg1 fn1 ft1 ch1 rparts rsched parts sched pg2 fn2 ft2 ch2,
  is_ity L -> is_ity O -> wf_adj f -> off_page pg (adj_text f) -> as_graph ft fn (adj_text f) -> graph_fits L O f ->
  0 < gc_T (lc_graph ch) -> has_zero (a_body f) ->
  let rows := adj_rows (a_body f) in
  let n := Z.of_nat (length rows) in
  let m := Z.of_nat (length (concat rows)) in
  dval (a_n f) = n -> m = dval (a_m f) \/ m = (2 * dval (a_m f))%Z ->
  (n < imax L)%Z -> Forall (fun v => 0 <= v < n)%Z (concat rows) ->
  1 <= fst t1 -> 1 <= fst t2 -> 1 <= fst t3 -> teams ch1 -> ft1 = AUTO \/ ft1 = PIGO_CSR_BIN ->
  Permutation (concat rparts) (seq 0 (length rows)) -> concat parts = seq 0 (length (concat rows)) ->
  off_page pg2 (coo_text dec None (plain (arcs rows))) -> read_as_text ft2 fn2 -> 1 <= lc_T ch2 -> legal (length (concat rows)) (lc_conv ch2) ->
  exists (g : csr unit) w s (c : coo unit) (g' : csr unit),
    csr_open L O None pg fn (Some (adj_text f)) ft ch = Ok g /\
    csr_save L O None g t1 t2 t3 = Ok w /\ contents w s /\
    csr_open L O None pg1 fn1 (Some s) ft1 ch1 = Ok g /\
    convert_csr O no_flags false g rparts rsched = Ok c /\ holds c (plain (arcs rows)) /\
    coo_write (fmt_int L) None c parts sched = Ok (coo_text dec None (plain (arcs rows))) /\
    csr_open L O None pg2 fn2 (Some (coo_text dec None (plain (arcs rows)))) ft2 ch2 = Ok g' /\
    represents false g (unweighted rows) /\
    is_graph O g n m (succs (arcs rows)) /\
    is_graph O g' (vertices (arcs rows)) m (succs (arcs rows)) /\ (vertices (arcs rows) <= n)%Z.
Proof.
  intros L O f pg fn ft ch t1 t2 t3 pg1 fn1 ft1 ch1 rparts rsched parts sched pg2 fn2 ft2 ch2
    HL HO Hf Hpg Hg Hfit HT Hz rows n m Hn Hm Hlt HB T1 T2 T3 Hch1 Hft1 HRP Hp Hpg2 Hft2 HT2 HC2.
  pose proof (adj_text_ne f Hf) as Hne0. pose proof (imax_2 L HL) as H2.
  destruct (graph_read L O O f pg rows (lc_graph ch)) as [HG _]; try assumption; [apply Hfit|left; split; [exact Hz|reflexivity]|].
  destruct HG as (g & Eg & Hst & Ew & En & D1 & D2); [split; [exact Hm|rewrite Hn; unfold n; lia]|].
  rewrite Hn in En.
  assert (Hrep : represents (is_some (@None (wmode unit))) g (unweighted rows)) by (apply stores_represents; [exact Hst|exact En]).
  assert (Em : cs_m g = m) by apply Hst.
  destruct Hfit as (F1 & F2 & F3 & F4 & F5). fold rows in F3, F4, F5. fold m in F4.
  assert (Hne : concat rows <> []).
  { intros E. assert (Hb : adj_body (a_body f)) by apply Hf. destruct Hb as (_ & _ & b' & Eb). unfold has_zero in Hz.
    pose proof (nums_rows b') as Hl. rewrite <- Eb in Hl. fold rows in Hl. rewrite E in Hl. destruct (numerals (a_body f)); [destruct Hz|discriminate]. }
  assert (Hn1 : (1 <= n)%Z) by (destruct (concat rows); [congruence|]; inversion HB; lia).
  assert (Hmx : (0 <= max_of (concat rows) <= n - 1)%Z).
  { split; [apply max_pos|]. apply max_below; [lia|]. eapply Forall_impl; [|exact HB]. cbn beta. intros v Hv. lia. }
  assert (Sh : csr_shape (wbin (@None (wmode unit))) g) by (eapply represents_shape; [exact Hrep|intros _; exact Ew]).
  assert (Fu : csr_full L O (wbin (@None (wmode unit))) (fun _ => True) g).
  { eapply represents_full; [exact HL|exact HO|exact Hrep|lia|lia| | | |exact I].
    - rewrite D1. apply fit_some, in_type; [exact HL|fold n; lia].
    - rewrite D2. apply fit_some, in_type; [exact HL|lia].
    - rewrite unweighted_concat, Forall_map. eapply Forall_impl; [|exact HB]. cbn [fst]. intros v Hv. lia. }
  assert (Ro : room L (cs_n g)) by (rewrite En; apply room_less; exact Hlt).
  destruct (C16_csr_round_trip L O (@None (wmode unit)) (fun _ => True) g t1 t2 t3 pg1 fn1 ft1 ch1 HL HO Sh Fu Ro T1 T2 T3 Hch1 Hft1) as (w & s & Es & Hs & Er).
  assert (Lu : length (unweighted rows) = length rows) by (unfold unweighted; apply map_length).
  destruct (C25_csr_to_coo O false g (unweighted rows) rparts rsched HO Hrep ltac:(lia) ltac:(rewrite Lu; exact HRP)) as (c & Ec & Hc & _ & _ & _).
  rewrite entries_plain in Hc. set (es := plain (arcs rows)) in *.
  assert (Hpf : map fst es = arcs rows) by (unfold es, plain; rewrite map_map; apply map_id).
  assert (Hle : length es = length (concat rows)).
  { unfold es. rewrite <- entries_plain. unfold entries. rewrite entries_length, unweighted_concat, map_length. reflexivity. }
  assert (Hla : length (arcs rows) = length (concat rows)) by (rewrite <- Hpf, map_length; exact Hle).
  assert (HB2 : Forall (fun e => 0 <= fst (fst e) < n /\ 0 <= snd (fst e) < n)%Z es).
  { unfold es. rewrite <- entries_plain. apply entries_bound; [exact HB|reflexivity]. }
  assert (HF : Forall (label_ok L) es) by (eapply Forall_impl; [|exact HB2]; cbn beta; intros e He; unfold label_ok; lia).
  assert (HW : Forall (fun e : Z * Z * unit => (fun _ => True) (snd e)) es) by (apply Forall_forall; intros; exact I).
  assert (Hne' : es <> []) by (intros E; rewrite E in Hle; destruct (concat rows); [congruence|discriminate]).
  destruct (mode_file _ _ _ _ _ _ _ L es mode_plain HF HW) as (G1 & G2 & G3 & G4 & G5). cbv zeta in G1, G2, G3, G4, G5. rewrite Hpf in G4.
  set (f2 := file_of None es) in *.
  assert (HB3 : Forall (fun p => 0 <= fst p < n /\ 0 <= snd p < n)%Z (arcs rows)) by (rewrite <- Hpf, Forall_map; exact HB2).
  assert (Hfit2 : labels_fit (imax L - 2) f2).
  { unfold labels_fit. rewrite G4. eapply Forall_impl; [|exact HB3]. cbn beta. intros p Hp2. lia. }
  destruct (C59_csr_from_edge_list L O f2 pg2 fn2 ft2 ch2 HL HO G2 Hfit2) as (g' & Eg' & GG').
  { rewrite G4, Hla. exact F4. }
  { rewrite G1. exact Hpg2. }
  { rewrite G1. apply text_not_pigo. exact Hft2. }
  { exact HT2. }
  { rewrite G4, Hla. exact HC2. }
  rewrite G1 in Eg'. rewrite G4, Hla in GG'. fold m in GG'.
  exists g, w, s, c, g'.
  split; [rewrite csr_open_graph by assumption; exact Eg|]. split; [exact Es|]. split; [exact Hs|]. split; [exact Er|]. split; [exact Ec|]. split; [exact Hc|].
  split.
  { eapply mode_write; eauto using mode_plain; [discriminate|]. rewrite Hle. exact Hp. }
  split; [exact Eg'|]. split; [exact Hrep|]. split.
  { split; [exact En|]. split; [exact Em|]. intros u Hu.
    assert (Eq : nth_error rows (Z.to_nat u) = Some (nth (Z.to_nat u) rows [])) by (apply nth_error_nth'; unfold n in Hu; lia).
    destruct (C29_degree_neighbors O false g _ (Z.to_nat u) (map (fun y => (y, tt)) (nth (Z.to_nat u) rows [])) HO Hrep ltac:(lia)) as [E1 E2].
    { unfold unweighted. rewrite nth_error_map, Eq. reflexivity. }
    pose proof (C59_adjacency_rows rows _ _ Eq) as Es2. rewrite Z2Nat.id in Es2 by lia. rewrite Es2.
    rewrite map_length in E1. rewrite map_map in E2. cbn [fst] in E2. rewrite map_id in E2.
    exists (nth (Z.to_nat u) rows []). auto. }
  split; [exact GG'|].
  clear - HB3 Hn1. unfold vertices. enough (max_of (map fst (arcs rows) ++ map snd (arcs rows)) <= n - 1)%Z by lia.
  apply max_below; [lia|]. apply Forall_app. split; apply Forall_map; (eapply Forall_impl; [|exact HB3]); cbn beta; intros p Hp; lia.
Qed.
Print Assumptions C69_graph_chain.

(** "4 3", rows [1 2], [0] and two empty ones: the CSR of the file and that of the
    binary file have 4 vertices, that of the text written 3. *)
Definition ex_g4 : adj_file := mkAdj [] (chars "4") (chars " ") (chars "3") [] [] (chars ("2 1" ++ nl ++ "0" ++ nl ++ nl ++ nl)).
Lemma ex_g4_wf : wf_adj ex_g4.
Proof.
  unfold wf_adj. split; [constructor|].
  split; [split; [discriminate|repeat constructor]|]. split; [discriminate|]. split; [wf|]. split; [split; [discriminate|repeat constructor]|].
  split; [split; [repeat constructor|reflexivity]|]. split; [constructor|].
  split; [repeat constructor|]. split; [eexists; eexists; split; reflexivity|]. exists (chars ("2 1" ++ nl ++ "0" ++ nl ++ nl)). reflexivity.
Qed.
Definition ex_g4_conv : cchoice := mkChoice 2 0 [[2]; [1; 0]] [[0; 1]; [2]] [1] [0; 1] [1; 0; 1; 1].
Definition ex_g4_l : lchoice :=
  mkLchoice 2 [] (1, []) (1, []) (1, []) (mkGchoice 2 [] []) ex_g4_conv [[3; 0]; [1; 2]] [1; 0].
Example C69_graph_applies : exists (g : csr unit) w s (c : coo unit) (g' : csr unit),
  csr_open u8 u16 None 64 (chars "a.graph") (Some (adj_text ex_g4)) AUTO ex_g4_l = Ok g /\ cs_n g = 4%Z /\
  cs_end g = map Some [2; 1; 0]%Z /\
  csr_save u8 u16 None g (2, [1; 0; 1]) (1, []) (3, []) = Ok w /\ contents w s /\
  csr_open u8 u16 None 32 (chars "a.bin") (Some s) AUTO ex_g4_l = Ok g /\
  convert_csr u16 no_flags false g [[2; 3]; [0; 1]] [1; 0] = Ok c /\
  coo_write (fmt_int u8) None c [[0; 1]; [2]] [1; 0; 0] = Ok (bs "0 2" ++ [ch_nl] ++ bs "0 1" ++ [ch_nl] ++ bs "1 0" ++ [ch_nl]) /\
  csr_open u8 u16 None 64 (chars "b.el") (Some (bs "0 2" ++ [ch_nl] ++ bs "0 1" ++ [ch_nl] ++ bs "1 0" ++ [ch_nl])) AUTO ex_g4_l = Ok g' /\ cs_n g' = 3%Z.
Proof.
  assert (H8 : is_ity u8) by (cbn; auto). assert (H16 : is_ity u16) by (cbn; auto).
  assert (ER : adj_rows (a_body ex_g4) = [[2; 1]; [0]; []; []]%Z) by reflexivity.
  assert (HL : legal 3 ex_g4_conv).
  { split; [cbn; lia|]. split; [cbn; lia|]. split; [|reflexivity].
    apply NoDup_Permutation; [repeat constructor; cbn; intuition discriminate|apply seq_NoDup|intros x; cbn; intuition]. }
  destruct (C69_graph_chain u8 u16 ex_g4 64 (chars "a.graph") AUTO ex_g4_l (2, [1; 0; 1]) (1, []) (3, []) 32 (chars "a.bin") AUTO ex_g4_l
    [[2; 3]; [0; 1]] [1; 0] [[0; 1]; [2]] [1; 0; 0] 64 (chars "b.el") AUTO ex_g4_l H8 H16 ex_g4_wf)
    as (g & w & s & c & g' & E1 & E2 & E3 & E4 & E5 & _ & E6 & E7 & (R1 & _ & _ & R2 & _) & _ & (R3 & _) & _).
  all: try (match goal with |- (_ <= _)%nat => cbn; lia end).
  - split; [lia|]. vm_compute. discriminate.
  - right; split; [reflexivity|]; split; [intros (b & r & E); discriminate|exists (chars "a"); reflexivity].
  - fits.
  - cbn; lia.
  - unfold has_zero; match goal with |- In _ ?l => let l' := eval vm_compute in l in change l with l' end; simpl; auto 10.
  - reflexivity.
  - left. reflexivity.
  - vm_compute. reflexivity.
  - rewrite ER. repeat (apply Forall_cons; [split; vm_compute; (reflexivity || discriminate)|]). apply Forall_nil.
  - unfold teams. cbn. lia.
  - left; reflexivity.
  - rewrite ER. apply NoDup_Permutation; [repeat constructor; cbn; intuition discriminate|apply seq_NoDup|intros x; cbn; intuition].
  - reflexivity.
  - split; [lia|]. vm_compute. discriminate.
  - right. split; [reflexivity|]. split; intros (p & E); apply (f_equal (@rev _)) in E; rewrite rev_app_distr in E; discriminate.
  - exact HL.
  - exists g, w, s, c, g'. split; [exact E1|]. split; [exact R1|]. split; [exact R2|]. split; [exact E2|]. split; [exact E3|]. split; [exact E4|]. split; [exact E5|]. split; [exact E6|]. split; [exact E7|exact R3].
Qed.
