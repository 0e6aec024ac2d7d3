(** * C57: data races

    [no_race] (SpecRace.v) of the log of every barrier interval.  Locations are
    array elements.  The stores of the text writers are covered by
    [stores_apart] in C13 and C38. *)

From Coq Require Import Permutation.
From Verif Require Import Base Reader ReaderLemmas CooLemmas CooSplit GraphLemmas ElFinal Sched SchedLemmas Coo Ascii Csr ElSpec SpecText SpecCsr Graph SpecGraph Spec
  ElThms CsrLemmas CsrSort CsrBack GraphMain GraphFinal P_Csr P_Graph P_GraphEx SpecRace Race RaceLemmas CsrFine CsrFineMain DupFine DupFineLemmas GraphFine GraphFineLemmas ElExamples.
Notation length := List.length.

(** What [no_race] forbids, and what it does not. *)
Example no_race_meaning :
  ~ no_race [(0, (5, Read)); (1, (5, Write))] /\ ~ no_race [(0, (5, Atomic)); (1, (5, Read))] /\
  no_race [(0, (5, Atomic)); (1, (5, Atomic)); (0, (6, Write)); (0, (6, Read)); (1, (7, Read)); (2, (7, Read))].
Proof.
  split; [|split].
  - intros H. apply (H 0 1 (5, Read) (5, Write)); cbn; auto. split; [reflexivity|]. split; intros [A B]; discriminate.
  - intros H. apply (H 0 1 (5, Atomic) (5, Read)); cbn; auto. split; [reflexivity|]. split; intros [A B]; discriminate.
  - intros t u a b Ha Hb Hne (C1 & C2 & C3). cbn [In] in Ha, Hb.
    repeat (destruct Ha as [Ha|Ha]; [injection Ha as <- <-|]); try contradiction;
    repeat (destruct Hb as [Hb|Hb]; [injection Hb as <- <-|]); try contradiction; cbn in *; try discriminate; tauto.
Qed.

(** ** COO to CSR *)
Theorem C57_coo_to_csr : forall {W} L O weighted (c : coo W) es n ch,
  is_ity L -> is_ity O -> holds c es -> (weighted = true -> holds_weights c es) ->
  co_n c = Some n -> (0 <= n)%Z -> room L n -> (Z.of_nat (length es) <= imax O)%Z ->
  Forall (fun e => 0 <= fst (fst e) < n)%Z es ->
  0 < fc_T ch -> fc_sum ch < fc_T ch -> fc_last ch < fc_T ch ->
  Permutation (concat (fc_parts0 ch)) (seq 0 (Z.to_nat n)) ->
  Permutation (concat (fc_parts1 ch)) (seq 0 (length es)) ->
  Permutation (concat (fc_parts2 ch)) (seq 0 (length es)) -> length (fc_parts2 ch) = fc_T ch ->
  exists r logs rows, convert_coo_fine L O weighted c ch = Ok (r, logs) /\ length logs = 6 /\ Forall no_race logs /\
    represents weighted r rows /\ cs_n r = n /\
    (forall v, v < Z.to_nat n -> exists q, nth_error rows v = Some q /\ Permutation q (row es v)) /\
    (* the model without logs agrees *)
    convert_coo L O weighted c (coarse ch) = Ok r.
Proof.
  intros W L O weighted c es n ch HL HO Hc Hw Hn H0 Hr Hm HF HT Hs Hk HP0 HP1 HP2 Hlen.
  destruct (convert_fine_ok L O HL HO weighted c es n Hc Hw Hn H0 Hr Hm HF ch HT Hs Hk HP0 HP1 HP2 Hlen) as (r & logs & E & HR & EC).
  assert (HC : legal (length es) (coarse ch)) by (unfold legal, coarse; cbn [ch_T ch_single ch_parts1 ch_parts2]; tauto).
  destruct (C22_coo_to_csr L O weighted c es n (coarse ch) HL HO Hc Hw Hn H0 Hr Hm HF HC) as (r' & rows & EC' & R1 & R2 & _ & _ & _ & R3 & _).
  assert (r' = r) as -> by congruence. exists r, logs, rows. split; [exact E|]. split; [|repeat (split; [assumption|]); exact EC].
  unfold convert_coo_fine in E. rewrite Hn in E. apply bind_ok_inv in E as ([[e0 w0] o0] & _ & E). destruct (n <? 0)%Z; [discriminate|].
  do 6 (apply bind_ok_inv in E as ([? ?] & _ & E)). injection E as _ <-. reflexivity.
Qed.
Print Assumptions C57_coo_to_csr.

Definition ex_fch : fchoice := mkFch 2 1 0 [[0; 2]; [1; 3]] [[0; 1; 2]; [3; 4]] [[4; 1]; [2; 3; 0]]
  [1; 0] [1; 0] [1; 1; 0] [0; 1] [1; 1; 0] [1; 0; 1; 1; 1; 0].
Example C57_coo_to_csr_applies :
  Permutation (concat (fc_parts0 ex_fch)) (seq 0 4) /\ Permutation (concat (fc_parts1 ex_fch)) (seq 0 5) /\
  Permutation (concat (fc_parts2 ex_fch)) (seq 0 5) /\ length (fc_parts2 ex_fch) = fc_T ex_fch /\
  exists r l0 l1 l2 l3 l4 l5, convert_coo_fine u8 u32 true (coo_of 4 ex_entries) ex_fch = Ok (r, [l0; l1; l2; l3; l4; l5]) /\
    cs_off r = (map Some [0; 2; 2; 5; 5])%Z /\
    (* counting: both threads increment the degree of vertex 2, atomically *)
    In (0, at_ AllDegs 2) l1 /\ In (1, at_ AllDegs 2) l1 /\
    (* scattering: the first capture is for entry 2 = (2, 0), by thread 1 *)
    firstn 4 l5 = [(1, rd CooX 2); (1, at_ LabelDegs 2); (0, rd CooX 4); (0, at_ LabelDegs 0)].
Proof.
  assert (HP : forall l k, NoDup l -> (forall x, In x l <-> x < k) -> Permutation l (seq 0 k)).
  { intros l k H1 H2. apply NoDup_Permutation; [exact H1|apply seq_NoDup|]. intros x. rewrite H2, in_seq. lia. }
  split; [apply HP; [repeat constructor; cbn; intuition discriminate|intros x; cbn; lia]|].
  split; [apply HP; [repeat constructor; cbn; intuition discriminate|intros x; cbn; lia]|].
  split; [apply HP; [repeat constructor; cbn; intuition discriminate|intros x; cbn; lia]|].
  split; [reflexivity|]. do 7 eexists. split; [vm_compute; reflexivity|]. split; [reflexivity|].
  split; [cbn; tauto|]. split; [cbn; tauto|]. reflexivity.
Qed.

(** ** [sort] and [new_csr_without_dups] *)
Theorem C57_sort : forall {W} (srt : list (Z * W) -> list (Z * W)) srt1 weighted (c : csr W) rows parts sched,
  sorts srt srt1 -> represents weighted c rows -> Permutation (concat parts) (seq 0 (length rows)) ->
  exists r l, sort_fine srt srt1 weighted c parts sched = Ok (r, l) /\ no_race l /\
    csr_sort srt srt1 weighted c parts sched = Ok r.
Proof.
  intros W srt srt1 weighted c rows parts sched HS Hrep HP. pose proof HS as [S1 S2 S3 S4].
  destruct (sort_ok srt srt1 S1 S3 weighted c rows Hrep parts sched HP) as (r & E & _).
  destruct (sort_fine_ok weighted c rows Hrep parts HP srt srt1 sched r E) as (l & El & HR). exists r, l. auto.
Qed.
Print Assumptions C57_sort.

Theorem C57_without_dups : forall {W} (srt : list (Z * W) -> list (Z * W)) srt1 weighted L O (c : csr W) rows ch,
  is_ity L -> is_ity O -> sorts srt srt1 -> represents weighted c rows ->
  room L (cs_n c) -> (cs_m c <= imax O)%Z ->
  Forall (fun r => Forall (fun p => 0 <= fst p < imax L)%Z r) rows ->
  Permutation (concat (dc_sort (df_c ch))) (seq 0 (length rows)) ->
  Permutation (concat (df_count ch)) (seq 0 (length rows)) ->
  Permutation (concat (dc_copy (df_c ch))) (seq 0 (length rows)) ->
  dc_single (df_c ch) < dc_T (df_c ch) -> df_sum ch < dc_T (df_c ch) ->
  exists c' r logs rows' drows, without_dups_fine srt srt1 weighted L O c ch = Ok (c', r, logs) /\
    length logs = 6 /\ Forall no_race logs /\
    represents weighted c' rows' /\ Forall2 (sorted_from weighted) rows rows' /\
    represents weighted r drows /\ Forall2 deduped rows' drows /\
    without_dups srt srt1 weighted L O c (df_c ch) = Ok (c', r).
Proof.
  intros W srt srt1 weighted L O c rows ch HL HO HS Hrep Hroom Hm Hlab HP1 HPc HP2 HT HT2.
  destruct (without_dups_fine_ok srt srt1 weighted L O c rows ch HL HO HS Hrep Hroom Hm Hlab HP1 HPc HP2 HT HT2) as (c' & r & logs & E & HR & EC).
  destruct (C24_without_dups srt srt1 weighted L O c rows (df_c ch) HL HO HS Hrep Hroom Hm Hlab HP1 HP2 HT) as (c1 & r1 & rows' & drows & EC' & R1 & R2 & R3 & R4 & _).
  assert (c1 = c' /\ r1 = r) as [-> ->] by (split; congruence).
  exists c', r, logs, rows', drows. split; [exact E|]. split; [|repeat (split; [assumption|]); exact EC].
  unfold without_dups_fine in E. apply bind_ok_inv in E as ([? ?] & _ & E). destruct (_ <? 0)%Z; [discriminate|].
  apply bind_ok_inv in E as ([? ?] & _ & E). apply bind_ok_inv in E as (? & _ & E). apply bind_ok_inv in E as (? & _ & E).
  apply bind_ok_inv in E as ([[? ?] ?] & _ & E). do 3 (apply bind_ok_inv in E as ([? ?] & _ & E)).
  apply bind_ok_inv in E as (? & _ & E). apply bind_ok_inv in E as ([? ?] & _ & E). injection E as _ _ <-. reflexivity.
Qed.
Print Assumptions C57_without_dups.

Example C57_without_dups_applies : exists c' r l0 l1 l2 l3 l4 l5,
  represents true ex_csr ex_rows /\
  without_dups_fine (isort pleb) (isort Z.leb) true u8 u8 ex_csr
    (mkDFch (mkDChoice [[2]; [0; 1]] [1; 0] 2 1 [1; 1; 0] [[1; 2]; [0]] [1; 0; 1]) [[1]; [2; 0]] [0; 1] 0 [1; 0; 0] []) =
    Ok (c', r, [l0; l1; l2; l3; l4; l5]) /\
  cs_off r = (map Some [0; 2; 2; 3])%Z /\
  (* the rows' loads and the first store of thread 1, which copies row 0 *)
  In (1, rd SrcEnds 3) l5 /\ In (1, wr Endpoints 1) l5 /\ In (0, wr Endpoints 2) l5 /\ In (1, wr SrcEnds 0) l0.
Proof. do 8 eexists. split; [repeat split|]. split; [vm_compute; reflexivity|]. split; [reflexivity|]. cbn. tauto. Qed.

(** ** Edge lists and CSR to COO: the stores into the arrays of the COO *)
Definition cacc {W} (_ : nat) (i : cinstr W) (_ : cst W) : list (access cell) :=
  map (fun c => (c, Read)) (reads i) ++ map (fun c => (c, Write)) (writes i).

Lemma race_free_log {W} weighted n (ps : list (list (cinstr W))) sched s s' : race_free weighted n ps ->
  run cexec sched ps s = Ok s' -> exists l, interval (fun _ => cexec) cacc sched ps s = Ok (s', l) /\ no_race l.
Proof.
  intros (_ & _ & _ & HR) E. refine (interval_run _ cacc _ _ _ _ E _).
  intros t u p q i j si sj a b Hne Hp Hq Hi Hj Ha Hb (C1 & C2 & C3).
  assert (G : forall (p : list (cinstr W)) i t s (a : access cell), In i p -> In a (cacc t i s) ->
    (snd a = Read /\ In (fst a) (flat_map reads p)) \/ (snd a = Write /\ In (fst a) (flat_map writes p))).
  { clear. intros p i t s a Hi Ha. apply in_app_or in Ha as [Ha|Ha]; apply in_map_iff in Ha as (x & <- & Hx); cbn [fst snd]; [left|right];
    (split; [reflexivity|]); apply in_flat_map; eauto. }
  destruct (G _ _ _ _ _ Hi Ha) as [(A1 & A2)|(A1 & A2)], (G _ _ _ _ _ Hj Hb) as [(B1 & B2)|(B1 & B2)].
  - tauto.
  - apply (HR t u p q (fst a) Hne Hp Hq); [tauto|rewrite C1; exact B2].
  - apply (HR u t q p (fst b) (fun H => Hne (eq_sym H)) Hq Hp); [tauto|rewrite <- C1; exact A2].
  - apply (HR t u p q (fst a) Hne Hp Hq); [tauto|rewrite C1; exact B2].
Qed.

Theorem C57_edge_list : forall L fl f pg T,
  is_ity L -> wf_el f -> labels_fit (imax L - 1) f -> off_page pg (el_text f) -> 1 <= T ->
  exists chunks counts p2,
    el_pass1 (W := unit) L None fl (mkMem (el_text f) pg) 0 (length (el_text f)) T = Ok (chunks, counts) /\
    el_pass2 (W := unit) L None fl (mkMem (el_text f) pg) chunks counts = Ok p2 /\
    forall sched s s', run cexec sched (map (fun r => fst (fst r)) p2) s = Ok s' ->
      exists l, interval (fun _ => cexec) cacc sched (map (fun r => fst (fst r)) p2) s = Ok (s', l) /\ no_race l.
Proof.
  intros L fl f pg T HL Hf Hfit Hpg HT. destruct (edge_list_race_free L fl f pg T HL Hf Hfit Hpg HT) as (chunks & counts & p2 & E1 & E2 & _ & HR).
  exists chunks, counts, p2. split; [exact E1|]. split; [exact E2|]. intros sched s s' E. exact (race_free_log _ _ _ sched s s' HR E).
Qed.
Print Assumptions C57_edge_list.

Theorem C57_edge_list_weighted : forall k L fl f ws pg T,
  wf_kind k -> weights_are k f ws -> Forall (keeps fl) (triples f ws) ->
  is_ity L -> wf_el f -> labels_fit (imax L - 1) f -> off_page pg (el_text f) -> 1 <= T ->
  exists chunks counts p2,
    el_pass1 L (Some (wreader k)) fl (mkMem (el_text f) pg) 0 (length (el_text f)) T = Ok (chunks, counts) /\
    el_pass2 L (Some (wreader k)) fl (mkMem (el_text f) pg) chunks counts = Ok p2 /\
    forall sched s s', run cexec sched (map (fun r => fst (fst r)) p2) s = Ok s' ->
      exists l, interval (fun _ => cexec) cacc sched (map (fun r => fst (fst r)) p2) s = Ok (s', l) /\ no_race l.
Proof.
  intros k L fl f ws pg T Hk Hw Hkeep HL Hf Hfit Hpg HT. destruct (edge_list_race_free_weighted k L fl f ws pg T Hk Hw Hkeep HL Hf Hfit Hpg HT) as (chunks & counts & p2 & E1 & E2 & _ & HR).
  exists chunks, counts, p2. split; [exact E1|]. split; [exact E2|]. intros sched s s' E. exact (race_free_log _ _ _ sched s s' HR E).
Qed.
Print Assumptions C57_edge_list_weighted.

Theorem C57_csr_to_coo : forall {W} fl weighted (c : csr W) rows parts,
  (f_sym fl = true \/ f_ut fl = false) -> represents weighted c rows -> Permutation (concat parts) (seq 0 (length rows)) ->
  exists ps, csr_progs fl weighted c parts = Ok ps /\
    forall sched s s', run cexec sched ps s = Ok s' ->
      exists l, interval (fun _ => cexec) cacc sched ps s = Ok (s', l) /\ no_race l.
Proof.
  intros W fl weighted c rows parts Hfl Hrep HP. destruct (C25_race_free fl weighted c rows parts Hfl Hrep HP) as (ps & E & HR).
  exists ps. split; [exact E|]. intros sched s s' Er. exact (race_free_log _ _ _ sched s s' HR Er).
Qed.
Print Assumptions C57_csr_to_coo.

(** ** Adjacency files *)
Theorem C57_graph : forall L O f pg ch (c : csr unit),
  is_ity L -> is_ity O -> wf_adj f -> off_page pg (adj_text f) -> graph_fits L O f -> 0 < gc_T ch ->
  let m := mkMem (adj_text f) pg in
  read_graph L O O m 0 (flen m) ch = Ok c ->
  exists hzs hs l1 l2, read_graph_fine L O O m 0 (flen m) ch = Ok (c, l1, l2) /\
    (* pass 2 does not race *)
    no_race l2 /\
    (* the flags that threads with a zero in their part set: some flag is set
       exactly if the file has a zero, and threads with flags in the same word
       race *)
    length hzs = gc_T ch /\ (existsb (fun b => b) hzs = true <-> has_zero (a_body f)) /\
    hz_interval hzs (gc_hz ch) = Ok (hs, l1) /\
    (no_race l1 <-> forall i j, nth_error hzs i = Some true -> nth_error hzs j = Some true -> i / 64 = j / 64 -> i = j).
Proof.
  intros L O f pg ch c HL HO Hf Hpg (F1 & F2 & F3 & F4 & F5) HT m E.
  assert (Em : (0 <= dval (a_m f))%Z) by (apply dval_nonneg; apply Hf).
  pose proof Hf as (_ & _ & _ & _ & _ & _ & _ & (Hc & Hd & (b' & Eb))).
  assert (Es : strip (a_body f) = a_body f) by (apply strip_nocmt; exact Hc).
  assert (Et : toks (a_body f) = rtoks (a_body f)) by (unfold toks; rewrite Es; reflexivity).
  assert (EM : length (numerals (a_body f)) = length (concat (adj_rows (a_body f)))) by (rewrite Eb; apply nums_rows).
  set (b := a_body f) in *.
  pose proof (read_graph_fine_ok f (wf_adj_head f Hf) m eq_refl (slack_off_page pg (adj_text f) Hpg) (nocmt_quiet b Hc false) L O O HL HO) as G.
  fold b in G. rewrite Es, Et, EM in G.
  destruct (G HO F1 ltac:(lia) ltac:(rewrite Eb; apply rows_pos)) with (ch := ch) (c := c) as (hzs & hs & l1 & l2 & A1 & A2 & A3 & A4 & A5 & A6); clear G; try assumption.
  - destruct (has_z (rtoks b)); [|exact F3]. destruct F3 as [G1 G2]. split; [lia|]. destruct G2 as [?|?]; [left; assumption|right; lia].
  - exists hzs, hs, l1, l2. split; [exact A1|]. split; [exact A2|]. split; [exact A3|]. split; [rewrite A4; apply has_z_zero|].
    split; [exact A6|]. exact (hz_race hzs (gc_hz ch) hs l1 A6).
Qed.
Print Assumptions C57_graph.

(** The race happens: two threads read a file in which both find a zero, and
    under every schedule the flags' word is written by both. *)
Theorem C57_graph_flags_refuted : exists f, wf_adj f /\ off_page 4096 (adj_text f) /\ graph_fits u32 u64 f /\
  forall s1 s2, exists (c : csr unit) l1 l2,
    read_graph_fine u32 u64 u64 (mkMem (adj_text f) 4096) 0 (length (adj_text f)) (mkGchoice 2 s1 s2) = Ok (c, l1, l2) /\
    In (0, (0, Write)) l1 /\ In (1, (0, Write)) l1 /\ ~ no_race l1.
Proof.
  exists ex_g0. split; [exact ex_g0_wf|]. split; [split; [lia|discriminate]|]. split; [fits|]. intros s1 s2.
  assert (HF : graph_fits u32 u64 ex_g0) by fits.
  assert (Hz : graph_rows ex_g0 (adj_rows (a_body ex_g0))).
  { left. split; [|reflexivity]. unfold has_zero; match goal with |- In _ ?l => let l' := eval vm_compute in l in change l with l' end; simpl; auto 10. }
  assert (Hpg : off_page 4096 (adj_text ex_g0)) by (split; [lia|discriminate]).
  assert (I32 : is_ity u32) by (cbn; tauto). assert (I64 : is_ity u64) by (cbn; tauto).
  assert (HM : (Z.of_nat (length (concat (adj_rows (a_body ex_g0)))) <= imax u64)%Z) by (vm_compute; discriminate).
  assert (HT : 0 < gc_T (mkGchoice 2 s1 s2)) by (cbn [gc_T]; lia).
  destruct (graph_read u32 u64 u64 ex_g0 4096 (adj_rows (a_body ex_g0)) (mkGchoice 2 s1 s2) I32 I64 I64 ex_g0_wf Hpg HF HM HT Hz) as [G _].
  destruct G as (c & E & _); [split; [right; reflexivity|vm_compute; discriminate]|].
  pose proof ex_g0_wf as Hf. destruct HF as (F1 & F2 & F3 & F4 & F5).
  pose proof Hf as (_ & _ & _ & _ & _ & _ & _ & (Hc & Hd & (b' & Eb))).
  assert (A : exists hzs hs l1 l2, read_graph_fine u32 u64 u64 (mkMem (adj_text ex_g0) 4096) 0 (flen (mkMem (adj_text ex_g0) 4096)) (mkGchoice 2 s1 s2) = Ok (c, l1, l2) /\ no_race l2 /\
      length hzs = 2 /\ existsb (fun b => b) hzs = has_z (toks (a_body ex_g0)) /\ hzs = map (fun t => has_z (toks (reg (a_body ex_g0) 2 t))) (seq 0 2) /\ hz_interval hzs s1 = Ok (hs, l1)).
  { apply (read_graph_fine_ok ex_g0 (wf_adj_head _ Hf) (mkMem (adj_text ex_g0) 4096) eq_refl (slack_off_page 4096 (adj_text ex_g0) Hpg)
      (nocmt_quiet _ Hc false) u32 u64 u64 I32 I64 I64 F1) with (ch := mkGchoice 2 s1 s2) (c := c).
    - vm_compute; discriminate.
    - apply Nat.ltb_lt. vm_compute. reflexivity.
    - match goal with |- room _ ?n => let n' := eval vm_compute in n in change n with n' end. split; [vm_compute; discriminate|right; vm_compute; reflexivity].
    - vm_compute; discriminate.
    - match goal with |- Forall _ ?l => let l' := eval vm_compute in l in change l with l' end; repeat constructor.
    - exact HT.
    - exact E. }
  destruct A as (hzs & hs & l1 & l2 & A1 & A2 & A3 & A4 & A5 & A6).
  assert (EH : hzs = [true; true]) by (rewrite A5; vm_compute; reflexivity).
  exists c, l1, l2. split; [exact A1|]. rewrite EH in A6.
  assert (G : forall t, t < 2 -> In (t, (0, Write)) l1).
  { intros t Ht. apply (exec_log_has (fun _ => hzexec) (fun t i => hz_acc t i hs) _ _ _ _ A6 t (HzStore t)); [|destruct t as [|[|]]; [left; reflexivity|left; reflexivity|lia]].
    apply (steps_all _ _ (trace_steps _ _) t [HzLoad t; HzStore t]); [|right; left; reflexivity].
    rewrite hz_nth. destruct t as [|[|]]; [reflexivity|reflexivity|lia]. }
  split; [apply G; lia|]. split; [apply G; lia|]. intros HR.
  apply (HR 0 1 _ _ (G 0 ltac:(lia)) (G 1 ltac:(lia)) ltac:(lia)). split; [reflexivity|]. split; intros [H _]; discriminate H.
Qed.
Print Assumptions C57_graph_flags_refuted.
