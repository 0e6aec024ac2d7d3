(** * Property C71: adjacency files that announce fewer rows than the body has *)

From Coq Require Import String Permutation.
From Verif Require Import Base Reader Sched SchedLemmas Spec SpecGraph ReaderLemmas Coo CooLemmas CooSplit CooMain Safe ElSpec ElFinal Ascii Csr SpecCsr Codec Bin SpecBin BinLemmas BinSave BinLoad Graph GraphLemmas GraphMain GraphFinal Load BinOpen Matrix SpecDec AsciiLemmas CsrBack GraphPart P_Bin P_Csr P_Graph P_GraphEx P_Pipe.
Notation length := List.length.
Open Scope list_scope.

Lemma unweighted_length rows : length (concat (unweighted rows)) = length (concat rows).
Proof. rewrite unweighted_concat, map_length. reflexivity. Qed.

Lemma firstn_unweighted n rows : firstn n (unweighted rows) = unweighted (firstn n rows).
Proof. apply firstn_map. Qed.

Lemma skipn_unweighted n rows : skipn n (unweighted rows) = unweighted (skipn n rows).
Proof. unfold unweighted. revert rows. induction n as [|n IH]; intros [|r rows]; cbn [skipn map]; try reflexivity. apply IH. Qed.

(** The entries of the first [n] rows, and as many cells nobody wrote as there
    are entries in the other rows. *)
Definition first_rows {W} (c : coo W) (n : nat) (rows : list (list Z)) : Prop :=
  co_n c = Some (Z.of_nat n) /\ co_m c = Z.of_nat (length (concat rows)) /\
  co_x c = map (fun e => Some (fst (fst e))) (entries (unweighted (firstn n rows))) ++ repeat None (length (concat (skipn n rows))) /\
  co_y c = map (fun e => Some (snd (fst e))) (entries (unweighted (firstn n rows))) ++ repeat None (length (concat (skipn n rows))).

(** A COO built from a file whose body makes more rows than the header
    announces. *)
Theorem C71_coo : forall L O f pg fn ft ch rows,
  is_ity L -> is_ity O -> wf_adj f -> off_page pg (adj_text f) -> as_graph ft fn (adj_text f) -> graph_fits L O f ->
  0 < gc_T (lc_graph ch) -> graph_rows f rows -> header_ok f (length rows) ->
  (Z.of_nat (length (concat rows)) <= imax L)%Z ->
  let n := Z.to_nat (dval (a_n f)) in
  Permutation (concat (lc_parts ch)) (seq 0 n) ->
  exists c : coo unit, coo_open L O None no_flags pg fn (Some (adj_text f)) ft ch = Ok c /\ first_rows c n rows.
Proof.
  intros L O f pg fn ft ch rows HL HO Hf Hpg Hg Hfit HT Hr Hh HmL n HP. pose proof (adj_text_ne f Hf) as Hne.
  assert (Ec : concat rows = concat (adj_rows (a_body f))) by (destruct Hr as [[_ ->]|[_ ->]]; reflexivity).
  assert (HmO : (Z.of_nat (length (concat rows)) <= imax O)%Z) by (rewrite Ec; apply Hfit).
  destruct (graph_read L O L f pg rows (lc_graph ch)) as [H _]; try assumption.
  destruct (H Hh) as (c & E & H1 & Hw & H2 & _). clear H.
  assert (H0 : (0 <= dval (a_n f))%Z) by (apply dval_nonneg; apply Hf).
  assert (Hrep : represents false (mkCsr (cs_off c) (cs_end c) (cs_w c) (Z.of_nat (length (unweighted rows))) (cs_m c) (cs_nrows c) (cs_ncols c)) (unweighted rows)).
  { apply stores_represents; [exact H1|]. cbn [cs_n]. unfold unweighted. rewrite map_length. reflexivity. }
  destruct (convert_csr_part O c (unweighted rows) n (lc_parts ch) (lc_back ch)) as (r & Er & Rn & Rm & Rx & Ry).
  - exact HO.
  - exact Hrep.
  - rewrite H2. unfold n. lia.
  - unfold unweighted. rewrite map_length. destruct Hh as [_ Hh]. unfold n. lia.
  - destruct H1 as (-> & _). exact HmO.
  - exact HP.
  - exists r. split.
    + unfold coo_open. rewrite open_reading by exact Hne. cbn [bind]. unfold coo_read.
      rewrite (graph_detect pg fn _ ft Hne Hg). cbn [bind csr_direct is_some]. unfold with_reader. cbn [reading rf_mem rf_fp List.length].
      rewrite E. cbn [bind]. rewrite Er. reflexivity.
    + rewrite skipn_unweighted, unweighted_length, firstn_unweighted in Rx, Ry. rewrite unweighted_length in Rm.
      split; [exact Rn|]. split; [exact Rm|]. split; [exact Rx|exact Ry].
Qed.
Print Assumptions C71_coo.

Lemma repeat_last {A} (a : A) k : repeat a (S k) = repeat a k ++ [a].
Proof. replace (S k) with (k + 1) by lia. rewrite repeat_app. reflexivity. Qed.

(** Converting it, as [DiGraph] and [Matrix] do. *)
Lemma first_rows_ub {W} L O (c : coo W) n rows ch1 : is_ity L -> first_rows c n rows -> n <= length rows -> room L (Z.of_nat n) ->
  concat (skipn n rows) <> [] -> Permutation (concat (ch_parts1 ch1)) (seq 0 (length (concat rows))) ->
  convert_coo L O false (coo_transpose c) ch1 = UB.
Proof.
  intros HL (Hn & Hm & Hx & Hy) Hle Hr Hk HP.
  assert (Hlen : length (entries (unweighted (firstn n rows))) < length (concat rows)).
  { unfold entries. rewrite entries_length, unweighted_length. rewrite (concat_firstn_skipn n rows).
    destruct (concat (skipn n rows)); [congruence|]. cbn [length]. lia. }
  apply (convert_indeterminate L O false (coo_transpose c) (Z.of_nat n) ch1 (length (entries (unweighted (firstn n rows)))));
    [exact HL|exact Hn|lia|exact Hr|cbn [coo_transpose co_m]; lia| |].
  - cbn [coo_transpose co_x]. rewrite Hy. rewrite nth_error_app2 by (rewrite map_length; lia). rewrite map_length, Nat.sub_diag.
    destruct (concat (skipn n rows)); [congruence|]. reflexivity.
  - apply (Permutation_in _ (Permutation_sym HP)). apply in_seq. lia.
Qed.

(** No [DiGraph] can be built from such a file, nor a [Matrix], unless the rows
    beyond the announced number are empty: the coordinates nobody wrote are used
    as indices. *)
Theorem C71_undefined : forall L O f pg fn ft ch rows ch2 c1 c2,
  is_ity L -> is_ity O -> wf_adj f -> off_page pg (adj_text f) -> as_graph ft fn (adj_text f) -> graph_fits L O f ->
  0 < gc_T (lc_graph ch) -> graph_rows f rows -> header_ok f (length rows) ->
  (Z.of_nat (length (concat rows)) <= imax L)%Z ->
  let n := Z.to_nat (dval (a_n f)) in
  Permutation (concat (lc_parts ch)) (seq 0 n) -> concat (skipn n rows) <> [] -> legal (length (concat rows)) c1 ->
  digraph_open (W:=unit) L O None pg fn (Some (adj_text f)) ft ch ch2 c1 c2 = UB /\
  (ft = AUTO -> matrix_open (W:=unit) L O None pg fn (Some (adj_text f)) ch c1 c2 = UB).
Proof.
  intros L O f pg fn ft ch rows ch2 c1 c2 HL HO Hf Hpg Hg Hfit HT Hr Hh HmL n HP Hk (_ & _ & HC & _).
  pose proof (adj_text_ne f Hf) as Hne. assert (H0 : (0 <= dval (a_n f))%Z) by (apply dval_nonneg; apply Hf).
  destruct (C71_coo L O f pg fn ft ch rows HL HO Hf Hpg Hg Hfit HT Hr Hh HmL HP) as (c & E & Hc). fold n in Hc.
  assert (Hroom : room L (Z.of_nat n)).
  { destruct Hfit as (_ & _ & (R1 & R2) & _). destruct Hh as [_ Hh].
    assert (length rows <= S (length (adj_rows (a_body f)))) by (destruct Hr as [[_ ->]|[_ ->]]; cbn [length]; lia). unfold n. split; [lia|]. destruct R2; [left; lia|right; lia]. }
  assert (Hle : n <= length rows) by (destruct Hh as [_ Hh]; unfold n; lia).
  pose proof (first_rows_ub L O c n rows c1 HL Hc Hle Hroom Hk HC) as HU.
  split.
  - rewrite (digraph_via L O None (adj_text f) pg fn ft ch ch2 c1 c2 c GRAPH Hne (graph_detect pg fn _ ft Hne Hg) ltac:(discriminate) E).
    unfold digraph_of_coo. cbn [is_some]. rewrite HU. reflexivity.
  - intros ->. unfold matrix_open. rewrite E. cbn [bind]. unfold matrix_of_coo. cbn [is_some]. rewrite HU. reflexivity.
Qed.
Print Assumptions C71_undefined.

(** Nor can the COO be written as an edge list. *)
Lemma write_size_total t z : exists k, write_size t z = Ok k.
Proof.
  destruct (isigned t) eqn:E; [eexists; apply write_size_dec; congruence|].
  destruct (Z.ltb_spec z 0) as [H|H]; [|eexists; apply write_size_dec; intros _; exact H].
  unfold write_size, dfuel. rewrite Z.abs_neq by lia. rewrite <- wsize_neg.
  rewrite wsize_pos; [eexists; reflexivity|lia|apply log2_bound; lia|lia].
Qed.

Lemma entry_size_safe {W} L (c : coo W) e : safe False (entry_size (fmt_int L) None c e) (fun _ => True).
Proof.
  unfold entry_size.
  pose proof (cell_safe e (co_x c)) as H. destruct (cell_of e (co_x c)) as [x| | |]; cbn [bind safe f_size fmt_int] in *; auto.
  destruct (write_size_total L x) as (kx & ->). cbn [bind].
  pose proof (cell_safe e (co_y c)) as H'. destruct (cell_of e (co_y c)) as [y| | |]; cbn [bind safe] in *; auto.
  destruct (write_size_total L y) as (ky & ->). exact Logic.I.
Qed.

Lemma sizes_safe {W} L (c : coo W) es : forall acc, safe False (sizes (fmt_int L) None c es acc) (fun _ => True).
Proof.
  induction es as [|e es IH]; intros acc; cbn [sizes]; [exact Logic.I|].
  pose proof (entry_size_safe L c e) as H. destruct (entry_size (fmt_int L) None c e); cbn [bind safe] in *; auto.
Qed.

Lemma sizes_hole {W} L (c : coo W) i es : nth_error (co_x c) i = Some None -> In i es -> forall acc, sizes (fmt_int L) None c es acc = UB.
Proof.
  intros Hi. induction es as [|e es IH]; intros Hin acc; [contradiction|]. cbn [sizes]. destruct Hin as [->|Hin].
  - unfold entry_size, cell_of at 1, aget. rewrite Hi. reflexivity.
  - pose proof (entry_size_safe L c e) as H. destruct (entry_size (fmt_int L) None c e) as [a| | |]; cbn [bind safe] in *; try contradiction; [|reflexivity].
    apply IH. exact Hin.
Qed.

Theorem C71_write_undefined : forall L (c : coo unit) n rows parts sched,
  first_rows c n rows -> concat (skipn n rows) <> [] -> Permutation (concat parts) (seq 0 (length (concat rows))) ->
  coo_write (fmt_int L) None c parts sched = UB.
Proof.
  intros L c n rows parts sched (Hn & Hm & Hx & Hy) Hk HP.
  assert (Hi : nth_error (co_x c) (length (entries (unweighted (firstn n rows)))) = Some None).
  { rewrite Hx. rewrite nth_error_app2 by (rewrite map_length; lia). rewrite map_length, Nat.sub_diag.
    destruct (concat (skipn n rows)); [congruence|]. reflexivity. }
  assert (Hin : In (length (entries (unweighted (firstn n rows)))) (concat parts)).
  { apply (Permutation_in _ (Permutation_sym HP)). apply in_seq.
    unfold entries. rewrite entries_length, unweighted_length. rewrite (concat_firstn_skipn n rows).
    destruct (concat (skipn n rows)); [congruence|]. cbn [length]. lia. }
  apply in_concat in Hin as (p & Hp & Hin). unfold coo_write, coo_write_plan.
  rewrite (mapM_ub _ False parts p); [reflexivity| |exact Hp|].
  - intros q _. apply sizes_safe.
  - apply (sizes_hole L c _ p Hi Hin).
Qed.
Print Assumptions C71_write_undefined.

(** In particular for the usual file with vertices numbered from 1 and the right
    number of vertices in its first line, unless the last vertex has no
    neighbours. *)
Theorem C71_one_based : forall L O f pg fn ft ch ch2 c1 c2,
  is_ity L -> is_ity O -> wf_adj f -> off_page pg (adj_text f) -> as_graph ft fn (adj_text f) -> graph_fits L O f ->
  0 < gc_T (lc_graph ch) -> ~ has_zero (a_body f) ->
  let rows := adj_rows (a_body f) in
  dval (a_n f) = Z.of_nat (length rows) ->
  (Z.of_nat (length (concat rows)) = dval (a_m f) \/ Z.of_nat (length (concat rows)) = 2 * dval (a_m f))%Z ->
  (Z.of_nat (length (concat rows)) <= imax L)%Z -> last rows [] <> [] ->
  Permutation (concat (lc_parts ch)) (seq 0 (length rows)) -> legal (length (concat rows)) c1 ->
  (exists c : coo unit, coo_open L O None no_flags pg fn (Some (adj_text f)) ft ch = Ok c /\
    co_m c = Z.of_nat (length (concat rows)) /\ co_x c <> [] /\ last (co_x c) (Some 0%Z) = None /\ last (co_y c) (Some 0%Z) = None) /\
  digraph_open (W:=unit) L O None pg fn (Some (adj_text f)) ft ch ch2 c1 c2 = UB /\
  (ft = AUTO -> matrix_open (W:=unit) L O None pg fn (Some (adj_text f)) ch c1 c2 = UB).
Proof.
  intros L O f pg fn ft ch ch2 c1 c2 HL HO Hf Hpg Hg Hfit HT Hz rows Hn Hm HmL Hlast HP HC.
  assert (Hr : graph_rows f ([] :: rows)) by (right; split; [exact Hz|reflexivity]).
  assert (Hh : header_ok f (length ([] :: rows))) by (split; [exact Hm|cbn [length]; lia]).
  assert (En : Z.to_nat (dval (a_n f)) = length rows) by lia.
  assert (Hsk : skipn (length rows) ([] :: rows) = [last rows []]).
  { assert (Hne : rows <> []) by (intros E; rewrite E in Hlast; apply Hlast; reflexivity).
    destruct (exists_last Hne) as (p & q & Eq). rewrite Eq, last_last, app_length. cbn [length]. rewrite Nat.add_1_r. cbn [skipn].
    rewrite skipn_app, skipn_all, Nat.sub_diag. reflexivity. }
  split.
  - destruct (C71_coo L O f pg fn ft ch ([] :: rows) HL HO Hf Hpg Hg Hfit HT Hr Hh HmL) as (c & E & _ & Hcm & Hx & Hy); [rewrite En; exact HP|].
    rewrite En, Hsk in Hx, Hy. cbn [concat] in Hx, Hy. rewrite app_nil_r in Hx, Hy.
    destruct (exists_last Hlast) as (p & q & Eq). rewrite Eq, app_length in Hx, Hy. cbn [length] in Hx, Hy.
    rewrite Nat.add_1_r, repeat_last in Hx, Hy.
    exists c. split; [exact E|]. split; [exact Hcm|]. rewrite Hx, Hy, !app_assoc, !last_last. split; [|split; reflexivity].
    intros E0. apply app_eq_nil in E0 as [_ E0]. discriminate.
  - apply (C71_undefined L O f pg fn ft ch ([] :: rows) ch2 c1 c2); try assumption; rewrite En; [exact HP|].
    rewrite Hsk. cbn [concat]. rewrite app_nil_r. exact Hlast.
Qed.
Print Assumptions C71_one_based.

(** ** Saving *)

Lemma all_mono {I St} (e1 e2 : I -> St -> res St) : (forall i s s', e1 i s = Ok s' -> e2 i s = Ok s') ->
  forall l s s', exec_all e1 l s = Ok s' -> exec_all e2 l s = Ok s'.
Proof.
  intros H. induction l as [|i l IH]; intros s s' E; cbn [exec_all] in *; [exact E|].
  apply bind_ok_inv in E as (a & Ea & E). rewrite (H _ _ _ Ea). cbn [bind]. apply IH. exact E.
Qed.

Lemma run_mono {I St} (e1 e2 : I -> St -> res St) : (forall i s s', e1 i s = Ok s' -> e2 i s = Ok s') ->
  forall sched ps s s', run e1 sched ps s = Ok s' -> run e2 sched ps s = Ok s'.
Proof.
  intros H. induction sched as [|t sched IH]; intros ps s s' E; cbn [run] in *; [eapply all_mono; eassumption|].
  destruct (pop t ps) as [[i ps']|]; [|apply IH; exact E].
  apply bind_ok_inv in E as (a & Ea & E). rewrite (H _ _ _ Ea). cbn [bind]. apply IH. exact E.
Qed.

(** Bytes behind those that are written do not matter. *)
Lemma wcopy_more src extra fp k f f' : wcopy src fp k f = Ok f' -> wcopy (src ++ extra) fp k f = Ok f'.
Proof.
  intros H. unfold wcopy in *. apply bind_ok_inv in H as (x & Ex & H). unfold aget in *.
  destruct (nth_error src k) as [y|] eqn:Ey; [|discriminate]. rewrite nth_error_app1 by (apply nth_error_Some; congruence).
  rewrite Ey. injection Ex as ->. exact H.
Qed.

Lemma par_write_more src extra k t w w' : par_write src k t w = Ok w' -> par_write (src ++ extra) k t w = Ok w'.
Proof.
  unfold par_write. intros E. apply bind_ok_inv in E as (a & Ea & E).
  rewrite (run_mono (wcopy src (wf_fp w)) (wcopy (src ++ extra) (wf_fp w)) (wcopy_more src extra (wf_fp w)) _ _ _ _ Ea). exact E.
Qed.

Lemma csr_save_more {W} L O (wc : option (codec W)) (c : csr W) more to te tw w :
  csr_save L O wc c to te tw = Ok w ->
  csr_save L O wc (mkCsr (cs_off c ++ more) (cs_end c) (cs_w c) (cs_n c) (cs_m c) (cs_nrows c) (cs_ncols c)) to te tw = Ok w.
Proof.
  unfold csr_save. change (csr_save_size L O wc (mkCsr (cs_off c ++ more) (cs_end c) (cs_w c) (cs_n c) (cs_m c) (cs_nrows c) (cs_ncols c))) with (csr_save_size L O wc c).
  intros E. apply bind_ok_inv in E as (sz & -> & E). cbn [bind]. apply bind_ok_inv in E as (w0 & -> & E). cbn [bind].
  unfold csr_save_to in *. cbn [cs_off cs_end cs_w cs_n cs_m cs_nrows cs_ncols] in *.
  do 8 (apply bind_ok_inv in E as (? & Ex & E); rewrite Ex; clear Ex; cbn [bind]).
  apply bind_ok_inv in E as (w1 & Ex & E). unfold raw at 1. rewrite flat_map_app. fold (raw (cint O) (cs_off c)).
  rewrite (par_write_more _ _ _ _ _ _ Ex). exact E.
Qed.

Lemma numerals_digits s : forall cur, Forall (fun c => is_digit c = true) cur -> Forall (Forall (fun c => is_digit c = true)) (numerals_from cur s).
Proof.
  induction s as [|c s IH]; intros cur H; cbn [numerals_from]; [destruct cur; [constructor|constructor; [exact H|constructor]]|].
  destruct (is_digit c) eqn:E; [apply IH; apply Forall_app; split; [exact H|repeat constructor; exact E]|].
  destruct cur; [apply IH; constructor|constructor; [exact H|apply IH; constructor]].
Qed.

Lemma adj_rows_nonneg b : Forall (fun v => 0 <= v)%Z (concat (adj_rows b)).
Proof.
  apply Forall_concat. unfold adj_rows. apply Forall_map. apply Forall_forall. intros l _. apply Forall_map.
  eapply Forall_impl; [|apply numerals_digits; constructor]. intros ds. apply dval_nonneg.
Qed.

(** The CSR made of such a file, saved and loaded again, has the offsets of the
    announced rows only; all else is as it was. *)
Theorem C71_saved : forall L O f pg fn ft ch rows tx ty tw pg' fn' ft' ch',
  is_ity L -> is_ity O -> wf_adj f -> off_page pg (adj_text f) -> as_graph ft fn (adj_text f) -> graph_fits L O f ->
  0 < gc_T (lc_graph ch) -> graph_rows f rows -> header_ok f (length rows) ->
  1 <= fst tx -> 1 <= fst ty -> 1 <= fst tw -> teams ch' -> ft' = AUTO \/ ft' = PIGO_CSR_BIN ->
  let n := Z.to_nat (dval (a_n f)) in
  exists (c c' : csr unit) w s, csr_open L O None pg fn (Some (adj_text f)) ft ch = Ok c /\ stores_rows c rows /\
    csr_save L O None c tx ty tw = Ok w /\ contents w s /\ csr_open L O None pg' fn' (Some s) ft' ch' = Ok c' /\
    cs_off c' = firstn (S n) (cs_off c) /\ cs_n c' = Z.of_nat n /\
    cs_end c' = cs_end c /\ cs_m c' = cs_m c /\ cs_nrows c' = cs_nrows c /\ cs_ncols c' = cs_ncols c.
Proof.
  intros L O f pg fn ft ch rows tx ty tw pg' fn' ft' ch' HL HO Hf Hpg Hg Hfit HT Hr Hh T1 T2 T3 HU Hft n.
  assert (Ec : concat rows = concat (adj_rows (a_body f))) by (destruct Hr as [[_ ->]|[_ ->]]; reflexivity).
  assert (HmO : (Z.of_nat (length (concat rows)) <= imax O)%Z) by (rewrite Ec; apply Hfit).
  assert (H0 : (0 <= dval (a_n f))%Z) by (apply dval_nonneg; apply Hf).
  assert (Hl : length rows <= S (length (adj_rows (a_body f)))) by (destruct Hr as [[_ ->]|[_ ->]]; cbn [length]; lia).
  assert (Hle : n <= length rows) by (destruct Hh as [_ Hh]; unfold n; lia).
  destruct (graph_read L O O f pg rows (lc_graph ch)) as [H _]; try assumption.
  destruct (H Hh) as (c & E & H1 & Hw & H2 & H3 & H4). clear H.
  pose proof H1 as (Em & Eo & Ee).
  destruct Hfit as (F1 & F2 & (R1 & R2) & F4 & F5).
  set (c' := mkCsr (firstn (S n) (cs_off c)) (cs_end c) (cs_w c) (cs_n c) (cs_m c) (cs_nrows c) (cs_ncols c)).
  assert (HLmin : (0 <= imax L)%Z) by (pose proof (imax_2 L HL); lia).
  assert (IR : forall t z, is_ity t -> (0 <= z <= imax t)%Z -> inrange t z = true).
  { intros t z Ht Hz. unfold inrange. pose proof (ity_facts t Ht). apply andb_true_intro. split; apply Z.leb_le; lia. }
  assert (Hlen : length (cs_off c) = S (length rows)) by (rewrite Eo, map_length, seq_length; reflexivity).
  assert (Hs' : csr_shape (wbin (W:=unit) None) c').
  { unfold csr_shape, c'. cbn [cs_n cs_off cs_end cs_m cs_w]. split; [lia|]. split; [rewrite firstn_length, Hlen; unfold n in *; lia|].
    split; [rewrite Ee, map_length, Em; reflexivity|]. exact Hw. }
  assert (Hf' : csr_full L O (wbin (W:=unit) None) (fun _ => True) c').
  { unfold csr_full, c'. cbn [cs_n cs_off cs_end cs_m cs_w cs_nrows cs_ncols]. split; [apply IR; [exact HL|lia]|]. split; [rewrite Em; apply IR; [exact HO|lia]|].
    split; [eexists; split; [exact H3|apply IR; [exact HL|lia]]|].
    split; [eexists; split; [exact H4|apply IR; [exact HL|]]|].
    { rewrite Ec. pose proof (max_of_nonneg (concat (adj_rows (a_body f)))).
      assert (max_of (concat (adj_rows (a_body f))) <= imax L - 1)%Z by (apply max_of_le; [pose proof (imax_2 L HL); lia|]; eapply Forall_impl; [|exact F5]; cbn; intros; lia). lia. }
    split.
    - rewrite Eo. apply Forall_forall. intros o Ho. assert (Ho' : In o (map (fun v => Some (Z.of_nat (length (concat (firstn v rows))))) (seq 0 (S (length rows))))) by (rewrite <- (firstn_skipn (S n)); apply in_or_app; left; exact Ho). clear Ho. rename Ho' into Ho. apply in_map_iff in Ho as (v & <- & Hv). eexists. split; [reflexivity|].
      apply IR; [exact HO|]. split; [lia|]. rewrite (concat_firstn_skipn v rows) in HmO. lia.
    - split; [|exact Logic.I]. rewrite Ee. apply Forall_forall. intros o Ho. apply in_map_iff in Ho as (v & <- & Hv). eexists. split; [reflexivity|].
      rewrite Ec in Hv. rewrite Forall_forall in F5. apply IR; [exact HL|]. specialize (F5 _ Hv). pose proof (adj_rows_nonneg (a_body f)) as F6. rewrite Forall_forall in F6. specialize (F6 _ Hv). lia. }
  destruct (C16_csr_round_trip L O (None : option (wmode unit)) (fun _ => True) c' tx ty tw pg' fn' ft' ch') as (w & s & Ew & Hc & Es); try assumption.
  { unfold c', room. cbn [cs_n]. rewrite H2. split; [lia|]. destruct R2; [left; lia|right; lia]. }
  exists c, c', w, s. split; [rewrite csr_open_graph by assumption; exact E|]. split; [exact H1|].
  split; [|split; [exact Hc|split; [exact Es|]]].
  - pose proof (csr_save_more L O None c' (skipn (S n) (cs_off c)) tx ty tw w Ew) as H. unfold c' in H. cbn [cs_off cs_end cs_w cs_n cs_m cs_nrows cs_ncols] in H.
    rewrite firstn_skipn in H. destruct c. exact H.
  - unfold c'. cbn [cs_off cs_n cs_end cs_m cs_nrows cs_ncols]. split; [reflexivity|]. split; [unfold n; lia|]. repeat split.
Qed.
Print Assumptions C71_saved.

(** ** The hypotheses are met *)

(** Three vertices numbered from 1, two undirected edges: the entry of the last
    vertex is missing. *)
Example C71_applies : exists c : coo unit,
  wf_adj ex_g1 /\ off_page 4096 (adj_text ex_g1) /\ graph_fits i32 u64 ex_g1 /\ ~ has_zero (a_body ex_g1) /\
  adj_rows (a_body ex_g1) = [[2; 3]; [1]; [1]]%Z /\ as_graph AUTO (chars "b.graph") (adj_text ex_g1) /\
  let ch := mkLchoice 1 [] (1, []) (1, []) (1, []) (lc_graph (ex_gch 3)) (mkChoice 1 0 [] [] [] [] []) [[1]; [0; 2]] [0; 1] in
  let c1 := mkChoice 2 1 [[0; 3]; [1; 2]] [[1]; [0; 2; 3]] [1] [0; 1] [1; 0; 1] in
  legal 4 c1 /\
  coo_open i32 u64 None no_flags 4096 (chars "b.graph") (Some (adj_text ex_g1)) AUTO ch = Ok c /\
  co_m c = 4%Z /\ co_n c = Some 3%Z /\ co_x c = [Some 1; Some 1; Some 2; None]%Z /\ co_y c = [Some 2; Some 3; Some 1; None]%Z /\
  matrix_open (W:=unit) i32 u64 None 4096 (chars "b.graph") (Some (adj_text ex_g1)) ch c1 c1 = UB /\
  coo_write (fmt_int i32) None c [[0; 1]; [2; 3]] [0] = UB.
Proof.
  eexists. split; [exact ex_g1_wf|]. split; [split; [lia|discriminate]|].
  split; [fits|].
  split; [unfold has_zero; match goal with |- ~ In _ ?l => let l' := eval vm_compute in l in change l with l' end; intros H; repeat (destruct H as [H|H]; [discriminate|]); destruct H|].
  split; [reflexivity|].
  split; [right; split; [reflexivity|]; split; [intros (b & r & E); discriminate|exists (chars "b"); reflexivity]|].
  cbn zeta. split; [unfold legal; cbn [ch_T ch_single ch_parts1 ch_parts2 concat app length]; split; [lia|]; split; [lia|]; split|].
  1, 2: cbn [seq app]; apply NoDup_Permutation; [repeat constructor; cbn; intuition discriminate|repeat constructor; cbn; intuition discriminate|intros x; cbn; tauto].
  split; [vm_compute; reflexivity|]. split; [reflexivity|]. split; [reflexivity|]. split; [reflexivity|]. split; [reflexivity|].
  split; vm_compute; reflexivity.
Qed.
