(** * LoadTerm: every constructor that reads a file ends *)

From Verif Require Import Base Reader Sched SchedLemmas Spec ReaderLemmas Coo Safe Term Ascii Csr Codec Bin Graph Load Tensor TensorSafe GraphTerm.

(** Results other than "does not end" are preserved by everything without a
    loop of its own. *)
Ltac fin := repeat first
  [ discriminate
  | assumption
  | apply arith_fin
  | apply fin_bind'; [|intros ? _]
  | match goal with |- (match ?x with _ => _ end) <> Stuck => destruct x end ].

Lemma load_fin m d : load m d <> Stuck.
Proof. unfold load. fin. Qed.
Lemma load_n_fin m n : forall d, load_n m n d <> Stuck.
Proof. induction n as [|n IH]; intros d; cbn [load_n]; [discriminate|]. apply fin_bind'; [apply load_fin|]. intros c _. apply fin_bind'; [apply IH|]. discriminate. Qed.
Lemma at_str_fin m e d s : at_str m e d s <> Stuck.
Proof. unfold at_str. dif; [discriminate|]. apply fin_bind'; [apply load_n_fin|]. discriminate. Qed.
Lemma guess_fin f : guess f <> Stuck.
Proof. unfold guess. cbn zeta. repeat first [discriminate|apply at_str_fin|apply fin_bind'; [|intros ? _]|dif]. Qed.
Lemma used_fin f ft : used f ft <> Stuck.
Proof. destruct ft; cbn [used]; try discriminate. apply guess_fin. Qed.
Lemma rd_str_fin s f : rd_str s f <> Stuck.
Proof. unfold rd_str. apply fin_bind'; [apply at_str_fin|]. intros b _. fin. Qed.
Lemma rd_fin {V} (c : codec V) f : rd c f <> Stuck.
Proof. unfold rd. apply fin_bind'; [apply load_n_fin|]. discriminate. Qed.
Lemma aset_fin {V} i (v : V) l : aset i v l <> Stuck.
Proof. unfold aset. fin. Qed.
Lemma aget_fin {V} i (l : list (option V)) : aget i l <> Stuck.
Proof. unfold aget. fin. Qed.
Lemma cell_of_fin {V} i (l : list (option V)) : cell_of i l <> Stuck.
Proof. unfold cell_of, aget. destruct (nth_error l i) as [[a|]|]; discriminate. Qed.
Lemma idx_fin v : idx v <> Stuck.
Proof. unfold idx. fin. Qed.
Lemma mapM_fin {A B} (f : A -> res B) l : (forall a, In a l -> f a <> Stuck) -> mapM f l <> Stuck.
Proof.
  induction l as [|a l IH]; intros H; cbn [mapM]; [discriminate|]. apply fin_bind'; [apply H; left; reflexivity|]. intros b _.
  apply fin_bind'; [apply IH; intros; apply H; right; assumption|]. discriminate.
Qed.

Lemma rd_array_fin {V} (c : codec V) k v tm f : rd_array c k v tm f <> Stuck.
Proof.
  unfold rd_array, par_read. apply fin_bind'; [|intros [a f'] _; discriminate]. apply fin_bind'; [|discriminate].
  apply run_fin. intros i s. unfold rcopy. apply fin_bind'; [apply load_fin|]. intros b _. apply aset_fin.
Qed.
Lemma get_weights_fin {W} (wc : option (codec W)) l k tm f : get_weights wc l k tm f <> Stuck.
Proof. unfold get_weights. destruct wc; [|discriminate]. dif; [apply rd_array_fin|discriminate]. Qed.
Lemma coo_alloc_fin {W} b k : coo_alloc (W:=W) b k <> Stuck.
Proof. unfold coo_alloc. fin. Qed.
Lemma plus1_fin L n : plus1 L n <> Stuck.
Proof. unfold plus1. fin. Qed.

Ltac fins := repeat first
  [ discriminate
  | apply arith_fin | apply rd_str_fin | apply rd_fin | apply rd_array_fin | apply get_weights_fin | apply coo_alloc_fin | apply csr_alloc_fin | apply plus1_fin
  | apply cell_of_fin | apply idx_fin | apply aset_fin | apply aget_fin | apply tensor_alloc_fin
  | apply fin_bind'; [|intros ? _]
  | match goal with |- (match ?x with _ => _ end) <> Stuck => destruct x end ].

Lemma coo_read_bin_fin {W} L O (wc : option (codec W)) f a b c : coo_read_bin L O wc f a b c <> Stuck.
Proof. unfold coo_read_bin. fins. Qed.
Lemma csr_read_bin_fin {W} L O OS (wc : option (codec W)) f a b c : csr_read_bin L O OS wc f a b c <> Stuck.
Proof. unfold csr_read_bin. fins. Qed.
Lemma tensor_read_bin_fin {W} L O (wc : option (codec W)) f a b : tensor_read_bin L O wc f a b <> Stuck.
Proof. unfold tensor_read_bin. fins. Qed.

(** ** Conversions *)
Lemma osum_fin O l : forall a, osum O a l <> Stuck.
Proof. induction l as [|d l IH]; intros a; cbn [osum]; [discriminate|]. apply fin_bind'; [apply arith_fin|]. intros; apply IH. Qed.
Lemma ostarts_fin O l : forall a, ostarts O a l <> Stuck.
Proof. induction l as [|d l IH]; intros a; cbn [ostarts]; [discriminate|]. apply fin_bind'; [apply arith_fin|]. intros b _. apply fin_bind'; [apply IH|]. discriminate. Qed.
Lemma off_prog_fin O degs l : forall a, off_prog O degs l a <> Stuck.
Proof. induction l as [|d l IH]; intros a; cbn [off_prog]; [discriminate|]. apply fin_bind'; [apply cell_of_fin|]. intros b _. apply fin_bind'; [apply arith_fin|]. intros c _. apply fin_bind'; [apply IH|]. discriminate. Qed.
Lemma offsets_fin O n T k m degs sched off : offsets_of O n T k m degs sched off <> Stuck.
Proof.
  unfold offsets_of. apply fin_bind'.
  { apply mapM_fin. intros t _. apply fin_bind'; [apply mapM_fin; intros; apply cell_of_fin|]. intros; apply osum_fin. }
  intros s _. apply fin_bind'; [apply ostarts_fin|]. intros st _. apply fin_bind'; [apply mapM_fin; intros; apply off_prog_fin|]. intros ps _.
  apply run_fin. intros i l. unfold sexec. apply aset_fin.
Qed.
Lemma scexec_fin {W} O (c : coo W) off i s : scexec O c off i s <> Stuck.
Proof. destruct i; cbn [scexec]; unfold slot; fins. Qed.
Lemma convert_coo_fin {W} L O w (c : coo W) ch : convert_coo L O w c ch <> Stuck.
Proof.
  unfold convert_coo. destruct (co_n c) as [n|]; [|discriminate]. cbn zeta. apply fin_bind'; [apply csr_alloc_fin|]. intros [[e ws] o] _. dif; [discriminate|].
  apply fin_bind'; [apply mapM_fin; intros; apply mapM_fin; intros; apply cell_of_fin|]. intros incs _.
  apply fin_bind'; [apply run_fin; intros i s; unfold inc_exec; fins|]. intros degs _.
  apply fin_bind'; [apply offsets_fin|]. intros off _. apply fin_bind'; [apply run_fin; intros; apply scexec_fin|]. discriminate.
Qed.
Lemma csr_row_loop_fin {W} fl w (c : csr W) v len : forall k pos, csr_row_loop fl w c v len k pos <> Stuck.
Proof.
  induction len as [|len IH]; intros k pos; cbn [csr_row_loop]; [discriminate|]. apply fin_bind'; [apply cell_of_fin|]. intros y _.
  apply fin_bind'; [fins|]. intros a _. apply fin_bind'; [apply IH|]. discriminate.
Qed.
Lemma cexec_fin {W} (i : cinstr W) s : cexec i s <> Stuck.
Proof. eapply safe_false_ne. apply cexec_term. Qed.
Lemma convert_csr_fin {W} O fl w (c : csr W) parts sched : convert_csr O fl w c parts sched <> Stuck.
Proof.
  unfold convert_csr. apply fin_bind'; [fins|]. intros m' _. dif; [discriminate|]. apply fin_bind'; [apply coo_alloc_fin|]. intros st0 _.
  apply fin_bind'.
  { unfold csr_progs. apply mapM_fin. intros p _. apply fin_bind'; [|discriminate]. apply mapM_fin. intros v _. unfold csr_row.
    apply fin_bind'; [apply cell_of_fin|]. intros s _. apply fin_bind'; [apply cell_of_fin|]. intros e _. apply fin_bind'; [apply idx_fin|]. intros k _. apply csr_row_loop_fin. }
  intros ps _. apply fin_bind'; [apply run_fin; intros; apply cexec_fin|]. discriminate.
Qed.

(** ** Matrix Market *)
Lemma next_line_any m d : safe False (next_line m (flen m) d) (fun _ => True).
Proof. unfold next_line. eapply safe_bind; [apply scan_any|]. intros d1 _. apply next_any. Qed.
Lemma read_mm_fin {W} L O (wr : option (wrd W)) fl m d0 T sched : owterm wr -> read_mm L O wr fl m d0 (flen m) T sched <> Stuck.
Proof.
  intros Hw. unfold read_mm. apply fin_bind'; [apply at_str_fin|]. intros h _. dif; [discriminate|].
  eapply fin_bind; [apply next_any|]. intros d1 _. eapply fin_bind; [apply read_any|]. intros [nr d2] _. apply fin_bind'; [apply arith_fin|]. intros nrows _.
  eapply fin_bind; [apply next_any|]. intros d3 _. eapply fin_bind; [apply read_any|]. intros [nc d4] _. apply fin_bind'; [apply arith_fin|]. intros ncols _.
  eapply fin_bind; [apply next_any|]. intros d5 _. eapply fin_bind; [apply read_any|]. intros [nnz d6] _.
  eapply fin_bind; [apply next_line_any|]. intros d7 _. apply fin_bind'; [apply read_el_fin; exact Hw|]. intros c _.
  unfold Coo.twice. repeat first [discriminate|apply arith_fin|apply fin_bind'; [|intros ? _]|match goal with |- (match ?x with _ => _ end) <> Stuck => destruct x end].
Qed.

(** ** The constructors *)

(** The adjacency reader is not used, or the last byte of the file does not
    start a comment. *)
Definition may_end (f : rfile) (ft : ftype) : Prop := noc (rf_mem f) (flen (rf_mem f)) \/ used f ft <> Ok GRAPH.

Definition wm_term {W} (wm : option (wmode W)) : Prop := owterm (wtext wm).

Lemma csr_direct_fin {W} L O OS (wm : option (wmode W)) f ftu ch : (noc (rf_mem f) (flen (rf_mem f)) \/ ftu <> GRAPH) -> csr_direct L O OS wm f ftu ch <> Stuck.
Proof.
  intros H. destruct ftu; cbn [csr_direct]; try discriminate; [apply csr_read_bin_fin|]. dif; [discriminate|].
  unfold with_reader. apply fin_bind'; [|discriminate]. apply read_graph_fin. destruct H; [assumption|congruence].
Qed.

Lemma coo_read_fin {W} L O (wm : option (wmode W)) fl f ft ch : wm_term wm -> may_end f ft -> coo_read L O wm fl f ft ch <> Stuck.
Proof.
  intros Hw Hg. unfold coo_read. apply fin_bind'; [apply used_fin|]. intros ftu E.
  assert (Hg' : noc (rf_mem f) (flen (rf_mem f)) \/ ftu <> GRAPH) by (destruct Hg as [?|Hg]; [left; assumption|right; rewrite E in Hg; congruence]).
  destruct ftu; try discriminate.
  - unfold with_reader. apply fin_bind'; [apply read_mm_fin; exact Hw|discriminate].
  - unfold with_reader. apply fin_bind'; [apply read_el_fin; exact Hw|discriminate].
  - apply coo_read_bin_fin.
  - apply fin_bind'; [apply csr_direct_fin; exact Hg'|]. intros [c f'] _. apply fin_bind'; [apply convert_csr_fin|]. discriminate.
  - apply fin_bind'; [apply csr_direct_fin; exact Hg'|]. intros [c f'] _. apply fin_bind'; [apply convert_csr_fin|]. discriminate.
Qed.

Lemma csr_read_fin {W} L O (wm : option (wmode W)) f ft ch : wm_term wm -> may_end f ft -> csr_read L O wm f ft ch <> Stuck.
Proof.
  intros Hw Hg. unfold csr_read. apply fin_bind'; [apply used_fin|]. intros ftu E.
  assert (Hg' : noc (rf_mem f) (flen (rf_mem f)) \/ ftu <> GRAPH) by (destruct Hg as [?|Hg]; [left; assumption|right; rewrite E in Hg; congruence]).
  assert (X : forall ft', used f ft' = Ok ftu -> ftu <> GRAPH -> coo_read L O wm no_flags f ft' ch <> Stuck) by (intros; apply coo_read_fin; [exact Hw|right; congruence]).
  destruct ftu; try (apply csr_direct_fin; exact Hg');
    (apply fin_bind'; [apply X; [reflexivity|discriminate]|]; intros [c f'] _; apply fin_bind'; [apply convert_coo_fin|]; discriminate).
Qed.


(** *** Reading does not change the file or its name *)
Definition same (f f' : rfile) : Prop := rf_mem f' = rf_mem f /\ rf_name f' = rf_name f.
Lemma same_refl f : same f f. Proof. split; reflexivity. Qed.
Lemma same_trans a b c : same a b -> same b c -> same a c.
Proof. intros [H1 H2] [H3 H4]. split; congruence. Qed.
Lemma same_bind {A B} (r : res (A * rfile)) (k : A * rfile -> res (B * rfile)) f b f' :
  (forall a f1, r = Ok (a, f1) -> same f f1) -> (forall a f1, same f f1 -> k (a, f1) = Ok (b, f') -> same f f') -> bind r k = Ok (b, f') -> same f f'.
Proof. intros H1 H2 E. destruct r as [[a f1]| | |]; cbn [bind] in E; try discriminate. exact (H2 a f1 (H1 a f1 eq_refl) E). Qed.

Lemma rd_same {V} (c : codec V) f v f' : rd c f = Ok (v, f') -> same f f'.
Proof. unfold rd. destruct (load_n _ _ _); cbn [bind]; try discriminate. intros E. injection E as <- <-. split; reflexivity. Qed.
Lemma rd_str_same s f f' : rd_str s f = Ok f' -> same f f'.
Proof. unfold rd_str. destruct (at_str _ _ _ _) as [[|]| | |]; cbn [bind]; try discriminate. intros E. injection E as <-. split; reflexivity. Qed.
Lemma rd_array_same {V} (c : codec V) k v tm f a f' : rd_array c k v tm f = Ok (a, f') -> same f f'.
Proof. unfold rd_array, par_read. destruct (run _ _ _ _); cbn [bind]; try discriminate. intros E. injection E as <- <-. split; reflexivity. Qed.
Lemma get_weights_same {W} (wc : option (codec W)) l k tm f a f' : get_weights wc l k tm f = Ok (a, f') -> same f f'.
Proof.
  unfold get_weights. destruct wc; [|intros E; injection E as <- <-; split; reflexivity].
  destruct (0 <? _); [apply rd_array_same|intros E; injection E as <- <-; split; reflexivity].
Qed.

Ltac unb H := match type of H with
  | bind ?r _ = Ok _ => let E := fresh "E" in destruct r as [?| | |] eqn:E; cbn [bind] in H; [|discriminate H|discriminate H|discriminate H]
  | (match ?x with _ => _ end) = Ok _ => let E := fresh "E" in destruct x eqn:E; try discriminate H
  end.
Ltac sames := repeat match goal with
  | E : rd_str _ _ = Ok _ |- _ => apply rd_str_same in E
  | E : rd _ _ = Ok _ |- _ => apply rd_same in E
  | E : rd_array _ _ _ _ _ = Ok _ |- _ => apply rd_array_same in E
  | E : get_weights _ _ _ _ _ = Ok _ |- _ => apply get_weights_same in E
  end.
Ltac chain := match goal with
  | |- same ?a ?a => apply same_refl
  | H : same ?a ?b |- same ?a ?c => refine (same_trans a b c H _); clear H; chain
  end.

Lemma coo_read_bin_same {W} L O (wc : option (codec W)) f a b c r f' : coo_read_bin L O wc f a b c = Ok (r, f') -> same f f'.
Proof. unfold coo_read_bin. intros H. repeat unb H. injection H as <- <-. sames. chain. Qed.
Lemma csr_read_bin_same {W} L O OS (wc : option (codec W)) f a b c r f' : csr_read_bin L O OS wc f a b c = Ok (r, f') -> same f f'.
Proof. unfold csr_read_bin. intros H. repeat unb H. injection H as <- <-. sames. chain. Qed.
Lemma with_reader_same {A} (k : mem -> nat -> nat -> res A) f a f' : with_reader k f = Ok (a, f') -> same f f'.
Proof. unfold with_reader. destruct (k _ _ _); cbn [bind]; try discriminate. intros E. injection E as <- <-. apply same_refl. Qed.
Lemma csr_direct_same {W} L O OS (wm : option (wmode W)) f ftu ch r f' : csr_direct L O OS wm f ftu ch = Ok (r, f') -> same f f'.
Proof. destruct ftu; cbn [csr_direct]; try discriminate; [apply csr_read_bin_same|]. destruct (is_some wm); [discriminate|apply with_reader_same]. Qed.
Lemma coo_read_same {W} L O (wm : option (wmode W)) fl f ft ch r f' : coo_read L O wm fl f ft ch = Ok (r, f') -> same f f'.
Proof.
  unfold coo_read. intros H. unb H. destruct a; try discriminate; try (eapply with_reader_same; exact H); try (eapply coo_read_bin_same; exact H).
  - repeat unb H. injection H as <- <-. eapply csr_direct_same; eassumption.
  - repeat unb H. injection H as <- <-. eapply csr_direct_same; eassumption.
Qed.
Lemma csr_read_same {W} L O (wm : option (wmode W)) f ft ch r f' : csr_read L O wm f ft ch = Ok (r, f') -> same f f'.
Proof.
  unfold csr_read. intros H. unb H. destruct a; try (eapply csr_direct_same; exact H);
  (repeat unb H; injection H as <- <-; eapply coo_read_same; eassumption).
Qed.

Lemma guess_graph f : guess f = Ok GRAPH -> has_suffix (rf_name f) ext_graph = true.
Proof. unfold guess. cbn zeta. intros H. repeat unb H. reflexivity. Qed.

Lemma digraph_read_fin {W} L O (wm : option (wmode W)) f ft ch1 ch2 c1 c2 : wm_term wm ->
  (noc (rf_mem f) (flen (rf_mem f)) \/ (ft <> GRAPH /\ has_suffix (rf_name f) ext_graph = false)) ->
  digraph_read L O wm f ft ch1 ch2 c1 c2 <> Stuck.
Proof.
  intros Hw Hg.
  assert (HA : forall f', same f f' -> may_end f' AUTO).
  { intros f' [H1 H2]. unfold may_end. rewrite H1. destruct Hg as [?|[_ H]]; [left; assumption|]. right. cbn [used]. intros E. apply guess_graph in E. congruence. }
  assert (HF : may_end f ft).
  { unfold may_end. destruct Hg as [?|[H H']]; [left; assumption|]. right. destruct ft; cbn [used]; try congruence. intros E. apply guess_graph in E. congruence. }
  unfold digraph_read. apply fin_bind'; [apply used_fin|]. intros ftu _.
  destruct ftu; try (apply fin_bind'; [apply coo_read_fin; [exact Hw|exact HF]|]; intros [c f'] _;
    apply fin_bind'; [unfold digraph_of_coo; apply fin_bind'; [apply convert_coo_fin|]; intros; apply fin_bind'; [apply convert_coo_fin|]; discriminate|]; intros [i o] _; discriminate).
  apply fin_bind'; [apply rd_str_fin|]. intros f1 E1. apply rd_str_same in E1. apply fin_bind'; [apply csr_read_fin; [exact Hw|apply HA; exact E1]|].
  intros [i f2] E2. apply csr_read_same in E2. apply fin_bind'; [apply csr_read_fin; [exact Hw|apply HA; eapply same_trans; eassumption]|]. intros [o f3] _. discriminate.
Qed.
