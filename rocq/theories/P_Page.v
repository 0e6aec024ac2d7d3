(** * Property C09, continued: every text format, every constructor

    A file whose size is a multiple of the page size, whatever is in it. *)

From Coq Require Import String.
From Verif Require Import Base Reader Sched Spec SpecFp SpecMm SpecTensor SpecGraph ReaderLemmas Coo CooLemmas WeightLemmas ElSpec ElFinal ElExamples Safe Csr Codec Bin SpecBin BinLemmas BinSave BinLoad Graph Load BinOpen Tensor MmLemmas PageMul P_Bin P_Tensor P_Graph P_Mm.
Open Scope list_scope.
Notation length := List.length.

(** The file is taken for text: for an edge list, for a Matrix Market file with
    the banner PIGO knows, or, without weights, for an adjacency file. *)
Definition as_text (weighted : bool) (ft : ftype) (fn s : list byte) : Prop :=
  as_edge_list ft fn s \/
  (as_mm ft fn /\ begins s mm_banner) \/
  (as_graph ft fn s /\ weighted = false).

Lemma mm_detect' pg fn s ft : begins s mm_banner -> as_mm ft fn -> used (reading s pg fn []) ft = Ok MATRIX_MARKET.
Proof.
  intros (b & r & E) Hg. assert (Hs : s <> []) by (rewrite E; discriminate).
  destruct Hg as [->|(-> & H2)]; [reflexivity|].
  destruct (C21_detection pg fn s Hs) as (g & Eg & _ & _ & _ & _ & HD). rewrite open_reading in Eg by exact Hs. injection Eg as <-.
  cbn [used].
  assert (P : forall t, ~ begins s (chars "PIGO" ++ t)).
  { intros t (b' & r' & E'). rewrite E in E'. cbn [app chars map list_ascii_of_string mm_banner] in E'. discriminate. }
  destruct (HD (P (chars "-COO-v1")) (P (chars "-CSR-v2")) (P (chars "-DiGraph-v1")) (P (chars "-Tensor-2"))) as (_ & HE & _).
  apply HE; [|exact H2]. exact (P []).
Qed.

Lemma map_ge pg s : 0 < pg -> flen (mkMem s pg) <= map_len (mkMem s pg).
Proof.
  intros Hp. unfold map_len, flen; cbn [bytes page].
  pose proof (Nat.div_mod (length s + (pg - 1)) pg ltac:(lia)) as E.
  pose proof (Nat.mod_upper_bound (length s + (pg - 1)) pg ltac:(lia)). rewrite (Nat.mul_comm pg) in E.
  generalize dependent ((length s + (pg - 1)) / pg * pg). intros; lia.
Qed.

Section Page.
  Variables (pg : nat) (s : list byte).
  Hypothesis Hpg : 0 < pg.
  Hypothesis Hmod : length s mod pg = 0.
  Hypothesis Hs : s <> [].

  Let mem0 := mkMem s pg.
  Let Hend : load mem0 (flen mem0) = UB. Proof. apply load_past; assumption. Qed.
  Let Hmap : flen mem0 <= map_len mem0. Proof. apply map_ge. exact Hpg. Qed.

  Lemma coo_text_ub {W} L O (wm : option (wmode W)) fl fn ft ft' ch :
    as_text (is_some wm) ft fn s -> used (reading s pg fn []) ft = Ok ft' -> 1 <= lc_T ch -> 1 <= gc_T (lc_graph ch) ->
    coo_read L O wm fl (reading s pg fn []) ft ch = UB /\
    coo_read L O wm fl (reading s pg fn []) ft' ch = UB.
  Proof.
    intros Ht Hu HT HG.
    assert (Hu' : used (reading s pg fn []) ft' = Ok ft').
    { destruct ft'; try reflexivity. destruct Ht as [Ht|[[Ht Hb]|[Ht _]]].
      - rewrite (edge_list_detect pg fn s ft Hs Ht) in Hu. discriminate.
      - rewrite (mm_detect' pg fn s ft Hb Ht) in Hu. discriminate.
      - rewrite (graph_detect pg fn s ft Hs Ht) in Hu. discriminate. }
    assert (H : forall g, used (reading s pg fn []) g = Ok ft' -> coo_read L O wm fl (reading s pg fn []) g ch = UB); [|split; apply H; assumption].
    intros g Hg. unfold coo_read. rewrite Hg. cbn [bind].
    destruct Ht as [Ht|[[Ht Hb]|[Ht Hw]]].
    - rewrite (edge_list_detect pg fn s ft Hs Ht) in Hu. injection Hu as <-. unfold with_reader. cbn [reading rf_mem rf_fp List.length].
      fold mem0. rewrite (read_el_past mem0 Hend Hmap); [reflexivity|lia|exact HT].
    - rewrite (mm_detect' pg fn s ft Hb Ht) in Hu. injection Hu as <-. unfold with_reader. cbn [reading rf_mem rf_fp List.length].
      fold mem0. rewrite (read_mm_past mem0 Hend Hmap); [reflexivity|lia|exact HT|].
      pose proof (at_str_spec s pg [] s mm_header eq_refl) as E. cbn [List.length] in E. unfold flen, mem0. cbn [bytes]. etransitivity; [exact E|]. f_equal.
      apply begins_dec. rewrite <- banner_eq. exact Hb.
    - rewrite (graph_detect pg fn s ft Hs Ht) in Hu. injection Hu as <-. unfold csr_direct. rewrite Hw. unfold with_reader. cbn [reading rf_mem rf_fp List.length].
      fold mem0. rewrite (read_graph_past mem0 Hend Hmap); [reflexivity|lia|exact HG].
  Qed.
End Page.

(** Reading it as a COO, a CSR (Graph) or a DiGraph loads the byte after the
    mapping, for every team of threads. *)
Theorem C09_every_format : forall {W} L O (wm : option (wmode W)) fl pg s fn ft ch ch2 c1 c2,
  0 < pg -> length s mod pg = 0 -> s <> [] -> as_text (is_some wm) ft fn s ->
  1 <= lc_T ch -> 1 <= gc_T (lc_graph ch) ->
  coo_open L O wm fl pg fn (Some s) ft ch = UB /\
  csr_open L O wm pg fn (Some s) ft ch = UB /\
  digraph_open L O wm pg fn (Some s) ft ch ch2 c1 c2 = UB.
Proof.
  intros W L O wm fl pg s fn ft ch ch2 c1 c2 Hp Hm Hs Ht HT HG.
  assert (Hu : exists ft', used (reading s pg fn []) ft = Ok ft' /\ (ft' = EDGE_LIST \/ ft' = MATRIX_MARKET \/ (ft' = GRAPH /\ is_some wm = false))).
  { destruct Ht as [Ht|[[Ht Hb]|[Ht Hw]]].
    - exists EDGE_LIST. rewrite (edge_list_detect pg fn s ft Hs Ht). auto.
    - exists MATRIX_MARKET. rewrite (mm_detect' pg fn s ft Hb Ht). auto.
    - exists GRAPH. rewrite (graph_detect pg fn s ft Hs Ht). auto. }
  destruct Hu as (ft' & Hu & Hft).
  assert (C : forall fl', coo_read L O wm fl' (reading s pg fn []) ft ch = UB /\ coo_read L O wm fl' (reading s pg fn []) ft' ch = UB).
  { intros fl'. apply (coo_text_ub pg s Hp Hm Hs L O wm fl' fn ft ft' ch); assumption. }
  split; [|split].
  - unfold coo_open. rewrite open_reading by exact Hs. cbn [bind]. rewrite (proj1 (C fl)). reflexivity.
  - unfold csr_open. rewrite open_reading by exact Hs. cbn [bind]. unfold csr_read. rewrite Hu. cbn [bind].
    destruct Hft as [->|[->|[-> Hw]]].
    + rewrite (proj2 (C no_flags)). reflexivity.
    + rewrite (proj2 (C no_flags)). reflexivity.
    + unfold csr_direct. rewrite Hw. unfold with_reader. cbn [reading rf_mem rf_fp List.length].
      rewrite (read_graph_past (mkMem s pg)); [reflexivity|apply load_past; assumption|apply map_ge; assumption|lia|exact HG].
  - unfold digraph_open. rewrite open_reading by exact Hs. cbn [bind]. unfold digraph_read. rewrite Hu. cbn [bind].
    destruct Hft as [->|[->|[-> Hw]]]; rewrite (proj1 (C no_flags)); reflexivity.
Qed.
Print Assumptions C09_every_format.

(** And as a tensor. *)
Theorem C09_tensor : forall {W} L O (wm : option (wmode W)) pg s fn ft ch,
  0 < pg -> length s mod pg = 0 -> s <> [] -> as_edge_list ft fn s -> 1 <= lc_T ch ->
  tensor_open L O wm pg fn (Some s) ft ch = UB.
Proof.
  intros W L O wm pg s fn ft ch Hp Hm Hs Ht HT.
  rewrite tensor_open_el by assumption. apply tensor_past; [apply load_past; assumption|apply map_ge; assumption|lia|exact HT].
Qed.
Print Assumptions C09_tensor.

(** Files of exactly one page of 16 bytes, of every kind. *)
Example C09_formats_apply :
  let el := bs "10 11" ++ [ch_nl] ++ bs "7 12 1 2 " ++ [ch_nl] in
  let mm := bs "%%MatrixMarket matrix coordinate" ++ [ch_nl] ++ bs "2 2 1" ++ [ch_nl] ++ bs "1 2" ++ [ch_nl] ++ bs "     " in
  let gr := bs "2 1" ++ [ch_nl] ++ bs "2" ++ [ch_nl] ++ bs "1         " in
  length el mod 16 = 0 /\ length mm mod 16 = 0 /\ length gr mod 16 = 0 /\
  as_text false AUTO (bs "a.el") el /\ as_text true AUTO (bs "a.mtx") mm /\ as_text false GRAPH (bs "a") gr /\
  el <> [] /\ mm <> [] /\ gr <> [].
Proof.
  cbv zeta. repeat match goal with |- _ /\ _ => split end; try reflexivity; try discriminate.
  - left. right. split; [reflexivity|]. repeat split; intros (x & E); try (destruct E as (y & E)); try discriminate.
    + apply (f_equal (@rev byte)) in E. rewrite rev_app_distr in E. discriminate.
    + apply (f_equal (@rev byte)) in E. rewrite rev_app_distr in E. discriminate.
  - right. left. split; [right; split; [reflexivity|exists (bs "a"); reflexivity]|]. eexists _, _. reflexivity.
  - right. right. split; [left; reflexivity|reflexivity].
Qed.
