(** * Properties C43, C50: which reads end *)

From Coq Require Import String.
From Verif Require Import Base Reader Sched SchedLemmas Spec SpecFp SpecGraph ReaderLemmas Coo WeightLemmas ElSpec ElFinal Safe Term Ascii Csr Codec Bin SpecBin BinLemmas BinOpen Graph GraphFinal GraphTerm Load LoadTerm Tensor TensorSafe P_Bin P_Graph P_GraphEx.
Open Scope list_scope.
Notation length := List.length.

(** The file does not end with a character that starts a comment. *)
Definition no_comment_at_end (s : list byte) : Prop := forall p c, s = p ++ [c] -> c <> ch_pct /\ c <> ch_hash.

(** Text weights, if any, are read by one of the three readers of the library. *)
Definition text_weights (k : wkind) (wm : option (wmode (wtype k))) : Prop := forall w, wm = Some w -> wm_text w = wreader k.

(** The adjacency reader is not asked for, or the last byte is harmless. *)
Definition ends_well (ft : ftype) (fn : list byte) (d : disk) : Prop :=
  (forall s, d = Some s -> no_comment_at_end s) \/ (ft <> GRAPH /\ ~ ends_in fn (chars ".graph")).

Lemma noc_spec s pg : no_comment_at_end s -> noc (mkMem s pg) (length s).
Proof.
  intros H c Hl Hc. destruct s as [|a s] using rev_ind; [cbn in Hl; lia|]. clear IHs. destruct (H s a eq_refl) as [H1 H2].
  rewrite app_length in Hc. cbn [length] in Hc. replace (length s + 1 - 1) with (length s) in Hc by lia.
  unfold load in Hc. cbn [bytes] in Hc. rewrite nth_error_app2 in Hc by lia. rewrite Nat.sub_diag in Hc. cbn in Hc. injection Hc as <-.
  unfold is_cmt. apply Z.eqb_neq in H1, H2. rewrite H1, H2. reflexivity.
Qed.

Lemma text_weights_term k wm : text_weights k wm -> wm_term wm.
Proof. intros H. unfold wm_term, owterm, wtext. destruct wm as [w|]; [|exact Logic.I]. cbn [option_map]. rewrite (H w eq_refl). apply wterm_kind. Qed.

Lemma open_cases pg fn d : open_read pg fn 0 d = Throw EError \/ exists s, d = Some s /\ open_read pg fn 0 d = Ok (mkRfile (mkMem s pg) 0 fn).
Proof. unfold open_read. cbn [Nat.ltb Nat.leb]. destruct d as [[|a s]|]; [left; reflexivity|right; eauto|left; reflexivity]. Qed.

Lemma ends_well_may ft fn s pg : ends_well ft fn (Some s) ->
  noc (mkMem s pg) (length s) \/ (ft <> GRAPH /\ has_suffix fn ext_graph = false).
Proof.
  intros [H|[H1 H2]]; [left; apply noc_spec; apply H; reflexivity|]. right. split; [exact H1|].
  destruct (has_suffix fn ext_graph) eqn:E; [|reflexivity]. apply has_suffix_spec in E. elim H2. exact E.
Qed.
Lemma ends_well_may' ft fn s pg : ends_well ft fn (Some s) -> may_end (mkRfile (mkMem s pg) 0 fn) ft.
Proof.
  intros H. destruct (ends_well_may ft fn s pg H) as [?|[H1 H2]]; [left; assumption|]. right. destruct ft; cbn [used]; try congruence.
  intros E. apply guess_graph in E. cbn [rf_name] in E. congruence.
Qed.

(** ** C43: every constructor ends, whatever is on disk

    [Stuck] is the outcome of a loop that has not ended after as many rounds as
    there are bytes left; the result is a value, an exception or an undefined
    access instead. *)
Theorem C43_coo_ends : forall k L O (wm : option (wmode (wtype k))) fl pg fn d ft ch,
  text_weights k wm -> ends_well ft fn d -> coo_open L O wm fl pg fn d ft ch <> Stuck.
Proof.
  intros k L O wm fl pg fn d ft ch Hw He. unfold coo_open. destruct (open_cases pg fn d) as [-> |(s & -> & ->)]; [discriminate|]. cbn [bind].
  apply fin_bind'; [apply coo_read_fin; [apply text_weights_term; exact Hw|apply ends_well_may'; exact He]|]. intros [c f] _. discriminate.
Qed.
Print Assumptions C43_coo_ends.

Theorem C43_csr_ends : forall k L O (wm : option (wmode (wtype k))) pg fn d ft ch,
  text_weights k wm -> ends_well ft fn d -> csr_open L O wm pg fn d ft ch <> Stuck.
Proof.
  intros k L O wm pg fn d ft ch Hw He. unfold csr_open. destruct (open_cases pg fn d) as [-> |(s & -> & ->)]; [discriminate|]. cbn [bind].
  apply fin_bind'; [apply csr_read_fin; [apply text_weights_term; exact Hw|apply ends_well_may'; exact He]|]. intros [c f] _. discriminate.
Qed.
Print Assumptions C43_csr_ends.

Theorem C43_digraph_ends : forall k L O (wm : option (wmode (wtype k))) pg fn d ft ch1 ch2 c1 c2,
  text_weights k wm -> ends_well ft fn d -> digraph_open L O wm pg fn d ft ch1 ch2 c1 c2 <> Stuck.
Proof.
  intros k L O wm pg fn d ft ch1 ch2 c1 c2 Hw He. unfold digraph_open. destruct (open_cases pg fn d) as [-> |(s & -> & ->)]; [discriminate|]. cbn [bind].
  apply fin_bind'; [apply digraph_read_fin; [apply text_weights_term; exact Hw|apply ends_well_may; exact He]|]. intros [[i o] f] _. discriminate.
Qed.
Print Assumptions C43_digraph_ends.

Theorem C43_tensor_ends : forall k L O (wm : option (wmode (wtype k))) pg fn d ft ch,
  0 < pg -> text_weights k wm -> tensor_open L O wm pg fn d ft ch <> Stuck.
Proof.
  intros k L O wm pg fn d ft ch Hp Hw. unfold tensor_open. destruct (open_cases pg fn d) as [-> |(s & -> & ->)]; [discriminate|]. cbn [bind].
  apply fin_bind'; [|intros [c f] _; discriminate]. unfold tensor_read. apply fin_bind'; [apply used_fin|]. intros ftu _.
  destruct ftu; try discriminate; [|apply tensor_read_bin_fin]. unfold with_reader. apply fin_bind'; [|discriminate].
  apply tensor_read_term; [exact Hp|]. apply (text_weights_term k wm Hw).
Qed.
Print Assumptions C43_tensor_ends.

(** ** C50: an adjacency file that ends with [%] or [#] is read forever *)

(** The loop that counts does not end, however many steps it is given, in a
    thread that owns the end of the file. *)
Theorem C50_counting_never_ends : forall L O f pg p x T,
  is_ity L -> is_ity O -> wf_head f -> off_page pg (adj_text f) -> adj_text f = p ++ [x] -> x = ch_pct \/ x = ch_hash ->
  (dval (a_n f) <= imax L)%Z -> (dval (a_m f) <= imax O)%Z -> 0 < T ->
  let m := mkMem (adj_text f) pg in
  exists d1 d2 d3 d4 d5 d6 chunks c,
    move_to_first_int m (flen m) 0 = Ok d1 /\ read_int m L (flen m) d1 = Ok (dval (a_n f), d2) /\ move_to_next_int m (flen m) d2 = Ok d3 /\
    read_int m O (flen m) d3 = Ok (dval (a_m f), d4) /\ move_to_eol m (flen m) d4 = Ok d5 /\ move_to_next_int m (flen m) d5 = Ok d6 /\
    mapM (gr_chunk m d6 (flen m) T) (seq 0 T) = Ok chunks /\ In c chunks /\
    forall steps, gr_count m (snd c) steps (fst c) 0 0 false = Stuck.
Proof.
  intros L O f pg p x T HL HO Hf Hpg Hs Hx Hn Hm HT m.
  destruct (header_pos f Hf m eq_refl L O HL HO Hn Hm) as (d1 & d2 & d3 & d4 & d5 & d6 & X1 & X2 & X3 & X4 & X5 & X6 & K8 & Hd6 & Lb).
  assert (Hl : load m (flen m - 1) = Ok x).
  { unfold load, m, flen. cbn [bytes]. rewrite Hs, app_length. cbn [length]. replace (length p + 1 - 1) with (length p) by lia. rewrite nth_error_app2 by lia. rewrite Nat.sub_diag. reflexivity. }
  assert (Ex : is_cmt x = true) by (destruct Hx as [->| ->]; reflexivity).
  assert (H6 : exists c6, load m d6 = Ok c6 /\ is_digit c6 = true).
  { destruct Hf as (_ & _ & _ & _ & _ & _ & _ & c & b & E & Hd). exists c. rewrite E in K8. split; [eapply load_has; exact K8|exact Hd]. }
  destruct H6 as (c6 & H6 & D6).
  destruct (counts_hang m (slack_off_page _ _ Hpg) x Hl Ex d6 T c6) as (chunks & E & (c & Hin & C1 & C2) & _); [lia|exact H6|exact D6|exact HT|].
  exists d1, d2, d3, d4, d5, d6, chunks, c. repeat (split; [assumption|]).
  intros steps. rewrite C2. apply (gr_count_hang m (slack_off_page _ _ Hpg) x Hl Ex). exact C1.
Qed.
Print Assumptions C50_counting_never_ends.

(** Hence no constructor returns. *)
Lemma read_graph_hang {W} L O OS f pg p x ch :
  is_ity L -> is_ity O -> wf_head f -> off_page pg (adj_text f) -> adj_text f = p ++ [x] -> x = ch_pct \/ x = ch_hash ->
  (dval (a_n f) <= imax L)%Z -> (dval (a_m f) <= imax O)%Z -> 0 < gc_T ch ->
  read_graph (W:=W) L O OS (mkMem (adj_text f) pg) 0 (length (adj_text f)) ch = Stuck.
Proof.
  intros HL HO Hf Hpg Hs Hx Hn Hm HT. set (m := mkMem (adj_text f) pg). change (length (adj_text f)) with (flen m).
  destruct (header_pos f Hf m eq_refl L O HL HO Hn Hm) as (d1 & d2 & d3 & d4 & d5 & d6 & X1 & X2 & X3 & X4 & X5 & X6 & K8 & Hd6 & Lb).
  assert (Hl : load m (flen m - 1) = Ok x).
  { unfold load, m, flen. cbn [bytes]. rewrite Hs, app_length. cbn [length]. replace (length p + 1 - 1) with (length p) by lia. rewrite nth_error_app2 by lia. rewrite Nat.sub_diag. reflexivity. }
  assert (Ex : is_cmt x = true) by (destruct Hx as [->| ->]; reflexivity).
  assert (H6 : exists c6, load m d6 = Ok c6 /\ is_digit c6 = true).
  { destruct Hf as (_ & _ & _ & _ & _ & _ & _ & c & b & E & Hd). exists c. rewrite E in K8. split; [eapply load_has; exact K8|exact Hd]. }
  destruct H6 as (c6 & H6 & D6).
  destruct (counts_hang m (slack_off_page _ _ Hpg) x Hl Ex d6 (gc_T ch) c6) as (chunks & E & _ & Hc); [lia|exact H6|exact D6|exact HT|].
  unfold read_graph. cbn zeta. rewrite X1. cbn [bind]. rewrite X2. cbn [bind]. rewrite X3. cbn [bind]. rewrite X4. cbn [bind]. rewrite X5. cbn [bind]. rewrite X6. cbn [bind].
  rewrite E. cbn [bind]. rewrite Hc. reflexivity.
Qed.

Lemma head_text_ne f : wf_head f -> adj_text f <> [].
Proof. intros (_ & [H _] & _) E. unfold adj_text in E. apply app_eq_nil in E as [_ E]. apply app_eq_nil in E as [E _]. congruence. Qed.

Theorem C50_comment_at_end_hangs : forall L O fl f pg fn ft p x ch ch2 c1 c2,
  is_ity L -> is_ity O -> wf_head f -> off_page pg (adj_text f) -> as_graph ft fn (adj_text f) ->
  adj_text f = p ++ [x] -> x = ch_pct \/ x = ch_hash ->
  (dval (a_n f) <= imax L)%Z -> (dval (a_m f) <= imax O)%Z -> 0 < gc_T (lc_graph ch) ->
  csr_open (W:=unit) L O None pg fn (Some (adj_text f)) ft ch = Stuck /\
  coo_open (W:=unit) L O None fl pg fn (Some (adj_text f)) ft ch = Stuck /\
  digraph_open (W:=unit) L O None pg fn (Some (adj_text f)) ft ch ch2 c1 c2 = Stuck.
Proof.
  intros L O fl f pg fn ft p x ch ch2 c1 c2 HL HO Hf Hpg Hg Hs Hx Hn Hm HT. pose proof (head_text_ne f Hf) as Hne.
  pose proof (graph_detect pg fn _ ft Hne Hg) as Hd.
  assert (HC : forall fl, coo_read (W:=unit) L O None fl (reading (adj_text f) pg fn []) ft ch = Stuck).
  { intros fl'. unfold coo_read. rewrite Hd. cbn [bind csr_direct is_some]. unfold with_reader. cbn [reading rf_mem rf_fp List.length].
    change (flen (mkMem (adj_text f) pg)) with (length (adj_text f)). rewrite (read_graph_hang L O L f pg p x) by assumption. reflexivity. }
  split; [|split].
  - unfold csr_open. rewrite open_reading by exact Hne. cbn [bind]. unfold csr_read. rewrite Hd. cbn [bind csr_direct is_some]. unfold with_reader. cbn [reading rf_mem rf_fp List.length].
    change (flen (mkMem (adj_text f) pg)) with (length (adj_text f)). rewrite (read_graph_hang L O O f pg p x) by assumption. reflexivity.
  - unfold coo_open. rewrite open_reading by exact Hne. cbn [bind]. rewrite HC. reflexivity.
  - unfold digraph_open. rewrite open_reading by exact Hne. cbn [bind]. unfold digraph_read. rewrite Hd. cbn [bind]. rewrite HC. reflexivity.
Qed.
Print Assumptions C50_comment_at_end_hangs.

(** ** Concrete cases *)
Example C43_ends_applies : csr_open (W:=Z) u8 u32 (Some (mkWmode Z (wreader (WSigned i32)) (cint i32))) 4096 (chars "a.mtx")
  (Some (chars ("%%MatrixMarket matrix coordinate" ++ nl ++ "3 3 %"))) AUTO (ex_gch 2) <> Stuck.
Proof.
  apply (C43_csr_ends (WSigned i32)).
  - intros w E. injection E as <-. reflexivity.
  - right. split; [discriminate|]. intros (q & E). apply (f_equal (fun l => last l 0%Z)) in E. 
    change (chars ".graph") with (chars ".grap" ++ [104%Z]) in E. rewrite app_assoc, last_last in E. discriminate.
Qed.

Definition ex_hang : adj_file := mkAdj [] (chars "2") (chars " ") (chars "1") [] [] (chars ("1" ++ nl ++ "0" ++ nl ++ "%")).
Example C50_applies : csr_open (W:=unit) u32 u32 None 4096 (chars "x.graph") (Some (adj_text ex_hang)) AUTO (ex_gch 3) = Stuck.
Proof.
  apply (C50_comment_at_end_hangs u32 u32 no_flags ex_hang 4096 (chars "x.graph") AUTO (chars ("2 1" ++ nl ++ "1" ++ nl ++ "0" ++ nl)) 37%Z (ex_gch 3) (ex_gch 3) (mkChoice 1 0 [] [] [] [] []) (mkChoice 1 0 [] [] [] [] []));
    try (cbn; tauto); try (vm_compute; reflexivity); try (vm_compute; discriminate); try (cbn; lia).
  - unfold wf_head. split; [constructor|]. split; [split; [discriminate|repeat constructor]|]. split; [discriminate|]. split; [wf|].
    split; [split; [discriminate|repeat constructor]|]. split; [split; [repeat constructor|reflexivity]|]. split; [constructor|]. eexists; eexists; split; reflexivity.
  - split; [apply Nat.ltb_lt; reflexivity|vm_compute; discriminate].
  - right. split; [reflexivity|]. split; [intros (b & r & E); vm_compute in E; discriminate|]. exists (chars "x"). reflexivity.
Qed.
(** The same file with a newline at the end is read. *)
Example C50_newline_is_enough : exists c, csr_open (W:=unit) u32 u32 None 4096 (chars "x.graph") (Some (adj_text ex_hang ++ [ch_nl])) AUTO (ex_gch 3) = Ok c.
Proof. eexists. vm_compute. reflexivity. Qed.
