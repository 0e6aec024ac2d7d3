(** * Properties C34, C35: adjacency files *)

From Coq Require Import String Permutation.
From Verif Require Import Base Reader Sched SchedLemmas Spec SpecGraph ReaderLemmas Coo CooLemmas CooSplit CooMain Safe ElSpec ElFinal Ascii Csr SpecCsr Codec Bin SpecBin BinLemmas BinSave BinLoad Graph GraphLemmas GraphMain GraphFinal Load BinOpen P_Bin P_Csr.
Open Scope list_scope.

(** The caller asks for the format, or leaves it to the file name. *)
Definition as_graph (ft : ftype) (fn s : list byte) : Prop :=
  ft = GRAPH \/ (ft = AUTO /\ ~ begins s (chars "PIGO") /\ ends_in fn (chars ".graph")).

(** Everything in the file fits the types: the header, the number of rows and
    one more, twice the announced number of entries, the entries, the labels and
    one more. *)
Definition graph_fits (L O : ity) (f : adj_file) : Prop :=
  (dval (a_n f) <= imax L)%Z /\ (2 * dval (a_m f) <= imax O)%Z /\
  room L (Z.of_nat (S (List.length (adj_rows (a_body f))))) /\
  (Z.of_nat (List.length (concat (adj_rows (a_body f)))) <= imax O)%Z /\
  Forall (fun v => v < imax L)%Z (concat (adj_rows (a_body f))).

(** The arrays of [c] hold the rows [rows], whatever [n()] says. *)
Definition stores_rows {W : Type} (c : csr W) (rows : list (list Z)) : Prop :=
  cs_m c = Z.of_nat (List.length (concat rows)) /\
  cs_off c = map (fun v => Some (Z.of_nat (List.length (concat (firstn v rows))))) (seq 0 (S (List.length rows))) /\
  cs_end c = map Some (concat rows).

(** The announced numbers of entries and of rows are consistent with the body:
    entries may be announced once or, for undirected graphs, as half their
    number; there may be more rows than announced.  [k] is the number of rows
    the reader makes out of the body. *)
Definition header_ok (f : adj_file) (k : nat) : Prop :=
  (Z.of_nat (List.length (concat (adj_rows (a_body f)))) = dval (a_m f) \/
   Z.of_nat (List.length (concat (adj_rows (a_body f)))) = 2 * dval (a_m f))%Z /\
  (dval (a_n f) <= Z.of_nat k)%Z.

Lemma graph_detect pg fn s ft : s <> [] -> as_graph ft fn s -> used (reading s pg fn []) ft = Ok GRAPH.
Proof.
  intros Hs [->|(-> & H1 & H2)]; [reflexivity|].
  destruct (C21_detection pg fn s Hs) as (f & Ef & _ & _ & _ & _ & HD). rewrite open_reading in Ef by exact Hs. injection Ef as <-.
  cbn [used].
  assert (P : forall t, ~ begins s (chars "PIGO" ++ t)).
  { intros t (b & r & E). apply H1. rewrite <- app_assoc in E. destruct t as [|x t]; [exists b, r; exact E|exists x, (t ++ b :: r); exact E]. }
  destruct (HD (P (chars "-COO-v1")) (P (chars "-CSR-v2")) (P (chars "-DiGraph-v1")) (P (chars "-Tensor-2"))) as (_ & _ & HG & _).
  apply HG; [exact H1| |exact H2].
  intros (p & E). destruct H2 as (q & E2). rewrite E in E2. change (chars ".mtx") with ([46; 109; 116]%Z ++ [120%Z]) in E2. change (chars ".graph") with ([46; 103; 114; 97; 112]%Z ++ [104%Z]) in E2.
  rewrite !app_assoc in E2. apply app_inj_tail in E2 as [_ E2]. discriminate.
Qed.

Lemma adj_text_ne f : wf_adj f -> adj_text f <> [].
Proof. intros (_ & [H _] & _) E. unfold adj_text in E. apply app_eq_nil in E as [_ E]. apply app_eq_nil in E as [E _]. congruence. Qed.

Lemma csr_open_graph L O f pg fn ft ch : wf_adj f -> as_graph ft fn (adj_text f) ->
  csr_open (W:=unit) L O None pg fn (Some (adj_text f)) ft ch = read_graph L O O (mkMem (adj_text f) pg) 0 (flen (mkMem (adj_text f) pg)) (lc_graph ch).
Proof.
  intros Hf Hg. pose proof (adj_text_ne f Hf) as Hne. unfold csr_open. rewrite open_reading by exact Hne. cbn [bind]. unfold csr_read.
  rewrite (graph_detect pg fn _ ft Hne Hg). cbn [bind csr_direct is_some]. unfold with_reader. cbn [reading rf_mem rf_fp List.length].
  destruct (read_graph L O O _ _ _ _); reflexivity.
Qed.

Lemma rows_offsets (rows : list (list Z)) : map Some (repeat 0%Z 1 ++ map (fun v => Z.of_nat (List.length (concat (firstn v rows)))) (seq 1 (List.length rows))) =
  map (fun v => Some (Z.of_nat (List.length (concat (firstn v rows))))) (seq 0 (S (List.length rows))).
Proof. cbn [repeat app seq map firstn concat List.length]. f_equal. rewrite map_map. reflexivity. Qed.
Lemma rows_offsets1 (rows : list (list Z)) : map Some (repeat 0%Z 2 ++ map (fun v => Z.of_nat (List.length (concat (firstn v rows)))) (seq 1 (List.length rows))) =
  map (fun v => Some (Z.of_nat (List.length (concat (firstn v ([] :: rows)))))) (seq 0 (S (List.length ([] :: rows)))).
Proof.
  transitivity (Some 0%Z :: map (fun v => Some (Z.of_nat (List.length (concat (firstn v rows))))) (seq 0 (S (List.length rows)))).
  - rewrite <- rows_offsets. reflexivity.
  - change (List.length ([] :: rows)) with (S (List.length rows)). change (seq 0 (S (S (List.length rows)))) with (0 :: seq 1 (S (List.length rows))). rewrite <- (seq_shift (S (List.length rows)) 0). cbn [map]. f_equal. rewrite map_map. reflexivity.
Qed.

(** The rows the arrays hold: those of the body, after an empty row 0 if no
    number is written [0]. *)
Definition graph_rows (f : adj_file) (rows : list (list Z)) : Prop :=
  (has_zero (a_body f) /\ rows = adj_rows (a_body f)) \/ (~ has_zero (a_body f) /\ rows = [] :: adj_rows (a_body f)).

Lemma graph_read L O OS f pg rows ch : is_ity L -> is_ity O -> is_ity OS -> wf_adj f -> off_page pg (adj_text f) -> graph_fits L O f -> (Z.of_nat (List.length (concat rows)) <= imax OS)%Z ->
  0 < gc_T ch -> graph_rows f rows ->
  let r := read_graph (W:=unit) L O OS (mkMem (adj_text f) pg) 0 (flen (mkMem (adj_text f) pg)) ch in
  (header_ok f (List.length rows) -> exists c, r = Ok c /\ stores_rows c rows /\ cs_w c = [] /\ cs_n c = dval (a_n f) /\
     cs_nrows c = Some (Z.of_nat (List.length rows)) /\ cs_ncols c = Some (max_of (concat rows) + 1)%Z) /\
  (~ header_ok f (List.length rows) -> r = Throw EError).
Proof.
  intros HL HO HOS Hf Hpg (F1 & F2 & F3 & F4 & F5) F6 HT Hr r.
  assert (Em : (0 <= dval (a_m f))%Z) by (apply dval_nonneg; apply Hf).
  set (zb := has_z (rtoks (a_body f))).
  assert (Erows : rows = (if zb then [] else [[]]) ++ adj_rows (a_body f)).
  { pose proof (has_z_zero (a_body f)) as Z. fold zb in Z. destruct Hr as [[H1 ->]|[H1 ->]].
    - apply Z in H1. rewrite H1. reflexivity.
    - destruct zb; [elim H1; apply Z; reflexivity|reflexivity]. }
  assert (Ec : concat rows = concat (adj_rows (a_body f))) by (rewrite Erows; destruct zb; reflexivity).
  assert (El : List.length rows = (if zb then 0 else 1) + List.length (adj_rows (a_body f))) by (rewrite Erows; destruct zb; reflexivity).
  assert (Eo : graph_off f = map (fun v => Some (Z.of_nat (List.length (concat (firstn v rows))))) (seq 0 (S (List.length rows)))).
  { unfold graph_off. fold zb. rewrite Erows. destruct zb; [apply rows_offsets|apply rows_offsets1]. }
  assert (HR : r = if (negb (Z.of_nat (List.length (concat rows)) =? 2 * dval (a_m f)) && negb (Z.of_nat (List.length (concat rows)) =? dval (a_m f)))%Z then Throw EError
      else if (Z.of_nat (List.length rows) <? dval (a_n f))%Z then Throw EError
      else Ok (mkCsr (graph_off f) (map Some (concat rows)) [] (dval (a_n f)) (Z.of_nat (List.length (concat rows)))
                 (Some (Z.of_nat (List.length rows))) (Some (max_of (concat rows) + 1)%Z))).
  { unfold r. rewrite Ec, El. unfold zb. apply read_graph_ok; try assumption.
    - reflexivity.
    - apply slack_off_page. exact Hpg.
    - lia.
    - fold zb. destruct zb; [|exact F3]. destruct F3 as [G1 G2]. split; [lia|]. destruct G2 as [?|?]; [left; assumption|right; lia].
    - rewrite <- Ec. exact F6. }
  rewrite HR. unfold header_ok. rewrite <- Ec. split.
  - intros [H1 H2].
    destruct (Z.eqb_spec (Z.of_nat (List.length (concat rows))) (2 * dval (a_m f))); destruct (Z.eqb_spec (Z.of_nat (List.length (concat rows))) (dval (a_m f))); cbn [negb andb]; try lia;
    (destruct (Z.ltb_spec (Z.of_nat (List.length rows)) (dval (a_n f))); [lia|]); eexists; (split; [reflexivity|]); (split; [split; [reflexivity|]; split; [exact Eo|reflexivity]|]); repeat split.
  - intros H.
    destruct (Z.eqb_spec (Z.of_nat (List.length (concat rows))) (2 * dval (a_m f))); destruct (Z.eqb_spec (Z.of_nat (List.length (concat rows))) (dval (a_m f))); cbn [negb andb]; try reflexivity;
    (destruct (Z.ltb_spec (Z.of_nat (List.length rows)) (dval (a_n f))); [reflexivity|]); exfalso; apply H; split; auto; lia.
Qed.

(** ** C34 *)
Definition unweighted (rows : list (list Z)) : list (list (Z * unit)) := map (map (fun y => (y, tt))) rows.

Lemma unweighted_concat rows : concat (unweighted rows) = map (fun y => (y, tt)) (concat rows).
Proof. symmetry. apply concat_map. Qed.

Lemma stores_represents (c : csr unit) rows : stores_rows c rows -> cs_n c = Z.of_nat (List.length rows) -> represents false c (unweighted rows).
Proof.
  intros (H1 & H2 & H3) Hn. unfold represents. rewrite unweighted_concat, !map_length. unfold unweighted at 1 3. rewrite !map_length.
  split; [exact Hn|]. split; [exact H1|]. split; [|split; [rewrite map_map; exact H3|discriminate]].
  rewrite H2. apply map_ext. intros v. unfold unweighted. rewrite firstn_map. fold (unweighted (firstn v rows)). rewrite unweighted_concat, map_length. reflexivity.
Qed.

(** A file numbering vertices from 0, with the right header: exactly its rows. *)
Theorem C34_zero_based : forall L O f pg fn ft ch,
  is_ity L -> is_ity O -> wf_adj f -> off_page pg (adj_text f) -> as_graph ft fn (adj_text f) -> graph_fits L O f ->
  0 < gc_T (lc_graph ch) -> has_zero (a_body f) ->
  let rows := adj_rows (a_body f) in
  dval (a_n f) = Z.of_nat (List.length rows) ->
  (Z.of_nat (List.length (concat rows)) = dval (a_m f) \/ Z.of_nat (List.length (concat rows)) = 2 * dval (a_m f))%Z ->
  exists c, csr_open L O None pg fn (Some (adj_text f)) ft ch = Ok c /\ represents false c (unweighted rows) /\
    cs_nrows c = Some (Z.of_nat (List.length rows)) /\ cs_ncols c = Some (max_of (concat rows) + 1)%Z.
Proof.
  intros L O f pg fn ft ch HL HO Hf Hpg Hg Hfit HT Hz rows Hn Hm. rewrite csr_open_graph by assumption.
  destruct (graph_read L O O f pg rows (lc_graph ch)) as [H _]; try assumption; [apply Hfit|left; split; [exact Hz|reflexivity]|].
  destruct H as (c & E & H1 & _ & H2 & H3 & H4); [split; [exact Hm|lia]|]. exists c. split; [exact E|]. split; [|split; [exact H3|exact H4]].
  apply stores_represents; [exact H1|]. rewrite H2. exact Hn.
Qed.
Print Assumptions C34_zero_based.

(** A COO built from such a file has exactly the entries of the rows. *)
Theorem C34_coo : forall L O f pg fn ft ch,
  is_ity L -> is_ity O -> wf_adj f -> off_page pg (adj_text f) -> as_graph ft fn (adj_text f) -> graph_fits L O f ->
  0 < gc_T (lc_graph ch) -> has_zero (a_body f) ->
  let rows := adj_rows (a_body f) in
  (Z.of_nat (List.length (concat rows)) <= imax L)%Z ->
  dval (a_n f) = Z.of_nat (List.length rows) ->
  (Z.of_nat (List.length (concat rows)) = dval (a_m f) \/ Z.of_nat (List.length (concat rows)) = 2 * dval (a_m f))%Z ->
  Permutation (concat (lc_parts ch)) (seq 0 (List.length rows)) ->
  exists c, coo_open L O None no_flags pg fn (Some (adj_text f)) ft ch = Ok c /\ holds c (entries (unweighted rows)) /\
    co_n c = Some (Z.of_nat (List.length rows)).
Proof.
  intros L O f pg fn ft ch HL HO Hf Hpg Hg Hfit HT Hz rows HmL Hn Hm HP. pose proof (adj_text_ne f Hf) as Hne.
  destruct (graph_read L O L f pg rows (lc_graph ch)) as [H _]; try assumption; [left; split; [exact Hz|reflexivity]|].
  destruct H as (c & E & H1 & _ & H2 & _); [split; [exact Hm|lia]|].
  assert (Hrep : represents false c (unweighted rows)) by (apply stores_represents; [exact H1|rewrite H2; exact Hn]).
  destruct (C25_csr_to_coo O false c (unweighted rows) (lc_parts ch) (lc_back ch) HO Hrep) as (r & Er & Hr & _ & Hrn & _).
  - destruct H1 as [-> _]. apply Hfit.
  - unfold unweighted. rewrite map_length. exact HP.
  - exists r. split; [|split; [exact Hr|rewrite Hrn, H2, Hn; reflexivity]]. unfold coo_open. rewrite open_reading by exact Hne. cbn [bind]. unfold coo_read.
    rewrite (graph_detect pg fn _ ft Hne Hg). cbn [bind csr_direct is_some]. unfold with_reader. cbn [reading rf_mem rf_fp List.length].
    rewrite E. cbn [bind]. rewrite Er. reflexivity.
Qed.
Print Assumptions C34_coo.

(** The header is checked: the result is an error exactly when the announced
    numbers are inconsistent with the body. *)
Theorem C34_header_checked : forall L O f pg fn ft ch rows,
  is_ity L -> is_ity O -> wf_adj f -> off_page pg (adj_text f) -> as_graph ft fn (adj_text f) -> graph_fits L O f ->
  0 < gc_T (lc_graph ch) -> graph_rows f rows ->
  (header_ok f (List.length rows) -> exists c, csr_open (W:=unit) L O None pg fn (Some (adj_text f)) ft ch = Ok c /\ stores_rows c rows /\ cs_n c = dval (a_n f)) /\
  (~ header_ok f (List.length rows) -> csr_open (W:=unit) L O None pg fn (Some (adj_text f)) ft ch = Throw EError).
Proof.
  intros L O f pg fn ft ch rows HL HO Hf Hpg Hg Hfit HT Hr. rewrite csr_open_graph by assumption.
  assert (Ec : concat rows = concat (adj_rows (a_body f))) by (destruct Hr as [[_ ->]|[_ ->]]; reflexivity).
  destruct (graph_read L O O f pg rows (lc_graph ch)) as [HA HB]; try assumption; [rewrite Ec; apply Hfit|].
  split; [|exact HB]. intros Hh. destruct (HA Hh) as (c & E & H1 & _ & H2 & _). exists c. auto.
Qed.
Print Assumptions C34_header_checked.

(** ** C35 *)

(** Without a number [0] the rows are numbered from 1; [n()] is the announced
    number, which leaves the last row out: the end of row [n()-1] is not the
    number of entries unless the last row is empty. *)
Theorem C35_one_based : forall L O f pg fn ft ch,
  is_ity L -> is_ity O -> wf_adj f -> off_page pg (adj_text f) -> as_graph ft fn (adj_text f) -> graph_fits L O f ->
  0 < gc_T (lc_graph ch) -> ~ has_zero (a_body f) ->
  let rows := adj_rows (a_body f) in
  dval (a_n f) = Z.of_nat (List.length rows) ->
  (Z.of_nat (List.length (concat rows)) = dval (a_m f) \/ Z.of_nat (List.length (concat rows)) = 2 * dval (a_m f))%Z ->
  exists c, csr_open (W:=unit) L O None pg fn (Some (adj_text f)) ft ch = Ok c /\ stores_rows c ([] :: rows) /\
    cs_n c = Z.of_nat (List.length rows) /\
    cell_of (Z.to_nat (cs_n c)) (cs_off c) = Ok (cs_m c - Z.of_nat (List.length (last rows [])))%Z.
Proof.
  intros L O f pg fn ft ch HL HO Hf Hpg Hg Hfit HT Hz rows Hn Hm. rewrite csr_open_graph by assumption.
  destruct (graph_read L O O f pg ([] :: rows) (lc_graph ch)) as [H _]; try assumption; [apply Hfit|right; split; [exact Hz|reflexivity]|].
  destruct H as (c & E & H1 & _ & H2 & _); [split; [exact Hm|cbn [List.length]; fold rows; lia]|].
  exists c. split; [exact E|]. split; [exact H1|]. split; [rewrite H2; exact Hn|].
  destruct H1 as (Em & Eo & _). rewrite H2, Hn, Nat2Z.id, Em, Eo.
  rewrite (CsrLemmas.cell_of_map _ _ _ (List.length rows)); [|cbn [List.length]; rewrite SchedMore.nth_error_seq' by lia; reflexivity].
  f_equal. cbn [concat app].
  assert (Hr : rows <> []).
  { intros E0. assert (adj_body (a_body f)) as Hb by apply Hf. destruct Hb as (_ & _ & b' & Eb). pose proof (rows_pos b') as Hp.
    rewrite <- Eb in Hp. fold rows in Hp. rewrite E0 in Hp. cbn in Hp. lia. }
  destruct (exists_last Hr) as (p & q & Eq). rewrite Eq, last_last, (app_length p [q]). cbn [List.length]. rewrite Nat.add_1_r. cbn [firstn concat app].
  rewrite firstn_app, firstn_all, Nat.sub_diag. cbn [firstn]. rewrite app_nil_r, concat_app, app_length. cbn [concat]. rewrite app_nil_r. lia.
Qed.
Print Assumptions C35_one_based.

(** Announcing one more row than there are lines gives all rows. *)
Theorem C35_one_more : forall L O f pg fn ft ch,
  is_ity L -> is_ity O -> wf_adj f -> off_page pg (adj_text f) -> as_graph ft fn (adj_text f) -> graph_fits L O f ->
  0 < gc_T (lc_graph ch) -> ~ has_zero (a_body f) ->
  let rows := adj_rows (a_body f) in
  dval (a_n f) = Z.of_nat (S (List.length rows)) ->
  (Z.of_nat (List.length (concat rows)) = dval (a_m f) \/ Z.of_nat (List.length (concat rows)) = 2 * dval (a_m f))%Z ->
  exists c, csr_open L O None pg fn (Some (adj_text f)) ft ch = Ok c /\ represents false c (unweighted ([] :: rows)).
Proof.
  intros L O f pg fn ft ch HL HO Hf Hpg Hg Hfit HT Hz rows Hn Hm. rewrite csr_open_graph by assumption.
  destruct (graph_read L O O f pg ([] :: rows) (lc_graph ch)) as [H _]; try assumption; [apply Hfit|right; split; [exact Hz|reflexivity]|].
  destruct H as (c & E & H1 & _ & H2 & _); [split; [exact Hm|cbn [List.length]; fold rows; lia]|].
  exists c. split; [exact E|]. apply stores_represents; [exact H1|]. rewrite H2, Hn. reflexivity.
Qed.
Print Assumptions C35_one_more.

(** A file whose size is a multiple of the page size: the reader loads the byte
    after its end. *)
Theorem C35_page_multiple : forall {W} L O f pg fn ft ch,
  is_ity L -> is_ity O -> wf_adj f -> 0 < pg -> List.length (adj_text f) mod pg = 0 -> as_graph ft fn (adj_text f) ->
  (dval (a_n f) <= imax L)%Z -> (dval (a_m f) <= imax O)%Z -> 0 < gc_T (lc_graph ch) ->
  csr_open (W:=W) L O None pg fn (Some (adj_text f)) ft ch = UB.
Proof.
  intros W L O f pg fn ft ch HL HO Hf Hpg Hmod Hg Hn Hm HT. pose proof (adj_text_ne f Hf) as Hne.
  unfold csr_open. rewrite open_reading by exact Hne. cbn [bind]. unfold csr_read.
  rewrite (graph_detect pg fn _ ft Hne Hg). cbn [bind csr_direct is_some]. unfold with_reader. cbn [reading rf_mem rf_fp List.length].
  set (m := mkMem (adj_text f) pg).
  destruct (header_pos f (wf_adj_head f Hf) m eq_refl L O HL HO Hn Hm) as (d1 & d2 & d3 & d4 & d5 & d6 & X1 & X2 & X3 & X4 & X5 & X6 & K8 & Hd6 & Lb).
  unfold read_graph. rewrite X1. cbn [bind]. rewrite X2. cbn [bind]. rewrite X3. cbn [bind]. rewrite X4. cbn [bind]. rewrite X5. cbn [bind]. rewrite X6. cbn [bind].
  set (T := gc_T (lc_graph ch)) in *. set (e := flen m) in *.
  assert (Hub : load m e = UB) by (apply load_past; assumption).
  rewrite (mapM_ub (gr_chunk m d6 e T) (slack m) (seq 0 T) (T - 1)); [reflexivity| | |].
  - intros t Ht. apply in_seq in Ht. unfold gr_chunk.
    eapply safe_bind; [apply move_to_next_int_safe; [reflexivity|unfold advance; apply Nat.le_min_r]|]. intros re _.
    eapply safe_bind with (Q := fun _ => True); [|intros; exact Logic.I].
    destruct (t =? 0); (eapply safe_imp; [first [apply move_to_first_int_safe; [reflexivity|unfold advance; apply Nat.le_min_r]|apply move_to_next_int_safe; [reflexivity|unfold advance; apply Nat.le_min_r]]|trivial]).
  - apply in_seq. lia.
  - unfold gr_chunk. replace (T - 1 + 1) with T by lia. rewrite (Nat.mul_comm T), Nat.div_mul by lia.
    unfold advance. rewrite (Nat.min_r (d6 + (e - d6)) e) by lia.
    unfold move_to_next_int at 1. unfold move_to_non_int. rewrite scan_end by lia. cbn [bind]. unfold move_to_first_int, skip_comments_here. rewrite Hub. reflexivity.
Qed.
Print Assumptions C35_page_multiple.
