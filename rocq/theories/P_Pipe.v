(** * Property C59: from a file to a graph

    The constructors of CSR and DiGraph that take the name of a text file, and
    the queries on the result, in terms of the lines of the file. *)

From Coq Require Import String Permutation Sorted.
From Verif Require Import Base Reader ReaderLemmas Sched Spec SpecFp SpecMm Coo Ascii Csr CooLemmas WeightLemmas ElSpec ElFinal ElThms ElExamples
  SpecCsr SpecPipe CsrLemmas CsrMain CsrBack CsrSort CsrQuery Codec Bin SpecBin BinLemmas BinSave BinLoad Graph Load BinOpen P_Bin P_Mm P_Csr.
Open Scope list_scope.
Notation length := List.length.

(** The caller asks for the format, or leaves it to the contents and the name of
    the file. *)
Definition as_el (ft : ftype) (fn s : list byte) : Prop :=
  ft = EDGE_LIST \/
  (ft = AUTO /\ ~ begins s (chars "PIGO") /\ ~ ends_in fn (chars ".mtx") /\ ~ ends_in fn (chars ".graph")).

Lemma el_detect pg fn s ft : s <> [] -> as_el ft fn s -> used (reading s pg fn []) ft = Ok EDGE_LIST.
Proof.
  intros Hs [->|(-> & H1 & H2 & H3)]; [reflexivity|].
  destruct (C21_detection pg fn s Hs) as (g & Eg & _ & _ & _ & _ & HD). rewrite open_reading in Eg by exact Hs. injection Eg as <-. cbn [used].
  assert (P : forall t, ~ begins s (chars "PIGO" ++ t)).
  { intros t (b & r & E). apply H1. rewrite <- app_assoc in E. destruct t as [|x t]; [exists b, r; exact E|exists x, (t ++ b :: r); exact E]. }
  destruct (HD (P (chars "-COO-v1")) (P (chars "-CSR-v2")) (P (chars "-DiGraph-v1")) (P (chars "-Tensor-2"))) as (_ & _ & _ & HE).
  apply HE; assumption.
Qed.

Lemma off_page_ne pg s : off_page pg s -> s <> [].
Proof. intros [H1 H2] ->. cbn [List.length] in H2. apply H2. apply Nat.mod_0_l. lia. Qed.

Lemma el_open {W} L O (wm : option (wmode W)) fl s pg fn ft ch : s <> [] -> as_el ft fn s ->
  coo_open L O wm fl pg fn (Some s) ft ch =
  read_el L O (wtext wm) fl (mkMem s pg) 0 (length s) (lc_T ch) (lc_el ch).
Proof.
  intros Hs Hg. unfold coo_open. rewrite open_reading by exact Hs. cbn [bind]. unfold coo_read.
  rewrite (el_detect pg fn s ft Hs Hg). cbn [bind]. unfold with_reader. cbn [reading rf_mem rf_fp List.length].
  change (flen (mkMem s pg)) with (length s). destruct (read_el _ _ _ _ _ _ _ _ _); reflexivity.
Qed.

(** A CSR built by name from a file read as a COO. *)
Lemma csr_via {W} L O (wm : option (wmode W)) s pg fn ft ch c ftu : s <> [] ->
  used (reading s pg fn []) ft = Ok ftu -> ftu = EDGE_LIST \/ ftu = MATRIX_MARKET ->
  coo_open L O wm no_flags pg fn (Some s) ft ch = Ok c ->
  csr_open L O wm pg fn (Some s) ft ch = convert_coo L O (is_some wm) c (lc_conv ch).
Proof.
  intros Hs HU Hk. unfold coo_open, csr_open. rewrite !open_reading by exact Hs. cbn [bind]. unfold csr_read, coo_read at 1. rewrite HU. cbn [bind].
  assert (E : coo_read L O wm no_flags (reading s pg fn []) ftu ch = coo_read L O wm no_flags (reading s pg fn []) ft ch).
  { unfold coo_read. rewrite HU. destruct Hk as [->| ->]; reflexivity. }
  assert (G : forall X : res (coo W * rfile), bind X (fun '(c, _) => Ok c) = Ok c ->
     bind (bind X (fun '(c, f') => bind (convert_coo L O (is_some wm) c (lc_conv ch)) (fun r => Ok (r, f')))) (fun '(c, _) => Ok c) =
     convert_coo L O (is_some wm) c (lc_conv ch)).
  { intros X. destruct X as [[c' f']| | |]; cbn [bind]; try discriminate. intros H. injection H as ->. destruct (convert_coo L O (is_some wm) c (lc_conv ch)); reflexivity. }
  destruct Hk as [->| ->]; intros H; rewrite E; unfold coo_read; rewrite HU; cbn [bind]; apply G; exact H.
Qed.

Lemma digraph_via {W} L O (wm : option (wmode W)) s pg fn ft ch ch2 c1 c2 c ftu : s <> [] ->
  used (reading s pg fn []) ft = Ok ftu -> ftu <> PIGO_DIGRAPH_BIN ->
  coo_open L O wm no_flags pg fn (Some s) ft ch = Ok c ->
  digraph_open L O wm pg fn (Some s) ft ch ch2 c1 c2 = digraph_of_coo L O (is_some wm) c c1 c2.
Proof.
  intros Hs HU Hk. unfold coo_open, digraph_open. rewrite !open_reading by exact Hs. cbn [bind]. unfold digraph_read. rewrite HU. cbn [bind].
  set (X := coo_read L O wm no_flags (reading s pg fn []) ft ch). destruct X as [[c' f']| | |]; cbn [bind]; try discriminate.
  intros H. injection H as ->. destruct ftu; try (elim Hk; reflexivity);
    destruct (digraph_of_coo L O (is_some wm) c c1 c2) as [[i o]| | |]; reflexivity.
Qed.

(** ** The graph of a COO *)
Definition pairs {W} (es : list (Z * Z * W)) : list (Z * Z) := map fst es.

Lemma row_succs {W} (es : list (Z * Z * W)) u : (0 <= u)%Z -> map fst (row es (Z.to_nat u)) = succs (pairs es) u.
Proof.
  intros Hu. unfold row, succs, pairs. rewrite Z2Nat.id by exact Hu. induction es as [|[[x y] w] es IH]; [reflexivity|]. cbn [map filter fst].
  destruct (x =? u)%Z; cbn [map fst snd]; [f_equal|]; exact IH.
Qed.

Lemma row_wsuccs {W} (es : list (Z * Z * W)) u : (0 <= u)%Z -> row es (Z.to_nat u) = wsuccs es u.
Proof. intros Hu. unfold row, wsuccs. rewrite Z2Nat.id by exact Hu. reflexivity. Qed.

Lemma swap_wpreds {W} (es : list (Z * Z * W)) v : wsuccs (map swap3 es) v = wpreds es v.
Proof.
  unfold wsuccs, wpreds. induction es as [|[[x y] w] es IH]; [reflexivity|]. cbn [map filter fst snd swap3].
  destruct (y =? v)%Z; cbn [map fst snd]; [f_equal|]; exact IH.
Qed.

Lemma has_weights_ext {W} (c : csr W) n a b : (forall u, a u = b u) -> has_weights c n a -> has_weights c n b.
Proof. intros H HW u Hu. rewrite <- H. exact (HW u Hu). Qed.

Lemma swap_preds {W} (es : list (Z * Z * W)) v : succs (pairs (map swap3 es)) v = preds (pairs es) v.
Proof.
  unfold succs, preds, pairs. induction es as [|[[x y] w] es IH]; [reflexivity|]. cbn [map filter fst snd swap3].
  destruct (y =? v)%Z; cbn [map fst snd]; [f_equal|]; exact IH.
Qed.

Lemma represents_weights {W} (c : csr W) rows n wadj : represents true c rows -> cs_n c = n ->
  (forall u, (0 <= u < n)%Z -> exists r, nth_error rows (Z.to_nat u) = Some r /\ Permutation r (wadj u)) -> has_weights c n wadj.
Proof.
  intros (H1 & H2 & H3 & H4 & H5) Hn HP u Hu. destruct (HP u Hu) as (r & Er & Hr).
  apply nth_error_split in Er as (a & b & Eab & La).
  exists (length (concat a)), (length r), r.
  assert (F : forall k, k <= length rows -> nth_error (cs_off c) k = Some (Some (Z.of_nat (length (concat (firstn k rows)))))).
  { intros k Hk. rewrite H3, nth_error_map, SchedMore.nth_error_seq' by lia. reflexivity. }
  assert (Ll : length rows = length a + S (length b)) by (rewrite Eab, app_length; reflexivity).
  assert (F1 : firstn (Z.to_nat u) rows = a).
  { rewrite Eab, <- La, firstn_app, firstn_all, Nat.sub_diag, app_nil_r. reflexivity. }
  assert (F2 : firstn (Z.to_nat u + 1) rows = a ++ [r]).
  { rewrite Eab, <- La, firstn_app, firstn_all2 by lia. replace (length a + 1 - length a) with 1 by lia. reflexivity. }
  split; [rewrite F, F1 by lia; reflexivity|]. split; [rewrite F, F2 by lia; rewrite concat_app, app_length; cbn [concat]; rewrite app_nil_r; reflexivity|].
  assert (G : forall {A} (g : Z * W -> A), firstn (length r) (skipn (length (concat a)) (map g (concat rows))) = map g r).
  { intros A g. rewrite Eab, concat_app, map_app. cbn [concat]. rewrite map_app. rewrite <- (map_length g (concat a)), skipn_app, skipn_all, Nat.sub_diag. cbn [skipn app].
    rewrite <- (map_length g r), firstn_app, firstn_all, Nat.sub_diag. cbn [firstn]. apply app_nil_r. }
  split; [rewrite H4; apply G|]. split; [rewrite (H5 eq_refl); apply G|exact Hr].
Qed.

Lemma coo_graph {W} L O weighted (c : coo W) es n ch :
  is_ity L -> is_ity O -> holds c es -> (weighted = true -> holds_weights c es) ->
  co_n c = Some n -> (0 <= n)%Z -> room L n -> (Z.of_nat (length es) <= imax O)%Z ->
  Forall (fun e => 0 <= fst (fst e) < n)%Z es -> legal (length es) ch ->
  exists r rows, convert_coo L O weighted c ch = Ok r /\ represents weighted r rows /\
    (forall u, (0 <= u < n)%Z -> exists q, nth_error rows (Z.to_nat u) = Some q /\ Permutation q (row es (Z.to_nat u))) /\
    is_graph O r n (Z.of_nat (length es)) (succs (pairs es)) /\
    (weighted = true -> has_weights r n (wsuccs es)).
Proof.
  intros HL HO Hc Hw Hn H0 Hr Hm HF HC.
  destruct (C22_coo_to_csr L O weighted c es n ch HL HO Hc Hw Hn H0 Hr Hm HF HC) as (r & rows & E & Hrep & En & Em & _ & _ & HP & _).
  assert (HP' : forall u, (0 <= u < n)%Z -> exists q, nth_error rows (Z.to_nat u) = Some q /\ Permutation q (row es (Z.to_nat u))).
  { intros u Hu. apply HP. lia. }
  exists r, rows. split; [exact E|]. split; [exact Hrep|]. split; [exact HP'|]. split.
  - split; [exact En|]. split; [rewrite Em; apply Hc|]. intros u Hu. destruct (HP' u Hu) as (q & Eq & Hq).
    destruct (C29_degree_neighbors O weighted r rows (Z.to_nat u) q HO Hrep) as [E1 E2]; [rewrite Em; destruct Hc as [-> _]; exact Hm|exact Eq|].
    exists (map fst q). split; [exact E2|]. rewrite <- row_succs by lia. split; [rewrite E1, map_length, (Permutation_length Hq); reflexivity|].
    apply Permutation_map. exact Hq.
  - intros Ew. subst weighted. eapply represents_weights; [exact Hrep|exact En|].
    intros u Hu. destruct (HP' u Hu) as (q & Eq & Hq). exists q. split; [exact Eq|]. rewrite <- row_wsuccs by lia. exact Hq.
Qed.

(** ** Edge lists *)
Lemma vertices_le hi f : (0 <= hi)%Z -> labels_fit hi f -> (0 < vertices (el_pairs f) <= hi + 1)%Z.
Proof.
  intros Hh HF. unfold vertices. assert (A : forall l, (0 <= max_of l)%Z) by (intros l; unfold max_of; induction l; cbn; lia).
  specialize (A (map fst (el_pairs f) ++ map snd (el_pairs f))). split; [lia|]. enough (max_of (map fst (el_pairs f) ++ map snd (el_pairs f)) <= hi)%Z by lia.
  apply max_le; [exact Hh|]. unfold labels_fit in HF. apply Forall_app. split; apply Forall_map; (eapply Forall_impl; [|exact HF]); cbn beta; tauto.
Qed.

Lemma pairs_nonneg f : wf_el f -> Forall (fun p => 0 <= fst p /\ 0 <= snd p)%Z (el_pairs f).
Proof.
  intros [_ HW]. unfold el_pairs. rewrite Forall_map. revert HW. generalize (el_lines f) as ls. induction ls as [|l ls IH]; intros HW; constructor.
  - destruct ls; cbn [wf_lines] in HW; destruct HW as ((D1 & _ & D2 & _) & _) || destruct HW as (D1 & _ & D2 & _); cbn [l_pair fst snd];
      (split; apply dval_nonneg; [apply D1|apply D2]).
  - apply IH. destruct ls; [exact I|]. cbn [wf_lines] in HW. apply HW.
Qed.

Lemma below_vertices f : wf_el f -> Forall (fun p => 0 <= fst p < vertices (el_pairs f) /\ 0 <= snd p < vertices (el_pairs f))%Z (el_pairs f).
Proof.
  intros Hf. apply Forall_forall. intros p Hp. pose proof (proj1 (Forall_forall _ _) (pairs_nonneg f Hf) p Hp) as N. cbn beta in N. unfold vertices.
  assert (H : (fst p <= max_of (map fst (el_pairs f) ++ map snd (el_pairs f)) /\ snd p <= max_of (map fst (el_pairs f) ++ map snd (el_pairs f)))%Z).
  { split; apply max_of_in; apply in_or_app; [left|right]; apply in_map; exact Hp. }
  lia.
Qed.

Lemma below_triples {W} f (ws : list W) : wf_el f -> length ws = length (el_pairs f) ->
  Forall (fun e => 0 <= fst (fst e) < vertices (el_pairs f) /\ 0 <= snd (fst e) < vertices (el_pairs f))%Z (triples f ws).
Proof.
  intros Hf Hl. pose proof (below_vertices f Hf) as HB. set (n := vertices (el_pairs f)) in *. clearbody n. unfold triples. rewrite Forall_map. cbn [fst snd].
  apply Forall_forall. intros [p w] Hp. rewrite Forall_forall in HB. apply (HB p). eapply in_combine_l. exact Hp.
Qed.

Lemma max_app a b : max_of (a ++ b) = Z.max (max_of a) (max_of b).
Proof.
  assert (A : forall l, (0 <= max_of l)%Z) by (intros l; unfold max_of; induction l; cbn; lia).
  induction a as [|x a IH]; cbn [app max_of fold_right]; [specialize (A b); unfold max_of in *; lia|]. fold (max_of (a ++ b)). fold (max_of a). rewrite IH. lia.
Qed.

Lemma counted_no_flags {W} (l : list (Z * Z * W)) : counted no_flags l = l.
Proof. unfold counted. induction l as [|[[x y] w] l IH]; [reflexivity|]. cbn [flat_map]. rewrite IH. reflexivity. Qed.

Lemma triples_pairs {W} f (ws : list W) : length ws = length (el_pairs f) -> pairs (triples f ws) = el_pairs f.
Proof.
  unfold pairs, triples. rewrite map_map. cbn [fst]. generalize (el_pairs f) as l. clear f. induction ws as [|w ws IH]; intros [|[x y] l] H; try discriminate; [reflexivity|].
  cbn [combine map fst snd]. f_equal. apply IH. injection H as H. exact H.
Qed.

Lemma result_n {W} (wr : option (wrd W)) f ws : length ws = length (el_pairs f) -> co_n (el_result wr no_flags f ws) = Some (vertices (el_pairs f)).
Proof.
  intros Hl. unfold el_result. cbn [co_n]. rewrite counted_no_flags. f_equal. unfold vertices. rewrite max_app. rewrite <- (triples_pairs f ws Hl) at 1 2.
  unfold pairs. rewrite !map_map. lia.
Qed.

Lemma result_holds {W} (wr : option (wrd W)) fl f ws : holds (el_result wr fl f ws) (stored fl (triples f ws)).
Proof. repeat split. Qed.

Lemma result_weights {W} wr fl f (ws : list W) : holds_weights (el_result (Some wr) fl f ws) (stored fl (triples f ws)).
Proof. reflexivity. Qed.

Lemma imax_2 t : is_ity t -> (2 <= imax t)%Z.
Proof. intros H. cbn in H. repeat destruct H as [<-|H]; try contradiction; vm_compute; discriminate. Qed.

Lemma room_less L n : (n < imax L)%Z -> room L n.
Proof. intros H. split; [lia|right; exact H]. Qed.

Lemma fits_more a b f : (a <= b)%Z -> labels_fit a f -> labels_fit b f.
Proof. intros H HF. eapply Forall_impl; [|exact HF]. cbn beta. lia. Qed.


(** The general case. *)
Lemma csr_of_result {W} L O (wm : option (wmode W)) f ws pg fn ft ch :
  is_ity L -> is_ity O -> wf_el f -> length ws = length (el_pairs f) -> labels_fit (imax L - 2) f -> (Z.of_nat (length (el_pairs f)) <= imax O)%Z ->
  off_page pg (el_text f) -> as_el ft fn (el_text f) -> legal (length (el_pairs f)) (lc_conv ch) ->
  coo_open L O wm no_flags pg fn (Some (el_text f)) ft ch = Ok (el_result (wtext wm) no_flags f ws) ->
  exists c, csr_open L O wm pg fn (Some (el_text f)) ft ch = Ok c /\
    is_graph O c (vertices (el_pairs f)) (Z.of_nat (length (el_pairs f))) (succs (el_pairs f)) /\
    (wm <> None -> has_weights c (vertices (el_pairs f)) (wsuccs (triples f ws))).
Proof.
  intros HL HO Hf Hl Hfit Hm Hpg Hg HC E. pose proof (off_page_ne _ _ Hpg) as Hne.
  pose proof (imax_2 L HL) as H2. pose proof (vertices_le (imax L - 2) f ltac:(lia) Hfit) as Hv.
  assert (Hes : pairs (triples f ws) = el_pairs f) by (apply triples_pairs; exact Hl).
  assert (Hle : length (triples f ws) = length (el_pairs f)) by (rewrite <- Hes; unfold pairs; symmetry; apply map_length).
  rewrite (csr_via L O wm _ pg fn ft ch _ EDGE_LIST Hne (el_detect pg fn _ ft Hne Hg) (or_introl eq_refl) E).
  destruct (coo_graph L O (is_some wm) (el_result (wtext wm) no_flags f ws) (triples f ws) (vertices (el_pairs f)) (lc_conv ch)) as (r & rows & Er & _ & _ & HG & HW); auto.
  - pose proof (result_holds (wtext wm) no_flags f ws) as H. rewrite stored_no_flags in H. exact H.
  - intros Hs. destruct wm as [[wt wb]|]; [|discriminate]. cbn [wtext option_map wm_text].
    pose proof (result_weights wt no_flags f ws) as H. rewrite stored_no_flags in H. exact H.
  - apply result_n. exact Hl.
  - lia.
  - apply room_less. lia.
  - rewrite Hle. exact Hm.
  - pose proof (below_triples f ws Hf Hl) as HB. eapply Forall_impl; [|exact HB]. cbn beta. tauto.
  - rewrite Hle. exact HC.
  - exists r. split; [exact Er|]. rewrite Hle, Hes in HG. split; [exact HG|]. intros Hn. apply HW. destruct wm; [reflexivity|congruence].
Qed.

Lemma digraph_of_result {W} L O (wm : option (wmode W)) f ws pg fn ft ch ch2 c1 c2 :
  is_ity L -> is_ity O -> wf_el f -> length ws = length (el_pairs f) -> labels_fit (imax L - 2) f -> (Z.of_nat (length (el_pairs f)) <= imax O)%Z ->
  off_page pg (el_text f) -> as_el ft fn (el_text f) -> legal (length (el_pairs f)) c1 -> legal (length (el_pairs f)) c2 ->
  coo_open L O wm no_flags pg fn (Some (el_text f)) ft ch = Ok (el_result (wtext wm) no_flags f ws) ->
  exists i o, digraph_open L O wm pg fn (Some (el_text f)) ft ch ch2 c1 c2 = Ok (i, o) /\
    is_graph O o (vertices (el_pairs f)) (Z.of_nat (length (el_pairs f))) (succs (el_pairs f)) /\
    is_graph O i (vertices (el_pairs f)) (Z.of_nat (length (el_pairs f))) (preds (el_pairs f)) /\
    (wm <> None -> has_weights o (vertices (el_pairs f)) (wsuccs (triples f ws)) /\
                   has_weights i (vertices (el_pairs f)) (wpreds (triples f ws))).
Proof.
  intros HL HO Hf Hl Hfit Hm Hpg Hg HC1 HC2 E. pose proof (off_page_ne _ _ Hpg) as Hne.
  pose proof (imax_2 L HL) as H2. pose proof (vertices_le (imax L - 2) f ltac:(lia) Hfit) as Hv.
  assert (Hes : pairs (triples f ws) = el_pairs f) by (apply triples_pairs; exact Hl).
  assert (Hle : length (triples f ws) = length (el_pairs f)) by (rewrite <- Hes; unfold pairs; symmetry; apply map_length).
  rewrite (digraph_via L O wm _ pg fn ft ch ch2 c1 c2 _ EDGE_LIST Hne (el_detect pg fn _ ft Hne Hg) ltac:(discriminate) E).
  pose proof (result_holds (wtext wm) no_flags f ws) as Hh. rewrite stored_no_flags in Hh.
  assert (Hw : is_some wm = true -> holds_weights (el_result (wtext wm) no_flags f ws) (triples f ws)).
  { intros Hs. destruct wm as [[wt wb]|]; [|discriminate]. cbn [wtext option_map wm_text].
    pose proof (result_weights wt no_flags f ws) as H. rewrite stored_no_flags in H. exact H. }
  pose proof (below_triples f ws Hf Hl) as HB.
  destruct (coo_graph L O (is_some wm) (coo_transpose (el_result (wtext wm) no_flags f ws)) (map swap3 (triples f ws)) (vertices (el_pairs f)) c1) as (i & ir & Ei & _ & _ & GI & WI); auto.
  - apply transpose_holds. exact Hh.
  - intros Hs. apply transpose_weights. auto.
  - cbn [coo_transpose co_n]. apply result_n. exact Hl.
  - lia.
  - apply room_less. lia.
  - rewrite map_length, Hle. exact Hm.
  - rewrite Forall_map. eapply Forall_impl; [|exact HB]. cbn [swap3 fst]. tauto.
  - rewrite map_length, Hle. exact HC1.
  - destruct (coo_graph L O (is_some wm) (el_result (wtext wm) no_flags f ws) (triples f ws) (vertices (el_pairs f)) c2) as (o & orr & Eo & _ & _ & GO & WO); auto.
    + apply result_n. exact Hl.
    + lia.
    + apply room_less. lia.
    + rewrite Hle. exact Hm.
    + eapply Forall_impl; [|exact HB]. cbn beta. tauto.
    + rewrite Hle. exact HC2.
    + exists i, o. unfold digraph_of_coo. rewrite Ei. cbn [bind]. rewrite Eo. cbn [bind]. split; [reflexivity|]. rewrite Hle, Hes in GO. split; [exact GO|].
      rewrite map_length, Hle in GI. split.
      * destruct GI as (G1 & G2 & G3). split; [exact G1|]. split; [exact G2|]. intros u Hu. destruct (G3 u Hu) as (ns & N1 & N2 & N3). exists ns.
        rewrite swap_preds, Hes in N2, N3. auto.
      * intros Hn. assert (Hs : is_some wm = true) by (destruct wm; [reflexivity|congruence]).
        split; [auto|]. eapply has_weights_ext; [|exact (WI Hs)]. intros u. apply swap_wpreds.
Qed.

Lemma weights_pairs_len k f ws : weights_are k f ws -> length ws = length (el_pairs f).
Proof. intros H. rewrite (weights_len k f ws H). unfold el_pairs. rewrite map_length. reflexivity. Qed.

Lemma keeps_all {W} (l : list (Z * Z * W)) : Forall (keeps no_flags) l.
Proof. apply Forall_forall. intros [[x y] w] _. unfold keeps. cbn. discriminate. Qed.

Lemma coo_weighted k L O f ws bc pg fn ft ch :
  wf_kind k -> weights_are k f ws ->
  is_ity L -> is_ity O -> wf_el f -> labels_fit (imax L - 2) f -> (Z.of_nat (length (el_pairs f)) <= imax O)%Z ->
  off_page pg (el_text f) -> as_el ft fn (el_text f) -> 1 <= lc_T ch ->
  coo_open L O (Some (mkWmode _ (wreader k) bc)) no_flags pg fn (Some (el_text f)) ft ch = Ok (el_result (Some (wreader k)) no_flags f ws).
Proof.
  intros Hk Hw HL HO Hf Hfit Hm Hpg Hg HT. pose proof (off_page_ne _ _ Hpg) as Hne. pose proof (weights_pairs_len k f ws Hw) as Hl.
  rewrite el_open by assumption. cbn [wtext option_map wm_text]. apply el_weighted; auto.
  - apply (fits_more (imax L - 2)); [lia|exact Hfit].
  - rewrite stored_no_flags. rewrite <- (map_length fst). fold (pairs (triples f ws)). rewrite (triples_pairs f ws Hl). exact Hm.
  - left. apply keeps_all.
Qed.

Lemma coo_unweighted L O f pg fn ft ch :
  is_ity L -> is_ity O -> wf_el f -> labels_fit (imax L - 2) f -> (Z.of_nat (length (el_pairs f)) <= imax O)%Z ->
  off_page pg (el_text f) -> as_el ft fn (el_text f) -> 1 <= lc_T ch ->
  coo_open L O None no_flags pg fn (Some (el_text f)) ft ch = Ok (el_result None no_flags f (no_weights f)).
Proof.
  intros HL HO Hf Hfit Hm Hpg Hg HT. pose proof (off_page_ne _ _ Hpg) as Hne.
  rewrite el_open by assumption. cbn [wtext option_map]. apply el_unweighted; auto.
  - apply (fits_more (imax L - 2)); [lia|exact Hfit].
  - rewrite stored_no_flags, triples_no_weights, map_length. exact Hm.
Qed.

(** Without weights: the neighbours of [u] are the second labels of the lines
    with first label [u], in some order, and the degree is their number; the
    number of vertices is one more than the largest label, whether or not it
    occurs first on a line. *)
Theorem C59_csr_from_edge_list : forall L O f pg fn ft ch,
  is_ity L -> is_ity O -> wf_el f -> labels_fit (imax L - 2) f -> (Z.of_nat (length (el_pairs f)) <= imax O)%Z ->
  off_page pg (el_text f) -> as_el ft fn (el_text f) -> 1 <= lc_T ch -> legal (length (el_pairs f)) (lc_conv ch) ->
  exists c : csr unit, csr_open L O None pg fn (Some (el_text f)) ft ch = Ok c /\
    is_graph O c (vertices (el_pairs f)) (Z.of_nat (length (el_pairs f))) (succs (el_pairs f)).
Proof.
  intros L O f pg fn ft ch HL HO Hf Hfit Hm Hpg Hg HT HC.
  destruct (csr_of_result L O None f (no_weights f) pg fn ft ch) as (c & E & HG & _); auto.
  - unfold no_weights. apply map_length.
  - apply coo_unweighted; assumption.
  - exists c. auto.
Qed.
Print Assumptions C59_csr_from_edge_list.

(** With weights: the neighbours of [u] with their weights are the second labels
    and weights of the lines with first label [u]. *)
Theorem C59_csr_weighted : forall k L O f ws bc pg fn ft ch,
  wf_kind k -> weights_are k f ws ->
  is_ity L -> is_ity O -> wf_el f -> labels_fit (imax L - 2) f -> (Z.of_nat (length (el_pairs f)) <= imax O)%Z ->
  off_page pg (el_text f) -> as_el ft fn (el_text f) -> 1 <= lc_T ch -> legal (length (el_pairs f)) (lc_conv ch) ->
  exists c, csr_open L O (Some (mkWmode _ (wreader k) bc)) pg fn (Some (el_text f)) ft ch = Ok c /\
    is_graph O c (vertices (el_pairs f)) (Z.of_nat (length (el_pairs f))) (succs (el_pairs f)) /\
    has_weights c (vertices (el_pairs f)) (wsuccs (triples f ws)).
Proof.
  intros k L O f ws bc pg fn ft ch Hk Hw HL HO Hf Hfit Hm Hpg Hg HT HC.
  destruct (csr_of_result L O (Some (mkWmode _ (wreader k) bc)) f ws pg fn ft ch) as (c & E & HG & HW); auto.
  - eapply weights_pairs_len. exact Hw.
  - cbn [wtext option_map wm_text]. apply coo_weighted; assumption.
  - exists c. split; [exact E|]. split; [exact HG|]. apply HW. discriminate.
Qed.
Print Assumptions C59_csr_weighted.

(** A DiGraph: the out-neighbours of [u] are the second labels of the lines
    with first label [u], the in-neighbours of [v] the first labels of the lines
    with second label [v]. *)
Theorem C59_digraph_from_edge_list : forall L O f pg fn ft ch ch2 c1 c2,
  is_ity L -> is_ity O -> wf_el f -> labels_fit (imax L - 2) f -> (Z.of_nat (length (el_pairs f)) <= imax O)%Z ->
  off_page pg (el_text f) -> as_el ft fn (el_text f) -> 1 <= lc_T ch ->
  legal (length (el_pairs f)) c1 -> legal (length (el_pairs f)) c2 ->
  exists i o : csr unit, digraph_open L O None pg fn (Some (el_text f)) ft ch ch2 c1 c2 = Ok (i, o) /\
    is_graph O o (vertices (el_pairs f)) (Z.of_nat (length (el_pairs f))) (succs (el_pairs f)) /\
    is_graph O i (vertices (el_pairs f)) (Z.of_nat (length (el_pairs f))) (preds (el_pairs f)).
Proof.
  intros L O f pg fn ft ch ch2 c1 c2 HL HO Hf Hfit Hm Hpg Hg HT HC1 HC2.
  destruct (digraph_of_result L O None f (no_weights f) pg fn ft ch ch2 c1 c2) as (i & o & E & G1 & G2 & _); auto.
  - unfold no_weights. apply map_length.
  - apply coo_unweighted; assumption.
  - exists i, o. auto.
Qed.
Print Assumptions C59_digraph_from_edge_list.

Theorem C59_digraph_weighted : forall k L O f ws bc pg fn ft ch ch2 c1 c2,
  wf_kind k -> weights_are k f ws ->
  is_ity L -> is_ity O -> wf_el f -> labels_fit (imax L - 2) f -> (Z.of_nat (length (el_pairs f)) <= imax O)%Z ->
  off_page pg (el_text f) -> as_el ft fn (el_text f) -> 1 <= lc_T ch ->
  legal (length (el_pairs f)) c1 -> legal (length (el_pairs f)) c2 ->
  exists i o, digraph_open L O (Some (mkWmode _ (wreader k) bc)) pg fn (Some (el_text f)) ft ch ch2 c1 c2 = Ok (i, o) /\
    is_graph O o (vertices (el_pairs f)) (Z.of_nat (length (el_pairs f))) (succs (el_pairs f)) /\
    is_graph O i (vertices (el_pairs f)) (Z.of_nat (length (el_pairs f))) (preds (el_pairs f)) /\
    has_weights o (vertices (el_pairs f)) (wsuccs (triples f ws)) /\
    has_weights i (vertices (el_pairs f)) (wpreds (triples f ws)).
Proof.
  intros k L O f ws bc pg fn ft ch ch2 c1 c2 Hk Hw HL HO Hf Hfit Hm Hpg Hg HT HC1 HC2.
  destruct (digraph_of_result L O (Some (mkWmode _ (wreader k) bc)) f ws pg fn ft ch ch2 c1 c2) as (i & o & E & G1 & G2 & HW); auto.
  - eapply weights_pairs_len. exact Hw.
  - cbn [wtext option_map wm_text]. apply coo_weighted; assumption.
  - destruct HW as [W1 W2]; [discriminate|]. exists i, o. auto 6.
Qed.
Print Assumptions C59_digraph_weighted.

(** ** Matrix Market files

    A header that announces the number of lines, and dimensions that no label
    exceeds: the same graph, with the announced number of vertices (plus one:
    labels are taken as they are, and 0 is a vertex). *)
Lemma mm_pairs_nonneg f : wf_mm f -> Forall (fun p => 0 <= fst p /\ 0 <= snd p)%Z (el_pairs (mm_body f)).
Proof. intros Hf. apply pairs_nonneg. apply Hf. Qed.

Theorem C59_csr_from_matrix_market : forall L O f pg fn ft ch,
  is_ity L -> is_ity O -> wf_mm f -> off_page pg (mm_text f) -> as_mm ft fn -> 1 <= lc_T ch ->
  let ps := el_pairs (mm_body f) in
  let n := (1 + Z.max (dval (mm_r f)) (dval (mm_c f)))%Z in
  (n < imax L)%Z -> (dval (mm_z f) <= imax O)%Z -> labels_fit (imax L - 1) (mm_body f) ->
  dval (mm_z f) = Z.of_nat (length ps) -> Forall (fun p => fst p <= dval (mm_r f) /\ snd p <= dval (mm_c f))%Z ps ->
  legal (length ps) (lc_conv ch) ->
  exists c : csr unit, csr_open L O None pg fn (Some (mm_text f)) ft ch = Ok c /\
    is_graph O c n (Z.of_nat (length ps)) (succs ps).
Proof.
  intros L O f pg fn ft ch HL HO Hf Hpg Hg HT ps n Hn Hz Hfit Hm HF HC.
  assert (Hes : stored no_flags (map (fun p => (fst p, snd p, tt)) ps) = map (fun p => (fst p, snd p, tt)) ps) by apply stored_no_flags.
  destruct (C33_plain L O f pg fn ft ch HL HO Hf Hpg Hg HT) as [H1 _].
  { fold ps. unfold mm_fits. rewrite Hes, map_length. repeat split; try assumption; try lia; try (subst n; lia). discriminate. }
  destruct H1 as (c & E & Hh & Hd1 & Hd2 & Hd3).
  { split; [rewrite Hm; unfold ps, el_pairs; rewrite map_length; reflexivity|exact HF]. }
  fold ps in Hh. rewrite (csr_via L O None _ pg fn ft ch _ MATRIX_MARKET (mm_ne f) (mm_detect pg fn f ft Hg) (or_intror eq_refl) E).
  pose proof (mm_pairs_nonneg f Hf) as HN. fold ps in HN.
  destruct (coo_graph L O false c (map (fun p => (fst p, snd p, tt)) ps) n (lc_conv ch)) as (r & rows & Er & _ & _ & HG & _); auto.
  - discriminate.
  - rewrite Hd3. f_equal. subst n. lia.
  - destruct Hf as (_ & _ & Wr & _ & Wc & _). pose proof (dval_nonneg _ (proj2 Wr)). subst n. lia.
  - apply room_less. exact Hn.
  - rewrite map_length. lia.
  - rewrite Forall_map. cbn [fst]. rewrite Forall_forall in *. intros p Hp. specialize (HF p Hp). specialize (HN p Hp). cbn beta in HF, HN. subst n. lia.
  - rewrite map_length. exact HC.
  - exists r. split; [exact Er|]. rewrite map_length in HG. unfold pairs in HG. rewrite map_map in HG. cbn [fst] in HG.
    replace (map (fun p => (fst p, snd p)) ps) with ps in HG; [exact HG|]. clear. induction ps as [|[x y] l IH]; [reflexivity|]. cbn [map fst snd]. f_equal. exact IH.
Qed.
Print Assumptions C59_csr_from_matrix_market.

(** ** The simple graph of an edge list *)
Lemma Forall2_nth1 {A B} (R : A -> B -> Prop) l l' : Forall2 R l l' -> forall i a, nth_error l i = Some a -> exists b, nth_error l' i = Some b /\ R a b.
Proof.
  induction 1 as [|a b l l' H HF IH]; intros [|i] x Hx; cbn [nth_error] in *; try discriminate.
  - injection Hx as <-. exists b. auto.
  - apply IH. exact Hx.
Qed.

Lemma deduped_length {W} (rows drows : list (list (Z * W))) : Forall2 deduped rows drows -> length (concat drows) <= length (concat rows).
Proof.
  induction 1 as [|r d rows drows (H1 & H2 & _) HF IH]; [reflexivity|]. cbn [concat]. rewrite !app_length.
  enough (length d <= length r) by lia. rewrite <- (map_length fst d), <- (map_length fst r). apply NoDup_incl_length.
  - unfold strictly_ascending in H1. clear - H1. induction H1 as [|a l HS IH HF]; constructor; [|exact IH]. intros Hi. rewrite Forall_forall in HF. specialize (HF _ Hi). lia.
  - intros y Hy. apply H2. exact Hy.
Qed.

Lemma sorted_length {W} weighted (rows rows' : list (list (Z * W))) : Forall2 (sorted_from weighted) rows rows' -> length (concat rows') = length (concat rows).
Proof.
  induction 1 as [|r d rows drows (_ & H) HF IH]; [reflexivity|]. cbn [concat]. rewrite !app_length. f_equal; [|exact IH].
  destruct weighted; [apply Permutation_length; exact H|]. apply Permutation_length in H. rewrite !map_length in H. exact H.
Qed.

(** Reading and then removing duplicates: the neighbours of [u] ascend strictly
    and are exactly the [v] for which there is a line "u v". *)
Theorem C59_simple_graph : forall srt srt1 L O f pg fn ft ch dc,
  is_ity L -> is_ity O -> wf_el f -> labels_fit (imax L - 2) f -> (Z.of_nat (length (el_pairs f)) <= imax O)%Z ->
  off_page pg (el_text f) -> as_el ft fn (el_text f) -> 1 <= lc_T ch -> legal (length (el_pairs f)) (lc_conv ch) ->
  sorts srt srt1 -> dc_single dc < dc_T dc ->
  let n := vertices (el_pairs f) in
  Permutation (concat (dc_sort dc)) (seq 0 (Z.to_nat n)) -> Permutation (concat (dc_copy dc)) (seq 0 (Z.to_nat n)) ->
  exists (c c' r : csr unit), csr_open L O None pg fn (Some (el_text f)) ft ch = Ok c /\
    without_dups srt srt1 false L O c dc = Ok (c', r) /\ cs_n r = n /\
    forall u, (0 <= u < n)%Z -> exists ns, neighbors r (Z.to_nat u) = Ok ns /\
      degree O r (Z.to_nat u) = Ok (Z.of_nat (length ns)) /\
      StronglySorted Z.lt ns /\ forall v, In v ns <-> In (u, v) (el_pairs f).
Proof.
  intros srt srt1 L O f pg fn ft ch dc HL HO Hf Hfit Hm Hpg Hg HT HC HS HD n HP1 HP2. pose proof (off_page_ne _ _ Hpg) as Hne.
  assert (Hl : length (no_weights f) = length (el_pairs f)) by (unfold no_weights; apply map_length).
  pose proof (imax_2 L HL) as H2. pose proof (vertices_le (imax L - 2) f ltac:(lia) Hfit) as Hv. fold n in Hv.
  set (es := triples f (no_weights f)).
  assert (Hes : pairs es = el_pairs f) by (apply triples_pairs; exact Hl).
  assert (Hle : length es = length (el_pairs f)) by (rewrite <- Hes; unfold pairs; symmetry; apply map_length).
  pose proof (coo_unweighted L O f pg fn ft ch HL HO Hf Hfit Hm Hpg Hg HT) as E.
  pose proof (below_triples f (no_weights f) Hf Hl) as HB. fold es n in HB.
  destruct (coo_graph L O false (el_result None no_flags f (no_weights f)) es n (lc_conv ch)) as (r & rows & Er & Hrep & HR & (Gn & Gm & _) & _); auto.
  - pose proof (result_holds (None : option (wrd unit)) no_flags f (no_weights f)) as H. rewrite stored_no_flags in H. exact H.
  - discriminate.
  - apply result_n. exact Hl.
  - lia.
  - apply room_less. lia.
  - rewrite Hle. exact Hm.
  - eapply Forall_impl; [|exact HB]. cbn beta. tauto.
  - rewrite Hle. exact HC.
  - assert (Ln : length rows = Z.to_nat n) by (destruct Hrep as (E1 & _); lia).
    destruct (C24_without_dups srt srt1 false L O r rows dc HL HO HS Hrep) as (c' & d & rows' & drows & Ed & R1 & S1 & R2 & S2 & Dn & _).
    + apply room_less. lia.
    + rewrite Gm, Hle. exact Hm.
    + apply Forall_forall. intros q Hq. apply In_nth_error in Hq as (i & Hi). assert (Hi' : i < length rows) by (apply nth_error_Some; congruence).
      destruct (HR (Z.of_nat i)) as (q' & Eq & HPq); [lia|]. rewrite Nat2Z.id in Eq, HPq. rewrite Hi in Eq. injection Eq as <-.
      apply Forall_forall. intros p Hp. apply (Permutation_in _ HPq) in Hp. unfold row in Hp. apply in_map_iff in Hp as (e & <- & He). apply filter_In in He as [He _].
      rewrite Forall_forall in HB. specialize (HB e He). cbn [fst]. lia.
    + rewrite Ln. exact HP1.
    + rewrite Ln. exact HP2.
    + exact HD.
    + exists r, c', d. split; [rewrite (csr_via L O None _ pg fn ft ch _ EDGE_LIST Hne (el_detect pg fn _ ft Hne Hg) (or_introl eq_refl) E); exact Er|].
      split; [exact Ed|]. split; [rewrite Dn; exact Gn|]. intros u Hu. destruct (HR u Hu) as (q & Eq & HPq).
      destruct (Forall2_nth1 _ _ _ S1 _ _ Eq) as (q' & Eq' & SQ). destruct (Forall2_nth1 _ _ _ S2 _ _ Eq') as (q2 & Eq2 & D1 & D2 & D3).
      assert (Md : (cs_m d <= imax O)%Z).
      { destruct R2 as (_ & -> & _). destruct R1 as (_ & M1 & _). 
        assert (length (concat drows) <= length (concat rows')) by (apply deduped_length; exact S2).
        assert (length (concat rows') = length (concat rows)) by (eapply sorted_length; exact S1). destruct Hrep as (_ & M2 & _). lia. }
      destruct (C29_degree_neighbors O false d drows (Z.to_nat u) q2 HO R2 Md Eq2) as [N1 N2].
      exists (map fst q2). split; [exact N2|]. split; [rewrite map_length; exact N1|]. split; [exact D1|].
      intros v. rewrite D2. destruct SQ as [_ SQ]. cbn beta iota in SQ. 
      transitivity (In v (map fst q)); [split; apply Permutation_in; [|symmetry]; exact SQ|].
      transitivity (In v (succs (el_pairs f) u)); [rewrite <- Hes, <- row_succs by lia; split; apply Permutation_in, Permutation_map; [|symmetry]; exact HPq|].
      unfold succs. rewrite in_map_iff. split.
      * intros ([x y] & <- & Hi). apply filter_In in Hi as [Hi Hx]. cbn [fst] in Hx. apply Z.eqb_eq in Hx. subst x. exact Hi.
      * intros Hi. exists (u, v). split; [reflexivity|]. apply filter_In. split; [exact Hi|]. apply Z.eqb_refl.
Qed.
Print Assumptions C59_simple_graph.

(** ** The undirected graph of an edge list

    A COO read with the symmetric flag, converted to a CSR: each edge is in both
    rows, as often as lines "u v" and "v u" are in the file. *)
Lemma stored_both {W} sl (es : list (Z * Z * W)) : pairs (stored (mkFlags true false sl) es) = both_ways (proper sl (pairs es)).
Proof.
  unfold stored, pairs. cbn [f_sym f_ut f_sl]. induction es as [|[[x y] w] es IH]; [destruct sl; reflexivity|]. cbn [flat_map map fst]. rewrite map_app, IH.
  unfold proper, both_ways. destruct sl; cbn [filter andb negb fst snd]; destruct (x =? y)%Z eqn:Exy; cbn [expand negb andb map app flat_map fst snd]; rewrite Exy; reflexivity.
Qed.

Lemma counted_proper {W} sl (es : list (Z * Z * W)) : pairs (counted (mkFlags true false sl) es) = proper sl (pairs es).
Proof.
  unfold counted, pairs. cbn [f_sym f_ut f_sl]. induction es as [|[[x y] w] es IH]; [destruct sl; reflexivity|]. cbn [flat_map map fst]. rewrite map_app, IH.
  unfold proper, kept, expand. destruct sl; cbn [filter andb negb fst snd]; destruct (x =? y)%Z eqn:Exy; reflexivity.
Qed.

Lemma proper_incl sl ps p : In p (proper sl ps) -> In p ps.
Proof. unfold proper. destruct sl; [|auto]. intros H. apply filter_In in H. apply H. Qed.

Lemma succs_count ps u v : count_occ Z.eq_dec (succs ps u) v = lines ps u v.
Proof.
  unfold succs, lines. induction ps as [|[x y] ps IH]; [reflexivity|]. cbn [filter fst snd]. destruct (x =? u)%Z; cbn [andb map count_occ snd]; [|exact IH].
  destruct (Z.eqb_spec y v) as [->|N]; destruct (Z.eq_dec _ _); try congruence; cbn [List.length]; rewrite IH; reflexivity.
Qed.

Lemma both_lines ps u v : lines (both_ways ps) u v = if (u =? v)%Z then lines ps u u else lines ps u v + lines ps v u.
Proof.
  unfold lines, both_ways. induction ps as [|[x y] ps IH]; [destruct (u =? v)%Z; reflexivity|]. cbn [flat_map fst snd].
  rewrite filter_app, app_length, IH. clear IH. cbn [filter fst snd].
  destruct (Z.eqb_spec x y) as [->|Nxy]; destruct (Z.eqb_spec u v) as [->|Nuv]; cbn [filter fst snd].
  - destruct (Z.eqb_spec y v); cbn [andb List.length]; lia.
  - destruct (Z.eqb_spec y u); destruct (Z.eqb_spec y v); cbn [andb List.length]; lia.
  - destruct (Z.eqb_spec x v); destruct (Z.eqb_spec y v); cbn [andb List.length]; lia.
  - destruct (Z.eqb_spec x u); destruct (Z.eqb_spec y v); destruct (Z.eqb_spec x v); destruct (Z.eqb_spec y u); cbn [andb List.length]; lia.
Qed.

Lemma proper_lines sl ps u v : lines (proper sl ps) u v = if sl && (u =? v)%Z then 0 else lines ps u v.
Proof.
  unfold lines, proper. destruct sl; cbn [andb]; [|reflexivity]. induction ps as [|[x y] ps IH]; [destruct (u =? v)%Z; reflexivity|]. cbn [filter fst snd].
  destruct (Z.eqb_spec u v) as [->|Nuv]; destruct (Z.eqb_spec x y) as [->|Nxy]; cbn [negb filter fst snd]; rewrite ?IH.
  - reflexivity.
  - destruct (Z.eqb_spec x v); destruct (Z.eqb_spec y v); cbn [andb List.length]; rewrite IH; lia.
  - destruct (Z.eqb_spec y u); destruct (Z.eqb_spec y v); cbn [andb List.length]; lia.
  - destruct (Z.eqb_spec x u); destruct (Z.eqb_spec y v); cbn [andb List.length]; lia.
Qed.

Theorem C59_undirected : forall sl L O f pg fn ft ch cc,
  is_ity L -> is_ity O -> wf_el f -> labels_fit (imax L - 2) f ->
  let ps := el_pairs f in
  let n := vertices (proper sl ps) in
  let m := length (both_ways (proper sl ps)) in
  (Z.of_nat m <= imax O)%Z ->
  off_page pg (el_text f) -> as_el ft fn (el_text f) -> 1 <= lc_T ch -> legal m cc ->
  exists (c : coo unit) r, coo_open L O None (mkFlags true false sl) pg fn (Some (el_text f)) ft ch = Ok c /\
    convert_coo L O false c cc = Ok r /\ cs_n r = n /\ cs_m r = Z.of_nat m /\
    forall u v, (0 <= u < n)%Z -> (0 <= v < n)%Z -> exists nu nv,
      neighbors r (Z.to_nat u) = Ok nu /\ neighbors r (Z.to_nat v) = Ok nv /\
      degree O r (Z.to_nat u) = Ok (Z.of_nat (length nu)) /\
      count_occ Z.eq_dec nu v = count_occ Z.eq_dec nv u /\
      count_occ Z.eq_dec nu v =
        if (u =? v)%Z then (if sl then 0 else lines ps u u) else lines ps u v + lines ps v u.
Proof.
  intros sl L O f pg fn ft ch cc HL HO Hf Hfit ps n m Hm Hpg Hg HT HC. pose proof (off_page_ne _ _ Hpg) as Hne.
  set (fl := mkFlags true false sl). set (es := triples f (no_weights f)).
  assert (Hl : length (no_weights f) = length (el_pairs f)) by (unfold no_weights; apply map_length).
  assert (Hes : pairs es = ps) by (apply triples_pairs; exact Hl).
  assert (HS : pairs (stored fl es) = both_ways (proper sl ps)) by (unfold fl; rewrite stored_both, Hes; reflexivity).
  assert (Hle : length (stored fl es) = m) by (unfold m; rewrite <- HS; unfold pairs; symmetry; apply map_length).
  pose proof (imax_2 L HL) as H2.
  assert (E : coo_open L O None fl pg fn (Some (el_text f)) ft ch = Ok (el_result None fl f (no_weights f))).
  { rewrite el_open by assumption. cbn [wtext option_map]. apply el_unweighted; auto; [apply (fits_more (imax L - 2)); [lia|exact Hfit]|]. fold es. rewrite Hle. exact Hm. }
  assert (Hn : co_n (el_result (None : option (wrd unit)) fl f (no_weights f)) = Some n).
  { unfold el_result. cbn [co_n]. f_equal. fold es. unfold n, vertices. rewrite max_app, <- Hes. rewrite <- (counted_proper sl es). fold fl. unfold pairs. rewrite !map_map. lia. }
  assert (Hv : (0 < n <= imax L - 1)%Z).
  { unfold n, vertices. assert (A : forall l, (0 <= max_of l)%Z) by (intros l; unfold max_of; induction l; cbn; lia).
    specialize (A (map fst (proper sl ps) ++ map snd (proper sl ps))). split; [lia|]. enough (max_of (map fst (proper sl ps) ++ map snd (proper sl ps)) <= imax L - 2)%Z by lia.
    apply max_le; [lia|]. unfold labels_fit in Hfit. fold ps in Hfit. rewrite Forall_forall in Hfit. apply Forall_app. split; apply Forall_map, Forall_forall; intros p Hp; apply (Hfit p), (proper_incl sl), Hp. }
  assert (HB : Forall (fun p => 0 <= fst p < n /\ 0 <= snd p < n)%Z (proper sl ps)).
  { apply Forall_forall. intros p Hp. pose proof (proj1 (Forall_forall _ _) (pairs_nonneg f Hf) p (proper_incl sl _ _ Hp)) as N. cbn beta in N. unfold n, vertices.
    assert (H : (fst p <= max_of (map fst (proper sl ps) ++ map snd (proper sl ps)) /\ snd p <= max_of (map fst (proper sl ps) ++ map snd (proper sl ps)))%Z).
    { split; apply max_of_in; apply in_or_app; [left|right]; apply in_map; exact Hp. } lia. }
  assert (HB2 : Forall (fun p => 0 <= fst p < n)%Z (both_ways (proper sl ps))).
  { apply Forall_forall. intros p Hp. unfold both_ways in Hp. apply in_flat_map in Hp as (q & Hq & Hp). rewrite Forall_forall in HB. specialize (HB q Hq). cbn beta in HB.
    destruct (fst q =? snd q)%Z; cbn [In] in Hp; repeat destruct Hp as [<-|Hp]; try contradiction; cbn [fst]; lia. }
  destruct (coo_graph L O false (el_result None fl f (no_weights f)) (stored fl es) n cc) as (r & rows & Er & _ & _ & (Gn & Gm & GA) & _); auto.
  - apply (result_holds (None : option (wrd unit)) fl f (no_weights f)).
  - discriminate.
  - lia.
  - apply room_less. lia.
  - rewrite Hle. exact Hm.
  - rewrite <- HS in HB2. unfold pairs in HB2. rewrite Forall_map in HB2. exact HB2.
  - rewrite Hle. exact HC.
  - exists (el_result None fl f (no_weights f)), r. split; [exact E|]. split; [exact Er|]. split; [exact Gn|]. split; [rewrite Gm, Hle; reflexivity|].
    rewrite HS in GA. intros u v Hu Hv'. destruct (GA u Hu) as (nu & N1 & N2 & N3). destruct (GA v Hv') as (nv & M1 & M2 & M3).
    exists nu, nv. split; [exact N1|]. split; [exact M1|]. split; [rewrite N2, (Permutation_length N3); reflexivity|].
    rewrite (proj1 (Permutation_count_occ Z.eq_dec nu _) N3 v), (proj1 (Permutation_count_occ Z.eq_dec nv _) M3 u), !succs_count, !both_lines, !proper_lines.
    rewrite (Z.eqb_sym v u). destruct (Z.eqb_spec u v) as [->|N].
    + rewrite Z.eqb_refl, Bool.andb_true_r. split; reflexivity.
    + rewrite Bool.andb_false_r. split; [apply Nat.add_comm|reflexivity].
Qed.
Print Assumptions C59_undirected.

(** ** A concrete file: "0 2", "2 1", "0 2", "2 2", of 16 bytes, on pages of 64,
    read by two threads *)
Definition ex_pf : el_file :=
  mkEl [] [ mkLine (bs "0") (bs " ") (bs "2") [] []; mkLine (bs "2") (bs " ") (bs "1") [] [];
            mkLine (bs "0") (bs " ") (bs "2") [] []; mkLine (bs "2") (bs " ") (bs "2") [] [] ].
Definition ex_pconv : cchoice := mkChoice 2 1 [[0; 2]; [3; 1]] [[3; 0]; [2; 1]] [1] [0; 1] [1; 0; 1; 1].
Definition ex_pch : lchoice :=
  mkLchoice 2 [1; 0; 1] (1, []) (1, []) (1, []) (mkGchoice 2 [] []) ex_pconv [[1]; [0; 2]] [1; 0].
Definition ex_pdc : dchoice := mkDChoice [[1]; [2; 0]] [1; 1; 0] 2 1 [1; 0] [[2; 0]; [1]] [0; 1].
Lemma ex_pf_ok : wf_el ex_pf /\ labels_fit (imax u8 - 2) ex_pf /\ off_page 64 (el_text ex_pf) /\
  as_el AUTO (chars "g.el") (el_text ex_pf) /\ legal (length (el_pairs ex_pf)) ex_pconv /\
  Permutation (concat (dc_sort ex_pdc)) (seq 0 (Z.to_nat (vertices (el_pairs ex_pf)))) /\
  Permutation (concat (dc_copy ex_pdc)) (seq 0 (Z.to_nat (vertices (el_pairs ex_pf)))).
Proof.
  assert (EP : el_pairs ex_pf = [(0, 2); (2, 1); (0, 2); (2, 2)]%Z) by reflexivity.
  split; [|split; [|split; [|split; [|split; [|split]]]]].
  - split; cbn [ex_pf el_lines el_head]; [apply gap_nil|]. repeat split; try digits_t; try (repeat constructor; fail); try discriminate; apply gap_nil.
  - unfold labels_fit. rewrite EP. repeat constructor; vm_compute; discriminate.
  - split; [lia|]. vm_compute. discriminate.
  - right. split; [reflexivity|]. split; [intros (b & r & E); discriminate|].
    split; intros (a & E); apply (f_equal (@rev _)) in E; rewrite rev_app_distr in E; discriminate.
  - unfold legal. cbn [ch_T ch_single ch_parts1 ch_parts2 ex_pconv concat app]. split; [lia|]. split; [lia|].
    split; (apply NoDup_Permutation; [repeat constructor; cbn; intuition discriminate|apply seq_NoDup|intros x; cbn; intuition]).
  - change (Z.to_nat (vertices (el_pairs ex_pf))) with 3. apply NoDup_Permutation; [repeat constructor; cbn; intuition discriminate|apply seq_NoDup|intros x; cbn; intuition].
  - change (Z.to_nat (vertices (el_pairs ex_pf))) with 3. apply NoDup_Permutation; [repeat constructor; cbn; intuition discriminate|apply seq_NoDup|intros x; cbn; intuition].
Qed.
Example C59_applies :
  (exists c : csr unit, csr_open u8 u32 None 64 (chars "g.el") (Some (el_text ex_pf)) AUTO ex_pch = Ok c /\
     is_graph u32 c 3 4 (succs [(0, 2); (2, 1); (0, 2); (2, 2)]%Z) /\ neighbors c 2 = Ok [2; 1]%Z /\ neighbors c 1 = Ok []) /\
  (exists i o : csr unit, digraph_open u8 u32 None 64 (chars "g.el") (Some (el_text ex_pf)) AUTO ex_pch ex_pch ex_pconv ex_pconv = Ok (i, o) /\
     neighbors i 2 = Ok [0; 2; 0]%Z /\ neighbors o 0 = Ok [2; 2]%Z).
Proof.
  destruct ex_pf_ok as (H1 & H2 & H3 & H4 & H5 & _ & _). assert (H8 : is_ity u8) by (cbn; auto). assert (H32 : is_ity u32) by (cbn; auto).
  assert (Hm : (Z.of_nat (length (el_pairs ex_pf)) <= imax u32)%Z) by (vm_compute; discriminate).
  split.
  - destruct (C59_csr_from_edge_list u8 u32 ex_pf 64 (chars "g.el") AUTO ex_pch H8 H32 H1 H2 Hm H3 H4 ltac:(cbn; lia) H5) as (c & E & HG).
    exists c. split; [exact E|]. split; [exact HG|].
    assert (EC : exists c', csr_open (W := unit) u8 u32 None 64 (chars "g.el") (Some (el_text ex_pf)) AUTO ex_pch = Ok c' /\ neighbors c' 2 = Ok [2; 1]%Z /\ neighbors c' 1 = Ok []).
    { eexists. split; [vm_compute; reflexivity|]. split; reflexivity. }
    destruct EC as (c' & Ec & Q1 & Q2). rewrite Ec in E. injection E as <-. auto.
  - eexists. eexists. split; [vm_compute; reflexivity|]. split; reflexivity.
Qed.

Example C59_undirected_applies : exists (c : coo unit) r,
  coo_open u8 u32 None (mkFlags true false false) 64 (chars "g.el") (Some (el_text ex_pf)) AUTO ex_pch = Ok c /\
  convert_coo u8 u32 false c (mkChoice 1 0 [seq 0 7] [seq 0 7] [] [] []) = Ok r /\ cs_n r = 3%Z /\ cs_m r = 7%Z /\
  exists n2, neighbors r 2 = Ok n2 /\ count_occ Z.eq_dec n2 0%Z = 2 /\ count_occ Z.eq_dec n2 1%Z = 1 /\ count_occ Z.eq_dec n2 2%Z = 1.
Proof.
  destruct ex_pf_ok as (H1 & H2 & H3 & H4 & _). assert (H8 : is_ity u8) by (cbn; auto). assert (H32 : is_ity u32) by (cbn; auto).
  assert (Hm : (Z.of_nat (length (both_ways (proper false (el_pairs ex_pf)))) <= imax u32)%Z) by (vm_compute; discriminate).
  assert (HC : legal (length (both_ways (proper false (el_pairs ex_pf)))) (mkChoice 1 0 [seq 0 7] [seq 0 7] [] [] [])).
  { unfold legal. cbn [ch_T ch_single ch_parts1 ch_parts2]. split; [lia|]. split; [lia|]. split; reflexivity. }
  destruct (C59_undirected false u8 u32 ex_pf 64 (chars "g.el") AUTO ex_pch _ H8 H32 H1 H2 Hm H3 H4 ltac:(cbn; lia) HC) as (c & r & E1 & E2 & E3 & E4 & HA).
  exists c, r. split; [exact E1|]. split; [exact E2|]. split; [exact E3|]. split; [exact E4|].
  assert (V : vertices (proper false (el_pairs ex_pf)) = 3%Z) by reflexivity. rewrite V in HA.
  destruct (HA 2 0)%Z as (n2 & ? & A1 & _ & _ & _ & A0); [lia|lia|].
  destruct (HA 2 1)%Z as (n2' & ? & B1 & _ & _ & _ & B0); [lia|lia|]. rewrite A1 in B1. injection B1 as <-.
  destruct (HA 2 2)%Z as (n2' & ? & B1 & _ & _ & _ & C0); [lia|lia|]. rewrite A1 in B1. injection B1 as <-.
  exists n2. split; [exact A1|]. split; [rewrite A0; reflexivity|]. split; [rewrite B0; reflexivity|rewrite C0; reflexivity].
Qed.
