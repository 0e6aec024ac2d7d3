(** * P_CutGap: C47, a DiGraph file that ends where its second CSR should begin *)

From Coq Require Import String Permutation.
From Verif Require Import Base Reader ReaderLemmas Safe Arb Sched SchedLemmas CooExec Coo ElSpec ElFinal Ascii Csr SpecCsr CsrLemmas CsrMain Codec Bin SpecBin BinLemmas BinSave BinLoad Graph Load Tensor BinOpen BinBad SpecReweigh Reweigh SpecCut Cut P_Bin P_BinBad P_BinEx P_Cut CrashRead P_CutHead.
Notation length := List.length.
Open Scope list_scope.

(** ** Bytes without a digit hold no edges *)
Section NoDigit.
  Variable m : mem.
  Variable d0 : nat.
  Let e := flen m.
  Hypothesis Hs : slack m.
  Hypothesis Hd : d0 <= e.
  Hypothesis Hn : forall i c, d0 <= i < e -> load m i = Ok c -> is_digit c = false.

  Lemma first_none : move_to_first_int m e d0 = Ok e.
  Proof.
    destruct (safe_ok _ _ _ Hs (move_to_first_int_safe m e (le_n _) d0 Hd)) as (d' & E & H1 & H2).
    rewrite E. f_equal. destruct (Nat.eq_dec d' e) as [|Hne]; [assumption|]. destruct (H2 ltac:(lia)) as (c & Hc & Hg).
    rewrite (Hn d' c) in Hg by (assumption || lia). discriminate.
  Qed.

  Lemma line_none p : d0 <= p <= e -> next_line m e p = Ok e.
  Proof.
    intros Hp. destruct (next_line_ok m Hs e (le_n _) p ltac:(lia)) as (d' & E & H1 & _ & H2).
    rewrite E. f_equal. destruct (Nat.eq_dec d' e) as [|Hne]; [assumption|]. destruct (H2 ltac:(lia)) as (c & Hc & Hg).
    rewrite (Hn d' c) in Hg by (assumption || lia). discriminate.
  Qed.

  Lemma chunk_none T t : el_chunk m d0 e T t = Ok (e, e).
  Proof.
    assert (HA : forall p, d0 <= advance e d0 p <= e) by (intros p; unfold advance; lia).
    unfold el_chunk, line_boundary. rewrite (proj2 (Nat.ltb_ge e d0)) by lia; cbn [andb]. rewrite line_none by apply HA. cbn [bind].
    assert (E : (if t =? 0 then move_to_first_int m e (advance e d0 (t * (e - d0) / T)) else next_line m e (advance e d0 (t * (e - d0) / T))) = Ok e).
    { destruct (Nat.eqb_spec t 0) as [->|]; [|apply line_none, HA].
      assert (E0 : 0 * (e - d0) / T = 0) by (cbn [Nat.mul]; destruct T; [reflexivity|apply Nat.div_0_l; lia]). rewrite E0. unfold advance. rewrite Nat.add_0_r, Nat.min_l by exact Hd. apply first_none. }
    rewrite E. cbn [bind]. unfold smaller_end. rewrite Nat.ltb_irrefl. reflexivity.
  Qed.

  Lemma mapM_const {A B} (f : A -> res B) b l : (forall a, In a l -> f a = Ok b) -> mapM f l = Ok (repeat b (length l)).
  Proof. intros H. rewrite (mapM_ok f (fun _ => b) l H). f_equal. clear H. induction l as [|a l IH]; [reflexivity|]. cbn. f_equal. exact IH. Qed.

  Lemma run_none {W} sched n (s : cst W) : run cexec sched (repeat [] n) s = Ok s.
  Proof.
    induction sched as [|t sched IH]; cbn [run].
    - induction n as [|n IHn]; [reflexivity|]. exact IHn.
    - assert (E : pop t (repeat (@nil (cinstr W)) n) = None).
      { clear IH. revert t. induction n as [|n IHn]; intros t; [destruct t; reflexivity|]. cbn [repeat]. destruct t as [|t]; cbn [pop]; [reflexivity|]. rewrite IHn. reflexivity. }
      rewrite E. exact IH.
  Qed.

End NoDigit.

  Lemma read_el_chunks {W} L O (wr : option (wrd W)) fl m d0 e T sched : is_ity L -> is_ity O ->
    (forall t, In t (seq 0 T) -> el_chunk m d0 e T t = Ok (e, e)) ->
    read_el L O wr fl m d0 e T sched = Ok (mkCoo [] [] [] (Some 1%Z) (Some 1%Z) (Some 1%Z) 0%Z).
  Proof.
    intros HL HO HC. unfold read_el, el_pass1. rewrite (mapM_const _ (e, e)) by exact HC. cbn [bind]. rewrite seq_length.
    rewrite (mapM_const _ 0).
    2:{ intros a Ha. apply repeat_spec in Ha. subst a. cbn [fst snd]. rewrite Nat.sub_diag. cbn [count_loop]. rewrite Nat.ltb_irrefl. reflexivity. }
    cbn [bind]. rewrite repeat_length.
    assert (Z0 : sum_nat (repeat 0 T) = 0).
    { unfold sum_nat. assert (H : forall n, fold_left Nat.add (repeat 0 n) 0 = 0) by (induction n; [reflexivity|assumption]). apply H || (clear; induction T; [reflexivity|assumption]). }
    rewrite Z0. assert (W0 : wrap O (Z.of_nat 0) = 0%Z) by (clear - HO; unfold is_ity in HO; cbn [In] in HO; repeat (destruct HO as [<-|HO]; [reflexivity|]); destruct HO).
    rewrite W0. unfold coo_alloc. cbn [Z.ltb Z.compare bind Z.to_nat fresh repeat].
    assert (E2 : el_pass2 L wr fl m (repeat (e, e) T) (repeat 0 T) = Ok (repeat ([], imin L, imin L) T)).
    { unfold el_pass2.
      assert (EP : prefix_sums 0 (repeat 0 T) = repeat 0 T) by (clear; induction T as [|T IH]; [reflexivity|]; cbn [repeat prefix_sums]; f_equal; exact IH).
      rewrite EP. assert (EC : combine (repeat (e, e) T) (repeat 0 T) = repeat ((e, e), 0) T) by (clear; induction T as [|T IH]; [reflexivity|]; cbn [repeat combine]; f_equal; exact IH).
      rewrite EC. rewrite (mapM_const _ ([], imin L, imin L)); [rewrite repeat_length; reflexivity|].
      intros a Ha. apply repeat_spec in Ha. subst a. cbn [fst snd]. rewrite Nat.sub_diag. cbn [set_loop]. rewrite Nat.ltb_irrefl. reflexivity. }
    rewrite E2. cbn [bind]. rewrite !repeat_map. cbn [fst snd].
    rewrite run_none. cbn [bind].
    assert (HF : fold_left Z.max (repeat (imin L) T) 0%Z = 0%Z).
    { assert (HI : Z.max 0 (imin L) = 0%Z) by (clear - HL; unfold is_ity in HL; cbn [In] in HL; repeat (destruct HL as [<-|HL]; [reflexivity|]); destruct HL).
      clear - HI. induction T as [|T IH]; [reflexivity|]. cbn [repeat fold_left]. rewrite HI. exact IH. }
    rewrite HF. assert (HA : arith L (0 + 1)%Z = Ok 1%Z) by (clear - HL; unfold is_ity in HL; cbn [In] in HL; repeat (destruct HL as [<-|HL]; [reflexivity|]); destruct HL).
    rewrite HA. cbn [bind cx cy cw Z.ltb Z.compare]. destruct (is_some wr); reflexivity.
  Qed.
  Lemma read_el_none {W} L O (wr : option (wrd W)) fl m d0 T sched : slack m -> d0 <= flen m ->
    (forall i c, d0 <= i < flen m -> load m i = Ok c -> is_digit c = false) -> is_ity L -> is_ity O ->
    read_el L O wr fl m d0 (flen m) T sched = Ok (mkCoo [] [] [] (Some 1%Z) (Some 1%Z) (Some 1%Z) 0%Z).
  Proof. intros Hs Hd Hn HL HO. apply read_el_chunks; [exact HL|exact HO|]. intros t _. apply chunk_none; assumption. Qed.

(** A CSR without edges from such bytes: one vertex. *)
Lemma convert_none {W} L O weighted ch : is_ity L -> is_ity O -> legal 0 ch ->
  exists o', convert_coo (W:=W) L O weighted (mkCoo [] [] [] (Some 1%Z) (Some 1%Z) (Some 1%Z) 0%Z) ch = Ok o' /\
    cs_n o' = 1%Z /\ cs_m o' = 0%Z /\ cs_off o' = [Some 0%Z; Some 0%Z] /\ cs_end o' = [] /\ (weighted = true -> cs_w o' = []) /\
    cs_nrows o' = Some 1%Z /\ cs_ncols o' = Some 1%Z.
Proof.
  intros HL HO Hleg.
  destruct (convert_coo_ok L O HL HO weighted (mkCoo [] [] [] (Some 1%Z) (Some 1%Z) (Some 1%Z) 0%Z) ([] : list (Z * Z * W)) 1%Z) with (ch := ch)
    as (o' & es' & Eo & HP & (R1 & R2 & R3 & R4 & R5) & Rr & Rc & _); auto; try lia.
  - repeat split.
  - reflexivity.
  - clear - HL. unfold room. unfold is_ity in HL. cbn [In] in HL. repeat (destruct HL as [<-|HL]; [vm_compute; split; [discriminate|right; reflexivity]|]). destruct HL.
  - clear - HO. cbn [length Z.of_nat]. unfold is_ity in HO. cbn [In] in HO. repeat (destruct HO as [<-|HO]; [vm_compute; discriminate|]). destruct HO.
  - assert (es' = []) as -> by (apply Permutation_nil; symmetry; exact HP).
    exists o'. split; [exact Eo|]. cbn in R1, R2, R3, R4. cbn in R5. repeat split; auto.
Qed.

Lemma no_edges_csr {W} L O (wm : option (wmode W)) s pg fn pre r ch : is_ity L -> is_ity O -> off_page pg s ->
  s = pre ++ r -> length r <= 4 -> (forall c, In c r -> is_digit c = false) -> legal 0 (lc_conv ch) ->
  ~ ends_in fn (chars ".mtx") -> ~ ends_in fn (chars ".graph") ->
  exists o' f', csr_read L O wm (reading s pg fn pre) AUTO ch = Ok (o', f') /\
    cs_n o' = 1%Z /\ cs_m o' = 0%Z /\ cs_off o' = [Some 0%Z; Some 0%Z] /\ cs_end o' = [] /\ (wm <> None -> cs_w o' = []) /\
    cs_nrows o' = Some 1%Z /\ cs_ncols o' = Some 1%Z.
Proof.
  intros HL HO Hoff Es Hr Hd Hleg N1 N2.
  assert (NB : forall mg, 4 <= length mg -> ~ begins r mg) by (intros mg Hm Hb; apply begins_len in Hb; lia).
  assert (EG : guess (reading s pg fn pre) = Ok EDGE_LIST).
  { rewrite (guess_at s pg fn pre r Es).
    assert (HF : forall mg, 4 <= length mg -> (if length r <=? length mg then false else str_eq mg (firstn (length mg) r)) = false) by (intros mg Hm; apply begins_false, NB, Hm).
    rewrite !HF by (cbn; lia).
    destruct (has_suffix fn ext_mtx) eqn:E1; [exfalso; apply N1; apply has_suffix_spec in E1; exact E1|].
    destruct (has_suffix fn ext_graph) eqn:E2; [exfalso; apply N2; apply has_suffix_spec in E2; exact E2|]. reflexivity. }
  unfold csr_read, used. rewrite EG. cbn [bind]. unfold coo_read, used. cbn [bind]. unfold with_reader, reading. cbn [rf_mem rf_fp].
  set (mm := mkMem s pg).
  change (flen mm) with (flen mm). rewrite (read_el_none _ _ _ _ mm (length pre)); [|apply slack_off_page; exact Hoff| | |exact HL|exact HO].
  2:{ unfold mm, flen. cbn [bytes]. rewrite Es, app_length. lia. }
  2:{ unfold mm, flen. cbn [bytes]. intros i c Hi Hc. apply Hd. unfold load in Hc. cbn [bytes] in Hc. rewrite Es in Hc, Hi. rewrite app_length in Hi.
      rewrite nth_error_app2 in Hc by lia. destruct (nth_error r (i - length pre)) as [x|] eqn:E; [|apply nth_error_None in E; lia].
      injection Hc as <-. eapply nth_error_In. exact E. }
  cbn [bind].
  destruct (convert_none (W:=W) L O (is_some wm) (lc_conv ch) HL HO Hleg) as (o' & Eo & H1 & H2 & H3 & H4 & H5 & H6 & H7). rewrite Eo. cbn [bind].
  exists o'. eexists. split; [reflexivity|]. repeat split; auto. intros Hw. apply H5. destruct wm; [reflexivity|congruence].
Qed.

(** The file ends where the second CSR should begin, or up to four bytes behind:
    the load succeeds, with the right incoming edges, and a CSR of one vertex
    and no edges for the outgoing ones; the cut is not detected.  With 5 to 12
    bytes more, it is an error. *)
Theorem C47_digraph_between : forall {W} L O (wm : option (wmode W)) P i o pg fn ft ch1 ch2 c1 c2 b k,
  is_ity L -> is_ity O ->
  csr_shape (wbin wm) i -> csr_full L O (wbin wm) P i -> room L (cs_n i) ->
  csr_shape (wbin wm) o -> csr_full L O (wbin wm) P o -> room L (cs_n o) ->
  teams ch1 -> teams ch2 -> legal 0 (lc_conv ch2) -> off_page pg (firstn k b) ->
  ~ ends_in fn (chars ".mtx") -> ~ ends_in fn (chars ".graph") -> ft = AUTO \/ ft = PIGO_DIGRAPH_BIN ->
  digraph_layout L O (wbin wm) i o = map Some b ->
  let q := length (text "PIGO-DiGraph-v1") + length (csr_layout L O (wbin wm) i) in
  (q <= k -> k <= q + 4 -> exists o', digraph_open L O wm pg fn (Some (firstn k b)) ft ch1 ch2 c1 c2 = Ok (i, o') /\
     cs_n o' = 1%Z /\ cs_m o' = 0%Z /\ cs_off o' = [Some 0%Z; Some 0%Z] /\ cs_end o' = [] /\ (wm <> None -> cs_w o' = []) /\
     cs_nrows o' = Some 1%Z /\ cs_ncols o' = Some 1%Z) /\
  (q + 5 <= k -> k <= q + 11 -> digraph_open L O wm pg fn (Some (firstn k b)) ft ch1 ch2 c1 c2 = Throw EError).
Proof.
  intros W L O wm P i o pg fn ft ch1 ch2 c1 c2 b k HL HO Si Fi Ri So Fo Ro (U1 & U2 & U3) (V1 & V2 & V3) Hleg Hoff N1 N2 Hft Eb q.
  destruct (csr_read_ok L O (wbin wm) P HL HO i _ _ _ Si Fi Ri U1 U2 U3) as (bi & Ei & Ni & Hri).
  destruct (csr_read_ok L O (wbin wm) P HL HO o _ _ _ So Fo Ro V1 V2 V3) as (bo & Eo & _ & _).
  assert (EB : b = (digraph_magic ++ bi) ++ bo).
  { apply map_Some_inj. rewrite <- Eb. unfold digraph_layout. rewrite Ei, Eo, !map_app, <- app_assoc. reflexivity. }
  assert (Lq : q = length (digraph_magic ++ bi)) by (unfold q; rewrite Ei, map_length, app_length; reflexivity).
  pose proof (csr_begins L O (wbin wm) i bi Ei) as Hbi.
  pose proof (csr_begins L O (wbin wm) o bo Eo) as Hbo.
  set (s := firstn k b) in *.
  assert (HC : q <= k -> k <= q + 11 -> 
     s = (digraph_magic ++ bi) ++ firstn (k - q) csr_magic /\
     digraph_open L O wm pg fn (Some s) ft ch1 ch2 c1 c2 =
     ('(o', _) <- csr_read L O wm (reading s pg fn (digraph_magic ++ bi)) AUTO ch2 ;; Ok (i, o'))).
  { intros Hk1 Hk2. assert (ES : s = (digraph_magic ++ bi) ++ firstn (k - q) csr_magic).
    { unfold s. rewrite EB, firstn_app, (firstn_all2 (digraph_magic ++ bi)) by lia. f_equal. rewrite <- Lq.
      destruct Hbo as (x & y & ->). change (chars "PIGO-CSR-v2") with csr_magic. rewrite firstn_app. replace (k - q - length csr_magic) with 0 by (change (length csr_magic) with 11; lia). cbn [firstn]. rewrite app_nil_r. reflexivity. }
    split; [exact ES|]. set (rest := firstn (k - q) csr_magic) in *.
    unfold digraph_open. rewrite open_reading by (rewrite ES; discriminate). cbn [bind]. unfold digraph_read.
    rewrite (guess_begins_ft ft _ PIGO_DIGRAPH_BIN Hft); [|discriminate|].
    2:{ eapply (guess_digraph s pg fn [] s); [reflexivity|]. rewrite ES. destruct Hbi as (x & y & ->). eexists _, _. rewrite <- !app_assoc. reflexivity. }
    cbn [bind]. rewrite (rd_str_ok s pg fn [] digraph_magic (bi ++ rest)); [|rewrite ES, <- app_assoc; reflexivity|destruct bi; [congruence|discriminate]].
    cbn [bind app]. unfold csr_read at 1. rewrite (guess_begins_ft AUTO _ PIGO_CSR_BIN (or_introl eq_refl)); [|discriminate|].
    2:{ eapply (guess_csr s pg fn digraph_magic (bi ++ rest)); [rewrite ES, <- app_assoc; reflexivity|]. apply begins_app. exact Hbi. }
    cbn [bind]. unfold csr_direct at 1. rewrite (Hri s pg fn digraph_magic rest) by (rewrite ES, <- app_assoc; reflexivity). cbn [bind].
    destruct (csr_read L O wm (reading s pg fn (digraph_magic ++ bi)) AUTO ch2) as [[o' f']|?| |]; reflexivity. }
  split; intros Hk1 Hk2; destruct HC as (ES & EO); try lia; rewrite EO.
  - destruct (no_edges_csr L O wm s pg fn (digraph_magic ++ bi) (firstn (k - q) csr_magic) ch2 HL HO Hoff ES) as (o' & f' & -> & H); auto.
    + rewrite firstn_length. lia.
    + intros c Hc. assert (Hin : In c (firstn 4 csr_magic)).
      { replace (k - q) with (Nat.min (k - q) 4) in Hc by lia. rewrite <- firstn_firstn in Hc. rewrite <- (firstn_skipn (k - q) (firstn 4 csr_magic)). apply in_or_app. left. exact Hc. }
      cbn in Hin. repeat (destruct Hin as [<-|Hin]; [reflexivity|]). destruct Hin.
    + cbn [bind]. exists o'. split; [reflexivity|exact H].
  - assert (EG : guess (reading s pg fn (digraph_magic ++ bi)) = Throw EError).
    { rewrite (guess_at s pg fn (digraph_magic ++ bi) (firstn (k - q) csr_magic) ES).
      remember (k - q) as j eqn:Ej. assert (Hj : 5 <= j <= 11) by lia. clear - Hj.
      do 5 (destruct j as [|j]; [lia|]). do 7 (destruct j as [|j]; [reflexivity|]). lia. }
    unfold csr_read, used. rewrite EG. reflexivity.
Qed.
Print Assumptions C47_digraph_between.

(** Two CSRs of two vertices and two edges; the file ends before the second, in
    its magic string ("PIG"), and later in it ("PIGO-C"). *)
From Verif Require Import P_CutHeadCsr.
Definition ex_cg_bytes : list byte := chars "PIGO-DiGraph-v1" ++ ex_chc_bytes ++ ex_chc_bytes.
Example C47_digraph_between_applies :
  digraph_layout u32 u32 None ex_ch_csr ex_ch_csr = map Some ex_cg_bytes /\
  (forall k, 64 <= k -> k <= 68 -> exists o',
    digraph_open (W:=unit) u32 u32 None 4096 (chars "a.bin") (Some (firstn k ex_cg_bytes)) AUTO ex_ch_l ex_ch_l (lc_conv ex_ch_l) (lc_conv ex_ch_l) = Ok (ex_ch_csr, o') /\
    cs_n o' = 1%Z /\ cs_m o' = 0%Z) /\
  digraph_open (W:=unit) u32 u32 None 4096 (chars "a.bin") (Some (firstn 70 ex_cg_bytes)) AUTO ex_ch_l ex_ch_l (lc_conv ex_ch_l) (lc_conv ex_ch_l) = Throw EError.
Proof.
  assert (H32 : is_ity u32) by (cbn; auto).
  assert (EL : digraph_layout u32 u32 None ex_ch_csr ex_ch_csr = map Some ex_cg_bytes) by (vm_compute; reflexivity).
  assert (HT : teams ex_ch_l) by (unfold teams; cbn; lia).
  assert (HR : room u32 (cs_n ex_ch_csr)) by (split; [vm_compute; discriminate|right; vm_compute; reflexivity]).
  assert (HS : csr_shape (W:=unit) (wbin None) ex_ch_csr) by (unfold csr_shape; cbn; repeat split; lia).
  assert (HF : csr_full (W:=unit) u32 u32 (wbin None) (fun _ => True) ex_ch_csr).
  { unfold csr_full, fit. cbn. repeat split; eauto. all: try (repeat constructor; eexists; split; reflexivity). }
  assert (HG : legal 0 (lc_conv ex_ch_l)) by (repeat split; cbn; auto).
  assert (Hn : forall ext, (ext = chars ".mtx" \/ ext = chars ".graph") -> ~ ends_in (chars "a.bin") ext).
  { intros ext He H. apply has_suffix_spec in H. destruct He as [->| ->]; vm_compute in H; discriminate. }
  assert (HO : forall k, 64 <= k -> k <= 75 -> off_page 4096 (firstn k ex_cg_bytes)).
  { intros k H1 H2. split; [lia|]. rewrite firstn_length. change (length ex_cg_bytes) with 113. rewrite Nat.min_l by lia. rewrite Nat.mod_small by lia. lia. }
  split; [exact EL|]. split.
  - intros k H1 H2.
    destruct (C47_digraph_between (W:=unit) u32 u32 None (fun _ => True) ex_ch_csr ex_ch_csr 4096 (chars "a.bin") AUTO ex_ch_l ex_ch_l (lc_conv ex_ch_l) (lc_conv ex_ch_l) ex_cg_bytes k
      H32 H32 HS HF HR HS HF HR HT HT HG (HO k H1 ltac:(lia)) (Hn _ (or_introl eq_refl)) (Hn _ (or_intror eq_refl)) (or_introl eq_refl) EL) as [H _].
    destruct (H H1 H2) as (o' & E & N & M & _). exists o'. auto.
  - assert (H1 : 64 <= 70) by lia. assert (H2 : 70 <= 75) by lia.
    destruct (C47_digraph_between (W:=unit) u32 u32 None (fun _ => True) ex_ch_csr ex_ch_csr 4096 (chars "a.bin") AUTO ex_ch_l ex_ch_l (lc_conv ex_ch_l) (lc_conv ex_ch_l) ex_cg_bytes 70
      H32 H32 HS HF HR HS HF HR HT HT HG (HO 70 H1 H2) (Hn _ (or_introl eq_refl)) (Hn _ (or_intror eq_refl)) (or_introl eq_refl) EL) as [_ H].
    apply H; vm_compute; lia.
Qed.
