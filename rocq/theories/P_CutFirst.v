(** * P_CutFirst: C47, a DiGraph file cut inside the arrays of its first CSR *)

From Coq Require Import String Permutation.
From Verif Require Import Base Reader ReaderLemmas Safe Arb Sched SchedLemmas CooExec Coo ElSpec ElFinal Ascii Csr SpecCsr CsrLemmas CsrMain Codec Bin SpecBin BinLemmas BinSave BinLoad Graph Load Tensor BinOpen BinBad SpecReweigh Reweigh SpecCut Cut P_Bin P_BinBad P_BinEx P_Cut CrashRead P_CutHead P_CutHeadCsr P_CutGap.
Notation length := List.length.
Open Scope list_scope.

Lemma csr_tail_cases {W} L O (wc : option (codec W)) n nr nc m f tx ty tw :
  is_ity L -> (0 <= n)%Z -> room L n -> (0 <= m)%Z -> 1 <= page (rf_mem f) -> 1 <= fst tx -> 1 <= fst ty -> 1 <= fst tw ->
  rf_fp f <= map_len (rf_mem f) ->
  let fp' := rf_fp f + isize O * Z.to_nat (n + 1) + isize L * Z.to_nat m + weight_size wc (Z.to_nat m) in
  csr_tail L O O wc n nr nc m f tx ty tw = UB \/
  exists c', csr_tail L O O wc n nr nc m f tx ty tw = Ok (c', mkRfile (rf_mem f) fp' (rf_name f)) /\ fp' <= map_len (rf_mem f).
Proof.
  intros HL H0 HR Hm Hpg T1 T2 T3 Hf fp'. unfold csr_tail, csr_alloc, alloc. rewrite (plus1_ok L _ HL H0 HR). destruct (Z.ltb_spec m 0); [lia|]. cbn [bind].
  assert (EA : (if is_some wc then Ok (fresh (Z.to_nat m)) else Ok []) = Ok (if is_some wc then @fresh W (Z.to_nat m) else [])) by (destruct wc; reflexivity).
  rewrite EA. cbn [bind]. destruct (Z.ltb_spec (n + 1) 0); [lia|]. cbn [bind].
  match goal with |- context [rd_array (cint O) ?l ?v tx f] =>
    destruct (rd_array_cases (cint O) l v tx f T1 Hpg Hf) as [->|(x & -> & HA1)] end; [left; reflexivity|]. cbn [bind].
  match goal with |- context [rd_array (cint L) ?l ?v ty ?g] =>
    destruct (rd_array_cases (cint L) l v ty g T2) as [->|(y & -> & HA2)] end; [exact Hpg|exact HA1|left; reflexivity|]. cbn [bind]. cbn [rf_mem rf_fp rf_name] in *.
  match goal with |- context [get_weights wc ?l ?k tw ?g] =>
    destruct (get_weights_cases wc l k tw g T3) as [->|(w & -> & HA3)] end; [exact Hpg|exact HA2|left; reflexivity|]. cbn [bind]. cbn [rf_mem rf_fp rf_name] in *.
  right. eexists. split; [reflexivity|exact HA3].
Qed.

(** A text reader that starts behind the end of the file. *)
Lemma behind_csr {W} L O (wm : option (wmode W)) m fp fn ch : is_ity L -> is_ity O -> slack m -> flen m < fp -> legal 0 (lc_conv ch) ->
  ~ ends_in fn (chars ".mtx") -> ~ ends_in fn (chars ".graph") -> 1 <= lc_T ch ->
  (lc_T ch = 1 -> exists o' f', csr_read L O wm (mkRfile m fp fn) AUTO ch = Ok (o', f') /\
    cs_n o' = 1%Z /\ cs_m o' = 0%Z /\ cs_off o' = [Some 0%Z; Some 0%Z] /\ cs_end o' = [] /\ (wm <> None -> cs_w o' = []) /\
    cs_nrows o' = Some 1%Z /\ cs_ncols o' = Some 1%Z) /\
  (2 <= lc_T ch -> csr_read L O wm (mkRfile m fp fn) AUTO ch = UB).
Proof.
  intros HL HO Hs Hfp Hleg N1 N2 HT.
  assert (EG : guess (mkRfile m fp fn) = Ok EDGE_LIST).
  { unfold guess. cbn [rf_mem rf_fp rf_name].
    assert (HA : forall mg, at_str m (flen m) fp mg = Ok false).
    { intros mg. unfold at_str. destruct (Nat.leb_spec (flen m) (fp + length mg)); [reflexivity|lia]. }
    rewrite !HA. cbn [bind].
    destruct (has_suffix fn ext_mtx) eqn:E1; [exfalso; apply N1; apply has_suffix_spec in E1; exact E1|].
    destruct (has_suffix fn ext_graph) eqn:E2; [exfalso; apply N2; apply has_suffix_spec in E2; exact E2|]. reflexivity. }
  unfold csr_read, used. rewrite EG. cbn [bind]. unfold coo_read, used. cbn [bind]. unfold with_reader. cbn [rf_mem rf_fp].
  split; intros HT1.
  - rewrite HT1. rewrite read_el_chunks; [|exact HL|exact HO|].
    2:{ intros t Ht. cbn in Ht. destruct Ht as [<-|[]]. unfold el_chunk. change (1 <? 1) with false. rewrite andb_false_r. cbn [Nat.eqb].
        assert (HA : forall p, advance (flen m) fp p = flen m) by (intros p; unfold advance; lia). rewrite !HA. unfold line_boundary.
        assert (HN : forall i c, flen m <= i < flen m -> load m i = Ok c -> is_digit c = false) by (intros; lia).
        rewrite (line_none m (flen m) Hs (le_n _) HN) by lia. rewrite (first_none m (flen m) Hs (le_n _) HN). cbn [bind].
        unfold smaller_end. rewrite Nat.ltb_irrefl. reflexivity. }
    cbn [bind].
    destruct (convert_none (W:=W) L O (is_some wm) (lc_conv ch) HL HO Hleg) as (o' & Eo & H1 & H2 & H3 & H4 & H5 & H6 & H7). rewrite Eo. cbn [bind].
    exists o'. eexists. split; [reflexivity|]. repeat split; auto. intros Hw. apply H5. destruct wm; [reflexivity|congruence].
  - assert (E : mapM (el_chunk m fp (flen m) (lc_T ch)) (seq 0 (lc_T ch)) = UB).
    { destruct (lc_T ch) as [|T]; [lia|]. cbn [seq mapM]. unfold el_chunk at 1. destruct (Nat.ltb_spec (flen m) fp); [|lia].
      destruct (Nat.ltb_spec 1 (S T)); [|lia]. reflexivity. }
    unfold read_el, el_pass1. rewrite E. reflexivity.
Qed.

(** The header of the first CSR is complete, the file ends in its arrays.  If
    these do not end in the last page, memory outside the mapping is accessed.
    Otherwise the incoming CSR is that of a CSR file with this cut, and reading
    goes on behind the end of the file: with one thread, the outgoing CSR has one
    vertex and no edges; with more, the behaviour is undefined. *)
Theorem C47_digraph_first : forall {W} L O (wm : option (wmode W)) P i o pg fn ft ch1 ch2 c1 c2 b k,
  is_ity L -> is_ity O ->
  csr_shape (wbin wm) i -> csr_full L O (wbin wm) P i -> room L (cs_n i) ->
  teams ch1 -> 1 <= lc_T ch2 -> legal 0 (lc_conv ch2) -> 1 <= pg ->
  ~ ends_in fn (chars ".mtx") -> ~ ends_in fn (chars ".graph") -> ft = AUTO \/ ft = PIGO_DIGRAPH_BIN ->
  digraph_layout L O (wbin wm) i o = map Some b ->
  let po := length (text "PIGO-DiGraph-v1") + (13 + 3 * isize L + isize O) in
  let q := length (text "PIGO-DiGraph-v1") + length (csr_layout L O (wbin wm) i) in
  po <= k -> k < q ->
  (map_len (mkMem (firstn k b) pg) < q -> digraph_open L O wm pg fn (Some (firstn k b)) ft ch1 ch2 c1 c2 = UB) /\
  (q <= map_len (mkMem (firstn k b) pg) -> lc_T ch2 = 1 ->
   exists i' o', digraph_open L O wm pg fn (Some (firstn k b)) ft ch1 ch2 c1 c2 = Ok (i', o') /\
     csr_cut L O (wbin wm) po k (firstn q b) i i' /\
     cs_n o' = 1%Z /\ cs_m o' = 0%Z /\ cs_off o' = [Some 0%Z; Some 0%Z] /\ cs_end o' = [] /\ (wm <> None -> cs_w o' = []) /\
     cs_nrows o' = Some 1%Z /\ cs_ncols o' = Some 1%Z) /\
  (2 <= lc_T ch2 -> digraph_open L O wm pg fn (Some (firstn k b)) ft ch1 ch2 c1 c2 = UB).
Proof.
  intros W L O wm P i o pg fn ft ch1 ch2 c1 c2 b k HL HO Si Fi Ri (U1 & U2 & U3) HT2 Hleg Hpg N1 N2 Hft Eb po q Hk1 Hk2.
  destruct (csr_read_ok L O (wbin wm) P HL HO i _ _ _ Si Fi Ri U1 U2 U3) as (bi & Ei & Ni & Hri).
  assert (EB : exists bo, b = (digraph_magic ++ bi) ++ bo).
  { destruct (map_Some_split b (digraph_magic ++ bi) (csr_layout L O (wbin wm) o)) as (bo & E & _); [|eexists; exact E].
    rewrite <- Eb. unfold digraph_layout. rewrite Ei, map_app, <- app_assoc. reflexivity. }
  destruct EB as (bo & EB). set (b1 := digraph_magic ++ bi) in *.
  assert (Lq : q = length b1) by (unfold q, b1; rewrite Ei, map_length, app_length; reflexivity).
  assert (Eq : firstn q b = b1) by (rewrite EB, Lq, firstn_app, Nat.sub_diag, firstn_all; cbn [firstn]; apply app_nil_r).
  assert (Es : firstn k b = firstn k b1) by (rewrite EB, firstn_app; replace (k - length b1) with 0 by lia; cbn [firstn]; apply app_nil_r).
  rewrite Eq, Es. set (s := firstn k b1) in *. assert (Ls : length s = k) by (unfold s; rewrite firstn_length; lia).
  pose proof (flen_map_len (mkMem s pg) Hpg) as HF. unfold flen in HF. cbn [bytes] in HF. rewrite Ls in HF.
  assert (Lm : length (text "PIGO-DiGraph-v1") = length digraph_magic) by reflexivity.
  (* the first CSR *)
  pose proof Fi as (Fn & Fm & (nr & Er & Hr) & (nc & Ec & Hcc) & _). pose proof Si as (H0 & Ho & He & Hw).
  pose proof (wfit_sized _ P _ (proj2 (proj2 (proj2 (proj2 (proj2 (proj2 Fi))))))) as HW.
  destruct (csr_split L O (wbin wm) i nr nc bi HL HO Er Ec Ei) as (r & Ebi & Erest).
  set (h := csr_head L O (cs_n i) nr nc (cs_m i)) in *.
  assert (Lh : length h = 13 + 3 * isize L + isize O).
  { unfold h, csr_head, enc. rewrite !app_length, !enc_len. cbn [cint cd_size length csr_magic]. change (isize u8) with 1. lia. }
  set (m := Z.to_nat (cs_m i)). assert (Em : cs_m i = Z.of_nat m) by (unfold m; lia).
  set (n1 := Z.to_nat (cs_n i + 1)).
  assert (Lr : length r = isize O * n1 + isize L * m + weight_size (wbin wm) m).
  { apply (f_equal (@List.length _)) in Erest. rewrite map_length, !app_length in Erest. unfold labels in Erest. rewrite !array_raw in Erest.
    rewrite (raw_length (cint L) _ _ (cint_f L HL)), (raw_length (cint O) _ _ (cint_f O HO)) in Erest. rewrite (wgts_length (wbin wm) HW _ m) in Erest by (rewrite <- Em; exact Hw).
    cbn [cint cd_size] in Erest. replace (length (cs_off i)) with n1 in Erest by (unfold n1; lia). replace (length (cs_end i)) with m in Erest by lia. lia. }
  assert (Lb1 : q = length digraph_magic + (length h + length r)) by (rewrite Lq; unfold b1; rewrite Ebi, !app_length; reflexivity).
  set (rest := firstn (k - length digraph_magic - length h) r).
  assert (Ess : s = digraph_magic ++ h ++ rest).
  { unfold s, b1. rewrite firstn_head by (rewrite <- Lm; unfold po in Hk1; lia). f_equal. rewrite Ebi. apply firstn_head. rewrite Lh, <- Lm. unfold po in Hk1. lia. }
  assert (EO : digraph_open L O wm pg fn (Some s) ft ch1 ch2 c1 c2 =
    ('(i', f2) <- csr_read_bin L O O (wbin wm) (reading s pg fn digraph_magic) (lc_b1 ch1) (lc_b2 ch1) (lc_b3 ch1) ;;
     '(o', f3) <- csr_read L O wm f2 AUTO ch2 ;; Ok (i', o'))).
  { unfold digraph_open. rewrite open_reading by (rewrite Ess; discriminate). cbn [bind]. unfold digraph_read.
    rewrite (guess_begins_ft ft _ PIGO_DIGRAPH_BIN Hft); [|discriminate|].
    2:{ eapply (guess_digraph s pg fn [] s); [reflexivity|]. rewrite Ess. unfold h, csr_head. rewrite <- !app_assoc. eexists _, _. reflexivity. }
    cbn [bind]. rewrite (rd_str_ok s pg fn [] digraph_magic (h ++ rest)); [|exact Ess|unfold h, csr_head; discriminate].
    cbn [bind app]. unfold csr_read at 1. rewrite (guess_begins_ft AUTO _ PIGO_CSR_BIN (or_introl eq_refl)); [|discriminate|].
    2:{ eapply (guess_csr s pg fn digraph_magic (h ++ rest)); [exact Ess|]. unfold h, csr_head. rewrite <- !app_assoc. eexists _, _. reflexivity. }
    cbn [bind]. unfold csr_direct at 1.
    destruct (csr_read_bin L O O (wbin wm) (reading s pg fn digraph_magic) (lc_b1 ch1) (lc_b2 ch1) (lc_b3 ch1)) as [[i' f2]|?| |]; try reflexivity.
    cbn [bind]. destruct (csr_read L O wm f2 AUTO ch2) as [[o' f3]|?| |]; reflexivity. }
  assert (EH : csr_read_bin L O O (wbin wm) (reading s pg fn digraph_magic) (lc_b1 ch1) (lc_b2 ch1) (lc_b3 ch1) =
     csr_tail L O O (wbin wm) (cs_n i) nr nc (cs_m i) (reading s pg fn (digraph_magic ++ h)) (lc_b1 ch1) (lc_b2 ch1) (lc_b3 ch1)).
  { rewrite (csr_head_ok L O (wbin wm) HL HO O (cs_n i) nr nc (cs_m i) s pg fn digraph_magic rest) by (auto; exact Ess). reflexivity. }
  destruct (csr_tail_cases L O (wbin wm) (cs_n i) nr nc (cs_m i) (reading s pg fn (digraph_magic ++ h)) (lc_b1 ch1) (lc_b2 ch1) (lc_b3 ch1)) as [HU|(c' & HOk & Hfp)]; auto; try lia.
  { unfold reading. cbn [rf_mem rf_fp]. rewrite app_length, Lh, <- Lm. unfold po in Hk1. lia. }
  - split; [intros _; rewrite EO, EH, HU; reflexivity|]. split; [|intros _; rewrite EO, EH, HU; reflexivity].
    intros HM HT. exfalso. rewrite Lq in HM.
    destruct (csr_read_cut L O (wbin wm) P i (lc_b1 ch1) (lc_b2 ch1) (lc_b3 ch1) pg fn digraph_magic bi k HL HO Si Fi Ri U1 U2 U3 Hpg Ei) as (_ & _ & o' & f & E & _);
      [rewrite <- Lm; exact Hk1|fold b1; lia|fold b1; exact HM|]. fold b1 s in E. rewrite EH, HU in E. discriminate.
  - unfold reading in HOk, Hfp. cbn [rf_mem rf_fp rf_name] in HOk, Hfp. rewrite app_length in HOk, Hfp. fold n1 m in HOk, Hfp.
    assert (Eq' : length digraph_magic + length h + isize O * n1 + isize L * m + weight_size (wbin wm) m = q) by lia. rewrite Eq' in HOk, Hfp.
    split; [intros HM; lia|].
    destruct (behind_csr L O wm (mkMem s pg) q fn ch2 HL HO) as [B1 B2]; auto.
    { unfold slack, flen. cbn [bytes]. lia. }
    { unfold flen. cbn [bytes]. lia. }
    split; [|intros HT; rewrite EO, EH; unfold reading; rewrite app_length, HOk; cbn [bind]; rewrite (B2 HT); reflexivity].
    intros _ HT. destruct (B1 HT) as (o' & f' & Eo' & HH).
    destruct (csr_read_cut L O (wbin wm) P i (lc_b1 ch1) (lc_b2 ch1) (lc_b3 ch1) pg fn digraph_magic bi k HL HO Si Fi Ri U1 U2 U3 Hpg Ei) as (_ & _ & i' & f & E & HC);
      [rewrite <- Lm; exact Hk1|fold b1; lia|fold b1 s; lia|]. fold b1 s in E, HC. 
    assert (HOk' : csr_read_bin L O O (wbin wm) (reading s pg fn digraph_magic) (lc_b1 ch1) (lc_b2 ch1) (lc_b3 ch1) = Ok (c', mkRfile (mkMem s pg) q fn)).
    { rewrite EH. unfold reading. rewrite app_length. exact HOk. }
    assert (c' = i') by congruence. subst i'.
    exists c', o'. split; [rewrite EO, HOk'; cbn [bind]; rewrite Eo'; reflexivity|]. split; [exact HC|exact HH].
Qed.
Print Assumptions C47_digraph_first.

Definition ex_ch_l1 : lchoice :=
  mkLchoice 1 [] (2, [1; 0]) (1, []) (3, []) (mkGchoice 1 [] []) (mkChoice 1 0 [] [] [] [] []) [] [].
Example C47_digraph_first_applies :
  digraph_layout u32 u32 None ex_ch_csr ex_ch_csr = map Some ex_cg_bytes /\
  (exists i' o', digraph_open (W:=unit) u32 u32 None 4096 (chars "a.bin") (Some (firstn 50 ex_cg_bytes)) AUTO ex_ch_l ex_ch_l1 (lc_conv ex_ch_l) (lc_conv ex_ch_l) = Ok (i', o') /\
    csr_cut u32 u32 None 44 50 (firstn 64 ex_cg_bytes) ex_ch_csr i' /\ cs_n o' = 1%Z /\ cs_m o' = 0%Z) /\
  digraph_open (W:=unit) u32 u32 None 4096 (chars "a.bin") (Some (firstn 50 ex_cg_bytes)) AUTO ex_ch_l ex_ch_l (lc_conv ex_ch_l) (lc_conv ex_ch_l) = UB /\
  digraph_open (W:=unit) u32 u32 None 10 (chars "a.bin") (Some (firstn 50 ex_cg_bytes)) AUTO ex_ch_l ex_ch_l1 (lc_conv ex_ch_l) (lc_conv ex_ch_l) = UB.
Proof.
  assert (H32 : is_ity u32) by (cbn; auto).
  assert (EL : digraph_layout u32 u32 None ex_ch_csr ex_ch_csr = map Some ex_cg_bytes) by (vm_compute; reflexivity).
  assert (HT : teams ex_ch_l) by (unfold teams; cbn; lia).
  assert (HR : room u32 (cs_n ex_ch_csr)) by (split; [vm_compute; discriminate|right; vm_compute; reflexivity]).
  assert (HS : csr_shape (W:=unit) (wbin None) ex_ch_csr) by (unfold csr_shape; cbn; repeat split; lia).
  assert (HF : csr_full (W:=unit) u32 u32 (wbin None) (fun _ => True) ex_ch_csr).
  { unfold csr_full, fit. cbn. repeat split; eauto. all: try (repeat constructor; eexists; split; reflexivity). }
  assert (HG : legal 0 (lc_conv ex_ch_l)) by (repeat split; cbn; auto).
  assert (HG1 : legal 0 (lc_conv ex_ch_l1)) by (repeat split; cbn; auto).
  assert (Hn : forall ext, (ext = chars ".mtx" \/ ext = chars ".graph") -> ~ ends_in (chars "a.bin") ext).
  { intros ext He H. apply has_suffix_spec in H. destruct He as [->| ->]; vm_compute in H; discriminate. }
  pose proof (fun pg ch2 (H : 1 <= pg) (H1 : 1 <= lc_T ch2) (H2 : legal 0 (lc_conv ch2)) =>
    C47_digraph_first (W:=unit) u32 u32 None (fun _ => True) ex_ch_csr ex_ch_csr pg (chars "a.bin") AUTO ex_ch_l ch2 (lc_conv ex_ch_l) (lc_conv ex_ch_l) ex_cg_bytes 50
    H32 H32 HS HF HR HT H1 H2 H (Hn _ (or_introl eq_refl)) (Hn _ (or_intror eq_refl)) (or_introl eq_refl) EL) as HH. cbv zeta in HH.
  assert (Q1 : length (text "PIGO-DiGraph-v1") + (13 + 3 * isize u32 + isize u32) = 44) by reflexivity.
  assert (Q2 : length (text "PIGO-DiGraph-v1") + length (csr_layout (W:=unit) u32 u32 (wbin None) ex_ch_csr) = 64) by (vm_compute; reflexivity).
  rewrite Q1, Q2 in HH. assert (K1 : 44 <= 50) by lia. assert (K2 : 50 < 64) by lia.
  split; [exact EL|]. split; [|split].
  - destruct (HH 4096 ex_ch_l1 ltac:(lia) ltac:(cbn; lia) HG1 K1 K2) as (_ & H & _).
    destruct H as (i' & o' & E & C & N & M & _); [|reflexivity|exists i', o'; auto].
    match goal with |- ?a <= ?b => assert (Ha : Nat.leb a b = true) by (vm_compute; reflexivity) end. apply Nat.leb_le. exact Ha.
  - destruct (HH 4096 ex_ch_l ltac:(lia) ltac:(cbn; lia) HG K1 K2) as (_ & _ & H). apply H. cbn. lia.
  - destruct (HH 10 ex_ch_l1 ltac:(lia) ltac:(cbn; lia) HG1 K1 K2) as (H & _). apply H.
    match goal with |- ?a < ?b => assert (Ha : Nat.ltb a b = true) by (vm_compute; reflexivity) end. apply Nat.ltb_lt. exact Ha.
Qed.
