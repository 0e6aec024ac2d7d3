(** * Properties C27, C40, C46-C48: limits of the binary files *)

From Coq Require Import String.
From Verif Require Import Base Reader Sched SchedLemmas CooExec Coo Ascii Csr SpecCsr CsrLemmas Codec Bin SpecBin BinLemmas BinSave BinLoad Graph Load Tensor BinOpen BinBad P_Bin.
Open Scope list_scope.

Lemma map_Some_split (b : list byte) h l : map Some b = map Some h ++ l -> exists r, b = h ++ r /\ map Some r = l.
Proof.
  revert b. induction h as [|x h IH]; intros b E; [exists b; split; [reflexivity|exact E]|].
  destruct b as [|y b]; [discriminate|]. cbn [map app] in E. injection E as -> E. destruct (IH b E) as (r & -> & Hr).
  exists r. split; [reflexivity|exact Hr].
Qed.

Lemma coo_split {W} L O (wc : option (codec W)) c n nr nc b : is_ity L -> is_ity O ->
  co_n c = Some n -> co_nrows c = Some nr -> co_ncols c = Some nc -> coo_layout L O wc c = map Some b ->
  exists r, b = coo_head L O n nr nc (co_m c) ++ r /\ map Some r = labels L (co_x c) ++ labels L (co_y c) ++ wgts wc (co_w c).
Proof.
  intros HL HO E1 E2 E3 E. apply map_Some_split. rewrite <- E. unfold coo_layout, known. rewrite E1, E2, E3, !scalar_some, !sizeof_some by assumption.
  unfold coo_head, enc. rewrite !map_app, <- !app_assoc. reflexivity.
Qed.

Lemma csr_split {W} L O (wc : option (codec W)) c nr nc b : is_ity L -> is_ity O ->
  cs_nrows c = Some nr -> cs_ncols c = Some nc -> csr_layout L O wc c = map Some b ->
  exists r, b = csr_head L O (cs_n c) nr nc (cs_m c) ++ r /\ map Some r = labels O (cs_off c) ++ labels L (cs_end c) ++ wgts wc (cs_w c).
Proof.
  intros HL HO E1 E2 E. apply map_Some_split. rewrite <- E. unfold csr_layout, known. rewrite E1, E2, !scalar_some, !sizeof_some by assumption.
  unfold csr_head, enc. rewrite !map_app, <- !app_assoc. reflexivity.
Qed.

Lemma tensor_split {W} L O (wc : option (codec W)) t b : is_ity L -> is_ity O ->
  match wc with None => True | Some c => cd_size c < 256 end -> tensor_layout L O wc t = map Some b ->
  exists r, b = tensor_head L O wc (te_order t) (te_m t) ++ r /\ map Some r = labels L (te_c t) ++ wgts wc (te_w t).
Proof.
  intros HL HO Hsz E. apply map_Some_split. rewrite <- E. unfold tensor_layout, known. rewrite !scalar_some, !sizeof_some by assumption.
  unfold tensor_head, enc. rewrite !map_app, <- !app_assoc.
  assert (EW : match wc with None => [] | Some c => [Some (Z.of_nat (cd_size c))] end = map (@Some byte) (wbyte wc)).
  { destruct wc as [cd|]; [|reflexivity]. unfold wbyte, enc. cbn [cint cd_enc]. change (isize u8) with 1. cbn [le map]. rewrite Z.mod_small by lia. reflexivity. }
  rewrite EW. reflexivity.
Qed.

Lemma firstn_head {A} (h r : list A) k : length h <= k -> firstn k (h ++ r) = h ++ firstn (k - length h) r.
Proof. intros H. rewrite firstn_app, (firstn_all2 h) by exact H. reflexivity. Qed.

(** ** C46: a COO from the file of a CSR when Ordinal is wider than Label *)
Theorem C46_coo_from_csr_file_refuted : forall {W} L O (wm : option (wmode W)) P fl c t_o te tw pg fn ft ch w s,
  is_ity L -> is_ity O -> (ibits L < ibits O)%Z ->
  csr_shape (wbin wm) c -> csr_full L O (wbin wm) P c -> room L (cs_n c) ->
  1 <= fst t_o -> 1 <= fst te -> 1 <= fst tw -> teams ch -> ft = AUTO \/ ft = PIGO_CSR_BIN ->
  csr_save L O (wbin wm) c t_o te tw = Ok w -> contents w s ->
  coo_open L O wm fl pg fn (Some s) ft ch = UB.
Proof.
  intros W L O wm P fl c tx ty tw pg fn ft ch w s HL HO HLO Hs Hf HR T1 T2 T3 (U1 & U2 & U3) Hft Ew Hc.
  destruct (csr_save_ok L O (wbin wm) HL HO (wfit_sized _ P _ ltac:(apply Hf)) c tx ty tw _ Hs (plus1_ok L _ HL (proj1 Hs) HR) eq_refl T1 T2 T3) as (w' & Ew' & Hw & _).
  assert (w' = w) by congruence. subst w'. pose proof (written_contents _ _ _ Hw Hc) as E.
  destruct Hf as (Fn & Fm & (nr & Er & Hr) & (nc & Ec & Hcc) & _). destruct Hs as (H0 & Ho & He & _).
  pose proof (csr_begins L O (wbin wm) c s (eq_sym E)) as HB.
  destruct (csr_split L O (wbin wm) c nr nc s HL HO Er Ec (eq_sym E)) as (r & Es & _).
  unfold coo_open. rewrite open_reading by (intros ->; destruct HB as (? & ? & ?); discriminate). cbn [bind]. unfold coo_read.
  rewrite (guess_begins_ft ft _ PIGO_CSR_BIN Hft); [|discriminate|eapply (guess_csr s pg fn [] s); [reflexivity|exact HB]].
  cbn [bind]. unfold csr_direct.
  rewrite (csr_head_ok L O (wbin wm) HL HO L (cs_n c) nr nc (cs_m c) s pg fn [] r) by assumption.
  unfold csr_tail, csr_alloc, alloc. rewrite (plus1_ok L _ HL H0 HR). destruct (Z.ltb_spec (cs_m c) 0); [lia|]. cbn [bind].
  destruct (Z.ltb_spec (cs_n c + 1) 0); [lia|].
  assert (EA : (if is_some (wbin wm) then Ok (fresh (Z.to_nat (cs_m c))) else Ok []) = Ok (if is_some (wbin wm) then @fresh W (Z.to_nat (cs_m c)) else [])) by (destruct (wbin wm); reflexivity).
  rewrite EA. cbn [bind]. rewrite !fresh_length. unfold rd_array. destruct (lc_b1 ch) as [T sched]. cbn [fst] in U1.
  rewrite par_read_overrun; [reflexivity|exact U1|].
  cbn [cint cd_size]. assert (isize L < isize O).
  { clear -HL HO HLO. unfold is_ity in HL, HO. cbn [In] in HL, HO.
    repeat (destruct HL as [HL|HL]; [subst L|]); try destruct HL; repeat (destruct HO as [HO|HO]; [subst O|]); try destruct HO; cbn in *; lia. }
  assert (0 < Z.to_nat (cs_n c + 1)) by lia. nia.
Qed.
Print Assumptions C46_coo_from_csr_file_refuted.

(** ** C47: truncated files are not detected

    A saved file cut anywhere after its header is never rejected: the load
    either returns an object or reads outside the mapping, and the latter for
    certain if the missing bytes do not lie in the last page. *)
Theorem C47_truncated_coo : forall {W} L O (wm : option (wmode W)) P fl c pg fn ft ch b k,
  is_ity L -> is_ity O -> coo_shape (wbin wm) c -> coo_full L O (wbin wm) P c -> teams ch -> 1 <= pg ->
  ft = AUTO \/ ft = PIGO_COO_BIN ->
  coo_layout L O (wbin wm) c = map Some b -> 13 + 3 * isize L + isize O <= k -> k <= length b ->
  ((exists c', coo_open L O wm fl pg fn (Some (firstn k b)) ft ch = Ok c') \/
   coo_open L O wm fl pg fn (Some (firstn k b)) ft ch = UB) /\
  (map_len (mkMem (firstn k b) pg) < length b -> coo_open L O wm fl pg fn (Some (firstn k b)) ft ch = UB).
Proof.
  intros W L O wm P fl c pg fn ft ch b k HL HO Hs Hf (U1 & U2 & U3) Hpg Hft Eb Hk Hkb.
  pose proof (wfit_sized _ P _ (proj2 (proj2 (proj2 (proj2 (proj2 (proj2 Hf))))))) as HW.
  destruct Hf as ((nr & Er & Hr) & (nc & Ec & Hcc) & (n & En & Hn) & Fm & _). destruct Hs as (Hx & Hy & Hw).
  destruct (coo_split L O (wbin wm) c n nr nc b HL HO En Er Ec Eb) as (r & Es & Erest).
  set (h := coo_head L O n nr nc (co_m c)) in *.
  assert (Lh : length h = 13 + 3 * isize L + isize O).
  { unfold h, coo_head, enc. rewrite !app_length, !enc_len. cbn [cint cd_size length coo_magic]. change (isize u8) with 1. lia. }
  set (s := firstn k b). assert (Ess : s = h ++ firstn (k - length h) r) by (unfold s; rewrite Es; apply firstn_head; lia).
  set (m_ := Z.to_nat (co_m c)). assert (Em : co_m c = Z.of_nat m_) by (unfold m_; lia).
  assert (Lr : length r = isize L * m_ + isize L * m_ + weight_size (wbin wm) m_).
  { apply (f_equal (@List.length _)) in Erest. rewrite map_length, !app_length in Erest. unfold labels in Erest. rewrite !array_raw in Erest.
    rewrite !(raw_length (cint L) _ _ (cint_f L HL)) in Erest. rewrite (wgts_length (wbin wm) HW _ m_) in Erest by (rewrite <- Em; exact Hw).
    cbn [cint cd_size] in Erest. replace (length (co_x c)) with m_ in Erest by lia. replace (length (co_y c)) with m_ in Erest by lia. lia. }
  assert (Lb : length b = length h + length r) by (rewrite Es; apply app_length).
  assert (HM : k <= map_len (mkMem s pg)).
  { pose proof (flen_map_len (mkMem s pg) Hpg) as HF. unfold flen in HF. cbn [bytes] in HF. unfold s in HF at 1. rewrite firstn_length in HF. lia. }
  set (M := map_len (mkMem s pg)) in *.
  assert (EO : coo_open L O wm fl pg fn (Some s) ft ch =
    ('(x, _) <- coo_tail L (wbin wm) n nr nc (co_m c) (reading s pg fn h) (lc_b1 ch) (lc_b2 ch) (lc_b3 ch) ;; Ok x)).
  { unfold coo_open. rewrite open_reading by (rewrite Ess; discriminate). cbn [bind]. unfold coo_read.
    rewrite (guess_begins_ft ft _ PIGO_COO_BIN Hft); [|discriminate|].
    - cbn [bind]. rewrite (coo_head_ok L O (wbin wm) HL HO n nr nc (co_m c) s pg fn [] (firstn (k - length h) r)) by assumption. reflexivity.
    - eapply (guess_coo s pg fn [] s); [reflexivity|]. rewrite Ess. apply begins_app. unfold h, coo_head. eexists _, _. reflexivity. }
  rewrite EO. unfold coo_tail, coo_alloc. destruct (Z.ltb_spec (co_m c) 0); [lia|]. cbn [bind cx cy cw]. fold m_.
  destruct (rd_array_cases (cint L) (length (@fresh Z m_)) (isize L * m_) (lc_b1 ch) (reading s pg fn h)) as [->|(x & -> & H1)];
    [assumption|exact Hpg|unfold reading; cbn [rf_mem rf_fp]; fold M; lia|split; [right; reflexivity|reflexivity]|].
  cbn [bind]. unfold reading in *. cbn [rf_mem rf_fp rf_name] in *. fold M in H1.
  match goal with |- context [rd_array (cint L) (length (@fresh Z m_)) (isize L * m_) (lc_b2 ch) ?f] =>
    destruct (rd_array_cases (cint L) (length (@fresh Z m_)) (isize L * m_) (lc_b2 ch) f) as [->|(y & -> & H2)] end;
    [assumption|exact Hpg|cbn [rf_mem rf_fp]; fold M; lia|split; [right; reflexivity|reflexivity]|].
  cbn [bind]. cbn [rf_mem rf_fp rf_name] in *. fold M in H2.
  match goal with |- context [get_weights (wbin wm) ?l m_ (lc_b3 ch) ?f] =>
    destruct (get_weights_cases (wbin wm) l m_ (lc_b3 ch) f) as [->|(w & -> & H3)] end;
    [assumption|exact Hpg|cbn [rf_mem rf_fp]; fold M; lia|split; [right; reflexivity|reflexivity]|].
  cbn [bind]. cbn [rf_mem rf_fp rf_name] in *. fold M in H3. split; [left; eexists; reflexivity|]. intros HU. exfalso. lia.
Qed.
Print Assumptions C47_truncated_coo.

Theorem C47_truncated_csr : forall {W} L O (wm : option (wmode W)) P c pg fn ft ch b k,
  is_ity L -> is_ity O -> csr_shape (wbin wm) c -> csr_full L O (wbin wm) P c -> room L (cs_n c) -> teams ch -> 1 <= pg ->
  ft = AUTO \/ ft = PIGO_CSR_BIN ->
  csr_layout L O (wbin wm) c = map Some b -> 13 + 3 * isize L + isize O <= k -> k <= length b ->
  ((exists c', csr_open L O wm pg fn (Some (firstn k b)) ft ch = Ok c') \/
   csr_open L O wm pg fn (Some (firstn k b)) ft ch = UB) /\
  (map_len (mkMem (firstn k b) pg) < length b -> csr_open L O wm pg fn (Some (firstn k b)) ft ch = UB).
Proof.
  intros W L O wm P c pg fn ft ch b k HL HO Hs Hf HR (U1 & U2 & U3) Hpg Hft Eb Hk Hkb.
  pose proof (wfit_sized _ P _ (proj2 (proj2 (proj2 (proj2 (proj2 (proj2 Hf))))))) as HW.
  destruct Hf as (Fn & Fm & (nr & Er & Hr) & (nc & Ec & Hcc) & _). destruct Hs as (H0 & Ho & He & Hw).
  destruct (csr_split L O (wbin wm) c nr nc b HL HO Er Ec Eb) as (r & Es & Erest).
  set (h := csr_head L O (cs_n c) nr nc (cs_m c)) in *.
  assert (Lh : length h = 13 + 3 * isize L + isize O).
  { unfold h, csr_head, enc. rewrite !app_length, !enc_len. cbn [cint cd_size length csr_magic]. change (isize u8) with 1. lia. }
  set (s := firstn k b). assert (Ess : s = h ++ firstn (k - length h) r) by (unfold s; rewrite Es; apply firstn_head; lia).
  set (m_ := Z.to_nat (cs_m c)). assert (Em : cs_m c = Z.of_nat m_) by (unfold m_; lia).
  assert (Lr : length r = isize O * Z.to_nat (cs_n c + 1) + isize L * m_ + weight_size (wbin wm) m_).
  { apply (f_equal (@List.length _)) in Erest. rewrite map_length, !app_length in Erest. unfold labels in Erest. rewrite !array_raw in Erest.
    rewrite (raw_length (cint L) _ _ (cint_f L HL)), (raw_length (cint O) _ _ (cint_f O HO)) in Erest. rewrite (wgts_length (wbin wm) HW _ m_) in Erest by (rewrite <- Em; exact Hw).
    cbn [cint cd_size] in Erest. replace (length (cs_off c)) with (Z.to_nat (cs_n c + 1)) in Erest by lia. replace (length (cs_end c)) with m_ in Erest by lia. lia. }
  assert (Lb : length b = length h + length r) by (rewrite Es; apply app_length).
  assert (HM : k <= map_len (mkMem s pg)).
  { pose proof (flen_map_len (mkMem s pg) Hpg) as HF. unfold flen in HF. cbn [bytes] in HF. unfold s in HF at 1. rewrite firstn_length in HF. lia. }
  set (M := map_len (mkMem s pg)) in *.
  assert (EO : csr_open L O wm pg fn (Some s) ft ch =
    ('(x, _) <- csr_tail L O O (wbin wm) (cs_n c) nr nc (cs_m c) (reading s pg fn h) (lc_b1 ch) (lc_b2 ch) (lc_b3 ch) ;; Ok x)).
  { unfold csr_open. rewrite open_reading by (rewrite Ess; discriminate). cbn [bind]. unfold csr_read.
    rewrite (guess_begins_ft ft _ PIGO_CSR_BIN Hft); [|discriminate|].
    - cbn [bind]. unfold csr_direct. rewrite (csr_head_ok L O (wbin wm) HL HO O (cs_n c) nr nc (cs_m c) s pg fn [] (firstn (k - length h) r)) by assumption. reflexivity.
    - eapply (guess_csr s pg fn [] s); [reflexivity|]. rewrite Ess. apply begins_app. unfold h, csr_head. eexists _, _. reflexivity. }
  rewrite EO. unfold csr_tail, csr_alloc, alloc. rewrite (plus1_ok L _ HL H0 HR). destruct (Z.ltb_spec (cs_m c) 0); [lia|]. cbn [bind]. fold m_.
  assert (EA : (if is_some (wbin wm) then Ok (fresh m_) else Ok []) = Ok (if is_some (wbin wm) then @fresh W m_ else [])) by (destruct (wbin wm); reflexivity).
  rewrite EA. cbn [bind]. destruct (Z.ltb_spec (cs_n c + 1) 0); [lia|]. cbn [bind].
  match goal with |- context [rd_array (cint O) ?l ?v (lc_b1 ch) ?f] =>
    destruct (rd_array_cases (cint O) l v (lc_b1 ch) f) as [->|(x & -> & HA1)] end;
    [assumption|exact Hpg|unfold reading; cbn [rf_mem rf_fp]; fold M; lia|split; [right; reflexivity|reflexivity]|].
  cbn [bind]. unfold reading in *. cbn [rf_mem rf_fp rf_name] in *. fold M in HA1.
  match goal with |- context [rd_array (cint L) ?l ?v (lc_b2 ch) ?f] =>
    destruct (rd_array_cases (cint L) l v (lc_b2 ch) f) as [->|(y & -> & HA2)] end;
    [assumption|exact Hpg|cbn [rf_mem rf_fp]; fold M; lia|split; [right; reflexivity|reflexivity]|].
  cbn [bind]. cbn [rf_mem rf_fp rf_name] in *. fold M in HA2.
  match goal with |- context [get_weights (wbin wm) ?l m_ (lc_b3 ch) ?f] =>
    destruct (get_weights_cases (wbin wm) l m_ (lc_b3 ch) f) as [->|(w & -> & HA3)] end;
    [assumption|exact Hpg|cbn [rf_mem rf_fp]; fold M; lia|split; [right; reflexivity|reflexivity]|].
  cbn [bind]. cbn [rf_mem rf_fp rf_name] in *. fold M in HA3. split; [left; eexists; reflexivity|]. intros HU. exfalso. lia.
Qed.
Print Assumptions C47_truncated_csr.

Theorem C47_truncated_tensor : forall {W} L O (wm : option (wmode W)) P t pg fn ft ch b k,
  is_ity L -> is_ity O -> tensor_shape (wbin wm) t -> tensor_full L O (wbin wm) P t -> (te_order t * te_m t <= imax O)%Z ->
  teams ch -> 1 <= pg -> ft = AUTO \/ ft = PIGO_TENSOR_BIN ->
  tensor_layout L O (wbin wm) t = map Some b -> 16 + 2 * isize O <= k -> k <= length b ->
  ((exists t', tensor_open L O wm pg fn (Some (firstn k b)) ft ch = Ok t') \/
   tensor_open L O wm pg fn (Some (firstn k b)) ft ch = UB) /\
  (map_len (mkMem (firstn k b) pg) < length b -> tensor_open L O wm pg fn (Some (firstn k b)) ft ch = UB).
Proof.
  intros W L O wm P t pg fn ft ch b k HL HO Hs Hf HR (U1 & U2 & U3) Hpg Hft Eb Hk Hkb.
  pose proof (wfit_sized _ P _ (proj2 (proj2 (proj2 Hf)))) as HW.
  destruct Hf as (Fo & Fm & _ & Fw). destruct Hs as (H0 & H1 & Hc & Hw).
  assert (Hsz : match wbin wm with None => True | Some c => cd_size c < 256 end) by (destruct (wbin wm); [apply Fw|exact I]).
  destruct (tensor_split L O (wbin wm) t b HL HO Hsz Eb) as (r & Es & Erest).
  set (h := tensor_head L O (wbin wm) (te_order t) (te_m t)) in *.
  assert (Lh : length h <= 16 + 2 * isize O).
  { unfold h, tensor_head, enc. rewrite !app_length, !enc_len. cbn [cint cd_size length tensor_magic]. change (isize u8) with 1.
    assert (length (wbyte (wbin wm)) <= 1) by (unfold wbyte, enc; destruct (wbin wm); [rewrite enc_len; apply le_n|apply Nat.le_0_l]). lia. }
  set (s := firstn k b). assert (Ess : s = h ++ firstn (k - length h) r) by (unfold s; rewrite Es; apply firstn_head; lia).
  set (m_ := Z.to_nat (te_m t)). assert (Em : te_m t = Z.of_nat m_) by (unfold m_; lia).
  set (od := Z.to_nat (te_order t)). assert (Eo : te_order t = Z.of_nat od) by (unfold od; lia).
  assert (Lr : length r = isize L * od * m_ + weight_size (wbin wm) m_).
  { apply (f_equal (@List.length _)) in Erest. rewrite map_length, !app_length in Erest. unfold labels in Erest. rewrite !array_raw in Erest.
    rewrite (raw_length (cint L) _ _ (cint_f L HL)) in Erest. rewrite (wgts_length (wbin wm) HW _ m_) in Erest by (rewrite <- Em; exact Hw).
    cbn [cint cd_size] in Erest. replace (length (te_c t)) with (od * m_) in Erest by nia. lia. }
  assert (Lb : length b = length h + length r) by (rewrite Es; apply app_length).
  assert (HM : k <= map_len (mkMem s pg)).
  { pose proof (flen_map_len (mkMem s pg) Hpg) as HF. unfold flen in HF. cbn [bytes] in HF. unfold s in HF at 1. rewrite firstn_length in HF. lia. }
  set (M := map_len (mkMem s pg)) in *.
  assert (EO : tensor_open L O wm pg fn (Some s) ft ch =
    ('(x, _) <- tensor_tail L O (wbin wm) (te_order t) (te_m t) (reading s pg fn h) (lc_b1 ch) (lc_b2 ch) ;; Ok x)).
  { unfold tensor_open. rewrite open_reading by (rewrite Ess; discriminate). cbn [bind]. unfold tensor_read.
    rewrite (guess_begins_ft ft _ PIGO_TENSOR_BIN Hft); [|discriminate|].
    - cbn [bind]. rewrite (tensor_head_ok L O (wbin wm) HL HO (te_order t) (te_m t) s pg fn [] (firstn (k - length h) r)) by assumption. reflexivity.
    - eapply (guess_tensor s pg fn [] s); [reflexivity|]. rewrite Ess. apply begins_app. unfold h, tensor_head. eexists _, _. reflexivity. }
  rewrite EO. unfold tensor_tail, tensor_alloc, alloc. rewrite omul_ok by assumption. cbn [bind]. destruct (Z.ltb_spec (te_order t * te_m t) 0); [nia|].
  destruct (Z.ltb_spec (te_m t) 0); [lia|]. cbn [bind]. fold m_ od.
  assert (EA : (if is_some (wbin wm) then Ok (fresh m_) else Ok []) = Ok (if is_some (wbin wm) then @fresh W m_ else [])) by (destruct (wbin wm); reflexivity).
  rewrite EA. cbn [bind].
  match goal with |- context [rd_array (cint L) ?l ?v (lc_b1 ch) ?f] =>
    destruct (rd_array_cases (cint L) l v (lc_b1 ch) f) as [->|(x & -> & HA2)] end;
    [assumption|exact Hpg|unfold reading; cbn [rf_mem rf_fp]; fold M; lia|split; [right; reflexivity|reflexivity]|].
  cbn [bind]. unfold reading in *. cbn [rf_mem rf_fp rf_name] in *. fold M in HA2.
  match goal with |- context [get_weights (wbin wm) ?l m_ (lc_b2 ch) ?f] =>
    destruct (get_weights_cases (wbin wm) l m_ (lc_b2 ch) f) as [->|(w & -> & HA3)] end;
    [assumption|exact Hpg|cbn [rf_mem rf_fp]; fold M; lia|split; [right; reflexivity|reflexivity]|].
  cbn [bind]. cbn [rf_mem rf_fp rf_name] in *. fold M in HA3. split; [left; eexists; reflexivity|]. intros HU. exfalso. lia.
Qed.
Print Assumptions C47_truncated_tensor.

(** ** C48: a tensor whose number of labels does not fit the ordinal type *)
Theorem C48_tensor_count_overflow : forall {W} L O (wm : option (wmode W)) pg fn ft ch od m rest,
  is_ity L -> is_ity O -> (32 <= ibits O)%Z -> inrange O od = true -> inrange O m = true -> (0 <= od)%Z -> (0 <= m)%Z ->
  match wbin wm with None => True | Some c => cd_size c < 256 end ->
  (imax O < od * m)%Z -> teams ch -> ft = AUTO \/ ft = PIGO_TENSOR_BIN ->
  tensor_open L O wm pg fn (Some (chars "PIGO-Tensor-2" ++ [ibits L / 8; ibits O / 8]%Z ++
    match wbin wm with None => [] | Some c => [Z.of_nat (cd_size c)] end ++ le (isize O) od ++ le (isize O) m ++ rest)) ft ch = UB.
Proof.
  intros W L O wm pg fn ft ch od m rest HL HO H32 Fo Fm Ho Hm Hsz Hov (U1 & U2 & U3) Hft.
  match goal with |- tensor_open _ _ _ _ _ (Some ?x) _ _ = _ => set (s := x) end.
  set (h := tensor_head L O (wbin wm) od m). assert (Es : s = h ++ rest).
  { unfold s, h, tensor_head, enc.
    assert (E1 : forall t, is_ity t -> cd_enc (cint u8) (size_byte t) = [(ibits t / 8)%Z]) by (intros t Ht; unfold is_ity in Ht; cbn [In] in Ht; intuition (subst; reflexivity)).
    rewrite !E1 by assumption. rewrite <- !app_assoc. change (chars "PIGO-Tensor-2") with tensor_magic. f_equal. cbn [app]. f_equal. f_equal.
    unfold wbyte, enc. destruct (wbin wm) as [cd|]; [|reflexivity]. cbn [cint cd_enc]. change (isize u8) with 1. cbn [le]. rewrite Z.mod_small by lia. reflexivity. }
  unfold tensor_open. rewrite open_reading by (rewrite Es; discriminate). cbn [bind]. unfold tensor_read.
  rewrite (guess_begins_ft ft _ PIGO_TENSOR_BIN Hft); [|discriminate|].
  2:{ eapply (guess_tensor s pg fn [] s); [reflexivity|]. unfold s. eexists _, _. reflexivity. }
  cbn [bind]. rewrite (tensor_head_ok L O (wbin wm) HL HO od m s pg fn [] rest) by assumption.
  unfold tensor_tail, tensor_alloc, alloc, omul, arith. destruct (Z.ltb_spec (ibits O) 32); [lia|].
  destruct (isigned O) eqn:Esg.
  - unfold inrange at 1. destruct (Z.leb_spec (od * m) (imax O)); [lia|]. rewrite andb_false_r. reflexivity.
  - cbn [bind]. assert (HW : (0 <= wrap O (od * m) < od * m)%Z).
    { unfold wrap. rewrite Esg. unfold imax in Hov. rewrite Esg in Hov. assert (0 < 2 ^ ibits O)%Z by (apply Z.pow_pos_nonneg; lia).
      pose proof (Z.mod_pos_bound (od * m) (2 ^ ibits O) ltac:(lia)). lia. }
    destruct (Z.ltb_spec (wrap O (od * m)) 0); [lia|]. cbn [bind].
    destruct (Z.ltb_spec m 0); [lia|].
    assert (EA : (if is_some (wbin wm) then Ok (fresh (Z.to_nat m)) else Ok []) = Ok (if is_some (wbin wm) then @fresh W (Z.to_nat m) else [])) by (destruct (wbin wm); reflexivity).
    rewrite EA. cbn [bind]. rewrite fresh_length. unfold rd_array. destruct (lc_b1 ch) as [T sched]. cbn [fst] in U1.
    rewrite par_read_overrun; [reflexivity|exact U1|]. cbn [cint cd_size].
    assert (0 < isize L) by (unfold is_ity in HL; cbn [In] in HL; intuition (subst; cbn; lia)).
    assert (Z.to_nat (wrap O (od * m)) < Z.to_nat od * Z.to_nat m) by (rewrite <- Z2Nat.inj_mul by lia; lia). nia.
Qed.
Print Assumptions C48_tensor_count_overflow.

(** ** C27: saving a COO made from a CSR stores indeterminate bytes *)
Theorem C27_saved_indeterminate : forall {W} L O fl (wc : option (codec W)) (c : csr W) parts sched r tx ty tw,
  is_ity L -> is_ity O -> wsized wc -> convert_csr O fl (is_some wc) c parts sched = Ok r -> coo_shape wc r ->
  1 <= fst tx -> 1 <= fst ty -> 1 <= fst tw ->
  exists w, coo_save L O wc r tx ty tw = Ok w /\ (forall s, ~ contents w s) /\
    (forall i, 13 <= i < 13 + 2 * isize L -> nth_error (wf_data w) i = Some (None, 1)).
Proof.
  intros W L O fl wc c parts sched r tx ty tw HL HO HW Hr Hs T1 T2 T3.
  assert (ED : co_nrows r = None /\ co_ncols r = None).
  { unfold convert_csr in Hr.
    destruct (if f_sym fl && negb (f_ut fl) then _ else _) as [m'|?| |]; try discriminate. cbn [bind] in Hr.
    destruct (f_sl fl); [discriminate|]. destruct (coo_alloc (is_some wc) m') as [st0|?| |]; try discriminate. cbn [bind] in Hr.
    destruct (csr_progs fl (is_some wc) c parts) as [ps|?| |]; try discriminate. cbn [bind] in Hr.
    destruct (run cexec sched ps st0) as [st|?| |]; try discriminate. cbn [bind] in Hr. injection Hr as <-. auto. }
  destruct (coo_save_ok L O wc HL HO HW r tx ty tw Hs T1 T2 T3) as (w & E & Hw & _). exists w. split; [exact E|].
  assert (HI : forall i, 13 <= i < 13 + 2 * isize L -> nth_error (wf_data w) i = Some (None, 1)).
  { intros i Hi. rewrite Hw. unfold ones. rewrite nth_error_map. unfold coo_layout. destruct ED as [-> ->]. cbn [scalar].
    rewrite nth_error_app2 by (cbn; lia). change (length (text "PIGO-COO-v1")) with 11.
    rewrite nth_error_app2 by (cbn; lia). change (length (sizeof L)) with 1.
    rewrite nth_error_app2 by (cbn; lia). change (length (sizeof O)) with 1.
    rewrite app_assoc, <- repeat_app. rewrite nth_error_app1 by (rewrite repeat_length; lia).
    rewrite nth_error_repeat by lia. reflexivity. }
  split; [|exact HI]. intros s Hc. unfold contents in Hc.
  assert (HS : 0 < isize L) by (unfold is_ity in HL; cbn [In] in HL; intuition (subst; cbn; lia)).
  specialize (HI 13 ltac:(lia)). assert (Hc' : nth_error (map fst (wf_data w)) 13 = nth_error (map Some s) 13) by (rewrite Hc; reflexivity).
  rewrite (map_nth_error fst _ _ HI) in Hc'. rewrite nth_error_map in Hc'. cbn [fst] in Hc'. destruct (nth_error s 13); discriminate.
Qed.
Print Assumptions C27_saved_indeterminate.

(** ** C40: opening, seeking, reading and writing values *)
Theorem C40_open_and_seek : forall pg fn,
  (forall n d, 0 < n -> open_read pg fn n d = Throw EError) /\
  open_read pg fn 0 None = Throw EError /\ open_read pg fn 0 (Some []) = Throw EError /\
  open_write 0 = Throw EError /\
  (forall n, 0 < n -> exists w, open_write n = Ok w /\ length (wf_data w) = n /\ wf_fp w = 0) /\
  (forall s, s <> [] -> exists f, open_read pg fn 0 (Some s) = Ok f /\ rf_fp f = 0 /\ bytes (rf_mem f) = s /\ rf_name f = fn) /\
  (forall f pos, pos < length (bytes (rf_mem f)) ->
     seek_to pos f = (mkRfile (rf_mem f) pos (rf_name f), Ok tt)) /\
  (forall f pos, length (bytes (rf_mem f)) <= pos -> seek_to pos f = (f, Throw EError)).
Proof.
  intros pg fn. split; [|split; [|split; [|split; [|split; [|split; [|split]]]]]]; try reflexivity.
  - intros n d H. unfold open_read. destruct (Nat.ltb_spec 0 n); [reflexivity|lia].
  - intros n H. destruct (open_write_ok n H) as (r & Hr & E). exists (half [] r). split; [exact E|]. split; [|reflexivity].
    cbn [half wf_data ones map app]. rewrite zeros_length. exact Hr.
  - intros s H. exists (reading s pg fn []). split; [apply open_reading; exact H|]. repeat split.
  - intros f pos H. unfold seek_to, flen. destruct (Nat.leb_spec (length (bytes (rf_mem f))) pos); [lia|reflexivity].
  - intros f pos H. unfold seek_to, flen. destruct (Nat.leb_spec (length (bytes (rf_mem f))) pos); [reflexivity|lia].
Qed.
Print Assumptions C40_open_and_seek.

Lemma load_n_out m n : forall d k, k < n -> load m (d + k) = UB -> load_n m n d = UB.
Proof.
  induction n as [|n IH]; intros d k Hk H; [lia|]. cbn [load_n]. destruct (load_cases m d) as [->|(b & E)]; [reflexivity|].
  rewrite E. cbn [bind]. destruct k as [|k]; [rewrite Nat.add_0_r in H; congruence|].
  rewrite (IH (S d) k); [reflexivity|lia|]. rewrite <- H. f_equal. lia.
Qed.

(** A value is read from the bytes at the position, which advances by its size;
    there is no check against the end of the file. *)
Theorem C40_read_value : forall {V} (c : codec V) s pg fn pre bs post,
  s = pre ++ bs ++ post -> length bs = cd_size c ->
  rd c (mkRfile (mkMem s pg) (length pre) fn) = Ok (cd_dec c bs, mkRfile (mkMem s pg) (length pre + cd_size c) fn).
Proof.
  intros V c s pg fn pre bs post E Hl. pose proof (rd_ok c s pg fn pre bs post E Hl) as H. unfold reading in H. rewrite app_length, Hl in H. exact H.
Qed.
Print Assumptions C40_read_value.
Theorem C40_read_past_mapping : forall {V} (c : codec V) f,
  1 <= page (rf_mem f) -> 0 < cd_size c -> map_len (rf_mem f) < rf_fp f + cd_size c -> rd c f = UB.
Proof.
  intros V c f Hp H0 H. unfold rd. rewrite (load_n_out _ _ _ (cd_size c - 1)); [reflexivity|lia|]. apply load_out; [exact Hp|lia].
Qed.
Print Assumptions C40_read_past_mapping.

(** Writing a value stores its bytes at the position, each once, and advances. *)
Theorem C40_write_value : forall a bs b n, length bs <= n ->
  put_bytes bs (mkWfile (map (fun x => (x, 1)) a ++ map (fun x => (x, 0)) (repeat (Some b) n)) (length a)) =
  Ok (mkWfile (map (fun x => (x, 1)) (a ++ bs) ++ map (fun x => (x, 0)) (repeat (Some b) (n - length bs))) (length a + length bs)).
Proof.
  intros a bs b n H. pose proof (put_ok bs a (repeat (Some b) n)) as E. rewrite repeat_length in E. specialize (E H).
  etransitivity; [exact E|]. unfold half, ones, zeros. f_equal. f_equal; [|apply app_length]. f_equal. f_equal.
  assert (ER : n = length bs + (n - length bs)) by lia. rewrite ER at 1. rewrite repeat_app. apply skipn_exact. symmetry. apply repeat_length.
Qed.
Print Assumptions C40_write_value.
