(** * P_Reweigh: C61, opening a binary file with another weight parameter *)

From Coq Require Import String.
From Verif Require Import Base Reader Sched SchedLemmas Coo Ascii Csr SpecCsr CsrLemmas Codec Bin SpecBin BinLemmas BinSave BinLoad Graph Load Tensor BinOpen P_Bin P_BinEx SpecReweigh Reweigh.
Notation length := List.length.
Open Scope list_scope.

(** ** C61

    COO files do not record whether the COO was weighted, nor the size of its
    weights.  [wm] is the weight parameter of the COO that was saved, [wm'] the
    one of the COO that is constructed from the file. *)
Theorem C61_coo : forall {W W'} L O (wm : option (wmode W)) (wm' : option (wmode W')) P fl c tx ty tw pg fn ft ch,
  is_ity L -> is_ity O -> coo_shape (wbin wm) c -> coo_full L O (wbin wm) P c ->
  1 <= fst tx -> 1 <= fst ty -> 1 <= fst tw -> teams ch -> 1 <= pg -> ft = AUTO \/ ft = PIGO_COO_BIN ->
  exists w s wb, coo_save L O (wbin wm) c tx ty tw = Ok w /\ contents w s /\ wgts (wbin wm) (co_w c) = map Some wb /\
    let m := Z.to_nat (co_m c) in
    match wbin wm' with
    | None => coo_open L O wm' fl pg fn (Some s) ft ch = Ok (coo_reweigh c [])
    | Some cd => 0 < cd_size cd ->
        let needed := length s - length wb + cd_size cd * m in
        (needed <= paged pg (length s) -> coo_open L O wm' fl pg fn (Some s) ft ch = Ok (coo_reweigh c (seen cd m wb))) /\
        (paged pg (length s) < needed -> coo_open L O wm' fl pg fn (Some s) ft ch = UB)
    end.
Proof.
  intros W W' L O wm wm' P fl c tx ty tw pg fn ft ch HL HO Hs Hf T1 T2 T3 (U1 & U2 & U3) Hp Hft.
  destruct (coo_save_ok L O (wbin wm) HL HO (wfit_sized _ P _ ltac:(apply Hf)) c tx ty tw Hs T1 T2 T3) as (w & Ew & Hw & _).
  destruct (coo_before L O (wbin wm) (wbin wm') P HL HO c (lc_b1 ch) (lc_b2 ch) (lc_b3 ch) Hs Hf U1 U2) as (b & wb & Eb & Ewb & Hb & Hm & Hr).
  exists w, (b ++ wb), wb. split; [exact Ew|]. split; [eapply contents_of; eassumption|]. split; [exact Ewb|].
  intros m. fold m in Hr.
  assert (EO : coo_open L O wm' fl pg fn (Some (b ++ wb)) ft ch =
    '(wl, _) <- get_weights (wbin wm') (if is_some (wbin wm') then fresh m else []) m (lc_b3 ch) (reading (b ++ wb) pg fn b) ;;
    Ok (mkCoo (co_x c) (co_y c) wl (co_n c) (co_nrows c) (co_ncols c) (co_m c))).
  { unfold coo_open. rewrite open_reading by (destruct b; [congruence|discriminate]). cbn [bind]. unfold coo_read.
    rewrite (guess_begins_ft ft _ PIGO_COO_BIN Hft); [|discriminate|eapply (guess_coo (b ++ wb) pg fn [] (b ++ wb)); [reflexivity|eapply (coo_begins L O); eassumption]].
    cbn [bind]. rewrite (Hr (b ++ wb) pg fn [] wb) by reflexivity. cbn [app].
    destruct (get_weights _ _ _ _ _) as [[]| | |]; reflexivity. }
  rewrite EO. rewrite app_length.
  destruct (wbin wm') as [cd|]; cbn [is_some] in *.
  - intros Hcd. cbv zeta. replace (length b + length wb - length wb) with (length b) by lia. split; intros Hn.
    + rewrite (get_weights_pad cd (b ++ wb) pg fn b wb) by (auto; rewrite app_length; exact Hn). reflexivity.
    + rewrite get_weights_past; [reflexivity|exact Hp|rewrite app_length; lia|exact U3|rewrite app_length; exact Hn].
  - reflexivity.
Qed.
Print Assumptions C61_coo.

(** Nor do CSR files. *)
Theorem C61_csr : forall {W W'} L O (wm : option (wmode W)) (wm' : option (wmode W')) P c t_o te tw pg fn ft ch,
  is_ity L -> is_ity O -> csr_shape (wbin wm) c -> csr_full L O (wbin wm) P c -> room L (cs_n c) ->
  1 <= fst t_o -> 1 <= fst te -> 1 <= fst tw -> teams ch -> 1 <= pg -> ft = AUTO \/ ft = PIGO_CSR_BIN ->
  exists w s wb, csr_save L O (wbin wm) c t_o te tw = Ok w /\ contents w s /\ wgts (wbin wm) (cs_w c) = map Some wb /\
    let m := Z.to_nat (cs_m c) in
    match wbin wm' with
    | None => csr_open L O wm' pg fn (Some s) ft ch = Ok (csr_reweigh c [])
    | Some cd => 0 < cd_size cd ->
        let needed := length s - length wb + cd_size cd * m in
        (needed <= paged pg (length s) -> csr_open L O wm' pg fn (Some s) ft ch = Ok (csr_reweigh c (seen cd m wb))) /\
        (paged pg (length s) < needed -> csr_open L O wm' pg fn (Some s) ft ch = UB)
    end.
Proof.
  intros W W' L O wm wm' P c tx ty tw pg fn ft ch HL HO Hs Hf HR T1 T2 T3 (U1 & U2 & U3) Hp Hft.
  destruct (csr_save_ok L O (wbin wm) HL HO (wfit_sized _ P _ ltac:(apply Hf)) c tx ty tw _ Hs (plus1_ok L _ HL (proj1 Hs) HR) eq_refl T1 T2 T3) as (w & Ew & Hw & _).
  destruct (csr_before L O (wbin wm) (wbin wm') P HL HO c (lc_b1 ch) (lc_b2 ch) (lc_b3 ch) Hs Hf HR U1 U2) as (b & wb & Eb & Ewb & Hb & Hm & Hr).
  assert (Hne : b <> []) by (destruct Hb as (x & y & ->); discriminate).
  exists w, (b ++ wb), wb. split; [exact Ew|]. split; [eapply contents_of; eassumption|]. split; [exact Ewb|].
  intros m. fold m in Hr.
  assert (EO : csr_open L O wm' pg fn (Some (b ++ wb)) ft ch =
    '(wl, _) <- get_weights (wbin wm') (if is_some (wbin wm') then fresh m else []) m (lc_b3 ch) (reading (b ++ wb) pg fn b) ;;
    Ok (mkCsr (cs_off c) (cs_end c) wl (cs_n c) (cs_m c) (cs_nrows c) (cs_ncols c))).
  { unfold csr_open. rewrite open_reading by (destruct b; [congruence|discriminate]). cbn [bind]. unfold csr_read.
    rewrite (guess_begins_ft ft _ PIGO_CSR_BIN Hft); [|discriminate|eapply (guess_csr (b ++ wb) pg fn [] (b ++ wb)); [reflexivity|eapply (csr_begins L O); eassumption]].
    cbn [bind]. unfold csr_direct. rewrite (Hr (b ++ wb) pg fn [] wb) by reflexivity. cbn [app].
    destruct (get_weights _ _ _ _ _) as [[]| | |]; reflexivity. }
  rewrite EO. rewrite app_length.
  destruct (wbin wm') as [cd|]; cbn [is_some] in *.
  - intros Hcd. cbv zeta. replace (length b + length wb - length wb) with (length b) by lia. split; intros Hn.
    + rewrite (get_weights_pad cd (b ++ wb) pg fn b wb) by (auto; rewrite app_length; exact Hn). reflexivity.
    + rewrite get_weights_past; [reflexivity|exact Hp|rewrite app_length; lia|exact U3|rewrite app_length; exact Hn].
  - reflexivity.
Qed.
Print Assumptions C61_csr.

(** A weighted DiGraph file opened as an unweighted DiGraph: the in-edges are
    right, and where the out-edges are expected lie the weights of the in-edges.
    Unless these happen to spell PIGO, the rest of the binary file is parsed as
    the text of an edge list. *)
Theorem C61_digraph_out_edges_from_noise : forall {W W'} L O (wm : wmode W) P i o t1 t2 t3 t4 t5 t6 pg fn ft ch1 ch2 c1 c2,
  is_ity L -> is_ity O ->
  csr_shape (Some (wm_bin wm)) i -> csr_full L O (Some (wm_bin wm)) P i -> room L (cs_n i) ->
  csr_shape (Some (wm_bin wm)) o -> csr_full L O (Some (wm_bin wm)) P o -> room L (cs_n o) ->
  1 <= fst t1 -> 1 <= fst t2 -> 1 <= fst t3 -> 1 <= fst t4 -> 1 <= fst t5 -> 1 <= fst t6 ->
  teams ch1 -> teams ch2 -> ft = AUTO \/ ft = PIGO_DIGRAPH_BIN ->
  ~ ends_in fn (chars ".mtx") -> ~ ends_in fn (chars ".graph") ->
  exists w s front wb back, digraph_save L O (Some (wm_bin wm)) (i, o) t1 t2 t3 t4 t5 t6 = Ok w /\ contents w s /\
    s = front ++ wb ++ back /\ wgts (Some (wm_bin wm)) (cs_w i) = map Some wb /\ csr_layout L O (Some (wm_bin wm)) o = map Some back /\
    (~ begins (wb ++ back) (chars "PIGO") ->
     digraph_open L O (@None (wmode W')) pg fn (Some s) ft ch1 ch2 c1 c2 =
       (c <- read_el L O (@None (wrd W')) no_flags (mkMem s pg) (length front) (length s) (lc_T ch2) (lc_el ch2) ;;
        out <- convert_coo L O false c (lc_conv ch2) ;;
        Ok (csr_reweigh i [], out))).
Proof.
  intros W W' L O wm P i o t1 t2 t3 t4 t5 t6 pg fn ft ch1 ch2 c1 c2 HL HO Si Fi Ri So Fo Ro T1 T2 T3 T4 T5 T6 (U1 & U2 & U3) (V1 & V2 & V3) Hft N1 N2.
  set (wc := Some (wm_bin wm)) in *.
  pose proof (wfit_sized wc P _ ltac:(apply Fi)) as HW.
  destruct (digraph_save_ok L O wc HL HO HW i o t1 t2 t3 t4 t5 t6 _ _ Si So
    (plus1_ok L _ HL (proj1 Si) Ri) eq_refl (plus1_ok L _ HL (proj1 So) Ro) eq_refl) as (w & Ew & Hw); auto.
  destruct (csr_before L O wc (@None (codec W')) P HL HO i _ _ (lc_b3 ch1) Si Fi Ri U1 U2) as (b1 & wb & Eb1 & Ewb & Hb1 & Hm & Hr1).
  destruct (csr_read_ok L O wc P HL HO o _ _ _ So Fo Ro V1 V2 V3) as (b2 & Eb2 & Hb2 & _).
  set (s := digraph_magic ++ (b1 ++ wb) ++ b2).
  assert (ED : digraph_layout L O wc i o = map Some s).
  { unfold digraph_layout, s. rewrite Eb1, Eb2, !map_app. reflexivity. }
  exists w, s, (digraph_magic ++ b1), wb, b2. split; [exact Ew|]. split; [eapply contents_of; eassumption|].
  split; [unfold s; rewrite <- !app_assoc; reflexivity|]. split; [exact Ewb|]. split; [exact Eb2|]. intros HN.
  unfold digraph_open. rewrite open_reading by discriminate. cbn [bind]. unfold digraph_read.
  rewrite (guess_begins_ft ft _ PIGO_DIGRAPH_BIN Hft); [|discriminate|eapply (guess_digraph s pg fn [] s); [reflexivity|eapply (digraph_begins L O); eassumption]].
  cbn [bind]. rewrite (rd_str_ok s pg fn [] digraph_magic ((b1 ++ wb) ++ b2)); [|reflexivity|destruct Hb1 as (x & y & ->); discriminate].
  cbn [bind app]. unfold csr_read at 1. cbn [used].
  rewrite (guess_csr s pg fn digraph_magic ((b1 ++ wb) ++ b2)); [|reflexivity|rewrite <- app_assoc; apply begins_app; exact Hb1].
  cbn [bind]. unfold csr_direct at 1. cbn [wbin option_map].
  rewrite (Hr1 s pg fn digraph_magic (wb ++ b2)) by (unfold s; rewrite <- app_assoc; reflexivity).
  cbn [get_weights is_some bind].
  unfold csr_read. cbn [used].
  assert (ES : s = (digraph_magic ++ b1) ++ wb ++ b2) by (unfold s; rewrite <- !app_assoc; reflexivity).
  rewrite (guess_at s pg fn (digraph_magic ++ b1) (wb ++ b2) ES).
  assert (NB : forall t, ~ begins (wb ++ b2) (pigo_magic ++ t)).
  { intros t (x & y & E). apply HN. rewrite E. destruct t as [|c t]; [exists x, y; rewrite app_nil_r; reflexivity|].
    exists c, (t ++ x :: y). rewrite <- app_assoc. reflexivity. }
  rewrite (proj2 (begins_false (wb ++ b2) coo_magic) (NB _)).
  rewrite (proj2 (begins_false (wb ++ b2) csr_magic) (NB _)).
  rewrite (proj2 (begins_false (wb ++ b2) digraph_magic) (NB _)).
  rewrite (proj2 (begins_false (wb ++ b2) tensor_magic) (NB _)).
  rewrite (proj2 (begins_false (wb ++ b2) pigo_magic) (fun H => HN H)).
  replace (has_suffix fn ext_mtx) with false.
  2:{ symmetry. apply Bool.not_true_is_false. rewrite has_suffix_spec. exact N1. }
  replace (has_suffix fn ext_graph) with false.
  2:{ symmetry. apply Bool.not_true_is_false. rewrite has_suffix_spec. exact N2. }
  cbn [bind]. unfold coo_read. cbn [used bind]. unfold with_reader. cbn [reading rf_mem rf_fp wtext option_map]. unfold flen. cbn [bytes].
  destruct (read_el L O None no_flags (mkMem s pg) (length (digraph_magic ++ b1)) (length s) (lc_T ch2) (lc_el ch2)) as [c| | |]; cbn [bind is_some]; try reflexivity.
  destruct (convert_coo L O false c (lc_conv ch2)); reflexivity.
Qed.
Print Assumptions C61_digraph_out_edges_from_noise.

(** ** Tensor files record the size of the weights, but not that there are any *)
Lemma enc_size t : is_ity t -> cd_enc (cint u8) (size_byte t) = [size_byte t].
Proof. intros H. unfold is_ity in H. cbn [In] in H. intuition (subst; reflexivity). Qed.
Lemma size_byte_small t : is_ity t -> (0 <= size_byte t < 256)%Z.
Proof. intros H. unfold is_ity in H. cbn [In] in H. repeat (destruct H as [<-|H]; [split; [vm_compute; discriminate|reflexivity]|]). destruct H. Qed.

Lemma tensor_open_at {W'} L O (wm' : option (wmode W')) pg fn ft ch rest : is_ity L -> is_ity O -> ft = AUTO \/ ft = PIGO_TENSOR_BIN ->
  let pre := tensor_magic ++ [size_byte L; size_byte O] in
  tensor_open L O wm' pg fn (Some (pre ++ rest)) ft ch =
  '(t, _) <- (f <- match wbin wm' with
       | None => Ok (reading (pre ++ rest) pg fn pre)
       | Some c =>
           '(ws, f) <- rd (cint u8) (reading (pre ++ rest) pg fn pre) ;;
           if negb (ws =? Z.of_nat (cd_size c))%Z then Throw EError else Ok f
       end ;;
  '(order, f) <- rd (cint O) f ;;
  '(m_, f) <- rd (cint O) f ;;
  '(c, w) <- tensor_alloc (W:=W') O (is_some (wbin wm')) order m_ ;;
  let k := Z.to_nat m_ in
  '(c, f) <- rd_array (cint L) (length c) (isize L * Z.to_nat order * k) (lc_b1 ch) f ;;
  '(w, f) <- get_weights (wbin wm') w k (lc_b2 ch) f ;;
  Ok (mkTensor c w order m_, f)) ;; Ok t.
Proof.
  intros HL HO Hft pre. set (s := pre ++ rest). unfold tensor_open.
  rewrite open_reading by discriminate. cbn [bind]. unfold tensor_read.
  rewrite (guess_begins_ft ft _ PIGO_TENSOR_BIN Hft); [|discriminate|].
  2:{ eapply (guess_tensor s pg fn [] s); [reflexivity|]. exists (size_byte L), ([size_byte O] ++ rest). reflexivity. }
  cbn [bind]. unfold tensor_read_bin.
  rewrite (rd_str_ok s pg fn [] tensor_magic ([size_byte L; size_byte O] ++ rest)); [|reflexivity|discriminate]. cbn [bind].
  rewrite (rd_ok (cint u8) s pg fn ([] ++ tensor_magic) [size_byte L] ([size_byte O] ++ rest)) by reflexivity. cbn [bind].
  rewrite dec_byte by (apply size_byte_small; exact HL).
  rewrite (rd_ok (cint u8) s pg fn (([] ++ tensor_magic) ++ [size_byte L]) [size_byte O] rest) by reflexivity. cbn [bind].
  rewrite dec_byte by (apply size_byte_small; exact HO).
  rewrite !Z.eqb_refl. cbn [negb]. reflexivity.
Qed.

(** The bytes of a saved tensor. *)
Lemma tensor_bytes {W} L O (wc : option (codec W)) P t tc tw : is_ity L -> is_ity O -> tensor_shape wc t -> tensor_full L O wc P t ->
  1 <= fst tc -> 1 <= fst tw ->
  exists w lb wb, tensor_save L O wc t tc tw = Ok w /\
    length lb = isize L * Z.to_nat (te_order t) * Z.to_nat (te_m t) /\ wgts wc (te_w t) = map Some wb /\
    length wb = weight_size wc (Z.to_nat (te_m t)) /\
    contents w ((tensor_magic ++ [size_byte L; size_byte O]) ++
      (match wc with None => [] | Some c => [Z.of_nat (cd_size c)] end) ++ le (isize O) (te_order t) ++ le (isize O) (te_m t) ++ lb ++ wb).
Proof.
  intros HL HO Hs Hf T1 T2.
  destruct (tensor_save_ok L O wc HL HO (wfit_sized _ P _ ltac:(apply Hf)) t tc tw) as (w & Ew & Hw & _); auto.
  { destruct Hf as (_ & _ & _ & Hwf). destruct wc; [apply Hwf|exact I]. }
  destruct t as [c wt od m]. destruct Hs as (H0 & H1 & Hc & Hwl). destruct Hf as (Fo & Fm & Fc & Fw).
  cbn [te_c te_w te_order te_m] in *.
  destruct (fits_values L c Fc) as (cs & -> & Hcs). rewrite map_length in Hc.
  assert (Em : m = Z.of_nat (Z.to_nat m)) by lia. rewrite Em in Hwl.
  destruct (wfit_values wc P wt _ Hwl Fw) as (ws & -> & Ewg & _ & Hws).
  exists w, (flat_map (cd_enc (cint L)) cs), (wvals wc ws). split; [exact Ew|].
  split. { rewrite (flat_enc_length (cint L) _ cs (cint_f L HL)). cbn [cint cd_size]. rewrite <- Nat.mul_assoc. f_equal. nia. }
  split; [exact Ewg|]. split.
  { destruct wc as [cd|]; cbn [wvals weight_size]; [|reflexivity]. destruct Hws as (Hfa & _ & El). rewrite (flat_enc_length cd P ws Hfa), El. reflexivity. }
  eapply contents_of; [exact Hw|]. unfold tensor_layout. cbn [te_c te_w te_order te_m].
  rewrite Ewg, labels_some, !sizeof_some, !enc_size by assumption. unfold known, scalar.
  change (text "PIGO-Tensor-2"%string) with (map Some tensor_magic). rewrite !map_app, <- !app_assoc.
  destruct wc; reflexivity.
Qed.

Theorem C61_tensor_weight_size_checked : forall {W W'} L O (c : codec W) (wm' : wmode W') P t tc tw pg fn ft ch,
  is_ity L -> is_ity O -> tensor_shape (Some c) t -> tensor_full L O (Some c) P t ->
  1 <= fst tc -> 1 <= fst tw -> ft = AUTO \/ ft = PIGO_TENSOR_BIN ->
  cd_size (wm_bin wm') <> cd_size c ->
  exists w s, tensor_save L O (Some c) t tc tw = Ok w /\ contents w s /\
    tensor_open L O (Some wm') pg fn (Some s) ft ch = Throw EError.
Proof.
  intros W W' L O c wm' P t tc tw pg fn ft ch HL HO Hs Hf T1 T2 Hft Hne.
  destruct (tensor_bytes L O (Some c) P t tc tw HL HO Hs Hf T1 T2) as (w & lb & wb & Ew & _ & _ & _ & Hc).
  eexists w, _. split; [exact Ew|]. split; [exact Hc|].
  rewrite (tensor_open_at L O (Some wm') pg fn ft ch _ HL HO Hft). cbn [wbin option_map].
  erewrite rd_ok; [|reflexivity|reflexivity]. cbn [bind].
  assert (cd_size c < 256) by apply Hf.
  rewrite dec_byte by lia. destruct (Z.eqb_spec (Z.of_nat (cd_size c)) (Z.of_nat (cd_size (wm_bin wm')))); [lia|]. reflexivity.
Qed.
Print Assumptions C61_tensor_weight_size_checked.

(** An unweighted tensor opened as a weighted one is rejected, unless the low
    byte of its order equals the size of a weight. *)
Theorem C61_tensor_missing_weights : forall {W W'} L O (wm' : wmode W') P (t : tensor W) tc tw pg fn ft ch,
  is_ity L -> is_ity O -> tensor_shape None t -> tensor_full L O None P t ->
  1 <= fst tc -> 1 <= fst tw -> ft = AUTO \/ ft = PIGO_TENSOR_BIN ->
  (te_order t mod 256)%Z <> Z.of_nat (cd_size (wm_bin wm')) ->
  exists w s, tensor_save L O None t tc tw = Ok w /\ contents w s /\
    tensor_open L O (Some wm') pg fn (Some s) ft ch = Throw EError.
Proof.
  intros W W' L O wm' P t tc tw pg fn ft ch HL HO Hs Hf T1 T2 Hft Hne.
  destruct (tensor_bytes L O None P t tc tw HL HO Hs Hf T1 T2) as (w & lb & wb & Ew & _ & _ & _ & Hc).
  eexists w, _. split; [exact Ew|]. split; [exact Hc|].
  rewrite (tensor_open_at L O (Some wm') pg fn ft ch _ HL HO Hft). cbn [wbin option_map app].
  assert (HI : exists n, isize O = S n).
  { unfold is_ity in HO. cbn [In] in HO. intuition (subst; eexists; reflexivity). }
  destruct HI as (n & En). rewrite En. cbn [le].
  erewrite (rd_ok (cint u8) _ pg fn _ [(te_order t mod 256)%Z]); [|reflexivity|reflexivity]. cbn [bind].
  pose proof (Z.mod_pos_bound (te_order t) 256 ltac:(lia)).
  rewrite dec_byte by lia. destruct (Z.eqb_spec (te_order t mod 256) (Z.of_nat (cd_size (wm_bin wm')))); [congruence|]. reflexivity.
Qed.
Print Assumptions C61_tensor_missing_weights.

(** A weighted tensor opened as an unweighted one: the byte that holds the size
    of the weights is taken for the low byte of the order, every later byte is
    off by one, and far more labels are announced than the file holds. *)
Lemma le_snoc n : forall z, (0 <= z < 256 ^ Z.of_nat n)%Z -> le (S n) z = le n z ++ [0%Z].
Proof.
  induction n as [|n IH]; intros z Hz.
  - cbn in Hz. replace z with 0%Z by lia. reflexivity.
  - replace (Z.of_nat (S n)) with (Z.of_nat n + 1)%Z in Hz by lia. rewrite Z.pow_add_r in Hz by lia.
    change (le (S (S n)) z) with ((z mod 256)%Z :: le (S n) (z / 256)%Z). rewrite IH; [reflexivity|].
    split; [apply Z.div_pos; lia|]. apply Z.div_lt_upper_bound; lia.
Qed.

Lemma le_cons n k z : (0 <= k < 256)%Z -> k :: le n z = le (S n) (k + 256 * z)%Z.
Proof.
  intros Hk. cbn [le]. f_equal.
  - replace (k + 256 * z)%Z with (k + z * 256)%Z by ring. rewrite Z.mod_add by lia. symmetry. apply Z.mod_small. exact Hk.
  - f_equal. replace (k + 256 * z)%Z with (k + z * 256)%Z by ring. rewrite Z.div_add by lia. rewrite Z.div_small by exact Hk. lia.
Qed.

Lemma mul_ge1 a b : (1 <= a -> 1 <= b -> 1 <= a * b)%Z.
Proof. nia. Qed.
Lemma mul_le_pos a b : (1 <= a -> 0 <= b -> b <= a * b)%Z.
Proof. nia. Qed.

Lemma imax_lt t : is_ity t -> (imax t < 256 ^ Z.of_nat (isize t))%Z.
Proof. intros H. unfold is_ity in H. cbn [In] in H. repeat (destruct H as [<-|H]; [reflexivity|]). destruct H. Qed.

Lemma imin_le0 t : is_ity t -> (imin t <= 0)%Z.
Proof. intros H. unfold is_ity in H. cbn [In] in H. repeat (destruct H as [<-|H]; [vm_compute; discriminate|]). destruct H. Qed.

Lemma isize_pos t : is_ity t -> 1 <= isize t.
Proof. intros H. unfold is_ity in H. cbn [In] in H. repeat (destruct H as [<-|H]; [vm_compute; lia|]). destruct H. Qed.

Lemma omul_cases O a b : is_ity O -> (0 <= a)%Z -> (0 <= b)%Z -> omul O a b = UB \/ exists p, omul O a b = Ok p /\ (0 <= p <= a * b)%Z.
Proof.
  intros HO Ha Hb. assert (0 <= a * b)%Z by nia. unfold omul. destruct (Z.ltb_spec (ibits O) 32).
  - destruct (_ <=? _)%Z; [right; eexists; split; [reflexivity|lia]|left; reflexivity].
  - unfold arith. destruct (Z.ltb_spec (ibits O) 32); [lia|]. destruct (isigned O) eqn:Es.
    + destruct (inrange O (a * b)); [right; eexists; split; [reflexivity|lia]|left; reflexivity].
    + right. eexists. split; [reflexivity|]. unfold wrap. rewrite Es. 
      assert (0 < 2 ^ ibits O)%Z by (apply Z.pow_pos_nonneg; lia).
      pose proof (Z.mod_pos_bound (a * b) (2 ^ ibits O) ltac:(lia)). pose proof (Z.mod_le (a * b) (2 ^ ibits O) ltac:(lia) ltac:(lia)). lia.
Qed.

Theorem C61_tensor_weights_ignored : forall {W W'} L O (c : codec W) P t tc tw pg fn ft ch,
  is_ity L -> is_ity O -> tensor_shape (Some c) t -> tensor_full L O (Some c) P t ->
  1 <= fst tc -> 1 <= fst tw -> teams ch -> ft = AUTO \/ ft = PIGO_TENSOR_BIN ->
  (1 <= te_order t)%Z -> (1 <= te_m t)%Z ->
  (Z.of_nat (cd_size c) + 256 * te_order t <= imax O)%Z -> (256 * te_m t <= imax O)%Z ->
  1 <= pg -> (Z.of_nat pg <= 65536)%Z ->
  exists w s, tensor_save L O (Some c) t tc tw = Ok w /\ contents w s /\
    tensor_open L O (@None (wmode W')) pg fn (Some s) ft ch = UB.
Proof.
  intros W W' L O c P t tc tw pg fn ft ch HL HO Hs Hf T1 T2 (U1 & U2 & U3) Hft Ho Hm Ro Rm Hp Hpg.
  destruct (tensor_bytes L O (Some c) P t tc tw HL HO Hs Hf T1 T2) as (w & lb & wb & Ew & El & _ & Elw & Hc).
  eexists w, _. split; [exact Ew|]. split; [exact Hc|].
  rewrite (tensor_open_at L O None pg fn ft ch _ HL HO Hft). cbn [wbin option_map is_some bind].
  set (pre := tensor_magic ++ [size_byte L; size_byte O]).
  assert (Hsz : cd_size c < 256) by apply Hf. assert (Hs0 : 0 < cd_size c) by apply Hf.
  set (k := Z.of_nat (cd_size c)) in *. set (o := te_order t) in *. set (m := te_m t) in *.
  pose proof (imax_lt O HO) as HI. pose proof (imin_le0 O HO) as HJ. pose proof (isize_pos L HL) as HL1.
  assert (HS : exists n, isize O = S n).
  { pose proof (isize_pos O HO). destruct (isize O) as [|n]; [lia|eauto]. }
  destruct HS as (n & En).
  assert (Bo : (0 <= o < 256 ^ Z.of_nat n)%Z /\ (0 <= m < 256 ^ Z.of_nat n)%Z).
  { rewrite En in HI. replace (Z.of_nat (S n)) with (Z.of_nat n + 1)%Z in HI by lia. rewrite Z.pow_add_r in HI by lia. lia. }
  destruct Bo as [Bo Bm].
  set (o' := (k + 256 * o)%Z). set (m' := (256 * m)%Z).
  set (s := pre ++ [k] ++ le (isize O) o ++ le (isize O) m ++ lb ++ wb).
  assert (E : s = pre ++ cd_enc (cint O) o' ++ cd_enc (cint O) m' ++ 0%Z :: lb ++ wb).
  { unfold s. cbn [cint cd_enc]. rewrite En, (le_snoc n o Bo), (le_snoc n m Bm). f_equal. rewrite <- !app_assoc.
    change ([k] ++ le n o ++ [0%Z] ++ le n m ++ [0%Z] ++ lb ++ wb) with ((k :: le n o) ++ (0%Z :: le n m) ++ 0%Z :: lb ++ wb).
    rewrite (le_cons n k o) by (unfold k; lia). rewrite (le_cons n 0 m) by lia. reflexivity. }
  assert (Ls : length s = length pre + 1 + isize O + isize O + length lb + length wb).
  { unfold s. rewrite !app_length, !le_length. cbn [length]. lia. }
  rewrite (rd_ok _ _ _ _ _ _ _ E) by apply enc_len. cbn [bind]. rewrite dec_enc.
  2:{ exact HO. }
  2:{ unfold inrange. apply andb_true_intro. split; apply Z.leb_le; unfold o', k; lia. }
  nxt E. rewrite (rd_ok _ _ _ _ _ _ _ E) by apply enc_len. cbn [bind]. rewrite dec_enc.
  2:{ exact HO. }
  2:{ unfold inrange. apply andb_true_intro. split; apply Z.leb_le; unfold m'; lia. }
  unfold tensor_alloc. destruct (omul_cases O o' m' HO) as [EU|(p & Ep & Hpp)]; [unfold o', k; lia|unfold m'; lia|rewrite EU; reflexivity|].
  rewrite Ep. cbn [bind]. unfold alloc at 1. destruct (Z.ltb_spec p 0); [lia|]. cbn [bind].
  set (v := isize L * Z.to_nat o' * Z.to_nat m').
  unfold rd_array. rewrite fresh_length.
  destruct (lc_b1 ch) as [T sched]. cbn [fst] in U1.
  assert (EP : par_read (cd_size (cint L) * Z.to_nat p) v (T, sched) (reading s pg fn ((pre ++ cd_enc (cint O) o') ++ cd_enc (cint O) m')) = UB); [|rewrite EP; reflexivity].
  destruct (Z.eq_dec p (o' * m')) as [Epm|Hlt].
  - set (q := length pre + isize O + isize O).
    assert (Eq : length ((pre ++ cd_enc (cint O) o') ++ cd_enc (cint O) m') = q) by (unfold q; rewrite !app_length, !enc_len; reflexivity).
    assert (Hpast : paged pg (length s) < q + v).
    { assert (paged pg (length s) <= length s + (pg - 1)) by (unfold paged; rewrite Nat.mul_comm; apply Nat.mul_div_le; lia).
      assert (1 + length lb + length wb + pg <= v); [|lia]. cbn [weight_size] in Elw. 
      unfold v. rewrite El, Elw. fold o m. 
      assert (Ea : Z.to_nat o' = cd_size c + 256 * Z.to_nat o) by (unfold o', k; lia).
      assert (Eb : Z.to_nat m' = 256 * Z.to_nat m) by (unfold m'; lia). rewrite Ea, Eb.
      set (x := Z.to_nat o) in *. set (y := Z.to_nat m) in *. assert (1 <= x /\ 1 <= y) by (unfold x, y; lia).
      apply Nat2Z.inj_le. rewrite !Nat2Z.inj_add, !Nat2Z.inj_mul, !Nat2Z.inj_add, !Nat2Z.inj_mul.
      set (il := Z.of_nat (isize L)). set (x' := Z.of_nat x). set (y' := Z.of_nat y). fold k.
      assert (1 <= il /\ 1 <= x' /\ 1 <= y' /\ 1 <= k)%Z by (unfold il, x', y', k; lia).
      change (Z.of_nat 256) with 256%Z. change (Z.of_nat 1) with 1%Z.
      replace (il * (k + 256 * x') * (256 * y'))%Z with (256 * (il * (k * y')) + 65536 * (il * x' * y'))%Z by ring.
      assert (G0 : (1 <= k * y')%Z) by (apply mul_ge1; tauto). assert (G1 : (k * y' <= il * (k * y'))%Z) by (apply mul_le_pos; [tauto|lia]).
      assert (G2 : (1 <= il * x' * y')%Z) by (apply mul_ge1; [apply mul_ge1; tauto|tauto]).
      revert G0 G1 G2. generalize (il * x' * y')%Z (il * (k * y'))%Z (k * y')%Z. intros A B C G0 G1 G2. clear -G0 G1 G2 Hpg. lia. }
    apply (par_read_past _ _ T sched _ (paged pg (length s) - q)); [exact U1| |].
    + pose proof (paged_le pg (length s) Hp). lia.
    + unfold reading. cbn [rf_mem rf_fp]. rewrite Eq. pose proof (paged_le pg (length s) Hp). unfold load. cbn [bytes].
      rewrite (proj2 (nth_error_None _ _)) by lia. unfold map_len, flen. cbn [bytes page]. fold (paged pg (length s)).
      destruct (Nat.ltb_spec (q + (paged pg (length s) - q)) (paged pg (length s))); [|reflexivity].
      assert (q <= length s) by lia. lia.
  - apply par_read_overrun; [exact U1|]. unfold v. cbn [cint cd_size]. rewrite <- Nat.mul_assoc.
    apply Nat.mul_lt_mono_pos_l; [lia|]. rewrite <- Z2Nat.inj_mul by (unfold o', m', k; lia). apply Z2Nat.inj_lt; lia.
Qed.
Print Assumptions C61_tensor_weights_ignored.

(** *** The hypotheses are met

    Weights -5, 300, 0 of 16 bits, read without weights, as 32 bit weights within
    a page of 64 bytes, and beyond a page of 32 bytes. *)
Definition ex_wm32 : option (wmode Z) := Some (mkWmode _ (wr_signed i32) (cint i32)).
Definition ex_saved : list byte :=
  [80; 73; 71; 79; 45; 67; 79; 79; 45; 118; 49; 1; 2; 201; 8; 201; 3; 0; 2; 0; 200; 1; 7; 0; 251; 255; 44; 1; 0; 0]%Z.

Example C61_coo_applies :
  coo_shape (wbin ex_wm) ex_coo /\ coo_full u8 u16 (wbin ex_wm) (fun z => inrange i16 z = true) ex_coo /\ teams ex_teams /\
  coo_open u8 u16 (@None (wmode Z)) no_flags 64 ex_fn (Some ex_saved) AUTO ex_teams = Ok (coo_reweigh ex_coo []) /\
  coo_open u8 u16 ex_wm32 no_flags 64 ex_fn (Some ex_saved) AUTO ex_teams = Ok (coo_reweigh ex_coo [19726331; 0; 0]%Z) /\
  coo_open u8 u16 ex_wm32 no_flags 32 ex_fn (Some ex_saved) AUTO ex_teams = UB.
Proof.
  split; [apply C15_applies|]. split; [apply C15_applies|]. split; [apply C15_applies|].
  split; [vm_compute; reflexivity|]. split; vm_compute; reflexivity.
Qed.

(** A DiGraph with in-edges 0-2, 0-0, 2-1 whose first weights spell "7 8" and a
    line end: opened without weights its out-graph has nine vertices and one edge
    7-8, taken from the weights; no exception is thrown. *)
Definition ex_wm8 : wmode Z := mkWmode _ (wr_unsigned u8) (cint u8).
Definition ex_di (w : list Z) : csr Z := mkCsr (map Some [0; 2; 2; 4])%Z (map Some [2; 0; 1; 1])%Z (map Some w) 3 4 (Some 3)%Z (Some 3)%Z.
Definition ex_pch1 : lchoice :=
  mkLchoice 1 [] (2, [1; 0; 0; 1]) (3, [2; 0; 2; 1]) (2, [1; 1; 1])
    (mkGchoice 2 [] []) (mkChoice 1 0 [[0]] [[0]] [] [] []) [[1]; [0; 2]] [1; 0].

Example C61_digraph_applies :
  csr_shape (wbin (Some ex_wm8)) (ex_di [55; 32; 56; 10])%Z /\
  csr_full u8 u8 (wbin (Some ex_wm8)) (fun z => inrange u8 z = true) (ex_di [55; 32; 56; 10])%Z /\ room u8 3 /\
  ~ ends_in ex_fn (chars ".mtx") /\ ~ ends_in ex_fn (chars ".graph") /\
  exists w s o, digraph_save u8 u8 (Some (wm_bin ex_wm8)) (ex_di [55; 32; 56; 10], ex_di [1; 2; 3; 4])%Z (1, []) (2, [1]) (3, []) (2, []) (2, []) (2, [1; 1]) = Ok w /\ contents w s /\
    digraph_open u8 u8 (@None (wmode Z)) 64 ex_fn (Some s) AUTO ex_teams ex_pch1 (lc_conv ex_teams) (lc_conv ex_teams) =
      Ok (csr_reweigh (ex_di [])%Z [], o) /\ cs_n o = 9%Z /\ cs_m o = 1%Z /\ cs_end o = [Some 8%Z].
Proof.
  split; [conc|]. split.
  { unfold csr_full. splits; try reflexivity; try (eexists; split; reflexivity); try (repeat constructor; eexists; split; reflexivity).
    split; [apply cint_faithful; cbn; tauto|]. split; [cbn; lia|]. repeat constructor; eexists; split; reflexivity. }
  split; [split; [vm_compute; discriminate|left; reflexivity]|].
  split. { intros (p & E). apply (f_equal (@length byte)) in E. rewrite app_length in E. cbn in E. lia. }
  split. { intros (p & E). apply (f_equal (@length byte)) in E. rewrite app_length in E. cbn in E. lia. }
  eexists _, (chars "PIGO-DiGraph-v1" ++ [80; 73; 71; 79; 45; 67; 83; 82; 45; 118; 50; 1; 1; 3; 4; 3; 3; 0; 2; 2; 4; 2; 0; 1; 1; 55; 32; 56; 10]%Z ++
    [80; 73; 71; 79; 45; 67; 83; 82; 45; 118; 50; 1; 1; 3; 4; 3; 3; 0; 2; 2; 4; 2; 0; 1; 1; 1; 2; 3; 4]%Z), _.
  split; [vm_compute; reflexivity|]. split; [vm_compute; reflexivity|]. split; [vm_compute; reflexivity|]. split; [reflexivity|split; reflexivity].
Qed.

(** [ex_tensor]: order 3, two entries, 16 bit weights. *)
Example C61_tensor_applies :
  tensor_shape (wbin ex_wm) ex_tensor /\ tensor_full u16 u32 (wbin ex_wm) (fun z => inrange i16 z = true) ex_tensor /\
  (1 <= te_order ex_tensor)%Z /\ (1 <= te_m ex_tensor)%Z /\
  (Z.of_nat (cd_size (cint i16)) + 256 * te_order ex_tensor <= imax u32)%Z /\ (256 * te_m ex_tensor <= imax u32)%Z /\
  cd_size (cint i32) <> cd_size (cint i16) /\ (te_order ex_tensor mod 256 <> Z.of_nat (cd_size (cint i16)))%Z.
Proof.
  split; [apply C17_applies|]. split.
  { unfold tensor_full. splits; try reflexivity; try (eexists; split; reflexivity); try (repeat constructor; eexists; split; reflexivity). apply ex_wfit. repeat constructor. }
  repeat split; vm_compute; discriminate.
Qed.
