(** * P_Cut: C47, what a binary file that lost its end is loaded as *)

From Coq Require Import String.
From Verif Require Import Base Reader Sched SchedLemmas CooExec Coo Ascii Csr SpecCsr CsrLemmas Codec Bin SpecBin BinLemmas BinSave BinLoad Graph Load Tensor BinOpen BinBad SpecReweigh Reweigh SpecCut Cut P_Bin P_BinBad P_BinEx.
Notation length := List.length.
Open Scope list_scope.

Lemma cut_room b k pg : 1 <= pg -> k <= length b -> length b <= map_len (mkMem (firstn k b) pg) ->
  length (firstn k b) + (length b - k) <= paged pg (length (firstn k b)) /\ length (firstn k b) + (length b - k) = length b.
Proof.
  intros Hp Hk H. unfold map_len, flen in H. cbn [bytes page] in H. fold (paged pg (length (firstn k b))) in H.
  rewrite firstn_length, Nat.min_l in * by exact Hk. lia.
Qed.

Lemma whole_room (b : list byte) pg : 1 <= pg -> length b + 0 <= paged pg (length b).
Proof. intros Hp. rewrite Nat.add_0_r. apply paged_le. exact Hp. Qed.

Lemma app_zeros (b : list byte) : b ++ repeat 0%Z 0 = b.
Proof. cbn [repeat]. apply app_nil_r. Qed.

(** ** COO

    When the missing bytes lie in the last page, the load succeeds; the missing
    bytes count as zeros: entries stored before the cut are right, labels stored
    behind it are zero. *)
Theorem C47_cut_coo : forall {W} L O (wm : option (wmode W)) P fl c pg fn ft ch b k,
  is_ity L -> is_ity O -> coo_shape (wbin wm) c -> coo_full L O (wbin wm) P c -> teams ch -> 1 <= pg ->
  ft = AUTO \/ ft = PIGO_COO_BIN ->
  coo_layout L O (wbin wm) c = map Some b -> 13 + 3 * isize L + isize O <= k -> k <= length b ->
  length b <= map_len (mkMem (firstn k b) pg) ->
  exists c', coo_open L O wm fl pg fn (Some (firstn k b)) ft ch = Ok c' /\
    co_m c' = co_m c /\ co_n c' = co_n c /\ co_nrows c' = co_nrows c /\ co_ncols c' = co_ncols c /\
    let m := Z.to_nat (co_m c) in
    let px := 13 + 3 * isize L + isize O in
    let py := px + isize L * m in
    let pw := py + isize L * m in
    co_x c' = array_at (cint L) m px (padded k b) /\
    co_y c' = array_at (cint L) m py (padded k b) /\
    co_w c' = match wbin wm with None => [] | Some cd => array_at cd m pw (padded k b) end /\
    keeps_cells (isize L) px k (co_x c) (co_x c') /\ zero_cells (isize L) px k (co_x c') /\
    keeps_cells (isize L) py k (co_y c) (co_y c') /\ zero_cells (isize L) py k (co_y c') /\
    match wbin wm with None => True | Some cd => keeps_cells (cd_size cd) pw k (co_w c) (co_w c') end.
Proof.
  intros W L O wm P fl c pg fn ft ch b k HL HO Hs Hf (U1 & U2 & U3) Hpg Hft Eb Hk Hkb HM.
  pose proof (wfit_sized _ P _ (proj2 (proj2 (proj2 (proj2 (proj2 (proj2 Hf))))))) as HW.
  destruct (coo_read_ok L O (wbin wm) P HL HO c _ _ _ Hs Hf U1 U2 U3) as (b0 & Eb0 & _ & Hrd).
  assert (b0 = b) by (apply map_Some_inj; congruence). subst b0.
  specialize (Hrd b pg fn [] [] ltac:(rewrite app_nil_r; reflexivity)). cbv beta in Hrd.
  destruct Hf as ((nr & Er & Hr) & (nc & Ec & Hcc) & (n & En & Hn) & Fm & _). destruct Hs as (Hx & Hy & Hw).
  destruct (coo_split L O (wbin wm) c n nr nc b HL HO En Er Ec Eb) as (r & Es & Erest).
  set (h := coo_head L O n nr nc (co_m c)) in *.
  assert (Lh : length h = 13 + 3 * isize L + isize O).
  { unfold h, coo_head, enc. rewrite !app_length, !enc_len. cbn [cint cd_size length coo_magic]. change (isize u8) with 1. lia. }
  set (s := firstn k b). assert (Ess : s = h ++ firstn (k - length h) r) by (unfold s; rewrite Es; apply firstn_head; lia).
  set (m := Z.to_nat (co_m c)). assert (Em : co_m c = Z.of_nat m) by (unfold m; lia).
  assert (Lr : length r = isize L * m + isize L * m + weight_size (wbin wm) m).
  { apply (f_equal (@List.length _)) in Erest. rewrite map_length, !app_length in Erest. unfold labels in Erest. rewrite !array_raw in Erest.
    rewrite !(raw_length (cint L) _ _ (cint_f L HL)) in Erest. rewrite (wgts_length (wbin wm) HW _ m) in Erest by (rewrite <- Em; exact Hw).
    cbn [cint cd_size] in Erest. replace (length (co_x c)) with m in Erest by lia. replace (length (co_y c)) with m in Erest by lia. lia. }
  assert (Lb : length b = length h + length r) by (rewrite Es; apply app_length).
  assert (EO : coo_open L O wm fl pg fn (Some s) ft ch =
    ('(x, _) <- coo_tail L (wbin wm) n nr nc (co_m c) (reading s pg fn h) (lc_b1 ch) (lc_b2 ch) (lc_b3 ch) ;; Ok x)).
  { unfold coo_open. rewrite open_reading by (rewrite Ess; discriminate). cbn [bind]. unfold coo_read.
    rewrite (guess_begins_ft ft _ PIGO_COO_BIN Hft); [|discriminate|].
    - cbn [bind]. rewrite (coo_head_ok L O (wbin wm) HL HO n nr nc (co_m c) s pg fn [] (firstn (k - length h) r)) by assumption. reflexivity.
    - eapply (guess_coo s pg fn [] s); [reflexivity|]. rewrite Ess. apply begins_app. unfold h, coo_head. eexists _, _. reflexivity. }
  rewrite (coo_head_ok L O (wbin wm) HL HO n nr nc (co_m c) b pg fn [] r) in Hrd by assumption. cbn [app] in Hrd. fold h in Hrd.
  assert (HZ : match wbin wm with None => True | Some cd => 0 < cd_size cd end) by (destruct (wbin wm); [apply HW|exact I]).
  destruct (cut_room b k pg Hpg Hkb HM) as (HP & HP2). fold s in HP, HP2.
  unfold reading in *. rewrite Em in EO, Hrd. rewrite Lh in *.
  set (px := 13 + 3 * isize L + isize O) in *.
  rewrite (coo_tail_cut L (wbin wm) n nr nc m s (length b - k)) in EO by (auto; lia). cbn [bind] in EO.
  rewrite (coo_tail_cut L (wbin wm) n nr nc m b 0) in Hrd by (auto using whole_room; lia).
  rewrite app_zeros in Hrd. injection Hrd as Hrd _.
  change (s ++ repeat 0%Z (length b - k)) with (padded k b) in EO.
  rewrite EO. eexists. split; [reflexivity|]. cbn [co_x co_y co_w co_n co_nrows co_ncols co_m].
  split; [congruence|]. split; [congruence|]. split; [congruence|]. split; [congruence|]. cbv zeta.
  replace (px + isize L * m + isize L * m) with (px + 2 * (isize L * m)) by lia.
  do 3 (split; [reflexivity|]). rewrite <- Hrd. cbn [co_x co_y co_w].
  split; [apply (keeps_array (cint L)); exact Hkb|]. split; [apply zero_array; [exact HL|lia]|].
  split; [apply (keeps_array (cint L)); exact Hkb|]. split; [apply zero_array; [exact HL|lia]|].
  destruct (wbin wm); [apply keeps_array; exact Hkb|exact I].
Qed.
Print Assumptions C47_cut_coo.

(** ** CSR *)
Lemma csr_read_cut {W} L O (wc : option (codec W)) P c t_o te tw pg fn pre bc k : is_ity L -> is_ity O ->
  csr_shape wc c -> csr_full L O wc P c -> room L (cs_n c) -> 1 <= fst t_o -> 1 <= fst te -> 1 <= fst tw -> 1 <= pg ->
  csr_layout L O wc c = map Some bc -> let b := pre ++ bc in let po := length pre + (13 + 3 * isize L + isize O) in
  po <= k -> k <= length b -> length b <= map_len (mkMem (firstn k b) pg) ->
  begins (skipn (length pre) (firstn k b)) csr_magic /\ firstn k b = pre ++ skipn (length pre) (firstn k b) /\
  exists c' f, csr_read_bin L O O wc (reading (firstn k b) pg fn pre) t_o te tw = Ok (c', f) /\ csr_cut L O wc po k b c c'.
Proof.
  intros HL HO Hs Hf HR U1 U2 U3 Hpg Eb b po Hk Hkb HM.
  pose proof (wfit_sized _ P _ (proj2 (proj2 (proj2 (proj2 (proj2 (proj2 Hf))))))) as HW.
  destruct (csr_read_ok L O wc P HL HO c _ _ _ Hs Hf HR U1 U2 U3) as (b0 & Eb0 & _ & Hrd).
  assert (b0 = bc) by (apply map_Some_inj; congruence). subst b0.
  specialize (Hrd b pg fn pre [] ltac:(rewrite app_nil_r; reflexivity)). cbv beta in Hrd.
  destruct Hf as (Fn & Fm & (nr & Er & Hr) & (nc & Ec & Hcc) & _). destruct Hs as (H0 & Ho & He & Hw).
  destruct (csr_split L O wc c nr nc bc HL HO Er Ec Eb) as (r & Es & Erest).
  set (h := csr_head L O (cs_n c) nr nc (cs_m c)) in *.
  assert (Lh : length h = 13 + 3 * isize L + isize O).
  { unfold h, csr_head, enc. rewrite !app_length, !enc_len. cbn [cint cd_size length csr_magic]. change (isize u8) with 1. lia. }
  set (s := firstn k b). assert (Ess : s = pre ++ h ++ firstn (k - length pre - length h) r).
  { unfold s, b. rewrite firstn_head by lia. f_equal. rewrite Es. apply firstn_head. lia. }
  set (m := Z.to_nat (cs_m c)). assert (Em : cs_m c = Z.of_nat m) by (unfold m; lia).
  set (n1 := Z.to_nat (cs_n c + 1)).
  assert (Lr : length r = isize O * n1 + isize L * m + weight_size wc m).
  { apply (f_equal (@List.length _)) in Erest. rewrite map_length, !app_length in Erest. unfold labels in Erest. rewrite !array_raw in Erest.
    rewrite (raw_length (cint L) _ _ (cint_f L HL)), (raw_length (cint O) _ _ (cint_f O HO)) in Erest. rewrite (wgts_length wc HW _ m) in Erest by (rewrite <- Em; exact Hw).
    cbn [cint cd_size] in Erest. replace (length (cs_off c)) with n1 in Erest by (unfold n1; lia). replace (length (cs_end c)) with m in Erest by lia. lia. }
  assert (Lb : length b = length pre + (length h + length r)) by (unfold b; rewrite Es, !app_length; reflexivity).
  assert (ESK : skipn (length pre) s = h ++ firstn (k - length pre - length h) r) by (rewrite Ess; apply skipn_exact; reflexivity).
  split; [rewrite ESK; apply begins_app; unfold h, csr_head; eexists _, _; reflexivity|].
  split; [rewrite ESK; exact Ess|].
  rewrite (csr_head_ok L O wc HL HO O (cs_n c) nr nc (cs_m c) b pg fn pre r) in Hrd by (auto; unfold b; rewrite Es; reflexivity).
  rewrite (csr_head_ok L O wc HL HO O (cs_n c) nr nc (cs_m c) s pg fn pre (firstn (k - length pre - length h) r)) by (auto; exact Ess).
  fold h in Hrd |- *. assert (HZ : match wc with None => True | Some cd => 0 < cd_size cd end) by (destruct wc; [apply HW|exact I]).
  destruct (cut_room b k pg Hpg Hkb HM) as (HP & HP2). fold s in HP, HP2.
  unfold reading in *. rewrite app_length in *. rewrite Em in Hrd |- *. rewrite Lh in *. fold po in Hrd |- *.
  rewrite (csr_tail_cut L O wc (cs_n c) nr nc m s (length b - k)) by (auto; fold n1; lia).
  rewrite (csr_tail_cut L O wc (cs_n c) nr nc m b 0) in Hrd by (auto using whole_room; fold n1; lia).
  rewrite app_zeros in Hrd. injection Hrd as Hrd _. fold n1 in Hrd |- *.
  change (s ++ repeat 0%Z (length b - k)) with (padded k b).
  eexists _, _. split; [reflexivity|]. unfold csr_cut. fold n1 m. cbn [cs_off cs_end cs_w cs_n cs_nrows cs_ncols cs_m].
  split; [congruence|]. split; [congruence|]. split; [congruence|]. split; [congruence|].
  do 3 (split; [reflexivity|]). rewrite <- Hrd. cbn [cs_off cs_end cs_w].
  split; [apply (keeps_array (cint O)); exact Hkb|]. split; [apply zero_array; [exact HO|lia]|].
  split; [apply (keeps_array (cint L)); exact Hkb|]. split; [apply zero_array; [exact HL|lia]|].
  destruct wc; [apply keeps_array; exact Hkb|exact I].
Qed.

Theorem C47_cut_csr : forall {W} L O (wm : option (wmode W)) P c pg fn ft ch b k,
  is_ity L -> is_ity O -> csr_shape (wbin wm) c -> csr_full L O (wbin wm) P c -> room L (cs_n c) -> teams ch -> 1 <= pg ->
  ft = AUTO \/ ft = PIGO_CSR_BIN ->
  csr_layout L O (wbin wm) c = map Some b -> 13 + 3 * isize L + isize O <= k -> k <= length b ->
  length b <= map_len (mkMem (firstn k b) pg) ->
  exists c', csr_open L O wm pg fn (Some (firstn k b)) ft ch = Ok c' /\ csr_cut L O (wbin wm) (13 + 3 * isize L + isize O) k b c c'.
Proof.
  intros W L O wm P c pg fn ft ch b k HL HO Hs Hf HR (U1 & U2 & U3) Hpg Hft Eb Hk Hkb HM.
  destruct (csr_read_cut L O (wbin wm) P c (lc_b1 ch) (lc_b2 ch) (lc_b3 ch) pg fn [] b k HL HO Hs Hf HR U1 U2 U3 Hpg Eb Hk Hkb HM) as (HB & _ & c' & f & E & HC).
  cbn [app List.length skipn plus] in *. exists c'. split; [|exact HC].
  unfold csr_open. rewrite open_reading by (destruct HB as (? & ? & ->); discriminate). cbn [bind]. unfold csr_read.
  rewrite (guess_begins_ft ft _ PIGO_CSR_BIN Hft); [|discriminate|].
  - cbn [bind]. unfold csr_direct. rewrite E. reflexivity.
  - eapply (guess_csr _ pg fn [] _); [reflexivity|exact HB].
Qed.
Print Assumptions C47_cut_csr.

(** ** DiGraph: cut within the arrays of the second CSR *)
Theorem C47_cut_digraph : forall {W} L O (wm : option (wmode W)) P i o pg fn ft ch1 ch2 c1 c2 b k,
  is_ity L -> is_ity O ->
  csr_shape (wbin wm) i -> csr_full L O (wbin wm) P i -> room L (cs_n i) ->
  csr_shape (wbin wm) o -> csr_full L O (wbin wm) P o -> room L (cs_n o) ->
  teams ch1 -> teams ch2 -> 1 <= pg -> ft = AUTO \/ ft = PIGO_DIGRAPH_BIN ->
  digraph_layout L O (wbin wm) i o = map Some b ->
  let po := length (text "PIGO-DiGraph-v1") + length (csr_layout L O (wbin wm) i) + (13 + 3 * isize L + isize O) in
  po <= k -> k <= length b -> length b <= map_len (mkMem (firstn k b) pg) ->
  exists o', digraph_open L O wm pg fn (Some (firstn k b)) ft ch1 ch2 c1 c2 = Ok (i, o') /\ csr_cut L O (wbin wm) po k b o o'.
Proof.
  intros W L O wm P i o pg fn ft ch1 ch2 c1 c2 b k HL HO Si Fi Ri So Fo Ro (U1 & U2 & U3) (V1 & V2 & V3) Hpg Hft Eb po Hk Hkb HM.
  destruct (csr_read_ok L O (wbin wm) P HL HO i _ _ _ Si Fi Ri U1 U2 U3) as (bi & Ei & Ni & Hri).
  destruct (csr_read_ok L O (wbin wm) P HL HO o _ _ _ So Fo Ro V1 V2 V3) as (bo & Eo & _ & _).
  assert (EB : b = (digraph_magic ++ bi) ++ bo).
  { apply map_Some_inj. rewrite <- Eb. unfold digraph_layout. rewrite Ei, Eo, !map_app, <- app_assoc. reflexivity. }
  assert (Lpo : po = length (digraph_magic ++ bi) + (13 + 3 * isize L + isize O)) by (unfold po; rewrite Ei, map_length, app_length; reflexivity).
  destruct (csr_read_cut L O (wbin wm) P o (lc_b1 ch2) (lc_b2 ch2) (lc_b3 ch2) pg fn (digraph_magic ++ bi) bo k HL HO So Fo Ro V1 V2 V3 Hpg Eo) as (HB & ES & o' & f & E & HC);
    [lia|rewrite <- EB; assumption..|]. rewrite <- EB, <- Lpo in *.
  exists o'. split; [|exact HC]. set (s := firstn k b) in *. set (rest := skipn (length (digraph_magic ++ bi)) s) in *.
  pose proof (csr_begins L O (wbin wm) i bi Ei) as Hbi.
  unfold digraph_open. rewrite open_reading by (rewrite ES; discriminate). cbn [bind]. unfold digraph_read.
  rewrite (guess_begins_ft ft _ PIGO_DIGRAPH_BIN Hft); [|discriminate|].
  2:{ eapply (guess_digraph s pg fn [] s); [reflexivity|]. rewrite ES. destruct Hbi as (x & y & ->). eexists _, _. rewrite <- !app_assoc. reflexivity. }
  cbn [bind]. rewrite (rd_str_ok s pg fn [] digraph_magic (bi ++ rest)); [|rewrite ES, <- app_assoc; reflexivity|destruct bi; [congruence|discriminate]].
  cbn [bind app]. unfold csr_read at 1. rewrite (guess_begins_ft AUTO _ PIGO_CSR_BIN (or_introl eq_refl)); [|discriminate|].
  2:{ eapply (guess_csr s pg fn digraph_magic (bi ++ rest)); [rewrite ES, <- app_assoc; reflexivity|]. apply begins_app. exact Hbi. }
  cbn [bind]. unfold csr_direct. rewrite (Hri s pg fn digraph_magic rest) by (rewrite ES, <- app_assoc; reflexivity). cbn [bind].
  unfold csr_read. rewrite (guess_begins_ft AUTO _ PIGO_CSR_BIN (or_introl eq_refl)); [|discriminate|].
  2:{ eapply (guess_csr s pg fn (digraph_magic ++ bi) rest); [exact ES|exact HB]. }
  cbn [bind]. unfold csr_direct. rewrite E. reflexivity.
Qed.
Print Assumptions C47_cut_digraph.

(** ** Tensor *)
Theorem C47_cut_tensor : forall {W} L O (wm : option (wmode W)) P t pg fn ft ch b k,
  is_ity L -> is_ity O -> tensor_shape (wbin wm) t -> tensor_full L O (wbin wm) P t -> (te_order t * te_m t <= imax O)%Z ->
  teams ch -> 1 <= pg -> ft = AUTO \/ ft = PIGO_TENSOR_BIN ->
  tensor_layout L O (wbin wm) t = map Some b ->
  let pc := 15 + (match wbin wm with None => 0 | Some _ => 1 end) + 2 * isize O in
  pc <= k -> k <= length b -> length b <= map_len (mkMem (firstn k b) pg) ->
  exists t', tensor_open L O wm pg fn (Some (firstn k b)) ft ch = Ok t' /\
    te_order t' = te_order t /\ te_m t' = te_m t /\
    let m := Z.to_nat (te_m t) in
    let labels := Z.to_nat (te_order t) * m in
    let pw := pc + isize L * labels in
    te_c t' = array_at (cint L) labels pc (padded k b) /\
    te_w t' = match wbin wm with None => [] | Some cd => array_at cd m pw (padded k b) end /\
    keeps_cells (isize L) pc k (te_c t) (te_c t') /\ zero_cells (isize L) pc k (te_c t') /\
    match wbin wm with None => True | Some cd => keeps_cells (cd_size cd) pw k (te_w t) (te_w t') end.
Proof.
  intros W L O wm P t pg fn ft ch b k HL HO Hs Hf HR (U1 & U2 & U3) Hpg Hft Eb pc Hk Hkb HM.
  pose proof (wfit_sized _ P _ (proj2 (proj2 (proj2 Hf)))) as HW.
  destruct (tensor_read_ok L O (wbin wm) P HL HO t (lc_b1 ch) (lc_b2 ch) Hs Hf HR U1 U2) as (b0 & Eb0 & _ & Hrd).
  assert (b0 = b) by (apply map_Some_inj; congruence). subst b0.
  specialize (Hrd b pg fn [] [] ltac:(rewrite app_nil_r; reflexivity)). cbv beta in Hrd.
  destruct Hf as (Fo & Fm & _ & Fw). destruct Hs as (H0 & H1 & Hc & Hw).
  assert (Hsz : match wbin wm with None => True | Some c => cd_size c < 256 end) by (destruct (wbin wm); [apply Fw|exact I]).
  destruct (tensor_split L O (wbin wm) t b HL HO Hsz Eb) as (r & Es & Erest).
  set (h := tensor_head L O (wbin wm) (te_order t) (te_m t)) in *.
  assert (Lh : length h = pc).
  { unfold h, tensor_head, enc. rewrite !app_length, !enc_len. cbn [cint cd_size length tensor_magic]. change (isize u8) with 1.
    assert (EW : length (wbyte (wbin wm)) = match wbin wm with None => 0 | Some _ => 1 end) by (unfold wbyte, enc; destruct (wbin wm); [rewrite enc_len|]; reflexivity).
    rewrite EW. unfold pc. lia. }
  set (s := firstn k b). assert (Ess : s = h ++ firstn (k - length h) r) by (unfold s; rewrite Es; apply firstn_head; lia).
  set (m := Z.to_nat (te_m t)). assert (Em : te_m t = Z.of_nat m) by (unfold m; lia).
  set (od := Z.to_nat (te_order t)). assert (Eo : te_order t = Z.of_nat od) by (unfold od; lia).
  assert (Lr : length r = isize L * (od * m) + weight_size (wbin wm) m).
  { apply (f_equal (@List.length _)) in Erest. rewrite map_length, !app_length in Erest. unfold labels in Erest. rewrite !array_raw in Erest.
    rewrite (raw_length (cint L) _ _ (cint_f L HL)) in Erest. rewrite (wgts_length (wbin wm) HW _ m) in Erest by (rewrite <- Em; exact Hw).
    cbn [cint cd_size] in Erest. replace (length (te_c t)) with (od * m) in Erest by nia. lia. }
  assert (Lb : length b = length h + length r) by (rewrite Es; apply app_length).
  assert (EO : tensor_open L O wm pg fn (Some s) ft ch =
    ('(x, _) <- tensor_tail L O (wbin wm) (te_order t) (te_m t) (reading s pg fn h) (lc_b1 ch) (lc_b2 ch) ;; Ok x)).
  { unfold tensor_open. rewrite open_reading by (rewrite Ess; discriminate). cbn [bind]. unfold tensor_read.
    rewrite (guess_begins_ft ft _ PIGO_TENSOR_BIN Hft); [|discriminate|].
    - cbn [bind]. rewrite (tensor_head_ok L O (wbin wm) HL HO (te_order t) (te_m t) s pg fn [] (firstn (k - length h) r)) by assumption. reflexivity.
    - eapply (guess_tensor s pg fn [] s); [reflexivity|]. rewrite Ess. apply begins_app. unfold h, tensor_head. eexists _, _. reflexivity. }
  rewrite (tensor_head_ok L O (wbin wm) HL HO (te_order t) (te_m t) b pg fn [] r) in Hrd by assumption. cbn [app] in Hrd. fold h in Hrd.
  assert (HZ : match wbin wm with None => True | Some cd => 0 < cd_size cd end) by (destruct (wbin wm); [apply HW|exact I]).
  destruct (cut_room b k pg Hpg Hkb HM) as (HP & HP2). fold s in HP, HP2.
  unfold reading in *. rewrite Em, Eo in EO, Hrd. rewrite Lh in *. clearbody pc.
  rewrite (tensor_tail_cut L O (wbin wm) od m s (length b - k)) in EO by (auto; lia). cbn [bind] in EO.
  rewrite (tensor_tail_cut L O (wbin wm) od m b 0) in Hrd by (auto using whole_room; lia).
  rewrite app_zeros in Hrd. injection Hrd as Hrd _.
  change (s ++ repeat 0%Z (length b - k)) with (padded k b) in EO.
  rewrite EO. eexists. split; [reflexivity|]. cbn [te_c te_w te_order te_m].
  split; [congruence|]. split; [congruence|]. cbv zeta. do 2 (split; [reflexivity|]).
  rewrite <- Hrd. cbn [te_c te_w].
  split; [apply (keeps_array (cint L)); exact Hkb|]. split; [apply zero_array; [exact HL|lia]|].
  destruct (wbin wm); [apply keeps_array; exact Hkb|exact I].
Qed.
Print Assumptions C47_cut_tensor.

(** ** Concrete cases

    Pages of 32 bytes.  The 30 bytes of the COO of [C15_applies], cut in the
    middle of the targets; those of the CSR of [C16_C18_applies], cut within the
    offsets (20 of 30 bytes: the last offset and everything behind it are lost);
    a DiGraph of two such CSRs (75 bytes) cut within the weights; the tensor of
    [C17_applies] cut in the middle of a label. *)
Example C47_cut_applies :
  (let b := [80; 73; 71; 79; 45; 67; 79; 79; 45; 118; 49; 1; 2; 201; 8; 201; 3; 0; 2; 0; 200; 1; 7; 0; 251; 255; 44; 1; 0; 0]%Z in
   coo_layout u8 u16 (wbin ex_wm) ex_coo = map Some b /\ length b <= map_len (mkMem (firstn 22 b) 32) /\ 13 + 3 * isize u8 + isize u16 <= 22 /\
   coo_open u8 u16 ex_wm no_flags 32 ex_fn (Some (firstn 22 b)) AUTO ex_teams =
    Ok (mkCoo (map Some [2; 0; 200])%Z (map Some [1; 0; 0])%Z (map Some [0; 0; 0])%Z (Some 201)%Z (Some 201)%Z (Some 8)%Z 3)) /\
  (let b := [80; 73; 71; 79; 45; 67; 83; 82; 45; 118; 50; 1; 1; 3; 3; 3; 3; 0; 2; 2; 3; 2; 0; 1; 251; 255; 44; 1; 0; 0]%Z in
   csr_layout u8 u8 (wbin ex_wm) ex_csr_ = map Some b /\ length b <= map_len (mkMem (firstn 20 b) 32) /\ 13 + 3 * isize u8 + isize u8 <= 20 /\
   csr_open u8 u8 ex_wm 32 ex_fn (Some (firstn 20 b)) AUTO ex_teams =
    Ok (mkCsr (map Some [0; 2; 2; 0])%Z (map Some [0; 0; 0])%Z (map Some [0; 0; 0])%Z 3 3 (Some 3)%Z (Some 3)%Z)) /\
  (exists b, digraph_layout u8 u8 (wbin ex_wm) ex_csr_ ex_csr_ = map Some b /\ length b = 75 /\ length b <= map_len (mkMem (firstn 72 b) 32) /\
   length (text "PIGO-DiGraph-v1") + length (csr_layout u8 u8 (wbin ex_wm) ex_csr_) + (13 + 3 * isize u8 + isize u8) <= 72 /\
   digraph_open u8 u8 ex_wm 32 ex_fn (Some (firstn 72 b)) AUTO ex_teams ex_teams (lc_conv ex_teams) (lc_conv ex_teams) =
    Ok (ex_csr_, mkCsr (map Some [0; 2; 2; 3])%Z (map Some [2; 0; 1])%Z (map Some [-5; 44; 0])%Z 3 3 (Some 3)%Z (Some 3)%Z)) /\
  (let b := chars "PIGO-Tensor-2" ++ [2; 1; 2; 3; 2; 1; 0; 2; 0; 3; 0; 4; 0; 5; 0; 4; 1; 255; 255; 8; 0]%Z in
   tensor_layout u16 u8 (wbin ex_wm) ex_tensor = map Some b /\ length b <= map_len (mkMem (firstn 29 b) 64) /\ 15 + 1 + 2 * isize u8 <= 29 /\
   tensor_open u16 u8 ex_wm 64 ex_fn (Some (firstn 29 b)) AUTO ex_teams =
    Ok (mkTensor (map Some [1; 2; 3; 4; 5; 4])%Z (map Some [0; 0])%Z 3 2)).
Proof.
  split; [|split; [|split]]; cbv zeta.
  - split; [vm_compute; reflexivity|]. split; [vm_compute; lia|]. split; [vm_compute; lia|]. vm_compute. reflexivity.
  - split; [vm_compute; reflexivity|]. split; [vm_compute; lia|]. split; [vm_compute; lia|]. vm_compute. reflexivity.
  - exists (chars "PIGO-DiGraph-v1" ++ [80; 73; 71; 79; 45; 67; 83; 82; 45; 118; 50; 1; 1; 3; 3; 3; 3; 0; 2; 2; 3; 2; 0; 1; 251; 255; 44; 1; 0; 0]%Z ++
    [80; 73; 71; 79; 45; 67; 83; 82; 45; 118; 50; 1; 1; 3; 3; 3; 3; 0; 2; 2; 3; 2; 0; 1; 251; 255; 44; 1; 0; 0]%Z).
    split; [vm_compute; reflexivity|]. split; [vm_compute; reflexivity|]. split; [vm_compute; lia|]. split; [vm_compute; lia|]. vm_compute. reflexivity.
  - split; [vm_compute; reflexivity|]. split; [vm_compute; lia|]. split; [vm_compute; lia|]. vm_compute. reflexivity.
Qed.
