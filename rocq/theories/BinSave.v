(** * BinSave: what the binary [save] functions write *)

From Verif Require Import Base Reader Sched SchedLemmas Coo Ascii Csr Codec Bin SpecBin BinLemmas.

Lemma put_ex bs a r : length bs <= length r ->
  exists r', length r = length bs + length r' /\ put_bytes bs (half a r) = Ok (half (a ++ bs) r').
Proof. intros H. exists (skipn (length bs) r). split; [rewrite skipn_length; lia|apply put_ok; exact H]. Qed.

Lemma par_ex src v tm a r : 1 <= fst tm -> v = length src -> v <= length r ->
  exists r', length r = length src + length r' /\ par_write src v tm (half a r) = Ok (half (a ++ src) r').
Proof.
  intros HT Hv H. destruct tm as [T s]. exists (skipn v r). split; [rewrite skipn_length; lia|apply par_write_ok; assumption].
Qed.

Definition wsized {W} (wc : option (codec W)) : Prop :=
  match wc with None => True | Some c => faithful (fun _ => False) c end.

Lemma array_raw {V} (c : codec V) l : array c l = raw c l.
Proof. unfold array, raw. rewrite flat_map_concat_map. reflexivity. Qed.
Lemma scalar_cell t o : scalar t o = cell_bytes (cint t) o.
Proof. destruct o; reflexivity. Qed.
Lemma sizeof_cell t : is_ity t -> sizeof t = cell_bytes (cint u8) (Some (size_byte t)).
Proof. intros H. unfold is_ity in H. cbn [In] in H. intuition (subst; reflexivity). Qed.

Lemma faithful_weak {V} (P Q : V -> Prop) c : (forall v, Q v -> P v) -> faithful P c -> faithful Q c.
Proof. intros H (a & b & d). split; [exact a|split; [exact b|]]. intros v Hv. apply d, H, Hv. Qed.
Lemma cint_f t : is_ity t -> faithful (fun z => inrange t z = true) (cint t).
Proof. apply cint_faithful. Qed.

Lemma weights_ex {W} (wc : option (codec W)) l m_ tm a r :
  wsized wc -> wlen wc l (Z.of_nat m_) -> 1 <= fst tm -> weight_size wc m_ <= length r ->
  exists r', length r = weight_size wc m_ + length r' /\ put_weights wc l m_ tm (half a r) = Ok (half (a ++ wgts wc l) r').
Proof.
  intros Hs Hl HT Hr. destruct wc as [c|]; cbn [wsized wlen weight_size put_weights wgts] in *.
  - rewrite array_raw. pose proof (raw_length c _ l Hs) as HL. assert (El : length l = m_) by lia. rewrite El in HL.
    destruct (Nat.ltb_spec 0 (cd_size c * m_)).
    + destruct (par_ex (raw c l) (cd_size c * m_) tm a r) as (r' & H1 & H2); [exact HT|lia|lia|].
      exists r'. split; [lia|exact H2].
    + exists r. split; [lia|]. assert (raw c l = []) as -> by (apply length_zero_iff_nil; lia). rewrite app_nil_r. reflexivity.
  - exists r. split; [lia|]. rewrite app_nil_r. reflexivity.
Qed.

Ltac stp H := destruct H as (?r & ?Hr & ?E); [..|rewrite E; cbn [bind]; clear E].

Lemma half_done l r : length r = 0 -> half l r = mkWfile (ones l) (length l).
Proof. intros H. apply length_zero_iff_nil in H. subst. unfold half. cbn [zeros map]. rewrite app_nil_r. reflexivity. Qed.

Section Save.
  Context {W : Type}.
  Variables (L O : ity) (wc : option (codec W)).
  Hypothesis HL : is_ity L.
  Hypothesis HO : is_ity O.
  Hypothesis HW : wsized wc.

  Let SL z : length (cell_bytes (cint L) z) = isize L := cell_bytes_length (cint L) _ z (cint_f L HL).
  Let SO z : length (cell_bytes (cint O) z) = isize O := cell_bytes_length (cint O) _ z (cint_f O HO).
  Let S8 z : length (cell_bytes (cint u8) (Some z)) = 1.
  Proof. reflexivity. Qed.
  Let RL l : length (raw (cint L) l) = isize L * length l := raw_length (cint L) _ l (cint_f L HL).
  Let RO l : length (raw (cint O) l) = isize O * length l := raw_length (cint O) _ l (cint_f O HO).

  Lemma coo_save_ok (c : coo W) tx ty tw : coo_shape wc c ->
    1 <= fst tx -> 1 <= fst ty -> 1 <= fst tw ->
    exists w, coo_save L O wc c tx ty tw = Ok w /\ wf_data w = ones (coo_layout L O wc c) /\
      length (coo_layout L O wc c) = coo_save_size L O wc c.
  Proof.
    intros (Hx & Hy & Hw) Tx Ty Tw. unfold coo_save.
    set (m_ := Z.to_nat (co_m c)). assert (Em : co_m c = Z.of_nat m_) by (unfold m_; lia).
    assert (Lx : length (co_x c) = m_) by lia. assert (Ly : length (co_y c) = m_) by lia. rewrite Em in Hw.
    assert (ES : coo_save_size L O wc c = length coo_magic + 1 + 1 + isize L + isize L + isize L + isize O + isize L * m_ + isize L * m_ + weight_size wc m_).
    { unfold coo_save_size. fold m_. lia. }
    assert (EM : length (map (@Some byte) coo_magic) = length coo_magic) by apply map_length.
    rewrite ES. destruct (open_write_ok (length coo_magic + 1 + 1 + isize L + isize L + isize L + isize O + isize L * m_ + isize L * m_ + weight_size wc m_)) as (r & Hr & E); [cbn [length coo_magic]; lia|].
    rewrite E. cbn [bind]. clear E.
    stp (put_ex (map Some coo_magic) [] r); [lia|].
    match goal with |- context [put_bytes ?b (half ?a ?r)] => stp (put_ex b a r); [rewrite S8; lia|] end; rewrite S8 in *.
    match goal with |- context [put_bytes ?b (half ?a ?r)] => stp (put_ex b a r); [rewrite S8; lia|] end; rewrite S8 in *.
    match goal with |- context [put_bytes ?b (half ?a ?r)] => stp (put_ex b a r); [rewrite SL; lia|] end; rewrite SL in *.
    match goal with |- context [put_bytes ?b (half ?a ?r)] => stp (put_ex b a r); [rewrite SL; lia|] end; rewrite SL in *.
    match goal with |- context [put_bytes ?b (half ?a ?r)] => stp (put_ex b a r); [rewrite SL; lia|] end; rewrite SL in *.
    match goal with |- context [put_bytes ?b (half ?a ?r)] => stp (put_ex b a r); [rewrite SO; lia|] end; rewrite SO in *.
    match goal with |- context [par_write ?b ?v ?t (half ?a ?r)] => stp (par_ex b v t a r); [assumption|rewrite RL; lia|lia|] end; rewrite RL in *.
    match goal with |- context [par_write ?b ?v ?t (half ?a ?r)] => stp (par_ex b v t a r); [assumption|rewrite RL; lia|lia|] end; rewrite RL in *.
    match goal with |- context [put_weights ?c ?l ?m ?t (half ?a ?r)] => destruct (weights_ex c l m t a r) as (r9 & Hr9 & E9); [assumption|assumption|assumption|lia|] end.
    rewrite E9. rewrite half_done by lia. eexists. split; [reflexivity|]. cbn [wf_data].
    match goal with |- ones ?l = _ /\ _ => assert (EL : coo_layout L O wc c = l) end.
    { unfold coo_layout, known. rewrite !scalar_cell, !sizeof_cell by assumption. unfold labels. rewrite !array_raw.
      rewrite <- !app_assoc. reflexivity. }
    split; [rewrite EL; reflexivity|].
    rewrite EL, !app_length, !RL, !SL, !SO, !S8, EM, Lx, Ly. cbn [length].
    enough (length (wgts wc (co_w c)) = weight_size wc m_) by lia.
    destruct wc as [cd|]; cbn [wgts weight_size wlen wsized] in *; [|reflexivity].
    rewrite array_raw, (raw_length cd _ _ HW). f_equal. lia.
  Qed.

  Lemma wgts_length l m_ : wlen wc l (Z.of_nat m_) -> length (wgts wc l) = weight_size wc m_.
  Proof.
    intros H. destruct wc as [cd|]; cbn [wgts weight_size wlen wsized] in *; [|reflexivity].
    rewrite array_raw, (raw_length cd _ _ HW). f_equal. lia.
  Qed.

  (** Saving a CSR into a file with enough room left. *)
  Lemma csr_save_to_ok (c : csr W) t_o te tw a r n1 : csr_shape wc c -> plus1 L (cs_n c) = Ok n1 -> n1 = (cs_n c + 1)%Z ->
    1 <= fst t_o -> 1 <= fst te -> 1 <= fst tw ->
    exists sz, csr_save_size L O wc c = Ok sz /\ length (csr_layout L O wc c) = sz /\
    (sz <= length r -> exists r', length r = sz + length r' /\
      csr_save_to L O wc c t_o te tw (half a r) = Ok (half (a ++ csr_layout L O wc c) r')).
  Proof.
    intros (Hn & Ho & He & Hw) E1 -> To Te Tw. unfold csr_save_to, csr_save_size. rewrite E1. cbn [bind].
    set (m_ := Z.to_nat (cs_m c)). assert (Em : cs_m c = Z.of_nat m_) by (unfold m_; lia).
    set (k := Z.to_nat (cs_n c + 1)).
    assert (Le : length (cs_end c) = m_) by lia. assert (Lo : length (cs_off c) = k) by (unfold k; lia). rewrite Em in Hw.
    assert (EM : length (map (@Some byte) csr_magic) = length csr_magic) by apply map_length.
    assert (EL : csr_layout L O wc c = ((((((((([] ++ map Some csr_magic) ++ cell_bytes (cint u8) (Some (size_byte L))) ++
       cell_bytes (cint u8) (Some (size_byte O))) ++ cell_bytes (cint L) (Some (cs_n c))) ++ cell_bytes (cint O) (Some (cs_m c))) ++
       cell_bytes (cint L) (cs_nrows c)) ++ cell_bytes (cint L) (cs_ncols c)) ++ raw (cint O) (cs_off c)) ++ raw (cint L) (cs_end c)) ++ wgts wc (cs_w c)).
    { unfold csr_layout, known. rewrite !scalar_cell, !sizeof_cell by assumption. unfold labels. rewrite !array_raw.
      rewrite <- !app_assoc. reflexivity. }
    eexists. split; [reflexivity|]. split.
    { rewrite EL, !app_length, !RL, !RO, !SL, !SO, !S8, EM, Lo, Le, (wgts_length _ m_ Hw). cbn [length]. lia. }
    intros Hr.
    stp (put_ex (map Some csr_magic) a r); [lia|].
    match goal with |- context [put_bytes ?b (half ?a ?r)] => stp (put_ex b a r); [rewrite S8; lia|] end; rewrite S8 in *.
    match goal with |- context [put_bytes ?b (half ?a ?r)] => stp (put_ex b a r); [rewrite S8; lia|] end; rewrite S8 in *.
    match goal with |- context [put_bytes ?b (half ?a ?r)] => stp (put_ex b a r); [rewrite SL; lia|] end; rewrite SL in *.
    match goal with |- context [put_bytes ?b (half ?a ?r)] => stp (put_ex b a r); [rewrite SO; lia|] end; rewrite SO in *.
    match goal with |- context [put_bytes ?b (half ?a ?r)] => stp (put_ex b a r); [rewrite SL; lia|] end; rewrite SL in *.
    match goal with |- context [put_bytes ?b (half ?a ?r)] => stp (put_ex b a r); [rewrite SL; lia|] end; rewrite SL in *.
    match goal with |- context [par_write ?b ?v ?t (half ?a ?r)] => stp (par_ex b v t a r); [assumption|rewrite RO; unfold k in Lo; lia|lia|] end; rewrite RO in *.
    match goal with |- context [par_write ?b ?v ?t (half ?a ?r)] => stp (par_ex b v t a r); [assumption|rewrite RL; lia|lia|] end; rewrite RL in *.
    match goal with |- context [put_weights ?c ?l ?m ?t (half ?a ?r)] => destruct (weights_ex c l m t a r) as (r9 & Hr9 & E9); [assumption|assumption|assumption|lia|] end.
    exists r9. split; [lia|]. fold m_. rewrite E9. f_equal. f_equal. rewrite EL. rewrite <- !app_assoc. reflexivity.
  Qed.

  Lemma csr_save_ok (c : csr W) t_o te tw n1 : csr_shape wc c -> plus1 L (cs_n c) = Ok n1 -> n1 = (cs_n c + 1)%Z ->
    1 <= fst t_o -> 1 <= fst te -> 1 <= fst tw ->
    exists w, csr_save L O wc c t_o te tw = Ok w /\ wf_data w = ones (csr_layout L O wc c) /\
      csr_save_size L O wc c = Ok (length (csr_layout L O wc c)).
  Proof.
    intros Hs E1 E1' To Te Tw. unfold csr_save.
    destruct (csr_save_to_ok c t_o te tw [] [] n1 Hs E1 E1' To Te Tw) as (sz & Esz & El & _).
    rewrite Esz. cbn [bind]. destruct (open_write_ok sz) as (r & Hr & E).
    { rewrite <- El. unfold csr_layout. rewrite app_length. cbn [length text map Ascii.nat_of_ascii]. cbn. lia. }
    rewrite E. cbn [bind].
    destruct (csr_save_to_ok c t_o te tw [] r n1 Hs E1 E1' To Te Tw) as (sz' & Esz' & _ & H). rewrite Esz in Esz'. injection Esz' as <-.
    destruct H as (r' & Hr' & E'); [lia|]. rewrite E'. rewrite half_done by lia. cbn [app]. eexists. split; [reflexivity|]. rewrite El. split; reflexivity.
  Qed.

  Lemma digraph_save_ok (gi go : csr W) t1 t2 t3 t4 t5 t6 ni no : csr_shape wc gi -> csr_shape wc go ->
    plus1 L (cs_n gi) = Ok ni -> ni = (cs_n gi + 1)%Z -> plus1 L (cs_n go) = Ok no -> no = (cs_n go + 1)%Z ->
    1 <= fst t1 -> 1 <= fst t2 -> 1 <= fst t3 -> 1 <= fst t4 -> 1 <= fst t5 -> 1 <= fst t6 ->
    exists w, digraph_save L O wc (gi, go) t1 t2 t3 t4 t5 t6 = Ok w /\ wf_data w = ones (digraph_layout L O wc gi go).
  Proof.
    intros Hi Ho Ei Ei' Eo Eo' T1 T2 T3 T4 T5 T6. unfold digraph_save.
    destruct (csr_save_to_ok gi t1 t2 t3 [] [] ni Hi Ei Ei' T1 T2 T3) as (si & Esi & Eli & _).
    destruct (csr_save_to_ok go t4 t5 t6 [] [] no Ho Eo Eo' T4 T5 T6) as (so & Eso & Elo & _).
    rewrite Esi, Eso. cbn [bind]. destruct (open_write_ok (length digraph_magic + si + so)) as (r & Hr & E); [cbn; lia|].
    rewrite E. cbn [bind]. clear E.
    stp (put_ex (map Some digraph_magic) [] r); [rewrite map_length; lia|]. rewrite map_length in *.
    destruct (csr_save_to_ok gi t1 t2 t3 ([] ++ map Some digraph_magic) r0 ni Hi Ei Ei' T1 T2 T3) as (si' & Esi' & _ & H).
    rewrite Esi in Esi'. injection Esi' as <-. destruct H as (r' & Hr' & E'); [lia|]. rewrite E'. cbn [bind].
    destruct (csr_save_to_ok go t4 t5 t6 (([] ++ map Some digraph_magic) ++ csr_layout L O wc gi) r' no Ho Eo Eo' T4 T5 T6) as (so' & Eso' & _ & H).
    rewrite Eso in Eso'. injection Eso' as <-. destruct H as (r'' & Hr'' & E''); [lia|]. rewrite E''.
    rewrite half_done by lia. eexists. split; [reflexivity|]. cbn [wf_data app]. unfold digraph_layout. rewrite <- !app_assoc. reflexivity.
  Qed.

  Lemma tensor_save_ok (t : tensor W) tc tw : tensor_shape wc t -> 1 <= fst tc -> 1 <= fst tw ->
    (match wc with None => True | Some c => cd_size c < 256 end) ->
    exists w, tensor_save L O wc t tc tw = Ok w /\ wf_data w = ones (tensor_layout L O wc t) /\
      length (tensor_layout L O wc t) = tensor_save_size L O wc t.
  Proof.
    intros (Hor & Hm & Hc & Hw) Tc Tw Hsz. unfold tensor_save.
    set (m_ := Z.to_nat (te_m t)). assert (Em : te_m t = Z.of_nat m_) by (unfold m_; lia).
    set (k := Z.to_nat (te_order t)) in *. assert (Ek : te_order t = Z.of_nat k) by (unfold k; lia).
    assert (Lc : length (te_c t) = k * m_) by nia. rewrite Em in Hw.
    set (wb := match wc with None => [] | Some c => cell_bytes (cint u8) (Some (Z.of_nat (cd_size c))) end).
    assert (Lwb : length wb = if is_some wc then 1 else 0) by (unfold wb; destruct wc; reflexivity).
    assert (ES : tensor_save_size L O wc t = length tensor_magic + 1 + 1 + length wb + isize O + isize O + isize L * k * m_ + weight_size wc m_).
    { unfold tensor_save_size. rewrite Lwb. fold m_ k. lia. }
    assert (EM : length (map (@Some byte) tensor_magic) = length tensor_magic) by apply map_length.
    rewrite ES. destruct (open_write_ok (length tensor_magic + 1 + 1 + length wb + isize O + isize O + isize L * k * m_ + weight_size wc m_)) as (r & Hr & E); [cbn [length tensor_magic]; lia|].
    rewrite E. cbn [bind]. clear E.
    stp (put_ex (map Some tensor_magic) [] r); [lia|].
    match goal with |- context [put_bytes ?b (half ?a ?r)] => stp (put_ex b a r); [rewrite S8; lia|] end; rewrite S8 in *.
    match goal with |- context [put_bytes ?b (half ?a ?r)] => stp (put_ex b a r); [rewrite S8; lia|] end; rewrite S8 in *.
    assert (EW : forall w0 : wfile, match wc with None => Ok w0 | Some c => put_bytes (cell_bytes (cint u8) (Some (Z.of_nat (cd_size c)))) w0 end = put_bytes wb w0).
    { intros w0. unfold wb. destruct wc; reflexivity. }
    rewrite EW.
    match goal with |- context [put_bytes ?b (half ?a ?r)] => stp (put_ex b a r); [lia|] end.
    match goal with |- context [put_bytes ?b (half ?a ?r)] => stp (put_ex b a r); [rewrite SO; lia|] end; rewrite SO in *.
    match goal with |- context [put_bytes ?b (half ?a ?r)] => stp (put_ex b a r); [rewrite SO; lia|] end; rewrite SO in *.
    match goal with |- context [par_write ?b ?v ?t (half ?a ?r)] => stp (par_ex b v t a r); [assumption|rewrite RL; nia|lia|] end; rewrite RL in *.
    match goal with |- context [put_weights ?c ?l ?m ?t (half ?a ?r)] => destruct (weights_ex c l m t a r) as (r9 & Hr9 & E9); [assumption|assumption|assumption|nia|] end.
    rewrite E9. rewrite half_done by nia. eexists. split; [reflexivity|]. cbn [wf_data].
    match goal with |- ones ?l = _ /\ _ => assert (EL : tensor_layout L O wc t = l) end.
    { unfold tensor_layout, known. rewrite !scalar_cell, !sizeof_cell by assumption. unfold labels. rewrite !array_raw.
      assert (Ewb : match wc with None => [] | Some c => [Some (Z.of_nat (cd_size c))] end = wb).
      { unfold wb. destruct wc as [cd|]; [|reflexivity]. unfold cell_bytes. cbn [cint cd_enc isize].
        change (isize u8) with 1. cbn [le map]. rewrite Z.mod_small by lia. reflexivity. }
      rewrite Ewb. rewrite <- !app_assoc. reflexivity. }
    split; [rewrite EL; reflexivity|].
    rewrite EL, !app_length, !RL, !SO, !S8, EM, Lc, (wgts_length _ m_ Hw). cbn [length]. lia.
  Qed.
End Save.
