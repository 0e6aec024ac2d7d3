(** * Cut: reading arrays of which the end is missing (C47) *)

From Coq Require Import String.
From Verif Require Import Base Reader Sched SchedLemmas CooExec Coo Ascii Csr SpecCsr CsrLemmas Codec Bin SpecBin BinLemmas BinSave BinLoad Graph Load Tensor BinOpen BinBad SpecReweigh Reweigh SpecCut.
Notation length := List.length.
Open Scope list_scope.

Lemma par_read_cut (s : list byte) z pg fn fp n tm : 1 <= pg -> 1 <= fst tm -> length s + z <= paged pg (length s) -> fp + n <= length s + z ->
  par_read n n tm (mkRfile (mkMem s pg) fp fn) =
    Ok (map Some (firstn n (skipn fp (s ++ repeat 0%Z z))), mkRfile (mkMem s pg) (fp + n) fn).
Proof.
  intros Hp HT Hz Hn. destruct tm as [T sched]. cbn [fst] in HT.
  set (s' := s ++ repeat 0%Z z). set (b := firstn n (skipn fp s')).
  assert (Ls : length s' = length s + z) by (unfold s'; rewrite app_length, repeat_length; reflexivity).
  assert (Lb : length b = n) by (unfold b; rewrite firstn_length, skipn_length; lia).
  assert (Lp : length (firstn fp s') = fp) by (rewrite firstn_length; lia).
  assert (E' : s' = firstn fp s' ++ b ++ skipn n (skipn fp s')) by (unfold b; rewrite firstn_skipn, firstn_skipn; reflexivity).
  pose proof (par_read_ok s' pg fn (firstn fp s') b _ T sched n n E' HT (eq_sym Lb) (eq_sym Lb)) as H.
  unfold par_read, reading in *. cbn [rf_mem rf_fp rf_name fst snd] in *. rewrite app_length, Lp, Lb in H.
  rewrite (run_ext (rcopy (mkMem s pg) fp) (rcopy (mkMem s' pg) fp)).
  2:{ intros i a. unfold rcopy. rewrite (load_pad s pg z) by assumption. reflexivity. }
  destruct (run (rcopy (mkMem s' pg) fp) sched (shares n T) (fresh n)) as [a| | |]; cbn [bind] in *; try discriminate.
  injection H as ->. reflexivity.
Qed.

Lemma rd_array_cut {V} (c : codec V) k v (s : list byte) z pg fn fp tm : v = cd_size c * k -> 1 <= pg -> 1 <= fst tm ->
  length s + z <= paged pg (length s) -> fp + v <= length s + z ->
  rd_array c k v tm (mkRfile (mkMem s pg) fp fn) = Ok (array_at c k fp (s ++ repeat 0%Z z), mkRfile (mkMem s pg) (fp + v) fn).
Proof.
  intros -> Hp HT Hz Hn. unfold rd_array. rewrite (par_read_cut s z) by assumption. cbn [bind].
  rewrite unraw_values. rewrite values_prefix by lia. reflexivity.
Qed.

Lemma get_weights_cut {W} (wc : option (codec W)) k (s : list byte) z pg fn fp tm : match wc with None => True | Some c => 0 < cd_size c end -> 1 <= pg -> 1 <= fst tm ->
  length s + z <= paged pg (length s) -> fp + weight_size wc k <= length s + z ->
  get_weights wc (if is_some wc then fresh k else []) k tm (mkRfile (mkMem s pg) fp fn) =
    Ok (match wc with None => [] | Some c => array_at c k fp (s ++ repeat 0%Z z) end, mkRfile (mkMem s pg) (fp + weight_size wc k) fn).
Proof.
  intros Hc Hp HT Hz Hn. destruct wc as [c|]; cbn [get_weights is_some weight_size] in *.
  - rewrite fresh_length. destruct (Nat.ltb_spec 0 (cd_size c * k)).
    + apply rd_array_cut; auto.
    + assert (k = 0) by nia. subst k. rewrite Nat.mul_0_r, Nat.add_0_r. reflexivity.
  - rewrite Nat.add_0_r. reflexivity.
Qed.

(** ** The elements of the arrays *)
Lemma values_length {V} (c : codec V) k : forall bs, length (values c k bs) = k.
Proof. induction k as [|k IH]; intros bs; cbn; [reflexivity|rewrite IH; reflexivity]. Qed.

Lemma skipn_add {A} a : forall b (l : list A), skipn a (skipn b l) = skipn (b + a) l.
Proof.
  intros b. revert a. induction b as [|b IH]; intros a l; [reflexivity|]. destruct l as [|x l]; [rewrite !skipn_nil; reflexivity|]. cbn [skipn plus]. apply IH.
Qed.

Lemma values_nth {V} (c : codec V) k : forall bs i, i < k ->
  nth_error (values c k bs) i = Some (cd_dec c (firstn (cd_size c) (skipn (cd_size c * i) bs))).
Proof.
  induction k as [|k IH]; intros bs i Hi; [lia|]. cbn [values]. destruct i as [|i].
  - rewrite Nat.mul_0_r. reflexivity.
  - cbn [nth_error]. rewrite IH by lia. rewrite skipn_add. replace (cd_size c + cd_size c * i) with (cd_size c * S i) by lia. reflexivity.
Qed.

Lemma array_at_nth {V} (c : codec V) n p bs i : i < n ->
  nth_error (array_at c n p bs) i = Some (Some (cd_dec c (firstn (cd_size c) (skipn (p + cd_size c * i) bs)))).
Proof. intros Hi. unfold array_at. rewrite nth_error_map, values_nth, skipn_add by exact Hi. reflexivity. Qed.

Lemma array_at_length {V} (c : codec V) n p bs : length (array_at c n p bs) = n.
Proof. unfold array_at. rewrite map_length. apply values_length. Qed.

Lemma window_kept k (b : list byte) sz p : k <= length b -> p + sz <= k -> firstn sz (skipn p (padded k b)) = firstn sz (skipn p b).
Proof.
  intros Hk H. unfold padded. rewrite <- (firstn_skipn k b) at 3.
  rewrite !skipn_app, !firstn_app, !skipn_length, !firstn_length.
  replace (sz - (Nat.min k (length b) - p)) with 0 by lia. rewrite !firstn_O. reflexivity.
Qed.

Lemma keeps_array {V} (c : codec V) n p k b : k <= length b ->
  keeps_cells (cd_size c) p k (array_at c n p b) (array_at c n p (padded k b)).
Proof.
  intros Hk. split; [rewrite !array_at_length; reflexivity|]. intros i Hi.
  destruct (Nat.lt_ge_cases i n) as [H|H].
  - rewrite !array_at_nth by exact H. rewrite window_kept by lia. reflexivity.
  - rewrite !(proj2 (nth_error_None _ _)); [reflexivity|rewrite array_at_length; exact H..].
Qed.

Lemma unle_zeros n : unle (repeat 0%Z n) = 0%Z.
Proof. induction n as [|n IH]; [reflexivity|]. cbn [repeat]. unfold unle in *. cbn [fold_right]. rewrite IH. reflexivity. Qed.

Lemma zero_array t n p k b : is_ity t -> p + isize t * n <= length b -> zero_cells (isize t) p k (array_at (cint t) n p (padded k b)).
Proof.
  intros Ht Hn i Hi Hk. assert (Hs : 0 < isize t) by (destruct (cint_faithful t Ht) as (H & _); exact H). rewrite array_at_length in Hi. rewrite array_at_nth by exact Hi. cbn [cint cd_size cd_dec]. do 2 f_equal.
  assert (E : firstn (isize t) (skipn (p + isize t * i) (padded k b)) = repeat 0%Z (isize t)).
  { unfold padded. rewrite skipn_app, skipn_all2 by (rewrite firstn_length; lia). cbn [app].
    destruct (Nat.le_gt_cases (length b) k) as [H|H]; [nia|]. rewrite firstn_length, Nat.min_l by lia.
    replace (length b - k) with ((p + isize t * i - k) + (length b - (p + isize t * i))) by nia.
    rewrite repeat_app, skipn_app, skipn_all2 by (rewrite repeat_length; lia). rewrite repeat_length, Nat.sub_diag. cbn [app skipn].
    rewrite firstn_repeat. f_equal. nia. }
  rewrite E, unle_zeros. unfold wrap. pose proof Ht as H. unfold is_ity in H. cbn [In] in H.
  repeat (destruct H as [<-|H]; [vm_compute; reflexivity|]). destruct H.
Qed.

(** ** The rest of the files *)
Lemma coo_tail_cut {W} L (wc : option (codec W)) n nr nc m (s : list byte) z pg fn fp tx ty tw :
  match wc with None => True | Some c => 0 < cd_size c end -> 1 <= pg -> 1 <= fst tx -> 1 <= fst ty -> 1 <= fst tw ->
  length s + z <= paged pg (length s) -> fp + 2 * (isize L * m) + weight_size wc m <= length s + z ->
  let p := s ++ repeat 0%Z z in
  coo_tail L wc n nr nc (Z.of_nat m) (mkRfile (mkMem s pg) fp fn) tx ty tw =
    Ok (mkCoo (array_at (cint L) m fp p) (array_at (cint L) m (fp + isize L * m) p)
          (match wc with None => [] | Some c => array_at c m (fp + 2 * (isize L * m)) p end) (Some n) (Some nr) (Some nc) (Z.of_nat m),
        mkRfile (mkMem s pg) (fp + 2 * (isize L * m) + weight_size wc m) fn).
Proof.
  intros Hc Hp T1 T2 T3 Hz Hn p. unfold coo_tail, coo_alloc. destruct (Z.ltb_spec (Z.of_nat m) 0); [lia|]. cbn [bind cx cy cw]. rewrite Nat2Z.id, !fresh_length.
  rewrite (rd_array_cut (cint L) m _ s z) by (cbn [cint cd_size]; auto; lia). cbn [bind].
  rewrite (rd_array_cut (cint L) m _ s z) by (cbn [cint cd_size]; auto; lia). cbn [bind].
  replace (fp + isize L * m + isize L * m) with (fp + 2 * (isize L * m)) by lia.
  rewrite (get_weights_cut wc m s z) by (auto; lia). cbn [bind]. reflexivity.
Qed.

Lemma csr_tail_cut {W} L O (wc : option (codec W)) n nr nc m (s : list byte) z pg fn fp tx ty tw :
  is_ity L -> (0 <= n)%Z -> room L n ->
  match wc with None => True | Some c => 0 < cd_size c end -> 1 <= pg -> 1 <= fst tx -> 1 <= fst ty -> 1 <= fst tw ->
  let n1 := Z.to_nat (n + 1) in
  length s + z <= paged pg (length s) -> fp + isize O * n1 + isize L * m + weight_size wc m <= length s + z ->
  let p := s ++ repeat 0%Z z in
  csr_tail L O O wc n nr nc (Z.of_nat m) (mkRfile (mkMem s pg) fp fn) tx ty tw =
    Ok (mkCsr (array_at (cint O) n1 fp p) (array_at (cint L) m (fp + isize O * n1) p)
          (match wc with None => [] | Some c => array_at c m (fp + isize O * n1 + isize L * m) p end) n (Z.of_nat m) (Some nr) (Some nc),
        mkRfile (mkMem s pg) (fp + isize O * n1 + isize L * m + weight_size wc m) fn).
Proof.
  intros HL H0 HR Hc Hp T1 T2 T3 n1 Hz Hn p. unfold csr_tail, csr_alloc, alloc. rewrite (plus1_ok L _ HL H0 HR).
  destruct (Z.ltb_spec (Z.of_nat m) 0); [lia|]. cbn [bind]. rewrite Nat2Z.id.
  assert (EA : (if is_some wc then Ok (fresh m) else Ok []) = Ok (if is_some wc then @fresh W m else [])) by (destruct wc; reflexivity).
  rewrite EA. cbn [bind]. destruct (Z.ltb_spec (n + 1) 0); [lia|]. cbn [bind]. fold n1. rewrite !fresh_length.
  rewrite (rd_array_cut (cint O) n1 _ s z) by (cbn [cint cd_size]; auto; lia). cbn [bind].
  rewrite (rd_array_cut (cint L) m _ s z) by (cbn [cint cd_size]; auto; lia). cbn [bind].
  rewrite (get_weights_cut wc m s z) by (auto; lia). cbn [bind]. reflexivity.
Qed.

Lemma tensor_tail_cut {W} L O (wc : option (codec W)) od m (s : list byte) z pg fn fp tx ty :
  is_ity O -> (Z.of_nat od * Z.of_nat m <= imax O)%Z ->
  match wc with None => True | Some c => 0 < cd_size c end -> 1 <= pg -> 1 <= fst tx -> 1 <= fst ty ->
  length s + z <= paged pg (length s) -> fp + isize L * (od * m) + weight_size wc m <= length s + z ->
  let p := s ++ repeat 0%Z z in
  tensor_tail L O wc (Z.of_nat od) (Z.of_nat m) (mkRfile (mkMem s pg) fp fn) tx ty =
    Ok (mkTensor (array_at (cint L) (od * m) fp p)
          (match wc with None => [] | Some c => array_at c m (fp + isize L * (od * m)) p end) (Z.of_nat od) (Z.of_nat m),
        mkRfile (mkMem s pg) (fp + isize L * (od * m) + weight_size wc m) fn).
Proof.
  intros HO HR Hc Hp T1 T2 Hz Hn p. unfold tensor_tail, tensor_alloc, alloc. rewrite omul_ok by (assumption || lia). cbn [bind].
  destruct (Z.ltb_spec (Z.of_nat od * Z.of_nat m) 0); [nia|]. destruct (Z.ltb_spec (Z.of_nat m) 0); [lia|]. cbn [bind]. rewrite !Nat2Z.id.
  assert (EA : (if is_some wc then Ok (fresh m) else Ok []) = Ok (if is_some wc then @fresh W m else [])) by (destruct wc; reflexivity).
  rewrite EA. cbn [bind]. rewrite !fresh_length. rewrite <- Nat2Z.inj_mul, Nat2Z.id.
  rewrite (rd_array_cut (cint L) (od * m) _ s z) by (cbn [cint cd_size]; auto; lia). cbn [bind].
  rewrite <- Nat.mul_assoc. rewrite (get_weights_cut wc m s z) by (auto; lia). cbn [bind]. reflexivity.
Qed.
