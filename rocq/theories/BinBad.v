(** * BinBad: loading damaged or unsuitable binary files *)

From Coq Require Import String.
From Verif Require Import Base Reader Sched SchedLemmas Coo Ascii Csr SpecCsr CsrLemmas Codec Bin SpecBin BinLemmas BinSave BinLoad Graph Load Tensor BinOpen.
Open Scope list_scope.

(** ** The arrays after the header *)
Lemma exec_all_cases {S I} (exec : I -> S -> res S) (inv : S -> Prop) l :
  (forall j s, inv s -> exec j s = UB \/ exists s', exec j s = Ok s' /\ inv s') ->
  forall s, inv s -> exec_all exec l s = UB \/ exists s', exec_all exec l s = Ok s' /\ inv s'.
Proof.
  intros H. induction l as [|i l IH]; intros s Hs; cbn [exec_all]; [right; eauto|].
  destruct (H i s Hs) as [->|(s' & -> & Hs')]; [left; reflexivity|]. cbn [bind]. apply IH. exact Hs'.
Qed.

Lemma flen_map_len m : 1 <= page m -> flen m <= map_len m.
Proof.
  intros H. unfold map_len. pose proof (Nat.div_mod (flen m + (page m - 1)) (page m) ltac:(lia)) as E.
  pose proof (Nat.mod_upper_bound (flen m + (page m - 1)) (page m) ltac:(lia)). rewrite Nat.mul_comm. lia.
Qed.

Lemma load_out m p : 1 <= page m -> map_len m <= p -> load m p = UB.
Proof.
  intros Hp H. unfold load. pose proof (flen_map_len m Hp) as HF. unfold flen in HF.
  destruct (nth_error (bytes m) p) eqn:E; [|destruct (Nat.ltb_spec p (map_len m)); [lia|reflexivity]].
  exfalso. assert (p < length (bytes m)) by (apply nth_error_Some; congruence). lia.
Qed.

Lemma par_read_cases cap v tm f : 1 <= fst tm -> 1 <= page (rf_mem f) -> rf_fp f <= map_len (rf_mem f) ->
  par_read cap v tm f = UB \/
  exists a, par_read cap v tm f = Ok (a, mkRfile (rf_mem f) (rf_fp f + v) (rf_name f)) /\ rf_fp f + v <= map_len (rf_mem f).
Proof.
  intros HT Hp Hf. destruct tm as [T sched]. cbn [fst] in HT.
  destruct (Nat.le_gt_cases (rf_fp f + v) (map_len (rf_mem f))) as [Hin|Hout].
  - unfold par_read. destruct (SchedMore.run_merge (rcopy (rf_mem f) (rf_fp f)) (snd (T, sched)) (shares v (fst (T, sched)))) as (q & _ & Hq). rewrite Hq.
    destruct (exec_all_cases (rcopy (rf_mem f) (rf_fp f)) (fun _ => True) q) with (s := @fresh byte cap) as [->|(s' & -> & _)]; [|exact I|left; reflexivity|].
    + intros j s _. unfold rcopy. destruct (load_cases (rf_mem f) (rf_fp f + j)) as [->|(b & ->)]; cbn [bind]; [left; reflexivity|].
      unfold aset. destruct (j <? length s); [right; eauto|left; reflexivity].
    + right. cbn [bind]. eexists. split; [reflexivity|exact Hin].
  - left. apply (par_read_past cap v T sched f (map_len (rf_mem f) - rf_fp f)); [exact HT|lia|].
    apply load_out; [exact Hp|lia].
Qed.

Lemma rd_array_cases {V} (c : codec V) k v tm f : 1 <= fst tm -> 1 <= page (rf_mem f) -> rf_fp f <= map_len (rf_mem f) ->
  rd_array c k v tm f = UB \/
  exists a, rd_array c k v tm f = Ok (a, mkRfile (rf_mem f) (rf_fp f + v) (rf_name f)) /\ rf_fp f + v <= map_len (rf_mem f).
Proof.
  intros HT Hp Hf. unfold rd_array. destruct (par_read_cases (cd_size c * k) v tm f HT Hp Hf) as [->|(a & -> & H)]; [left; reflexivity|].
  right. cbn [bind]. eauto.
Qed.

Lemma get_weights_cases {W} (wc : option (codec W)) l m_ tm f : 1 <= fst tm -> 1 <= page (rf_mem f) -> rf_fp f <= map_len (rf_mem f) ->
  get_weights wc l m_ tm f = UB \/
  exists a, get_weights wc l m_ tm f = Ok (a, mkRfile (rf_mem f) (rf_fp f + weight_size wc m_) (rf_name f)) /\
    rf_fp f + weight_size wc m_ <= map_len (rf_mem f).
Proof.
  intros HT Hp Hf. assert (E0 : f = mkRfile (rf_mem f) (rf_fp f + 0) (rf_name f)) by (destruct f; cbn; rewrite Nat.add_0_r; reflexivity).
  destruct wc as [c|]; cbn [get_weights weight_size].
  - destruct (Nat.ltb_spec 0 (cd_size c * m_)).
    + apply rd_array_cases; assumption.
    + right. exists l. replace (cd_size c * m_) with 0 by lia. rewrite <- E0. split; [reflexivity|lia].
  - right. exists l. rewrite <- E0. split; [reflexivity|lia].
Qed.

(** ** What remains to be done once the header has been read *)
Definition coo_tail {W} L (wc : option (codec W)) (n nr nc m_ : Z) (f : rfile) (tx ty tw : team) : res (coo W * rfile) :=
  st <- coo_alloc (W:=W) (is_some wc) m_ ;;
  let k := Z.to_nat m_ in
  '(x, f) <- rd_array (cint L) (length (cx st)) (isize L * k) tx f ;;
  '(y, f) <- rd_array (cint L) (length (cy st)) (isize L * k) ty f ;;
  '(w, f) <- get_weights wc (cw st) k tw f ;;
  Ok (mkCoo x y w (Some n) (Some nr) (Some nc) m_, f).
Definition csr_tail {W} L O OS (wc : option (codec W)) (n nr nc m_ : Z) (f : rfile) (t_o te tw : team) : res (csr W * rfile) :=
  '(e, w, o) <- csr_alloc (W:=W) L (is_some wc) n m_ ;;
  n1 <- plus1 L n ;;
  let k := Z.to_nat m_ in
  '(o, f) <- rd_array (cint OS) (length o) (isize O * Z.to_nat n1) t_o f ;;
  '(e, f) <- rd_array (cint L) (length e) (isize L * k) te f ;;
  '(w, f) <- get_weights wc w k tw f ;;
  Ok (mkCsr o e w n m_ (Some nr) (Some nc), f).
Definition tensor_tail {W} L O (wc : option (codec W)) (od m_ : Z) (f : rfile) (tc tw : team) : res (tensor W * rfile) :=
  '(c, w) <- tensor_alloc (W:=W) O (is_some wc) od m_ ;;
  let k := Z.to_nat m_ in
  '(c, f) <- rd_array (cint L) (length c) (isize L * Z.to_nat od * k) tc f ;;
  '(w, f) <- get_weights wc w k tw f ;;
  Ok (mkTensor c w od m_, f).

Definition enc (t : ity) (z : Z) : list byte := cd_enc (cint t) z.
Definition coo_head L O (n nr nc m_ : Z) : list byte :=
  coo_magic ++ enc u8 (size_byte L) ++ enc u8 (size_byte O) ++ enc L nr ++ enc L nc ++ enc L n ++ enc O m_.
Definition csr_head L O (n nr nc m_ : Z) : list byte :=
  csr_magic ++ enc u8 (size_byte L) ++ enc u8 (size_byte O) ++ enc L n ++ enc O m_ ++ enc L nr ++ enc L nc.
Definition wbyte {W} (wc : option (codec W)) : list byte :=
  match wc with None => [] | Some c => enc u8 (Z.of_nat (cd_size c)) end.
Definition tensor_head {W} L O (wc : option (codec W)) (od m_ : Z) : list byte :=
  tensor_magic ++ enc u8 (size_byte L) ++ enc u8 (size_byte O) ++ wbyte wc ++ enc O od ++ enc O m_.

Section Heads.
  Context {W : Type}.
  Variables (L O : ity) (wc : option (codec W)).
  Hypothesis HL : is_ity L.
  Hypothesis HO : is_ity O.

  Lemma ne1 (t : ity) z r : is_ity t -> enc t z ++ r <> [].
  Proof.
    intros Ht E. apply (f_equal (@List.length byte)) in E. rewrite app_length in E. unfold enc in E. rewrite enc_len in E. cbn [cint cd_size length] in E.
    unfold is_ity in Ht. cbn [In] in Ht. intuition (subst; discriminate).
  Qed.

  Lemma coo_head_ok n nr nc m_ s pg fn pre rest tx ty tw :
    inrange L n = true -> inrange L nr = true -> inrange L nc = true -> inrange O m_ = true ->
    s = pre ++ coo_head L O n nr nc m_ ++ rest ->
    coo_read_bin L O wc (reading s pg fn pre) tx ty tw = coo_tail L wc n nr nc m_ (reading s pg fn (pre ++ coo_head L O n nr nc m_)) tx ty tw.
  Proof.
    intros Hn Hr Hc Hm E. unfold coo_head in E. rewrite <- !app_assoc in E. unfold coo_read_bin, enc in *.
    rewrite (rd_str_ok _ _ _ _ _ _ E) by (apply (ne1 u8); apply u8_ity). cbn [bind]. nxt E.
    rds E. rewrite dec_enc by (auto using u8_ity, size_byte_range).
    rds E. rewrite dec_enc by (auto using u8_ity, size_byte_range).
    rewrite !Z.eqb_refl. cbn [negb].
    rds E. rewrite dec_enc by assumption.
    rds E. rewrite dec_enc by assumption.
    rds E. rewrite dec_enc by assumption.
    rds E. rewrite dec_enc by assumption.
    unfold coo_head, enc. rewrite <- !app_assoc. reflexivity.
  Qed.

  Lemma csr_head_ok OS n nr nc m_ s pg fn pre rest tx ty tw :
    inrange L n = true -> inrange L nr = true -> inrange L nc = true -> inrange O m_ = true ->
    s = pre ++ csr_head L O n nr nc m_ ++ rest ->
    csr_read_bin L O OS wc (reading s pg fn pre) tx ty tw = csr_tail L O OS wc n nr nc m_ (reading s pg fn (pre ++ csr_head L O n nr nc m_)) tx ty tw.
  Proof.
    intros Hn Hr Hc Hm E. unfold csr_head in E. rewrite <- !app_assoc in E. unfold csr_read_bin, enc in *.
    rewrite (rd_str_ok _ _ _ _ _ _ E) by (apply (ne1 u8); apply u8_ity). cbn [bind]. nxt E.
    rds E. rewrite dec_enc by (auto using u8_ity, size_byte_range).
    rds E. rewrite dec_enc by (auto using u8_ity, size_byte_range).
    rewrite !Z.eqb_refl. cbn [negb].
    rds E. rewrite dec_enc by assumption.
    rds E. rewrite dec_enc by assumption.
    rds E. rewrite dec_enc by assumption.
    rds E. rewrite dec_enc by assumption.
    unfold csr_head, enc. rewrite <- !app_assoc. reflexivity.
  Qed.

  Lemma tensor_head_ok od m_ s pg fn pre rest tc tw :
    inrange O od = true -> inrange O m_ = true -> match wc with None => True | Some c => cd_size c < 256 end ->
    s = pre ++ tensor_head L O wc od m_ ++ rest ->
    tensor_read_bin L O wc (reading s pg fn pre) tc tw = tensor_tail L O wc od m_ (reading s pg fn (pre ++ tensor_head L O wc od m_)) tc tw.
  Proof.
    intros Ho Hm Hsz E. unfold tensor_head in E. rewrite <- !app_assoc in E. unfold tensor_read_bin, enc in *.
    rewrite (rd_str_ok _ _ _ _ _ _ E) by (apply (ne1 u8); apply u8_ity). cbn [bind]. nxt E.
    rds E. rewrite dec_enc by (auto using u8_ity, size_byte_range).
    rds E. rewrite dec_enc by (auto using u8_ity, size_byte_range).
    rewrite !Z.eqb_refl. cbn [negb].
    match goal with |- bind ?X _ = _ => assert (EX : X = Ok (reading s pg fn ((((pre ++ tensor_magic) ++ cd_enc (cint u8) (size_byte L)) ++ cd_enc (cint u8) (size_byte O)) ++ wbyte wc))) end.
    { unfold wbyte, enc in *. destruct wc as [cd|]; [|rewrite app_nil_r; reflexivity].
      rds E. rewrite dec_enc.
      - rewrite Z.eqb_refl. cbn [negb]. reflexivity.
      - apply u8_ity.
      - unfold inrange. apply andb_true_intro. split; apply Z.leb_le; cbn; lia. }
    rewrite EX. cbn [bind]. nxt E.
    rds E. rewrite dec_enc by assumption.
    rds E. rewrite dec_enc by assumption.
    unfold tensor_head, enc. rewrite <- !app_assoc. reflexivity.
  Qed.
End Heads.
