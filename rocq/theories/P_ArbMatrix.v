(** * Property C43: the Matrix built from arbitrary bytes *)

From Coq Require Import String Permutation Sorted.
From Verif Require Import Base Reader ReaderLemmas Sched Spec SpecFp SpecMm Coo Ascii Csr CooLemmas WeightLemmas ElSpec ElFinal ElThms ElExamples
  SpecCsr SpecPipe CsrLemmas CsrMain CsrBack CsrSort CsrQuery Codec Bin SpecBin MmLemmas BinLemmas BinSave BinLoad Graph Load BinOpen Safe Arb ArbFull Retype Matrix P_Bin P_Mm P_Csr P_Pipe P_Matrix P_Arb.
Open Scope list_scope.
Notation length := List.length.

Lemma matrix_throws {W} L O (wm : option (wmode W)) pg fn s ch c1 c2 e :
  coo_open L O wm no_flags pg fn (Some s) AUTO ch = Throw e -> matrix_open L O wm pg fn (Some s) ch c1 c2 = Throw e.
Proof. intros H. unfold matrix_open. rewrite H. reflexivity. Qed.

Lemma vertices_pos ps : (0 <= vertices ps)%Z.
Proof. unfold vertices. assert (A : forall l, (0 <= max_of l)%Z) by (intros l; unfold max_of; induction l; cbn; lia). pose proof (A (map fst ps ++ map snd ps)). lia. Qed.

Lemma unweighted_below L ps n : is_ity L -> label_pairs L ps -> (vertices ps <= n)%Z ->
  Forall (fun e => 0 <= fst (fst e) < n /\ 0 <= snd (fst e) < n)%Z (unweighted ps).
Proof.
  intros HL Hps Hn. pose proof (nonneg_below L ps Hps) as HBl. unfold unweighted. rewrite Forall_map.
  eapply Forall_impl; [|exact HBl]. cbn [fst]. intros p Hp. lia.
Qed.

(** The bytes behind a Matrix Market banner: a Matrix is refused exactly when the
    COO is; otherwise it is the matrix of the same pairs with the announced
    dimensions. *)
Theorem C43_mm_matrix : forall L O s pg fn T,
  is_ity L -> isigned L = false -> is_ity O -> modular O -> off_page pg s -> no_digit_at_end s -> as_mtx AUTO fn s -> begins s mm_banner -> 1 <= T ->
  (Z.of_nat (4 * T * length s) <= imax O)%Z ->
  exists ps nr nc nnz, label_pairs L ps /\
    let believed := (rows_for L no_flags ps <= nr /\ cols_for L no_flags ps <= nc)%Z /\ nnz = Z.of_nat (length ps) in
    forall ch c1 c2, lc_T ch = T ->
      (~ believed -> matrix_open (W:=unit) L O None pg fn (Some s) ch c1 c2 = Throw EError) /\
      (believed -> (vertices ps < imax L)%Z -> (Z.max nr nc < imax L)%Z -> legal (length ps) c1 -> legal (length ps) c2 ->
        exists x : matrix unit, matrix_open L O None pg fn (Some s) ch c1 c2 = Ok x /\
          is_matrix O x (Z.max nr nc) (Z.of_nat (length ps)) nr nc ps).
Proof.
  intros L O s pg fn T HL Hu HO HMO Hpg Hd Hg Hb HT Hm.
  destruct (mm_contents_len L O no_flags s pg fn AUTO T HL Hu HO HMO Hpg Hd Hg Hb HT Hm) as (ps & nr & nc & nnz & Hps & Hk & HE).
  exists ps, nr, nc, nnz. split; [exact Hps|]. intros believed ch c1 c2 HC. destruct (HE ch HC) as [H1 H2].
  assert (Hlen : length (unweighted ps) = length ps) by apply map_length.
  assert (EB : announced no_flags nnz (Z.of_nat (length (stored no_flags (unweighted ps)))) <-> nnz = Z.of_nat (length ps)).
  { rewrite stored_no_flags, Hlen. unfold announced. cbn. tauto. }
  split.
  - intros Hn. apply matrix_throws. apply H1. unfold believed in Hn. tauto.
  - intros HB Hv Hn HC1 HC2. destruct (H2 ltac:(unfold believed in HB; tauto)) as (c & E & Hh & Er & Ec & En).
    rewrite stored_no_flags in Hh. rewrite stored_no_flags, Hlen in Hk.
    pose proof (vertices_dims L ps HL Hv) as HVd. pose proof (vertices_pos ps) as H0.
    destruct (matrix_of L O None pg fn (Some s) ch c1 c2 c (unweighted ps) (Z.max nr nc) nr nc E HL HO Hh) as (x & Ex & HX & _).
    + discriminate.
    + exact En.
    + exact Er.
    + exact Ec.
    + unfold believed in HB. lia.
    + apply room_less. exact Hn.
    + rewrite Hlen. lia.
    + apply (unweighted_below L); [exact HL|exact Hps|]. unfold believed in HB. lia.
    + rewrite Hlen. exact HC1.
    + rewrite Hlen. exact HC2.
    + exists x. split; [exact Ex|]. rewrite Hlen, unweighted_pairs in HX. exact HX.
Qed.
Print Assumptions C43_mm_matrix.

Lemma dims_below L ps : is_ity L -> (vertices ps < imax L)%Z ->
  rows_for L no_flags ps = (1 + max_of (map fst ps))%Z /\ cols_for L no_flags ps = (1 + max_of (map snd ps))%Z.
Proof.
  intros HL H. unfold rows_for, cols_for, vertices in *. rewrite counted_no_flags. rewrite max_app in *. unfold unweighted. rewrite !map_map. cbn [fst snd].
  assert (A : forall l, (0 <= max_of l)%Z) by (intros l; unfold max_of; induction l; cbn; lia).
  pose proof (A (map fst ps)). pose proof (A (map snd ps)).
  change (map (fun x : Z * Z => fst x) ps) with (map fst ps). change (map (fun x : Z * Z => snd x) ps) with (map snd ps).
  rewrite !wrap_small by (auto; lia). split; reflexivity.
Qed.

(** Any bytes, read as an edge list. *)
Theorem C43_edge_list_matrix : forall L O s pg fn T,
  is_ity L -> isigned L = false -> is_ity O -> off_page pg s -> no_digit_at_end s -> as_el AUTO fn s -> 1 <= T ->
  (Z.of_nat (2 * T * length s) <= imax O)%Z ->
  exists ps, label_pairs L ps /\
    ((vertices ps < imax L)%Z -> forall ch c1 c2, lc_T ch = T -> legal (length ps) c1 -> legal (length ps) c2 ->
      exists x : matrix unit, matrix_open L O None pg fn (Some s) ch c1 c2 = Ok x /\
        is_matrix O x (vertices ps) (Z.of_nat (length ps)) (1 + max_of (map fst ps)) (1 + max_of (map snd ps)) ps).
Proof.
  intros L O s pg fn T HL Hu HO Hpg Hd Hg HT Hm.
  destruct (el_contents_len L O no_flags s pg fn AUTO T HL Hu HO Hpg Hd Hg HT Hm) as (ps & Hps & Hk & HE).
  exists ps. split; [exact Hps|]. intros Hv ch c1 c2 HC HC1 HC2. destruct (HE ch HC) as (c & E & Hh & Er & Ec & En).
  rewrite stored_no_flags in Hh. assert (Hlen : length (unweighted ps) = length ps) by apply map_length.
  pose proof (vertices_dims L ps HL Hv) as HVd. pose proof (vertices_pos ps) as H0.
  rewrite stored_no_flags, Hlen in Hk. rewrite HVd in En.
  assert (RC : rows_for L no_flags ps = (1 + max_of (map fst ps))%Z /\ cols_for L no_flags ps = (1 + max_of (map snd ps))%Z) by (apply dims_below; assumption).
  destruct RC as [R C]. rewrite R in Er. rewrite C in Ec.
  destruct (matrix_of L O None pg fn (Some s) ch c1 c2 c (unweighted ps) (vertices ps) (1 + max_of (map fst ps)) (1 + max_of (map snd ps)) E HL HO Hh) as (x & Ex & HX & _).
  - discriminate.
  - exact En.
  - exact Er.
  - exact Ec.
  - exact H0.
  - apply room_less. exact Hv.
  - rewrite Hlen. lia.
  - apply (unweighted_below L); [exact HL|exact Hps|lia].
  - rewrite Hlen. exact HC1.
  - rewrite Hlen. exact HC2.
  - exists x. split; [exact Ex|]. rewrite Hlen, unweighted_pairs in HX. exact HX.
Qed.
Print Assumptions C43_edge_list_matrix.

(** Concrete: the garbage of P_Arb.v. *)
Example C43_mm_matrix_applies : exists ps nr nc, label_pairs u8 ps /\
  forall ch c1 c2, lc_T ch = 2 ->
    matrix_open (W:=unit) u8 u32 None 4096 (chars "f.mtx") (Some ex_mgood) ch c1 c2 = Throw EError \/
    ((vertices ps < imax u8)%Z -> (Z.max nr nc < imax u8)%Z -> legal (length ps) c1 -> legal (length ps) c2 ->
     exists x : matrix unit, matrix_open u8 u32 None 4096 (chars "f.mtx") (Some ex_mgood) ch c1 c2 = Ok x /\
       is_matrix u32 x (Z.max nr nc) (Z.of_nat (length ps)) nr nc ps).
Proof.
  destruct (C43_mm_matrix u8 u32 ex_mgood 4096 (chars "f.mtx") 2) as (ps & nr & nc & nnz & H1 & H2);
    [cbn; tauto|reflexivity|cbn; tauto|left; reflexivity|exact ex_mgood_off|exact ex_mgood_end|exact ex_mgood_mtx| |lia|vm_compute; discriminate|].
  - eexists _, _. cbn [ex_mgood mm_banner chars app]. reflexivity.
  - exists ps, nr, nc. split; [exact H1|]. intros ch c1 c2 HC. destruct (H2 ch c1 c2 HC) as [H3 H4].
    assert (D : forall a b, {(a <= b)%Z} + {~ (a <= b)%Z}) by (intros a b; apply Z_le_dec).
    destruct (D (rows_for u8 no_flags ps) nr) as [A|A]; [|left; apply H3; tauto].
    destruct (D (cols_for u8 no_flags ps) nc) as [B|B]; [|left; apply H3; tauto].
    destruct (Z.eq_dec nnz (Z.of_nat (length ps))) as [C|C]; [|left; apply H3; tauto].
    right. apply H4. tauto.
Qed.
Example C43_mm_matrix_result : exists x : matrix unit,
  matrix_open u8 u32 None 4096 (chars "f.mtx") (Some ex_mgood)
    (mkLchoice 2 [1;0] (1, []) (1, []) (1, []) (mkGchoice 1 [] []) (mkChoice 1 0 [] [] [] [] []) [] [])
    (mkChoice 2 1 [[0]; [1]] [[1]; [0]] [1] [0; 1] [1; 0; 1]) (mkChoice 2 0 [[1]; [0]] [[0]; [1]] [] [1; 1] [0; 1]) = Ok x /\
  matrix_nrows u32 x = Some 10%Z /\ matrix_ncols u32 x = Some 10%Z /\ neighbors (mx_csr x) 5 = Ok [6]%Z /\ neighbors (mx_csc x) 1 = Ok [4]%Z.
Proof. eexists. split; [vm_compute; reflexivity|]. repeat split. Qed.
