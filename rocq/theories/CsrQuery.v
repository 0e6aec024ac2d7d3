(** * CsrQuery: queries, in/out rows, the largest vertex number *)

From Coq Require Import Permutation.
From Verif Require Import Base Sched SchedLemmas SchedMore Coo Ascii Csr ElSpec SpecText SpecCsr CsrLemmas CsrScatter CsrMain CsrBack CsrSort.

Lemma perm_filter {A} (f : A -> bool) l l' : Permutation l l' -> Permutation (filter f l) (filter f l').
Proof.
  induction 1 as [|x l l' H IH|x y l|l l' l'' H1 IH1 H2 IH2]; cbn [filter].
  - constructor.
  - destruct (f x); [constructor; exact IH|exact IH].
  - destruct (f x), (f y); try reflexivity. constructor.
  - etransitivity; eassumption.
Qed.

Lemma row_perm {W} (l l' : list (Z * Z * W)) v : Permutation l l' -> Permutation (row l v) (row l' v).
Proof. intros H. unfold row. apply Permutation_map, perm_filter, H. Qed.

Lemma rows_of_nth {W} n (l : list (Z * Z * W)) v : v < n -> nth_error (rows_of n l) v = Some (row l v).
Proof. intros H. unfold rows_of. rewrite nth_error_map, nth_error_seq' by exact H. reflexivity. Qed.

Lemma degree_ok {W} O weighted (c : csr W) rows v r : is_ity O -> represents weighted c rows -> (cs_m c <= imax O)%Z ->
  nth_error rows v = Some r -> degree O c v = Ok (Z.of_nat (length r)).
Proof.
  intros HO Hrep Hm Hr. destruct (off_cells weighted c rows Hrep v r Hr) as [E1 E2].
  unfold degree, neighbor_end, neighbor_start. rewrite E1, E2. cbn [bind].
  assert (length r <= length (concat rows)).
  { apply nth_error_split in Hr as (a & b & -> & _). rewrite concat_app. cbn [concat]. rewrite !app_length. lia. }
  destruct Hrep as (_ & Em & _). rewrite arith_small; [f_equal; lia|exact HO|lia].
Qed.

Lemma edge_iter_ok {W} (c : csr W) r : forall A B fuel, cs_end c = map (fun p => Some (fst p)) (A ++ r ++ B) ->
  length r < fuel -> edge_iter fuel c (Z.of_nat (length A)) (Z.of_nat (length A) + Z.of_nat (length r))%Z = Ok (map (@fst Z W) r).
Proof.
  induction r as [|q r IH]; intros A B fuel HE Hf; (destruct fuel as [|fuel]; [lia|]); cbn [edge_iter length] in *.
  - destruct (Z.eqb_spec (Z.of_nat (length A)) (Z.of_nat (length A) + Z.of_nat 0)); [reflexivity|lia].
  - destruct (Z.eqb_spec (Z.of_nat (length A)) (Z.of_nat (length A) + Z.of_nat (S (length r)))); [lia|].
    unfold idx. destruct (Z.ltb_spec (Z.of_nat (length A)) 0); [lia|]. cbn [bind]. rewrite Nat2Z.id.
    assert (EY : cell_of (length A) (cs_end c) = Ok (fst q)).
    { rewrite HE. apply cell_of_some. rewrite nth_error_map, nth_error_app2, Nat.sub_diag by lia. reflexivity. }
    rewrite EY. cbn [bind]. specialize (IH (A ++ [q]) B fuel).
    replace (Z.of_nat (length A) + 1)%Z with (Z.of_nat (length (A ++ [q]))) by (rewrite app_length; cbn [length]; lia).
    replace (Z.of_nat (length A) + Z.of_nat (S (length r)))%Z with (Z.of_nat (length (A ++ [q])) + Z.of_nat (length r))%Z by (rewrite app_length; cbn [length]; lia).
    rewrite IH; [reflexivity| |lia]. rewrite HE, <- app_assoc. reflexivity.
Qed.

Lemma neighbors_ok {W} weighted (c : csr W) rows v r : represents weighted c rows -> nth_error rows v = Some r ->
  neighbors c v = Ok (map fst r).
Proof.
  intros Hrep Hr. destruct (off_cells weighted c rows Hrep v r Hr) as [E1 E2].
  unfold neighbors, neighbor_end, neighbor_start. rewrite E1, E2. cbn [bind].
  destruct Hrep as (_ & _ & _ & HE & _). apply nth_error_split in Hr as (a & b & Er & Ea).
  assert (EC : concat rows = concat a ++ r ++ concat b) by (rewrite Er, concat_app; reflexivity).
  assert (EF : firstn v rows = a) by (rewrite Er, <- Ea, firstn_app, firstn_all, Nat.sub_diag; cbn [firstn]; apply app_nil_r).
  rewrite EF. apply (edge_iter_ok c r (concat a) (concat b)).
  - rewrite HE, EC. reflexivity.
  - rewrite HE, map_length, EC, !app_length. lia.
Qed.

(** ** Multiplicities *)
Lemma row_count {W} (l : list (Z * Z * W)) u v :
  length (filter (fun p => (fst p =? v)%Z) (row l u)) =
  length (filter (fun e => (fst (fst e) =? Z.of_nat u)%Z && (snd (fst e) =? v)%Z) l).
Proof.
  unfold row. induction l as [|e l IH]; [reflexivity|]. cbn [filter].
  destruct (fst (fst e) =? Z.of_nat u)%Z; cbn [map filter fst snd andb]; [|exact IH].
  destruct (snd (fst e) =? v)%Z; cbn [length]; rewrite IH; reflexivity.
Qed.

Definition swap3 {W : Type} (e : Z * Z * W) : Z * Z * W := (snd (fst e), fst (fst e), snd e).

Lemma transpose_holds {W} (c : coo W) es : holds c es -> holds (coo_transpose c) (map swap3 es).
Proof.
  intros (H1 & H2 & H3). unfold holds, coo_transpose. cbn [co_m co_x co_y]. rewrite map_length, !map_map. cbn [swap3 fst snd].
  split; [exact H1|]. split; [exact H3|exact H2].
Qed.
Lemma transpose_weights {W} (c : coo W) es : holds_weights c es -> holds_weights (coo_transpose c) (map swap3 es).
Proof. unfold holds_weights, coo_transpose. cbn [co_w]. rewrite map_map. cbn [swap3 snd]. auto. Qed.

Lemma swap_count {W} (l : list (Z * Z * W)) u v :
  length (filter (fun e => (fst (fst e) =? u)%Z && (snd (fst e) =? v)%Z) (map swap3 l)) =
  length (filter (fun e => (fst (fst e) =? v)%Z && (snd (fst e) =? u)%Z) l).
Proof.
  induction l as [|e l IH]; [reflexivity|]. cbn [map filter]. unfold swap3 at 1 2. cbn [fst snd].
  rewrite (andb_comm (snd (fst e) =? u)%Z). destruct ((fst (fst e) =? v)%Z && (snd (fst e) =? u)%Z); cbn [length]; rewrite IH; reflexivity.
Qed.

(** ** [n+1] offsets do not fit *)
Lemma run_nonempty_ub sched (ps : list (list (nat * Z))) : concat ps <> [] -> run sexec sched ps [] = UB.
Proof.
  intros Hne. destruct (run_merge sexec sched ps) as (l & HM & ->). apply merge_perm in HM.
  destruct l as [|i l]; [apply Permutation_nil in HM; contradiction|].
  cbn [exec_all]. unfold sexec at 1, aset. cbn [length]. destruct (Nat.ltb_spec (fst i) 0); [lia|]. reflexivity.
Qed.

Lemma offsets_ub O n T k m degs sched off : offsets_of O n T k m degs sched (fresh (S n)) = Ok off -> cell_of 0 off = Ok 0%Z ->
  offsets_of O n T k m degs sched [] = UB.
Proof.
  unfold offsets_of. intros H H0.
  apply bind_ok_inv in H as (sums & -> & H). apply bind_ok_inv in H as (starts & E & H).
  cbn [bind]. rewrite E. cbn [bind]. apply bind_ok_inv in H as (ps & E1 & H). rewrite E1. cbn [bind].
  apply run_nonempty_ub. intros Hn. destruct (run_merge sexec sched (add_to k (n, m) ps)) as (l & HM & E2). rewrite E2 in H.
  apply merge_perm in HM. rewrite Hn in HM. apply Permutation_sym, Permutation_nil in HM. subst l. cbn [exec_all] in H. injection H as <-.
  discriminate H0.
Qed.

Lemma convert_too_many {W} L O weighted (c : coo W) es ch :
  is_ity L -> is_ity O -> (32 <= ibits L)%Z -> holds c es -> co_n c = Some (imax L) ->
  (Z.of_nat (length es) <= imax O)%Z ->
  Forall (fun e => 0 <= fst (fst e) < imax L)%Z es -> legal (length es) ch ->
  convert_coo L O weighted c ch = UB.
Proof.
  intros HL HO HB Hc Hn Hm HF HC. unfold convert_coo. rewrite Hn.
  pose proof Hc as (Hcm & Hcx & Hcy). rewrite Hcm. unfold csr_alloc. rewrite alloc_ok by lia. cbn [bind].
  set (ws0 := if weighted then _ else _).
  assert (Ews : exists ws, ws0 = Ok ws).
  { unfold ws0. destruct weighted; [rewrite alloc_ok by lia|]; eauto. }
  destruct Ews as (ws & ->). cbn [bind]. unfold plus1. destruct (Z.ltb_spec (ibits L) 32); [lia|].
  unfold arith. destruct (Z.ltb_spec (ibits L) 32); [lia|]. destruct (isigned L) eqn:Es.
  - unfold inrange. destruct (Z.leb_spec (imax L + 1) (imax L)); [lia|]. rewrite andb_false_r. reflexivity.
  - assert (E0 : wrap L (imax L + 1) = 0%Z).
    { unfold wrap, imax. rewrite Es. replace (2 ^ ibits L - 1 + 1)%Z with (2 ^ ibits L)%Z by lia. apply Z.mod_same.
      assert (0 < 2 ^ ibits L)%Z by (apply Z.pow_pos_nonneg; lia). lia. }
    rewrite E0. cbn [bind]. rewrite alloc_ok by lia. cbn [bind]. pose proof (imax_pos L HL) as HP. destruct (Z.ltb_spec (imax L) 0); [lia|].
    destruct (degs_ok O HO c es (imax L) Hc Hm HF ch es HC (Permutation_refl _)) as (incs & -> & E). cbn [bind]. rewrite E. cbn [bind].
    set (N := Z.to_nat (imax L)) in *. assert (EN : Z.of_nat N = imax L) by (unfold N; lia). clearbody N.
    assert (HF' : Forall (fun e => 0 <= fst (fst e) < Z.of_nat N)%Z es) by (rewrite EN; exact HF).
    pose proof (offsets_ok O HO (map (fun r => Z.of_nat (length r)) (rows_of N es))) as HOff.
    rewrite zsum_lengths, (rows_total N es HF'), map_length, rows_length in HOff. destruct HC as (HT & Hk & _).
    rewrite (offsets_ub _ _ _ _ _ _ _ (map (fun v => Some (D (map (fun r => Z.of_nat (length r)) (rows_of N es)) v)) (seq 0 (S N)))).
    + reflexivity.
    + apply HOff; [apply Forall_forall; intros d Hd; apply in_map_iff in Hd as (r & <- & _); lia|exact Hm|exact HT|exact Hk|apply fresh_length].
    + reflexivity.
Qed.
