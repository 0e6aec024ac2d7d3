(** * Properties C22-C31, C45: compressed rows *)

From Coq Require Import Permutation Sorted.
From Verif Require Import Base Sched Coo Ascii Csr ElSpec SpecText SpecCsr CsrLemmas CsrMain CsrBack CsrSort CsrQuery.

(** ** C22 *)
Theorem C22_coo_to_csr : forall {W} L O weighted (c : coo W) es n ch,
  is_ity L -> is_ity O -> holds c es -> (weighted = true -> holds_weights c es) ->
  co_n c = Some n -> (0 <= n)%Z -> room L n -> (Z.of_nat (length es) <= imax O)%Z ->
  Forall (fun e => 0 <= fst (fst e) < n)%Z es -> legal (length es) ch ->
  exists r rows, convert_coo L O weighted c ch = Ok r /\ represents weighted r rows /\
    cs_n r = n /\ cs_m r = co_m c /\ cs_nrows r = co_nrows c /\ cs_ncols r = co_ncols c /\
    (forall v, v < Z.to_nat n -> exists q, nth_error rows v = Some q /\ Permutation q (row es v)) /\
    cell_of 0 (cs_off r) = Ok 0%Z /\ cell_of (Z.to_nat n) (cs_off r) = Ok (co_m c) /\
    (* one thread: the order of the entries is kept *)
    (ch_parts2 ch = [seq 0 (length es)] -> rows = rows_of (Z.to_nat n) es).
Proof.
  intros W L O weighted c es n ch HL HO Hc Hw Hn H0 Hr Hm HF HC.
  destruct (convert_coo_ok L O HL HO weighted c es n Hc Hw Hn H0 Hr Hm HF ch HC) as (r & es' & E & HP & Hrep & E1 & E2 & E3).
  assert (HF' : Forall (fun e => 0 <= fst (fst e) < Z.of_nat (Z.to_nat n))%Z es').
  { apply Forall_forall. intros e He. apply (Permutation_in _ HP) in He. rewrite Forall_forall in HF. specialize (HF e He). lia. }
  pose proof Hrep as (R1 & R2 & _). rewrite rows_length in R1. rewrite rows_total in R2 by exact HF'.
  assert (R2' : cs_m r = co_m c) by (destruct Hc as (-> & _); rewrite R2; f_equal; apply Permutation_length; exact HP).
  exists r, (rows_of (Z.to_nat n) es'). split; [exact E|]. split; [exact Hrep|]. split; [lia|]. split; [exact R2'|]. split; [exact E1|]. split; [exact E2|].
  split; [|split; [|split]].
  - intros v Hv. exists (row es' v). split; [apply rows_of_nth; exact Hv|apply row_perm; exact HP].
  - rewrite (cell_off weighted r _ Hrep) by lia. reflexivity.
  - rewrite (cell_off weighted r _ Hrep) by (rewrite rows_length; lia). f_equal.
    replace (firstn (Z.to_nat n) (rows_of (Z.to_nat n) es')) with (rows_of (Z.to_nat n) es').
    + rewrite rows_total by exact HF'. rewrite <- R2. exact R2'.
    + symmetry. rewrite <- (rows_length (Z.to_nat n) es') at 1. apply firstn_all.
  - intros EP. rewrite (E3 EP). reflexivity.
Qed.
Print Assumptions C22_coo_to_csr.

Definition ex_entries : list (Z * Z * Z) := [(2, 1, 10); (0, 3, 20); (2, 0, 30); (2, 2, 40); (0, 1, 50)]%Z.
Definition coo_of {W} n (es : list (Z * Z * W)) : coo W :=
  mkCoo (map (fun e => Some (fst (fst e))) es) (map (fun e => Some (snd (fst e))) es) (map (fun e => Some (snd e)) es)
    (Some n) (Some n) (Some n) (Z.of_nat (length es)).
(** Two threads, the iterations dealt out unevenly, interleaved. *)
Definition ex_choice : cchoice := mkChoice 2 1 [[0; 1; 2]; [3; 4]] [[4; 1]; [2; 3; 0]] [1; 0] [1; 1; 0] [1; 0; 1; 1; 1; 0].
Example C22_applies :
  legal (length ex_entries) ex_choice /\ room u8 4 /\ Forall (fun e => 0 <= fst (fst e) < 4)%Z ex_entries /\
  holds (coo_of 4 ex_entries) ex_entries /\ holds_weights (coo_of 4 ex_entries) ex_entries /\
  convert_coo u8 u32 true (coo_of 4 ex_entries) ex_choice =
    Ok (mkCsr (map Some [0; 2; 2; 5; 5])%Z (map Some [1; 3; 0; 2; 1])%Z (map Some [50; 20; 30; 40; 10])%Z 4 5 (Some 4) (Some 4))%Z.
Proof.
  split; [|split; [|split; [|split; [|split]]]].
  - unfold legal. cbn [ch_T ch_single ch_parts1 ch_parts2 ex_choice concat app]. split; [lia|]. split; [lia|]. split; [reflexivity|].
    apply NoDup_Permutation; [|apply seq_NoDup|]; [repeat constructor; cbn; intuition discriminate|]. intros x. cbn. intuition.
  - split; [vm_compute; discriminate|left; reflexivity].
  - repeat constructor; cbn; lia.
  - repeat split.
  - reflexivity.
  - vm_compute. reflexivity.
Qed.

(** ** C45: the largest [n] leaves no room for the [n+1] offsets. *)
Theorem C45_largest_label_refuted : forall {W} L O weighted (c : coo W) es ch,
  is_ity L -> is_ity O -> (32 <= ibits L)%Z -> holds c es -> co_n c = Some (imax L) ->
  (Z.of_nat (length es) <= imax O)%Z ->
  Forall (fun e => 0 <= fst (fst e) < imax L)%Z es -> legal (length es) ch ->
  convert_coo L O weighted c ch = UB.
Proof. intros W. exact convert_too_many. Qed.
Print Assumptions C45_largest_label_refuted.

Example C45_applies : holds (coo_of (imax u32) [(4294967294, 0, tt)]%Z) [(4294967294, 0, tt)]%Z /\
  Forall (fun e => 0 <= fst (fst e) < imax u32)%Z [(4294967294, 0, tt)]%Z /\
  legal 1 (mkChoice 1 0 [[0]] [[0]] [] [] []).
Proof.
  split; [repeat split|]. split; [constructor; [vm_compute; split; [discriminate|reflexivity]|constructor]|].
  unfold legal. cbn [ch_T ch_single ch_parts1 ch_parts2]. split; [lia|]. split; [lia|]. split; reflexivity.
Qed.

(** ** C23 *)
Theorem C23_sort : forall {W} (srt : list (Z * W) -> list (Z * W)) srt1 weighted (c : csr W) rows parts sched,
  sorts srt srt1 -> represents weighted c rows -> Permutation (concat parts) (seq 0 (length rows)) ->
  exists r rows', csr_sort srt srt1 weighted c parts sched = Ok r /\ represents weighted r rows' /\
    Forall2 (sorted_from weighted) rows rows' /\
    cs_off r = cs_off c /\ cs_n r = cs_n c /\ cs_m r = cs_m c /\ cs_nrows r = cs_nrows c /\ cs_ncols r = cs_ncols c.
Proof.
  intros W srt srt1 weighted c rows parts sched HS Hrep HP. pose proof HS as [S1 S2 S3 S4].
  destruct (sort_ok srt srt1 S1 S3 weighted c rows Hrep parts sched HP) as (r & E & Hrep' & R).
  exists r, (map (sorted_row srt srt1 weighted) rows). split; [exact E|]. split; [exact Hrep'|]. split; [|exact R].
  clear -HS S1 S3. induction rows as [|q rows IH]; cbn [map]; constructor; [|exact IH]. split; [apply sorted_row_asc; exact HS|].
  unfold sorted_row. destruct weighted; [apply S1|]. rewrite combine_fst; [apply S3|]. rewrite (Permutation_length (S3 _)), !map_length. reflexivity.
Qed.
Print Assumptions C23_sort.

(** ** C24 *)
Theorem C24_without_dups : forall {W} (srt : list (Z * W) -> list (Z * W)) srt1 weighted L O (c : csr W) rows ch,
  is_ity L -> is_ity O -> sorts srt srt1 -> represents weighted c rows ->
  room L (cs_n c) -> (cs_m c <= imax O)%Z ->
  Forall (fun r => Forall (fun p => 0 <= fst p < imax L)%Z r) rows ->
  Permutation (concat (dc_sort ch)) (seq 0 (length rows)) -> Permutation (concat (dc_copy ch)) (seq 0 (length rows)) ->
  dc_single ch < dc_T ch ->
  exists c' r rows' drows, without_dups srt srt1 weighted L O c ch = Ok (c', r) /\
    represents weighted c' rows' /\ Forall2 (sorted_from weighted) rows rows' /\
    represents weighted r drows /\ Forall2 deduped rows' drows /\
    cs_n r = cs_n c /\ cs_nrows r = cs_nrows c /\ cs_ncols r = cs_ncols c.
Proof.
  intros W srt srt1 weighted L O c rows ch HL HO HS Hrep Hroom Hm Hlab HP1 HP2 HT.
  destruct (without_dups_ok srt srt1 weighted L O c rows ch HL HO HS Hrep Hroom Hm Hlab HP1 HP2 HT) as (c' & r & E & R1 & R2 & _ & _ & E1 & E2).
  exists c', r, (map (sorted_row srt srt1 weighted) rows), (map (heads None) (map (sorted_row srt srt1 weighted) rows)).
  split; [exact E|]. split; [exact R1|]. pose proof HS as [S1 S2 S3 S4]. split.
  { clear -HS S1 S3. induction rows as [|q rows IH]; cbn [map]; constructor; [|exact IH]. split; [apply sorted_row_asc; exact HS|].
    unfold sorted_row. destruct weighted; [apply S1|]. rewrite combine_fst; [apply S3|]. rewrite (Permutation_length (S3 _)), !map_length. reflexivity. }
  split; [exact R2|]. split.
  { clear -HS. induction rows as [|q rows IH]; cbn [map]; constructor; [|exact IH].
    pose proof (sorted_row_asc srt srt1 weighted q HS) as HA. set (s := sorted_row srt srt1 weighted q) in *.
    assert (HF : Forall (fun q => lower_eq None (fst q)) s) by (apply Forall_forall; intros; exact I).
    destruct (heads_sorted s None HA HF) as [H1 _]. split; [exact H1|]. split.
    - intros y. split.
      + intros Hy. apply in_map_iff in Hy as (p & <- & Hp). apply in_map. apply (heads_incl s None). exact Hp.
      + intros Hy. destruct (heads_same s None y Hy) as [H|H]; [discriminate|exact H].
    - intros p Hp. apply (heads_first s None HA HF). exact Hp. }
  split; [|split; assumption]. destruct R2 as (-> & _). destruct Hrep as (-> & _). rewrite !map_length. reflexivity.
Qed.
Print Assumptions C24_without_dups.

(** The pairs are compared lexicographically ([std::pair]); then the weight kept
    is the least of the duplicates. *)
Theorem C24_least_weight : forall {W} (le : W -> W -> Prop) (s d : list (Z * W)),
  StronglySorted (fun p q => fst p < fst q \/ (fst p = fst q /\ le (snd p) (snd q)))%Z s ->
  deduped s d -> forall y w w', In (y, w) d -> In (y, w') s -> w' = w \/ le w w'.
Proof.
  intros W le s d HS (_ & _ & HD) y w w' Hd Hs. destruct (HD _ Hd) as (a & b & -> & Ha). cbn [fst] in Ha.
  apply in_app_or in Hs as [Hs|[Hs|Hs]].
  - exfalso. apply Ha. change y with (fst (y, w')). apply in_map; exact Hs.
  - left. congruence.
  - right. clear -HS Hs. induction a as [|x a IH]; cbn [app] in HS; inversion HS as [|? ? HS' HF]; subst.
    + rewrite Forall_forall in HF. destruct (HF _ Hs) as [H|[_ H]]; [cbn in H; lia|exact H].
    + apply IH; exact HS'.
Qed.
Print Assumptions C24_least_weight.

(** Insertion sort meets the contract. *)
Fixpoint ins {A} (leb : A -> A -> bool) (x : A) (l : list A) : list A :=
  match l with [] => [x] | y :: l' => if leb x y then x :: l else y :: ins leb x l' end.
Definition isort {A} (leb : A -> A -> bool) (l : list A) : list A := fold_right (ins leb) [] l.
Definition pleb (p q : Z * Z) : bool := ((fst p <? fst q) || ((fst p =? fst q) && (snd p <=? snd q)))%Z.

Lemma ins_perm {A} leb (x : A) l : Permutation (ins leb x l) (x :: l).
Proof. induction l as [|y l IH]; cbn [ins]; [reflexivity|]. destruct (leb x y); [reflexivity|]. rewrite IH. constructor. Qed.
Lemma isort_perm {A} leb (l : list A) : Permutation (isort leb l) l.
Proof. induction l as [|x l IH]; cbn [isort fold_right]; [constructor|]. rewrite ins_perm. constructor. exact IH. Qed.
Lemma ins_sorted {A} (leb : A -> A -> bool) (f : A -> Z) x l : (forall a b, leb a b = true -> (f a <= f b)%Z) -> (forall a b, leb a b = false -> (f b <= f a)%Z) ->
  StronglySorted Z.le (map f l) -> StronglySorted Z.le (map f (ins leb x l)).
Proof.
  intros H1 H2. induction l as [|y l IH]; intros HS; cbn [ins map] in *; [repeat constructor|].
  inversion HS as [|? ? HS' HF]; subst. destruct (leb x y) eqn:E; cbn [map].
  - constructor; [exact HS|]. constructor; [apply H1; exact E|]. eapply Forall_impl; [|exact HF]. intros z Hz. specialize (H1 _ _ E). lia.
  - constructor; [apply IH; exact HS'|]. apply Forall_forall. intros z Hz. apply in_map_iff in Hz as (a & <- & Ha).
    apply (Permutation_in _ (ins_perm leb x l)) in Ha as [<-|Ha]; [apply H2; exact E|]. rewrite Forall_forall in HF. apply HF. apply in_map; exact Ha.
Qed.
Lemma isort_sorted {A} (leb : A -> A -> bool) (f : A -> Z) l : (forall a b, leb a b = true -> (f a <= f b)%Z) -> (forall a b, leb a b = false -> (f b <= f a)%Z) ->
  StronglySorted Z.le (map f (isort leb l)).
Proof. intros H1 H2. induction l as [|x l IH]; cbn [isort fold_right]; [constructor|]. apply ins_sorted; assumption. Qed.
Lemma isort_sorts : sorts (isort pleb) (isort Z.leb).
Proof.
  constructor.
  - apply isort_perm.
  - intros l. unfold ascending. apply isort_sorted; intros a b; unfold pleb; destruct (Z.ltb_spec (fst a) (fst b)), (Z.eqb_spec (fst a) (fst b)); cbn [orb andb]; intros; try discriminate; lia.
  - apply isort_perm.
  - intros l. unfold asc1. rewrite <- (map_id (isort Z.leb l)). apply (isort_sorted Z.leb (fun x => x)); intros a b H; [apply Z.leb_le in H|apply Z.leb_gt in H]; lia.
Qed.

Definition ex_csr : csr Z := mkCsr (map Some [0; 4; 4; 6])%Z (map Some [2; 0; 2; 0; 1; 1])%Z (map Some [5; 6; 4; 9; 3; 2])%Z 3 6 (Some 3%Z) (Some 3%Z).
Definition ex_rows : list (list (Z * Z)) := [[(2, 5); (0, 6); (2, 4); (0, 9)]; []; [(1, 3); (1, 2)]]%Z.
Example C23_C24_applies :
  represents true ex_csr ex_rows /\
  Forall (fun r => Forall (fun p => 0 <= fst p < imax u8)%Z r) ex_rows /\ room u8 (cs_n ex_csr) /\
  without_dups (isort pleb) (isort Z.leb) true u8 u8 ex_csr (mkDChoice [[2]; [0; 1]] [1; 0] 2 1 [1; 1; 0] [[1; 2]; [0]] [1; 0; 1]) =
    Ok (mkCsr (map Some [0; 4; 4; 6])%Z (map Some [0; 0; 2; 2; 1; 1])%Z (map Some [6; 9; 4; 5; 2; 3])%Z 3 6 (Some 3%Z) (Some 3%Z),
        mkCsr (map Some [0; 2; 2; 3])%Z (map Some [0; 2; 1])%Z (map Some [6; 4; 2])%Z 3 3 (Some 3%Z) (Some 3%Z))%Z.
Proof.
  split; [|split; [|split]].
  - repeat split.
  - repeat constructor; vm_compute; congruence.
  - split; [vm_compute; discriminate|left; reflexivity].
  - vm_compute. reflexivity.
Qed.

(** ** C25-C27 *)
Theorem C25_csr_to_coo : forall {W} O weighted (c : csr W) rows parts sched,
  is_ity O -> represents weighted c rows -> (cs_m c <= imax O)%Z ->
  Permutation (concat parts) (seq 0 (length rows)) ->
  exists r, convert_csr O no_flags weighted c parts sched = Ok r /\
    holds r (entries rows) /\ (weighted = true -> holds_weights r (entries rows)) /\ co_n r = Some (cs_n c) /\ co_m r = cs_m c.
Proof.
  intros W O weighted c rows parts sched HO Hrep Hm HP.
  assert (EX : flat_map (from_csr false false) (entries rows) = entries rows).
  { generalize (entries rows). intros l. induction l as [|[[x y] w] l IH]; [reflexivity|]. cbn [flat_map from_csr app]. rewrite IH. reflexivity. }
  pose proof Hrep as (En & Em & _).
  destruct (convert_csr_ok no_flags weighted (or_intror eq_refl) c rows Hrep O parts sched HO eq_refl) as (r & E & H1 & H2 & H3 & _); auto.
  - cbn [no_flags f_sym f_ut]. rewrite EX. unfold entries. rewrite entries_length. lia.
  - cbn [no_flags f_sym f_ut] in H1, H2. rewrite EX in H1, H2. exists r. split; [exact E|]. split; [exact H1|]. split; [exact H2|].
    split; [rewrite H3, En; reflexivity|]. destruct H1 as (-> & _). rewrite Em. unfold entries. rewrite entries_length. reflexivity.
Qed.
Print Assumptions C25_csr_to_coo.

Theorem C25_race_free : forall {W} fl weighted (c : csr W) rows parts,
  (f_sym fl = true \/ f_ut fl = false) -> represents weighted c rows -> Permutation (concat parts) (seq 0 (length rows)) ->
  exists ps, csr_progs fl weighted c parts = Ok ps /\
    race_free weighted (if f_sym fl && negb (f_ut fl) then 2 * length (entries rows) else length (entries rows)) ps.
Proof.
  intros W fl weighted c rows parts Hfl Hrep HP. exists (progs fl weighted rows parts). split; [apply progs_ok; assumption|].
  pose proof (progs_race_free fl weighted Hfl rows parts HP) as H.
  replace (if f_sym fl && negb (f_ut fl) then _ else _) with (length (flat_map (from_csr (f_sym fl) (f_ut fl)) (entries rows))); [exact H|].
  generalize (entries rows). intros l. induction l as [|[[x y] w] l IH]; [destruct (f_sym fl && negb (f_ut fl)); reflexivity|].
  cbn [flat_map]. rewrite app_length, IH. destruct (f_sym fl), (f_ut fl); cbn [from_csr length andb negb]; lia.
Qed.
Print Assumptions C25_race_free.

Theorem C26_csr_to_coo_flags : forall {W} O fl weighted (c : csr W) rows parts sched,
  is_ity O -> represents weighted c rows -> f_sym fl = true -> f_sl fl = false ->
  ((if f_ut fl then cs_m c else 2 * cs_m c) <= imax O)%Z ->
  Permutation (concat parts) (seq 0 (length rows)) ->
  let es := flat_map (fun e => let '(x, y, w) := e in
              if f_ut fl then [(Z.min x y, Z.max x y, w)] else [(y, x, w); (x, y, w)]) (entries rows) in
  exists r, convert_csr O fl weighted c parts sched = Ok r /\ holds r es /\ (weighted = true -> holds_weights r es).
Proof.
  intros W O fl weighted c rows parts sched HO Hrep Hs Hsl Hm HP es.
  assert (EX : flat_map (from_csr (f_sym fl) (f_ut fl)) (entries rows) = es).
  { unfold es. apply flat_map_ext. intros [[x y] w]. rewrite Hs. reflexivity. }
  pose proof Hrep as (En & Em & _).
  destruct (convert_csr_ok fl weighted (or_introl Hs) c rows Hrep O parts sched HO Hsl) as (r & E & H1 & H2 & _); auto.
  - rewrite EX. assert (EL : length es = (if f_ut fl then 1 else 2) * length (concat rows)).
    { rewrite <- (entries_length rows 0). fold (entries rows). unfold es. generalize (entries rows). intros l. clear.
      induction l as [|[[x y] w] l IH]; [destruct (f_ut fl); reflexivity|]. cbn [flat_map]. rewrite app_length, IH. destruct (f_ut fl); cbn [length]; lia. }
    rewrite EL. destruct (f_ut fl); lia.
  - rewrite EX in H1, H2. eauto.
Qed.
Print Assumptions C26_csr_to_coo_flags.

Theorem C26_not_implemented : forall {W} O fl weighted (c : csr W) parts sched,
  f_sym fl = false -> f_ut fl = true -> convert_csr O fl weighted c parts sched = Throw ENotYetImplemented.
Proof. intros W O fl weighted c parts sched Hs Hu. unfold convert_csr. rewrite Hs, Hu. reflexivity. Qed.
Print Assumptions C26_not_implemented.

Theorem C26_self_loops_not_implemented : forall {W} O fl weighted (c : csr W) rows parts sched,
  is_ity O -> represents weighted c rows -> f_sl fl = true -> (2 * cs_m c <= imax O)%Z ->
  convert_csr O fl weighted c parts sched = Throw ENotYetImplemented.
Proof.
  intros W O fl weighted c rows parts sched HO Hrep Hsl Hm. destruct Hrep as (_ & Em & _). unfold convert_csr. rewrite Hsl.
  destruct (f_sym fl), (f_ut fl); cbn [andb negb bind]; try reflexivity. rewrite arith_small by (assumption || lia). reflexivity.
Qed.
Print Assumptions C26_self_loops_not_implemented.

(** Whatever the flags, and whether or not the CSR is well formed. *)
Theorem C27_dimensions_unassigned : forall {W} O fl weighted (c : csr W) parts sched r,
  convert_csr O fl weighted c parts sched = Ok r -> co_nrows r = None /\ co_ncols r = None /\ co_n r = Some (cs_n c).
Proof.
  intros W O fl weighted c parts sched r H. unfold convert_csr in H.
  destruct (if f_sym fl && negb (f_ut fl) then _ else _) as [m'|?| |]; try discriminate. cbn [bind] in H.
  destruct (f_sl fl); [discriminate|]. destruct (coo_alloc weighted m') as [st0|?| |]; try discriminate. cbn [bind] in H.
  destruct (csr_progs fl weighted c parts) as [ps|?| |]; try discriminate. cbn [bind] in H.
  destruct (run cexec sched ps st0) as [st|?| |]; try discriminate. cbn [bind] in H. injection H as <-. auto.
Qed.
Print Assumptions C27_dimensions_unassigned.

Example C25_C27_applies :
  convert_csr u8 no_flags true ex_csr [[2]; [1; 0]] [1; 0; 1; 1; 0] = Ok
    (mkCoo (map Some [0; 0; 0; 0; 2; 2])%Z (map Some [2; 0; 2; 0; 1; 1])%Z (map Some [5; 6; 4; 9; 3; 2])%Z (Some 3%Z) None None 6) /\
  convert_csr u8 (mkFlags true false false) true ex_csr [[2]; [1; 0]] [1; 0; 1; 1; 0] = Ok
    (mkCoo (map Some [2; 0; 0; 0; 2; 0; 0; 0; 1; 2; 1; 2])%Z (map Some [0; 2; 0; 0; 0; 2; 0; 0; 2; 1; 2; 1])%Z
       (map Some [5; 5; 6; 6; 4; 4; 9; 9; 3; 3; 2; 2])%Z (Some 3%Z) None None 12) /\
  convert_csr u8 (mkFlags true true false) true ex_csr [[2]; [1; 0]] [1; 0; 1; 1; 0] = Ok
    (mkCoo (map Some [0; 0; 0; 0; 1; 1])%Z (map Some [2; 0; 2; 0; 2; 2])%Z (map Some [5; 6; 4; 9; 3; 2])%Z (Some 3%Z) None None 6).
Proof. repeat split; vm_compute; reflexivity. Qed.

(** ** C28 *)
Theorem C28_coo_csr_coo : forall {W} L O weighted (c : coo W) es n ch parts sched,
  is_ity L -> is_ity O -> holds c es -> (weighted = true -> holds_weights c es) ->
  co_n c = Some n -> (0 <= n)%Z -> room L n -> (Z.of_nat (length es) <= imax O)%Z ->
  Forall (fun e => 0 <= fst (fst e) < n)%Z es -> legal (length es) ch ->
  Permutation (concat parts) (seq 0 (Z.to_nat n)) ->
  exists r c' es', convert_coo L O weighted c ch = Ok r /\ convert_csr O no_flags weighted r parts sched = Ok c' /\
    Permutation es' es /\ StronglySorted Z.le (map (fun e => fst (fst e)) es') /\
    holds c' es' /\ (weighted = true -> holds_weights c' es') /\ co_n c' = Some n.
Proof.
  intros W L O weighted c es n ch parts sched HL HO Hc Hw Hn H0 Hr Hm HF HC HP.
  destruct (convert_coo_ok L O HL HO weighted c es n Hc Hw Hn H0 Hr Hm HF ch HC) as (r & es' & E & HPm & Hrep & _ & _ & _).
  assert (HF' : Forall (fun e => 0 <= fst (fst e) < Z.of_nat (Z.to_nat n))%Z es').
  { apply Forall_forall. intros e He. apply (Permutation_in _ HPm) in He. rewrite Forall_forall in HF. specialize (HF e He). lia. }
  pose proof Hrep as (R1 & R2 & _). rewrite rows_length in R1. rewrite rows_total in R2 by exact HF'.
  destruct (C25_csr_to_coo O weighted r (rows_of (Z.to_nat n) es') parts sched HO Hrep) as (c' & E' & H1 & H2 & H3 & _).
  - rewrite R2, (Permutation_length HPm). exact Hm.
  - rewrite rows_length. exact HP.
  - exists r, c', (entries (rows_of (Z.to_nat n) es')). split; [exact E|]. split; [exact E'|]. split.
    + rewrite entries_rows_perm by exact HF'. exact HPm.
    + split; [apply entries_sorted|]. split; [exact H1|]. split; [exact H2|]. rewrite H3, R1. f_equal. lia.
Qed.
Print Assumptions C28_coo_csr_coo.

(** ** C29 *)
Theorem C29_degree_neighbors : forall {W} O weighted (c : csr W) rows v r,
  is_ity O -> represents weighted c rows -> (cs_m c <= imax O)%Z -> nth_error rows v = Some r ->
  degree O c v = Ok (Z.of_nat (length r)) /\ neighbors c v = Ok (map fst r).
Proof. intros. split; [eapply degree_ok; eassumption|eapply neighbors_ok; eassumption]. Qed.
Print Assumptions C29_degree_neighbors.

Theorem C29_degrees_sum : forall {W} O weighted (c : csr W) rows,
  is_ity O -> represents weighted c rows -> (cs_m c <= imax O)%Z ->
  exists ds, mapM (degree O c) (seq 0 (Z.to_nat (cs_n c))) = Ok ds /\ fold_right Z.add 0%Z ds = cs_m c.
Proof.
  intros W O weighted c rows HO Hrep Hm. pose proof Hrep as (En & Em & _). rewrite En, Nat2Z.id.
  exists (map (fun r => Z.of_nat (length r)) rows). split.
  - rewrite (mapM_ok _ (fun v => Z.of_nat (length (nth v rows [])))).
    + f_equal. apply SchedMore.nth_error_ext_all; [rewrite !map_length, seq_length; reflexivity|]. intros i Hi. rewrite map_length, seq_length in Hi.
      rewrite !nth_error_map, SchedMore.nth_error_seq' by exact Hi. cbn [option_map plus].
      rewrite (nth_error_nth' rows [] Hi). reflexivity.
    + intros v Hv. apply in_seq in Hv. eapply degree_ok; try eassumption. apply nth_error_nth'. lia.
  - rewrite Em. apply zsum_lengths.
Qed.
Print Assumptions C29_degrees_sum.

Example C29_applies : degree u8 ex_csr 0 = Ok 4%Z /\ neighbors ex_csr 0 = Ok [2; 0; 2; 0]%Z /\
  degree u8 ex_csr 1 = Ok 0%Z /\ neighbors ex_csr 1 = Ok [] /\ represents true ex_csr ex_rows.
Proof. repeat split. Qed.

(** ** C30 *)
Theorem C30_in_out : forall {W} L O weighted (c : coo W) es n ch1 ch2,
  is_ity L -> is_ity O -> holds c es -> (weighted = true -> holds_weights c es) ->
  co_n c = Some n -> (0 <= n)%Z -> room L n -> (Z.of_nat (length es) <= imax O)%Z ->
  Forall (fun e => 0 <= fst (fst e) < n /\ 0 <= snd (fst e) < n)%Z es -> legal (length es) ch1 -> legal (length es) ch2 ->
  exists i o irows orows, digraph_of_coo L O weighted c ch1 ch2 = Ok (i, o) /\
    represents weighted i irows /\ represents weighted o orows /\ cs_n i = n /\ cs_n o = n /\ cs_m i = co_m c /\ cs_m o = co_m c /\
    forall u v, u < Z.to_nat n -> v < Z.to_nat n -> exists ro ri, nth_error orows u = Some ro /\ nth_error irows v = Some ri /\
      times (Z.of_nat v) ro = multiplicity (Z.of_nat u) (Z.of_nat v) es /\
      times (Z.of_nat u) ri = multiplicity (Z.of_nat u) (Z.of_nat v) es /\
      (* with the weights *)
      (forall w, In (Z.of_nat v, w) ro <-> In (Z.of_nat u, Z.of_nat v, w) es) /\
      (forall w, In (Z.of_nat u, w) ri <-> In (Z.of_nat u, Z.of_nat v, w) es) /\
      (* and, for parallel edges, each weight as often as in the COO *)
      Permutation ro (row es u) /\
      Permutation ri (row (map (fun e => (snd (fst e), fst (fst e), snd e)) es) v).
Proof.
  intros W L O weighted c es n ch1 ch2 HL HO Hc Hw Hn H0 Hr Hm HF HC1 HC2.
  assert (HI : forall (l : list (Z * Z * W)) u v w, In (v, w) (row l u) <-> In (Z.of_nat u, v, w) l).
  { intros l u v w. unfold row. rewrite in_map_iff. split.
    - intros ([[x y] z] & E & Hi). apply filter_In in Hi as [Hi Hx]. cbn [fst snd] in *. apply Z.eqb_eq in Hx. congruence.
    - intros Hi. exists (Z.of_nat u, v, w). split; [reflexivity|]. apply filter_In. split; [exact Hi|]. cbn [fst]. apply Z.eqb_refl. }
  destruct (convert_coo_ok L O HL HO weighted (coo_transpose c) (map swap3 es) n) with (ch := ch1) as (i & es1 & E1 & P1 & R1 & _ & _ & _).
  { apply transpose_holds; exact Hc. } { intros Ew. apply transpose_weights; auto. } { exact Hn. } { exact H0. } { exact Hr. }
  { rewrite map_length; exact Hm. }
  { apply Forall_forall. intros e He. apply in_map_iff in He as (e' & <- & He'). rewrite Forall_forall in HF. specialize (HF e' He'). cbn [swap3 fst]. lia. }
  { rewrite map_length; exact HC1. }
  destruct (convert_coo_ok L O HL HO weighted c es n) with (ch := ch2) as (o & es2 & E2 & P2 & R2 & _ & _ & _); auto.
  { eapply Forall_impl; [|exact HF]. cbn beta. tauto. }
  unfold digraph_of_coo. rewrite E1. cbn [bind]. rewrite E2. cbn [bind].
  exists i, o, (rows_of (Z.to_nat n) es1), (rows_of (Z.to_nat n) es2). split; [reflexivity|]. split; [exact R1|]. split; [exact R2|].
  pose proof R1 as (N1 & M1 & _). pose proof R2 as (N2 & M2 & _). rewrite rows_length in N1, N2.
  assert (B1 : Forall (fun e => 0 <= fst (fst e) < Z.of_nat (Z.to_nat n))%Z es1).
  { apply Forall_forall. intros e He. apply (Permutation_in _ P1), in_map_iff in He as (e' & <- & He'). rewrite Forall_forall in HF. specialize (HF e' He'). cbn [swap3 fst]. lia. }
  assert (B2 : Forall (fun e => 0 <= fst (fst e) < Z.of_nat (Z.to_nat n))%Z es2).
  { apply Forall_forall. intros e He. apply (Permutation_in _ P2) in He. rewrite Forall_forall in HF. specialize (HF e He). lia. }
  rewrite rows_total in M1 by exact B1. rewrite rows_total in M2 by exact B2.
  pose proof (Permutation_length P1) as L1. pose proof (Permutation_length P2) as L2. rewrite map_length in L1. destruct Hc as (Hcm & _).
  split; [lia|]. split; [lia|]. split; [lia|]. split; [lia|].
  intros u v Hu Hv. exists (row es2 u), (row es1 v). split; [apply rows_of_nth; exact Hu|]. split; [apply rows_of_nth; exact Hv|].
  split; [|split; [|split; [|split; [|split]]]].
  - unfold times, multiplicity. rewrite row_count. apply Permutation_length, perm_filter, P2.
  - unfold times, multiplicity. rewrite row_count. etransitivity; [apply Permutation_length, perm_filter, P1|apply swap_count].
  - intros w. rewrite HI. split; intros H; [apply (Permutation_in _ P2)|apply (Permutation_in _ (Permutation_sym P2))]; exact H.
  - intros w. rewrite HI. split; intros H.
    + apply (Permutation_in _ P1), in_map_iff in H as ([[x y] z] & E & H). unfold swap3 in E; cbn [fst snd] in E. injection E as -> -> ->. exact H.
    + apply (Permutation_in _ (Permutation_sym P1)), in_map_iff. exists (Z.of_nat u, Z.of_nat v, w). split; [reflexivity|exact H].
  - apply row_perm, P2.
  - exact (row_perm es1 (map swap3 es) v P1).
Qed.
Print Assumptions C30_in_out.

Example C30_applies : exists i o, digraph_of_coo u8 u32 true (coo_of 4 ex_entries) ex_choice ex_choice = Ok (i, o) /\
  cs_end i = map Some [2; 0; 2; 2; 0]%Z /\ cs_off i = map Some [0; 1; 3; 4; 5]%Z /\ cs_end o = map Some [1; 3; 0; 2; 1]%Z.
Proof. eexists. eexists. vm_compute. repeat split. Qed.

(** ** C31 *)
Theorem C31_transpose : forall {W} (c : coo W) es, holds c es ->
  holds (coo_transpose c) (map (fun e => (snd (fst e), fst (fst e), snd e)) es) /\
  (holds_weights c es -> holds_weights (coo_transpose c) (map (fun e => (snd (fst e), fst (fst e), snd e)) es)) /\
  co_nrows (coo_transpose c) = co_nrows c /\ co_ncols (coo_transpose c) = co_ncols c /\ co_n (coo_transpose c) = co_n c.
Proof.
  intros W c es H. split; [apply transpose_holds; exact H|]. split; [apply transpose_weights|]. repeat split.
Qed.
Print Assumptions C31_transpose.
Theorem C31_involution : forall {W} (c : coo W), coo_transpose (coo_transpose c) = c.
Proof. intros W []; reflexivity. Qed.
Print Assumptions C31_involution.
