(** * DupFineLemmas: [sort] and [new_csr_without_dups] do not race *)

From Coq Require Import Permutation.
From Verif Require Import Base Sched SchedLemmas SchedMore Coo Ascii Csr ElSpec SpecText SpecCsr CsrLemmas CsrScatter CsrMain CsrBack CsrSort
  SpecRace Race RaceLemmas CsrFine CsrFinePhases DupFine.

(** Cells of different rows are different. *)
Lemma rows_apart {A} (ll : list (list A)) v w r q k : nth_error ll v = Some r -> nth_error ll w = Some q ->
  length (concat (firstn v ll)) <= k < length (concat (firstn v ll)) + length r ->
  length (concat (firstn w ll)) <= k < length (concat (firstn w ll)) + length q -> v = w.
Proof.
  intros Hv Hw H1 H2.
  assert (G : forall v w r, nth_error ll v = Some r -> v < w -> length (concat (firstn v ll)) + length r <= length (concat (firstn w ll))).
  { clear. induction ll as [|a ll IH]; intros v w r Hv Hlt; [destruct v; discriminate|]. destruct w as [|w]; [lia|].
    destruct v as [|v]; cbn [nth_error firstn concat] in *.
    - injection Hv as ->. rewrite app_length. cbn [length]. lia.
    - rewrite !app_length. specialize (IH v w r Hv ltac:(lia)). lia. }
  destruct (Nat.lt_trichotomy v w) as [H|[H|H]]; [specialize (G v w r Hv H); lia|exact H|specialize (G w v q Hw H); lia].
Qed.

Lemma disjoint_parts {A} (parts : list (list A)) t u p q x : NoDup (concat parts) ->
  nth_error parts t = Some p -> nth_error parts u = Some q -> In x p -> In x q -> t = u.
Proof.
  intros HN H1 H2 H3 H4. destruct (Nat.eq_dec t u) as [->|Hne]; [reflexivity|]. exfalso.
  revert t u H1 H2 Hne HN. induction parts as [|r rs IH]; intros t u H1 H2 Hne HN; [destruct t; discriminate|].
  cbn [concat] in HN. apply NoDup_app_inv in HN as (_ & HNr & HD).
  destruct t as [|t], u as [|u]; cbn [nth_error] in *.
  - congruence.
  - injection H1 as ->. apply (HD x H3). apply in_concat. exists q. split; [eapply nth_error_In; exact H2|exact H4].
  - injection H2 as ->. apply (HD x H4). apply in_concat. exists p. split; [eapply nth_error_In; exact H1|exact H3].
  - apply (IH t u H1 H2); [congruence|exact HNr].
Qed.

Lemma reads_in weighted (cs : list (option Z)) v (a : access floc) : In a (row_reads weighted cs v) ->
  snd a = Read /\ (fst (fst a) = SrcOffsets \/ (fst (fst a) = SrcEnds \/ fst (fst a) = SrcWeights) /\ In (snd (fst a)) (row_cells cs v)).
Proof.
  unfold row_reads. intros H. apply in_app_or in H as [H|H].
  - destruct H as [<-|[<-|[]]]; cbn; auto.
  - apply in_app_or in H as [H|H].
    + apply in_map_iff in H as (k & <- & Hk). cbn. tauto.
    + destruct weighted; [|destruct H]. apply in_map_iff in H as (k & <- & Hk). cbn. tauto.
Qed.

Section Rows.
  Context {W : Type}.
  Variable weighted : bool.
  Variable c : csr W.
  Variable rows : list (list (Z * W)).
  Hypothesis Hrep : represents weighted c rows.

  Lemma row_cells_ok v r : nth_error rows v = Some r ->
    row_cells (cs_off c) v = seq (length (concat (firstn v rows))) (length r).
  Proof.
    intros H. assert (Hv : v < length rows) by (apply nth_error_Some; congruence).
    unfold row_cells, row_range. rewrite (cell_off weighted c rows Hrep v) by lia. rewrite (cell_off weighted c rows Hrep (S v)) by lia. cbn [bind].
    unfold idx. destruct (Z.ltb_spec (Z.of_nat (length (concat (firstn v rows)))) 0); [lia|]. cbn [bind]. rewrite Nat2Z.id.
    rewrite (concat_split_len _ _ _ H). f_equal. lia.
  Qed.

  Variable parts : list (list nat).
  Hypothesis HP : Permutation (concat parts) (seq 0 (length rows)).

  Lemma part_row t p v : nth_error parts t = Some p -> In v p -> exists r, nth_error rows v = Some r.
  Proof.
    intros Ht Hv. assert (H : In v (concat parts)) by (apply in_concat; exists p; split; [eapply nth_error_In; exact Ht|exact Hv]).
    apply (Permutation_in _ HP), in_seq in H. destruct (nth_error rows v) as [r|] eqn:E; [eauto|]. apply nth_error_None in E. lia.
  Qed.
  Lemma parts_nodup : NoDup (concat parts).
  Proof. eapply Permutation_NoDup; [apply Permutation_sym, HP|apply seq_NoDup]. Qed.

  (** Two threads never have cells in common. *)
  Lemma cells_apart t u p q v w k : t <> u -> nth_error parts t = Some p -> nth_error parts u = Some q -> In v p -> In w q ->
    In k (row_cells (cs_off c) v) -> In k (row_cells (cs_off c) w) -> False.
  Proof.
    intros Hne Hp Hq Hv Hw H1 H2. destruct (part_row _ _ _ Hp Hv) as (r & Er). destruct (part_row _ _ _ Hq Hw) as (r' & Er').
    rewrite (row_cells_ok _ _ Er) in H1. rewrite (row_cells_ok _ _ Er') in H2. apply in_seq in H1, H2.
    pose proof (rows_apart rows v w r r' k Er Er' H1 H2) as ->. apply Hne. exact (disjoint_parts parts _ _ _ _ _ parts_nodup Hp Hq Hv Hw).
  Qed.


  Variable srt : list (Z * W) -> list (Z * W).
  Variable srt1 : list Z -> list Z.

  Lemma sort_acc_in (x : access floc) v : In x (row_reads weighted (cs_off c) v ++ map (wr SrcEnds) (row_cells (cs_off c) v) ++
      (if weighted then map (wr SrcWeights) (row_cells (cs_off c) v) else [])) ->
    (snd x = Read /\ fst (fst x) = SrcOffsets) \/
    ((fst (fst x) = SrcEnds \/ fst (fst x) = SrcWeights) /\ In (snd (fst x)) (row_cells (cs_off c) v)).
  Proof.
    intros H. apply in_app_or in H as [H|H].
    - apply reads_in in H. tauto.
    - apply in_app_or in H as [H|H].
      + apply in_map_iff in H as (k & <- & Hk). cbn. tauto.
      + destruct weighted; [|destruct H]. apply in_map_iff in H as (k & <- & Hk). cbn. tauto.
  Qed.

  Lemma sort_fine_ok sched r : csr_sort srt srt1 weighted c parts sched = Ok r ->
    exists l, sort_fine srt srt1 weighted c parts sched = Ok (r, l) /\ no_race l.
  Proof.
    unfold csr_sort, sort_fine. intros E. apply bind_ok_inv in E as (st & E & Er). injection Er as <-.
    destruct (interval_run _ (sort_acc weighted (cs_off c)) _ _ _ _ E) as (lg & -> & HR).
    - intros t u p q v w si sj a b Hne Hp Hq Hv Hw Ha Hb (C1 & C2 & C3). unfold sort_acc in Ha, Hb.
      apply sort_acc_in in Ha. apply sort_acc_in in Hb. rewrite <- C1 in Hb.
      destruct Ha as [(A1 & A2)|(A1 & A2)], Hb as [(B1 & B2)|(B1 & B2)].
      + tauto.
      + rewrite A2 in B1. destruct B1; discriminate.
      + rewrite B2 in A1. destruct A1; discriminate.
      + eapply (cells_apart t u p q v w); eassumption.
    - cbn [bind]. exists lg. split; [reflexivity|exact HR].
  Qed.
End Rows.

(** The counting loop. *)
Section Count.
  Context {W : Type}.
  Variable weighted : bool.
  Variable L : ity.
  Variable c : csr W.
  Variable rows : list (list (Z * W)).
  Hypothesis Hrep : represents weighted c rows.
  Variable parts : list (list nat).
  Hypothesis HP : Permutation (concat parts) (seq 0 (length rows)).
  Variable degs : list Z.
  Hypothesis Hdegs : mapM (row_deg L c) (seq 0 (length rows)) = Ok degs.

  Lemma mapM_nth {A B} (f : A -> res B) l : forall r, mapM f l = Ok r -> length r = length l /\
    forall i a, nth_error l i = Some a -> exists b, f a = Ok b /\ nth_error r i = Some b.
  Proof.
    induction l as [|a l IH]; intros r E; cbn [mapM] in E.
    - injection E as <-. split; [reflexivity|]. intros [|i] a H; discriminate.
    - apply bind_ok_inv in E as (b & Eb & E). apply bind_ok_inv in E as (bs & Ebs & E). injection E as <-.
      destruct (IH bs Ebs) as [H1 H2]. split; [cbn; lia|]. intros [|i] x Hx; cbn [nth_error] in *; [injection Hx as <-; eauto|apply H2; exact Hx].
  Qed.

  Lemma count_ok sched : exists lg, interval (fun _ => count_exec L c) (count_acc c) sched parts (fresh (length rows)) = Ok (map Some degs, lg) /\ no_race lg.
  Proof.
    destruct (mapM_nth _ _ _ Hdegs) as [Hlen Hnth]. rewrite seq_length in Hlen.
    assert (HN : NoDup (concat parts)) by (eapply Permutation_NoDup; [apply Permutation_sym, HP|apply seq_NoDup]).
    assert (Hrd : forall v, v < length rows -> row_deg L c v = Ok (nth v degs 0%Z)).
    { intros v Hv. destruct (Hnth v v) as (b & Eb & Hb); [rewrite nth_error_seq' by exact Hv; reflexivity|].
      rewrite Eb. f_equal. symmetry. apply nth_error_nth. exact Hb. }
    assert (ER : run (count_exec L c) sched parts (fresh (length rows)) = Ok (map Some degs)).
    { rewrite run_trace. assert (HM : Permutation (map snd (trace sched parts)) (seq 0 (length rows))).
      { rewrite (merge_perm _ _ (trace_merge sched parts)). exact HP. }
      set (q := map snd (trace sched parts)) in *.
      assert (EQ : forall q s, Forall (fun v => v < length rows) q ->
        exec_all (count_exec L c) q s = exec_all (@sets_exec Z) (map (fun v => (v, nth v degs 0%Z)) q) s).
      { clear q HM. induction q as [|v q IH]; intros s HF; cbn [map exec_all]; [reflexivity|]. inversion HF as [|? ? Hv HF']; subst.
        unfold count_exec at 1. rewrite Hrd by exact Hv. cbn [bind]. unfold sets_exec at 1. cbn [fst snd]. apply bind_ext. intros s'. apply IH; exact HF'. }
      rewrite EQ by (apply Forall_forall; intros v Hv; apply (Permutation_in _ HM), in_seq in Hv; lia).
      pose proof (run_sets_all [] [map (fun v => (v, nth v degs 0%Z)) q] (fun v => nth v degs 0%Z) (length rows)) as HS.
      cbn [run concat] in HS. rewrite app_nil_r in HS. rewrite HS.
      - f_equal. apply nth_error_ext_all; [rewrite !map_length, seq_length; lia|]. intros i Hi. rewrite map_length, seq_length in Hi.
        rewrite !nth_error_map, nth_error_seq' by exact Hi. cbn [option_map plus]. rewrite (nth_error_nth' degs 0%Z) by lia. reflexivity.
      - apply Permutation_map. exact HM.
      - apply fresh_length. }
    refine (interval_run _ (count_acc c) _ _ _ _ ER _).
    intros t u p q v w si sj a b Hne Hp Hq Hv Hw Ha Hb (C1 & C2 & C3). unfold count_acc in Ha, Hb.
    assert (G : forall x v, In x ([rd SrcOffsets v; rd SrcOffsets (S v)] ++ map (rd SrcEnds) (row_cells (cs_off c) v) ++ [wr AllDegs v]) ->
        (snd x = Read /\ fst (fst x) <> AllDegs) \/ fst x = (AllDegs, v)).
    { clear. intros x v H. apply in_app_or in H as [H|H].
      - destruct H as [<-|[<-|[]]]; cbn; left; (split; [reflexivity|discriminate]).
      - apply in_app_or in H as [H|[<-|[]]]; [|right; reflexivity]. apply in_map_iff in H as (k & <- & Hk). cbn. left. split; [reflexivity|discriminate]. }
    apply G in Ha. apply G in Hb. rewrite <- C1 in Hb. destruct Ha as [(A1 & A2)|A1], Hb as [(B1 & B2)|B1].
    - tauto.
    - rewrite B1 in A2. cbn in A2. congruence.
    - rewrite A1 in B2. cbn in B2. congruence.
    - rewrite A1 in B1. injection B1 as <-. apply Hne. exact (disjoint_parts parts _ _ _ _ _ HN Hp Hq Hv Hw).
  Qed.
End Count.

(** ** Everything *)
Section All.
  Context {W : Type}.

  Lemma exec_all_reads (q : list (@dinstr W)) : forall s, exec_all copy_exec q s =
    exec_all rexec (flat_map (fun i => match i with DRead _ => [] | DStore r => [r] end) q) s.
  Proof.
    induction q as [|[v|r] q IH]; intros s; cbn [flat_map app exec_all copy_exec bind]; [reflexivity|apply IH|].
    apply bind_ext. intros s'. apply IH.
  Qed.

  Lemma head_code_in weighted (l : list (Z * W)) i : forall cur, In i (head_code weighted l cur) ->
    match i with REnd k _ | RWgt k _ => cur <= k < cur + length l end.
  Proof.
    induction l as [|q l IH]; intros cur H; cbn [head_code] in H; [destruct H|]. apply in_app_or in H as [H|H].
    - destruct weighted; cbn [In] in H; repeat (destruct H as [<-|H]; [cbn [length]; lia|]); destruct H.
    - specialize (IH (S cur) H). destruct i; cbn [length]; lia.
  Qed.

  Lemma rexec_snd (q : list (@rinstr W)) : forall s s', exec_all rexec q s = Ok s' -> (forall k w, ~ In (RWgt k w) q) -> snd s' = snd s.
  Proof.
    induction q as [|[k v|k v] q IH]; intros s s' E H; cbn [exec_all rexec] in E.
    - injection E as <-. reflexivity.
    - apply bind_ok_inv in E as (s1 & E1 & E). apply bind_ok_inv in E1 as (x & _ & E1). injection E1 as <-.
      apply IH in E; [exact E|]. intros k' w Hk. apply (H k' w). right; exact Hk.
    - exfalso. apply (H k v). left; reflexivity.
  Qed.

  (** What a thread touches while it copies its rows. *)
  Lemma copy_acc_in weighted (c : csr W) rows p i (a : access floc) t0 s0 :
    In i (concat (map (fun v => DRead v :: map DStore (dcode weighted rows v)) p)) -> In a (copy_acc weighted c t0 i s0) ->
    exists v, In v p /\ ((snd a = Read /\ fst (fst a) <> Endpoints /\ fst (fst a) <> Weights) \/
      ((fst (fst a) = Endpoints \/ fst (fst a) = Weights) /\
       length (concat (firstn v (map (heads None) rows))) <= snd (fst a) < length (concat (firstn v (map (heads None) rows))) + length (nth v (map (heads None) rows) []))).
  Proof.
    intros Hi Ha. apply in_concat in Hi as (cd & Hcd & Hi). apply in_map_iff in Hcd as (v & <- & Hv). exists v. split; [exact Hv|].
    destruct Hi as [<-|Hi].
    - left. cbn [copy_acc] in Ha. destruct Ha as [<-|Ha]; [cbn; split; [reflexivity|split; discriminate]|]. apply reads_in in Ha as (A1 & A2). split; [exact A1|].
      destruct A2 as [A2|([A2|A2] & _)]; rewrite A2; split; discriminate.
    - right. apply in_map_iff in Hi as (r & <- & Hr). apply head_code_in in Hr. cbn [copy_acc] in Ha.
      destruct r as [k z|k z]; destruct Ha as [<-|[]]; cbn; (split; [tauto|exact Hr]).
  Qed.

  Theorem without_dups_fine_ok (srt : list (Z * W) -> list (Z * W)) srt1 weighted L O (c : csr W) rows ch :
    is_ity L -> is_ity O -> sorts srt srt1 -> represents weighted c rows ->
    room L (cs_n c) -> (cs_m c <= imax O)%Z ->
    Forall (fun r => Forall (fun p => 0 <= fst p < imax L)%Z r) rows ->
    Permutation (concat (dc_sort (df_c ch))) (seq 0 (length rows)) ->
    Permutation (concat (df_count ch)) (seq 0 (length rows)) ->
    Permutation (concat (dc_copy (df_c ch))) (seq 0 (length rows)) ->
    dc_single (df_c ch) < dc_T (df_c ch) -> df_sum ch < dc_T (df_c ch) ->
    exists c' r logs, without_dups_fine srt srt1 weighted L O c ch = Ok (c', r, logs) /\ Forall no_race logs /\
      without_dups srt srt1 weighted L O c (df_c ch) = Ok (c', r).
  Proof.
    intros HL HO HS Hrep Hroom Hm Hlab HP1 HPc HP2 HT HT2. pose proof HS as [S1 S2 S3 S4].
    set (dc := df_c ch) in *.
    destruct (sort_ok srt srt1 S1 S3 weighted c rows Hrep (dc_sort dc) (dc_ssort dc) HP1) as (c' & Ec & Hrep' & Eo & En & Em & Enr & Enc).
    unfold without_dups, without_dups_fine. fold dc. rewrite Ec.
    destruct (sort_fine_ok weighted c rows Hrep (dc_sort dc) HP1 srt srt1 (dc_ssort dc) c' Ec) as (l0 & -> & R0). cbn [bind].
    set (srows := map (sorted_row srt srt1 weighted) rows) in *.
    assert (Hls : length srows = length rows) by (unfold srows; apply map_length).
    pose proof Hrep as (Rn & Rm & _). pose proof Hrep' as (Rn' & Rm' & _).
    destruct (Z.ltb_spec (cs_n c') 0); [lia|].
    assert (HLd : Forall (fun r => (Z.of_nat (length (heads None r)) <= imax L)%Z) srows).
    { apply Forall_forall. intros r Hr. unfold srows in Hr. apply in_map_iff in Hr as (r0 & <- & Hr0).
      assert (HA : ascending (sorted_row srt srt1 weighted r0)) by (apply sorted_row_asc; exact HS).
      destruct (heads_sorted (sorted_row srt srt1 weighted r0) None HA) as [HSS _]; [apply Forall_forall; intros; exact I|].
      rewrite <- (map_length fst). etransitivity; [apply (strict_len _ 0 (imax L))|pose proof (imax_pos L HL); lia].
      + exact HSS.
      + apply Forall_forall. intros z Hz. apply in_map_iff in Hz as (p & <- & Hp). apply heads_incl in Hp.
        rewrite Forall_forall in Hlab. specialize (Hlab r0 Hr0). rewrite Forall_forall in Hlab.
        assert (Hf : In (fst p) (map fst r0)).
        { unfold sorted_row in Hp. destruct weighted.
          - apply (Permutation_in _ (S1 r0)) in Hp. apply in_map; exact Hp.
          - apply (Permutation_in _ (S3 (map fst r0))). rewrite <- (combine_fst (srt1 (map fst r0)) (map snd r0)); [apply in_map; exact Hp|].
            rewrite (Permutation_length (S3 _)), !map_length. reflexivity. }
        apply in_map_iff in Hf as (q & <- & Hq). apply Hlab; exact Hq. }
    assert (Hcopy : Permutation (concat (dc_copy dc)) (seq 0 (length srows))) by (rewrite Hls; exact HP2).
    assert (Hmm : (Z.of_nat (length (concat srows)) <= imax O)%Z) by (rewrite <- Rm', Em; exact Hm).
    assert (EN : Z.to_nat (cs_n c') = length srows) by lia.
    assert (Hroom' : room L (Z.of_nat (length srows))) by (rewrite <- Rn', En; exact Hroom).
    destruct (dups_ok weighted L O HL HO c' srows Hrep' HLd Hmm (Z.to_nat (cs_n c')) (dc_T dc) (dc_single dc) (dc_soff dc) (dc_copy dc) (dc_scopy dc) Hroom' EN ltac:(lia) HT Hcopy)
      as (degs & off & st & E1 & E2 & ends & ws & offs & E3 & E4 & ps & E5 & E6 & Eoff & Eend & Ew).
    rewrite E1. cbn [bind]. rewrite E2. cbn [bind]. rewrite E3. cbn [bind]. rewrite E4. cbn [bind]. rewrite E5. cbn [bind]. rewrite E6. cbn [bind].
    set (drows := map (heads None) srows) in *.
    (* counting *)
    rewrite EN in E1, E4 |- *.
    destruct (count_ok L c' srows (df_count ch) ltac:(rewrite Hls; exact HPc) degs E1 (df_scount ch)) as (l1 & -> & R1). cbn [bind].
    destruct (mapM_nth _ _ _ E1) as [Hdl _]. rewrite seq_length in Hdl.
    assert (ED : mapM (fun v => cell_of v (map Some degs)) (seq 0 (length srows)) = Ok degs).
    { rewrite (mapM_ok _ (fun v => nth v degs 0%Z)).
      - f_equal. apply nth_error_ext_all; [rewrite map_length, seq_length; lia|]. intros i Hi. rewrite map_length, seq_length in Hi.
        rewrite nth_error_map, nth_error_seq' by exact Hi. cbn [option_map plus]. symmetry. apply nth_error_nth'. lia.
      - intros v Hv. apply in_seq in Hv. apply cell_of_some. rewrite nth_error_map, (nth_error_nth' degs 0%Z) by lia. reflexivity. }
    rewrite ED. cbn [bind]. rewrite E2. cbn [bind]. rewrite E3. cbn [bind].
    (* the degrees *)
    set (ds := map (wrap O) degs) in *.
    assert (EDs : degs = map (fun r => Z.of_nat (length r)) drows).
    { apply nth_error_ext_all; [unfold drows; rewrite !map_length; lia|]. intros i Hi. rewrite Hdl in Hi.
      destruct (mapM_nth _ _ _ E1) as [_ Hn']. destruct (nth_error srows i) as [r|] eqn:Er; [|apply nth_error_None in Er; lia].
      destruct (Hn' i i) as (b & Eb & Hb); [rewrite nth_error_seq' by exact Hi; reflexivity|].
      rewrite (row_deg_ok weighted L HL c' srows Hrep' HLd i r Er) in Eb. injection Eb as <-. rewrite Hb.
      unfold drows. rewrite !nth_error_map, Er. reflexivity. }
    assert (HposG : Forall (fun d => 0 <= d)%Z degs) by (rewrite EDs; apply Forall_forall; intros d Hd; apply in_map_iff in Hd as (r & <- & _); lia).
    assert (Hzs : zsum degs = Z.of_nat (length (concat drows))) by (rewrite EDs; apply zsum_lengths).
    pose proof (drows_len_le srows) as HDL. fold drows in HDL.
    assert (Ewr : ds = degs).
    { unfold ds. rewrite <- (map_id degs) at 2. apply map_ext_in. intros d Hd. apply wrap_small; [exact HO|].
      rewrite Forall_forall in HposG. split; [apply HposG; exact Hd|].
      assert (d <= zsum degs)%Z; [|lia]. clear -Hd HposG. revert HposG Hd. induction degs as [|a l IH]; intros HF Hd; [destruct Hd|].
      cbn [zsum fold_right]. fold (zsum l). assert (0 <= zsum l)%Z by (apply zsum_nonneg, Forall_forall; intros x Hx; apply HF; right; exact Hx).
      pose proof (HF a (or_introl eq_refl)). destruct Hd as [->|Hd]; [lia|]. specialize (IH (fun x Hx => HF x (or_intror Hx)) Hd). lia. }
    rewrite Ewr in *.
    assert (Hfit : (zsum degs <= imax O)%Z) by lia.
    assert (Hoffs : length offs = S (length srows)).
    { unfold csr_alloc in E3. apply bind_ok_inv in E3 as (e0 & _ & E3). apply bind_ok_inv in E3 as (w0 & _ & E3).
      apply bind_ok_inv in E3 as (n1 & En1 & E3). apply bind_ok_inv in E3 as (o0 & Eo0 & E3). injection E3 as _ _ <-.
      rewrite Rn' in En1. assert (H0 : (0 <= Z.of_nat (length srows))%Z) by lia. rewrite (plus1_ok L _ HL H0 Hroom') in En1. injection En1 as <-. rewrite alloc_ok in Eo0 by lia. injection Eo0 as <-. rewrite fresh_length. lia. }
    set (none := mkCoo (W:=W) [] [] [] None None None 0).
    set (T := dc_T dc) in *. assert (HT0 : 0 < T) by lia.
    destruct (lab_ok O HO false none (length srows) (Z.of_nat (length (concat drows))) degs Hdl HposG Hfit T HT0 offs [] [] []
      (fresh T) (fresh T) (fresh T) (df_s2 ch) (fresh T) (fresh T) (fresh T) ltac:(discriminate) (fresh_length _) (fresh_length _) (fresh_length _))
      as (this & my & l2 & A2 & R2).
    rewrite A2. cbn [bind]. clear A2.
    destruct (sum_ok O HO false none (length srows) (Z.of_nat (length (concat drows))) degs Hdl HposG Hfit T HT0 (df_sum ch) HT2
      (map Some degs) [] offs [] [] this my (fresh T) (fresh T) (df_s3 ch) (fresh T) (fresh_length _)) as (tot & l3 & A3 & R3).
    rewrite A3. cbn [bind]. clear A3.
    destruct (store_ok O HO false none (length srows) (Z.of_nat (length (concat drows))) degs Hdl HposG Hfit T HT0 (dc_single dc) HT
      (map Some degs) [] [] eq_refl [] this my tot (fresh T) (dc_soff dc) offs (fresh T) Hoffs (fresh_length _)) as (cur & l4 & A4 & R4); [lia|].
    rewrite A4. cbn [bind f_off]. clear A4.
    assert (EO : map (fun v => Some (D degs v)) (seq 0 (S (length srows))) = off).
    { rewrite Eoff. unfold drows at 2. rewrite map_length. apply map_ext. intros v. rewrite EDs, D_lengths. reflexivity. }
    rewrite EO.
    (* copying *)
    assert (Hrow : forall v, In v (concat (dc_copy dc)) -> exists r, nth_error srows v = Some r /\ copy_row weighted c' off v = Ok (dcode weighted srows v)).
    { intros v Hv. apply (Permutation_in _ Hcopy), in_seq in Hv. destruct (nth_error srows v) as [r|] eqn:Er; [|apply nth_error_None in Er; lia].
      exists r. split; [reflexivity|]. apply (copy_row_ok weighted c' srows Hrep' off v r Er). apply cell_of_some. rewrite Eoff, nth_error_map, nth_error_seq' by (unfold drows; rewrite map_length; lia).
      reflexivity. }
    set (dprog := fun v => DRead v :: map DStore (dcode weighted srows v)).
    assert (HPS : mapM (fun p => codes <- mapM (copy_prog weighted c' off) p ;; Ok (concat codes)) (dc_copy dc) = Ok (map (fun p => concat (map dprog p)) (dc_copy dc))).
    { apply mapM_ok. intros p Hp. rewrite (mapM_ok _ dprog); [reflexivity|]. intros v Hv.
      destruct (Hrow v) as (r & _ & Er); [apply in_concat; eauto|]. unfold copy_prog. rewrite Er. reflexivity. }
    rewrite HPS. cbn [bind].
    destruct (dcodes_ok weighted c' srows Hrep' (dc_copy dc) Hcopy) as [HH HCov]. fold drows in HH, HCov.
    set (fps := map (fun p => concat (map dprog p)) (dc_copy dc)) in *.
    set (ops := map (fun p => concat (map (dcode weighted srows) p)) (dc_copy dc)) in *.
    assert (Eps : ps = ops).
    { assert (HX : mapM (fun p => codes <- mapM (copy_row weighted c' off) p ;; Ok (concat codes)) (dc_copy dc) = Ok ops).
      { apply mapM_ok. intros p Hp. rewrite (mapM_ok _ (dcode weighted srows)); [reflexivity|]. intros v Hv.
        destruct (Hrow v) as (r & _ & Er); [apply in_concat; eauto|exact Er]. }
      congruence. }
    assert (Hle : length ends = length (concat drows) /\ (weighted = true -> length ws = length (concat drows)) /\ (weighted = false -> ws = [])).
    { unfold csr_alloc in E3. rewrite alloc_ok in E3 by lia. cbn [bind] in E3. apply bind_ok_inv in E3 as (w0 & Ew0 & E3).
      apply bind_ok_inv in E3 as (n1 & En1 & E3). apply bind_ok_inv in E3 as (o0 & Eo0 & E3). injection E3 as <- <- _. rewrite fresh_length. split; [lia|].
      clear - Ew0. destruct weighted; (split; [|]); intros Hw; try discriminate.
      - rewrite alloc_ok in Ew0 by lia. injection Ew0 as <-. rewrite fresh_length. lia.
      - injection Ew0 as <-. reflexivity. }
    destruct Hle as (Hle1 & Hle2 & Hle3).
    set (strip := fun i : @dinstr W => match i with DRead _ => [] | DStore r => [r] end).
    assert (HinS : forall r, In r (concat ops) <-> In r (flat_map strip (map snd (trace (dc_scopy dc) fps)))).
    { assert (HinD : forall d, In d (map snd (trace (dc_scopy dc) fps)) <-> In d (concat fps)).
      { intros d. pose proof (merge_perm _ _ (trace_merge (dc_scopy dc) fps)) as HPm.
        split; apply Permutation_in; [exact HPm|apply Permutation_sym; exact HPm]. }
      intros r. rewrite in_flat_map. unfold ops. rewrite in_concat. split.
      - intros (q & Hq & Hr). apply in_map_iff in Hq as (p & <- & Hp). apply in_concat in Hr as (cd & Hcd & Hr). apply in_map_iff in Hcd as (v & <- & Hv).
        exists (DStore r). split; [|left; reflexivity]. apply HinD. apply in_concat. exists (concat (map dprog p)). split.
        + unfold fps. apply in_map_iff. exists p. split; [reflexivity|exact Hp].
        + apply in_concat. exists (dprog v). split; [apply in_map; exact Hv|]. right. apply in_map. exact Hr.
      - intros (d & Hd & Hr). apply HinD in Hd. apply in_concat in Hd as (q & Hq & Hd). unfold fps in Hq. apply in_map_iff in Hq as (p & <- & Hp).
        apply in_concat in Hd as (cd & Hcd & Hd). apply in_map_iff in Hcd as (v & <- & Hv). destruct d as [w|r']; [destruct Hr|]. destruct Hr as [->|[]].
        destruct Hd as [Hd|Hd]; [discriminate|]. apply in_map_iff in Hd as (r' & Er' & Hr'). injection Er' as ->.
        exists (concat (map (dcode weighted srows) p)). split; [apply in_map_iff; eauto|]. apply in_concat. exists (dcode weighted srows v). split; [apply in_map; exact Hv|exact Hr']. }
    assert (ER : run copy_exec (dc_scopy dc) fps (ends, ws) = Ok st).
    { rewrite run_trace, exec_all_reads. fold strip. set (Q := flat_map strip (map snd (trace (dc_scopy dc) fps))) in *.
      destruct (run_rfill weighted (concat drows) [Q] [] (ends, ws)) as (st' & Est' & F1 & F2).
      - cbn [concat]. rewrite app_nil_r. apply Forall_forall. intros r Hr. apply HinS in Hr. rewrite Forall_forall in HH. apply HH; exact Hr.
      - cbn [concat]. rewrite app_nil_r. intros k Hk. destruct (HCov k Hk) as ((v & Hv) & HW). split.
        + exists v. apply HinS; exact Hv.
        + intros Hw. destruct (HW Hw) as (w & Hw'). exists w. apply HinS; exact Hw'.
      - exact Hle1.
      - exact Hle2.
      - cbn [run concat] in Est'. rewrite app_nil_r in Est'. rewrite Est'. f_equal.
        assert (Hf : fst st' = fst st) by congruence. assert (Hs : snd st' = snd st).
        { destruct (Bool.bool_dec weighted true) as [Hw|Hw]; [rewrite F2, Ew by exact Hw; reflexivity|]. apply Bool.not_true_is_false in Hw.
          rewrite run_trace, Eps in E6. pose proof (merge_perm _ _ (trace_merge (dc_scopy dc) ops)) as HPm.
          rewrite (rexec_snd _ _ _ E6), (rexec_snd _ _ _ Est'); [reflexivity| |].
          - intros k w Hk. apply HinS in Hk. rewrite Forall_forall in HH. destruct (HH _ Hk) as [HX _]. congruence.
          - intros k w Hk. apply (Permutation_in _ HPm) in Hk. rewrite Forall_forall in HH. destruct (HH _ Hk) as [HX _]. congruence. }
        destruct st, st'. cbn [fst snd] in *. congruence. }
    destruct (interval_run _ (copy_acc weighted c') _ _ _ _ ER) as (l5 & -> & R5).
    { intros t u p q i j si sj a b Hne Hp Hq Hi Hj Ha Hb (C1 & C2 & C3).
      unfold fps in Hp, Hq. rewrite nth_error_map in Hp, Hq.
      destruct (nth_error (dc_copy dc) t) as [vs|] eqn:Et; [|discriminate]. destruct (nth_error (dc_copy dc) u) as [wsl|] eqn:Eu; [|discriminate].
      injection Hp as <-. injection Hq as <-.
      destruct (copy_acc_in _ _ _ _ _ _ _ _ Hi Ha) as (v & Hv & Hva). destruct (copy_acc_in _ _ _ _ _ _ _ _ Hj Hb) as (w & Hw & Hwb).
      assert (HN : NoDup (concat (dc_copy dc))) by (eapply Permutation_NoDup; [apply Permutation_sym, HP2|apply seq_NoDup]).
      assert (Hrv : exists r, nth_error drows v = Some r).
      { destruct (Hrow v) as (r & Er & _); [apply in_concat; exists vs; split; [eapply nth_error_In; exact Et|exact Hv]|].
        exists (heads None r). unfold drows. rewrite nth_error_map, Er. reflexivity. }
      assert (Hrw : exists r, nth_error drows w = Some r).
      { destruct (Hrow w) as (r & Er & _); [apply in_concat; exists wsl; split; [eapply nth_error_In; exact Eu|exact Hw]|].
        exists (heads None r). unfold drows. rewrite nth_error_map, Er. reflexivity. }
      destruct Hrv as (rv & Hrv). destruct Hrw as (rw & Hrw). fold drows in Hva, Hwb. rewrite (nth_error_nth _ _ _ Hrv) in Hva. rewrite (nth_error_nth _ _ _ Hrw) in Hwb.
      destruct Hva as [(V1 & V2)|(V1 & V2)], Hwb as [(B1 & B2)|(B1 & B2)].
      - tauto.
      - rewrite C1 in V2. destruct B1 as [B1|B1]; rewrite B1 in V2; tauto.
      - rewrite <- C1 in B2. destruct V1 as [V1|V1]; rewrite V1 in B2; tauto.
      - rewrite <- C1 in B2. pose proof (rows_apart drows v w rv rw _ Hrv Hrw V2 B2) as ->.
        apply Hne. exact (disjoint_parts (dc_copy dc) _ _ _ _ _ HN Et Eu Hv Hw). }
    cbn [bind]. exists c', (mkCsr off (fst st) (snd st) (cs_n c') (Z.of_nat (length (concat drows))) (cs_nrows c') (cs_ncols c')), [l0; l1; l2; l3; l4; l5].
    split; [reflexivity|]. split; [|reflexivity]. repeat (constructor; [assumption|]). constructor.
  Qed.
End All.
