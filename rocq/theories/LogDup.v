From Verif Require Import Base Sched SchedLemmas Coo Ascii Csr Graph SpecRace Race CsrLemmas CsrFine DupFine GraphFine ElSpec SpecLog Log.

Lemma idx_of_range off v k len : row_range off v = Ok (k, len) -> row_cells off v = seq k len.
Proof. intros H. unfold row_cells. now rewrite H. Qed.

Section Arrays.
  Context {A : Type}.
  Lemma get_eq : forall ks (l1 l2 : list (option A)) r, (forall k, In k ks -> nth_error l1 k = nth_error l2 k) ->
    mapM (fun k => cell_of k l1) ks = Ok r -> mapM (fun k => cell_of k l2) ks = Ok r.
  Proof.
    induction ks as [|k ks IH]; intros l1 l2 r H E; cbn [mapM] in *; [exact E|].
    apply bind_ok_inv in E as (a & Ea & E). apply bind_ok_inv in E as (b & Eb & E).
    rewrite (cell_eq _ _ _ _ (H k (or_introl eq_refl)) Ea). cbn [bind].
    rewrite (IH l1 l2 b (fun k' I => H k' (or_intror I)) Eb). exact E.
  Qed.

  Lemma get_length : forall ks (l : list (option A)) r, mapM (fun k => cell_of k l) ks = Ok r -> length r = length ks.
  Proof.
    induction ks as [|k ks IH]; intros l r E; cbn [mapM] in E.
    - injection E as <-. reflexivity.
    - apply bind_ok_inv in E as (a & _ & E). apply bind_ok_inv in E as (b & Eb & E). injection E as <-. cbn. f_equal. eapply IH; eauto.
  Qed.

  Lemma set_inv : forall (vs : list A) k l l', set_range k vs l = Ok l' ->
    (forall j, (j < k \/ k + length vs <= j) -> nth_error l' j = nth_error l j) /\
    (forall i v, nth_error vs i = Some v -> nth_error l' (k + i) = Some (Some v)) /\
    (forall j, k <= j < k + length vs -> nth_error l j <> None).
  Proof.
    induction vs as [|v vs IH]; intros k l l' E; cbn [set_range] in E.
    - injection E as <-. split; [reflexivity|]. split; [|cbn; lia]. intros [|i] v H; discriminate.
    - apply bind_ok_inv in E as (l1 & E1 & E). destruct (aset_inv _ _ _ _ E1) as (A1 & A2 & A3). destruct (IH _ _ _ E) as (B1 & B2 & B3).
      cbn [length]. split; [|split].
      + intros j Hj. rewrite B1 by lia. apply A3. lia.
      + intros [|i] w H; cbn [nth_error] in H.
        * injection H as <-. rewrite Nat.add_0_r. rewrite B1 by lia. exact A2.
        * replace (k + S i) with (S k + i) by lia. now apply B2.
      + intros j Hj. destruct (Nat.eq_dec j k) as [->|]; [exact A1|]. rewrite <- (A3 j) by lia. apply B3. lia.
  Qed.

  Lemma set_def : forall (vs : list A) k l, (forall j, k <= j < k + length vs -> nth_error l j <> None) -> exists l', set_range k vs l = Ok l'.
  Proof.
    induction vs as [|v vs IH]; intros k l H; cbn [set_range]; [eauto|].
    destruct (aset_def k v l) as [l1 E]; [apply H; cbn; lia|]. rewrite E. cbn [bind]. apply IH.
    intros j Hj. destruct (aset_inv _ _ _ _ E) as (_ & _ & X). rewrite X by lia. apply H. cbn; lia.
  Qed.
End Arrays.

Section Dup.
  Context {W : Type}.

  (** The arrays of a CSR, the new offsets and what is written. *)
  Definition dview (e : csr W * list (option Z)) (s : list (option Z) * list (option W)) (l : floc) : option (option (Z + W)) :=
    let '(a, i) := l in
    match a with
    | SrcOffsets => zcell (cs_off (fst e)) i | SrcEnds => zcell (cs_end (fst e)) i | SrcWeights => wcell (cs_w (fst e)) i
    | Offsets => zcell (snd e) i | Endpoints => zcell (fst s) i | Weights => wcell (snd s) i
    | _ => None
    end.
  (** [sort]: the arrays of the CSR itself are written. *)
  Definition sview (off : list (option Z)) (s : list (option Z) * list (option W)) (l : floc) : option (option (Z + W)) :=
    let '(a, i) := l in
    match a with SrcOffsets => zcell off i | SrcEnds => zcell (fst s) i | SrcWeights => wcell (snd s) i | _ => None end.
  (** Counting. *)
  Definition nview (c : csr W) (degs : list (option Z)) (l : floc) : option (option (Z + W)) :=
    let '(a, i) := l in
    match a with SrcOffsets => zcell (cs_off c) i | SrcEnds => zcell (cs_end c) i | AllDegs => zcell degs i | _ => None end.

  Variable srt : list (Z * W) -> list (Z * W).
  Variable srt1 : list Z -> list Z.
  Hypothesis Hs : forall l, length (srt l) = length l.
  Hypothesis Hs1 : forall l, length (srt1 l) = length l.
  Variable weighted : bool.

  Lemma range_eq off1 off2 v r : nth_error off1 v = nth_error off2 v -> nth_error off1 (S v) = nth_error off2 (S v) ->
    row_range off1 v = Ok r -> row_range off2 v = Ok r.
  Proof.
    intros H1 H2 E. unfold row_range in *. apply bind_ok_inv in E as (a & Ea & E). apply bind_ok_inv in E as (b & Eb & E).
    rewrite (cell_eq _ _ _ _ H1 Ea). cbn [bind]. rewrite (cell_eq _ _ _ _ H2 Eb). exact E.
  Qed.
  Lemma cells_eq off1 off2 v : nth_error off1 v = nth_error off2 v -> nth_error off1 (S v) = nth_error off2 (S v) -> row_cells off1 v = row_cells off2 v.
  Proof.
    intros H1 H2. unfold row_cells. destruct (row_range off1 v) as [[k len]| | |] eqn:E.
    - now rewrite (range_eq _ _ _ _ H1 H2 E).
    - destruct (row_range off2 v) as [[k len]| | |] eqn:F; try reflexivity. symmetry in H1, H2. rewrite (range_eq _ _ _ _ H1 H2 F) in E. discriminate.
    - destruct (row_range off2 v) as [[k len]| | |] eqn:F; try reflexivity. symmetry in H1, H2. rewrite (range_eq _ _ _ _ H1 H2 F) in E. discriminate.
    - destruct (row_range off2 v) as [[k len]| | |] eqn:F; try reflexivity. symmetry in H1, H2. rewrite (range_eq _ _ _ _ H1 H2 F) in E. discriminate.
  Qed.

  Lemma in_row_reads off v l k : In (l, k) (row_reads weighted off v) -> k = Read.
  Proof.
    unfold row_reads. rewrite !in_app_iff. intros [H|[H|H]].
    - cbn [In] in H. unfold rd in H. destruct H as [H|[H|[]]]; congruence.
    - apply in_map_iff in H as (x & H & _). unfold rd in H. congruence.
    - destruct weighted; [|destruct H]. apply in_map_iff in H as (x & H & _). unfold rd in H. congruence.
  Qed.

  Lemma sort_len ys ws k len (l1 : list (option Z)) (l2 : list (option W)) : get_range k len l1 = Ok ys -> get_range k len l2 = Ok ws -> length (srt (combine ys ws)) = len.
  Proof. intros E1 E2. apply get_length in E1, E2. rewrite seq_length in E1, E2. rewrite Hs, combine_length, E1, E2. apply Nat.min_id. Qed.
  Lemma sort_len1 ys k len (l1 : list (option Z)) : get_range k len l1 = Ok ys -> length (srt1 ys) = len.
  Proof. intros E1. apply get_length in E1. rewrite seq_length in E1. now rewrite Hs1. Qed.

  Lemma sort_complete : log_complete (fun off (_ : nat) => sort_exec srt srt1 weighted off) (fun off => sort_acc weighted off) sview (fun _ _ => tt).
  Proof.
    split.
    - intros off t v s s' E. split; [|reflexivity]. unfold sort_exec in E. apply bind_ok_inv in E as ([k len] & ER & E).
      apply bind_ok_inv in E as (ys & EY & E). intros [a j] Hl.
      assert (HE : In j (seq k len) -> a <> SrcEnds).
      { intros Hj ->. specialize (Hl Write). discriminate Hl. unfold sort_acc. rewrite !in_app_iff. right. left. rewrite (idx_of_range _ _ _ _ ER). apply (in_map (wr SrcEnds)). exact Hj. }
      assert (HW : In j (seq k len) -> weighted = true -> a <> SrcWeights).
      { intros Hj Hw ->. specialize (Hl Write). discriminate Hl. unfold sort_acc. rewrite !in_app_iff. right. right. rewrite (idx_of_range _ _ _ _ ER), Hw. apply (in_map (wr SrcWeights)). exact Hj. }
      rewrite in_seq in HE, HW.
      destruct weighted.
      + apply bind_ok_inv in E as (ws & EW & E). cbv zeta in E. apply bind_ok_inv in E as (e' & E1 & E). apply bind_ok_inv in E as (w' & E2 & E). injection E as <-.
        pose proof (sort_len _ _ _ _ _ _ EY EW) as HL.
        destruct (set_inv _ _ _ _ E1) as (F1 & _). destruct (set_inv _ _ _ _ E2) as (F2 & _). rewrite map_length, HL in F1, F2.
        destruct a; cbn [sview fst snd]; try reflexivity.
        * apply zcell_eq, F1. destruct (Nat.lt_ge_cases j k); [auto|]. destruct (Nat.lt_ge_cases j (k + len)); [|auto]. exfalso. apply HE; [lia|reflexivity].
        * apply wcell_eq, F2. destruct (Nat.lt_ge_cases j k); [auto|]. destruct (Nat.lt_ge_cases j (k + len)); [|auto]. exfalso. apply HW; [lia|reflexivity|reflexivity].
      + apply bind_ok_inv in E as (e' & E1 & E). injection E as <-. pose proof (sort_len1 _ _ _ _ EY) as HL.
        destruct (set_inv _ _ _ _ E1) as (F1 & _). rewrite HL in F1. destruct a; cbn [sview fst snd]; try reflexivity.
        apply zcell_eq, F1. destruct (Nat.lt_ge_cases j k); [auto|]. destruct (Nat.lt_ge_cases j (k + len)); [|auto]. exfalso. apply HE; [lia|reflexivity].
    - intros off1 off2 t v s1 s2 s1' E _ HD HR.
      assert (O1 : nth_error off1 v = nth_error off2 v).
      { apply (zcell_inj (W:=W)). apply (HR (SrcOffsets, v) Read); [|discriminate]. unfold sort_acc, row_reads. cbn [app In]. auto. }
      assert (O2 : nth_error off1 (S v) = nth_error off2 (S v)).
      { apply (zcell_inj (W:=W)). apply (HR (SrcOffsets, S v) Read); [|discriminate]. unfold sort_acc, row_reads. cbn [app In]. auto. }
      pose proof (cells_eq _ _ _ O1 O2) as HC.
      assert (EA : sort_acc weighted off2 t v s2 = sort_acc weighted off1 t v s1) by (unfold sort_acc, row_reads; now rewrite HC).
      unfold sort_exec in *. apply bind_ok_inv in E as ([k len] & ER & E). rewrite (range_eq _ _ _ _ O1 O2 ER). cbn [bind].
      pose proof (idx_of_range _ _ _ _ ER) as RC. apply bind_ok_inv in E as (ys & EY & E).
      assert (RE : forall j, In j (seq k len) -> nth_error (fst s1) j = nth_error (fst s2) j).
      { intros j Hj. apply (zcell_inj (W:=W)). apply (HR (SrcEnds, j) Read); [|discriminate]. unfold sort_acc, row_reads. rewrite RC, !in_app_iff. left. right. left. apply (in_map (rd SrcEnds)). exact Hj. }
      unfold get_range in *. rewrite (get_eq _ _ _ _ RE EY). cbn [bind].
      assert (DE : forall j, nth_error (fst s1) j <> None -> nth_error (fst s2) j <> None).
      { intros j Hj X. apply Hj. pose proof (HD (SrcEnds, j)) as Y. cbn [sview] in Y. rewrite !zcell_none in Y. tauto. }
      assert (DW : forall j, nth_error (snd s1) j <> None -> nth_error (snd s2) j <> None).
      { intros j Hj X. apply Hj. pose proof (HD (SrcWeights, j)) as Y. cbn [sview] in Y. rewrite !wcell_none in Y. tauto. }
      assert (NR : forall l kk, In (l, kk) (sort_acc weighted off1 t v s1) -> kk <> Read ->
        exists j, In j (seq k len) /\ (l = (SrcEnds, j) \/ (weighted = true /\ l = (SrcWeights, j)))).
      { intros l kk I K. unfold sort_acc in I. rewrite !in_app_iff, RC in I. destruct I as [I|[I|I]].
        - apply in_row_reads in I. congruence.
        - apply in_map_iff in I as (x & I & J). unfold wr in I. exists x. split; [exact J|]. left. congruence.
        - destruct weighted; [|destruct I]. apply in_map_iff in I as (x & I & J). unfold wr in I. exists x. split; [exact J|]. right. split; [reflexivity|congruence]. }
      destruct weighted.
      + apply bind_ok_inv in E as (ws & EW & E). cbv zeta in E. apply bind_ok_inv in E as (e' & E1 & E). apply bind_ok_inv in E as (w' & E2 & E). injection E as <-.
        assert (RW : forall j, In j (seq k len) -> nth_error (snd s1) j = nth_error (snd s2) j).
        { intros j Hj. apply wcell_inj. apply (HR (SrcWeights, j) Read); [|discriminate]. unfold sort_acc, row_reads. rewrite RC, !in_app_iff. left. right. right. apply (in_map (rd SrcWeights)). exact Hj. }
        rewrite (get_eq _ _ _ _ RW EW). cbn [bind]. cbv zeta.
        pose proof (sort_len ys ws k len _ _ EY EW) as HL.
        destruct (set_inv _ _ _ _ E1) as (_ & F1 & G1). destruct (set_inv _ _ _ _ E2) as (_ & F2 & G2).
        destruct (set_def (map fst (srt (combine ys ws))) k (fst s2)) as [e2 Ee]; [intros j Hj; apply DE, G1; exact Hj|].
        destruct (set_def (map snd (srt (combine ys ws))) k (snd s2)) as [w2 Ew]; [intros j Hj; apply DW, G2; exact Hj|].
        rewrite Ee, Ew. cbn [bind]. eexists. split; [reflexivity|]. split; [exact EA|]. split; [reflexivity|].
        destruct (set_inv _ _ _ _ Ee) as (_ & F3 & _). destruct (set_inv _ _ _ _ Ew) as (_ & F4 & _).
        intros l kk I K. destruct (NR l kk I K) as (j & Hj & [->|[_ ->]]); cbn [sview fst snd]; apply in_seq in Hj.
        * apply zcell_eq. destruct (nth_error (map fst (srt (combine ys ws))) (j - k)) as [x|] eqn:X.
          -- pose proof (F1 _ _ X) as Y1. pose proof (F3 _ _ X) as Y2. replace (k + (j - k)) with j in * by lia. congruence.
          -- apply nth_error_None in X. rewrite map_length, HL in X. lia.
        * apply wcell_eq. destruct (nth_error (map snd (srt (combine ys ws))) (j - k)) as [x|] eqn:X.
          -- pose proof (F2 _ _ X) as Y1. pose proof (F4 _ _ X) as Y2. replace (k + (j - k)) with j in * by lia. congruence.
          -- apply nth_error_None in X. rewrite map_length, HL in X. lia.
      + apply bind_ok_inv in E as (e' & E1 & E). injection E as <-. pose proof (sort_len1 ys k len _ EY) as HL.
        destruct (set_inv _ _ _ _ E1) as (_ & F1 & G1).
        destruct (set_def (srt1 ys) k (fst s2)) as [e2 Ee]; [intros j Hj; apply DE, G1; exact Hj|].
        rewrite Ee. cbn [bind]. eexists. split; [reflexivity|]. split; [exact EA|]. split; [reflexivity|].
        destruct (set_inv _ _ _ _ Ee) as (_ & F3 & _).
        intros l kk I K. destruct (NR l kk I K) as (j & Hj & [->|[X _]]); [|discriminate]. cbn [sview fst snd]; apply in_seq in Hj.
        apply zcell_eq. destruct (nth_error (srt1 ys) (j - k)) as [x|] eqn:X.
        * pose proof (F1 _ _ X) as Y1. pose proof (F3 _ _ X) as Y2. replace (k + (j - k)) with j in * by lia. congruence.
        * apply nth_error_None in X. rewrite HL in X. lia.
  Qed.

  (** ** Counting and copying *)
  Lemma row_deg_eq L (c1 c2 : csr W) v d :
    nth_error (cs_off c1) v = nth_error (cs_off c2) v -> nth_error (cs_off c1) (S v) = nth_error (cs_off c2) (S v) ->
    (forall j, In j (row_cells (cs_off c1) v) -> nth_error (cs_end c1) j = nth_error (cs_end c2) j) ->
    row_deg L c1 v = Ok d -> row_deg L c2 v = Ok d.
  Proof.
    intros H1 H2 H3 E. unfold row_deg in *. apply bind_ok_inv in E as (a & Ea & E). apply bind_ok_inv in E as (b & Eb & E).
    rewrite (cell_eq _ _ _ _ H1 Ea). cbn [bind]. rewrite (cell_eq _ _ _ _ H2 Eb). cbn [bind].
    destruct (b - a =? 0)%Z; [exact E|]. destruct (b <? a)%Z; [exact E|].
    apply bind_ok_inv in E as (k & Ek & E). rewrite Ek. cbn [bind]. apply bind_ok_inv in E as (ys & EY & E).
    assert (RC : row_cells (cs_off c1) v = seq k (Z.to_nat (b - a))). { apply idx_of_range. unfold row_range. rewrite Ea. cbn [bind]. rewrite Eb. cbn [bind]. now rewrite Ek. }
    rewrite RC in H3. unfold get_range in *. rewrite (get_eq _ _ _ _ H3 EY). exact E.
  Qed.

  Lemma count_complete L : log_complete (fun c (_ : nat) => count_exec L c) count_acc nview (fun _ _ => tt).
  Proof.
    split.
    - intros c t v s s' E. split; [|reflexivity]. unfold count_exec in E. apply bind_ok_inv in E as (d & _ & E).
      intros [a j] Hl. destruct a; cbn [nview]; try reflexivity. apply zcell_eq. apply (proj2 (proj2 (aset_inv _ _ _ _ E))).
      intros <-. specialize (Hl Write). discriminate Hl. unfold count_acc. rewrite !in_app_iff. right. right. cbn [In]. auto.
    - intros c1 c2 t v s1 s2 s1' E _ HD HR.
      assert (O1 : nth_error (cs_off c1) v = nth_error (cs_off c2) v).
      { apply (zcell_inj (W:=W)). apply (HR (SrcOffsets, v) Read); [|discriminate]. unfold count_acc. cbn [app In]. auto. }
      assert (O2 : nth_error (cs_off c1) (S v) = nth_error (cs_off c2) (S v)).
      { apply (zcell_inj (W:=W)). apply (HR (SrcOffsets, S v) Read); [|discriminate]. unfold count_acc. cbn [app In]. auto. }
      pose proof (cells_eq _ _ _ O1 O2) as HC.
      assert (RE : forall j, In j (row_cells (cs_off c1) v) -> nth_error (cs_end c1) j = nth_error (cs_end c2) j).
      { intros j Hj. apply (zcell_inj (W:=W)). apply (HR (SrcEnds, j) Read); [|discriminate]. unfold count_acc. rewrite !in_app_iff. right. left. apply (in_map (rd SrcEnds)). exact Hj. }
      unfold count_exec in *. apply bind_ok_inv in E as (d & Ed & E). rewrite (row_deg_eq L c1 c2 v d O1 O2 RE Ed). cbn [bind].
      destruct (aset_def v d s2) as [s2' F].
      { intros X. apply (proj1 (aset_inv _ _ _ _ E)). pose proof (HD (AllDegs, v)) as Y. cbn [nview] in Y. rewrite !zcell_none in Y. tauto. }
      exists s2'. split; [exact F|]. split; [unfold count_acc; now rewrite HC|]. split; [reflexivity|].
      intros l k I K. unfold count_acc in I. rewrite !in_app_iff in I. destruct I as [I|[I|I]].
      + cbn [In] in I. unfold rd in I. destruct I as [I|[I|[]]]; congruence.
      + apply in_map_iff in I as (x & I & _). unfold rd in I. congruence.
      + destruct I as [I|[]]. unfold wr in I. injection I as <- <-. cbn [nview]. apply zcell_eq.
        rewrite (proj1 (proj2 (aset_inv _ _ _ _ E))), (proj1 (proj2 (aset_inv _ _ _ _ F))). reflexivity.
  Qed.

  (** What a thread stores for a row depends only on the loads logged for it. *)
  Lemma copy_runs_eq (c1 c2 : csr W) : forall len p k cur code,
    (forall j, k <= j < k + len -> nth_error (cs_end c1) j = nth_error (cs_end c2) j) ->
    (weighted = true -> forall j, k <= j < k + len -> nth_error (cs_w c1) j = nth_error (cs_w c2) j) ->
    copy_runs weighted c1 p len k cur = Ok code -> copy_runs weighted c2 p len k cur = Ok code.
  Proof.
    induction len as [|len IH]; intros p k cur code H1 H2 E; cbn [copy_runs] in *; [exact E|].
    apply bind_ok_inv in E as (y & Ey & E). rewrite (cell_eq _ _ _ _ (H1 k ltac:(lia)) Ey). cbn [bind].
    assert (G : forall p' cur' code', copy_runs weighted c1 p' len (S k) cur' = Ok code' -> copy_runs weighted c2 p' len (S k) cur' = Ok code').
    { intros p' cur' code' F. apply IH; [|intros Hw| exact F]; intros j Hj; [apply H1|apply H2; [exact Hw|]]; lia. }
    destruct (match p with None => false | Some q => (q =? y)%Z end); [now apply G|].
    apply bind_ok_inv in E as (cd & Ec & E). apply bind_ok_inv in E as (r & Er & E).
    assert (EC : (if weighted then a <- cell_of k (cs_w c2) ;; Ok [REnd cur y; RWgt cur a] else Ok [REnd cur y]) = Ok cd).
    { destruct weighted; [|exact Ec]. apply bind_ok_inv in Ec as (a & Ea & Ec). rewrite (cell_eq _ _ _ _ (H2 eq_refl k ltac:(lia)) Ea). exact Ec. }
    rewrite EC. cbn [bind]. rewrite (G _ _ _ Er). exact E.
  Qed.

  Lemma copy_prog_logged (e1 e2 : csr W * list (option Z)) v t s1 s2 code :
    copy_prog weighted (fst e1) (snd e1) v = Ok code ->
    (forall l k, In (l, k) (copy_acc weighted (fst e1) t (DRead v) s1) -> dview e1 s1 l = dview e2 s2 l) ->
    copy_prog weighted (fst e2) (snd e2) v = Ok code.
  Proof.
    intros E HR. cbn [copy_acc] in HR. unfold row_reads in HR.
    assert (O0 : nth_error (snd e1) v = nth_error (snd e2) v). { apply (zcell_inj (W:=W)). apply (HR (Offsets, v) Read). cbn [app In]. auto. }
    assert (O1 : nth_error (cs_off (fst e1)) v = nth_error (cs_off (fst e2)) v). { apply (zcell_inj (W:=W)). apply (HR (SrcOffsets, v) Read). cbn [app In]. auto. }
    assert (O2 : nth_error (cs_off (fst e1)) (S v) = nth_error (cs_off (fst e2)) (S v)). { apply (zcell_inj (W:=W)). apply (HR (SrcOffsets, S v) Read). cbn [app In]. auto. }
    unfold copy_prog in *. apply bind_ok_inv in E as (cd & E & F). enough (X : copy_row weighted (fst e2) (snd e2) v = Ok cd) by (rewrite X; exact F).
    unfold copy_row in *. apply bind_ok_inv in E as (a & Ea & E). apply bind_ok_inv in E as (b & Eb & E).
    rewrite (cell_eq _ _ _ _ O1 Ea). cbn [bind]. rewrite (cell_eq _ _ _ _ O2 Eb). cbn [bind].
    destruct (b - a =? 0)%Z; [exact E|]. destruct (b <? a)%Z; [exact E|].
    apply bind_ok_inv in E as (k & Ek & E). rewrite Ek. cbn [bind]. apply bind_ok_inv in E as (o & Eo & E).
    rewrite (cell_eq _ _ _ _ O0 Eo). cbn [bind]. apply bind_ok_inv in E as (cur & Ec & E). rewrite Ec. cbn [bind].
    assert (RC : row_cells (cs_off (fst e1)) v = seq k (Z.to_nat (b - a))). { apply idx_of_range. unfold row_range. rewrite Ea. cbn [bind]. rewrite Eb. cbn [bind]. now rewrite Ek. }
    rewrite RC in HR. refine (copy_runs_eq _ _ _ _ _ _ _ _ _ E).
    - intros j Hj. apply (zcell_inj (W:=W)). apply (HR (SrcEnds, j) Read). right. rewrite !in_app_iff. right. left. apply (in_map (rd SrcEnds)). apply in_seq. lia.
    - intros Hw j Hj. apply wcell_inj. apply (HR (SrcWeights, j) Read). right. rewrite !in_app_iff. right. right. rewrite Hw. apply (in_map (rd SrcWeights)). apply in_seq. lia.
  Qed.

  Lemma copy_complete : log_complete (fun (_ : csr W * list (option Z)) (_ : nat) => copy_exec) (fun e => copy_acc weighted (fst e)) dview (fun _ _ => tt).
  Proof.
    split.
    - intros e t i s s' E. split; [|reflexivity]. intros [a j] Hl. destruct i as [v|[p v|p v]]; cbn [copy_exec rexec] in E.
      + injection E as <-. reflexivity.
      + apply bind_ok_inv in E as (x & Ex & E). injection E as <-. destruct a; cbn [dview fst snd]; try reflexivity.
        apply zcell_eq. apply (proj2 (proj2 (aset_inv _ _ _ _ Ex))). intros <-. discriminate (Hl Write ltac:(cbn; auto)).
      + apply bind_ok_inv in E as (x & Ex & E). injection E as <-. destruct a; cbn [dview fst snd]; try reflexivity.
        apply wcell_eq. apply (proj2 (proj2 (aset_inv _ _ _ _ Ex))). intros <-. discriminate (Hl Write ltac:(cbn; auto)).
    - intros e1 e2 t i s1 s2 s1' E _ HD HR. destruct i as [v|[p v|p v]]; cbn [copy_exec rexec copy_acc] in *.
      + injection E as <-. exists s2. split; [reflexivity|]. unfold row_reads in HR.
        assert (O1 : nth_error (cs_off (fst e1)) v = nth_error (cs_off (fst e2)) v). { apply (zcell_inj (W:=W)). apply (HR (SrcOffsets, v) Read); [|discriminate]. cbn [app In]. auto. }
        assert (O2 : nth_error (cs_off (fst e1)) (S v) = nth_error (cs_off (fst e2)) (S v)). { apply (zcell_inj (W:=W)). apply (HR (SrcOffsets, S v) Read); [|discriminate]. cbn [app In]. auto. }
        split; [unfold row_reads; now rewrite (cells_eq _ _ _ O1 O2)|]. split; [reflexivity|].
        intros l k I K. exfalso. apply K. destruct I as [I|I]; [unfold rd in I; congruence|]. eapply in_row_reads; eauto.
      + apply bind_ok_inv in E as (x & Ex & E). injection E as <-. destruct (aset_def p v (fst s2)) as [x2 F].
        { intros X. apply (proj1 (aset_inv _ _ _ _ Ex)). pose proof (HD (Endpoints, p)) as Y. cbn [dview] in Y. rewrite !zcell_none in Y. tauto. }
        rewrite F. cbn [bind]. eexists. split; [reflexivity|]. split; [reflexivity|]. split; [reflexivity|].
        intros l k [I|[]] K. unfold wr in I. injection I as <- <-. cbn [dview fst snd]. apply zcell_eq.
        rewrite (proj1 (proj2 (aset_inv _ _ _ _ Ex))), (proj1 (proj2 (aset_inv _ _ _ _ F))). reflexivity.
      + apply bind_ok_inv in E as (x & Ex & E). injection E as <-. destruct (aset_def p v (snd s2)) as [x2 F].
        { intros X. apply (proj1 (aset_inv _ _ _ _ Ex)). pose proof (HD (Weights, p)) as Y. cbn [dview] in Y. rewrite !wcell_none in Y. tauto. }
        rewrite F. cbn [bind]. eexists. split; [reflexivity|]. split; [reflexivity|]. split; [reflexivity|].
        intros l k [I|[]] K. unfold wr in I. injection I as <- <-. cbn [dview fst snd]. apply wcell_eq.
        rewrite (proj1 (proj2 (aset_inv _ _ _ _ Ex))), (proj1 (proj2 (aset_inv _ _ _ _ F))). reflexivity.
  Qed.
End Dup.
