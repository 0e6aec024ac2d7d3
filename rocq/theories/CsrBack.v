(** * CsrBack: conversion of a CSR to a COO *)

From Coq Require Import Permutation.
From Verif Require Import Base Sched SchedLemmas SchedMore Coo Ascii Csr ElSpec SpecText SpecCsr CsrLemmas CsrScatter CsrMain.

(** ** Stores of the cells of a target *)
Section Fill.
  Context {W : Type}.
  Variable weighted : bool.
  Variable tgt : list (Z * Z * W).

  Definition hits (i : cinstr W) : Prop :=
    match i with
    | SetX k v => nth_error (map (fun e => fst (fst e)) tgt) k = Some v
    | SetY k v => nth_error (map (fun e => snd (fst e)) tgt) k = Some v
    | SetW k v => weighted = true /\ nth_error (map snd tgt) k = Some v
    | CopyW _ _ => False
    end.

  Definition cstate (p : list (cinstr W)) (s : cst W) : Prop :=
    filled (map (fun e => fst (fst e)) tgt) (cx s) (fun k => exists v, In (SetX k v) p) /\
    filled (map (fun e => snd (fst e)) tgt) (cy s) (fun k => exists v, In (SetY k v) p) /\
    (weighted = true -> filled (map snd tgt) (cw s) (fun k => exists v, In (SetW k v) p)).

  Lemma cstate_step p i s : hits i -> cstate p s -> exists s', cexec i s = Ok s' /\ cstate (p ++ [i]) s'.
  Proof.
    intros Hi (F1 & F2 & F3). destruct i as [k v|k v|k v|a b]; cbn [hits cexec] in *.
    - destruct (filled_set _ _ _ _ _ F1 Hi) as (x' & -> & F'). cbn [bind]. eexists. split; [reflexivity|].
      split; [|split]; cbn [cx cy cw].
      + eapply filled_mono; [exact F'|]. intros j (u & Hu). apply in_app_or in Hu as [Hu|[Hu|[]]]; [left; eauto|right]. congruence.
      + eapply filled_mono; [exact F2|]. intros j (u & Hu). apply in_app_or in Hu as [Hu|[Hu|[]]]; [eauto|discriminate].
      + intros Ew. eapply filled_mono; [exact (F3 Ew)|]. intros j (u & Hu). apply in_app_or in Hu as [Hu|[Hu|[]]]; [eauto|discriminate].
    - destruct (filled_set _ _ _ _ _ F2 Hi) as (x' & -> & F'). cbn [bind]. eexists. split; [reflexivity|].
      split; [|split]; cbn [cx cy cw].
      + eapply filled_mono; [exact F1|]. intros j (u & Hu). apply in_app_or in Hu as [Hu|[Hu|[]]]; [eauto|discriminate].
      + eapply filled_mono; [exact F'|]. intros j (u & Hu). apply in_app_or in Hu as [Hu|[Hu|[]]]; [left; eauto|right]. congruence.
      + intros Ew. eapply filled_mono; [exact (F3 Ew)|]. intros j (u & Hu). apply in_app_or in Hu as [Hu|[Hu|[]]]; [eauto|discriminate].
    - destruct Hi as [Ew Hi]. destruct (filled_set _ _ _ _ _ (F3 Ew) Hi) as (x' & -> & F'). cbn [bind]. eexists. split; [reflexivity|].
      split; [|split]; cbn [cx cy cw].
      + eapply filled_mono; [exact F1|]. intros j (u & Hu). apply in_app_or in Hu as [Hu|[Hu|[]]]; [eauto|discriminate].
      + eapply filled_mono; [exact F2|]. intros j (u & Hu). apply in_app_or in Hu as [Hu|[Hu|[]]]; [eauto|discriminate].
      + intros _. eapply filled_mono; [exact F'|]. intros j (u & Hu). apply in_app_or in Hu as [Hu|[Hu|[]]]; [left; eauto|right]. congruence.
    - contradiction.
  Qed.

  Lemma cstate_run q : forall p s, Forall hits q -> cstate p s -> exists s', exec_all cexec q s = Ok s' /\ cstate (p ++ q) s'.
  Proof.
    induction q as [|i q IH]; intros p s HF HC; cbn [exec_all].
    - exists s. rewrite app_nil_r. auto.
    - inversion HF as [|? ? Hi HF']; subst. destruct (cstate_step p i s) as (s1 & -> & G1); [assumption|assumption|]. cbn [bind].
      destruct (IH (p ++ [i]) s1) as (s2 & E & G2); [assumption|exact G1|]. exists s2. rewrite <- app_assoc in G2. auto.
  Qed.

  Lemma run_fill ps sched s0 :
    Forall hits (concat ps) ->
    (forall k, k < length tgt -> (exists v, In (SetX k v) (concat ps)) /\ (exists v, In (SetY k v) (concat ps)) /\
       (weighted = true -> exists v, In (SetW k v) (concat ps))) ->
    length (cx s0) = length tgt -> length (cy s0) = length tgt -> (weighted = true -> length (cw s0) = length tgt) ->
    exists s, run cexec sched ps s0 = Ok s /\
      cx s = map (fun e => Some (fst (fst e))) tgt /\ cy s = map (fun e => Some (snd (fst e))) tgt /\
      (weighted = true -> cw s = map (fun e => Some (snd e)) tgt).
  Proof.
    intros HF HA H1 H2 H3. destruct (run_merge cexec sched ps) as (l & HM & ->). pose proof (merge_perm _ _ HM) as HP.
    assert (HIn : forall i, In i (concat ps) -> In i l) by (intros i; apply (Permutation_in _ (Permutation_sym HP))).
    destruct (cstate_run l [] s0) as (s & E & F1 & F2 & F3).
    - apply Forall_forall. intros i Hi. rewrite Forall_forall in HF. apply HF. apply (Permutation_in _ HP); exact Hi.
    - split; [|split]; [| |intros Ew]; (split; [rewrite map_length; auto|intros k v (u & [])]).
    - exists s. split; [exact E|]. cbn [app] in *.
      rewrite (filled_all _ _ _ F1), (filled_all _ _ _ F2).
      + rewrite !map_map. split; [reflexivity|]. split; [reflexivity|]. intros Ew. rewrite (filled_all _ _ _ (F3 Ew)).
        * rewrite map_map. reflexivity.
        * intros k Hk. rewrite map_length in Hk. destruct (HA k Hk) as (_ & _ & HW). destruct (HW Ew) as (v & Hv). eauto.
      + intros k Hk. rewrite map_length in Hk. destruct (HA k Hk) as (_ & (v & Hv) & _). eauto.
      + intros k Hk. rewrite map_length in Hk. destruct (HA k Hk) as ((v & Hv) & _). eauto.
  Qed.
End Fill.

(** ** The stores of one row *)
Section Back.
  Context {W : Type}.
  Variable fl : flags.
  Variable weighted : bool.
  Hypothesis Hfl : f_sym fl = true \/ f_ut fl = false.

  Definition inc : nat := if f_sym fl && negb (f_ut fl) then 2 else 1.
  Notation X := (from_csr (f_sym fl) (f_ut fl)).

  Fixpoint row_code (v : Z) (r : list (Z * W)) (pos : nat) : list (cinstr W) :=
    match r with
    | [] => []
    | p :: r' => csr_entry fl (if weighted then Some (snd p) else None) v (fst p) pos ++ row_code v r' (pos + inc)
    end.

  Lemma X_len e : length (@from_csr W (f_sym fl) (f_ut fl) e) = inc.
  Proof. destruct e as [[x y] w]. unfold from_csr, inc. destruct (f_sym fl), (f_ut fl); reflexivity. Qed.
  Lemma flat_X_len (l : list (Z * Z * W)) : length (flat_map X l) = inc * length l.
  Proof. induction l as [|e l IH]; cbn [flat_map length]; [lia|]. rewrite app_length, X_len, IH. lia. Qed.

  (** The stores of one entry, in a target where its image is at [length A]. *)
  Lemma entry_hits A B v (p : Z * W) i tgt : tgt = A ++ X (v, fst p, snd p) ++ B ->
    In i (csr_entry fl (if weighted then Some (snd p) else None) v (fst p) (length A)) -> hits weighted tgt i.
  Proof.
    intros -> Hi. destruct p as [y w]. cbn [fst snd] in *. unfold from_csr in *. unfold csr_entry in Hi.
    assert (N0 : forall {U} (f : Z * Z * W -> U) a r, nth_error (map f (A ++ a :: r)) (length A) = Some (f a)).
    { intros U f a r. rewrite nth_error_map, nth_error_app2, Nat.sub_diag by lia. reflexivity. }
    assert (N1 : forall {U} (f : Z * Z * W -> U) a b r, nth_error (map f (A ++ a :: b :: r)) (length A + 1) = Some (f b)).
    { intros U f a b r. rewrite nth_error_map, nth_error_app2 by lia. replace (length A + 1 - length A) with 1 by lia. reflexivity. }
    destruct (f_sym fl) eqn:Es, (f_ut fl) eqn:Eu; cbn [andb negb] in *; try (destruct Hfl; discriminate).
    - destruct (Z.ltb_spec y v) as [Hlt|Hge].
      + rewrite Z.min_r, Z.max_l by lia. cbn [app] in *. destruct Hi as [<-|[<-|Hi]]; cbn [hits].
        * apply (N0 _ (fun e => fst (fst e))).
        * apply (N0 _ (fun e => snd (fst e))).
        * destruct weighted; [|destruct Hi]. destruct Hi as [<-|[]]. split; [reflexivity|apply (N0 _ snd)].
      + rewrite Z.min_l, Z.max_r by lia. cbn [app] in *. destruct Hi as [<-|[<-|Hi]]; cbn [hits].
        * apply (N0 _ (fun e => fst (fst e))).
        * apply (N0 _ (fun e => snd (fst e))).
        * destruct weighted; [|destruct Hi]. destruct Hi as [<-|[]]. split; [reflexivity|apply (N0 _ snd)].
    - cbn [app] in *. destruct Hi as [<-|[<-|Hi]]; cbn [hits].
      + apply (N0 _ (fun e => fst (fst e))).
      + apply (N0 _ (fun e => snd (fst e))).
      + apply in_app_or in Hi as [Hi|[<-|[<-|Hi]]]; cbn [hits].
        * destruct weighted; [|destruct Hi]. destruct Hi as [<-|[]]. split; [reflexivity|apply (N0 _ snd)].
        * apply (N1 _ (fun e => fst (fst e))).
        * apply (N1 _ (fun e => snd (fst e))).
        * destruct weighted; [|destruct Hi]. destruct Hi as [<-|[]]. split; [reflexivity|apply (N1 _ snd)].
    - cbn [app] in *. destruct Hi as [<-|[<-|Hi]]; cbn [hits].
      + apply (N0 _ (fun e => fst (fst e))).
      + apply (N0 _ (fun e => snd (fst e))).
      + destruct weighted; [|destruct Hi]. destruct Hi as [<-|[]]. split; [reflexivity|apply (N0 _ snd)].
  Qed.

  Lemma entry_writes v (p : Z * W) pos :
    flat_map writes (csr_entry fl (if weighted then Some (snd p) else None) v (fst p) pos) =
    flat_map (fun k => [CX k; CY k] ++ if weighted then [CW k] else []) (seq pos inc).
  Proof.
    unfold csr_entry, inc. destruct (f_sym fl), (f_ut fl), weighted; cbn [andb negb]; try destruct (fst p <? v)%Z; cbn; rewrite ?Nat.add_1_r; reflexivity.
  Qed.

  Lemma row_hits v r : forall A B tgt, tgt = A ++ flat_map X (map (fun p => (v, fst p, snd p)) r) ++ B ->
    Forall (hits weighted tgt) (row_code v r (length A)).
  Proof.
    induction r as [|p r IH]; intros A B tgt Et; cbn [row_code]; [constructor|]. cbn [map flat_map] in Et.
    apply Forall_app. split.
    - apply Forall_forall. intros i Hi. eapply (entry_hits A (flat_map X (map (fun p => (v, fst p, snd p)) r) ++ B)); [|exact Hi].
      rewrite Et, <- app_assoc. reflexivity.
    - specialize (IH (A ++ X (v, fst p, snd p)) B tgt). rewrite app_length, X_len in IH. apply IH. rewrite Et, <- !app_assoc. reflexivity.
  Qed.

  Definition cells (s len : nat) : list cell :=
    flat_map (fun k => [CX k; CY k] ++ if weighted then [CW k] else []) (seq s len).

  Lemma row_writes v r : forall pos, flat_map writes (row_code v r pos) = cells pos (inc * length r).
  Proof.
    induction r as [|p r IH]; intros pos; cbn [row_code]; [cbn [length]; rewrite Nat.mul_0_r; reflexivity|].
    rewrite flat_map_app, entry_writes, IH. unfold cells. rewrite <- flat_map_app, <- seq_app. do 2 f_equal. cbn [length]. lia.
  Qed.

  Lemma cells_in s len c : In c (cells s len) <->
    match c with CX k | CY k => s <= k < s + len | CW k => weighted = true /\ s <= k < s + len end.
  Proof.
    unfold cells. rewrite in_flat_map. split.
    - intros (k & Hk & Hc). apply in_seq in Hk. destruct weighted; cbn in Hc; intuition (subst; auto).
    - destruct c as [k|k|k]; intros H.
      + exists k. split; [apply in_seq; lia|left; reflexivity].
      + exists k. split; [apply in_seq; lia|right; left; reflexivity].
      + destruct H as [-> H]. exists k. split; [apply in_seq; lia|right; right; left; reflexivity].
  Qed.

  Lemma cells_nodup s len : NoDup (cells s len).
  Proof.
    revert s. induction len as [|len IH]; intros s; [constructor|]. unfold cells in *. cbn [seq flat_map].
    assert (HN : forall k, In (CX k) (cells (S s) len) \/ In (CY k) (cells (S s) len) \/ In (CW k) (cells (S s) len) -> s < k).
    { intros k. rewrite !cells_in. intuition lia. }
    assert (H1 : ~ In (CX s) (cells (S s) len)) by (rewrite cells_in; lia).
    assert (H2 : ~ In (CY s) (cells (S s) len)) by (rewrite cells_in; lia).
    assert (H3 : ~ In (CW s) (cells (S s) len)) by (rewrite cells_in; lia).
    unfold cells in H1, H2, H3. destruct weighted; cbn [app]; repeat constructor; try apply IH; cbn [In]; intuition congruence.
  Qed.

  (** ** All rows *)
  (** The code of row [v]. *)
  Definition code_of (rows : list (list (Z * W))) (v : nat) : list (cinstr W) :=
    row_code (Z.of_nat v) (nth v rows []) (inc * length (concat (firstn v rows))).

  Lemma entries_from_split (rows : list (list (Z * W))) : forall v0 v, v < length rows ->
    exists A B, entries_from v0 rows = A ++ map (fun p => (Z.of_nat (v0 + v), fst p, snd p)) (nth v rows []) ++ B /\
      length A = length (concat (firstn v rows)).
  Proof.
    induction rows as [|r rows IH]; intros v0 v Hv; cbn [length] in Hv; [lia|]. destruct v as [|v]; cbn [entries_from nth firstn concat].
    - exists [], (entries_from (S v0) rows). rewrite Nat.add_0_r. auto.
    - destruct (IH (S v0) v ltac:(lia)) as (A & B & E & HA). exists (map (fun p => (Z.of_nat v0, fst p, snd p)) r ++ A), B.
      rewrite E, <- app_assoc. replace (S v0 + v) with (v0 + S v) by lia. split; [reflexivity|]. rewrite !app_length, map_length. lia.
  Qed.

  Lemma entries_length rows : forall v0, length (@entries_from W v0 rows) = length (concat rows).
  Proof. induction rows as [|r rows IH]; intros v0; cbn [entries_from concat]; [reflexivity|]. rewrite !app_length, map_length, IH. reflexivity. Qed.

  Lemma code_hits rows v : v < length rows -> Forall (hits weighted (flat_map X (entries rows))) (code_of rows v).
  Proof.
    intros Hv. destruct (entries_from_split rows 0 v Hv) as (A & B & E & HA). unfold code_of. rewrite <- HA, <- flat_X_len.
    eapply row_hits. unfold entries. rewrite E. rewrite !flat_map_app. reflexivity.
  Qed.

  Lemma codes_writes rows : flat_map writes (concat (map (code_of rows) (seq 0 (length rows)))) =
    cells 0 (length (flat_map X (entries rows))).
  Proof.
    assert (G : forall k, k <= length rows -> flat_map writes (concat (map (code_of rows) (seq 0 k))) = cells 0 (inc * length (concat (firstn k rows)))).
    { induction k as [|k IH]; intros Hk; [cbn; rewrite Nat.mul_0_r; reflexivity|].
      rewrite seq_S, map_app, concat_app, flat_map_app, IH by lia. cbn [map concat plus]. rewrite app_nil_r.
      unfold code_of. rewrite row_writes. unfold cells. rewrite <- flat_map_app.
      replace (seq (inc * length (concat (firstn k rows)))) with (seq (0 + inc * length (concat (firstn k rows)))) by reflexivity.
      rewrite <- seq_app. do 2 f_equal.
      destruct (nth_error rows k) as [r|] eqn:Er; [|apply nth_error_None in Er; lia].
      rewrite (concat_split_len _ _ _ Er). rewrite (nth_error_nth _ _ [] Er). lia. }
    rewrite G by lia. rewrite firstn_all. f_equal. rewrite flat_X_len. unfold entries. rewrite entries_length. reflexivity.
  Qed.

  Lemma writes_set (l : list (cinstr W)) (H : forall a b, ~ In (CopyW a b) l) c : In c (flat_map writes l) ->
    match c with CX k => exists v, In (SetX k v) l | CY k => exists v, In (SetY k v) l | CW k => exists v, In (SetW k v) l end.
  Proof.
    intros Hc. apply in_flat_map in Hc as (i & Hi & Hw). destruct i as [k v|k v|k v|a b]; cbn in Hw.
    - destruct Hw as [<-|[]]. eauto.
    - destruct Hw as [<-|[]]. eauto.
    - destruct Hw as [<-|[]]. eauto.
    - exfalso. eapply H; exact Hi.
  Qed.

  (** ** Loading the rows *)
  Variable c : csr W.
  Variable rows : list (list (Z * W)).
  Hypothesis Hrep : represents weighted c rows.

  Lemma cell_off v : v <= length rows -> cell_of v (cs_off c) = Ok (Z.of_nat (length (concat (firstn v rows)))).
  Proof.
    intros H. destruct Hrep as (_ & _ & E & _). rewrite E. apply cell_of_some. rewrite nth_error_map, nth_error_seq' by lia. reflexivity.
  Qed.

  Lemma row_loop_ok v r : forall k pos,
    (forall j p, nth_error r j = Some p -> nth_error (concat rows) (k + j) = Some p) ->
    csr_row_loop fl weighted c v (length r) k pos = Ok (row_code v r pos).
  Proof.
    induction r as [|p r IH]; intros k pos H; cbn [length csr_row_loop row_code]; [reflexivity|].
    destruct Hrep as (_ & _ & _ & HE & HW).
    pose proof (H 0 p eq_refl) as H0. rewrite Nat.add_0_r in H0.
    rewrite HE, (cell_of_map (fun p => fst p) _ _ _ H0). cbn [bind].
    set (w := if weighted then _ else _).
    assert (Ew : w = Ok (if weighted then Some (snd p) else None)).
    { unfold w. destruct weighted; [|reflexivity]. rewrite HW by reflexivity. rewrite (cell_of_map (fun p => snd p) _ _ _ H0). reflexivity. }
    rewrite Ew. cbn [bind]. change (if f_sym fl && negb (f_ut fl) then 2 else 1) with inc.
    rewrite IH; [reflexivity|]. intros j q Hq. replace (S k + j) with (k + S j) by lia. apply H. exact Hq.
  Qed.

  Lemma csr_row_ok v : v < length rows -> csr_row fl weighted c v = Ok (code_of rows v).
  Proof.
    intros Hv. unfold csr_row. rewrite (cell_off v) by lia. cbn [bind]. rewrite (cell_off (S v)) by lia. cbn [bind].
    unfold idx. destruct (Z.ltb_spec (Z.of_nat (length (concat (firstn v rows)))) 0); [lia|]. cbn [bind]. rewrite Nat2Z.id.
    destruct (nth_error rows v) as [r|] eqn:Er; [|apply nth_error_None in Er; lia].
    rewrite (concat_split_len _ _ _ Er). replace (Z.to_nat _) with (length r) by lia.
    unfold code_of. rewrite (nth_error_nth _ _ [] Er). rewrite row_loop_ok.
    - f_equal. f_equal. unfold inc. destruct (f_sym fl && negb (f_ut fl)); lia.
    - intros j p Hp. eapply nth_error_concat; eassumption.
  Qed.

  Definition progs (parts : list (list nat)) : list (list (cinstr W)) :=
    map (fun p => concat (map (code_of rows) p)) parts.

  Lemma progs_concat parts : concat (progs parts) = concat (map (code_of rows) (concat parts)).
  Proof.
    unfold progs. induction parts as [|p ps IH]; [reflexivity|]. cbn [map concat]. rewrite IH, map_app, concat_app. reflexivity.
  Qed.

  Lemma progs_ok parts : Permutation (concat parts) (seq 0 (length rows)) ->
    csr_progs fl weighted c parts = Ok (progs parts).
  Proof.
    unfold csr_progs.
    intros HP. apply mapM_ok. intros p Hp. rewrite (mapM_ok _ (code_of rows)); [reflexivity|].
    intros v Hv. apply csr_row_ok. assert (In v (seq 0 (length rows))).
    { apply (Permutation_in _ HP). apply in_concat. eauto. } apply in_seq in H. lia.
  Qed.

  Lemma progs_perm parts : Permutation (concat parts) (seq 0 (length rows)) ->
    Permutation (flat_map writes (concat (progs parts))) (cells 0 (length (flat_map X (entries rows)))).
  Proof.
    intros HP. rewrite progs_concat, <- codes_writes. rewrite <- !flat_map_concat_map. apply Permutation_flat_map.
    apply Permutation_flat_map. exact HP.
  Qed.

  Lemma progs_hits parts : Permutation (concat parts) (seq 0 (length rows)) ->
    Forall (hits weighted (flat_map X (entries rows))) (concat (progs parts)).
  Proof.
    intros HP. rewrite progs_concat. apply Forall_forall. intros i Hi. apply in_concat in Hi as (cd & Hcd & Hi).
    apply in_map_iff in Hcd as (v & <- & Hv). apply (Permutation_in _ HP), in_seq in Hv.
    pose proof (code_hits rows v ltac:(lia)) as HF. rewrite Forall_forall in HF. apply HF; exact Hi.
  Qed.

  Lemma progs_race_free parts : Permutation (concat parts) (seq 0 (length rows)) ->
    race_free weighted (length (flat_map X (entries rows))) (progs parts).
  Proof.
    intros HP. pose proof (progs_perm parts HP) as HW. pose proof (progs_hits parts HP) as HH.
    assert (HND : NoDup (flat_map writes (concat (progs parts)))).
    { eapply Permutation_NoDup; [apply Permutation_sym, HW|apply cells_nodup]. }
    assert (HR : flat_map reads (concat (progs parts)) = []).
    { clear -HH. induction HH as [|i l Hi HH IH]; [reflexivity|]. cbn [flat_map]. rewrite IH. destruct i; cbn in *; try reflexivity; contradiction. }
    split; [exact HND|]. split; [|split].
    - intros ce. split; intros H.
      + apply (Permutation_in _ HW) in H. apply cells_in in H. destruct ce; cbn [cell_ok]; intuition lia.
      + apply (Permutation_in _ (Permutation_sym HW)). apply cells_in. destruct ce; cbn [cell_ok] in H; intuition lia.
    - rewrite HR. intros ce [].
    - intros i j p q ce Hij Hp Hq Hc Hq'.
      assert (Hsub : forall i p, nth_error (progs parts) i = Some p -> incl p (concat (progs parts))).
      { intros i0 p0 H0 x Hx. apply in_concat. exists p0. split; [eapply nth_error_In; exact H0|exact Hx]. }
      destruct Hc as [Hc|Hc].
      + revert HND Hp Hq Hij Hc Hq'. clear. generalize (progs parts) as ps. intros ps HND Hp Hq Hij Hc Hq'.
        assert (G : forall (ps : list (list (cinstr W))) i j p q, i < j -> nth_error ps i = Some p -> nth_error ps j = Some q ->
          NoDup (flat_map writes (concat ps)) -> In ce (flat_map writes p) -> In ce (flat_map writes q) -> False).
        { clear. induction ps as [|a ps IH]; intros i j p q Hlt Hp Hq HN H1 H2; [destruct i; discriminate|].
          cbn [concat] in HN. rewrite flat_map_app in HN. apply NoDup_app_inv in HN as (_ & HN2 & HD).
          destruct j as [|j]; [lia|]. cbn [nth_error] in Hq. destruct i as [|i]; cbn [nth_error] in Hp.
          - injection Hp as ->. apply (HD ce H1). apply in_flat_map in H2 as (x & Hx & Hw). apply in_flat_map. exists x. split; [|exact Hw].
            apply in_concat. exists q. split; [eapply nth_error_In; exact Hq|exact Hx].
          - eapply (IH i j); eauto; lia. }
        destruct (Nat.lt_total i j) as [H|[H|H]]; [|contradiction|].
        * eapply (G ps i j p q); eauto.
        * eapply (G ps j i q p); eauto.
      + assert (In ce (flat_map reads (concat (progs parts)))); [|rewrite HR in H; exact H].
        apply in_flat_map in Hc as (x & Hx & Hr). apply in_flat_map. exists x. split; [exact (Hsub i p Hp x Hx)|exact Hr].
  Qed.

  Theorem convert_csr_ok O parts sched :
    is_ity O -> f_sl fl = false ->
    (Z.of_nat (length (flat_map X (entries rows))) <= imax O)%Z ->
    Permutation (concat parts) (seq 0 (length rows)) ->
    exists r, convert_csr O fl weighted c parts sched = Ok r /\
      holds r (flat_map X (entries rows)) /\ (weighted = true -> holds_weights r (flat_map X (entries rows))) /\
      co_n r = Some (Z.of_nat (length rows)) /\ co_nrows r = None /\ co_ncols r = None.
  Proof.
    intros HO Hsl Hm HP. unfold convert_csr. pose proof Hrep as (Hn & Hcm & _).
    set (N := length (flat_map X (entries rows))) in *.
    assert (EN : N = inc * length (concat rows)) by (unfold N; rewrite flat_X_len; unfold entries; rewrite entries_length; reflexivity).
    set (m' := if f_sym fl && negb (f_ut fl) then _ else _).
    assert (Em : m' = Ok (Z.of_nat N)).
    { unfold m'. unfold inc in EN. destruct (f_sym fl) eqn:Es, (f_ut fl) eqn:Eu; cbn [andb negb] in *; try (destruct Hfl; discriminate).
      - rewrite Hcm. f_equal. lia.
      - rewrite Hcm, arith_small; [f_equal; lia|exact HO|lia].
      - rewrite Hcm. f_equal. lia. }
    rewrite Em. cbn [bind]. rewrite Hsl. unfold coo_alloc. destruct (Z.ltb_spec (Z.of_nat N) 0); [lia|]. cbn [bind].
    rewrite Nat2Z.id. rewrite (progs_ok parts HP). cbn [bind].
    destruct (run_fill weighted (flat_map X (entries rows)) (progs parts) sched
      (mkCst (fresh N) (fresh N) (if weighted then fresh N else []))) as (s & -> & E1 & E2 & E3).
    - apply progs_hits; exact HP.
    - intros k Hk. pose proof (progs_race_free parts HP) as (_ & HC & _).
      assert (HNC : forall a b, ~ In (CopyW a b) (concat (progs parts))).
      { intros a b Hi. pose proof (progs_hits parts HP) as HH. rewrite Forall_forall in HH. apply (HH _ Hi). }
      split; [|split].
      + apply (writes_set _ HNC (CX k)). apply HC. exact Hk.
      + apply (writes_set _ HNC (CY k)). apply HC. exact Hk.
      + intros Ew. apply (writes_set _ HNC (CW k)). apply HC. split; [exact Ew|exact Hk].
    - apply fresh_length.
    - apply fresh_length.
    - intros ->. apply fresh_length.
    - cbn [bind]. eexists. split; [reflexivity|]. unfold holds, holds_weights. cbn [co_m co_x co_y co_w co_n co_nrows co_ncols].
      split; [split; [reflexivity|split; assumption]|]. split; [exact E3|]. rewrite Hn. auto.
  Qed.
End Back.

(** ** Rows and entries *)
Section RowsEntries.
  Context {W : Type}.

  (** Entries grouped by row. *)
  Lemma entries_rows_perm n (l : list (Z * Z * W)) : Forall (fun e => 0 <= fst (fst e) < Z.of_nat n)%Z l ->
    Permutation (entries (rows_of n l)) l.
  Proof.
    intros HF. unfold entries, rows_of.
    assert (G : forall k a, Permutation (entries_from a (map (row l) (seq a k)))
      (filter (fun e => (Z.of_nat a <=? fst (fst e)) && (fst (fst e) <? Z.of_nat (a + k)))%Z l)).
    { induction k as [|k IH]; intros a; cbn [seq map entries_from].
      - replace (filter _ l) with (@nil (Z * Z * W)); [constructor|]. clear. induction l as [|x l IHl]; [reflexivity|]. cbn [filter].
        destruct (Z.leb_spec (Z.of_nat a) (fst (fst x))); destruct (Z.ltb_spec (fst (fst x)) (Z.of_nat (a + 0))); cbn [andb]; try lia; exact IHl.
      - rewrite IH. clear. unfold row. rewrite map_map. cbn [fst snd].
        induction l as [|x l IHl]; [constructor|]. cbn [filter].
        destruct (Z.eqb_spec (fst (fst x)) (Z.of_nat a)) as [Ex|Ex]; destruct (Z.leb_spec (Z.of_nat (S a)) (fst (fst x)));
          destruct (Z.ltb_spec (fst (fst x)) (Z.of_nat (S a + k)));
          destruct (Z.leb_spec (Z.of_nat a) (fst (fst x))); destruct (Z.ltb_spec (fst (fst x)) (Z.of_nat (a + S k))); cbn [andb map app]; try lia; try exact IHl.
        + replace (Z.of_nat a, snd (fst x), snd x) with x by (destruct x as [[? ?] ?]; cbn in *; congruence).
          constructor. exact IHl.
        + rewrite <- Permutation_middle. constructor. exact IHl. }
    rewrite G. replace (filter _ l) with l; [apply Permutation_refl|]. symmetry. clear G.
    induction HF as [|x l Hx HF IHl]; [reflexivity|]. cbn [filter].
    destruct (Z.leb_spec (Z.of_nat 0) (fst (fst x))); destruct (Z.ltb_spec (fst (fst x)) (Z.of_nat (0 + n))); cbn [andb]; try lia.
    f_equal. apply IHl.
  Qed.

  Lemma entries_sorted (rows : list (list (Z * W))) : forall v, Sorting.Sorted.StronglySorted Z.le (map (fun e => fst (fst e)) (entries_from v rows)) /\
    Forall (fun e => Z.of_nat v <= fst (fst e) < Z.of_nat (v + length rows))%Z (entries_from v rows).
  Proof.
    induction rows as [|r rows IH]; intros v; cbn [entries_from]; [split; constructor|]. destruct (IH (S v)) as [H1 H2]. split.
    - rewrite map_app, map_map. cbn [fst]. induction r as [|p r IHr]; [exact H1|]. cbn [map app]. constructor; [exact IHr|].
      apply Forall_app. split.
      + apply Forall_forall. intros x Hx. apply in_map_iff in Hx as (q & <- & _). lia.
      + apply Forall_forall. intros x Hx. apply in_map_iff in Hx as (q & <- & Hq). rewrite Forall_forall in H2. specialize (H2 q Hq). lia.
    - apply Forall_app. split.
      + apply Forall_forall. intros x Hx. apply in_map_iff in Hx as (q & <- & _). cbn [fst length]. lia.
      + eapply Forall_impl; [|exact H2]. cbn [length]. intros a Ha. lia.
  Qed.

  (** The rows of the entries are the rows. *)
  Lemma rows_entries (rows : list (list (Z * W))) : rows_of (length rows) (entries rows) = rows.
  Proof.
    unfold rows_of, entries. apply nth_error_ext_all; [rewrite map_length, seq_length; reflexivity|].
    intros v Hv. rewrite map_length, seq_length in Hv. rewrite nth_error_map, nth_error_seq' by exact Hv. cbn [option_map plus].
    assert (G : forall (rows : list (list (Z * W))) a v, row (entries_from a rows) (a + v) = nth v rows []).
    { clear. assert (Z0 : forall rows a v, v < a -> row (@entries_from W a rows) v = []).
      { intros rows a v Hlt. unfold row. replace (filter _ _) with (@nil (Z * Z * W)); [reflexivity|]. symmetry.
        destruct (entries_sorted rows a) as [_ HF]. induction HF as [|x l Hx HF IHl]; [reflexivity|]. cbn [filter].
        destruct (Z.eqb_spec (fst (fst x)) (Z.of_nat v)); [lia|exact IHl]. }
      assert (RA : forall (l1 l2 : list (Z * Z * W)) v, row (l1 ++ l2) v = row l1 v ++ row l2 v).
      { intros. unfold row. rewrite filter_app, map_app. reflexivity. }
      induction rows as [|r rows IH]; intros a v; [destruct v; reflexivity|]. cbn [entries_from]. rewrite RA. destruct v as [|v]; cbn [nth].
      - rewrite Nat.add_0_r, Z0 by lia. rewrite app_nil_r. unfold row. clear. induction r as [|p r IH]; [reflexivity|]. cbn [map filter fst snd].
        rewrite Z.eqb_refl. cbn [map fst snd]. rewrite IH. destruct p; reflexivity.
      - replace (a + S v) with (S a + v) by lia. rewrite IH. replace (row _ (S a + v)) with (@nil (Z * W)); [reflexivity|].
        unfold row. clear. induction r as [|p r IH]; [reflexivity|]. cbn [map filter fst snd].
        destruct (Z.eqb_spec (Z.of_nat a) (Z.of_nat (S a + v))); [lia|exact IH]. }
    specialize (G rows 0 v). cbn [plus] in G. rewrite G. symmetry. apply nth_error_nth'. exact Hv.
  Qed.
End RowsEntries.
