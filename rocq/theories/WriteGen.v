(** * WriteGen: files written in two passes *)

From Verif Require Import Base Sched SchedLemmas SpecText Coo Ascii AsciiLemmas WriteLemmas Codec Bin TensorOut.

Section Gen.
  Context {A : Type}.
  Variable esize : nat -> res nat.
  Variable eputs : Z -> nat -> res (list put * Z).
  Variable es : list A.
  Variable line : A -> list byte.
  Hypothesis Hsize : forall i e, nth_error es i = Some e -> esize i = Ok (length (line e)).
  Hypothesis Hputs : forall i e a, nth_error es i = Some e ->
    exists ps, eputs (Z.of_nat a) i = Ok (ps, Z.of_nat (a + length (line e))) /\ exact_ a (line e) ps.
  Hypothesis Hne : forall e, In e es -> line e <> [].

  Definition gtext (l : list A) : list byte := concat (map line l).

  Lemma gsizes_ok p : forall acc, Forall (fun i => i < length es) p ->
    gsizes esize p acc = Ok (acc + length (gtext (pick es p))).
  Proof.
    induction p as [|i p IH]; intros acc HF; cbn [gsizes pick flat_map]; [cbn; f_equal; lia|].
    inversion HF as [|? ? Hi HF']; subst.
    destruct (nth_error es i) as [e|] eqn:E; [|apply nth_error_None in E; lia].
    rewrite (Hsize i e E). cbn [bind]. rewrite IH by exact HF'. f_equal.
    unfold gtext. cbn [app map concat]. rewrite app_length. fold (pick es p). lia.
  Qed.

  Lemma gputs_ok p : forall a, Forall (fun i => i < length es) p ->
    exists ps, gputs eputs (Z.of_nat a) p = Ok ps /\ exact_ a (gtext (pick es p)) ps.
  Proof.
    induction p as [|i p IH]; intros a HF; cbn [gputs pick flat_map].
    - exists []. split; [reflexivity|apply exact_nil].
    - inversion HF as [|? ? Hi HF']; subst.
      destruct (nth_error es i) as [e|] eqn:E; [|apply nth_error_None in E; lia].
      destruct (Hputs i e a E) as (p1 & E1 & X1). rewrite E1. cbn [bind].
      destruct (IH (a + length (line e)) HF') as (p2 & E2 & X2). rewrite E2. cbn [bind].
      exists (p1 ++ p2). split; [reflexivity|]. unfold gtext. cbn [app map concat]. apply exact_app; assumption.
  Qed.

  Definition gpart_len (p : list nat) : nat := length (gtext (pick es p)).

  Lemma mapM_gsizes parts : Forall (Forall (fun i => i < length es)) parts ->
    mapM (fun p => gsizes esize p 0) parts = Ok (map gpart_len parts).
  Proof.
    induction parts as [|p ps IH]; intros HF; [reflexivity|]. inversion HF; subst.
    cbn [mapM map]. rewrite gsizes_ok by assumption. cbn [bind]. rewrite IH by assumption. reflexivity.
  Qed.

  Inductive gregions : nat -> list (list nat) -> list (list put) -> Prop :=
  | greg_nil a : gregions a [] []
  | greg_cons a p ps q qs : exact_ a (gtext (pick es p)) q ->
      gregions (a + gpart_len p) ps qs -> gregions a (p :: ps) (q :: qs).

  Lemma mapM_gputs parts : forall a, Forall (Forall (fun i => i < length es)) parts ->
    exists qs, mapM (fun q => gputs eputs (Z.of_nat (fst q)) (snd q))
        (combine (prefix_sums a (map gpart_len parts)) parts) = Ok qs /\ gregions a parts qs.
  Proof.
    induction parts as [|p ps IH]; intros a HF; [exists []; split; [reflexivity|constructor]|].
    inversion HF; subst. cbn [map prefix_sums combine mapM fst snd].
    destruct (gputs_ok p a) as (q & Eq & Xq); [assumption|]. rewrite Eq. cbn [bind].
    destruct (IH (a + gpart_len p)) as (qs & Eqs & Xqs); [assumption|]. rewrite Eqs. cbn [bind].
    exists (q :: qs). split; [reflexivity|constructor; assumption].
  Qed.

  Lemma gregions_lower a parts qs : gregions a parts qs -> forall q i, In q qs -> In i q -> (Z.of_nat a <= paddr i)%Z.
  Proof.
    induction 1 as [|a p ps q qs X R IH]; intros q' i Hq Hi; [destruct Hq|].
    destruct Hq as [<-|Hq]; [apply X in Hi; lia|]. specialize (IH _ _ Hq Hi). lia.
  Qed.

  Lemma gregions_upper a parts qs : gregions a parts qs -> forall q i, In q qs -> In i q ->
    (paddr i < Z.of_nat (a + sum_nat (map gpart_len parts)))%Z.
  Proof.
    induction 1 as [|a p ps q qs X R IH]; intros q' i Hq Hi; [destruct Hq|]. cbn [map sum_nat fold_right].
    fold (sum_nat (map gpart_len ps)).
    destruct Hq as [<-|Hq]; [apply X in Hi; unfold gpart_len in *; lia|]. specialize (IH _ _ Hq Hi). lia.
  Qed.

  Lemma gregions_indep a parts qs : gregions a parts qs ->
    ForallOrdPairs (fun p q => forall i j, In i p -> In j q -> (paddr i < paddr j)%Z) qs.
  Proof.
    induction 1 as [|a p ps q qs X R IH]; constructor; [|exact IH].
    apply Forall_forall. intros q' Hq i j Hi Hj. apply X in Hi.
    pose proof (gregions_lower _ _ _ R _ _ Hq Hj). unfold gpart_len in *. lia.
  Qed.

  Lemma gregions_exact a parts qs : gregions a parts qs ->
    exact_ a (concat (map (fun p => gtext (pick es p)) parts)) (concat qs).
  Proof.
    induction 1 as [|a p ps q qs X R IH]; cbn [map concat]; [apply exact_nil|].
    apply exact_app; assumption.
  Qed.

  Lemma concat_gtext parts : concat (map (fun p => gtext (pick es p)) parts) = gtext (pick es (concat parts)).
  Proof.
    induction parts as [|p ps IH]; [reflexivity|]. cbn [map concat]. rewrite pick_app, IH.
    unfold gtext. rewrite map_app, concat_app. reflexivity.
  Qed.

  Lemma gwrite_ok parts sched : Forall (Forall (fun i => i < length es)) parts -> concat parts <> [] ->
    exists f ps, gplan esize eputs parts = Ok (f, ps) /\
      length f = length (gtext (pick es (concat parts))) /\
      (forall q i, In q ps -> In i q -> (0 <= paddr i < Z.of_nat (length f))%Z) /\
      ForallOrdPairs (fun p q => forall i j, In i p -> In j q -> (paddr i < paddr j)%Z) ps /\
      gwrite esize eputs parts sched = Ok (gtext (pick es (concat parts))).
  Proof.
    intros HF Hnp. unfold gwrite, gplan. rewrite mapM_gsizes by exact HF. cbn [bind].
    assert (Hsum : sum_nat (map gpart_len parts) = length (gtext (pick es (concat parts)))).
    { rewrite <- concat_gtext. clear. induction parts as [|p ps IH]; [reflexivity|].
      cbn [map concat sum_nat fold_right]. rewrite app_length. fold (sum_nat (map gpart_len ps)). rewrite IH. reflexivity. }
    assert (Hpos : 0 < sum_nat (map gpart_len parts)).
    { rewrite Hsum. destruct (concat parts) as [|i is] eqn:Ec; [congruence|].
      assert (Hi : i < length es).
      { assert (Hin : In i (concat parts)) by (rewrite Ec; left; reflexivity).
        apply in_concat in Hin as (p & Hp & Hin). rewrite Forall_forall in HF. specialize (HF p Hp).
        rewrite Forall_forall in HF. apply HF; exact Hin. }
      cbn [pick flat_map]. destruct (nth_error es i) as [e|] eqn:E; [|apply nth_error_None in E; lia].
      unfold gtext. cbn [app map concat]. rewrite app_length. pose proof (Hne e (nth_error_In _ _ E)). destruct (line e); [congruence|cbn [length]; lia]. }
    destruct (sum_nat (map gpart_len parts)) as [|k] eqn:Ek; [lia|]. cbn [new_file bind].
    destruct (mapM_gputs parts 0 HF) as (qs & Eqs & R). rewrite Eqs. cbn [bind].
    set (f := (repeat 0%Z k ++ [1%Z]) : list byte). assert (Hlf : length f = S k) by (unfold f; rewrite app_length, repeat_length; cbn; lia).
    exists f, qs. split; [reflexivity|]. split; [rewrite Hlf; exact Hsum|]. split; [|split].
    - intros q i Hq Hi. pose proof (gregions_lower _ _ _ R _ _ Hq Hi). pose proof (gregions_upper _ _ _ R _ _ Hq Hi). lia.
    - apply (gregions_indep _ _ _ R).
    - rewrite run_indep.
      + destruct (gregions_exact _ _ _ R) as [_ X]. specialize (X [] f [] eq_refl).
        rewrite concat_gtext in X. cbn [app] in X. rewrite !app_nil_r in X. apply X. lia.
      + eapply fop_impl; [|apply (gregions_indep _ _ _ R)]. cbn beta. intros p q H i j Hi Hj. apply pcomm.
        specialize (H i j Hi Hj). lia.
  Qed.
End Gen.
