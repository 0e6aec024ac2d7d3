(** * WriteLemmas: [COO::write] *)

From Verif Require Import Base Sched SchedLemmas Spec SpecDec SpecText Reader ReaderLemmas Coo ElSpec Ascii AsciiLemmas.

Lemma pick_app {A} (l : list A) a b : pick l (a ++ b) = pick l a ++ pick l b.
Proof. apply flat_map_app. Qed.

Lemma pick_concat {A} (l : list A) parts : pick l (concat parts) = concat (map (pick l) parts).
Proof. induction parts as [|p ps IH]; [reflexivity|]. cbn [concat map]. rewrite pick_app, IH. reflexivity. Qed.

Lemma pick_seq {A} (l : list A) : pick l (seq 0 (length l)) = l.
Proof.
  assert (H : forall (pre l : list A), pick (pre ++ l) (seq (length pre) (length l)) = l).
  { intros pre l0. revert pre. induction l0 as [|a l0 IH]; intros pre; cbn [length seq pick flat_map]; [reflexivity|].
    rewrite nth_error_app2, Nat.sub_diag by lia. cbn [nth_error app]. f_equal.
    specialize (IH (pre ++ [a])). rewrite app_length, <- app_assoc in IH. cbn [length app] in IH.
    rewrite Nat.add_1_r in IH. exact IH. }
  exact (H [] l).
Qed.

Lemma concat_pick_text {W} tx tw (es : list (Z * Z * W)) parts :
  concat (map (fun p => coo_text tx tw (pick es p)) parts) = coo_text tx tw (pick es (concat parts)).
Proof.
  induction parts as [|p ps IH]; [reflexivity|]. cbn [map concat]. rewrite pick_app, IH.
  unfold coo_text. rewrite map_app, concat_app. reflexivity.
Qed.

Section W.
  Context {W : Type}.
  Variable lf : fmt Z.
  Variable wf : option (fmt W).
  Variable c : coo W.
  Variable es : list (Z * Z * W).
  Variable tx : Z -> list byte.
  Variable tw : W -> list byte.
  Hypothesis Hc : holds c es.
  Hypothesis Hw : is_some wf = true -> holds_weights c es.
  Hypothesis Hx : forall e, In e es -> formats lf (fst (fst e)) (tx (fst (fst e))) /\ formats lf (snd (fst e)) (tx (snd (fst e))).
  Hypothesis Hf : forall f e, wf = Some f -> In e es -> formats f (snd e) (tw (snd e)).

  Let tw' := match wf with None => None | Some _ => Some tw end.

  Lemma cell_x i e : nth_error es i = Some e -> cell_of i (co_x c) = Ok (fst (fst e)).
  Proof. destruct Hc as (_ & -> & _). intros E. unfold cell_of, aget. rewrite nth_error_map, E. reflexivity. Qed.
  Lemma cell_y i e : nth_error es i = Some e -> cell_of i (co_y c) = Ok (snd (fst e)).
  Proof. destruct Hc as (_ & _ & ->). intros E. unfold cell_of, aget. rewrite nth_error_map, E. reflexivity. Qed.
  Lemma cell_w i e : is_some wf = true -> nth_error es i = Some e -> cell_of i (co_w c) = Ok (snd e).
  Proof. intros Hs. rewrite (Hw Hs). intros E. unfold cell_of, aget. rewrite nth_error_map, E. reflexivity. Qed.

  Lemma entry_size_ok i e : nth_error es i = Some e ->
    entry_size lf wf c i = Ok (length (coo_line tx tw' e)).
  Proof.
    intros E. pose proof (nth_error_In _ _ E) as Hi. destruct (Hx e Hi) as [[Sx _] [Sy _]].
    unfold entry_size. rewrite (cell_x i e E). cbn [bind]. rewrite Sx. cbn [bind].
    rewrite (cell_y i e E). cbn [bind]. rewrite Sy. cbn [bind].
    pose proof (fun H => cell_w i e H E) as Cw. pose proof (fun f => Hf f e) as Hf'.
    destruct e as [[x y] w]; cbn [fst snd] in *. unfold tw', coo_line. clear Hw Hf. destruct wf as [f|] eqn:Ef.
    - rewrite Cw by reflexivity. cbn [bind snd].
      destruct (Hf' f eq_refl Hi) as [Sw _]. cbn [snd] in Sw. rewrite Sw. cbn [bind].
      rewrite !app_length. cbn [length]. f_equal. lia.
    - cbn [bind]. rewrite !app_length. cbn [length]. f_equal. lia.
  Qed.

  Lemma entry_puts_ok i e a : nth_error es i = Some e ->
    exists ps, entry_puts lf wf c (Z.of_nat a) i = Ok (ps, Z.of_nat (a + length (coo_line tx tw' e))) /\
      exact_ a (coo_line tx tw' e) ps.
  Proof.
    intros E. pose proof (nth_error_In _ _ E) as Hi. destruct (Hx e Hi) as [[_ Px] [_ Py]].
    unfold entry_puts. rewrite (cell_x i e E). cbn [bind].
    destruct (Px a) as (px & Epx & Mx). rewrite Epx. cbn [bind].
    rewrite (cell_y i e E). cbn [bind].
    replace (Z.of_nat (a + length (tx (fst (fst e)))) + 1)%Z with (Z.of_nat (a + length (tx (fst (fst e))) + 1)) by lia.
    destruct (Py (a + length (tx (fst (fst e))) + 1)) as (py & Epy & My). rewrite Epy. cbn [bind].
    pose proof (fun H => cell_w i e H E) as Cw. pose proof (fun f => Hf f e) as Hf'.
    destruct e as [[x y] w]; cbn [fst snd] in *. unfold tw', coo_line. clear Hw Hf. destruct wf as [f|] eqn:Ef.
    - rewrite Cw by reflexivity. cbn [bind snd].
      destruct (Hf' f eq_refl Hi) as [_ Pw]. cbn [snd] in Pw.
      set (b := a + length (tx x) + 1) in *.
      replace (Z.of_nat (b + length (tx y)) + 1)%Z with (Z.of_nat (b + length (tx y) + 1)) by lia.
      destruct (Pw (b + length (tx y) + 1)) as (pw & Epw & Mw). rewrite Epw. cbn [bind].
      eexists. split; [rewrite !app_length; cbn [length]; f_equal; f_equal; unfold b; lia|].
      replace (tx x ++ [ch_sp] ++ tx y ++ ([ch_sp] ++ tw w) ++ [ch_nl])
        with ((tx x ++ [ch_sp]) ++ (tx y ++ [ch_sp]) ++ (tw w ++ [ch_nl])) by now rewrite <- !app_assoc.
      match goal with |- exact_ _ _ ?P => match P with px ++ [?A] ++ py ++ (?B :: pw) ++ ?C =>
        replace P with ((px ++ [A]) ++ (py ++ [B]) ++ (pw ++ C)) by now rewrite <- !app_assoc end end.
      apply exact_app; [apply emits_sep; exact Mx|]. rewrite app_length; cbn [length].
      rewrite Nat.add_assoc. fold b. apply exact_app; [apply emits_sep; exact My|].
      rewrite app_length; cbn [length]. rewrite Nat.add_assoc. apply emits_sep; exact Mw.
    - cbn [bind]. set (b := a + length (tx x) + 1) in *.
      eexists. split; [rewrite !app_length; cbn [length]; f_equal; f_equal; unfold b; lia|].
      replace (tx x ++ [ch_sp] ++ tx y ++ [] ++ [ch_nl])
        with ((tx x ++ [ch_sp]) ++ (tx y ++ [ch_nl])) by now rewrite <- !app_assoc.
      match goal with |- exact_ _ _ ?P => match P with px ++ [?A] ++ py ++ [] ++ ?C =>
        replace P with ((px ++ [A]) ++ (py ++ C)) by now rewrite <- !app_assoc end end.
      apply exact_app; [apply emits_sep; exact Mx|]. rewrite app_length; cbn [length].
      rewrite Nat.add_assoc. fold b. apply emits_sep; exact My.
  Qed.

  Lemma sizes_ok p : forall acc, Forall (fun i => i < length es) p ->
    sizes lf wf c p acc = Ok (acc + length (coo_text tx tw' (pick es p))).
  Proof.
    induction p as [|i p IH]; intros acc HF; cbn [sizes pick flat_map]; [cbn; f_equal; lia|].
    inversion HF as [|? ? Hi HF']; subst.
    destruct (nth_error es i) as [e|] eqn:E; [|apply nth_error_None in E; lia].
    rewrite (entry_size_ok i e E). cbn [bind]. rewrite IH by exact HF'. f_equal.
    unfold coo_text. cbn [app map concat]. rewrite app_length. fold (pick es p). lia.
  Qed.

  Lemma thread_puts_ok p : forall a, Forall (fun i => i < length es) p ->
    exists ps, thread_puts lf wf c (Z.of_nat a) p = Ok ps /\ exact_ a (coo_text tx tw' (pick es p)) ps.
  Proof.
    induction p as [|i p IH]; intros a HF; cbn [thread_puts pick flat_map].
    - exists []. split; [reflexivity|apply exact_nil].
    - inversion HF as [|? ? Hi HF']; subst.
      destruct (nth_error es i) as [e|] eqn:E; [|apply nth_error_None in E; lia].
      destruct (entry_puts_ok i e a E) as (p1 & E1 & X1). rewrite E1. cbn [bind].
      destruct (IH (a + length (coo_line tx tw' e)) HF') as (p2 & E2 & X2). rewrite E2. cbn [bind].
      exists (p1 ++ p2). split; [reflexivity|]. unfold coo_text. cbn [app map concat]. apply exact_app; assumption.
  Qed.

  Definition part_len (p : list nat) : nat := length (coo_text tx tw' (pick es p)).

  Lemma mapM_sizes parts : Forall (Forall (fun i => i < length es)) parts ->
    mapM (fun p => sizes lf wf c p 0) parts = Ok (map part_len parts).
  Proof.
    induction parts as [|p ps IH]; intros HF; [reflexivity|]. inversion HF; subst.
    cbn [mapM map]. rewrite sizes_ok by assumption. cbn [bind]. rewrite IH by assumption. reflexivity.
  Qed.

  (** The regions of consecutive threads. *)
  Inductive regions : nat -> list (list nat) -> list (list put) -> Prop :=
  | reg_nil a : regions a [] []
  | reg_cons a p ps q qs : exact_ a (coo_text tx tw' (pick es p)) q ->
      regions (a + part_len p) ps qs -> regions a (p :: ps) (q :: qs).

  Lemma mapM_puts parts : forall a, Forall (Forall (fun i => i < length es)) parts ->
    exists qs, mapM (fun q => thread_puts lf wf c (Z.of_nat (fst q)) (snd q))
        (combine (prefix_sums a (map part_len parts)) parts) = Ok qs /\ regions a parts qs.
  Proof.
    induction parts as [|p ps IH]; intros a HF; [exists []; split; [reflexivity|constructor]|].
    inversion HF; subst. cbn [map prefix_sums combine mapM fst snd].
    destruct (thread_puts_ok p a) as (q & Eq & Xq); [assumption|]. rewrite Eq. cbn [bind].
    destruct (IH (a + part_len p)) as (qs & Eqs & Xqs); [assumption|]. rewrite Eqs. cbn [bind].
    exists (q :: qs). split; [reflexivity|constructor; assumption].
  Qed.

  Lemma regions_lower a parts qs : regions a parts qs -> forall q i, In q qs -> In i q -> (Z.of_nat a <= paddr i)%Z.
  Proof.
    induction 1 as [|a p ps q qs X R IH]; intros q' i Hq Hi; [destruct Hq|].
    destruct Hq as [<-|Hq]; [apply X in Hi; lia|]. specialize (IH _ _ Hq Hi). lia.
  Qed.

  Lemma regions_upper a parts qs : regions a parts qs -> forall q i, In q qs -> In i q ->
    (paddr i < Z.of_nat (a + sum_nat (map part_len parts)))%Z.
  Proof.
    induction 1 as [|a p ps q qs X R IH]; intros q' i Hq Hi; [destruct Hq|]. cbn [map sum_nat fold_right].
    fold (sum_nat (map part_len ps)).
    destruct Hq as [<-|Hq]; [apply X in Hi; unfold part_len in *; lia|]. specialize (IH _ _ Hq Hi). lia.
  Qed.

  Lemma regions_indep a parts qs : regions a parts qs ->
    ForallOrdPairs (fun p q => forall i j, In i p -> In j q -> (paddr i < paddr j)%Z) qs.
  Proof.
    induction 1 as [|a p ps q qs X R IH]; constructor; [|exact IH].
    apply Forall_forall. intros q' Hq i j Hi Hj. apply X in Hi.
    pose proof (regions_lower _ _ _ R _ _ Hq Hj). unfold part_len in *. lia.
  Qed.

  Lemma regions_exact a parts qs : regions a parts qs ->
    exact_ a (concat (map (fun p => coo_text tx tw' (pick es p)) parts)) (concat qs).
  Proof.
    induction 1 as [|a p ps q qs X R IH]; cbn [map concat]; [apply exact_nil|].
    apply exact_app; assumption.
  Qed.

  Lemma fop_impl {X} (R S : X -> X -> Prop) l : (forall a b, R a b -> S a b) -> ForallOrdPairs R l -> ForallOrdPairs S l.
  Proof.
    intros H. induction 1 as [|a l F Hl IH]; constructor; [|exact IH]. eapply Forall_impl; [|exact F]. intros b. apply H.
  Qed.

  Lemma coo_write_ok parts sched : Forall (Forall (fun i => i < length es)) parts -> concat parts <> [] ->
    exists f ps, coo_write_plan lf wf c parts = Ok (f, ps) /\
      length f = length (coo_text tx tw' (pick es (concat parts))) /\
      (forall q i, In q ps -> In i q -> (0 <= paddr i < Z.of_nat (length f))%Z) /\
      ForallOrdPairs (fun p q => forall i j, In i p -> In j q -> (paddr i < paddr j)%Z) ps /\
      coo_write lf wf c parts sched = Ok (coo_text tx tw' (pick es (concat parts))).
  Proof.
    intros HF Hne. unfold coo_write, coo_write_plan. rewrite mapM_sizes by exact HF. cbn [bind].
    assert (Hsum : sum_nat (map part_len parts) = length (coo_text tx tw' (pick es (concat parts)))).
    { rewrite <- concat_pick_text. clear. induction parts as [|p ps IH]; [reflexivity|].
      cbn [map concat sum_nat fold_right]. rewrite app_length. fold (sum_nat (map part_len ps)). rewrite IH. reflexivity. }
    assert (Hpos : 0 < sum_nat (map part_len parts)).
    { rewrite Hsum. destruct (concat parts) as [|i is] eqn:Ec; [congruence|].
      assert (Hi : i < length es).
      { assert (Hin : In i (concat parts)) by (rewrite Ec; left; reflexivity).
        apply in_concat in Hin as (p & Hp & Hin). rewrite Forall_forall in HF. specialize (HF p Hp).
        rewrite Forall_forall in HF. apply HF; exact Hin. }
      cbn [pick flat_map]. destruct (nth_error es i) as [[[x y] w]|] eqn:E; [|apply nth_error_None in E; lia].
      unfold coo_text. cbn [app map concat coo_line]. rewrite !app_length. cbn [length]. lia. }
    destruct (sum_nat (map part_len parts)) as [|k] eqn:Ek; [lia|]. cbn [new_file bind].
    destruct (mapM_puts parts 0 HF) as (qs & Eqs & R). rewrite Eqs. cbn [bind].
    set (f := (repeat 0%Z k ++ [1%Z]) : list byte). assert (Hlf : length f = S k) by (unfold f; rewrite app_length, repeat_length; cbn; lia).
    exists f, qs. split; [reflexivity|]. split; [rewrite Hlf; exact Hsum|]. split; [|split].
    - intros q i Hq Hi. pose proof (regions_lower _ _ _ R _ _ Hq Hi). pose proof (regions_upper _ _ _ R _ _ Hq Hi). lia.
    - apply (regions_indep _ _ _ R).
    - rewrite run_indep.
      + destruct (regions_exact _ _ _ R) as [_ X]. specialize (X [] f [] eq_refl).
        rewrite concat_pick_text in X. cbn [app] in X. rewrite !app_nil_r in X. apply X. lia.
      + eapply fop_impl; [|apply (regions_indep _ _ _ R)]. cbn beta. intros p q H i j Hi Hj. apply pcomm.
        specialize (H i j Hi Hj). lia.
  Qed.
End W.
