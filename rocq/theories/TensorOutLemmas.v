(** * TensorOutLemmas: [Tensor::write] and [Tensor::max_labels] *)

From Verif Require Import Base Sched SchedLemmas Spec SpecDec SpecText SpecTensorOut Reader ReaderLemmas Coo ElSpec Ascii AsciiLemmas WriteLemmas Codec Bin BinLoad TensorOut WriteGen.

Lemma spaced_cons w l : l <> [] -> spaced (w :: l) = w ++ [ch_sp] ++ spaced l.
Proof. destruct l; [congruence|reflexivity]. Qed.

Lemma emits_after a t1 p1 t2 p2 : exact_ a t1 p1 -> emits (a + length t1) t2 p2 -> emits a (t1 ++ t2) (p1 ++ p2).
Proof.
  intros [R1 E1] [R2 E2]. split.
  - intros i Hi. rewrite app_length. apply in_app_or in Hi as [Hi|Hi]; [apply R1 in Hi|apply R2 in Hi]; lia.
  - intros pre mid c post Hp Hm. rewrite app_length in Hm.
    rewrite <- (firstn_skipn (length t1) mid). rewrite exec_all_app. rewrite <- app_assoc.
    rewrite E1; [|exact Hp|apply firstn_length_le; lia]. cbn [bind].
    destruct (E2 (pre ++ t1) (skipn (length t1) mid) c post) as (c' & E); [rewrite app_length; lia|rewrite skipn_length; lia|].
    exists c'. repeat rewrite <- app_assoc in E. repeat rewrite <- app_assoc. exact E.
Qed.

Lemma nth_concat {V} (es : list (list V)) k : Forall (fun e => length e = k) es ->
  forall i e j x, nth_error es i = Some e -> nth_error e j = Some x -> nth_error (concat es) (i * k + j) = Some x.
Proof.
  induction 1 as [|e0 es H0 HF IH]; intros i e j x Ei Ej; [destruct i; discriminate|].
  destruct i as [|i]; cbn [nth_error concat] in *.
  - injection Ei as ->. cbn [Nat.mul plus]. rewrite nth_error_app1; [exact Ej|]. apply nth_error_Some. congruence.
  - rewrite nth_error_app2 by (rewrite H0; lia). rewrite H0. replace (S i * k + j - k) with (i * k + j) by lia. eapply IH; eassumption.
Qed.

Lemma narrow_max O : is_ity O -> (ibits O < 32)%Z -> (imax O <= imax i32)%Z.
Proof. intros HO Hs. unfold is_ity in HO. cbn [In] in HO. repeat (destruct HO as [HO|HO]; [subst O; cbn in *; lia|]). destruct HO. Qed.

Section TW.
  Context {W : Type}.
  Variable O : ity.
  Hypothesis HO : is_ity O.
  Variable lf : fmt Z.
  Variable wf : option (fmt W).
  Variable t : tensor W.
  Variable k : nat.
  Variable es : list (list Z * W).
  Variable tx : Z -> list byte.
  Variable tw : W -> list byte.
  Hypothesis Ht : tensor_holds t k es.
  Hypothesis Hfit : (Z.of_nat (k * length es) <= imax O)%Z.

  Lemma tlabel_at i e j x : nth_error es i = Some e -> nth_error (fst e) j = Some x -> tlabel O t i j = Ok x.
  Proof.
    intros Ei Ej. destruct Ht as (E1 & E2 & E3 & E4). unfold tlabel, tindex.
    assert (Hi : i < length es) by (apply nth_error_Some; congruence).
    assert (Hk : length (fst e) = k). { rewrite Forall_forall in E3. apply E3. eapply nth_error_In; exact Ei. }
    assert (Hj : j < k). { rewrite <- Hk. apply nth_error_Some. congruence. }
    assert (Hb : i * k + j < k * length es) by nia.
    rewrite E1. rewrite omul_ok; [|exact HO|lia|lia|nia]. cbn [bind].
    assert (Hc : nth_error (te_c t) (i * k + j) = Some (Some x)).
    { rewrite E4. rewrite nth_error_map. rewrite (nth_concat (map fst es) k) with (e := fst e) (x := x); [reflexivity| | |exact Ej].
      - apply Forall_map. exact E3.
      - rewrite nth_error_map, Ei. reflexivity. }
    assert (Hz : (Z.of_nat i * Z.of_nat k + Z.of_nat j)%Z = Z.of_nat (i * k + j)) by lia. rewrite Hz.
    pose proof (ity_facts O HO) as (F1 & F2 & _).
    destruct (Z.ltb_spec (ibits O) 32) as [Hs|Hs].
    - destruct (Z.leb_spec (Z.of_nat (i * k + j)) (imax i32)) as [_|Hbad].
      + cbn [bind]. rewrite Nat2Z.id. unfold cell_of, aget. rewrite Hc. reflexivity.
      + exfalso. assert (imax O <= imax i32)%Z; [|lia].
        apply (narrow_max O HO Hs).
    - rewrite arith_in by (auto; lia). cbn [bind]. rewrite Nat2Z.id. unfold cell_of, aget. rewrite Hc. reflexivity.
  Qed.

  Lemma skipn_cons {V} (l : list V) j x : nth_error l j = Some x -> skipn j l = x :: skipn (S j) l.
  Proof using Type.
    clear. revert j; induction l as [|y l IH]; intros [|j] E; try discriminate; cbn [nth_error skipn] in *; [congruence|]. apply IH. exact E.
  Qed.

  Hypothesis Hk : 1 <= k.
  Hypothesis Hw : is_some wf = true -> tensor_weights t es.
  Hypothesis Hx : forall e x, In e es -> In x (fst e) -> formats lf x (tx x).
  Hypothesis Hf : forall f e, wf = Some f -> In e es -> formats f (snd e) (tw (snd e)).

  Let tw' := match wf with None => None | Some _ => Some tw end.

  Lemma cell_tw i e : is_some wf = true -> nth_error es i = Some e -> cell_of i (te_w t) = Ok (snd e).
  Proof. intros Hs. rewrite (Hw Hs). intros E. unfold cell_of, aget. rewrite nth_error_map, E. reflexivity. Qed.

  Lemma order_nat : Z.to_nat (te_order t) = k.
  Proof. destruct Ht as (-> & _). apply Nat2Z.id. Qed.

  Lemma len_fst i e : nth_error es i = Some e -> length (fst e) = k.
  Proof. intros Ei. destruct Ht as (_ & _ & E3 & _). rewrite Forall_forall in E3. apply E3. eapply nth_error_In; exact Ei. Qed.

  Lemma tlabels_size_ok i e : nth_error es i = Some e -> forall n j, j + n = k -> 1 <= n ->
    tlabels_size O lf t i n j = Ok (length (spaced (map tx (skipn j (fst e)))) + 1).
  Proof.
    intros Ei. pose proof (len_fst i e Ei) as Hl. induction n as [|n IH]; intros j Hj Hn; [lia|]. cbn [tlabels_size].
    destruct (nth_error (fst e) j) as [x|] eqn:Ej; [|apply nth_error_None in Ej; lia].
    rewrite (tlabel_at i e j x Ei Ej). cbn [bind].
    destruct (Hx e x (nth_error_In _ _ Ei) (nth_error_In _ _ Ej)) as [Sx _]. rewrite Sx. cbn [bind].
    rewrite (skipn_cons _ _ _ Ej). cbn [map]. destruct n as [|n].
    - cbn [tlabels_size bind]. rewrite skipn_all2 by lia. cbn [map spaced]. f_equal. lia.
    - rewrite (IH (S j)) by lia. cbn [bind].
      rewrite spaced_cons.
      + rewrite !app_length. cbn [length]. f_equal. lia.
      + intros E. apply map_eq_nil in E. pose proof (skipn_length (S j) (fst e)) as HL. rewrite E in HL. cbn [length] in HL. lia.
  Qed.

  Lemma spaced_app1 l w : l <> [] -> spaced (l ++ [w]) = spaced l ++ [ch_sp] ++ w.
  Proof using Type.
    clear. induction l as [|a l IH]; intros H; [congruence|]. destruct l as [|b l]; [reflexivity|].
    cbn [app]. rewrite !(spaced_cons a) by (try (destruct l; discriminate); discriminate). change (b :: l ++ [w]) with ((b :: l) ++ [w]). rewrite IH by discriminate. rewrite <- !app_assoc. reflexivity.
  Qed.

  Lemma line_text e : fst e <> [] -> tensor_line tx tw' e = spaced (map tx (fst e)) ++ match wf with None => [] | Some _ => ch_sp :: tw (snd e) end ++ [ch_nl].
  Proof.
    intros Hn. unfold tensor_line, tw'. clear - Hn. destruct wf as [f|].
    - rewrite spaced_app1 by (intros E; apply map_eq_nil in E; congruence). rewrite <- !app_assoc. reflexivity.
    - rewrite app_nil_r. reflexivity.
  Qed.

  Lemma fst_ne i e : nth_error es i = Some e -> fst e <> [].
  Proof. intros Ei H. pose proof (len_fst i e Ei) as Hl. rewrite H in Hl. cbn [length] in Hl. lia. Qed.

  Lemma tentry_size_ok i e : nth_error es i = Some e -> tentry_size O lf wf t i = Ok (length (tensor_line tx tw' e)).
  Proof.
    intros Ei. rewrite (line_text e (fst_ne i e Ei)). unfold tentry_size. rewrite order_nat. rewrite (tlabels_size_ok i e Ei k 0) by lia. cbn [bind skipn].
    pose proof (fun H => cell_tw i e H Ei) as Cw. pose proof (fun f H => Hf f e H (nth_error_In _ _ Ei)) as Hf'.
    clear Hw Hf. destruct wf as [f|].
    - rewrite Cw by reflexivity. cbn [bind]. destruct (Hf' f eq_refl) as [Sw _]. rewrite Sw. cbn [bind]. rewrite !app_length. cbn [length]. f_equal. lia.
    - cbn [bind]. rewrite !app_length. cbn [length]. f_equal. lia.
  Qed.

  (** The labels of an entry up to the character after them. *)
  Lemma tlabels_puts_ok i e : nth_error es i = Some e -> forall n j a, j + n = k -> 1 <= n ->
    exists ps, tlabels_puts O lf t i n j (Z.of_nat a) = Ok (ps, Z.of_nat (a + length (spaced (map tx (skipn j (fst e)))))) /\
      emits a (spaced (map tx (skipn j (fst e)))) ps.
  Proof.
    intros Ei. pose proof (len_fst i e Ei) as Hl. induction n as [|n IH]; intros j a Hj Hn; [lia|]. cbn [tlabels_puts].
    destruct (nth_error (fst e) j) as [x|] eqn:Ej; [|apply nth_error_None in Ej; lia].
    rewrite (tlabel_at i e j x Ei Ej). cbn [bind].
    destruct (Hx e x (nth_error_In _ _ Ei) (nth_error_In _ _ Ej)) as [_ Px]. destruct (Px a) as (px & Epx & Mx). rewrite Epx. cbn [bind].
    rewrite (skipn_cons _ _ _ Ej). cbn [map]. rewrite order_nat. destruct n as [|n].
    - destruct (Nat.ltb_spec j (k - 1)); [lia|]. cbn [tlabels_puts bind]. rewrite skipn_all2 by lia. cbn [map spaced].
      eexists. split; [reflexivity|]. rewrite !app_nil_r. exact Mx.
    - destruct (Nat.ltb_spec j (k - 1)); [|lia].
      replace (Z.of_nat (a + length (tx x)) + 1)%Z with (Z.of_nat (a + length (tx x) + 1)) by lia.
      destruct (IH (S j) (a + length (tx x) + 1)) as (ps & Eps & Mps); [lia|lia|]. rewrite Eps. cbn [bind].
      rewrite spaced_cons.
      + eexists. split; [f_equal; f_equal; rewrite !app_length; cbn [length]; lia|].
        rewrite !app_assoc. apply emits_after; [apply emits_sep; exact Mx|].
        rewrite app_length. cbn [length]. rewrite Nat.add_assoc. exact Mps.
      + intros E. apply map_eq_nil in E. pose proof (skipn_length (S j) (fst e)) as HL. rewrite E in HL. cbn [length] in HL. lia.
  Qed.

  Lemma tentry_puts_ok i e a : nth_error es i = Some e ->
    exists ps, tentry_puts O lf wf t (Z.of_nat a) i = Ok (ps, Z.of_nat (a + length (tensor_line tx tw' e))) /\
      exact_ a (tensor_line tx tw' e) ps.
  Proof.
    intros Ei. rewrite (line_text e (fst_ne i e Ei)). unfold tentry_puts. rewrite order_nat.
    destruct (tlabels_puts_ok i e Ei k 0 a) as (pl & Epl & Ml); [lia|lia|]. cbn [skipn] in Epl, Ml. rewrite Epl. cbn [bind].
    set (s := spaced (map tx (fst e))) in *.
    pose proof (fun H => cell_tw i e H Ei) as Cw. pose proof (fun f H => Hf f e H (nth_error_In _ _ Ei)) as Hf'.
    clear Hw Hf. destruct wf as [f|].
    - rewrite Cw by reflexivity. cbn [bind]. destruct (Hf' f eq_refl) as [_ Pw].
      replace (Z.of_nat (a + length s) + 1)%Z with (Z.of_nat (a + length s + 1)) by lia.
      destruct (Pw (a + length s + 1)) as (pw & Epw & Mw). rewrite Epw. cbn [bind].
      eexists. split; [f_equal; f_equal; rewrite !app_length; cbn [length]; lia|].
      replace (s ++ (ch_sp :: tw (snd e)) ++ [ch_nl]) with ((s ++ [ch_sp]) ++ (tw (snd e) ++ [ch_nl])) by now rewrite <- !app_assoc.
      match goal with |- exact_ _ _ ?P => match P with pl ++ (?B :: pw) ++ ?C =>
        replace P with ((pl ++ [B]) ++ (pw ++ C)) by now rewrite <- !app_assoc end end.
      apply exact_app; [apply emits_sep; exact Ml|]. rewrite app_length; cbn [length]. rewrite Nat.add_assoc. apply emits_sep; exact Mw.
    - cbn [bind app]. eexists. split; [f_equal; f_equal; rewrite !app_length; cbn [length]; lia|]. apply emits_sep; exact Ml.
  Qed.

  Lemma tensor_write_ok parts sched : Forall (Forall (fun i => i < length es)) parts -> concat parts <> [] ->
    exists f ps, tensor_write_plan O lf wf t parts = Ok (f, ps) /\
      length f = length (tensor_text tx tw' (pick es (concat parts))) /\
      (forall q i, In q ps -> In i q -> (0 <= paddr i < Z.of_nat (length f))%Z) /\
      ForallOrdPairs (fun p q => forall i j, In i p -> In j q -> (paddr i < paddr j)%Z) ps /\
      tensor_write O lf wf t parts sched = Ok (tensor_text tx tw' (pick es (concat parts))).
  Proof.
    intros HF Hn. apply (gwrite_ok (tentry_size O lf wf t) (tentry_puts O lf wf t) es (tensor_line tx tw') tentry_size_ok tentry_puts_ok); auto.
    intros e _ E. unfold tensor_line in E. apply app_eq_nil in E as [_ E]. discriminate.
  Qed.
End TW.

(** ** The largest labels *)
Section TM.
  Context {W : Type}.
  Variable O : ity.
  Hypothesis HO : is_ity O.
  Variable t : tensor W.
  Variable k : nat.
  Variable es : list (list Z * W).
  Hypothesis Ht : tensor_holds t k es.
  Hypothesis Hfit : (Z.of_nat (k * length es) <= imax O)%Z.

  Lemma upd_max_spec v m : upd_max v m = Z.max m v.
  Proof using Type. clear. unfold upd_max. destruct (Z.ltb_spec m v); lia. Qed.

  Definition zmax2 (a b : list Z) : list Z := map (fun p => Z.max (fst p) (snd p)) (combine a b).

  Lemma entry_max_ok i e : nth_error es i = Some e -> forall ms j, j + length ms = k ->
    entry_max O t i j ms = Ok (zmax2 ms (skipn j (fst e))).
  Proof.
    intros Ei. assert (Hl : length (fst e) = k). { destruct Ht as (_ & _ & E3 & _). rewrite Forall_forall in E3. apply E3. eapply nth_error_In; exact Ei. }
    induction ms as [|m ms IH]; intros j Hj; cbn [entry_max]; [reflexivity|]. cbn [length] in Hj.
    destruct (nth_error (fst e) j) as [x|] eqn:Ej; [|apply nth_error_None in Ej; lia].
    rewrite (tlabel_at O HO t k es Ht Hfit i e j x Ei Ej). cbn [bind]. rewrite IH by lia. cbn [bind].
    rewrite (skipn_cons _ _ _ Ej). cbn [zmax2 combine map fst snd]. rewrite upd_max_spec. reflexivity.
  Qed.

  Definition emax (l : list (list Z * W)) (ms : list Z) : list Z := fold_left (fun a e => zmax2 a (fst e)) l ms.

  Lemma zmax2_length a b : length (zmax2 a b) = Nat.min (length a) (length b).
  Proof using Type. clear. unfold zmax2. rewrite map_length, combine_length. reflexivity. Qed.
  Lemma zmax2_nth a b j : length a = length b -> nth j (zmax2 a b) 0%Z = Z.max (nth j a 0%Z) (nth j b 0%Z).
  Proof using Type.
    clear. revert b j; induction a as [|x a IH]; intros [|y b] j H; try discriminate; [destruct j; reflexivity|]. injection H as H.
    destruct j as [|j]; [reflexivity|]. cbn [zmax2 combine map nth]. apply (IH b j H).
  Qed.

  Lemma part_max_ok p : Forall (fun i => i < length es) p -> forall ms, length ms = k ->
    part_max O t p ms = Ok (emax (pick es p) ms).
  Proof.
    induction 1 as [|i p Hi HF IH]; intros ms Hm; cbn [part_max pick flat_map]; [reflexivity|].
    destruct (nth_error es i) as [e|] eqn:E; [|apply nth_error_None in E; lia].
    rewrite (entry_max_ok i e E) by (rewrite Hm; lia). cbn [bind skipn]. rewrite IH.
    - unfold emax. reflexivity.
    - rewrite zmax2_length, Hm. destruct Ht as (_ & _ & E3 & _). rewrite Forall_forall in E3. rewrite (E3 e (nth_error_In _ _ E)). lia.
  Qed.

  Lemma emax_spec l : Forall (fun e => length (fst e) = k) l -> forall ms, length ms = k ->
    length (emax l ms) = k /\ forall j, nth j (emax l ms) 0%Z = fold_left Z.max (map (fun e => nth j (fst e) 0%Z) l) (nth j ms 0%Z).
  Proof using Type.
    clear. induction 1 as [|e l He HF IH]; intros ms Hm; [split; [exact Hm|reflexivity]|]. cbn [emax fold_left map]. fold (emax l (zmax2 ms (fst e))).
    destruct (IH (zmax2 ms (fst e))) as [I1 I2]; [rewrite zmax2_length; lia|]. split; [exact I1|].
    intros j. rewrite I2. rewrite zmax2_nth by lia. reflexivity.
  Qed.

  Lemma fold_max_ge l : forall a, (a <= fold_left Z.max l a)%Z.
  Proof using Type. clear. induction l as [|x l IH]; intros a; cbn [fold_left]; [lia|]. specialize (IH (Z.max a x)). lia. Qed.
  Lemma fold_max_base l : forall a b, fold_left Z.max l (Z.max a b) = Z.max a (fold_left Z.max l b).
  Proof using Type. clear. induction l as [|x l IH]; intros a b; cbn [fold_left]; [reflexivity|]. rewrite <- IH. f_equal. lia. Qed.

  (** Combining the maxima of the threads. *)
  Lemma combine_ok parts : Forall (Forall (fun i => i < length es)) parts -> forall acc, length acc = k ->
    let r := fold_left (fun acc m => map (fun p => upd_max (snd p) (fst p)) (combine acc m))
               (map (fun p => emax (pick es p) (repeat 0%Z k)) parts) acc in
    length r = k /\ forall j, (0 <= nth j acc 0)%Z ->
      nth j r 0%Z = fold_left Z.max (map (fun e => nth j (fst e) 0%Z) (pick es (concat parts))) (nth j acc 0%Z).
  Proof.
    destruct Ht as (_ & _ & E3 & _). clear Ht Hfit HO O. cbv zeta. induction 1 as [|p ps Hp HF IH]; intros acc Ha; cbn [map fold_left concat]; [split; [exact Ha|reflexivity]|].
    assert (HE : Forall (fun e => length (fst e) = k) (pick es p)).
    { rewrite Forall_forall in E3 |- *. intros e He. apply E3. unfold pick in He. apply in_flat_map in He as (i & _ & He). destruct (nth_error es i) as [e'|] eqn:E; [|destruct He].
      destruct He as [<-|[]]. eapply nth_error_In; exact E. }
    destruct (emax_spec (pick es p) HE (repeat 0%Z k) (repeat_length _ _)) as [X1 X2].
    assert (E : map (fun q => upd_max (snd q) (fst q)) (combine acc (emax (pick es p) (repeat 0%Z k))) = zmax2 acc (emax (pick es p) (repeat 0%Z k))).
    { unfold zmax2. apply map_ext. intros q. apply upd_max_spec. }
    rewrite E. destruct (IH (zmax2 acc (emax (pick es p) (repeat 0%Z k)))) as [I1 I2]; [rewrite zmax2_length; lia|].
    split; [exact I1|]. intros j Hj. assert (Hz : (0 <= nth j (zmax2 acc (emax (pick es p) (repeat 0%Z k))) 0)%Z) by (rewrite zmax2_nth by lia; lia).
    rewrite (I2 j Hz). rewrite zmax2_nth by lia. rewrite X2. rewrite pick_app, map_app, fold_left_app. f_equal.
    replace (nth j (repeat 0%Z k) 0%Z) with 0%Z by (symmetry; apply nth_repeat). rewrite <- fold_max_base. f_equal. lia.
  Qed.

  Lemma max_labels_ok parts : Forall (Forall (fun i => i < length es)) parts ->
    exists ms, max_labels O t parts = Ok ms /\ length ms = k /\
      forall j, nth j ms 0%Z = fold_left Z.max (map (fun e => nth j (fst e) 0%Z) (pick es (concat parts))) 0%Z.
  Proof.
    intros HF. unfold max_labels.
    assert (Ek : Z.to_nat (te_order t) = k) by (destruct Ht as (-> & _); apply Nat2Z.id). rewrite Ek.
    assert (EM : mapM (fun p => part_max O t p (repeat 0%Z k)) parts = Ok (map (fun p => emax (pick es p) (repeat 0%Z k)) parts)).
    { clear Ek. induction HF as [|p ps Hp HF IH]; [reflexivity|]. cbn [mapM map]. rewrite (part_max_ok p Hp) by apply repeat_length. cbn [bind]. rewrite IH. reflexivity. }
    rewrite EM. cbn [bind]. destruct (combine_ok parts HF (repeat 0%Z k) (repeat_length _ _)) as [C1 C2].
    eexists. split; [reflexivity|]. split; [exact C1|]. intros j. assert (E0 : nth j (repeat 0%Z k) 0%Z = 0%Z) by apply nth_repeat.
    rewrite C2 by (rewrite E0; lia). rewrite E0. reflexivity.
  Qed.
End TM.
