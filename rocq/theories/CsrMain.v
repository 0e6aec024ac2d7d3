(** * CsrMain: [convert_coo_] builds the rows of the COO *)

From Coq Require Import Permutation.
From Verif Require Import Base Sched SchedLemmas SchedMore Coo Ascii Csr ElSpec SpecText SpecCsr CsrLemmas CsrScatter.

(** ** Programs of the scatter *)
Lemma scatter_concat w (ps : list (list nat)) : concat (map (scatter_prog w) ps) = scatter_prog w (concat ps).
Proof.
  induction ps as [|p ps IH]; [reflexivity|]. cbn [map concat]. rewrite IH. unfold scatter_prog. rewrite flat_map_app. reflexivity.
Qed.

Lemma caps_scatter w es : caps (scatter_prog w es) = es.
Proof.
  induction es as [|e es IH]; [reflexivity|]. unfold scatter_prog in *. cbn [flat_map]. rewrite caps_app, IH.
  destruct w; reflexivity.
Qed.

Lemma in_scatter w es i : In i (scatter_prog w es) ->
  exists e, In e es /\ (i = Capture e \/ i = StoreEnd e \/ (w = true /\ i = StoreW e)).
Proof.
  unfold scatter_prog. intros H. apply in_flat_map in H as (e & He & Hi). exists e. split; [exact He|].
  destruct w; cbn in Hi; intuition congruence.
Qed.

Lemma scatter_in_end w es e : In e es -> In (StoreEnd e) (scatter_prog w es).
Proof. intros H. apply in_flat_map. exists e. split; [exact H|]. right; left; reflexivity. Qed.
Lemma scatter_in_w es e : In e es -> In (StoreW e) (scatter_prog true es).
Proof. intros H. apply in_flat_map. exists e. split; [exact H|]. right; right; left; reflexivity. Qed.

Lemma scatter_nodup w es : NoDup es -> NoDup (scatter_prog w es).
Proof.
  induction es as [|e es IH]; intros H; [constructor|]. inversion H as [|? ? He H']; subst.
  change (scatter_prog w (e :: es)) with ([Capture e; StoreEnd e] ++ (if w then [StoreW e] else []) ++ scatter_prog w es).
  assert (HN : forall i, In i (scatter_prog w es) -> i <> Capture e /\ i <> StoreEnd e /\ i <> StoreW e).
  { intros i Hi. apply in_scatter in Hi as (e' & He' & Hi).
    assert (e' <> e) by congruence. intuition (subst; congruence). }
  specialize (IH H'). destruct w; cbn [app]; repeat constructor; try exact IH; cbn [In]; intros Hi;
    repeat match goal with H : _ \/ _ |- _ => destruct H as [Hi|Hi] end; try discriminate; apply HN in Hi; tauto.
Qed.

(** Every interleaving captures before it stores. *)
Lemma merge_scatter w ps l m : merge (map (scatter_prog w) ps) l -> Permutation (concat ps) (seq 0 m) ->
  Permutation (caps l) (seq 0 m) /\
  (forall l1 e l2, l = l1 ++ StoreEnd e :: l2 -> e < m /\ In (Capture e) l1) /\
  (forall l1 e l2, l = l1 ++ StoreW e :: l2 -> w = true /\ e < m /\ In (Capture e) l1) /\
  (forall e, e < m -> In (StoreEnd e) l /\ (w = true -> In (StoreW e) l)).
Proof.
  intros HM HP. pose proof (merge_perm _ _ HM) as HL. rewrite scatter_concat in HL.
  assert (HN : NoDup (concat ps)) by (eapply Permutation_NoDup; [apply Permutation_sym, HP|apply seq_NoDup]).
  assert (HNl : NoDup l) by (eapply Permutation_NoDup; [apply Permutation_sym, HL|apply scatter_nodup, HN]).
  assert (Hlt : forall e, In e (concat ps) <-> e < m).
  { intros e. split; intros H; [apply (Permutation_in _ HP), in_seq in H; lia|].
    apply (Permutation_in _ (Permutation_sym HP)), in_seq. lia. }
  assert (HB : forall i e l1 l2, l = l1 ++ i :: l2 -> (i = StoreEnd e \/ i = StoreW e) ->
      (i = StoreW e -> w = true) /\ e < m /\ In (Capture e) l1).
  { intros i e l1 l2 El Hi.
    assert (Hin : In i (scatter_prog w (concat ps))).
    { apply (Permutation_in _ HL). rewrite El. apply in_or_app; right; left; reflexivity. }
    pose proof Hin as Hin2. apply in_scatter in Hin as (e' & He' & Hi').
    assert (e' = e) as -> by (destruct Hi as [->| ->]; intuition congruence).
    split; [intros ->; intuition congruence|]. split; [apply Hlt; exact He'|].
    apply in_concat in He' as (p & Hp & Hep).
    apply in_split in Hep as (a & b & Eab).
    refine (sub_before (scatter_prog w p) l (merge_sub _ _ HM _ (in_map _ _ _ Hp)) HNl
              (scatter_prog w a) (StoreEnd e :: (if w then [StoreW e] else []) ++ scatter_prog w b) (Capture e) i _ _ l1 l2 El).
    - rewrite Eab. unfold scatter_prog. rewrite flat_map_app. reflexivity.
    - destruct Hi as [->| ->]; [left; reflexivity|]. right. apply in_or_app; left.
      destruct w; [left; reflexivity|]. exfalso. intuition congruence. }
  split; [|split; [|split]].
  - rewrite <- HP. rewrite <- (caps_scatter w (concat ps)). unfold caps. apply Permutation_flat_map, HL.
  - intros l1 e l2 El. destruct (HB _ e _ _ El (or_introl eq_refl)) as (_ & H). exact H.
  - intros l1 e l2 El. destruct (HB _ e _ _ El (or_intror eq_refl)) as (H1 & H2 & H3). split; [apply H1; reflexivity|]. split; assumption.
  - intros e He. apply Hlt in He. split.
    + apply (Permutation_in _ (Permutation_sym HL)). apply scatter_in_end; exact He.
    + intros ->. apply (Permutation_in _ (Permutation_sym HL)). apply scatter_in_w; exact He.
Qed.

(** ** Rows and degrees *)
Lemma D_lengths {A} (ll : list (list A)) v :
  D (map (fun r => Z.of_nat (length r)) ll) v = Z.of_nat (length (concat (firstn v ll))).
Proof.
  unfold D. rewrite firstn_map. generalize (firstn v ll) as k. induction k as [|a k IH]; [reflexivity|].
  cbn [map zsum fold_right concat]. rewrite app_length. fold (zsum (map (fun r => Z.of_nat (length r)) k)). rewrite IH. lia.
Qed.
Lemma zsum_lengths {A} (ll : list (list A)) : zsum (map (fun r => Z.of_nat (length r)) ll) = Z.of_nat (length (concat ll)).
Proof. rewrite <- (firstn_all ll) at 2. rewrite <- D_lengths. unfold D. f_equal. rewrite firstn_map, firstn_all. reflexivity. Qed.

Section Rows.
  Context {W : Type}.
  Implicit Type es : list (Z * Z * W).

  Lemma row_length es v : Z.of_nat (length (row es v)) = zcount (map (fun e => fst (fst e)) es) v.
  Proof.
    unfold row, zcount. rewrite map_length. f_equal. induction es as [|e es IH]; [reflexivity|]. cbn [filter map count_occ].
    destruct (Z.eqb_spec (fst (fst e)) (Z.of_nat v)); destruct (Z.eq_dec (fst (fst e)) (Z.of_nat v)); try contradiction; cbn [length]; lia.
  Qed.

  Lemma zcount_perm l l' v : Permutation l l' -> zcount l v = zcount l' v.
  Proof. intros H. unfold zcount. f_equal. apply (Permutation_count_occ Z.eq_dec l l'). exact H. Qed.

  Lemma rows_length n es : length (rows_of n es) = n.
  Proof. unfold rows_of. rewrite map_length, seq_length. reflexivity. Qed.

  Lemma rows_total n es : Forall (fun e => 0 <= fst (fst e) < Z.of_nat n)%Z es -> length (concat (rows_of n es)) = length es.
  Proof.
    intros HF. unfold rows_of.
    assert (HN : forall k a, length (concat (map (row es) (seq a k))) =
      length (filter (fun e => (Z.of_nat a <=? fst (fst e)) && (fst (fst e) <? Z.of_nat (a + k)))%Z es)).
    { induction k as [|k IH]; intros a.
      - cbn [seq map concat length]. symmetry. apply length_zero_iff_nil. clear. induction es as [|x o IHo]; [reflexivity|]. cbn [filter].
        destruct (Z.leb_spec (Z.of_nat a) (fst (fst x))); destruct (Z.ltb_spec (fst (fst x)) (Z.of_nat (a + 0))); cbn [andb]; try lia; exact IHo.
      - cbn [seq map concat]. rewrite app_length, IH. clear. unfold row. rewrite map_length.
        induction es as [|x o IHo]; [reflexivity|]. cbn [filter].
        destruct (Z.eqb_spec (fst (fst x)) (Z.of_nat a)); destruct (Z.leb_spec (Z.of_nat (S a)) (fst (fst x)));
          destruct (Z.ltb_spec (fst (fst x)) (Z.of_nat (S a + k)));
          destruct (Z.leb_spec (Z.of_nat a) (fst (fst x))); destruct (Z.ltb_spec (fst (fst x)) (Z.of_nat (a + S k))); cbn [andb length]; lia. }
    rewrite HN. clear HN. induction HF as [|x o Hx HF IHo]; [reflexivity|]. cbn [filter].
    destruct (Z.leb_spec (Z.of_nat 0) (fst (fst x))); destruct (Z.ltb_spec (fst (fst x)) (Z.of_nat (0 + n))); cbn [andb length]; lia.
  Qed.

  Lemma pick_map es d0 ord : (forall e, In e ord -> e < length es) -> pick es ord = map (fun e => nth e es d0) ord.
  Proof.
    induction ord as [|e ord IH]; intros H; [reflexivity|]. unfold pick in *. cbn [flat_map map].
    rewrite (nth_error_nth' es d0) by (apply H; left; reflexivity). cbn [app]. f_equal. apply IH. intros k Hk; apply H; right; exact Hk.
  Qed.

  Lemma pick_seq' es : pick es (seq 0 (length es)) = es.
  Proof.
    unfold pick. assert (G : forall (p : list (Z * Z * W)) l, flat_map (fun i => match nth_error (p ++ l) i with Some a => [a] | None => [] end) (seq (length p) (length l)) = l).
    { intros p l. revert p. induction l as [|a l IH]; intros p; [reflexivity|]. cbn [length seq flat_map].
      rewrite nth_error_app2, Nat.sub_diag by lia. cbn [nth_error app]. f_equal.
      specialize (IH (p ++ [a])). rewrite app_length, <- app_assoc in IH. cbn [length app] in IH. rewrite Nat.add_1_r in IH. exact IH. }
    apply (G [] es).
  Qed.

  Lemma pick_perm es ord : Permutation ord (seq 0 (length es)) -> Permutation (pick es ord) es.
  Proof. intros H. rewrite <- (pick_seq' es) at 2. unfold pick. apply Permutation_flat_map, H. Qed.
End Rows.

Lemma mapM_mapM_ok {A B} (f : A -> res B) (g : A -> B) ll : (forall a, In a (concat ll) -> f a = Ok (g a)) ->
  mapM (fun p => mapM f p) ll = Ok (map (map g) ll).
Proof.
  intros H. apply (mapM_ok _ (map g)). intros p Hp. apply mapM_ok. intros a Ha. apply H. apply in_concat. exists p; auto.
Qed.

(** ** The conversion *)
Section Convert.
  Context {W : Type}.
  Variables L O : ity.
  Hypothesis HL : is_ity L.
  Hypothesis HO : is_ity O.
  Variable weighted : bool.
  Variable c : coo W.
  Variable es : list (Z * Z * W).
  Variable n : Z.
  Hypothesis Hc : holds c es.
  Hypothesis Hcw : weighted = true -> holds_weights c es.
  Hypothesis Hn : co_n c = Some n.
  Hypothesis Hn0 : (0 <= n)%Z.
  Hypothesis Hroom : room L n.
  Hypothesis Hm : (Z.of_nat (length es) <= imax O)%Z.
  Hypothesis Hsrc : Forall (fun e => 0 <= fst (fst e) < n)%Z es.

  Lemma degs_ok ch (es' : list (Z * Z * W)) : legal (length es) ch -> Permutation es' es ->
    exists incs, mapM (fun p => mapM (fun e => cell_of e (co_x c)) p) (ch_parts1 ch) = Ok incs /\
      run (inc_exec O) (ch_s1 ch) incs (repeat 0%Z (Z.to_nat n)) =
        Ok (map (fun r => Z.of_nat (length r)) (rows_of (Z.to_nat n) es')).
  Proof.
    intros (_ & _ & HP & _) HE. destruct Hc as (_ & Hx & _).
    set (xs := map (fun e => fst (fst e)) es).
    assert (HIn : forall e, In e (concat (ch_parts1 ch)) -> e < length es).
    { intros e He. apply (Permutation_in _ HP), in_seq in He. lia. }
    eexists. split.
    - apply (mapM_mapM_ok _ (fun e => nth e xs 0%Z)). intros e He. apply cell_of_some. rewrite Hx.
      rewrite nth_error_map. apply HIn in He. destruct (nth_error es e) as [q|] eqn:Eq; [|apply nth_error_None in Eq; lia].
      cbn [option_map]. do 2 f_equal. symmetry. apply nth_error_nth. unfold xs. rewrite nth_error_map, Eq. reflexivity.
    - destruct (run_merge (inc_exec O) (ch_s1 ch) (map (map (fun e => nth e xs 0%Z)) (ch_parts1 ch))) as (l & HM & Hl).
      rewrite Hl. pose proof (merge_perm _ _ HM) as HLp. rewrite <- concat_map in HLp.
      assert (HX : Permutation l xs).
      { rewrite HLp, HP. assert (EX : map (fun e => nth e xs 0%Z) (seq 0 (length es)) = xs); [|rewrite EX; apply Permutation_refl].
        unfold xs. rewrite <- (map_length (fun e => fst (fst e)) es). fold xs. clear.
        apply nth_error_ext_all; [rewrite map_length, seq_length; reflexivity|]. intros i Hi. rewrite map_length, seq_length in Hi.
        rewrite nth_error_map, nth_error_seq' by exact Hi. cbn [option_map plus]. symmetry. apply nth_error_nth'. exact Hi. }
      rewrite (inc_all O HO).
      + f_equal. rewrite repeat_length. unfold rows_of. rewrite map_map. apply map_ext_in. intros v Hv. apply in_seq in Hv.
        rewrite nth_repeat. rewrite row_length. rewrite (zcount_perm _ _ v HX). rewrite (zcount_perm (map _ es') xs).
        * lia.
        * apply Permutation_map, HE.
      + rewrite repeat_length. apply Forall_forall. intros d Hd. apply (Permutation_in _ HX) in Hd. unfold xs in Hd.
        apply in_map_iff in Hd as (e & <- & He). rewrite Forall_forall in Hsrc. specialize (Hsrc e He). lia.
      + rewrite repeat_length. intros v Hv. rewrite nth_repeat. split; [lia|]. rewrite (zcount_perm _ _ v HX).
        unfold zcount. pose proof (count_occ_bound Z.eq_dec (Z.of_nat v) xs) as HB. unfold xs in HB at 2. rewrite map_length in HB. lia.
  Qed.

  Lemma row_pick d0 ord v : (forall e, In e ord -> e < length es) ->
    row (pick es ord) v = map (fun e => (snd (fst (nth e es d0)), snd (nth e es d0))) (filter (fun e => src es d0 e =? v) ord).
  Proof.
    intros H. rewrite (pick_map es d0) by exact H. unfold row. induction ord as [|e ord IH]; [reflexivity|]. cbn [map filter].
    assert (He : e < length es) by (apply H; left; reflexivity).
    assert (Hs : (0 <= fst (fst (nth e es d0)) < n)%Z) by (rewrite Forall_forall in Hsrc; apply Hsrc, nth_In, He).
    assert (Heq : (fst (fst (nth e es d0)) =? Z.of_nat v)%Z = (src es d0 e =? v)).
    { unfold src. destruct (Z.eqb_spec (fst (fst (nth e es d0))) (Z.of_nat v)) as [E'|E']; symmetry; [apply Nat.eqb_eq|apply Nat.eqb_neq]; lia. }
    rewrite Heq. destruct (src es d0 e =? v); cbn [map]; [f_equal|]; apply IH; intros k Hk; apply H; right; exact Hk.
  Qed.

  Theorem convert_coo_ok ch : legal (length es) ch ->
    exists r es', convert_coo L O weighted c ch = Ok r /\ Permutation es' es /\
      represents weighted r (rows_of (Z.to_nat n) es') /\
      cs_nrows r = co_nrows c /\ cs_ncols r = co_ncols c /\
      (ch_parts2 ch = [seq 0 (length es)] -> es' = es).
  Proof.
    intros HC. pose proof HC as (HT & Hk & HP1 & HP2).
    set (N := Z.to_nat n). assert (EN : Z.of_nat N = n) by (unfold N; lia).
    destruct Hc as (Hcm & Hcx & Hcy).
    (* the order in which the entries are captured *)
    assert (HS : exists l, merge (map (scatter_prog weighted) (ch_parts2 ch)) l /\
        forall off s, run (scexec O c off) (ch_s3 ch) (map (scatter_prog weighted) (ch_parts2 ch)) s = exec_all (scexec O c off) l s).
    { assert (G : forall sched ps, exists l, merge ps l /\ forall off s, run (scexec O c off) sched ps s = exec_all (scexec O c off) l s).
      { clear. induction sched as [|t sched IH]; intros ps.
        - exists (concat ps). split; [constructor|reflexivity].
        - cbn [run]. destruct (pop t ps) as [[i ps']|] eqn:E.
          + destruct (IH ps') as (l & HM & Hl). exists (i :: l). split; [econstructor; eassumption|].
            intros off s. cbn [exec_all]. apply bind_ext. intros a. apply Hl.
          + destruct (IH ps) as (l & HM & Hl). exists l. split; assumption. }
      apply G. }
    destruct HS as (l & HM & Hl).
    destruct (merge_scatter _ _ _ _ HM HP2) as (HO1 & HO2 & HO3 & HO4).
    set (es' := pick es (caps l)).
    assert (HE : Permutation es' es) by (apply pick_perm, HO1).
    assert (HF' : Forall (fun e => 0 <= fst (fst e) < Z.of_nat N)%Z es').
    { rewrite EN. apply Forall_forall. intros e He. apply (Permutation_in _ HE) in He. rewrite Forall_forall in Hsrc. auto. }
    set (rows := rows_of N es').
    assert (HRl : length rows = N) by apply rows_length.
    assert (HRt : length (concat rows) = length es).
    { unfold rows. rewrite rows_total by exact HF'. apply Permutation_length, HE. }
    assert (HEnd : forall off reg0 ends ws,
      off = map (fun v => Some (Z.of_nat (length (concat (firstn v rows))))) (seq 0 (S N)) ->
      length reg0 = length es -> length ends = length es -> (weighted = true -> length ws = length es) ->
      exists st, exec_all (scexec O c off) l (mkSc (map (fun r => Some (Z.of_nat (length r))) rows) reg0 ends ws) = Ok st /\
        sc_end st = map (fun p => Some (fst p)) (concat rows) /\
        (weighted = true -> sc_w st = map (fun p => Some (snd p)) (concat rows))).
    { intros off reg0 ends ws Eoff Hr He Hw'.
      assert (Hcase : length es = 0 \/ exists d0 : Z * Z * W, True) by (clear; destruct es as [|d0 es0]; [left; reflexivity|right; exists d0; exact I]).
      destruct Hcase as [Ees|[d0 _]].
      - assert (l = []) as ->.
        { apply merge_perm in HM. rewrite scatter_concat in HM. apply Permutation_sym in HP2. rewrite Ees in HP2. cbn [seq] in HP2.
          apply Permutation_nil in HP2. rewrite HP2 in HM. cbn in HM. apply Permutation_sym, Permutation_nil in HM. exact HM. }
        exists (mkSc (map (fun r => Some (Z.of_nat (length r))) rows) reg0 ends ws). split; [reflexivity|]. cbn [sc_end sc_w].
        rewrite Ees in *. destruct (concat rows); [|discriminate]. split; [destruct ends; [reflexivity|discriminate]|].
        intros Ew. specialize (Hw' Ew). destruct ws; [reflexivity|discriminate].
      - assert (Hlt : forall e, In e (caps l) -> e < length es).
        { intros e Hi. apply (Permutation_in _ HO1), in_seq in Hi. lia. }
        set (f := fun e => (snd (fst (nth e es d0)), snd (nth e es d0))).
        assert (ER : rows = map (map f) (irows es d0 N l)).
        { unfold rows, rows_of, irows. rewrite map_map. apply map_ext. intros v. unfold es'. apply row_pick. exact Hlt. }
        assert (EC : concat rows = map f (concat (irows es d0 N l))) by (rewrite ER; symmetry; apply concat_map).
        assert (EF : forall v, length (concat (firstn v rows)) = length (concat (firstn v (irows es d0 N l)))).
        { intros v. rewrite ER, firstn_map, <- concat_map, map_length. reflexivity. }
        destruct (scatter_ok O HO c off weighted es d0 N) with (l := l)
            (s := mkSc (map (fun r => Some (Z.of_nat (length r))) rows) reg0 ends ws) as (st & Est & S1 & S2);
          cbn [sc_rem sc_reg sc_end sc_w]; auto.
        + intros e Hi. rewrite Hcx, nth_error_map, (nth_error_nth' es d0) by exact Hi. reflexivity.
        + intros e Hi. rewrite Hcy, nth_error_map, (nth_error_nth' es d0) by exact Hi. reflexivity.
        + intros Ew e Hi. rewrite (Hcw Ew), nth_error_map, (nth_error_nth' es d0) by exact Hi. reflexivity.
        + intros e Hi. rewrite EN. rewrite Forall_forall in Hsrc. apply Hsrc, nth_In, Hi.
        + intros v Hv. rewrite Eoff, nth_error_map, nth_error_seq' by lia. cbn [option_map plus]. rewrite EF. reflexivity.
        + rewrite map_length. exact HRl.
        + intros v Hv. rewrite nth_error_map, ER, nth_error_map. unfold irows. rewrite nth_error_map, nth_error_seq' by exact Hv.
          cbn [option_map plus]. rewrite map_length. reflexivity.
        + exists st. split; [exact Est|]. rewrite S1. split.
          * unfold tgt_end. rewrite EC, !map_map. reflexivity.
          * intros Ew. rewrite (S2 Ew). unfold tgt_w. rewrite EC, !map_map. reflexivity. }
    destruct (degs_ok ch es' HC HE) as (incs & Hinc & Hdeg). fold N rows in Hdeg.
    unfold convert_coo. rewrite Hn, Hcm. unfold csr_alloc. rewrite alloc_ok by lia. cbn [bind].
    set (ws0 := if weighted then _ else _).
    assert (Ews : exists ws, ws0 = Ok ws /\ (weighted = true -> length ws = length es)).
    { unfold ws0. destruct weighted.
      - rewrite alloc_ok by lia. eexists. split; [reflexivity|]. intros _. rewrite fresh_length. lia.
      - exists []. split; [reflexivity|discriminate]. }
    destruct Ews as (ws & -> & Hws). cbn [bind].
    rewrite (plus1_ok L n HL Hn0 Hroom). cbn [bind]. rewrite alloc_ok by lia. cbn [bind].
    destruct (Z.ltb_spec n 0); [lia|]. rewrite Hinc. cbn [bind]. fold N. rewrite Hdeg. cbn [bind].
    pose proof (offsets_ok O HO (map (fun r => Z.of_nat (length r)) rows)) as HOff.
    rewrite zsum_lengths, HRt, map_length, HRl in HOff.
    rewrite HOff; [|apply Forall_forall; intros d Hd; apply in_map_iff in Hd as (r & <- & _); lia|exact Hm|exact HT|exact Hk|rewrite fresh_length; lia].
    cbn [bind].
    assert (EO : map (fun v => Some (D (map (fun r => Z.of_nat (length r)) rows) v)) (seq 0 (S N)) =
      map (fun v => Some (Z.of_nat (length (concat (firstn v rows))))) (seq 0 (S N))).
    { apply map_ext. intros v. rewrite D_lengths. reflexivity. }
    rewrite EO, map_map. rewrite Hl.
    destruct (HEnd _ (fresh (Z.to_nat (Z.of_nat (length es)))) (fresh (Z.to_nat (Z.of_nat (length es)))) ws eq_refl) as (st & -> & E1 & E2);
      [rewrite fresh_length; lia|rewrite fresh_length; lia|exact Hws|].
    cbn [bind]. eexists. exists es'. split; [reflexivity|]. split; [exact HE|]. split.
    - fold N. fold rows. unfold represents. cbn [cs_n cs_m cs_off cs_end cs_w]. rewrite HRl, HRt.
      split; [lia|]. split; [reflexivity|]. split; [reflexivity|]. split; [exact E1|exact E2].
    - cbn [cs_nrows cs_ncols]. split; [reflexivity|]. split; [reflexivity|].
      intros EP. rewrite EP in HM. cbn [map] in HM. apply merge_single in HM.
      unfold es'. rewrite HM, caps_scatter. apply pick_seq'.
  Qed.
End Convert.
