(** * CsrFineMain: [convert_coo_] interval by interval *)

From Coq Require Import Permutation.
From Verif Require Import Base Sched SchedLemmas SchedMore Coo Ascii Csr ElSpec SpecText SpecCsr CsrLemmas CsrScatter CsrMain
  SpecRace Race RaceLemmas CsrFine CsrFinePhases CsrFineScatter.

(** The same choices for the coarser model. *)
Definition coarse (ch : fchoice) : cchoice :=
  mkChoice (fc_T ch) (fc_last ch) (fc_parts1 ch) (fc_parts2 ch) (fc_s1 ch) (fc_s4 ch) (fc_s5 ch).

Section Main.
  Context {W : Type}.
  Variables L O : ity.
  Hypothesis HL : is_ity L.
  Hypothesis HO : is_ity O.
  Variable weighted : bool.
  Variable c : coo W.
  Variable es : list (Z * Z * W).
  Variable n : Z.
  Hypothesis Hc : holds c es.
  Hypothesis Hcw : weighted = true -> holds_weights c es.
  Hypothesis Hn : co_n c = Some n.
  Hypothesis Hn0 : (0 <= n)%Z.
  Hypothesis Hroom : room L n.
  Hypothesis Hm : (Z.of_nat (length es) <= imax O)%Z.
  Hypothesis Hsrc : Forall (fun e => 0 <= fst (fst e) < n)%Z es.

  Theorem convert_fine_ok ch :
    0 < fc_T ch -> fc_sum ch < fc_T ch -> fc_last ch < fc_T ch ->
    Permutation (concat (fc_parts0 ch)) (seq 0 (Z.to_nat n)) ->
    Permutation (concat (fc_parts1 ch)) (seq 0 (length es)) ->
    Permutation (concat (fc_parts2 ch)) (seq 0 (length es)) ->
    length (fc_parts2 ch) = fc_T ch ->
    exists r logs, convert_coo_fine L O weighted c ch = Ok (r, logs) /\ Forall no_race logs /\
      convert_coo L O weighted c (coarse ch) = Ok r.
  Proof.
    intros HT Hk1 Hk2 HP0 HP1 HP2 HlT.
    set (N := Z.to_nat n). assert (EN : Z.of_nat N = n) by (unfold N; lia).
    pose proof Hc as (Hcm & Hcx & Hcy).
    (* the order in which the entries are captured *)
    set (l := map snd (trace (fc_s5 ch) (map (scatter_prog weighted) (fc_parts2 ch)))).
    assert (HM : merge (map (scatter_prog weighted) (fc_parts2 ch)) l) by apply trace_merge.
    destruct (merge_scatter _ _ _ _ HM HP2) as (HO1 & HO2 & HO3 & HO4).
    set (es' := pick es (caps l)).
    assert (HE : Permutation es' es) by (apply pick_perm, HO1).
    assert (HF' : Forall (fun e => 0 <= fst (fst e) < Z.of_nat N)%Z es').
    { rewrite EN. apply Forall_forall. intros e He. apply (Permutation_in _ HE) in He. rewrite Forall_forall in Hsrc. auto. }
    set (rows := rows_of N es').
    assert (HRl : length rows = N) by apply rows_length.
    assert (HRt : length (concat rows) = length es).
    { unfold rows. rewrite rows_total by exact HF'. apply Permutation_length, HE. }
    assert (HC : legal (length es) (coarse ch)).
    { unfold legal, coarse. cbn [ch_T ch_single ch_parts1 ch_parts2]. tauto. }
    destruct (degs_ok O HO c es n Hc Hm Hsrc (coarse ch) es' HC HE) as (incs & Hinc & Hdeg).
    cbn [coarse ch_parts1 ch_s1] in Hinc, Hdeg. fold N rows in Hdeg.
    set (ds := map (fun r => Z.of_nat (length r)) rows) in *.
    unfold convert_coo, convert_coo_fine. rewrite Hn, Hcm. unfold csr_alloc. rewrite alloc_ok by lia. cbn [bind].
    set (ws0 := if weighted then _ else _).
    assert (Ews : exists ws, ws0 = Ok ws /\ (weighted = true -> length ws = length es)).
    { unfold ws0. destruct weighted.
      - rewrite alloc_ok by lia. eexists. split; [reflexivity|]. intros _. rewrite fresh_length. lia.
      - exists []. split; [reflexivity|discriminate]. }
    destruct Ews as (ws & -> & Hws). cbn [bind].
    rewrite (plus1_ok L n HL Hn0 Hroom). cbn [bind]. rewrite alloc_ok by lia. cbn [bind].
    destruct (Z.ltb_spec n 0); [lia|]. cbn [coarse ch_T ch_single ch_parts1 ch_parts2 ch_s1 ch_s2 ch_s3].
    rewrite Hinc. cbn [bind]. fold N. rewrite Hdeg. cbn [bind].
    assert (Hpos : Forall (fun d => 0 <= d)%Z ds) by (apply Forall_forall; intros d Hd; apply in_map_iff in Hd as (r & <- & _); lia).
    assert (Hds : length ds = N) by (unfold ds; rewrite map_length; exact HRl).
    assert (Ezs : zsum ds = Z.of_nat (length es)) by (unfold ds; rewrite zsum_lengths, HRt; reflexivity).
    assert (Hfit : (zsum ds <= imax O)%Z) by (rewrite Ezs; exact Hm).
    pose proof (offsets_ok O HO ds Hpos Hfit (fc_T ch) (fc_last ch) (fc_s4 ch) (fresh (Z.to_nat (n + 1))) HT Hk2) as HOff.
    rewrite Ezs, Hds in HOff. rewrite HOff by (rewrite fresh_length; lia). clear HOff. cbn [bind].
    (* interval 0 *)
    destruct (zero_ok O true c N (Z.of_nat (length es)) (fc_parts0 ch) HP0 (fresh N) (fresh (fc_T ch)) (fresh (Z.to_nat (n + 1)))
      (fresh (Z.to_nat (Z.of_nat (length es)))) ws (fresh (fc_T ch)) (fresh (fc_T ch)) (fresh (fc_T ch)) (fresh (fc_T ch)) (fresh (fc_T ch))
      (fc_s0 ch) (fresh N) (fresh_length _)) as (l0 & E0 & R0).
    rewrite E0. cbn [bind]. clear E0.
    (* interval 1 *)
    assert (HX : exists x : nat -> Z, (forall e, In e (concat (fc_parts1 ch)) -> cell_of e (co_x c) = Ok (x e)) /\ incs = map (map x) (fc_parts1 ch)).
    { exists (fun e => nth e (map (fun e => fst (fst e)) es) 0%Z).
      assert (HXx : forall e, In e (concat (fc_parts1 ch)) -> cell_of e (co_x c) = Ok (nth e (map (fun e => fst (fst e)) es) 0%Z)).
      { intros e He. apply (Permutation_in _ HP1), in_seq in He. apply cell_of_some. rewrite Hcx.
        rewrite nth_error_map. destruct (nth_error es e) as [q|] eqn:Eq; [|apply nth_error_None in Eq; lia].
        cbn [option_map]. do 2 f_equal. symmetry. apply nth_error_nth. rewrite nth_error_map, Eq. reflexivity. }
      split; [exact HXx|]. rewrite (mapM_mapM_ok _ _ _ HXx) in Hinc. congruence. }
    destruct HX as (x & HX & ->).
    assert (ER0 : repeat (Some 0%Z) N = map Some (repeat 0%Z N)) by (clear; induction N as [|k IH]; cbn; [reflexivity|f_equal; exact IH]).
    rewrite ER0.
    destruct (inc_ok O true c N (Z.of_nat (length es)) (fresh N) (fresh (fc_T ch)) (fresh (Z.to_nat (n + 1)))
      (fresh (Z.to_nat (Z.of_nat (length es)))) ws (fresh (fc_T ch)) (fresh (fc_T ch)) (fresh (fc_T ch)) (fresh (fc_T ch)) (fresh (fc_T ch))
      (fc_s1 ch) (fc_parts1 ch) x (repeat 0%Z N) ds HX Hdeg) as (l1 & E1 & R1).
    rewrite E1. cbn [bind]. clear E1.
    (* interval 2 *)
    destruct (lab_ok O HO true c N (Z.of_nat (length es)) ds Hds Hpos Hfit (fc_T ch) HT (fresh (Z.to_nat (n + 1)))
      (fresh (Z.to_nat (Z.of_nat (length es)))) (fresh N) ws (fresh (fc_T ch)) (fresh (fc_T ch)) (fresh (fc_T ch)) (fc_s2 ch)
      (fresh (fc_T ch)) (fresh (fc_T ch)) (fresh (fc_T ch)) (fun _ => fresh_length _) (fresh_length _) (fresh_length _) (fresh_length _))
      as (this & my & l2 & E2 & R2).
    rewrite E2. cbn [bind]. clear E2.
    (* interval 3 *)
    destruct (sum_ok O HO true c N (Z.of_nat (length es)) ds Hds Hpos Hfit (fc_T ch) HT (fc_sum ch) Hk1 (map Some ds) (map Some ds) (fresh (Z.to_nat (n + 1)))
      (fresh (Z.to_nat (Z.of_nat (length es)))) ws this my (fresh (fc_T ch)) (fresh (fc_T ch)) (fc_s3 ch) (fresh (fc_T ch)) (fresh_length _))
      as (tot & l3 & E3 & R3).
    rewrite E3. cbn [bind]. clear E3.
    (* interval 4 *)
    destruct (store_ok O HO true c N (Z.of_nat (length es)) ds Hds Hpos Hfit (fc_T ch) HT (fc_last ch) Hk2 (map Some ds) (map Some ds)
      (fresh (Z.to_nat (Z.of_nat (length es)))) eq_refl ws this my tot (fresh (fc_T ch)) (fc_s4 ch) (fresh (Z.to_nat (n + 1))) (fresh (fc_T ch)))
      as (cur & l4 & E4 & R4); [rewrite fresh_length; lia|apply fresh_length|symmetry; exact Ezs|].
    rewrite E4. cbn [bind]. clear E4.
    (* interval 5 *)
    set (off := map (fun v => Some (D ds v)) (seq 0 (S N))).
    set (ends := fresh (Z.to_nat (Z.of_nat (length es)))).
    assert (HS : exists sc' pos' l5,
      interval (fexec O true c N (Z.of_nat (length es))) (facc O true c N) (fc_s5 ch) (map (scatter_prog_f weighted) (fc_parts2 ch))
        (mkF (map Some ds) (map Some ds) (map (fun t => Some (D ds (S t * N / fc_T ch))) (seq 0 (fc_T ch))) off ends ws this my tot cur (fresh (fc_T ch))) =
        Ok (mkF (map Some ds) (sc_rem sc') (map (fun t => Some (D ds (S t * N / fc_T ch))) (seq 0 (fc_T ch))) off (sc_end sc') (sc_w sc') this my tot cur pos', l5) /\
      run (scexec O c off) (fc_s5 ch) (map (scatter_prog weighted) (fc_parts2 ch)) (mkSc (map Some ds) ends ends ws) = Ok sc' /\ no_race l5).
    { assert (Hcase : es = [] \/ exists d0 : Z * Z * W, True) by (clear; destruct es as [|d0 es0]; [left; reflexivity|right; exists d0; exact I]).
      destruct Hcase as [Ees|[d0 _]].
      - assert (Ep : concat (fc_parts2 ch) = []) by (rewrite Ees in HP2; cbn in HP2; apply Permutation_nil, Permutation_sym; exact HP2).
        assert (En : forall t p, nth_error (fc_parts2 ch) t = Some p -> p = []).
        { intros t p Ht. destruct p as [|e p]; [reflexivity|]. exfalso. assert (In e (concat (fc_parts2 ch))) by (apply in_concat; eexists; split; [eapply nth_error_In; exact Ht|left; reflexivity]).
          rewrite Ep in H0. destruct H0. }
        assert (Et : forall (f : list nat -> list finstr), f [] = [] -> trace (fc_s5 ch) (map f (fc_parts2 ch)) = []).
        { intros f Hf. destruct (trace (fc_s5 ch) (map f (fc_parts2 ch))) as [|[t i] r] eqn:Er; [reflexivity|]. exfalso.
          destruct (steps_in _ _ (trace_steps (fc_s5 ch) (map f (fc_parts2 ch))) t i) as (p & Hp & Hi); [rewrite Er; left; reflexivity|].
          rewrite nth_error_map in Hp. destruct (nth_error (fc_parts2 ch) t) as [q|] eqn:Eq; [|discriminate]. injection Hp as <-.
          rewrite (En _ _ Eq), Hf in Hi. destruct Hi. }
        exists (mkSc (map Some ds) ends ends ws), (fresh (fc_T ch)), [].
        unfold interval. rewrite Et by reflexivity. cbn [exec_log sc_rem sc_end sc_w]. split; [reflexivity|]. split.
        + rewrite run_trace. fold l. assert (l = []) as ->; [|reflexivity].
          apply (merge_app_nil _ _ HM). clear - Ep. rewrite scatter_concat, Ep. reflexivity.
        + intros t u a b [].
      - assert (Hlt : forall e, In e (caps l) -> e < length es) by (intros e Hi; apply (Permutation_in _ HO1), in_seq in Hi; lia).
        set (f := fun e => (snd (fst (nth e es d0)), snd (nth e es d0))).
        assert (ERw : rows = map (map f) (irows es d0 N l)).
        { unfold rows, rows_of, irows. rewrite map_map. apply map_ext. intros v. unfold es'. apply (row_pick es n Hsrc). exact Hlt. }
        assert (EF : forall v, length (concat (firstn v rows)) = length (concat (firstn v (irows es d0 N l)))).
        { intros v. rewrite ERw, firstn_map, <- concat_map, map_length. reflexivity. }
        assert (Hsrc' : forall e, e < length es -> (0 <= fst (fst (nth e es d0)) < Z.of_nat N)%Z).
        { intros e Hi. rewrite EN. rewrite Forall_forall in Hsrc. apply Hsrc, nth_In, Hi. }
        destruct (scatter_fine_ok O HO c off weighted es d0 N (Z.of_nat (length es))) with (parts := fc_parts2 ch) (l := l) (T := fc_T ch)
          (deg := map Some ds) (start := map (fun t => Some (D ds (S t * N / fc_T ch))) (seq 0 (fc_T ch)))
          (this := this) (my := my) (tot := tot) (cur := cur) (sched := fc_s5 ch)
          (sc := mkSc (map Some ds) ends ends ws) (pos := @fresh Z (fc_T ch)) as (sc' & pos' & l5 & A1 & A2 & A3); auto.
        + intros e Hi. rewrite Hcx, nth_error_map, (nth_error_nth' es d0) by exact Hi. reflexivity.
        + intros e Hi. rewrite Hcy, nth_error_map, (nth_error_nth' es d0) by exact Hi. reflexivity.
        + intros Ew e Hi. rewrite (Hcw Ew), nth_error_map, (nth_error_nth' es d0) by exact Hi. reflexivity.
        + intros v Hv. unfold off. rewrite nth_error_map, nth_error_seq' by lia. cbn [option_map plus]. unfold ds. rewrite D_lengths, EF. reflexivity.
        + constructor; cbn [sc_rem sc_reg sc_end sc_w].
          * split; [rewrite map_length; exact Hds|]. intros v Hv. unfold ds. rewrite map_map, nth_error_map, ERw, nth_error_map. unfold irows.
            rewrite nth_error_map, nth_error_seq' by exact Hv. cbn [option_map plus]. rewrite map_length. do 2 f_equal. cbn [caps flat_map]. unfold cnt. cbn [filter length]. lia.
          * split; [unfold ends; rewrite fresh_length; lia|]. intros e [].
          * split; [unfold tgt_end, ends; rewrite map_length, (irows_len es d0 N Hsrc' l HO1), fresh_length; lia|]. intros k v (e & [] & _).
          * intros Ew. split; [unfold tgt_w; rewrite map_length, (irows_len es d0 N Hsrc' l HO1); auto|]. intros k v (e & [] & _).
        + apply fresh_length.
        + exists sc', pos', l5. split; [exact A1|]. split; [exact A2|exact A3]. }
    destruct HS as (sc' & pos' & l5 & E5 & E6 & R5).
    rewrite E5. cbn [bind]. rewrite E6. cbn [bind f_off f_end f_w]. eexists. eexists. split; [reflexivity|]. split; [|reflexivity].
    repeat (constructor; [assumption|]). constructor.
  Qed.
End Main.
