(** * TensorFragMain: the parallel tensor reader when the last line lacks its newline *)

From Verif Require Import Base Reader Sched SchedLemmas Spec SpecTensor ReaderLemmas Coo CooLemmas CooSplit CooMain CooExec
  Csr Codec Bin Load Tensor TensorLemmas TensorMain TensorOrder Frag FragEl ElBad TensorFrag FragMain.

Section Main.
  Context {W : Type}.
  Variables L O : ity.
  Hypothesis HL : is_ity L.
  Hypothesis HO : is_ity O.
  Variable wr : option (wrd W).
  Variable k : nat.
  Variable m : mem.
  Hypothesis Hslack : slack m.
  Variable g : list byte.
  Variable its : list (titem W).
  Let bs := map tiblk its.
  Let e := flen m.
  Hypothesis Hh : has m 0 (g ++ bstext bs).
  Hypothesis He : 0 + length (g ++ bstext bs) = e.
  Hypothesis Hg : gap (isnil bs) g.
  Hypothesis Hw : wf_blks bs.
  Hypothesis Hok : Forall (tline_ok L wr k) its.
  Variable T : nat.
  Hypothesis HT : 1 <= T.

  Notation iK := (bK tiblk g its T).
  Notation ioffs := (boffs tiblk 0 g its).
  Notation ichunk := (bchunk tiblk g its T).

  Lemma at_titem_of e' d it : e' <= e -> tline_ok L wr k it ->
    (exists fin, wf_blk fin (tiblk it) /\ has m d (btext (tiblk it)) /\
       ends m is_digit e' (d + length (btext (tiblk it))) /\ (fin = true -> d + length (btext (tiblk it)) = e')) ->
    (fst it <> Full -> d + length (btext (tiblk it)) = e) ->
    at_titem L wr k m e' d it.
  Proof.
    intros Hle Hlo (fin & Hwf & Hhas & Hends & Hfin) Hcut. destruct it as [tg [l w]]. unfold at_titem. cbn [fst snd] in *.
    destruct tg.
    - rewrite tiblk_full in *. cbn [fst snd] in *. destruct Hlo as (H1 & H2 & H3 & H4 & H5 & H6 & H7). cbn [fst snd] in *.
      destruct Hwf as (Hc & Hn & Hgap & _). cbn [tiblk b_gap b_head fst snd] in Hgap, Hc, Hn. split.
      + split; [exists fin; repeat (split; [assumption|]); assumption|]. split; assumption.
      + exists fin. unfold ptoblk; cbn [fst]. rewrite toblk_text. split; [split; [exact Hc|split; assumption]|]. auto.
    - rewrite (tiblk_cut Cut (l, w)) in * by discriminate. cbn [fst snd] in *. specialize (Hcut ltac:(discriminate)).
      destruct Hends as (c & _ & _ & Hd & _). assert (e' = e) by lia. subst e'.
      split; [exact Hlo|]. split; [exact Hhas|]. split; [exact Hcut|]. apply load_eof. exact Hslack.
    - rewrite (tiblk_cut Tail (l, w)) in * by discriminate. cbn [fst snd] in *. specialize (Hcut ltac:(discriminate)).
      destruct Hends as (c & _ & _ & Hd & _). assert (e' = e) by lia. subst e'.
      split; [exact Hlo|]. split; [exact Hhas|]. split; [exact Hcut|]. apply load_eof. exact Hslack.
  Qed.

  Lemma tcut_end j it : nth_error its j = Some it -> fst it <> Full -> S j = length its.
  Proof using Hw.
    intros Hk Hf. clear - Hk Hf Hw. unfold bs in Hw. revert j Hk; induction its as [|a l IH]; intros j Hk; [destruct j; discriminate|].
    cbn [map wf_blks] in Hw. destruct Hw as [(_ & _ & _ & Ht) Hw']. destruct j as [|j]; cbn [nth_error] in Hk.
    - injection Hk as ->. cbn [tiblk b_term] in Ht. destruct l as [|b l]; [reflexivity|].
      destruct (fst it); [congruence|..]; specialize (Ht eq_refl); discriminate Ht.
    - cbn [length]. f_equal. apply IH; assumption.
  Qed.

  Lemma at_titems_of e' : e' <= e -> forall B d j, at_blks tiblk m e' d B -> Forall (tline_ok L wr k) B ->
    (forall i it, nth_error B i = Some it -> nth_error its (j + i) = Some it) -> d = ioffs j ->
    at_titems L wr k m e' d B.
  Proof.
    intros Hle. induction B as [|it B IH]; intros d j Hb Hlo Hn Hd; [exact Hb|].
    destruct Hb as [Hit Hb]. inversion Hlo as [|? ? Hl1 Hl2]; subst. cbn [at_titems].
    assert (Hk : nth_error its j = Some it) by (rewrite <- (Nat.add_0_r j); apply Hn; reflexivity).
    assert (HS : ioffs j + length (btext (tiblk it)) = ioffs (S j)).
    { unfold boffs, boff. destruct (nth_error_split its j Hk) as (l1 & l2 & E & El). rewrite E, !map_app. cbn [map].
      rewrite <- El. replace (length l1) with (length (map (@tiblk W) l1)) by apply map_length.
      replace (S (length (map (@tiblk W) l1))) with (length (map (@tiblk W) l1 ++ [tiblk it])) by (rewrite app_length; cbn; lia).
      rewrite firstn_app, firstn_all, Nat.sub_diag, firstn_O, app_nil_r.
      change (map (@tiblk W) l1 ++ tiblk it :: map tiblk l2) with (map (@tiblk W) l1 ++ ([tiblk it] ++ map tiblk l2)).
      rewrite app_assoc, firstn_app, firstn_all, Nat.sub_diag, firstn_O, app_nil_r.
      rewrite bstext_app, app_length. unfold bstext at 3. cbn [map concat]. rewrite app_nil_r. lia. }
    split.
    - apply at_titem_of; auto. intros Hf. rewrite HS, (tcut_end j it Hk Hf). unfold boffs, boff. fold bs.
      replace (length its) with (length bs) by (unfold bs; apply map_length). rewrite firstn_all. rewrite app_length in He. lia.
    - apply IH with (j := S j); auto. intros i it' Hj. rewrite <- (Hn (S i) it' Hj). f_equal. lia.
  Qed.

  Lemma at_chunk_titems t : t < T -> at_titems L wr k m (ioffs (iK (S t))) (ioffs (iK t)) (ichunk t).
  Proof.
    intros Ht. apply at_titems_of with (j := iK t).
    - apply (boffs_le tiblk m 0 g its He T HT).
    - apply at_bchunk; auto.
    - unfold bchunk, slice. rewrite Forall_forall in Hok |- *. intros it Hin. apply Hok.
      rewrite <- (firstn_skipn (iK t) its). apply in_or_app; right.
      rewrite <- (firstn_skipn (iK (S t) - iK t) (skipn (iK t) its)). apply in_or_app; left; exact Hin.
    - intros j it Hj. unfold bchunk, slice in Hj.
      assert (Hlt : j < iK (S t) - iK t).
      { destruct (Nat.lt_ge_cases j (iK (S t) - iK t)) as [|Hge]; [assumption|]. exfalso.
        assert (nth_error (firstn (iK (S t) - iK t) (skipn (iK t) its)) j = None); [|congruence].
        apply nth_error_None. rewrite firstn_length. lia. }
      rewrite <- Hj. rewrite <- (firstn_skipn (iK t) its) at 1.
      pose proof (bK_le tiblk m 0 g its He T HT t) as HK.
      rewrite nth_error_app2; rewrite firstn_length_le by exact HK; [|lia].
      replace (iK t + j - iK t) with j by lia.
      rewrite <- (firstn_skipn (iK (S t) - iK t) (skipn (iK t) its)) at 1. apply nth_error_app1.
      assert (Hj2 : j < length (firstn (iK (S t) - iK t) (skipn (iK t) its))) by (apply nth_error_Some; congruence). exact Hj2.
    - reflexivity.
  Qed.

  Lemma titot_app (a b : list (titem W)) : titot (a ++ b) = titot a + titot b.
  Proof using Type. clear. unfold titot. rewrite map_app. induction a as [|x a IH]; [reflexivity|]. cbn [map app sum_nat fold_right]. unfold sum_nat in *. lia. Qed.

  Definition tP (t : nat) : nat := titot (firstn (iK t) its).
  Lemma tP_S t : t < T -> tP (S t) = tP t + titot (ichunk t).
  Proof. intros Ht. unfold tP, bchunk. rewrite <- titot_app, firstn_slice by (apply (bK_mono tiblk m 0 g its He T HT); auto). reflexivity. Qed.

  Lemma tP_mono2 i j : i <= j -> j <= T -> tP i <= tP j.
  Proof. intros Hij Hj. induction Hij as [|j Hij IH]; [lia|]. pose proof (tP_S j ltac:(lia)). specialize (IH ltac:(lia)). lia. Qed.

  Let n := titot its.
  Lemma tP_T : tP T = n.
  Proof. unfold tP. rewrite (bK_T tiblk m 0 g its He Hw T HT), firstn_all. reflexivity. Qed.
  Lemma tP_le t : t <= T -> tP t <= n.
  Proof. intros Ht. rewrite <- tP_T. apply tP_mono2; lia. Qed.

  Definition tprog (t : nat) : list (tinstr W) := ticodes wr k (tP t) (ichunk t).
  Definition tst0 : tst W := mkTst (fresh (k * n)) (if is_some wr then fresh n else []).

  Hypothesis Hord : tensor_order O (is_some wr) m 0 e = Ok (Z.of_nat k).
  Hypothesis Hm_fit : (Z.of_nat n <= imax O)%Z.
  Hypothesis Hmul : omul O (Z.of_nat k) (Z.of_nat n) = Ok (Z.of_nat (k * n)).

  Lemma read_titems sched : tensor_read_el L O wr m 0 e T sched =
    (st <- run texec sched (map tprog (seq 0 T)) tst0 ;; Ok (mkTensor (tc st) (tw st) (Z.of_nat k) (Z.of_nat n))).
  Proof.
    unfold tensor_read_el. rewrite Hord. cbn [bind]. rewrite Nat2Z.id.
    rewrite (mapM_ok _ (fun t => (ioffs (iK t), ioffs (iK (S t))))) by (intros t Ht; apply in_seq in Ht; apply bchunk_at; auto; lia).
    cbn [bind]. rewrite mapM_map. cbn [fst snd].
    rewrite (mapM_ok _ (fun t => titot (ichunk t))).
    2:{ intros t Ht. apply in_seq in Ht. pose proof (at_chunk_titems t ltac:(lia)) as Hat. pose proof (at_titems_le _ _ _ _ _ _ _ Hat).
        rewrite (ticount_run L HL wr k m _ (ichunk t) _ 0 _ Hat) by lia. reflexivity. }
    cbn [bind].
    assert (Esum : sum_nat (map (fun t => titot (ichunk t)) (seq 0 T)) = n).
    { pose proof (sum_nat_seq tP (fun t => titot (ichunk t)) T 0) as H. change (tP 0) with 0 in H. cbn [plus] in H.
      rewrite H; [apply tP_T|intros t Ht; apply tP_S; lia]. }
    rewrite Esum. pose proof (ity_facts O HO) as (HO1 & HO2 & _). rewrite wrap_in by (auto; lia).
    unfold tensor_alloc. rewrite Hmul. cbn [bind]. unfold alloc.
    destruct (Z.ltb_spec (Z.of_nat (k * n)) 0); [lia|]. cbn [bind].
    destruct (Z.ltb_spec (Z.of_nat n) 0); [lia|]. rewrite !Nat2Z.id.
    replace (if is_some wr then Ok (fresh n) else Ok []) with (Ok (if is_some wr then fresh (V:=W) n else [])) by (destruct (is_some wr); reflexivity).
    cbn [bind].
    pose proof (prefix_sums_seq tP (fun t => titot (ichunk t)) T 0) as Hps. change (tP 0) with 0 in Hps.
    rewrite Hps by (intros t Ht; apply tP_S; lia). rewrite combine_map, mapM_map. cbn [fst snd].
    rewrite (mapM_ok _ tprog).
    2:{ intros t Ht. apply in_seq in Ht. pose proof (at_chunk_titems t ltac:(lia)) as Hat. pose proof (at_titems_le _ _ _ _ _ _ _ Hat).
        apply (tiset_run L HL wr k m _ (ichunk t) _ _ _ Hat). lia. }
    cbn [bind]. reflexivity.
  Qed.

  (** The entries that are stored. *)
  Definition tkept (B : list (titem W)) : list (tline * W) := flat_map (fun it => match fst it with Cut => [] | _ => [snd it] end) B.
  Lemma tkept_app a b : tkept (a ++ b) = tkept a ++ tkept b.
  Proof using Type. apply flat_map_app. Qed.
  Lemma tkept_len B : length (tkept B) = titot B.
  Proof using Type.
    clear. unfold titot. induction B as [|it B IH]; [reflexivity|]. cbn [tkept flat_map map sum_nat fold_right]. rewrite app_length. unfold tkept in IH. rewrite IH.
    unfold tcnt. destruct (fst it); cbn [length]; unfold sum_nat; lia.
  Qed.

  Hypothesis Hkind : k = 1 \/ Forall (fun it => fst it <> Cut) its.

  Lemma ticodes_kept B : (k = 1 \/ Forall (fun it => fst it <> Cut) B) -> Forall (tline_ok L wr k) B -> forall pos, ticodes wr k pos B = tcodes wr k pos (tkept B).
  Proof using Type.
    clear. intros Hk Hl. induction Hl as [|it B Hit _ IH]; intros pos; [reflexivity|]. cbn [ticodes tkept flat_map].
    assert (Hk' : k = 1 \/ Forall (fun it => fst it <> Cut) B) by (destruct Hk as [|Hk]; [left; assumption|right; inversion Hk; assumption]).
    unfold ticode, tcnt. destruct it as [tg p]. cbn [fst snd] in *. destruct tg; cbn [app tcodes].
    - rewrite (IH Hk'). unfold tkept. rewrite <- app_assoc. reflexivity.
    - destruct Hk as [Hk|Hk]; [|inversion Hk; cbn [fst] in *; congruence]. destruct Hit as (H0 & _). cbn [fst snd] in H0.
      destruct (t_labels (fst p)) as [|a [|b r]]; cbn [length] in H0; try lia. cbn [removelast setCs app]. rewrite (IH Hk'), Nat.add_0_r. reflexivity.
    - rewrite (IH Hk'). unfold tkept. rewrite <- app_assoc. reflexivity.
  Qed.

  Lemma chunk_sub t (P : titem W -> Prop) : Forall P its -> Forall P (ichunk t).
  Proof using Type.
    clear. intros H. rewrite Forall_forall in *. intros it Hin. apply H. unfold bchunk, slice in Hin.
    rewrite <- (firstn_skipn (iK t) its). apply in_or_app; right.
    rewrite <- (firstn_skipn (iK (S t) - iK t) (skipn (iK t) its)). apply in_or_app; left; exact Hin.
  Qed.

  Lemma tprog_kept t : tprog t = tcodes wr k (tP t) (tkept (ichunk t)).
  Proof using Hok Hkind. unfold tprog. apply ticodes_kept; [destruct Hkind as [|H]; [left; assumption|right; apply chunk_sub; exact H]|apply chunk_sub; exact Hok]. Qed.

  Lemma kept_lens B : Forall (tline_ok L wr k) B -> Forall (fun p => length (t_labels (fst p)) = k) (tkept B).
  Proof using Type.
    clear. induction 1 as [|it B Hit _ IH]; [constructor|]. cbn [tkept flat_map]. apply Forall_app; split; [|exact IH].
    destruct Hit as (H & _). destruct (fst it); repeat constructor; exact H.
  Qed.

  Lemma read_kept sched : tensor_read_el L O wr m 0 e T sched =
    Ok (mkTensor (map Some (concat (map (fun p => t_labels (fst p)) (tkept its)))) (if is_some wr then map (fun p => Some (snd p)) (tkept its) else [])
          (Z.of_nat k) (Z.of_nat n)).
  Proof.
    rewrite read_titems. erewrite map_ext by (intros t; apply tprog_kept).
    rewrite run_indep.
    2:{ apply fop_map, fop_seq. intros i j Hij Hj. cbn [plus] in Hj. intros a b Ha Hb.
        assert (HI : forall t, t < T -> Forall (tin k (tP t) (tP (S t))) (tcodes wr k (tP t) (tkept (ichunk t)))).
        { intros t Ht. apply tcodes_in; [apply kept_lens, chunk_sub; exact Hok|lia|]. rewrite (tP_S t Ht), tkept_len. lia. }
        pose proof (HI i ltac:(lia)) as Hi. rewrite Forall_forall in Hi. specialize (Hi a Ha).
        pose proof (HI j ltac:(lia)) as Hjj. rewrite Forall_forall in Hjj. specialize (Hjj b Hb).
        eapply tcomm; [exact Hi|exact Hjj|]. apply tP_mono2; lia. }
    assert (Econ : forall q, q <= T -> concat (map (fun t => tcodes wr k (tP t) (tkept (ichunk t))) (seq 0 q)) = tcodes wr k 0 (tkept (firstn (iK q) its))).
    { induction q as [|q IH]; intros Hq; [reflexivity|]. rewrite seq_S, map_app, concat_app, IH by lia. cbn [map concat plus]. rewrite app_nil_r.
      unfold bchunk. rewrite <- (firstn_slice (iK q) (iK (S q)) its) by (apply (bK_mono tiblk m 0 g its He T HT); lia).
      rewrite tkept_app, tcodes_app. rewrite tkept_len. reflexivity. }
    rewrite Econ by lia. rewrite (bK_T tiblk m 0 g its He Hw T HT), firstn_all.
    pose proof (exec_tcodes wr k (tkept its) (kept_lens its Hok) [] (fresh (k * n)) (if is_some wr then fresh (V:=W) n else [])) as HE.
    cbn [length map concat app] in HE. assert (En : (if is_some wr then @nil (option W) else []) = []) by (destruct (is_some wr); reflexivity). rewrite En in HE. cbn [app] in HE.
    unfold tst0. rewrite HE.
    - reflexivity.
    - constructor.
    - unfold fresh. rewrite repeat_length, tkept_len. fold n. lia.
    - destruct (is_some wr); [unfold fresh; rewrite repeat_length, tkept_len; reflexivity|reflexivity].
  Qed.
End Main.

(** A line cut off right after its second or later label: the labels before the
    last are stored past the end of the array. *)
Lemma texec_len {W} N (i : tinstr W) s : length (tc s) = N -> texec i s = UB \/ exists s', texec i s = Ok s' /\ length (tc s') = N.
Proof.
  intros Hs. destruct i as [i q|i q]; cbn [texec]; unfold aset.
  - destruct (_ <? _); [right; eexists; split; [reflexivity|cbn [bind tc]; rewrite upd_length; exact Hs]|left; reflexivity].
  - destruct (_ <? _); [right; eexists; split; [reflexivity|exact Hs]|left; reflexivity].
Qed.

Section CutUB.
  Context {W : Type}.
  Variables L O : ity.
  Hypothesis HL : is_ity L.
  Hypothesis HO : is_ity O.
  Variable k : nat.
  Hypothesis Hk2 : 2 <= k.
  Variable m : mem.
  Hypothesis Hslack : slack m.
  Variable g : list byte.
  Variable qs : list (titem W).
  Variable p : tline * W.
  Hypothesis Hqs : Forall (fun it => fst it = Full) qs.
  Let its := qs ++ [(Cut, p)].
  Let bs := map tiblk its.
  Hypothesis Hh : has m 0 (g ++ bstext bs).
  Hypothesis He : 0 + length (g ++ bstext bs) = flen m.
  Hypothesis Hg : gap (isnil bs) g.
  Hypothesis Hw : wf_blks bs.
  Hypothesis Hok : Forall (tline_ok L None k) its.
  Variable T : nat.
  Hypothesis HT : 1 <= T.
  Hypothesis Hord : tensor_order O false m 0 (flen m) = Ok (Z.of_nat k).
  Hypothesis Hm_fit : (Z.of_nat (length qs) <= imax O)%Z.
  Hypothesis Hmul : omul O (Z.of_nat k) (Z.of_nat (length qs)) = Ok (Z.of_nat (k * length qs)).

  Lemma full_tot (B : list (titem W)) : Forall (fun it => fst it = Full) B -> titot B = length B.
  Proof using Type.
    clear. unfold titot. induction 1 as [|it B H _ IH]; [reflexivity|]. cbn [map sum_nat fold_right length]. unfold sum_nat in IH. rewrite IH. unfold tcnt. rewrite H. reflexivity.
  Qed.

  Lemma cut_read_ub sched : tensor_read_el L O (@None (wrd W)) m 0 (flen m) T sched = UB.
  Proof.
    assert (En : titot its = length qs) by (unfold its; rewrite titot_app, (full_tot qs Hqs); unfold titot, tcnt; cbn; lia).
    rewrite (read_titems L O HL HO None k m Hslack g its Hh He Hg Hw Hok T HT Hord) by (rewrite En; assumption).
    unfold tst0. rewrite En. cbn [is_some].
    assert (Hin : In (Cut, p) (concat (map (bchunk tiblk g its T) (seq 0 T)))).
    { rewrite (bchunks_concat tiblk m 0 g its He T HT T (le_n _)).
      rewrite (bK_T tiblk m 0 g its He Hw T HT), firstn_all. unfold its. apply in_or_app; right; left; reflexivity. }
    apply in_concat in Hin as (B & HB & Hin). apply in_map_iff in HB as (t & <- & Ht). apply in_seq in Ht.
    apply in_split in Hin as (B1 & B2 & EB).
    pose proof (slice_split (bK tiblk g its T t) (bK tiblk g its T (S t)) its (bK_mono tiblk m 0 g its He T HT t ltac:(lia))) as Esp.
    unfold bchunk in EB. rewrite EB in Esp.
    assert (E2 : its = (firstn (bK tiblk g its T t) its ++ B1) ++ (Cut, p) :: (B2 ++ skipn (bK tiblk g its T (S t)) its)).
    { rewrite Esp at 1. rewrite <- !app_assoc. reflexivity. }
    assert (Hnil : B2 ++ skipn (bK tiblk g its T (S t)) its = []).
    { assert (Hn : nth_error its (length (firstn (bK tiblk g its T t) its ++ B1)) = Some (Cut, p)).
      { rewrite E2 at 1. rewrite nth_error_app2 by lia. rewrite Nat.sub_diag. reflexivity. }
      pose proof (tcut_end its Hw _ _ Hn ltac:(discriminate)) as Hl. pose proof (f_equal (@length _) E2) as Hl2. rewrite app_length in Hl2. cbn [length] in Hl2.
      destruct (B2 ++ skipn (bK tiblk g its T (S t)) its); [reflexivity|cbn [length] in Hl2; lia]. }
    rewrite Hnil in E2. unfold its in E2 at 1. apply app_inj_tail in E2 as [Eqs _].
    assert (Epos : tP g its T t + titot B1 = length qs).
    { unfold tP. rewrite <- titot_app, <- Eqs. apply full_tot. exact Hqs. }
    assert (HB1 : Forall (fun it => fst it = Full) B1) by (rewrite Eqs in Hqs; apply Forall_app in Hqs; apply Hqs).
    destruct (t_labels (fst p)) as [|x0 [|x1 r]] eqn:Elab.
    { exfalso. rewrite Forall_forall in Hok. specialize (Hok (Cut, p) ltac:(unfold its; apply in_or_app; right; left; reflexivity)). destruct Hok as (H0 & _). cbn [fst snd] in H0. rewrite Elab in H0. cbn [length] in H0. lia. }
    { exfalso. rewrite Forall_forall in Hok. specialize (Hok (Cut, p) ltac:(unfold its; apply in_or_app; right; left; reflexivity)). destruct Hok as (H0 & _). cbn [fst snd] in H0. rewrite Elab in H0. cbn [length] in H0. lia. }
    rewrite (run_ub texec (fun s => length (tc s) = k * length qs) (SetC (length qs * k) x0)); [reflexivity| | | |].
    - intros i s Hs. apply texec_len. exact Hs.
    - intros s Hs. cbn [texec]. unfold aset. rewrite Hs. destruct (Nat.ltb_spec (length qs * k) (k * length qs)); [lia|reflexivity].
    - apply in_concat. exists (tprog None k g its T t). split.
      + apply in_map_iff. exists t. split; [reflexivity|]. apply in_seq; lia.
      + unfold tprog, bchunk. rewrite EB, <- Epos. generalize (tP g its T t) as pos.
        clear - HB1 Elab. induction B1 as [|[tg q] B1 IH]; intros pos.
        * cbn [app ticodes]. unfold titot; cbn [map sum_nat fold_right]. rewrite Nat.add_0_r. unfold ticode; cbn [fst snd]. rewrite Elab. left. reflexivity.
        * inversion HB1 as [|? ? H1 H2]; subst. cbn [fst] in H1. subst tg. cbn [app ticodes].
          apply in_or_app; right. unfold titot. cbn [map sum_nat fold_right]. change (fold_right Nat.add 0 (map tcnt B1)) with (titot B1). rewrite Nat.add_assoc. apply IH. exact H2.
    - cbn [tc]. apply fresh_length.
  Qed.
End CutUB.
