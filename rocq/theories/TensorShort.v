(** * TensorShort: a tensor file whose last line has too few labels *)

From Verif Require Import Base Reader Sched SchedLemmas Spec SpecTensor SpecOrder SpecTensorCut ReaderLemmas Coo CooLemmas CooSplit CooMain CooExec
  ElSpec ElFinal   Csr Codec Bin SpecBin BinLemmas BinSave BinLoad Load Tensor TensorLemmas TensorMain TensorOrder Frag FragEl ElBad FragMain TensorFrag TensorFragMain TensorCut.

(** A line with the number of labels of the others ([true]), or a shorter one. *)
Definition sitem : Type := bool * tline.
Definition sfull (it : sitem) : titem unit := (Full, (snd it, tt)).
Definition sblk (it : sitem) : blk := tiblk (sfull it).
Lemma sblk_text it : btext (sblk it) = tline_text (snd it).
Proof. exact (tiblk_full (snd it, tt)). Qed.

Section Item.
  Variable L : ity.
  Hypothesis HL : is_ity L.
  Variable k : nat.
  Variable m : mem.
  Variable e : nat.

  Definition at_sitem (d : nat) (it : sitem) : Prop :=
    if fst it then at_titem L None k m e d (sfull it)
    else short_line k (snd it) /\ Forall (fun v => v <= imax L)%Z (t_labels (snd it)) /\
      has m d (tline_text (snd it)) /\ d + length (tline_text (snd it)) = e /\ load m e = Ok 0%Z.
  Definition scnt (it : sitem) : nat := if fst it then 1 else 0.

  (** Labels up to a place behind which no digit follows. *)
  Lemma short_labels its : forall k d c s,
    has m d (its_text its ++ c :: s) -> is_digit c = false -> nodigit s -> d + length (its_text its) + S (length s) = e -> load m e = Ok 0%Z ->
    length its < k ->
    match its with [] => True | p :: its' => Forall (fun c => is_digit c = false) (fst p) /\ digits (snd p) /\ (dval (snd p) <= imax L)%Z /\ good_its L its' end ->
    tcount_labels (W:=unit) L None m e k d = Ok (e, false) /\
    forall i, tset_labels (W:=unit) L m e k d i = Ok (e, setCs i (map (fun p => dval (snd p)) its), false).
  Proof using HL.
    induction its as [|[j ds] its IH]; intros k0 d c s Hh Hc Hs He Hl0 Hk Hg; (destruct k0 as [|k0]; [lia|]); cbn [length tcount_labels tset_labels is_some map setCs].
    - cbn [its_text map concat app length] in Hh, He.
      rewrite (read_int_gen m L e d (c :: s) []); [|rewrite app_nil_r; exact Hh|constructor; assumption|constructor|cbn [length]; lia|left; cbn [length]; lia].
      cbn [read_val bind length]. replace (d + S (length s) + 0) with e by lia. destruct (Nat.leb_spec e e); [|lia].
      split; [reflexivity|intros i; reflexivity].
    - cbn [fst snd] in Hg. destruct Hg as (Hj & Hds & Hv & Hg1 & Hg2).
      destruct (step_label L HL m e d j ds its c s Hh Hc Hj Hds Hv Hg1 ltac:(lia)) as [E Hh']. rewrite E. cbn [bind].
      rewrite its_text_cons in He. cbn [fst snd] in He. rewrite !app_length in He.
      destruct (Nat.leb_spec e (d + length j + length ds)); [lia|].
      destruct (IH k0 (d + length j + length ds) c s Hh' Hc Hs ltac:(lia) Hl0 ltac:(cbn [length] in Hk; lia)) as [E1 E2].
      + destruct its as [|p its']; [exact Logic.I|]. inversion Hg1 as [|? ? [A1 A2] A3]; inversion Hg2 as [|? ? [B1 B2] B3]; subst.
        split; [exact A2|]. split; [exact B1|]. split; [exact B2|]. split; [exact A3|exact B3].
      + split; [exact E1|]. intros i. rewrite E2. cbn [bind]. reflexivity.
  Qed.

  Lemma short_its l : short_line k l -> Forall (fun v => v <= imax L)%Z (t_labels l) ->
    match its_of l with [] => True | p :: its' => Forall (fun c => is_digit c = false) (fst p) /\ digits (snd p) /\ (dval (snd p) <= imax L)%Z /\ good_its L its' end.
  Proof using Type.
    intros (_ & H1 & H2 & _) Hv. unfold its_of.
    cbn [fst snd]. split; [constructor|]. split; [exact H1|]. unfold t_labels in Hv. pose proof (Forall_inv Hv) as Hv1. apply Forall_inv_tail in Hv as Hv2. split; [exact Hv1|].
    rewrite Forall_map in Hv2. split.
    - eapply Forall_impl; [|exact H2]. intros p [Hs _]. apply sep_nondigit. exact Hs.
    - rewrite Forall_forall in *. intros p Hp. split; [apply (H2 p Hp)|apply Hv2; exact Hp].
  Qed.

  Lemma short_at d l : short_line k l -> Forall (fun v => v <= imax L)%Z (t_labels l) ->
    has m d (tline_text l) -> d + length (tline_text l) = e -> load m e = Ok 0%Z ->
    tcount_labels (W:=unit) L None m e k d = Ok (e, false) /\
    forall i, tset_labels (W:=unit) L m e k d i = Ok (e, setCs i (t_labels l), false).
  Proof using HL.
    intros Hs Hv Hh He Hl0. pose proof (short_its l Hs Hv) as Hits. destruct Hs as (Hk & _ & _ & _ & _ & Hp & Hgp).
    assert (Hsp : exists c s, t_post l ++ ch_nl :: t_gap l = c :: s /\ is_digit c = false /\ nodigit s).
    { assert (H : nodigit (t_post l ++ ch_nl :: t_gap l)) by (apply Forall_app; split; [exact Hp|constructor; [reflexivity|exact Hgp]]).
      destruct (t_post l ++ ch_nl :: t_gap l) as [|c s] eqn:E; [destruct (t_post l); discriminate|]. exists c, s.
      split; [reflexivity|]. split; [exact (Forall_inv H)|exact (Forall_inv_tail H)]. }
    destruct Hsp as (c & s & E & Hc & Hns). unfold tline_text in Hh, He. rewrite E in Hh, He. rewrite app_length in He. cbn [length] in He.
    rewrite <- its_of_text in Hh, He.
    assert (Hlk : length (its_of l) < k) by (unfold its_of; unfold t_labels in Hk; cbn [length] in *; rewrite map_length in Hk; exact Hk).
    destruct (short_labels (its_of l) k d c s Hh Hc Hns ltac:(lia) Hl0 Hlk Hits) as [E1 E2]. split; [exact E1|].
    intros i. rewrite E2. rewrite its_of_vals. reflexivity.
  Qed.

  Lemma sitem_len d it : at_sitem d it -> d < d + length (btext (sblk it)).
  Proof using Type.
    unfold at_sitem. destruct (fst it); [apply (titem_len L None k m e d (sfull it))|].
    intros ((_ & [H _] & _) & _). rewrite sblk_text. unfold tline_text, labels_text. rewrite !app_length. destruct (t_first (snd it)); [congruence|cbn [length]; lia].
  Qed.

  Lemma sicount_at d it : at_sitem d it -> tentry_count (W:=unit) L None k m e d = Ok (d + length (btext (sblk it)), scnt it).
  Proof using HL.
    unfold at_sitem, scnt. destruct (fst it) eqn:Et.
    - intros H. unfold sblk. rewrite (ticount_at L HL None k m e d (sfull it) H). reflexivity.
    - intros (Hs & Hv & Hh & He & Hl0). rewrite sblk_text, He. unfold tentry_count.
      destruct (short_at d (snd it) Hs Hv Hh He Hl0) as [E _]. rewrite E. reflexivity.
  Qed.

  Lemma siset_at d it pos : at_sitem d it ->
    tentry_set (W:=unit) L None k m e d pos = Ok (d + length (btext (sblk it)), pos + scnt it, setCs (pos * k) (t_labels (snd it))).
  Proof using HL.
    unfold at_sitem, scnt. destruct (fst it) eqn:Et.
    - intros H. unfold sblk. rewrite (tiset_at L HL None k m e d (sfull it) pos H). unfold ticode, sfull; cbn [fst snd twcode]. rewrite app_nil_r. reflexivity.
    - intros (Hs & Hv & Hh & He & Hl0). rewrite sblk_text, He. unfold tentry_set.
      destruct (short_at d (snd it) Hs Hv Hh He Hl0) as [_ E]. rewrite E. cbn [bind]. rewrite Nat.add_0_r. reflexivity.
  Qed.

  Fixpoint at_sitems (d : nat) (B : list sitem) : Prop :=
    match B with
    | [] => d = e
    | it :: B' => at_sitem d it /\ at_sitems (d + length (btext (sblk it))) B'
    end.
  Definition sitot (B : list sitem) : nat := sum_nat (map scnt B).
  Fixpoint sicodes (pos : nat) (B : list sitem) : list (tinstr unit) :=
    match B with
    | [] => []
    | it :: B' => setCs (pos * k) (t_labels (snd it)) ++ sicodes (pos + scnt it) B'
    end.

  Lemma at_sitems_le d B : at_sitems d B -> d + length B <= e.
  Proof using Type.
    revert d; induction B as [|it B IH]; intros d H; cbn [at_sitems length] in *; [lia|]. destruct H as [H1 H2].
    apply sitem_len in H1. apply IH in H2. lia.
  Qed.

  Lemma sicount_run B : forall d ct fuel, at_sitems d B -> length B < fuel -> tcount_loop (W:=unit) L None k m e fuel d ct = Ok (ct + sitot B).
  Proof using HL.
    induction B as [|it B IH]; intros d ct fuel Ha Hf; (destruct fuel as [|fuel]; [cbn [length] in Hf; lia|]); cbn [tcount_loop].
    - cbn in Ha. subst d. rewrite Nat.ltb_irrefl. unfold sitot; cbn. rewrite Nat.add_0_r. reflexivity.
    - pose proof (at_sitems_le _ _ Ha) as Hle. cbn [length] in Hle, Hf. destruct (Nat.ltb_spec d e); [|lia].
      destruct Ha as [Ha1 Ha2]. rewrite (sicount_at d it Ha1). cbn [bind]. rewrite (IH _ (ct + scnt it) fuel Ha2) by lia. f_equal.
      unfold sitot. cbn [map sum_nat fold_right]. unfold sum_nat. lia.
  Qed.

  Lemma siset_run B : forall d pos fuel, at_sitems d B -> length B < fuel -> tset_loop (W:=unit) L None k m e fuel d pos = Ok (sicodes pos B).
  Proof using HL.
    induction B as [|it B IH]; intros d pos fuel Ha Hf; (destruct fuel as [|fuel]; [cbn [length] in Hf; lia|]); cbn [tset_loop sicodes].
    - cbn in Ha. subst d. rewrite Nat.ltb_irrefl. reflexivity.
    - pose proof (at_sitems_le _ _ Ha) as Hle. cbn [length] in Hle, Hf. destruct (Nat.ltb_spec d e); [|lia].
      destruct Ha as [Ha1 Ha2]. rewrite (siset_at d it pos Ha1). cbn [bind]. rewrite (IH _ (pos + scnt it) fuel Ha2) by lia. reflexivity.
  Qed.
End Item.

Section Main.
  Variables L O : ity.
  Hypothesis HL : is_ity L.
  Hypothesis HO : is_ity O.
  Variable k : nat.
  Variable m : mem.
  Hypothesis Hslack : slack m.
  Variable g : list byte.
  Variable ls : list tline.
  Variable z : tline.
  Let its : list sitem := map (pair true) ls ++ [(false, z)].
  Let bs := map sblk its.
  Let e := flen m.
  Hypothesis Hh : has m 0 (g ++ bstext bs).
  Hypothesis He : 0 + length (g ++ bstext bs) = e.
  Hypothesis Hg : gap (isnil bs) g.
  Hypothesis Hw : wf_blks bs.
  Hypothesis Hls : Forall (fun l => tline_ok L None k (Full, (l, tt))) ls.
  Hypothesis Hz : short_line k z.
  Hypothesis Hzv : Forall (fun v => v <= imax L)%Z (t_labels z).
  Variable T : nat.
  Hypothesis HT : 1 <= T.

  Notation iK := (bK sblk g its T).
  Notation ioffs := (boffs sblk 0 g its).
  Notation ichunk := (bchunk sblk g its T).

  Definition sok (it : sitem) : Prop := if fst it then tline_ok L None k (sfull it) else it = (false, z).
  Lemma all_ok : Forall sok its.
  Proof using Hls.
    unfold its. apply Forall_app; split; [|constructor; [reflexivity|constructor]]. rewrite Forall_map. eapply Forall_impl; [|exact Hls].
    intros l Hl. exact Hl.
  Qed.

  Lemma at_sitem_of e' d it : e' <= e -> sok it ->
    (exists fin, wf_blk fin (sblk it) /\ has m d (btext (sblk it)) /\
       ends m is_digit e' (d + length (btext (sblk it))) /\ (fin = true -> d + length (btext (sblk it)) = e')) ->
    (fst it = false -> d + length (btext (sblk it)) = e) ->
    at_sitem L k m e' d it.
  Proof.
    intros Hle Hlo H Hcut. unfold at_sitem, sok in *. destruct (fst it) eqn:Et.
    - apply (at_titem_of L None k m Hslack (bytes m) (@nil (titem unit)) ltac:(cbn; rewrite app_nil_r; reflexivity) 1 (le_n _) e' d (sfull it) Hle Hlo H). cbn [sfull fst]. congruence.
    - subst it. cbn [snd] in *. specialize (Hcut eq_refl). destruct H as (fin & _ & Hhas & (c & _ & _ & Hd & _) & _).
      rewrite sblk_text in *. cbn [snd] in *. assert (e' = e) by lia. subst e'.
      split; [exact Hz|]. split; [exact Hzv|]. split; [exact Hhas|]. split; [exact Hcut|]. apply load_eof. exact Hslack.
  Qed.

  Lemma sits_len : length its = S (length ls).
  Proof. unfold its. rewrite app_length, map_length. cbn [length]. lia. Qed.
  Lemma short_last j it : nth_error its j = Some it -> fst it = false -> j = length ls /\ it = (false, z).
  Proof.
    intros Hj Hf. unfold its in Hj. destruct (Nat.lt_ge_cases j (length ls)) as [H|H].
    - rewrite nth_error_app1 in Hj by (rewrite map_length; exact H). apply nth_error_In, in_map_iff in Hj as (l & <- & _). discriminate.
    - rewrite nth_error_app2 in Hj by (rewrite map_length; exact H). rewrite map_length in Hj.
      destruct (j - length ls) as [|q] eqn:Eq; cbn [nth_error] in Hj; [injection Hj as <-; split; [lia|reflexivity]|destruct q; discriminate].
  Qed.

  Lemma at_sitems_of e' : e' <= e -> forall B d j, at_blks sblk m e' d B -> Forall sok B ->
    (forall i it, nth_error B i = Some it -> nth_error its (j + i) = Some it) -> d = ioffs j ->
    at_sitems L k m e' d B.
  Proof.
    intros Hle. induction B as [|it B IH]; intros d j Hb Hlo Hn Hd; [exact Hb|].
    destruct Hb as [Hit Hb]. pose proof (Forall_inv Hlo) as Hl1. pose proof (Forall_inv_tail Hlo) as Hl2. subst d. cbn [at_sitems].
    assert (Hk : nth_error its j = Some it) by (rewrite <- (Nat.add_0_r j); apply Hn; reflexivity).
    assert (HS : ioffs j + length (btext (sblk it)) = ioffs (S j)).
    { unfold boffs, boff. destruct (nth_error_split its j Hk) as (l1 & l2 & E & El). rewrite E, !map_app. cbn [map].
      rewrite <- El. replace (length l1) with (length (map sblk l1)) by apply map_length.
      replace (S (length (map sblk l1))) with (length (map sblk l1 ++ [sblk it])) by (rewrite app_length; cbn; lia).
      rewrite firstn_app, firstn_all, Nat.sub_diag, firstn_O, app_nil_r.
      change (map sblk l1 ++ sblk it :: map sblk l2) with (map sblk l1 ++ ([sblk it] ++ map sblk l2)).
      rewrite app_assoc, firstn_app, firstn_all, Nat.sub_diag, firstn_O, app_nil_r.
      rewrite bstext_app, app_length. unfold bstext at 3. cbn [map concat]. rewrite app_nil_r. lia. }
    split.
    - apply at_sitem_of; auto. intros Hf. rewrite HS. destruct (short_last j it Hk Hf) as [-> _]. rewrite <- sits_len. unfold boffs, boff. fold bs.
      replace (length its) with (length bs) by (unfold bs; apply map_length). rewrite firstn_all. rewrite app_length in He. lia.
    - apply IH with (j := S j); auto. intros i it' Hj. rewrite <- (Hn (S i) it' Hj). f_equal. lia.
  Qed.

  Lemma at_chunk_sitems t : t < T -> at_sitems L k m (ioffs (iK (S t))) (ioffs (iK t)) (ichunk t).
  Proof.
    intros Ht. apply at_sitems_of with (j := iK t).
    - apply (boffs_le sblk m 0 g its He T HT).
    - apply at_bchunk; auto.
    - unfold bchunk, slice. pose proof all_ok as Hok. rewrite Forall_forall in Hok |- *. intros it Hin. apply Hok.
      rewrite <- (firstn_skipn (iK t) its). apply in_or_app; right.
      rewrite <- (firstn_skipn (iK (S t) - iK t) (skipn (iK t) its)). apply in_or_app; left; exact Hin.
    - intros j it Hj. unfold bchunk, slice in Hj.
      assert (Hlt : j < iK (S t) - iK t).
      { destruct (Nat.lt_ge_cases j (iK (S t) - iK t)) as [|Hge]; [assumption|]. exfalso.
        assert (nth_error (firstn (iK (S t) - iK t) (skipn (iK t) its)) j = None); [|congruence].
        apply nth_error_None. rewrite firstn_length. lia. }
      rewrite <- Hj. rewrite <- (firstn_skipn (iK t) its) at 1.
      pose proof (bK_le sblk m 0 g its He T HT t) as HK.
      rewrite nth_error_app2; rewrite firstn_length_le by exact HK; [|lia].
      replace (iK t + j - iK t) with j by lia.
      rewrite <- (firstn_skipn (iK (S t) - iK t) (skipn (iK t) its)) at 1. apply nth_error_app1.
      assert (Hj2 : j < length (firstn (iK (S t) - iK t) (skipn (iK t) its))) by (apply nth_error_Some; congruence). exact Hj2.
    - reflexivity.
  Qed.

  Lemma sitot_app (a b : list sitem) : sitot (a ++ b) = sitot a + sitot b.
  Proof using Type. clear. unfold sitot. rewrite map_app. induction a as [|x a IH]; [reflexivity|]. cbn [map app sum_nat fold_right]. unfold sum_nat in *. lia. Qed.
  Lemma sitot_true (xs : list tline) : sitot (map (pair true) xs) = length xs.
  Proof using Type. clear. unfold sitot. induction xs as [|x xs IH]; [reflexivity|]. cbn [map sum_nat fold_right length]. unfold sum_nat in IH. rewrite IH. reflexivity. Qed.

  Definition sP (t : nat) : nat := sitot (firstn (iK t) its).
  Lemma sP_S t : t < T -> sP (S t) = sP t + sitot (ichunk t).
  Proof. intros Ht. unfold sP, bchunk. rewrite <- sitot_app, firstn_slice by (apply (bK_mono sblk m 0 g its He T HT); auto). reflexivity. Qed.
  Lemma stot : sitot its = length ls.
  Proof. unfold its. rewrite sitot_app, sitot_true. unfold sitot; cbn. lia. Qed.
  Lemma sP_T : sP T = length ls.
  Proof. unfold sP. rewrite (bK_T sblk m 0 g its He Hw T HT), firstn_all. apply stot. Qed.

  Definition sprog (t : nat) : list (tinstr unit) := sicodes k (sP t) (ichunk t).

  Hypothesis Hord : tensor_order O false m 0 e = Ok (Z.of_nat k).
  Let n := length ls.
  Hypothesis Hm_fit : (Z.of_nat n <= imax O)%Z.
  Hypothesis Hmul : omul O (Z.of_nat k) (Z.of_nat n) = Ok (Z.of_nat (k * n)).

  Lemma read_sitems sched : tensor_read_el L O (@None (wrd unit)) m 0 e T sched =
    (st <- run texec sched (map sprog (seq 0 T)) (mkTst (fresh (k * n)) []) ;; Ok (mkTensor (tc st) (tw st) (Z.of_nat k) (Z.of_nat n))).
  Proof.
    unfold tensor_read_el. cbn [is_some]. rewrite Hord. cbn [bind]. rewrite Nat2Z.id.
    rewrite (mapM_ok _ (fun t => (ioffs (iK t), ioffs (iK (S t))))) by (intros t Ht; apply in_seq in Ht; apply bchunk_at; auto; lia).
    cbn [bind]. rewrite mapM_map. cbn [fst snd].
    rewrite (mapM_ok _ (fun t => sitot (ichunk t))).
    2:{ intros t Ht. apply in_seq in Ht. pose proof (at_chunk_sitems t ltac:(lia)) as Hat. pose proof (at_sitems_le _ _ _ _ _ _ Hat).
        rewrite (sicount_run L HL k m _ (ichunk t) _ 0 _ Hat) by lia. reflexivity. }
    cbn [bind].
    assert (Esum : sum_nat (map (fun t => sitot (ichunk t)) (seq 0 T)) = n).
    { pose proof (sum_nat_seq sP (fun t => sitot (ichunk t)) T 0) as H. change (sP 0) with 0 in H. cbn [plus] in H.
      rewrite H; [apply sP_T|intros t Ht; apply sP_S; lia]. }
    rewrite Esum. pose proof (ity_facts O HO) as (HO1 & HO2 & _). rewrite wrap_in by (auto; lia).
    unfold tensor_alloc. rewrite Hmul. cbn [bind]. unfold alloc.
    destruct (Z.ltb_spec (Z.of_nat (k * n)) 0); [lia|]. cbn [bind].
    destruct (Z.ltb_spec (Z.of_nat n) 0); [lia|]. rewrite !Nat2Z.id. cbn [bind].
    pose proof (prefix_sums_seq sP (fun t => sitot (ichunk t)) T 0) as Hps. change (sP 0) with 0 in Hps.
    rewrite Hps by (intros t Ht; apply sP_S; lia). rewrite combine_map, mapM_map. cbn [fst snd].
    rewrite (mapM_ok _ sprog).
    2:{ intros t Ht. apply in_seq in Ht. pose proof (at_chunk_sitems t ltac:(lia)) as Hat. pose proof (at_sitems_le _ _ _ _ _ _ Hat).
        apply (siset_run L HL k m _ (ichunk t) _ _ _ Hat). lia. }
    cbn [bind]. reflexivity.
  Qed.

  (** The labels of the short line are stored right behind the array. *)
  Lemma short_read_ub sched : tensor_read_el L O (@None (wrd unit)) m 0 e T sched = UB.
  Proof.
    rewrite read_sitems.
    assert (Hin : In (false, z) (concat (map (bchunk sblk g its T) (seq 0 T)))).
    { rewrite (bchunks_concat sblk m 0 g its He T HT T (le_n _)).
      rewrite (bK_T sblk m 0 g its He Hw T HT), firstn_all. unfold its. apply in_or_app; right; left; reflexivity. }
    apply in_concat in Hin as (B & HB & Hin). apply in_map_iff in HB as (t & <- & Ht). apply in_seq in Ht.
    apply in_split in Hin as (B1 & B2 & EB).
    pose proof (slice_split (bK sblk g its T t) (bK sblk g its T (S t)) its (bK_mono sblk m 0 g its He T HT t ltac:(lia))) as Esp.
    unfold bchunk in EB. rewrite EB in Esp.
    assert (E2 : its = (firstn (bK sblk g its T t) its ++ B1) ++ (false, z) :: (B2 ++ skipn (bK sblk g its T (S t)) its)).
    { rewrite Esp at 1. rewrite <- !app_assoc. reflexivity. }
    assert (Hnil : B2 ++ skipn (bK sblk g its T (S t)) its = []).
    { assert (Hn : nth_error its (length (firstn (bK sblk g its T t) its ++ B1)) = Some (false, z)).
      { rewrite E2 at 1. rewrite nth_error_app2 by lia. rewrite Nat.sub_diag. reflexivity. }
      destruct (short_last _ _ Hn eq_refl) as [Hl _]. pose proof (f_equal (@length _) E2) as Hl2. rewrite app_length in Hl2. cbn [length] in Hl2.
      rewrite Hl, sits_len in Hl2.
      destruct (B2 ++ skipn (bK sblk g its T (S t)) its); [reflexivity|cbn [length] in Hl2; lia]. }
    rewrite Hnil in E2. unfold its in E2 at 1. apply app_inj_tail in E2 as [Eqs _].
    assert (Epos : sP t + sitot B1 = n).
    { unfold sP. rewrite <- sitot_app, <- Eqs. apply sitot_true. }
    assert (Elab : exists x0 r, t_labels z = x0 :: r) by (unfold t_labels; eauto). destruct Elab as (x0 & r & Elab).
    rewrite (run_ub texec (fun s => length (tc s) = k * n) (SetC (n * k) x0)); [reflexivity| | | |].
    - intros i s Hs. apply texec_len. exact Hs.
    - intros s Hs. cbn [texec]. unfold aset. rewrite Hs. destruct (Nat.ltb_spec (n * k) (k * n)); [lia|reflexivity].
    - apply in_concat. exists (sprog t). split.
      + apply in_map_iff. exists t. split; [reflexivity|]. apply in_seq; lia.
      + unfold sprog, bchunk. rewrite EB, <- Epos. generalize (sP t) as pos.
        clear - Elab. induction B1 as [|it B1 IH]; intros pos.
        * cbn [app sicodes snd]. unfold sitot; cbn [map sum_nat fold_right]. rewrite Nat.add_0_r, Elab. left. reflexivity.
        * cbn [app sicodes].
          apply in_or_app; right. unfold sitot. cbn [map sum_nat fold_right]. change (fold_right Nat.add 0 (map scnt B1)) with (sitot B1). rewrite Nat.add_assoc. apply IH.
    - cbn [tc]. apply fresh_length.
  Qed.
End Main.

Section Final.
  Variables L O : ity.
  Variable k : nat.
  Variable f : tns_file.
  Variable z : tline.
  Variable pg : nat.
  Let its : list sitem := map (pair true) (tn_lines f) ++ [(false, z)].
  Let m := mkMem (tshort_text f z) pg.
  Hypothesis HL : is_ity L.
  Hypothesis HO : is_ity O.
  Hypothesis Hwf : wf_tshort k f z.
  Hypothesis Hplain : plain_first false f.
  Hypothesis Hfit : Forall (fun v => v <= imax L)%Z (tns_labels f).
  Hypothesis Hfz : Forall (fun v => v <= imax L)%Z (t_labels z).
  Hypothesis Hpg : off_page pg (tshort_text f z).
  Hypothesis Hk_fit : (Z.of_nat k + 1 <= imax O)%Z.

  Lemma ts_text : tn_head f ++ bstext (map sblk its) = tshort_text f z.
  Proof.
    unfold its, tshort_text, tns_text. rewrite map_app, bstext_app, <- app_assoc. f_equal. f_equal.
    - unfold bstext. rewrite !map_map. f_equal. apply map_ext. intros l. apply sblk_text.
    - unfold bstext. cbn [map concat]. rewrite app_nil_r. apply sblk_text.
  Qed.

  Lemma ts_wf : wf_blks (map sblk its).
  Proof.
    destruct Hwf as (_ & _ & Hl & _ & Hx & Hs & Hp & Hgz & _). unfold its. clear - Hl Hx Hs Hp Hgz.
    induction (tn_lines f) as [|l q IH].
    - cbn [map app wf_blks]. split; [|exact Logic.I]. apply (head_wf z true Hx Hs Hp Hgz). discriminate.
    - pose proof (Forall_inv Hl) as H1. apply Forall_inv_tail in Hl as H2. cbn [map app wf_blks]. split; [|apply IH; exact H2].
      destruct H1 as (_ & A & B & C & _ & G). apply (head_wf l _ A B C); [destruct q; exact G|discriminate].
  Qed.

  Lemma ts_ok : Forall (fun l => tline_ok (W:=unit) L None k (Full, (l, tt))) (tn_lines f).
  Proof.
    destruct Hwf as (_ & _ & Hl & _). rewrite Forall_forall in *. intros l Hin. destruct (Hl l Hin) as (A & B & C & D & E & _).
    unfold tline_ok; cbn [fst snd]. split; [exact A|]. split; [exact B|]. split; [exact C|]. split; [exact D|]. split; [|split; [exact E|exact Logic.I]].
    unfold tns_labels in Hfit. rewrite Forall_forall in *. intros x Hx. apply Hfit.
    apply in_concat. exists (t_labels l). split; [apply in_map; exact Hin|exact Hx].
  Qed.

  Lemma ts_order : tensor_order O false m 0 (flen m) = Ok (Z.of_nat k).
  Proof.
    clear its. destruct Hwf as (Hn & Hg & Hl & _). unfold plain_first in Hplain. unfold m, flen; cbn [bytes]. unfold tshort_text, tns_text.
    destruct (tn_lines f) as [|l ls] eqn:El; [congruence|]. apply Forall_inv in Hl. destruct Hl as (Hlab & H1 & H2 & [H3 H3'] & _ & H5). destruct Hplain as [Hsp Hpost].
    destruct (line_words l H1 H2 Hsp) as [W1 W2].
    assert (Hlk : S (length (t_more l)) = k) by (unfold t_labels in Hlab; cbn [length] in Hlab; rewrite map_length in Hlab; exact Hlab).
    assert (Hpos : 0 < pg) by (destruct Hpg; lia).
    cbn [map concat]. unfold tline_text at 1.
    replace k with (k - 0) by lia.
    eapply (order_first O false _ pg (tn_head f) (([], t_first l) :: t_more l) (t_post l)
      (t_gap l ++ concat (map tline_text ls) ++ tline_text z) k); try assumption.
    - rewrite W2. repeat (rewrite <- app_assoc; cbn [app]). reflexivity.
    - left. split; [exact Hpost|]. cbn [length]. lia.
    - lia.
  Qed.

  Lemma ts_ub T sched : (Z.of_nat (length (tn_lines f)) <= imax O)%Z -> (Z.of_nat (k * length (tn_lines f)) <= imax O)%Z -> 1 <= T ->
    tensor_read_el L O (@None (wrd unit)) m 0 (flen m) T sched = UB.
  Proof.
    intros Hn Hm HT. apply (short_read_ub L O HL HO k m (slack_off_page _ _ Hpg) (tn_head f) (tn_lines f) z).
    - fold its. rewrite ts_text. apply (has_all m).
    - fold its. rewrite ts_text. reflexivity.
    - replace (isnil (map sblk (map (pair true) (tn_lines f) ++ [(false, z)]))) with false by (destruct (tn_lines f); reflexivity). apply Hwf.
    - apply ts_wf.
    - apply ts_ok.
    - destruct Hwf as (_ & _ & _ & H1 & H2 & H3 & H4 & H5 & H6 & H7). unfold short_line. tauto.
    - exact Hfz.
    - exact HT.
    - apply ts_order.
    - exact Hn.
    - rewrite Nat2Z.inj_mul. apply omul_ok; [exact HO|lia|lia|]. rewrite <- Nat2Z.inj_mul. exact Hm.
  Qed.
End Final.
