(** * FragMain: reading edge lists whose last line has no newline *)

From Verif Require Import Base Reader Sched SchedLemmas Spec SpecFp ReaderLemmas Coo CooLemmas CooExec CooSplit
  WeightLemmas CooMain ElSpec ElFinal ElThms Safe Frag FragEl SpecFrag ElBad.

(** ** Weights that end the file *)
Definition is_int_kind (k : wkind) : bool := match k with WFloat _ => false | _ => true end.

Ltac okpair := match goal with |- Ok (_, ?a) = Ok (_, ?b) => replace a with b by (cbn [length]; lia); reflexivity end.

Lemma wcut_kind k post v : wf_kind k -> ends_in_weight k post v -> wcut (wreader k) (is_int_kind k) post v.
Proof.
  destruct k as [t|t|F]; cbn [wf_kind ends_in_weight wreader is_int_kind wtype] in v |- *.
  - intros [Ht _] (sp & ds & -> & Hsp & Hds & -> & Hv) m e d Hh He Hl. cbn [w_read w_count wr_unsigned].
    rewrite app_length in He. apply has_app in Hh as [Hh1 Hh2].
    assert (Hlen : 0 < length ds) by (destruct Hds as [H _]; destruct ds; [congruence|cbn; lia]).
    assert (Emv : move_to_next_int m e d = Ok (d + length sp)).
    { destruct Hds as [Hne Hd]. destruct ds as [|c0 ds]; [congruence|].
      apply move_to_next_int_sep with (c := c0); auto.
      - eapply load_has; exact Hh2.
      - apply forall_hd in Hd; exact Hd.
      - cbn [length] in He; lia. }
    rewrite Emv. cbn [bind]. split.
    + rewrite (read_int_gen m t e (d + length sp) [] ds); [|exact Hh2|constructor|apply Hds|cbn [length]; lia|left; cbn [length]; lia].
      rewrite read_val_fit; [|exact Ht|apply Hds|exact Hv]. cbn [bind]. okpair.
    + eexists; split; [reflexivity|lia].
  - intros [Ht Hsg] (sp & sg & ds & -> & Hsp & Hds & Hcase & Hv) m e d Hh He Hl. cbn [w_read w_count wr_signed].
    assert (Himin : (imin t <= - imax t)%Z) by (unfold imin, imax; rewrite Hsg; lia).
    rewrite !app_length in *. apply has_app in Hh as [Hh1 Hsd].
    assert (Hne : ds <> []) by apply Hds. assert (Hd : Forall (fun c => is_digit c = true) ds) by apply Hds.
    assert (Hcase' : exists neg : bool, ((sg = [] /\ neg = false) \/ (sg = [ch_plus] /\ neg = false) \/ (sg = [ch_minus] /\ neg = true)) /\
              v = (if neg then - dval ds else dval ds)%Z).
    { destruct Hcase as [[-> ->]|[[-> ->]|[-> ->]]]; [exists false|exists false|exists true]; tauto. }
    destruct Hcase' as (neg & Hsgn & Ev).
    assert (Hfirst : exists c0, load m (d + length sp) = Ok c0 /\ is_signed_start c0 = true /\
              (c0 =? ch_minus)%Z = neg).
    { destruct ds as [|c0 ds]; [congruence|]. apply forall_hd in Hd.
      destruct Hsgn as [(-> & ->)|[(-> & ->)|(-> & ->)]]; cbn [app] in Hsd.
      - exists c0. split; [eapply load_has; exact Hsd|]. unfold is_signed_start. rewrite Hd. split; [reflexivity|].
        unfold is_digit, ch_0, ch_9, ch_minus in *. lia.
      - exists ch_plus. split; [eapply load_has; exact Hsd|]. split; reflexivity.
      - exists ch_minus. split; [eapply load_has; exact Hsd|]. split; reflexivity. }
    destruct Hfirst as (c0 & Hc0 & Hst & Hneg).
    assert (Hlen : 0 < length ds) by (destruct ds; [congruence|cbn; lia]).
    rewrite (move_signed m e d sp c0) by (auto; lia). cbn [bind].
    split; [|eexists; split; [reflexivity|lia]].
    unfold read_sign. rewrite Hc0. cbn [bind]. rewrite Hneg.
    rewrite (read_int_gen m t e (d + length sp) sg ds).
    + assert (Hdv : (0 <= dval ds <= imax t)%Z).
      { split; [apply dval_nonneg; exact Hd|]. pose proof (dval_nonneg ds Hd). destruct neg; lia. }
      rewrite read_val_fit by (auto; lia). cbn [bind].
      replace (dval ds * (if neg then -1 else 1))%Z with (if neg then - dval ds else dval ds)%Z by (destruct neg; lia).
      rewrite <- Ev, arith_in by (auto; lia). cbn [bind]. okpair.
    + exact Hsd.
    + destruct Hsgn as [(-> & _)|[(-> & _)|(-> & _)]]; repeat constructor.
    + exact Hd.
    + lia.
    + left. lia.
  - intros _ (sp & lit & -> & Hsp & Hwf & ->) m e d Hh He Hl. cbn [w_read w_count wr_float].
    rewrite app_length in *. apply has_app in Hh as [Hh1 Hh2].
    pose proof (fplit_text_ne lit Hwf) as Hne. pose proof (fplit_fp lit Hwf) as Hfp.
    assert (Hlen : 0 < length (fplit_text lit)) by (destruct (fplit_text lit); [congruence|cbn; lia]).
    assert (Emv : move_to_fp m e d = Ok (d + length sp)).
    { unfold move_to_fp. apply scan_to; [exact Hh1| |lia|].
      - eapply Forall_impl; [|exact Hsp]. cbn; intros a [-> _]; reflexivity.
      - right. destruct (fplit_text lit) as [|a t]; [congruence|]. exists a. split; [eapply load_has; exact Hh2|].
        apply forall_hd in Hfp. rewrite Hfp; reflexivity. }
    rewrite Emv. cbn [bind].
    assert (Enon : move_to_non_fp m e (d + length sp) = Ok (d + length sp + length (fplit_text lit))).
    { unfold move_to_non_fp. apply scan_to; [exact Hh2|exact Hfp|lia|]. left; lia. }
    split.
    + rewrite (read_fp_at F m e _ lit 0%Z); [|exact Hh2|exact Hwf|replace (d + length sp + length (fplit_text lit)) with e by lia; exact Hl|reflexivity|lia]. cbn [bind].
      unfold move_to_non_fp. rewrite scan_end by lia. cbn [bind]. okpair.
    + rewrite Enon. eexists; split; [reflexivity|lia].
Qed.

(** ** The reader *)
Section Main.
  Context {W : Type}.
  Variables L O : ity.
  Hypothesis HL : is_ity L.
  Hypothesis HO : is_ity O.
  Variable wr : option (wrd W).
  Variable ints : bool.
  Hypothesis Hwe : owend wr.
  Variable fl : flags.
  Let sym := f_sym fl.
  Let ut := f_ut fl.
  Let sl := f_sl fl.
  Variable m : mem.
  Hypothesis Hslack : slack m.
  Variable g : list byte.
  Variable its : list (item W).
  Let bs := map itblk its.
  Let e := flen m.
  Hypothesis Hh : has m 0 (g ++ bstext bs).
  Hypothesis He : 0 + length (g ++ bstext bs) = e.
  Hypothesis Hg : gap (isnil bs) g.
  Hypothesis Hw : wf_blks bs.
  Hypothesis Hok : Forall (line_ok L wr ints) its.
  Variable T : nat.
  Hypothesis HT : 1 <= T.

  Notation iK := (bK itblk g its T).
  Notation ioffs := (boffs itblk 0 g its).
  Notation ichunk := (bchunk itblk g its T).

  Lemma at_item_of e' d it : e' <= e -> line_ok L wr ints it ->
    (exists fin, wf_blk fin (itblk it) /\ has m d (btext (itblk it)) /\
       ends m is_digit e' (d + length (btext (itblk it))) /\ (fin = true -> d + length (btext (itblk it)) = e')) ->
    (fst it <> Full -> d + length (btext (itblk it)) = e) ->
    at_item L wr ints m e' d it.
  Proof.
    intros Hle Hlo (fin & Hwf & Hhas & Hends & Hfin) Hcut. destruct it as [tg [l w]]. unfold at_item. cbn [fst snd] in *.
    destruct tg.
    - exists fin. rewrite itblk_full in *. cbn [fst snd] in *. unfold line_ok in Hlo; cbn [fst snd] in Hlo.
      destruct Hlo as (H1 & H2 & H3 & H4 & H5 & H6 & H7). destruct Hwf as (_ & _ & Hgap & _). cbn [itblk b_gap fst snd] in Hgap.
      constructor; auto. repeat (split; [assumption|]). assumption.
    - rewrite (itblk_cut Cut (l, w)) in * by discriminate. cbn [fst snd] in *. specialize (Hcut ltac:(discriminate)).
      destruct Hends as (c & _ & _ & Hd & _). assert (e' = e) by lia. subst e'.
      repeat (split; [first [assumption|lia]|]). apply load_eof. exact Hslack.
    - rewrite (itblk_cut Tail (l, w)) in * by discriminate. cbn [fst snd] in *. specialize (Hcut ltac:(discriminate)).
      destruct Hends as (c & _ & _ & Hd & _). assert (e' = e) by lia. subst e'.
      repeat (split; [first [assumption|lia]|]). apply load_eof. exact Hslack.
  Qed.

  (** Where an item without newline ends. *)
  Lemma cut_end k it : nth_error its k = Some it -> fst it <> Full -> S k = length its.
  Proof using Hw.
    intros Hk Hf. clear - Hk Hf Hw. unfold bs in Hw. revert k Hk; induction its as [|a l IH]; intros k Hk; [destruct k; discriminate|].
    cbn [map wf_blks] in Hw. destruct Hw as [(_ & _ & _ & Ht) Hw']. destruct k as [|k]; cbn [nth_error] in Hk.
    - injection Hk as ->. cbn [itblk b_term] in Ht. destruct l as [|b l]; [reflexivity|].
      destruct (fst it); [congruence|..]; specialize (Ht eq_refl); discriminate Ht.
    - cbn [length]. f_equal. apply IH; assumption.
  Qed.

  Lemma at_items_of e' : e' <= e -> forall B d k, at_blks itblk m e' d B -> Forall (line_ok L wr ints) B ->
    (forall j it, nth_error B j = Some it -> nth_error its (k + j) = Some it) -> d = ioffs k ->
    at_items L wr ints m e' d B.
  Proof.
    intros Hle. induction B as [|it B IH]; intros d k Hb Hlo Hn Hd; [exact Hb|].
    destruct Hb as [Hit Hb]. inversion Hlo as [|? ? Hl1 Hl2]; subst. cbn [at_items].
    assert (Hk : nth_error its k = Some it) by (rewrite <- (Nat.add_0_r k); apply Hn; reflexivity).
    assert (HS : ioffs k + length (btext (itblk it)) = ioffs (S k)).
    { unfold boffs, boff. destruct (nth_error_split its k Hk) as (l1 & l2 & E & El). rewrite E, !map_app. cbn [map].
      rewrite <- El. replace (length l1) with (length (map (@itblk W) l1)) by apply map_length.
      replace (S (length (map (@itblk W) l1))) with (length (map (@itblk W) l1 ++ [itblk it])) by (rewrite app_length; cbn; lia).
      rewrite firstn_app, firstn_all, Nat.sub_diag, firstn_O, app_nil_r.
      change (map (@itblk W) l1 ++ itblk it :: map itblk l2) with (map (@itblk W) l1 ++ ([itblk it] ++ map itblk l2)).
      rewrite app_assoc, firstn_app, firstn_all, Nat.sub_diag, firstn_O, app_nil_r.
      rewrite bstext_app, app_length. unfold bstext at 3. cbn [map concat]. rewrite app_nil_r. lia. }
    split.
    - apply at_item_of; auto. intros Hf. rewrite HS, (cut_end k it Hk Hf). unfold boffs, boff. fold bs.
      replace (length its) with (length bs) by (unfold bs; apply map_length). rewrite firstn_all. rewrite app_length in He. lia.
    - apply IH with (k := S k); auto. intros j it' Hj. rewrite <- (Hn (S j) it' Hj). f_equal. lia.
  Qed.

  Lemma at_chunk_items t : t < T -> at_items L wr ints m (ioffs (iK (S t))) (ioffs (iK t)) (ichunk t).
  Proof.
    intros Ht. apply at_items_of with (k := iK t).
    - apply (boffs_le itblk m 0 g its He T HT).
    - apply at_bchunk; auto.
    - unfold bchunk, slice. rewrite Forall_forall in Hok |- *. intros it Hin. apply Hok.
      rewrite <- (firstn_skipn (iK t) its). apply in_or_app; right.
      rewrite <- (firstn_skipn (iK (S t) - iK t) (skipn (iK t) its)). apply in_or_app; left; exact Hin.
    - intros j it Hj. unfold bchunk, slice in Hj.
      assert (Hlt : j < iK (S t) - iK t).
      { destruct (Nat.lt_ge_cases j (iK (S t) - iK t)) as [|Hge]; [assumption|]. exfalso.
        assert (nth_error (firstn (iK (S t) - iK t) (skipn (iK t) its)) j = None); [|congruence].
        apply nth_error_None. rewrite firstn_length. lia. }
      rewrite <- Hj. rewrite <- (firstn_skipn (iK t) its) at 1.
      pose proof (bK_le itblk m 0 g its He T HT t) as HK.
      rewrite nth_error_app2; rewrite firstn_length_le by exact HK; [|lia].
      replace (iK t + j - iK t) with j by lia.
      rewrite <- (firstn_skipn (iK (S t) - iK t) (skipn (iK t) its)) at 1. apply nth_error_app1.
      assert (Hj2 : j < length (firstn (iK (S t) - iK t) (skipn (iK t) its))) by (apply nth_error_Some; congruence). exact Hj2.
    - reflexivity.
  Qed.

  Notation itot := (ittotal ints fl).

  Lemma ipass1_ok : el_pass1 L wr fl m 0 e T =
    Ok (map (fun t => (ioffs (iK t), ioffs (iK (S t)))) (seq 0 T), map (fun t => itot (ichunk t)) (seq 0 T)).
  Proof.
    unfold el_pass1.
    rewrite (mapM_ok _ (fun t => (ioffs (iK t), ioffs (iK (S t))))) by (intros t Ht; apply in_seq in Ht; apply bchunk_at; auto; lia).
    cbn [bind]. rewrite mapM_map. cbn [fst snd].
    rewrite (mapM_ok _ (fun t => itot (ichunk t))); [reflexivity|].
    intros t Ht. apply in_seq in Ht. pose proof (at_chunk_items t ltac:(lia)) as Hat.
    destruct (bload_boundary itblk m Hslack 0 g its Hh He Hw T HT t ltac:(lia)) as (ce & Hce & Hce').
    pose proof (at_items_le _ _ _ _ _ _ _ Hat).
    rewrite (icount_loop_run L HL wr ints fl m _ ce Hce Hce' Hwe (length (ichunk t)) (ichunk t)); auto; lia.
  Qed.

  Definition iP (t : nat) : nat := itot (firstn (iK t) its).

  Lemma ittotal_app (a b : list (item W)) : itot (a ++ b) = itot a + itot b.
  Proof using Type. clear. unfold ittotal. rewrite map_app. induction a as [|x a IH]; [reflexivity|]. cbn [map app sum_nat fold_right]. unfold sum_nat in *. lia. Qed.

  Lemma iP_S t : t < T -> iP (S t) = iP t + itot (ichunk t).
  Proof. intros Ht. unfold iP, bchunk. rewrite <- ittotal_app, firstn_slice by (apply (bK_mono itblk m 0 g its He T HT); auto). reflexivity. Qed.

  Lemma icounts_sum : sum_nat (map (fun t => itot (ichunk t)) (seq 0 T)) = itot its.
  Proof.
    pose proof (sum_nat_seq iP (fun t => itot (ichunk t)) T 0) as H.
    change (iP 0) with 0 in H. cbn [plus] in H. rewrite H; [|intros t Ht; apply iP_S; lia].
    unfold iP. rewrite (bK_T itblk m 0 g its He Hw T HT), firstn_all. reflexivity.
  Qed.

  Definition iprog (t : nat) : list (cinstr W) := icodes wr fl m (ioffs (iK (S t))) (iP t) (ichunk t).

  Lemma ipass2_ok :
    el_pass2 L wr fl m (map (fun t => (ioffs (iK t), ioffs (iK (S t)))) (seq 0 T)) (map (fun t => itot (ichunk t)) (seq 0 T)) =
    Ok (map (fun t => (iprog t, imr fl (imin L) (ichunk t), imc fl (imin L) (ichunk t))) (seq 0 T)).
  Proof.
    unfold el_pass2.
    pose proof (prefix_sums_seq iP (fun t => itot (ichunk t)) T 0) as Hps. change (iP 0) with 0 in Hps.
    rewrite Hps by (intros t Ht; apply iP_S; lia).
    rewrite combine_map, mapM_map. cbn [fst snd]. apply mapM_ok.
    intros t Ht. apply in_seq in Ht. pose proof (at_chunk_items t ltac:(lia)) as Hat.
    destruct (bload_boundary itblk m Hslack 0 g its Hh He Hw T HT t ltac:(lia)) as (ce & Hce & Hce').
    pose proof (at_items_le _ _ _ _ _ _ _ Hat).
    rewrite (iset_loop_run L HL wr ints fl m _ ce Hce Hce' Hwe (length (ichunk t)) (ichunk t)); auto; lia.
  Qed.

  Lemma full_app (a b : list (item W)) : full (a ++ b) = full a ++ full b.
  Proof using Type. clear. unfold full. apply flat_map_app. Qed.

  Lemma ikents_concat : concat (map (fun t => kents fl (full (ichunk t))) (seq 0 T)) = kents fl (full its).
  Proof.
    pose proof (bchunks_concat itblk m 0 g its He T HT T (le_n _)) as Hc. rewrite (bK_T itblk m 0 g its He Hw T HT), firstn_all in Hc.
    transitivity (kents fl (full (concat (map (bchunk itblk g its T) (seq 0 T))))); [|rewrite Hc; reflexivity].
    clear. induction (seq 0 T) as [|t l IH]; [reflexivity|].
    cbn [map concat]. rewrite IH, full_app. unfold kents. rewrite map_app, flat_map_app. reflexivity.
  Qed.

  Lemma imax_row : fold_left Z.max (map (fun t => imr fl (imin L) (ichunk t)) (seq 0 T)) 0%Z
    = max_of (map (fun e => fst (fst e)) (kents fl (full its))).
  Proof.
    rewrite <- ikents_concat, concat_map, map_map.
    pose proof (reduce_max (imin L) (map (fun t => map (fun e => fst (fst e)) (kents fl (full (ichunk t)))) (seq 0 T))) as H.
    rewrite map_map in H. unfold imr, mxr. rewrite H; [reflexivity|]. apply ity_facts; exact HL.
  Qed.
  Lemma imax_col : fold_left Z.max (map (fun t => imc fl (imin L) (ichunk t)) (seq 0 T)) 0%Z
    = max_of (map (fun e => snd (fst e)) (kents fl (full its))).
  Proof.
    rewrite <- ikents_concat, concat_map, map_map.
    pose proof (reduce_max (imin L) (map (fun t => map (fun e => snd (fst e)) (kents fl (full (ichunk t)))) (seq 0 T))) as H.
    rewrite map_map in H. unfold imc, mxc. rewrite H; [reflexivity|]. apply ity_facts; exact HL.
  Qed.

  Hypothesis Hcount : (Z.of_nat (itot its) <= imax O)%Z.
  Let n := itot its.
  Let st0 : cst W := mkCst (fresh n) (fresh n) (if is_some wr then fresh n else []).
  Let nr := (max_of (map (fun e => fst (fst e)) (kents fl (full its))) + 1)%Z.
  Let nc := (max_of (map (fun e => snd (fst e)) (kents fl (full its))) + 1)%Z.

  Lemma read_items sched : (nr <= imax L)%Z -> (nc <= imax L)%Z ->
    read_el L O wr fl m 0 e T sched =
    (st <- run cexec sched (map iprog (seq 0 T)) st0 ;;
     Ok (mkCoo (cx st) (cy st) (cw st) (Some (Z.max nr nc)) (Some nr) (Some nc) (Z.of_nat n))).
  Proof.
    intros Hnr Hnc. unfold read_el. rewrite ipass1_ok. cbn [bind]. rewrite icounts_sum. fold n.
    pose proof (ity_facts O HO) as (HO1 & HO2 & _). pose proof (ity_facts L HL) as (HL1 & HL2 & _).
    rewrite wrap_in by (auto; unfold n; lia).
    unfold coo_alloc. destruct (Z.ltb_spec (Z.of_nat n) 0) as [Hlt|_]; [lia|].
    cbn [bind]. rewrite Nat2Z.id. fold st0. rewrite ipass2_ok. cbn [bind]. rewrite !map_map. cbn [fst snd].
    change (map (fun x => iprog x) (seq 0 T)) with (map iprog (seq 0 T)).
    apply bind_ext. intros st. rewrite imax_row, imax_col. fold nr nc.
    assert (Hn : (0 < nr /\ 0 < nc)%Z).
    { unfold nr, nc. pose proof (max_of_nonneg (map (fun e => fst (fst e)) (kents fl (full its)))).
      pose proof (max_of_nonneg (map (fun e => snd (fst e)) (kents fl (full its)))). lia. }
    rewrite !arith_in by (auto; lia). cbn [bind]. f_equal. f_equal. f_equal.
    destruct (Z.ltb_spec nc nr); lia.
  Qed.

  (** All complete lines are kept, or there are no weights: then nothing spills
      over a thread's range. *)
  Hypothesis Hkeep : wr = None \/ Forall (fun it => fst it = Cut \/ drop fl (snd it) = false) its.
  (** A cell is reserved for the weight of a line that is cut off. *)
  Hypothesis Hres : wr = None \/ Forall (fun it => fst it = Cut -> 0 < cutcount ints fl (snd it)) its.

  Fixpoint icodes0 (pos : nat) (B : list (item W)) : list (cinstr W) :=
    match B with
    | [] => []
    | (Cut, p) :: B' => wcode wr pos (snd p) ++ icodes0 (pos + cutcount ints fl p) B'
    | (_, p) :: B' => line_code wr fl pos p ++ icodes0 (pos + length (expand sym ut sl (ent p))) B'
    end.

  Lemma icodes_0 e' (B : list (item W)) : (wr = None \/ Forall (fun it => fst it = Cut \/ drop fl (snd it) = false) B) ->
    (forall p B1 B2, B = B1 ++ (Cut, p) :: B2 -> B2 = []) ->
    forall pos, icodes wr fl m e' pos B = icodes0 pos B.
  Proof.
    intros Hk Hl. revert Hk Hl. induction B as [|[tg p] B IH]; intros Hk Hl pos; [reflexivity|].
    assert (Hk' : wr = None \/ Forall (fun it => fst it = Cut \/ drop fl (snd it) = false) B).
    { destruct Hk as [H|H]; [left; exact H|right; inversion H; assumption]. }
    assert (Hl' : forall p B1 B2, B = B1 ++ (Cut, p) :: B2 -> B2 = []).
    { intros q B1 B2 E. apply (Hl q ((tg, p) :: B1) B2). rewrite E. reflexivity. }
    assert (Et : forall b : bool, tg <> Cut -> (if drop fl p && b then etail wr m e' (pos + length (expand (f_sym fl) (f_ut fl) (f_sl fl) (ent p))) else []) = []).
    { intros b Hne. destruct Hk as [H|H].
      - unfold etail. rewrite H. destruct (_ && _); reflexivity.
      - inversion H as [|? ? [Hc|Hd] _]; subst; cbn [fst snd] in *; [congruence|]. rewrite Hd. reflexivity. }
    cbn [icodes icodes0]. destruct tg.
    - rewrite Et by discriminate. cbn [app]. f_equal. apply IH; assumption.
    - f_equal. assert (EB : B = []) by (apply (Hl p [] B); reflexivity). rewrite EB. reflexivity.
    - rewrite Et by discriminate. cbn [app]. f_equal. apply IH; assumption.
  Qed.

  Lemma cut_only p B1 B2 : its = B1 ++ (Cut, p) :: B2 -> B2 = [].
  Proof using Hw.
    clear - Hw. intros E. assert (Hk : nth_error its (length B1) = Some (Cut, p)) by (rewrite E, nth_error_app2, Nat.sub_diag by lia; reflexivity).
    apply cut_end in Hk; [|discriminate]. rewrite E, app_length in Hk. cbn [length] in Hk. destruct B2; [reflexivity|cbn in Hk; lia].
  Qed.

  Lemma iprog_0 t : t < T -> iprog t = icodes0 (iP t) (ichunk t).
  Proof.
    intros Ht. unfold iprog.
    pose proof (slice_split (iK t) (iK (S t)) its (bK_mono itblk m 0 g its He T HT t Ht)) as Esp. fold (ichunk t) in Esp.
    apply icodes_0.
    - destruct Hkeep as [H|H]; [left; exact H|right]. rewrite Esp in H. apply Forall_app in H as [_ H]. apply Forall_app in H; apply H.
    - intros p B1 B2 E.
      assert (E2 : its = (firstn (iK t) its ++ B1) ++ (Cut, p) :: (B2 ++ skipn (iK (S t)) its)).
      { rewrite Esp at 1. rewrite E. rewrite <- !app_assoc. reflexivity. }
      apply cut_only in E2. destruct B2; [reflexivity|discriminate].
  Qed.

  Lemma icodes0_app a : forall b pos, icodes0 pos (a ++ b) = icodes0 pos a ++ icodes0 (pos + itot a) b.
  Proof using Type.
    induction a as [|[tg p] a IH]; intros b pos.
    - unfold ittotal; cbn. rewrite Nat.add_0_r. reflexivity.
    - cbn [app icodes0]. rewrite ittotal_cons. unfold itcount; cbn [fst snd].
      destruct tg; rewrite IH, <- app_assoc, Nat.add_assoc; reflexivity.
  Qed.

  Lemma icodes0_in (B : list (item W)) : (wr = None \/ Forall (fun it => fst it = Cut \/ drop fl (snd it) = false) B) ->
    (wr = None \/ Forall (fun it => fst it = Cut -> 0 < cutcount ints fl (snd it)) B) ->
    forall lo hi pos, lo <= pos -> pos + itot B <= hi -> Forall (wr_in lo hi) (icodes0 pos B).
  Proof.
    induction B as [|[tg p] B IH]; intros Hk Hr lo hi pos Hlo Hhi; [constructor|].
    assert (Hk' : wr = None \/ Forall (fun it => fst it = Cut \/ drop fl (snd it) = false) B).
    { destruct Hk as [H|H]; [left; exact H|right; inversion H; assumption]. }
    assert (Hr' : wr = None \/ Forall (fun it => fst it = Cut -> 0 < cutcount ints fl (snd it)) B).
    { destruct Hr as [H|H]; [left; exact H|right; inversion H; assumption]. }
    change (itot ((tg, p) :: B)) with (itcount ints fl (tg, p) + itot B) in Hhi. unfold itcount in Hhi; cbn [fst snd] in Hhi.
    assert (Hd : tg <> Cut -> wr = None \/ drop fl p = false).
    { intros Hne. destruct Hk as [H|H]; [left; exact H|]. inversion H as [|? ? [Hc|Hd] _]; subst; cbn [fst snd] in *; [congruence|right; exact Hd]. }
    assert (HLC : tg <> Cut -> pos + length (expand sym ut sl (ent p)) <= hi -> Forall (wr_in lo hi) (line_code wr fl pos p)).
    { intros Hne Hb. apply line_code_in; [exact Hlo|exact Hb|]. destruct (Hd Hne) as [H|H]; [left; exact H|right].
      pose proof (doubled_expand fl p H) as E. unfold sym, ut, sl in Hb. destruct (doubled _ _ _) in E; lia. }
    cbn [icodes0]. destruct tg; (apply Forall_app; split).
    - apply HLC; [discriminate|unfold sym, ut, sl; lia].
    - apply IH; auto; unfold sym, ut, sl in *; lia.
    - unfold wcode. destruct wr as [w|]; [|constructor]. constructor; [|constructor]. cbn.
      destruct Hr as [H|H]; [discriminate|]. inversion H as [|? ? Hc _]; subst. cbn [fst snd] in Hc. specialize (Hc eq_refl). lia.
    - apply IH; auto; lia.
    - apply HLC; [discriminate|unfold sym, ut, sl; lia].
    - apply IH; auto; unfold sym, ut, sl in *; lia.
  Qed.

  Lemma iP_mono2 i j : i <= j -> j <= T -> iP i <= iP j.
  Proof.
    intros Hij Hj. induction Hij as [|j Hij IH]; [lia|]. rewrite iP_S by lia. specialize (IH ltac:(lia)). lia.
  Qed.

  Lemma iprog_in t : t < T -> Forall (wr_in (iP t) (iP (S t))) (iprog t).
  Proof.
    intros Ht. rewrite iprog_0 by exact Ht. rewrite iP_S by exact Ht.
    pose proof (slice_split (iK t) (iK (S t)) its (bK_mono itblk m 0 g its He T HT t Ht)) as Esp. fold (ichunk t) in Esp.
    apply icodes0_in; [| |lia|lia].
    - destruct Hkeep as [H|H]; [left; exact H|right]. rewrite Esp in H. apply Forall_app in H as [_ H]. apply Forall_app in H; apply H.
    - destruct Hres as [H|H]; [left; exact H|right]. rewrite Esp in H. apply Forall_app in H as [_ H]. apply Forall_app in H; apply H.
  Qed.

  Lemma run_items sched : run cexec sched (map iprog (seq 0 T)) st0 = exec_all cexec (icodes0 0 its) st0.
  Proof.
    rewrite run_indep.
    - f_equal. assert (Hc : forall k, k <= T -> concat (map iprog (seq 0 k)) = icodes0 0 (firstn (iK k) its)).
      { induction k as [|k IH]; intros Hk; [reflexivity|].
        rewrite seq_S, map_app, concat_app, IH by lia. cbn [map concat plus]. rewrite app_nil_r.
        rewrite iprog_0 by lia. rewrite <- (firstn_slice (iK k) (iK (S k))) by (apply (bK_mono itblk m 0 g its He T HT); lia).
        rewrite icodes0_app. reflexivity. }
      rewrite Hc by lia. rewrite (bK_T itblk m 0 g its He Hw T HT), firstn_all. reflexivity.
    - apply fop_map, fop_seq. intros i j Hij Hj. cbn [plus] in Hj. intros a b Ha Hb.
      pose proof (iprog_in i ltac:(lia)) as Hi. rewrite Forall_forall in Hi. specialize (Hi a Ha).
      pose proof (iprog_in j ltac:(lia)) as Hjj. rewrite Forall_forall in Hjj. specialize (Hjj b Hb).
      eapply comm_cinstr; [exact Hi|exact Hjj|]. left. apply iP_mono2; lia.
  Qed.
End Main.
