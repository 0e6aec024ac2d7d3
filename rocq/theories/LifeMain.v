From Verif Require Import Base Reader Sched Coo Ascii Csr Codec Bin Graph GraphSplit Load Own SpecOwn OwnLemmas Life SpecLife LifeLemmas.

(** Outcomes that follow the reader of Load.v. *)
Definition follows {A B : Type} (r : res A) (o : outcome B) (good : A -> heap -> B -> Prop) (bad : exn -> heap -> Prop) : Prop :=
  match r with
  | Ok a => exists h b, o = Ok (h, inr b) /\ good a h b
  | Throw e => exists h, o = Ok (h, inl e) /\ bad e h
  | UB => o = UB
  | Stuck => o = Stuck
  end.

Definition all_freed (X : list block) : Prop := forall b, In b X -> b = Freed.
Definition small (X : list block) : Prop := forall b n, In b X -> bsize b = Some n -> n = 0.

Lemma freed_small X : all_freed X -> small X.
Proof. intros H b n Hb Hs. rewrite (H b Hb) in Hs. discriminate. Qed.
Lemma repeat_freed k : all_freed (repeat Freed k).
Proof. intros b H. now apply repeat_spec in H. Qed.
Lemma small_app X Y : small X -> small Y -> small (X ++ Y).
Proof. intros H1 H2 b n Hb. apply in_app_iff in Hb. destruct Hb; [apply H1|apply H2]; auto. Qed.
Lemma small_nil : small [].
Proof. intros b n []. Qed.
Lemma freed_nil : all_freed [].
Proof. intros b []. Qed.

Lemma lens_small wgt m n : (m <= 0)%Z -> In n (coo_lens wgt m) -> n = 0.
Proof.
  intros H. unfold coo_lens, sizes. replace (Z.to_nat m) with 0 by lia. destruct wgt; cbn; intuition lia.
Qed.

Lemma raw_small s ws wgt m : (m <= 0)%Z -> small (raw (coo_kinds s ws wgt) (coo_lens wgt m)).
Proof.
  intros H b n Hb Hs. apply In_nth_error in Hb. destruct Hb as (i & Hi).
  apply (raw_size _ _ _ _ n) in Hi; auto using coo_lens_length.
  destruct Hi as [_ Hi]. apply nth_error_In in Hi. eapply lens_small; eauto.
Qed.

Lemma graph_check_m {W} L O b (c : csr W) : graph_check L O b = Ok c ->
  cs_m c = gb_m b /\ cs_off c = g_off (gb_st b).
Proof.
  unfold graph_check. destruct (twice O (gb_rm b)); cbn [bind]; try discriminate.
  destruct (negb _ && negb _); try discriminate. destruct (gb_n b <? gb_rn b)%Z; try discriminate.
  destruct (arith L _); cbn [bind]; try discriminate. intros H. inversion H. auto.
Qed.

Lemma csr_direct_follows {W} ls os ws L O OS (wm : option (wmode W)) f ft ch h :
  let ks := csr_kinds ls os ws (is_some wm) in
  follows (csr_direct L O OS wm f ft ch) (csr_direct_life ls os ws L O OS wm f ft ch h)
    (fun cf h' b => h' = h ++ news ks (csr_lens (is_some wm) (cs_m (fst cf)) (length (cs_off (fst cf)))) /\
                    b = (cf, hs (length h) ks))
    (fun e h' => h' = h \/
       exists b, ft = GRAPH /\ wm = None /\ graph_body L O OS (rf_mem f) (rf_fp f) (flen (rf_mem f)) (lc_graph ch) = Ok b /\
                 graph_check (W:=W) L O b = Throw e /\
                 h' = h ++ raw ks (csr_lens false (gb_m b) (length (g_off (gb_st b))))).
Proof.
  intros ks. unfold csr_direct, csr_direct_life.
  destruct ft; cbn [follows]; try (exists h; auto; fail).
  - (* CSR binary *)
    destruct (csr_read_bin _ _ _ _ _ _ _ _) as [[c f']| | |]; cbn [pure follows]; auto.
    + rewrite alloc_new_ok by apply csr_lens_length. cbn [bind]. do 2 eexists. split; [reflexivity|]. auto.
    + exists h; auto.
  - (* GRAPH *)
    destruct wm as [wm|]; cbn [is_some]; [exists h; auto|].
    unfold with_reader. rewrite read_graph_split.
    destruct (graph_body _ _ _ _ _ _ _) as [b| | |] eqn:Eb; cbn [bind pure follows]; auto; [|exists h; auto].
    unfold build. rewrite alloc_new_ok by apply csr_lens_length. cbn [bind].
    destruct (graph_check L O b) as [c|e| |] eqn:Ec; cbn [bind follows]; auto.
    + apply graph_check_m in Ec. destruct Ec as [E1 E2]. do 2 eexists. split; [reflexivity|].
      cbn [fst]. rewrite E1, E2. auto.
    + pose proof (drop_all_at (csr_kinds ls os ws false) (news (csr_kinds ls os ws false) (csr_lens false (gb_m b) (length (g_off (gb_st b))))) h []) as X.
      rewrite app_nil_r in X. rewrite X; [|apply news_length, csr_lens_length|apply news_one2, csr_lens_length].
      cbn [bind]. rewrite app_nil_r, drop_news by apply csr_lens_length.
      eexists. split; [reflexivity|]. right. exists b. auto.
Qed.

(** The two ways in which a COO constructor throws and leaves arrays. *)
Definition coo_left {W} (s ws : kind) L O (wm : option (wmode W)) fl f ft ch e (h h' : heap) : Prop :=
  (exists b, ft = GRAPH /\ wm = None /\ graph_body L O L (rf_mem f) (rf_fp f) (flen (rf_mem f)) (lc_graph ch) = Ok b /\
     graph_check (W:=W) L O b = Throw e /\
     h' = h ++ raw (csr_kinds s s ws (is_some wm)) (csr_lens false (gb_m b) (length (g_off (gb_st b))))) \/
  (exists c f', (ft = GRAPH \/ ft = PIGO_CSR_BIN) /\ csr_direct L O L wm f ft ch = Ok (c, f') /\
     convert_csr O fl (is_some wm) c (lc_parts ch) (lc_back ch) = Throw e /\
     h' = h ++ raw (csr_kinds s s ws (is_some wm)) (csr_lens (is_some wm) (cs_m c) (length (cs_off c)))).

Lemma mm_check_m {W} O fl b (c : coo W) : mm_check O fl b = Ok c -> co_m c = co_m (snd b).
Proof.
  destruct b as [[[nr nc] nnz] c0]. unfold mm_check. cbn [snd].
  destruct (co_nrows c0); [|discriminate]. destruct (co_ncols c0); [|discriminate].
  destruct (nr <? z)%Z; [discriminate|]. destruct (nc <? z0)%Z; [discriminate|].
  match goal with |- bind ?r _ = _ -> _ => destruct r as [[]| | |] end; cbn [bind]; try discriminate.
  intros H. inversion H. reflexivity.
Qed.

Lemma coo_follows {W} s ws L O (wm : option (wmode W)) fl f ft ch h :
  let ks := coo_kinds s ws (is_some wm) in
  follows (coo_read L O wm fl f ft ch) (coo_life s ws L O wm fl f ft ch h)
    (fun cf h' b => exists k, h' = h ++ repeat Freed k ++ news ks (coo_lens (is_some wm) (co_m (fst cf))) /\
                    b = (cf, hs (length h + k) ks))
    (fun e h' => (exists X, h' = h ++ X /\ small X /\ (s <> Ptr -> ws <> Ptr -> all_freed X)) \/
                 exists ftu, used f ft = Ok ftu /\ coo_left s ws L O wm fl f ftu ch e h h').
Proof.
  intros ks. unfold coo_read, coo_life.
  assert (NIL : (exists X, h = h ++ X /\ small X /\ (s <> Ptr -> ws <> Ptr -> all_freed X)))
    by (intros; exists []; rewrite app_nil_r; auto using small_nil, freed_nil).
  destruct (used f ft) as [ftu| | |] eqn:Eu; cbn [bind pure follows]; auto; [|exists h; eauto].
  assert (NEW : forall (c : coo W) f', exists h' b, 
     (('(h1, az) <- alloc_new h ks (coo_lens (is_some wm) (co_m c)) ;; Ok (h1, inr (c, f', az))) : outcome (coo W * rfile * list handle)) = Ok (h', inr b) /\
     exists k, h' = h ++ repeat Freed k ++ news ks (coo_lens (is_some wm) (co_m c)) /\ b = (c, f', hs (length h + k) ks)).
  { intros c f'. rewrite alloc_new_ok by apply coo_lens_length. cbn [bind]. do 2 eexists. split; [reflexivity|].
    exists 0. rewrite Nat.add_0_r. auto. }
  assert (CSR : ftu = GRAPH \/ ftu = PIGO_CSR_BIN ->
    follows ('(c, f') <- csr_direct L O L wm f ftu ch;; r <- convert_csr O fl (is_some wm) c (lc_parts ch) (lc_back ch);; Ok (r, f'))
      ('(h1, r) <- csr_direct_life s s ws L O L wm f ftu ch h ;;
      match r with
      | inl e => Ok (h1, inl e)
      | inr (c, f', cz) =>
          match convert_csr O fl (is_some wm) c (lc_parts ch) (lc_back ch) with
          | Ok r =>
              '(h2, az) <- alloc_new h1 ks (coo_lens (is_some wm) (co_m r)) ;;
              h3 <- csr_dispose h2 s s ws (is_some wm) cz ;;
              Ok (h3, inr (r, f', az))
          | Throw e => h2 <- drop_all h1 (csr_kinds s s ws (is_some wm)) cz ;; Ok (h2, inl e)
          | UB => UB
          | Stuck => Stuck
          end
      end)
      (fun cf h' b => exists k, h' = h ++ repeat Freed k ++ news ks (coo_lens (is_some wm) (co_m (fst cf))) /\
                    b = (cf, hs (length h + k) ks))
      (fun e h' => (exists X, h' = h ++ X /\ small X /\ (s <> Ptr -> ws <> Ptr -> all_freed X)) \/
                 exists ftu', Ok ftu = Ok ftu' /\ coo_left s ws L O wm fl f ftu' ch e h h')).
  { intros Hft.
    pose proof (csr_direct_follows s s ws L O L wm f ftu ch h) as D. cbv zeta in D.
    destruct (csr_direct L O L wm f ftu ch) as [[c f']|e| |] eqn:Ed; cbn [follows bind] in D |- *.
    - destruct D as (h1 & b & -> & -> & ->). cbn [bind fst snd].
      destruct (convert_csr _ _ _ _ _ _) as [r|e| |] eqn:Er; cbn [bind follows]; auto.
      + rewrite alloc_new_ok by apply coo_lens_length. cbn [bind].
        rewrite <- app_assoc, csr_dispose_at by apply csr_lens_length. cbn [bind].
        do 2 eexists. split; [reflexivity|]. exists (length (csr_kinds s s ws (is_some wm))). split; auto.
        rewrite app_length, news_length by apply csr_lens_length. reflexivity.
      + pose proof (drop_all_at (csr_kinds s s ws (is_some wm)) (news (csr_kinds s s ws (is_some wm)) (csr_lens (is_some wm) (cs_m c) (length (cs_off c)))) h []) as X.
        rewrite app_nil_r in X. rewrite X; [|apply news_length, csr_lens_length|apply news_one2, csr_lens_length].
        cbn [bind]. rewrite app_nil_r, drop_news by apply csr_lens_length.
        eexists. split; [reflexivity|]. right. exists ftu. split; auto. right. exists c, f'. auto.
    - destruct D as (h1 & -> & D). cbn [bind]. eexists. split; [reflexivity|].
      destruct D as [-> | D]; [left; eauto|]. right. exists ftu. split; auto. left. exact D.
    - rewrite D. reflexivity.
    - rewrite D. reflexivity. }
  destruct ftu; cbn [follows]; try (exists h; eauto; fail); try (apply CSR; auto; fail).
  - (* MM *)
    unfold with_reader. rewrite read_mm_split.
    destruct (mm_body _ _ _ _ _ _ _ _ _) as [b| | |]; cbn [bind pure follows]; auto; [|exists h; eauto].
    unfold build. rewrite alloc_new_ok by apply coo_lens_length. cbn [bind].
    destruct (mm_check O fl b) as [c|e| |] eqn:Ec; cbn [bind follows]; auto.
    + apply mm_check_m in Ec. do 2 eexists. split; [reflexivity|]. cbn [fst]. rewrite Ec.
      exists 0. rewrite Nat.add_0_r. auto.
    + pose proof (coo_dispose_at h s ws (is_some wm) (co_m (snd b)) [] (coo_lens (is_some wm) (co_m (snd b))) (coo_lens_length _ _ _ _)) as X.
      rewrite !app_nil_r in X. rewrite X. cbn [bind]. eexists. split; [reflexivity|]. left. eexists. split; [reflexivity|].
      destruct (0 <? co_m (snd b))%Z eqn:E0.
      * split; [apply freed_small, repeat_freed|intros; apply repeat_freed].
      * split; [apply raw_small; lia|]. intros Hs Hws b0 Hb0. unfold raw in Hb0.
        apply in_map_iff in Hb0. destruct Hb0 as ([k0 n0] & <- & Hk). cbn [fst snd].
        apply in_combine_l in Hk. unfold coo_kinds, kinds, wkind in Hk.
        destruct (is_some wm); cbn [In] in Hk; destruct k0; auto; intuition congruence.
  - (* EL *)
    unfold with_reader. destruct (read_el _ _ _ _ _ _ _ _ _) as [c| | |]; cbn [bind pure follows]; auto. exists h; eauto.
  - destruct (coo_read_bin _ _ _ _ _ _ _) as [[c f']| | |]; cbn [pure follows fst snd]; auto. exists h; eauto.
Qed.

(** Throws of the CSR constructor that leave something. *)
Lemma csr_follows {W} ls os ws L O (wm : option (wmode W)) f ft ch h :
  let ks := csr_kinds ls os ws (is_some wm) in
  follows (csr_read L O wm f ft ch) (csr_life ls os ws L O wm f ft ch h)
    (fun cf h' b => exists X, small X /\ h' = h ++ X ++ news ks (csr_lens (is_some wm) (cs_m (fst cf)) (length (cs_off (fst cf)))) /\
                    b = (cf, hs (length h + length X) ks))
    (fun e h' => (exists X, h' = h ++ X /\ small X) \/
       (exists b, used f ft = Ok GRAPH /\ wm = None /\
                 graph_body L O O (rf_mem f) (rf_fp f) (flen (rf_mem f)) (lc_graph ch) = Ok b /\
                 graph_check (W:=W) L O b = Throw e /\
                 h' = h ++ raw ks (csr_lens false (gb_m b) (length (g_off (gb_st b))))) \/
       (exists c f', coo_read L O wm no_flags f ft ch = Ok (c, f') /\ convert_coo L O (is_some wm) c (lc_conv ch) = Throw e)).
Proof.
  intros ks. unfold csr_read, csr_life.
  destruct (used f ft) as [ftu| | |] eqn:Eu; cbn [bind pure follows]; auto;
    [|exists h; split; auto; left; exists []; rewrite app_nil_r; auto using small_nil].
  assert (DIR : follows (csr_direct L O O wm f ftu ch) (csr_direct_life ls os ws L O O wm f ftu ch h)
    (fun cf h' b => exists X, small X /\ h' = h ++ X ++ news ks (csr_lens (is_some wm) (cs_m (fst cf)) (length (cs_off (fst cf)))) /\
                    b = (cf, hs (length h + length X) ks))
    (fun e h' => (exists X, h' = h ++ X /\ small X) \/
       (exists b, Ok ftu = Ok GRAPH /\ wm = None /\
                 graph_body L O O (rf_mem f) (rf_fp f) (flen (rf_mem f)) (lc_graph ch) = Ok b /\
                 graph_check (W:=W) L O b = Throw e /\
                 h' = h ++ raw ks (csr_lens false (gb_m b) (length (g_off (gb_st b))))) \/
       (exists c f', coo_read L O wm no_flags f ft ch = Ok (c, f') /\ convert_coo L O (is_some wm) c (lc_conv ch) = Throw e))).
  { pose proof (csr_direct_follows ls os ws L O O wm f ftu ch h) as D. cbv zeta in D.
    destruct (csr_direct L O O wm f ftu ch) as [cf|e| |]; cbn [follows] in D |- *; auto.
    - destruct D as (h1 & b & E & -> & ->). do 2 eexists. split; [exact E|].
      exists []. cbn [app length]. rewrite Nat.add_0_r. auto using small_nil.
    - destruct D as (h1 & E & D). eexists. split; [exact E|].
      destruct D as [-> | (b & -> & D)]; [left; exists []; rewrite app_nil_r; auto using small_nil|].
      right. left. exists b. auto. }
  assert (COO : ftu = MATRIX_MARKET \/ ftu = EDGE_LIST \/ ftu = PIGO_COO_BIN ->
    follows ('(c, f') <- coo_read L O wm no_flags f ftu ch;; r <- convert_coo L O (is_some wm) c (lc_conv ch);; Ok (r, f'))
     ('(h1, r) <- coo_life Ptr ws L O wm no_flags f ftu ch h;;
      match r with
      | inl e => Ok (h1, inl e)
      | inr (c, f', cz) =>
          match convert_coo L O (is_some wm) c (lc_conv ch) with
          | Ok r0 =>
              '(h2, az) <- alloc_new h1 ks (csr_lens (is_some wm) (cs_m r0) (length (cs_off r0)));;
              h3 <- coo_dispose h2 Ptr ws (is_some wm) (co_m c) cz;; Ok (h3, inr (r0, f', az))
          | Throw e => h2 <- drop_all h1 (coo_kinds Ptr ws (is_some wm)) cz;; Ok (h2, inl e)
          | UB => UB
          | Stuck => Stuck
          end
      end)
    (fun cf h' b => exists X, small X /\ h' = h ++ X ++ news ks (csr_lens (is_some wm) (cs_m (fst cf)) (length (cs_off (fst cf)))) /\
                    b = (cf, hs (length h + length X) ks))
    (fun e h' => (exists X, h' = h ++ X /\ small X) \/
       (exists b, Ok ftu = Ok GRAPH /\ wm = None /\
                 graph_body L O O (rf_mem f) (rf_fp f) (flen (rf_mem f)) (lc_graph ch) = Ok b /\
                 graph_check (W:=W) L O b = Throw e /\
                 h' = h ++ raw ks (csr_lens false (gb_m b) (length (g_off (gb_st b))))) \/
       (exists c f', coo_read L O wm no_flags f ft ch = Ok (c, f') /\ convert_coo L O (is_some wm) c (lc_conv ch) = Throw e))).
  { intros Hft.
    assert (Hu : used f ftu = Ok ftu) by (destruct Hft as [-> | [-> | ->]]; reflexivity).
    assert (Hr : coo_read L O wm no_flags f ft ch = coo_read L O wm no_flags f ftu ch)
      by (unfold coo_read; rewrite Eu, Hu; reflexivity).
    rewrite Hr. clear Hr.
    pose proof (coo_follows Ptr ws L O wm no_flags f ftu ch h) as C. cbv zeta in C.
    destruct (coo_read L O wm no_flags f ftu ch) as [[c f']|e| |]; cbn [follows bind] in C |- *; auto.
    - destruct C as (h1 & b & -> & k & -> & ->). cbn [bind fst].
      destruct (convert_coo L O (is_some wm) c (lc_conv ch)) as [r|e| |] eqn:Er; cbn [bind follows]; auto.
      + rewrite alloc_new_ok by apply csr_lens_length. cbn [bind].
        pose proof (coo_dispose_at (h ++ repeat Freed k) Ptr ws (is_some wm) (co_m c)
                     (news ks (csr_lens (is_some wm) (cs_m r) (length (cs_off r))))
                     (coo_lens (is_some wm) (co_m c)) (coo_lens_length _ _ _ _)) as X.
        rewrite app_length, repeat_length, <- !app_assoc in X.
        rewrite <- !app_assoc. rewrite X. cbn [bind]. clear X.
        do 2 eexists. split; [reflexivity|].
        exists (repeat Freed k ++ (if (0 <? co_m c)%Z then repeat Freed (length (coo_kinds Ptr ws (is_some wm)))
                              else raw (coo_kinds Ptr ws (is_some wm)) (coo_lens (is_some wm) (co_m c)))).
        split; [|split].
        * apply small_app; [apply freed_small, repeat_freed|].
          destruct (0 <? co_m c)%Z eqn:E0; [apply freed_small, repeat_freed|apply raw_small; lia].
        * rewrite <- app_assoc. reflexivity.
        * f_equal. f_equal. rewrite !app_length, news_length by apply coo_lens_length.
          f_equal. f_equal. destruct (0 <? co_m c)%Z; [now rewrite repeat_length|].
          unfold raw. rewrite map_length, combine_length. rewrite (coo_lens_length Ptr ws). lia.
      + eexists. split; [|right; right; eauto].
        pose proof (drop_all_at (coo_kinds Ptr ws (is_some wm)) (news (coo_kinds Ptr ws (is_some wm)) (coo_lens (is_some wm) (co_m c))) (h ++ repeat Freed k) []) as X.
        rewrite app_nil_r, app_length, repeat_length, <- app_assoc in X.
        rewrite X; [|apply news_length, coo_lens_length|apply news_one2, coo_lens_length].
        reflexivity.
    - destruct C as (h1 & -> & C). cbn [bind]. eexists. split; [reflexivity|].
      left. destruct C as [(X & -> & HX & _) | (ftu' & E & C)]; [eauto|].
      rewrite Hu in E. assert (ftu = ftu') as <- by congruence.
      destruct C as [(b & Eg & _) | (c & f' & Eg & _)]; exfalso; destruct Hft as [-> | [-> | ->]]; intuition discriminate.
    - rewrite C. reflexivity.
    - rewrite C. reflexivity. }
  destruct ftu; try exact DIR; apply COO; auto.
Qed.
