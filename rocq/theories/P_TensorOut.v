(** * Properties C38 and C49: writing tensors as text, and their largest labels

    [tensor_write O lf wf t parts sched] is the contents of the file that
    [Tensor::write] leaves behind: [parts] lists the entries each thread
    handles, [sched] is the interleaving of their stores. *)

From Coq Require Import String Permutation.
From Verif Require Import Base Reader ReaderLemmas Sched SchedLemmas Spec SpecDec SpecFp SpecText SpecTensor SpecTensorOut Coo CooLemmas WeightLemmas ElSpec ElFinal ElThms Ascii AsciiLemmas StbLemmas WriteLemmas TextRound Codec Bin SpecBin Load BinOpen Graph Csr Tensor TensorOut WriteGen TensorOutLemmas TensorRound P_Text P_Bin P_Tensor.
Open Scope list_scope.
Notation length := List.length.

(** Each label can be printed, and the number of labels fits the ordinal type. *)
Definition tensor_printable {W} (L O : ity) (order : nat) (es : list (list Z * W)) : Prop :=
  Forall (fun e => Forall (printable L) (fst e)) es /\ (Z.of_nat (order * length es) <= imax O)%Z.

Lemma tformats {W} L O k (es : list (list Z * W)) : is_ity L -> tensor_printable L O k es ->
  forall e x, In e es -> In x (fst e) -> formats (fmt_int L) x (dec x).
Proof.
  intros HL [HF _] e x He Hx. rewrite Forall_forall in HF. specialize (HF e He). rewrite Forall_forall in HF. destruct (HF x Hx) as [H1 H2].
  apply formats_int; assumption.
Qed.

Lemma twrite_gen {W} L O order (wf : option (fmt W)) tw (es : list (list Z * W)) t parts sched :
  is_ity L -> is_ity O -> tensor_holds t order es -> 1 <= order -> es <> [] -> tensor_printable L O order es ->
  (is_some wf = true -> tensor_weights t es) ->
  (forall f e, wf = Some f -> In e es -> formats f (snd e) (tw (snd e))) ->
  Permutation (concat parts) (seq 0 (length es)) ->
  exists f ps, tensor_write_plan O (fmt_int L) wf t parts = Ok (f, ps) /\ stores_apart (length f) ps /\
    tensor_write O (fmt_int L) wf t parts sched =
      Ok (tensor_text dec (match wf with None => None | Some _ => Some tw end) (pick es (concat parts))) /\
    (concat parts = seq 0 (length es) -> pick es (concat parts) = es).
Proof.
  intros HL HO Ht Hk Hne HF Hw Hf HP.
  destruct (tensor_write_ok O HO (fmt_int L) wf t order es dec tw Ht (proj2 HF) Hk Hw (tformats L O order es HL HF) Hf parts sched
    (bounds_perm es parts HP) (perm_nonempty es parts HP Hne)) as (f & ps & E1 & E2 & E3 & E4 & E5).
  exists f, ps. split; [exact E1|]. split; [split; [exact E3|apply fop_apart; exact E4]|]. split; [exact E5|]. apply pick_ordered.
Qed.

(** Without weights: one line per entry, the labels separated by single spaces.
    The file has exactly the announced size, no two threads store to the same
    byte, and every store is inside the file.  With the static distribution
    (theorem [C13_static_schedule]) the lines are in index order. *)
Theorem C38_tensor_write_text : forall L O order (es : list (list Z * unit)) t parts sched,
  is_ity L -> is_ity O -> tensor_holds t order es -> 1 <= order -> es <> [] -> tensor_printable L O order es ->
  Permutation (concat parts) (seq 0 (length es)) ->
  exists f ps, tensor_write_plan O (fmt_int L) None t parts = Ok (f, ps) /\ stores_apart (length f) ps /\
    tensor_write O (fmt_int L) None t parts sched = Ok (tensor_text dec None (pick es (concat parts))) /\
    (concat parts = seq 0 (length es) -> pick es (concat parts) = es).
Proof.
  intros L O k es t parts sched HL HO Ht Hk Hne HF HP.
  apply (twrite_gen L O k None (fun _ => []) es t parts sched HL HO Ht Hk Hne HF ltac:(discriminate) ltac:(discriminate) HP).
Qed.
Print Assumptions C38_tensor_write_text.

Theorem C38_tensor_write_int_weights : forall L O Wt order (es : list (list Z * Z)) t parts sched,
  is_ity L -> is_ity O -> is_ity Wt -> tensor_holds t order es -> tensor_weights t es -> 1 <= order -> es <> [] ->
  tensor_printable L O order es -> Forall (fun e => printable Wt (snd e)) es ->
  Permutation (concat parts) (seq 0 (length es)) ->
  exists f ps, tensor_write_plan O (fmt_int L) (Some (fmt_int Wt)) t parts = Ok (f, ps) /\ stores_apart (length f) ps /\
    tensor_write O (fmt_int L) (Some (fmt_int Wt)) t parts sched = Ok (tensor_text dec (Some dec) (pick es (concat parts))) /\
    (concat parts = seq 0 (length es) -> pick es (concat parts) = es).
Proof.
  intros L O Wt k es t parts sched HL HO HWt Ht Hw Hk Hne HF HW HP.
  apply (twrite_gen L O k (Some (fmt_int Wt)) dec es t parts sched HL HO Ht Hk Hne HF (fun _ => Hw)); [|exact HP].
  intros f e Ef He. injection Ef as <-. rewrite Forall_forall in HW. destruct (HW e He) as [H1 H2]. apply formats_int; assumption.
Qed.
Print Assumptions C38_tensor_write_int_weights.

Theorem C38_tensor_write_float_weights : forall {V} L O (rts : V -> realstr) base lb nb order (es : list (list Z * V)) t parts sched,
  is_ity L -> is_ity O -> tensor_holds t order es -> tensor_weights t es -> 1 <= order -> es <> [] ->
  tensor_printable L O order es -> Forall (fun e => length (stb_chars 0 0 (rts (snd e))) < 1024) es ->
  Permutation (concat parts) (seq 0 (length es)) ->
  exists f ps, tensor_write_plan O (fmt_int L) (Some (fmt_fp rts base lb nb)) t parts = Ok (f, ps) /\ stores_apart (length f) ps /\
    tensor_write O (fmt_int L) (Some (fmt_fp rts base lb nb)) t parts sched =
      Ok (tensor_text dec (Some (fun w => stb_chars 0 0 (rts w))) (pick es (concat parts))) /\
    (concat parts = seq 0 (length es) -> pick es (concat parts) = es).
Proof.
  intros V L O rts base lb nb k es t parts sched HL HO Ht Hw Hk Hne HF HW HP.
  apply (twrite_gen L O k (Some (fmt_fp rts base lb nb)) (fun w => stb_chars 0 0 (rts w)) es t parts sched HL HO Ht Hk Hne HF (fun _ => Hw)); [|exact HP].
  intros f e Ef He. injection Ef as <-. rewrite Forall_forall in HW. apply formats_fp. apply HW; exact He.
Qed.
Print Assumptions C38_tensor_write_float_weights.

(** A tensor without entries cannot be written. *)
Theorem C38_empty_throws : forall {W} O lf (wf : option (fmt W)) t T sched,
  tensor_write O lf wf t (repeat [] T) sched = Throw EError.
Proof.
  intros W O lf wf t T sched. unfold tensor_write, gwrite, gplan.
  assert (E : forall esz, mapM (fun es => gsizes esz es 0) (repeat [] T) = Ok (repeat 0 T)).
  { intros esz. induction T as [|T IH]; [reflexivity|]. cbn [repeat mapM gsizes bind]. rewrite IH. reflexivity. }
  rewrite E. cbn [bind]. replace (sum_nat (repeat 0 T)) with 0 by (clear; induction T; cbn in *; auto). reflexivity.
Qed.
Print Assumptions C38_empty_throws.

(** ** Round trips: what is written is read back, by any team *)

Lemma fst_nonempty {W} L k (es : list (list Z * W)) : 1 <= k -> Forall (tlabels_ok L k) es -> Forall (fun e => fst e <> []) es.
Proof. intros Hk. apply Forall_impl. intros e [H _] E. rewrite E in H. cbn [length] in H. lia. Qed.

Lemma tlabels_printable {W} L O k (es : list (list Z * W)) : is_ity L -> Forall (tlabels_ok L k) es ->
  (Z.of_nat (k * length es) <= imax O)%Z -> tensor_printable L O k es.
Proof.
  intros HL HF Hm. split; [|exact Hm]. eapply Forall_impl; [|exact HF]. intros e [_ H]. eapply Forall_impl; [|exact H]. cbn beta. intros x Hx.
  pose proof (ity_imin L HL) as Ei. pose proof (ity_facts L HL) as (_ & _ & F3). split.
  - unfold inrange. apply andb_true_intro; split; apply Z.leb_le; [destruct (isigned L); lia|lia].
  - intros Es. rewrite Es in Ei. lia.
Qed.

Lemma tns_of_fits {W} L O k tw (es : list (list Z * W)) : 1 <= k -> Forall (tlabels_ok L k) es -> (Z.of_nat (k * length es) <= imax O)%Z -> es <> [] ->
  tensor_fits L O k (tns_of tw es).
Proof.
  intros Hk HF Hm Hne. assert (Hl : 1 <= length es) by (destruct es; [congruence|cbn [length]; lia]).
  unfold tensor_fits. assert (En : length (tn_lines (tns_of tw es)) = length es) by (cbn [tns_of tn_lines]; apply map_length). rewrite En.
  split; [|split; [nia|split; [nia|exact Hm]]]. unfold tns_labels. rewrite (tns_of_entries L k) by assumption.
  clear - HF. induction HF as [|e es [_ He] HF IH]; cbn [map concat]; [constructor|]. apply Forall_app; split; [|exact IH].
  eapply Forall_impl; [|exact He]. cbn beta. intros; lia.
Qed.

Lemma same_tensor {W} (es : list (list Z * W)) order (t : tensor W) c m k : k = Z.of_nat order -> m = Z.of_nat (length es) ->
  te_order t = k -> te_m t = m -> te_c t = c -> c = map Some (concat (map fst es)) -> Forall (fun e => length (fst e) = order) es -> tensor_holds t order es.
Proof. intros -> -> E1 E2 E3 E4 HF. split; [exact E1|]. split; [exact E2|]. split; [exact HF|]. congruence. Qed.

Theorem C38_tensor_round_trip : forall L O order (es : list (list Z * unit)) t parts sched pg fn ch,
  is_ity L -> is_ity O -> tensor_holds t order es -> 1 <= order -> es <> [] ->
  Forall (fun e => Forall (fun x => 0 <= x <= imax L)%Z (fst e)) es -> (Z.of_nat (order * length es) <= imax O)%Z ->
  concat parts = seq 0 (length es) -> off_page pg (tensor_text dec None es) -> 1 <= lc_T ch ->
  exists s t', tensor_write O (fmt_int L) None t parts sched = Ok s /\
    tensor_open L O None pg fn (Some s) EDGE_LIST ch = Ok t' /\ tensor_holds t' order es.
Proof.
  intros L O k es t parts sched pg fn ch HL HO Ht Hk Hne HL0 Hm Hp Hpg HT.
  assert (HF : Forall (tlabels_ok L k) es).
  { destruct Ht as (_ & _ & H & _). rewrite Forall_forall in *. intros e He. split; auto. }
  destruct (C38_tensor_write_text L O k es t parts sched HL HO Ht Hk Hne (tlabels_printable L O k es HL HF Hm)) as (f & ps & _ & _ & E & Ep).
  { rewrite Hp. apply Permutation_refl. }
  rewrite (Ep Hp) in E. pose proof (fst_nonempty L k es Hk HF) as Hfn.
  exists (tensor_text dec None es). rewrite <- (tns_of_text None es Hfn) in E, Hpg |- *.
  destruct (C36_tensor_text L O k (tns_of None es) pg fn EDGE_LIST ch) as (t' & Er & R1 & R2 & R3 & _); auto.
  - apply (tns_of_wf L); auto. apply Forall_forall. intros e _. cbn [post_of]. split; [split; [constructor|exact I]|discriminate].
  - apply tns_of_plain; [|exact Hfn]. apply Forall_forall. intros e _. cbn [post_of]. apply plain_nil.
  - left. reflexivity.
  - apply tns_of_fits; auto.
  - exists t'. split; [exact E|]. split; [exact Er|].
    eapply same_tensor; [reflexivity|reflexivity|exact R1| |exact R3| |apply Ht].
    + rewrite R2. cbn [tns_of tn_lines]. rewrite map_length. reflexivity.
    + rewrite (tns_of_entries L k) by assumption. reflexivity.
Qed.
Print Assumptions C38_tensor_round_trip.

Lemma tround_weighted k (fm : fmt (wtype k)) (tw : wtype k -> list byte) (rw : wtype k -> wtype k) L O order (es : list (list Z * wtype k)) t parts sched bc pg fn ch :
  wf_kind k -> (forall e, In e es -> formats fm (snd e) (tw (snd e))) ->
  (forall e, In e es -> rest (ch_sp :: tw (snd e)) /\ wpost k (ch_sp :: tw (snd e)) (rw (snd e)) /\ plain_weight (ch_sp :: tw (snd e)) /\ holds_number (ch_sp :: tw (snd e))) ->
  is_ity L -> is_ity O -> tensor_holds t order es -> tensor_weights t es -> 1 <= order -> es <> [] ->
  Forall (fun e => Forall (fun x => 0 <= x <= imax L)%Z (fst e)) es -> (Z.of_nat (order * length es) <= imax O)%Z ->
  concat parts = seq 0 (length es) -> off_page pg (tensor_text dec (Some tw) es) -> 1 <= lc_T ch ->
  exists s t', tensor_write O (fmt_int L) (Some fm) t parts sched = Ok s /\ s = tensor_text dec (Some tw) es /\
    tensor_open L O (Some (mkWmode _ (wreader k) bc)) pg fn (Some s) EDGE_LIST ch = Ok t' /\
    tensor_holds t' order es /\ te_w t' = map (fun e => Some (rw (snd e))) es.
Proof.
  intros Hkd Hfm Hpost HL HO Ht Htw Hk Hne HL0 Hm Hp Hpg HT.
  assert (HF : Forall (tlabels_ok L order) es).
  { destruct Ht as (_ & _ & H & _). rewrite Forall_forall in *. intros e He. split; auto. }
  destruct (twrite_gen L O order (Some fm) tw es t parts sched HL HO Ht Hk Hne (tlabels_printable L O order es HL HF Hm) (fun _ => Htw)) as (f & ps & _ & _ & E & Ep).
  { intros f e Ef He. injection Ef as <-. apply Hfm; exact He. }
  { rewrite Hp. apply Permutation_refl. }
  rewrite (Ep Hp) in E. pose proof (fst_nonempty L order es Hk HF) as Hfn.
  exists (tensor_text dec (Some tw) es). rewrite <- (tns_of_text (Some tw) es Hfn) in E, Hpg |- *.
  assert (Epost : map t_post (tn_lines (tns_of (Some tw) es)) = map (fun e => ch_sp :: tw (snd e)) es).
  { cbn [tns_of tn_lines]. rewrite map_map. apply map_ext_in. intros e He. rewrite Forall_forall in Hfn. specialize (Hfn e He). unfold tline_of.
    destruct (fst e); [congruence|reflexivity]. }
  destruct (C36_tensor_weighted k L O order (tns_of (Some tw) es) (map (fun e => rw (snd e)) es) bc pg fn EDGE_LIST ch) as (t' & Er & R1 & R2 & R3 & R4); auto.
  - rewrite Epost. rewrite <- Forall_forall in Hpost. clear - Hpost. induction Hpost as [|e es He HF IH]; cbn [map]; constructor; [apply He|exact IH].
  - apply (tns_of_wf L); auto. apply Forall_forall. intros e He. cbn [post_of]. destruct (Hpost e He) as (P1 & _ & _ & P2). split; [exact P1|intros _; exact P2].
  - apply tns_of_plain; [|exact Hfn]. apply Forall_forall. intros e He. cbn [post_of]. apply Hpost; exact He.
  - left. reflexivity.
  - apply tns_of_fits; auto.
  - exists t'. split; [exact E|]. split; [reflexivity|]. split; [exact Er|]. split; [|rewrite R4, map_map; reflexivity].
    eapply same_tensor; [reflexivity|reflexivity|exact R1| |exact R3| |apply Ht].
    + rewrite R2. cbn [tns_of tn_lines]. rewrite map_length. reflexivity.
    + rewrite (tns_of_entries L order) by assumption. reflexivity.
Qed.

Theorem C38_tensor_round_trip_unsigned_weights : forall L O t0 order (es : list (list Z * Z)) t parts sched bc pg fn ch,
  is_ity L -> is_ity O -> is_ity t0 -> isigned t0 = false -> tensor_holds t order es -> tensor_weights t es -> 1 <= order -> es <> [] ->
  Forall (fun e => Forall (fun x => 0 <= x <= imax L)%Z (fst e)) es -> Forall (fun e => inrange t0 (snd e) = true) es ->
  (Z.of_nat (order * length es) <= imax O)%Z ->
  concat parts = seq 0 (length es) -> off_page pg (tensor_text dec (Some dec) es) -> 1 <= lc_T ch ->
  exists s t', tensor_write O (fmt_int L) (Some (fmt_int t0)) t parts sched = Ok s /\
    tensor_open L O (Some (mkWmode _ (wr_unsigned t0) bc)) pg fn (Some s) EDGE_LIST ch = Ok t' /\
    tensor_holds t' order es /\ tensor_weights t' es.
Proof.
  intros L O t0 k es t parts sched bc pg fn ch HL HO H0 Hs Ht Htw Hk Hne HL0 HW Hm Hp Hpg HT. rewrite Forall_forall in HW.
  destruct (tround_weighted (WUnsigned t0) (fmt_int t0) dec (fun w => w) L O k es t parts sched bc pg fn ch) as (s & t' & E1 & _ & E2 & E3 & E4); auto.
  - split; assumption.
  - intros e He. apply formats_int; [exact H0|apply HW; exact He|congruence].
  - intros e He. pose proof (int_post t0 (snd e) H0 (HW e He)) as P. rewrite Hs in P. destruct P as [P1 P2]; [discriminate|].
    destruct (int_plain (snd e)) as [P3 P4]. auto.
  - exists s, t'. auto.
Qed.
Print Assumptions C38_tensor_round_trip_unsigned_weights.

Theorem C38_tensor_round_trip_signed_weights : forall L O t0 order (es : list (list Z * Z)) t parts sched bc pg fn ch,
  is_ity L -> is_ity O -> is_ity t0 -> isigned t0 = true -> tensor_holds t order es -> tensor_weights t es -> 1 <= order -> es <> [] ->
  Forall (fun e => Forall (fun x => 0 <= x <= imax L)%Z (fst e)) es -> Forall (fun e => printable t0 (snd e)) es ->
  (Z.of_nat (order * length es) <= imax O)%Z ->
  concat parts = seq 0 (length es) -> off_page pg (tensor_text dec (Some dec) es) -> 1 <= lc_T ch ->
  exists s t', tensor_write O (fmt_int L) (Some (fmt_int t0)) t parts sched = Ok s /\
    tensor_open L O (Some (mkWmode _ (wr_signed t0) bc)) pg fn (Some s) EDGE_LIST ch = Ok t' /\
    tensor_holds t' order es /\ tensor_weights t' es.
Proof.
  intros L O t0 k es t parts sched bc pg fn ch HL HO H0 Hs Ht Htw Hk Hne HL0 HW Hm Hp Hpg HT. rewrite Forall_forall in HW.
  destruct (tround_weighted (WSigned t0) (fmt_int t0) dec (fun w => w) L O k es t parts sched bc pg fn ch) as (s & t' & E1 & _ & E2 & E3 & E4); auto.
  - split; assumption.
  - intros e He. apply formats_int; [exact H0|apply HW; exact He|apply HW; exact He].
  - intros e He. destruct (HW e He) as [W1 W2]. pose proof (int_post t0 (snd e) H0 W1 W2) as P. rewrite Hs in P. destruct P as [P1 P2].
    destruct (int_plain (snd e)) as [P3 P4]. auto.
  - exists s, t'. auto.
Qed.
Print Assumptions C38_tensor_round_trip_signed_weights.

(** Floating-point weights come back as the value of the written literal. *)
Theorem C38_tensor_round_trip_float_weights : forall F L O rts base lb nb order (es : list (list Z * fpT F)) t parts sched bc pg fn ch,
  is_ity L -> is_ity O -> tensor_holds t order es -> tensor_weights t es -> 1 <= order -> es <> [] ->
  Forall (fun e => Forall (fun x => 0 <= x <= imax L)%Z (fst e)) es ->
  Forall (fun e => wf_real (rts (snd e)) /\ length (stb_chars 0 0 (rts (snd e))) < 1024) es ->
  (Z.of_nat (order * length es) <= imax O)%Z ->
  concat parts = seq 0 (length es) -> off_page pg (tensor_text dec (Some (fun w => stb_chars 0 0 (rts w))) es) -> 1 <= lc_T ch ->
  exists s t', tensor_write O (fmt_int L) (Some (fmt_fp rts base lb nb)) t parts sched = Ok s /\
    tensor_open L O (Some (mkWmode _ (wr_float F) bc)) pg fn (Some s) EDGE_LIST ch = Ok t' /\
    tensor_holds t' order es /\ te_w t' = map (fun e => Some (fp_value F (real_lit (rts (snd e))))) es /\
    (forall e, In e es -> fplit_text (real_lit (rts (snd e))) = stb_chars 0 0 (rts (snd e)) /\ wf_fplit (real_lit (rts (snd e)))).
Proof.
  intros F L O rts base lb nb k es t parts sched bc pg fn ch HL HO Ht Htw Hk Hne HL0 HW Hm Hp Hpg HT. rewrite Forall_forall in HW.
  destruct (tround_weighted (WFloat F) (fmt_fp rts base lb nb) (fun w => stb_chars 0 0 (rts w)) (fun w => fp_value F (real_lit (rts w))) L O k es t parts sched bc pg fn ch) as (s & t' & E1 & _ & E2 & E3 & E4); auto.
  - exact I.
  - intros e He. apply formats_fp. apply HW; exact He.
  - intros e He. destruct (HW e He) as [W1 _]. destruct (fp_post F (rts (snd e)) W1) as (P1 & _ & _ & _ & P2). destruct (fp_plain (rts (snd e)) W1) as [P3 P4]. auto.
  - exists s, t'. split; [exact E1|]. split; [exact E2|]. split; [exact E3|]. split; [exact E4|].
    intros e He. destruct (fp_post F (rts (snd e))) as (_ & P1 & P2 & _); [apply HW; exact He|]. split; assumption.
Qed.
Print Assumptions C38_tensor_round_trip_float_weights.

(** ** C49: the largest label of each mode

    Zero if there is no entry (or, for signed labels, no positive label). *)
Theorem C49_max_labels : forall {W} O order (es : list (list Z * W)) t parts,
  is_ity O -> tensor_holds t order es -> (Z.of_nat (order * length es) <= imax O)%Z ->
  Permutation (concat parts) (seq 0 (length es)) ->
  exists ms, max_labels O t parts = Ok ms /\ length ms = order /\
    forall j, j < order -> nth j ms 0%Z = max_of (map (fun e => nth j (fst e) 0%Z) es).
Proof.
  intros W O k es t parts HO Ht Hm HP. destruct (max_labels_ok O HO t k es Ht Hm parts (bounds_perm es parts HP)) as (ms & E & El & En).
  exists ms. split; [exact E|]. split; [exact El|]. intros j _. rewrite En.
  assert (PM : forall l l', Permutation l l' -> forall a, fold_left Z.max l a = fold_left Z.max l' a).
  { clear. induction 1; intros a; cbn [fold_left]; [reflexivity|apply IHPermutation|f_equal; lia|rewrite IHPermutation1; apply IHPermutation2]. }
  rewrite (PM _ (map (fun e => nth j (fst e) 0%Z) es)).
  - assert (FM : forall l a, (0 <= a)%Z -> fold_left Z.max l a = Z.max a (max_of l)).
    { clear. induction l as [|x l IH]; intros a Ha; cbn [fold_left max_of fold_right]; [lia|]. rewrite IH by lia. fold (max_of l). lia. }
    rewrite FM by lia. assert (0 <= max_of (map (fun e => nth j (fst e) 0%Z) es))%Z; [|lia].
    generalize (map (fun e => nth j (fst e) 0%Z) es). clear. induction l as [|x l IH]; cbn [max_of fold_right]; [lia|]. fold (max_of l). lia.
  - apply Permutation_map. rewrite <- (pick_seq es) at 2. unfold pick. apply Permutation_flat_map. exact HP.
Qed.
Print Assumptions C49_max_labels.

(** ** A concrete case: three entries of order 3 with signed weights *)
Definition ex_tout : tensor Z := mkTensor (map Some [1; 2; 3; 40; 0; 6; 7; 8; 255]%Z) (map Some [-5; 0; 12]%Z) 3 3.
Definition ex_tout_es : list (list Z * Z) := [([1; 2; 3], -5); ([40; 0; 6], 0); ([7; 8; 255], 12)]%Z.

Example C38_applies :
  tensor_holds ex_tout 3 ex_tout_es /\ tensor_weights ex_tout ex_tout_es /\
  Forall (fun e => Forall (fun x => 0 <= x <= imax u8)%Z (fst e)) ex_tout_es /\ Forall (fun e => printable i8 (snd e)) ex_tout_es /\
  (Z.of_nat (3 * length ex_tout_es) <= imax u8)%Z /\ concat [[0]; [1; 2]] = seq 0 (length ex_tout_es) /\
  off_page 4096 (tensor_text dec (Some dec) ex_tout_es) /\
  tensor_text dec (Some dec) ex_tout_es = (chars "1 2 3 -5" ++ ch_nl :: chars "40 0 6 0" ++ ch_nl :: chars "7 8 255 12" ++ [ch_nl])%list /\
  tensor_write u8 (fmt_int u8) (Some (fmt_int i8)) ex_tout [[0]; [1; 2]] [1; 0; 1; 1; 0] = Ok (tensor_text dec (Some dec) ex_tout_es).
Proof.
  split; [split; [reflexivity|split; [reflexivity|split; [repeat constructor|reflexivity]]]|]. split; [reflexivity|].
  split; [unfold ex_tout_es; repeat (apply Forall_cons; [cbn [fst]; repeat (apply Forall_cons; [split; vm_compute; discriminate|]); apply Forall_nil|]); apply Forall_nil|].
  split; [unfold ex_tout_es; repeat (apply Forall_cons; [split; [vm_compute; reflexivity|intros _; vm_compute; discriminate]|]); apply Forall_nil|].
  split; [vm_compute; discriminate|]. split; [reflexivity|]. split; [split; [apply Nat.ltb_lt; reflexivity|vm_compute; discriminate]|].
  split; vm_compute; reflexivity.
Qed.

Example C49_applies : max_labels u8 ex_tout [[2]; []; [1; 0]] = Ok [40; 8; 255]%Z.
Proof. vm_compute. reflexivity. Qed.
