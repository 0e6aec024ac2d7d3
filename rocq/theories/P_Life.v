(** * Property C63: what a constructor leaves behind in memory *)

From Coq Require Import String.
From Verif Require Import Base Reader Sched SchedLemmas Spec SpecFp SpecGraph SpecMm ReaderLemmas Coo CooMain WeightLemmas ElSpec ElFinal Ascii Csr SpecCsr Codec Bin SpecBin BinLemmas BinSave BinLoad BinOpen Graph GraphSplit GraphLemmas GraphMain GraphFinal Load P_Bin P_BinEx P_Mm P_Graph P_GraphEx Own SpecOwn OwnLemmas Life SpecLife LifeLemmas LifeMain.
Notation length := List.length.
Open Scope list_scope.

(** The type a file is read as. *)
Definition read_as (pg : nat) (fn : list byte) (d : disk) (ft t : ftype) : Prop :=
  exists f, open_read pg fn 0 d = Ok f /\ used f ft = Ok t.

Lemma coo_open_follows {W} s ws L O (wm : option (wmode W)) fl pg fn d ft ch h :
  let ks := coo_kinds s ws (is_some wm) in
  follows (coo_open L O wm fl pg fn d ft ch) (coo_open_life s ws L O wm fl pg fn d ft ch h)
    (fun c h' b => exists k, h' = h ++ repeat Freed k ++ news ks (coo_lens (is_some wm) (co_m c)) /\
                    b = (c, hs (length h + k) ks))
    (fun e h' => (exists X, h' = h ++ X /\ small X /\ (s <> Ptr -> ws <> Ptr -> all_freed X)) \/
                 exists f ftu, open_read pg fn 0 d = Ok f /\ used f ft = Ok ftu /\ coo_left s ws L O wm fl f ftu ch e h h').
Proof.
  intros ks. unfold coo_open, coo_open_life.
  destruct (open_read pg fn 0 d) as [f|e| |]; cbn [bind pure follows]; auto.
  - pose proof (coo_follows s ws L O wm fl f ft ch h) as F. cbv zeta in F.
    destruct (coo_read L O wm fl f ft ch) as [[c f']|e| |]; cbn [bind follows] in F |- *; auto.
    + destruct F as (h' & b & -> & k & -> & ->). cbn [bind fst]. do 2 eexists. split; [reflexivity|]. exists k. auto.
    + destruct F as (h' & -> & F). cbn [bind]. eexists. split; [reflexivity|].
      destruct F as [F | (ftu & F1 & F2)]; [left; exact F|]. right. exists f, ftu. auto.
    + rewrite F. reflexivity.
    + rewrite F. reflexivity.
  - exists h. split; auto. left. exists []. rewrite app_nil_r. auto using small_nil, freed_nil.
Qed.

Lemma csr_open_follows {W} ls os ws L O (wm : option (wmode W)) pg fn d ft ch h :
  let ks := csr_kinds ls os ws (is_some wm) in
  follows (csr_open L O wm pg fn d ft ch) (csr_open_life ls os ws L O wm pg fn d ft ch h)
    (fun c h' b => exists X, small X /\ h' = h ++ X ++ news ks (csr_lens (is_some wm) (cs_m c) (length (cs_off c))) /\
                    b = (c, hs (length h + length X) ks))
    (fun e h' => (exists X, h' = h ++ X /\ small X) \/
       (exists f b, open_read pg fn 0 d = Ok f /\ used f ft = Ok GRAPH /\ wm = None /\
                 graph_body L O O (rf_mem f) (rf_fp f) (flen (rf_mem f)) (lc_graph ch) = Ok b /\
                 graph_check (W:=W) L O b = Throw e /\
                 h' = h ++ raw ks (csr_lens false (gb_m b) (length (g_off (gb_st b))))) \/
       (exists c, coo_open L O wm no_flags pg fn d ft ch = Ok c /\ convert_coo L O (is_some wm) c (lc_conv ch) = Throw e)).
Proof.
  intros ks. unfold csr_open, csr_open_life, coo_open.
  destruct (open_read pg fn 0 d) as [f|e| |]; cbn [bind pure follows]; auto.
  - pose proof (csr_follows ls os ws L O wm f ft ch h) as F. cbv zeta in F.
    destruct (csr_read L O wm f ft ch) as [[c f']|e| |]; cbn [bind follows] in F |- *; auto.
    + destruct F as (h' & b & -> & X & H1 & -> & ->). cbn [bind fst]. do 2 eexists. split; [reflexivity|]. exists X. auto.
    + destruct F as (h' & -> & F). cbn [bind]. eexists. split; [reflexivity|].
      destruct F as [F | [(b & F) | (c & f' & F1 & F2)]]; [left; exact F|right; left; exists f, b; auto|].
      right. right. exists c. rewrite F1. auto.
    + rewrite F. reflexivity.
    + rewrite F. reflexivity.
  - exists h. split; auto. left. exists []. rewrite app_nil_r. auto using small_nil.
Qed.

Lemma small_lost h X p n : small X -> lost h (h ++ X) [] p n -> n = 0.
Proof. intros HX H. apply lost_none in H. destruct H as (i & b & _ & Hb & Hs). eapply HX; [eapply nth_error_In; exact Hb|exact Hs]. Qed.
Lemma freed_lost h X p n : all_freed X -> ~ lost h (h ++ X) [] p n.
Proof. intros HX H. apply lost_none in H. destruct H as (i & b & _ & Hb & Hs). rewrite (HX b) in Hs; [discriminate|]. eapply nth_error_In; exact Hb. Qed.

(** ** Constructors that return *)

(** A COO read from any file, of any format, with any storage: the object holds
    its arrays, with room for [m()] elements each; no array that existed before
    is touched; nothing else that was allocated is still there. *)
Theorem C63_coo_built : forall {W} s ws L O (wm : option (wmode W)) fl pg fn d ft ch c,
  coo_open L O wm fl pg fn d ft ch = Ok c ->
  forall h, exists h' az, coo_open_life s ws L O wm fl pg fn d ft ch h = Ok (h', inr (c, az)) /\
    Forall2 (points_to h') az (Z.to_nat (co_m c) :: Z.to_nat (co_m c) :: (if is_some wm then [Z.to_nat (co_m c)] else [])) /\
    NoDup az /\ spares_old h h' /\ no_leak h h' az.
Proof.
  intros W s ws L O wm fl pg fn d ft ch c E h.
  pose proof (coo_open_follows s ws L O wm fl pg fn d ft ch h) as F. cbv zeta in F. rewrite E in F. cbn [follows] in F.
  destruct F as (h' & b & -> & k & -> & ->). do 2 eexists. split; [reflexivity|]. split; [|split; [|split]].
  - pose proof (points_news (coo_kinds s ws (is_some wm)) (coo_lens (is_some wm) (co_m c)) (h ++ repeat Freed k) [] (coo_lens_length _ _ _ _)) as P.
    rewrite app_nil_r, app_length, repeat_length, <- app_assoc in P. exact P.
  - unfold hs. apply FinFun.Injective_map_NoDup; [intros ? ? X; congruence|apply seq_NoDup].
  - apply spares_app.
  - intros p n H. pose proof (lost_mid h (repeat Freed k) (coo_kinds s ws (is_some wm)) (coo_lens (is_some wm) (co_m c)) p n (coo_lens_length _ _ _ _)) as Y.
    rewrite repeat_length in Y. destruct (Y H) as (i & b & _ & Hb & Hs). eapply freed_size; eauto.
Qed.
Print Assumptions C63_coo_built.

(** A CSR: the same, except that arrays without elements may be lost (those of
    the COO it is made from, when the file has no entries). *)
Theorem C63_csr_built : forall {W} ls os ws L O (wm : option (wmode W)) pg fn d ft ch c,
  csr_open L O wm pg fn d ft ch = Ok c ->
  forall h, exists h' az, csr_open_life ls os ws L O wm pg fn d ft ch h = Ok (h', inr (c, az)) /\
    Forall2 (points_to h') az (Z.to_nat (cs_m c) :: (if is_some wm then [Z.to_nat (cs_m c)] else []) ++ [length (cs_off c)]) /\
    NoDup az /\ spares_old h h' /\ no_real_leak h h' az.
Proof.
  intros W ls os ws L O wm pg fn d ft ch c E h.
  pose proof (csr_open_follows ls os ws L O wm pg fn d ft ch h) as F. cbv zeta in F. rewrite E in F. cbn [follows] in F.
  destruct F as (h' & b & -> & X & HX & -> & ->). do 2 eexists. split; [reflexivity|]. split; [|split; [|split]].
  - pose proof (points_news (csr_kinds ls os ws (is_some wm)) (csr_lens (is_some wm) (cs_m c) (length (cs_off c))) (h ++ X) [] (csr_lens_length _ _ _ _ _ _)) as P.
    rewrite app_nil_r, app_length, <- app_assoc in P. exact P.
  - unfold hs. apply FinFun.Injective_map_NoDup; [intros ? ? Y; congruence|apply seq_NoDup].
  - apply spares_app.
  - intros p n H. apply lost_mid in H; [|apply csr_lens_length]. destruct H as (i & b & _ & Hb & Hs).
    eapply HX; [eapply nth_error_In; exact Hb|exact Hs].
Qed.
Print Assumptions C63_csr_built.

(** ** Constructors that throw *)

(** Edge lists, Matrix Market files and binary COO files that the COO
    constructor refuses: nothing with elements is lost. *)
Theorem C63_coo_refused : forall {W} s ws L O (wm : option (wmode W)) fl pg fn d ft ch e,
  coo_open L O wm fl pg fn d ft ch = Throw e ->
  ~ read_as pg fn d ft GRAPH -> ~ read_as pg fn d ft PIGO_CSR_BIN ->
  forall h, exists h', coo_open_life s ws L O wm fl pg fn d ft ch h = Ok (h', inl e) /\
    spares_old h h' /\ no_real_leak h h' [].
Proof.
  intros W s ws L O wm fl pg fn d ft ch e E N1 N2 h.
  pose proof (coo_open_follows s ws L O wm fl pg fn d ft ch h) as F. cbv zeta in F. rewrite E in F. cbn [follows] in F.
  destruct F as (h' & -> & F). exists h'. split; [reflexivity|].
  destruct F as [(X & -> & HX & _) | (f & ftu & Ef & Eu & F)].
  - split; [apply spares_app|]. intros p n. now apply small_lost.
  - exfalso. destruct F as [(b & -> & _) | (c & f' & [-> | ->] & _)]; [apply N1|apply N1|apply N2]; exists f; auto.
Qed.
Print Assumptions C63_coo_refused.

(** With vectors or shared pointers nothing is lost, whatever the file. *)
Theorem C63_coo_refused_managed : forall {W} s ws L O (wm : option (wmode W)) fl pg fn d ft ch e,
  coo_open L O wm fl pg fn d ft ch = Throw e -> s <> Ptr -> ws <> Ptr ->
  forall h, exists h', coo_open_life s ws L O wm fl pg fn d ft ch h = Ok (h', inl e) /\
    spares_old h h' /\ no_leak h h' [].
Proof.
  intros W s ws L O wm fl pg fn d ft ch e E N1 N2 h.
  pose proof (coo_open_follows s ws L O wm fl pg fn d ft ch h) as F. cbv zeta in F. rewrite E in F. cbn [follows] in F.
  destruct F as (h' & -> & F). exists h'. split; [reflexivity|].
  assert (R : forall wgt ns, all_freed (raw (csr_kinds s s ws wgt) ns)).
  { intros wgt ns b Hb. unfold raw in Hb. apply in_map_iff in Hb. destruct Hb as ([k n] & <- & Hk). cbn [fst snd].
    apply in_combine_l in Hk. unfold csr_kinds, wkind in Hk. destruct wgt; cbn in Hk; destruct k; auto; intuition congruence. }
  assert (exists X, h' = h ++ X /\ all_freed X) as (X & -> & HX).
  { destruct F as [(X & -> & _ & HX) | (f & ftu & _ & _ & F)]; [exists X; auto|].
    destruct F as [(b & _ & _ & _ & _ & ->) | (c & f' & _ & _ & _ & ->)]; eexists; (split; [reflexivity|apply R]). }
  split; [apply spares_app|]. intros p n. now apply freed_lost.
Qed.
Print Assumptions C63_coo_refused_managed.

(** A CSR read from an edge list, a Matrix Market file or a binary COO file that
    the COO constructor refuses throws the same exception and loses nothing with
    elements. *)
Theorem C63_csr_refused : forall {W} ls os ws L O (wm : option (wmode W)) pg fn d ft ch e t,
  coo_open L O wm no_flags pg fn d ft ch = Throw e ->
  read_as pg fn d ft t -> t = MATRIX_MARKET \/ t = EDGE_LIST \/ t = PIGO_COO_BIN ->
  forall h, exists h', csr_open_life ls os ws L O wm pg fn d ft ch h = Ok (h', inl e) /\
    spares_old h h' /\ no_real_leak h h' [].
Proof.
  intros W ls os ws L O wm pg fn d ft ch e t E (f & Ef & Eu) Ht h.
  assert (EC : csr_open L O wm pg fn d ft ch = Throw e).
  { revert E. unfold csr_open, coo_open. rewrite Ef. cbn [bind]. unfold csr_read, coo_read at 1. rewrite Eu. cbn [bind].
    assert (Hu : used f t = Ok t) by (destruct Ht as [-> | [-> | ->]]; reflexivity).
    intros E.
    assert (coo_read L O wm no_flags f t ch = Throw e).
    { revert E. unfold coo_read. rewrite Hu. cbn [bind].
      match goal with |- bind ?r _ = _ -> ?r' = _ => change r' with r; destruct r as [[? ?]| | |]; cbn [bind]; congruence end. }
    destruct Ht as [-> | [-> | ->]]; rewrite H; reflexivity. }
  pose proof (csr_open_follows ls os ws L O wm pg fn d ft ch h) as F. cbv zeta in F. rewrite EC in F. cbn [follows] in F.
  destruct F as (h' & -> & F). exists h'. split; [reflexivity|].
  destruct F as [(X & -> & HX) | [(f0 & b & Ef0 & Eu0 & _) | (c & Ec & _)]].
  - split; [apply spares_app|]. intros p n. now apply small_lost.
  - exfalso. rewrite Ef in Ef0. assert (f = f0) as <- by congruence. rewrite Eu in Eu0.
    destruct Ht as [-> | [-> | ->]]; discriminate.
  - congruence.
Qed.
Print Assumptions C63_csr_refused.

(** ** What is lost *)
Definition if_raw (k : kind) (n : nat) : list nat := match k with Ptr => [n] | _ => [] end.

Lemma leaks_raw ks : forall ns h, length ns = length ks ->
  exists ps, NoDup ps /\ Forall2 (lost h (h ++ raw ks ns) []) ps (concat (map (fun kn => if_raw (fst kn) (snd kn)) (combine ks ns))) /\
    (forall p n, lost h (h ++ raw ks ns) [] p n -> In p ps).
Proof.
  induction ks as [|k ks IH]; intros [|n ns] h H; cbn in H; try lia.
  - exists []. cbn. split; [constructor|]. split; [constructor|]. intros p n (H1 & H2 & _).
    rewrite app_nil_r in H2. unfold elements in H2. rewrite (proj2 (nth_error_None _ _)) in H2 by lia. discriminate.
  - set (b := match k with Ptr => Live 1 (repeat None n) | _ => Freed end).
    destruct (IH ns (h ++ [b]) ltac:(lia)) as (ps & H1 & H2 & H3).
    assert (E : h ++ raw (k :: ks) (n :: ns) = (h ++ [b]) ++ raw ks ns)
      by (cbn; rewrite <- app_assoc; reflexivity).
    rewrite E. set (h2 := (h ++ [b]) ++ raw ks ns) in *.
    assert (LB : length (h ++ [b]) = S (length h)) by (rewrite app_length; cbn; lia).
    assert (Up : forall p m, lost (h ++ [b]) h2 [] p m -> lost h h2 [] p m).
    { intros p m (A1 & A2 & A3). rewrite LB in A1. split; [lia|auto]. }
    assert (Hb : elements h2 (length h) = bsize b).
    { unfold h2. rewrite <- app_assoc. cbn [app]. apply elements_mid. }
    assert (Dn : forall p m, lost h h2 [] p m -> p = length h \/ lost (h ++ [b]) h2 [] p m).
    { intros p m (A1 & A2 & A3). destruct (Nat.eq_dec p (length h)); [auto|]. right. split; [lia|auto]. }
    assert (F2 : Forall2 (lost h h2 []) ps (concat (map (fun kn => if_raw (fst kn) (snd kn)) (combine ks ns)))).
    { clear - H2 Up. induction H2; constructor; auto. }
    destruct k; cbn [combine map concat fst snd if_raw app].
    + exists (length h :: ps). split; [|split].
      * constructor; auto. intros HI. clear - HI H2 LB.
        induction H2; cbn in HI; [tauto|]. destruct HI as [HI | HI]; auto. destruct H as (A & _). lia.
      * constructor; auto. split; [lia|]. split; [|cbn; tauto]. etransitivity; [exact Hb|]. cbn. now rewrite repeat_length.
      * intros p m HL. apply Dn in HL. destruct HL as [-> | HL]; [left; auto|right; eauto].
    + exists ps. split; auto. split; auto. intros p m HL. pose proof HL as (_ & A & _). apply Dn in HL.
      destruct HL as [-> | HL]; [|eauto]. pose proof (eq_trans (eq_sym Hb) A). discriminate.
    + exists ps. split; auto. split; auto. intros p m HL. pose proof HL as (_ & A & _). apply Dn in HL.
      destruct HL as [-> | HL]; [|eauto]. pose proof (eq_trans (eq_sym Hb) A). discriminate.
Qed.

Lemma leaks_csr h ls os ws n k : leaks h (h ++ raw (csr_kinds ls os ws false) (csr_lens false (Z.of_nat n) k)) [] (if_raw ls n ++ if_raw os k).
Proof.
  destruct (leaks_raw (csr_kinds ls os ws false) (csr_lens false (Z.of_nat n) k) h (csr_lens_length _ _ _ _ _ _)) as (ps & H1 & H2 & H3).
  exists ps. split; [exact H1|]. split; [|exact H3]. cbn in H2 |- *. rewrite app_nil_r, Nat2Z.id in H2. rewrite Nat2Z.id. exact H2.
Qed.

Lemma graph_body_rows L O OS f pg rows ch : is_ity L -> is_ity O -> is_ity OS -> wf_adj f -> off_page pg (adj_text f) -> graph_fits L O f ->
  (Z.of_nat (length (concat rows)) <= imax OS)%Z -> 0 < gc_T ch -> graph_rows f rows ->
  exists b, graph_body L O OS (mkMem (adj_text f) pg) 0 (flen (mkMem (adj_text f) pg)) ch = Ok b /\
    gb_m b = Z.of_nat (length (concat rows)) /\ length (g_off (gb_st b)) = S (length rows).
Proof.
  intros HL HO HOS Hf Hpg (F1 & F2 & F3 & F4 & F5) F6 HT Hr.
  assert (Em : (0 <= dval (a_m f))%Z) by (apply dval_nonneg; apply Hf).
  set (zb := has_z (rtoks (a_body f))).
  assert (Erows : rows = (if zb then [] else [[]]) ++ adj_rows (a_body f)).
  { pose proof (has_z_zero (a_body f)) as Z. fold zb in Z. destruct Hr as [[H1 ->]|[H1 ->]].
    - apply Z in H1. rewrite H1. reflexivity.
    - destruct zb; [elim H1; apply Z; reflexivity|reflexivity]. }
  assert (Ec : concat rows = concat (adj_rows (a_body f))) by (rewrite Erows; destruct zb; reflexivity).
  assert (El : length rows = (if zb then 0 else 1) + length (adj_rows (a_body f))) by (rewrite Erows; destruct zb; reflexivity).
  assert (R : room L (Z.of_nat ((if zb then 0 else 1) + length (adj_rows (a_body f))))).
  { destruct zb; [|exact F3]. destruct F3 as [G1 G2]. split; [lia|]. destruct G2 as [?|?]; [left; assumption|right; lia]. }
  assert (F2' : (dval (a_m f) <= imax O)%Z) by lia.
  rewrite Ec in F6.
  pose proof (graph_body_ok f Hf (mkMem (adj_text f) pg) eq_refl (slack_off_page _ _ Hpg) L O OS HL HO HOS F1 F2' R F4 F6 F5 ch HT) as G.
  eexists. split; [exact G|].
  cbn [gb_m gb_st g_off]. split; [now rewrite Ec|]. unfold graph_off. fold zb.
  rewrite map_length, app_length, repeat_length, map_length, seq_length. lia.
Qed.

Lemma graph_file f pg fn ft : wf_adj f -> as_graph ft fn (adj_text f) ->
  open_read pg fn 0 (Some (adj_text f)) = Ok (reading (adj_text f) pg fn []) /\
  used (reading (adj_text f) pg fn []) ft = Ok GRAPH.
Proof.
  intros Hf Hg. pose proof (adj_text_ne f Hf) as Hne. split; [now apply open_reading|].
  apply graph_detect; auto.
Qed.

(** An adjacency file whose header does not agree with its body: the CSR
    constructor throws, and the arrays it has filled, if they are on raw
    pointers, are lost: all endpoints and all offsets, nothing else. *)
Theorem C63_graph_mismatch : forall ls os ws L O f pg fn ft ch rows,
  is_ity L -> is_ity O -> wf_adj f -> off_page pg (adj_text f) -> as_graph ft fn (adj_text f) -> graph_fits L O f ->
  0 < gc_T (lc_graph ch) -> graph_rows f rows -> ~ header_ok f (length rows) ->
  forall h, exists h', csr_open_life (W:=unit) ls os ws L O None pg fn (Some (adj_text f)) ft ch h = Ok (h', inl EError) /\
    spares_old h h' /\ leaks h h' [] (if_raw ls (length (concat rows)) ++ if_raw os (S (length rows))).
Proof.
  intros ls os ws L O f pg fn ft ch rows HL HO Hf Hpg Hg Hfit HT Hr Hno h.
  assert (Ec : concat rows = concat (adj_rows (a_body f))) by (destruct Hr as [[_ ->]|[_ ->]]; reflexivity).
  assert (F6 : (Z.of_nat (length (concat rows)) <= imax O)%Z) by (rewrite Ec; apply Hfit).
  destruct (graph_body_rows L O O f pg rows (lc_graph ch) HL HO HO Hf Hpg Hfit F6 HT Hr) as (b & Eb & E1 & E2).
  destruct (graph_file f pg fn ft Hf Hg) as [Eo Eu].
  destruct (graph_read L O O f pg rows (lc_graph ch)) as [_ HB]; try assumption. specialize (HB Hno). cbv zeta in HB.
  rewrite read_graph_split, Eb in HB. cbn [bind] in HB.
  unfold csr_open_life. rewrite Eo. cbn [pure]. unfold csr_life. rewrite Eu. cbn [pure].
  unfold csr_direct_life. cbn [is_some reading rf_mem rf_fp List.length]. rewrite Eb. cbn [pure]. unfold build.
  rewrite alloc_new_ok by apply csr_lens_length. cbn [bind]. rewrite HB.
  pose proof (drop_all_at (csr_kinds ls os ws false) (news (csr_kinds ls os ws false) (csr_lens false (gb_m b) (length (g_off (gb_st b))))) h []) as X.
  rewrite app_nil_r in X. rewrite X; [|apply news_length, csr_lens_length|apply news_one2, csr_lens_length].
  cbn [bind]. rewrite app_nil_r, drop_news by apply csr_lens_length. rewrite E1, E2.
  eexists. split; [reflexivity|]. split; [apply spares_app|apply leaks_csr].
Qed.
Print Assumptions C63_graph_mismatch.

(** The same through the COO constructor, which reads a CSR first. *)
Theorem C63_graph_mismatch_coo : forall s ws fl L O f pg fn ft ch rows,
  is_ity L -> is_ity O -> wf_adj f -> off_page pg (adj_text f) -> as_graph ft fn (adj_text f) -> graph_fits L O f ->
  (Z.of_nat (length (concat rows)) <= imax L)%Z ->
  0 < gc_T (lc_graph ch) -> graph_rows f rows -> ~ header_ok f (length rows) ->
  forall h, exists h', coo_open_life (W:=unit) s ws L O None fl pg fn (Some (adj_text f)) ft ch h = Ok (h', inl EError) /\
    spares_old h h' /\ leaks h h' [] (if_raw s (length (concat rows)) ++ if_raw s (S (length rows))).
Proof.
  intros s ws fl L O f pg fn ft ch rows HL HO Hf Hpg Hg Hfit HML HT Hr Hno h.
  destruct (graph_body_rows L O L f pg rows (lc_graph ch) HL HO HL Hf Hpg Hfit HML HT Hr) as (b & Eb & E1 & E2).
  destruct (graph_file f pg fn ft Hf Hg) as [Eo Eu].
  destruct (graph_read L O L f pg rows (lc_graph ch)) as [_ HB]; try assumption. specialize (HB Hno). cbv zeta in HB.
  rewrite read_graph_split, Eb in HB. cbn [bind] in HB.
  unfold coo_open_life. rewrite Eo. cbn [pure]. unfold coo_life. rewrite Eu. cbn [pure].
  unfold csr_direct_life. cbn [is_some reading rf_mem rf_fp List.length]. rewrite Eb. cbn [pure]. unfold build.
  rewrite alloc_new_ok by apply csr_lens_length. cbn [bind]. rewrite HB.
  pose proof (drop_all_at (csr_kinds s s ws false) (news (csr_kinds s s ws false) (csr_lens false (gb_m b) (length (g_off (gb_st b))))) h []) as X.
  rewrite app_nil_r in X. rewrite X; [|apply news_length, csr_lens_length|apply news_one2, csr_lens_length].
  cbn [bind]. rewrite app_nil_r, drop_news by apply csr_lens_length. rewrite E1, E2.
  eexists. split; [reflexivity|]. split; [apply spares_app|apply leaks_csr].
Qed.
Print Assumptions C63_graph_mismatch_coo.

(** A good adjacency file read into a COO type that drops self-loops, or that
    keeps one triangle: the constructor refuses, but only after the whole CSR
    has been read, which is lost if it is on raw pointers. *)
Theorem C63_flags_from_graph : forall s ws fl L O f pg fn ft ch rows,
  is_ity L -> is_ity O -> wf_adj f -> off_page pg (adj_text f) -> as_graph ft fn (adj_text f) -> graph_fits L O f ->
  (Z.of_nat (length (concat rows)) <= imax L)%Z ->
  0 < gc_T (lc_graph ch) -> graph_rows f rows -> header_ok f (length rows) ->
  f_sym fl = false -> f_sl fl = true \/ f_ut fl = true ->
  forall h, exists h', coo_open_life (W:=unit) s ws L O None fl pg fn (Some (adj_text f)) ft ch h = Ok (h', inl ENotYetImplemented) /\
    spares_old h h' /\ leaks h h' [] (if_raw s (length (concat rows)) ++ if_raw s (S (length rows))).
Proof.
  intros s ws fl L O f pg fn ft ch rows HL HO Hf Hpg Hg Hfit HML HT Hr Hok Hsym Hfl h.
  destruct (graph_file f pg fn ft Hf Hg) as [Eo Eu].
  destruct (graph_read L O L f pg rows (lc_graph ch)) as [HB _]; try assumption. specialize (HB Hok).
  destruct HB as (c & E & (Em & Eoff & _) & _). cbv zeta in E.
  assert (D : csr_direct (W:=unit) L O L None (reading (adj_text f) pg fn []) GRAPH ch = Ok (c, reading (adj_text f) pg fn [])).
  { cbn [csr_direct is_some]. unfold with_reader. cbn [reading rf_mem rf_fp List.length]. rewrite E. reflexivity. }
  pose proof (csr_direct_follows (W:=unit) s s ws L O L None (reading (adj_text f) pg fn []) GRAPH ch h) as F. cbv zeta in F.
  rewrite D in F. cbn [follows] in F. destruct F as (h1 & b & F & -> & ->).
  unfold coo_open_life. rewrite Eo. cbn [pure]. unfold coo_life. rewrite Eu. cbn [pure]. rewrite F. cbn [bind fst].
  assert (Ev : convert_csr O fl (is_some (None : option (wmode unit))) c (lc_parts ch) (lc_back ch) = Throw ENotYetImplemented).
  { unfold convert_csr. rewrite Hsym. cbn [andb negb]. destruct (f_ut fl); [reflexivity|].
    cbn [bind]. destruct Hfl as [-> | Hfl]; [reflexivity|discriminate]. }
  rewrite Ev.
  pose proof (drop_all_at (csr_kinds s s ws false) (news (csr_kinds s s ws false) (csr_lens false (cs_m c) (length (cs_off c)))) h []) as X.
  rewrite app_nil_r in X. cbn [is_some] in *. rewrite X; [|apply news_length, csr_lens_length|apply news_one2, csr_lens_length].
  cbn [bind]. rewrite app_nil_r, drop_news by apply csr_lens_length.
  assert (Lo : length (cs_off c) = S (length rows)) by (rewrite Eoff, map_length, seq_length; reflexivity).
  rewrite Em, Lo. eexists. split; [reflexivity|]. split; [apply spares_app|apply leaks_csr].
Qed.
Print Assumptions C63_flags_from_graph.

(** A binary DiGraph whose second graph cannot be read: the first one, already a
    member of the object that is thrown away, is lost with raw pointers. *)
Theorem C63_digraph_second : forall {W} L O (wm : option (wmode W)) f f1 f2 i ch1 ch2 e,
  rd_str digraph_magic f = Ok f1 ->
  csr_read L O wm f1 AUTO ch1 = Ok (i, f2) -> csr_read L O wm f2 AUTO ch2 = Throw e ->
  forall h, exists h', digraph_bin_life Ptr Ptr Ptr L O wm f ch1 ch2 h = Ok (h', inl e) /\
    exists pe po, lost h h' [] pe (Z.to_nat (cs_m i)) /\ lost h h' [] po (length (cs_off i)) /\ pe <> po.
Proof.
  intros W L O wm f f1 f2 i ch1 ch2 e E1 E2 E3 h. unfold digraph_bin_life. rewrite E1. cbn [pure].
  set (ks := csr_kinds Ptr Ptr Ptr (is_some wm)).
  pose proof (csr_follows Ptr Ptr Ptr L O wm f1 AUTO ch1 h) as F. cbv zeta in F. rewrite E2 in F. cbn [follows] in F.
  destruct F as (h1 & b & F & X & _ & Eh1 & ->). rewrite F. cbn [bind fst].
  assert (G : exists h2, csr_life Ptr Ptr Ptr L O wm f2 AUTO ch2 h1 = Ok (h2, inl e) /\ exists Y, h2 = h1 ++ Y).
  { pose proof (csr_follows Ptr Ptr Ptr L O wm f2 AUTO ch2 h1) as G. cbv zeta in G. rewrite E3 in G. cbn [follows] in G.
    destruct G as (h2 & G & D). exists h2. split; [exact G|].
    destruct D as [(Y & -> & _) | [(b & _ & _ & _ & _ & ->) | (c & f' & Ec & Ev)]]; eauto.
    (* the conversion throws *)
    pose proof (coo_follows Ptr Ptr L O wm no_flags f2 AUTO ch2 h1) as C. cbv zeta in C. rewrite Ec in C. cbn [follows] in C.
    destruct C as (h3 & b & C & k & -> & ->).
    revert G. unfold csr_life. destruct (used f2 AUTO) as [ftu| | |] eqn:Eu; cbn [pure]; try discriminate.
    2:{ intros G. assert (h1 = h2) as <- by congruence. exists []. now rewrite app_nil_r. }
    assert (Hu : used f2 ftu = Ok ftu \/ ftu = AUTO) by (destruct ftu; auto).
    assert (C' : ftu <> AUTO -> coo_life Ptr Ptr L O wm no_flags f2 ftu ch2 h1 = coo_life Ptr Ptr L O wm no_flags f2 AUTO ch2 h1).
    { intros NA. destruct Hu as [Hu | ->]; [|congruence]. unfold coo_life. rewrite Eu, Hu. reflexivity. }
    assert (D : forall ft', csr_direct_life Ptr Ptr Ptr L O O wm f2 ft' ch2 h1 = Ok (h2, inl e) -> exists Y, h2 = h1 ++ Y).
    { intros ft' G'. pose proof (csr_direct_follows Ptr Ptr Ptr L O O wm f2 ft' ch2 h1) as D. cbv zeta in D.
      destruct (csr_direct L O O wm f2 ft' ch2) as [cf|e'| |]; cbn [follows] in D; try congruence.
      - destruct D as (h4 & b & D & _). congruence.
      - destruct D as (h4 & D & D'). assert (h2 = h4) as -> by congruence.
        destruct D' as [-> | (b & _ & _ & _ & _ & ->)]; [exists []; now rewrite app_nil_r|eauto]. }
    destruct ftu; try (intros G; eapply D; exact G);
    (rewrite C' by discriminate; rewrite C; cbn [bind fst]; rewrite Ev;
     pose proof (drop_all_at (coo_kinds Ptr Ptr (is_some wm)) (news (coo_kinds Ptr Ptr (is_some wm)) (coo_lens (is_some wm) (co_m c))) (h1 ++ repeat Freed k) []) as X0;
     rewrite app_nil_r, app_length, repeat_length, <- app_assoc in X0;
     cbn [fst]; rewrite X0; [|apply news_length, coo_lens_length|apply news_one2, coo_lens_length];
     cbn [bind]; rewrite app_nil_r, <- app_assoc; intros G; injection G as <-; eexists; reflexivity). }
  destruct G as (h2 & G & Y & Eh2). rewrite G. cbn [bind].
  set (ns := csr_lens (is_some wm) (cs_m i) (length (cs_off i))).
  assert (Ln : length ns = length ks) by apply csr_lens_length.
  assert (E4 : h2 = (h ++ X) ++ news ks ns ++ Y) by (rewrite Eh2, Eh1, <- !app_assoc; reflexivity).
  pose proof (drop_all_at ks (news ks ns) (h ++ X) Y (news_length _ _ Ln) (news_one2 _ _ Ln)) as P.
  rewrite app_length in P. rewrite E4. fold ks. rewrite P. cbn [bind].
  rewrite drop_news by exact Ln.
  eexists. split; [reflexivity|].
  assert (R : forall j n, nth_error ns j = Some n -> lost h ((h ++ X) ++ raw ks ns ++ Y) [] (length h + length X + j) n).
  { intros j n Hj. split; [lia|]. split; [|cbn; tauto]. unfold elements.
    assert (J : j < length ns) by (apply nth_error_Some; congruence).
    rewrite nth_error_app2 by (rewrite app_length; lia). rewrite app_length.
    replace (length h + length X + j - (length h + length X)) with j by lia.
    rewrite nth_error_app1 by (unfold raw; rewrite map_length, combine_length; lia).
    unfold ns, ks, raw, csr_lens, csr_kinds, wkind in *. revert Hj. destruct (is_some wm); cbn [app combine map fst snd length];
      (destruct j as [|[|[|[|j]]]]; cbn [nth_error]; intros Hj; try discriminate; injection Hj as <-; rewrite repeat_length; reflexivity). }
  exists (length h + length X + 0), (length h + length X + (if is_some wm then 2 else 1)).
  split; [apply R; reflexivity|]. split; [apply R; unfold ns, csr_lens; destruct (is_some wm); reflexivity|].
  destruct (is_some wm); lia.
Qed.
Print Assumptions C63_digraph_second.

(** ** Concrete cases *)

(** [ex_g0] with 4 announced entries instead of 3. *)
Definition ex_bad : adj_file := mkAdj (chars ("% a graph" ++ nl)) (chars "4") (chars " ") (chars "4") (chars " x") (chars ("# rows" ++ nl)) (a_body ex_g0).

Example C63_graph_applies :
  wf_adj ex_bad /\ off_page 4096 (adj_text ex_bad) /\ as_graph AUTO (chars "a.graph") (adj_text ex_bad) /\ graph_fits u32 u64 ex_bad /\
  graph_rows ex_bad [[1; 3]; [0; 2]; [1]; [0]]%Z /\ ~ header_ok ex_bad 4 /\
  csr_open_life (W:=unit) Ptr Ptr Ptr u32 u64 None 4096 (chars "a.graph") (Some (adj_text ex_bad)) AUTO (ex_gch 2) [Freed] =
    Ok ([Freed; Live 1 (repeat None 6); Live 1 (repeat None 5)], inl EError) /\
  csr_open_life (W:=unit) Vec Ptr Ptr u32 u64 None 4096 (chars "a.graph") (Some (adj_text ex_bad)) AUTO (ex_gch 2) [] =
    Ok ([Freed; Live 1 (repeat None 5)], inl EError) /\
  coo_open_life (W:=unit) Ptr Ptr u32 u64 None (mkFlags false false true) 4096 (chars "a.graph") (Some (adj_text ex_g0)) AUTO (ex_gch 2) [] =
    Ok ([Live 1 (repeat None 6); Live 1 (repeat None 5)], inl ENotYetImplemented) /\
  header_ok ex_g0 4.
Proof.
  split.
  { unfold wf_adj. split; [apply (gap_cmt false 37%Z (chars " a graph") []); [reflexivity|repeat constructor|constructor]|].
    split; [split; [discriminate|repeat constructor]|]. split; [discriminate|]. split; [wf|]. split; [split; [discriminate|repeat constructor]|].
    split; [split; [repeat constructor|reflexivity]|]. split; [apply (gap_cmt false 35%Z (chars " rows") []); [reflexivity|repeat constructor|constructor]|].
    split; [repeat constructor|]. split; [eexists; eexists; split; reflexivity|]. exists (chars ("1 3" ++ nl ++ "0  2 " ++ nl ++ "1" ++ nl ++ "0")). reflexivity. }
  split; [split; [lia|discriminate]|].
  split; [right; split; [reflexivity|]; split; [intros (b & r & E); discriminate|exists (chars "a"); reflexivity]|].
  split; [fits|].
  split.
  { left. split; [|reflexivity]. unfold has_zero. match goal with |- In _ ?l => let l' := eval vm_compute in l in change l with l' end. simpl; auto 10. }
  split; [intros [[H|H] _]; vm_compute in H; discriminate|].
  split; [vm_compute; reflexivity|]. split; [vm_compute; reflexivity|]. split; [vm_compute; reflexivity|].
  split; [right; reflexivity|vm_compute; discriminate].
Qed.

(** The Matrix Market file of C33, read into a type that drops self-loops, is
    refused; a file that is read; both give everything else back. *)
Example C63_coo_applies :
  coo_open (W := unit) u8 u16 None (mkFlags false false true) 64 (chars "a.mtx") (Some (mm_text ex_mm)) AUTO ex_mm_teams = Throw EError /\
  ~ read_as 64 (chars "a.mtx") (Some (mm_text ex_mm)) AUTO GRAPH /\ ~ read_as 64 (chars "a.mtx") (Some (mm_text ex_mm)) AUTO PIGO_CSR_BIN /\
  coo_open_life (W := unit) Ptr Ptr u8 u16 None (mkFlags false false true) 64 (chars "a.mtx") (Some (mm_text ex_mm)) AUTO ex_mm_teams [] =
    Ok ([Freed; Freed], inl EError) /\
  (exists h az c, csr_open_life (W := unit) Ptr Ptr Ptr u8 u16 None 64 (chars "a.mtx") (Some (mm_text ex_mm)) AUTO ex_mm_teams [] = Ok (h, inr (c, az)) /\
    az = [Some 2; Some 3] /\ firstn 2 h = [Freed; Freed] /\ length h = 4).
Proof.
  split; [vm_compute; reflexivity|].
  split; [intros (f & E & H); vm_compute in E; injection E as <-; vm_compute in H; discriminate|].
  split; [intros (f & E & H); vm_compute in E; injection E as <-; vm_compute in H; discriminate|].
  split; [vm_compute; reflexivity|].
  do 3 eexists. split; [vm_compute; reflexivity|]. repeat split.
Qed.

(** A DiGraph file whose second graph has 2-byte labels. *)
Definition ex_digraph : list byte :=
  chars "PIGO-DiGraph-v1" ++ [80; 73; 71; 79; 45; 67; 83; 82; 45; 118; 50; 1; 1; 3; 3; 3; 3; 0; 2; 2; 3; 2; 0; 1; 251; 255; 44; 1; 0; 0]%Z ++
  [80; 73; 71; 79; 45; 67; 83; 82; 45; 118; 50; 2; 1; 3; 3; 3; 3; 0; 2; 2; 3; 2; 0; 1; 251; 255; 44; 1; 0; 0]%Z.
Example C63_digraph_applies : exists f f1 f2,
  open_read 64 [] 0 (Some ex_digraph) = Ok f /\ guess f = Ok PIGO_DIGRAPH_BIN /\ rd_str digraph_magic f = Ok f1 /\
  csr_read u8 u8 ex_wm f1 AUTO ex_teams = Ok (ex_csr_, f2) /\ csr_read u8 u8 ex_wm f2 AUTO ex_teams = Throw EError /\
  digraph_bin_life Ptr Ptr Ptr u8 u8 ex_wm f ex_teams ex_teams [] =
    Ok ([Live 1 (repeat None 3); Live 1 (repeat None 3); Live 1 (repeat None 4)], inl EError).
Proof. do 3 eexists. repeat (split; [vm_compute; reflexivity|]). vm_compute. reflexivity. Qed.
