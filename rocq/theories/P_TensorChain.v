(** * Property C69: chains of conversions, tensors

    A text tensor is loaded, stored in a binary file, loaded again, written as
    text and loaded again, in terms of the lines of the first file. *)

From Coq Require Import String Permutation.
From Verif Require Import Base Reader ReaderLemmas Sched SchedLemmas Spec SpecDec SpecFp SpecText SpecTensor SpecTensorOut Coo Ascii CooLemmas WeightLemmas ElSpec ElFinal ElThms ElExamples
  AsciiLemmas StbLemmas WriteLemmas TextRound Codec Bin SpecBin BinLemmas BinSave BinLoad Graph Load BinOpen Tensor TensorMain TensorOut WriteGen TensorOutLemmas TensorRound P_Text P_Bin P_Tensor P_TensorEx P_TensorOut P_CrashText P_Chain P_BinEx CrashLemmas.
Open Scope list_scope.
Notation length := List.length.

(** ** Specification

    As [mode] in P_Chain.v: [reads f ws] says that the weights of the data lines
    of [f] are [ws]. *)
Inductive tmode : forall W : Type, option (wmode W) -> (tns_file -> list W -> Prop) -> option (fmt W) -> option (W -> list byte) ->
    (W -> Prop) -> (W -> W) -> Prop :=
| tmode_plain : tmode unit None (fun f ws => ws = repeat tt (length (tn_lines f))) None None (fun _ => True) (fun w => w)
| tmode_weighted k fm tw ok rd extra bc : weight_writer k fm tw ok rd extra ->
    tmode (wtype k) (Some (mkWmode _ (wreader k) bc)) (fun f ws => Forall2 (wpost k) (map t_post (tn_lines f)) ws) (Some fm) (Some tw) ok rd.

(** The entries of a file: the labels of each data line and its weight. *)
Definition tns_entries {W} (f : tns_file) (ws : list W) : list (list Z * W) := combine (map t_labels (tn_lines f)) ws.

(** ** Lemmas *)
Lemma tmode_len W wm reads fm tw ok rd f ws : tmode W wm reads fm tw ok rd -> reads f ws -> length ws = length (tn_lines f).
Proof.
  destruct 1 as [|k fm tw ok rd ex bc Hww]; intros H; [subst ws; apply repeat_length|]. apply CrashLemmas.Forall2_len in H. rewrite map_length in H. symmetry. exact H.
Qed.

Lemma fst_combine {A B} (l : list A) (l' : list B) : length l' = length l -> map fst (combine l l') = l.
Proof. revert l'. induction l as [|a l IH]; intros [|b l'] H; try discriminate; [reflexivity|]. cbn. f_equal. apply IH. cbn in H. congruence. Qed.
Lemma snd_combine {A B} (l : list A) (l' : list B) : length l' = length l -> map snd (combine l l') = l'.
Proof. revert l'. induction l as [|a l IH]; intros [|b l'] H; try discriminate; [reflexivity|]. cbn. f_equal. apply IH. cbn in H. congruence. Qed.

Lemma wf_line_in weighted k ls : wf_tlines weighted k ls -> Forall (fun l => exists b, wf_tline weighted k b l) ls.
Proof.
  induction ls as [|l ls IH]; intros H; [constructor|]. cbn [wf_tlines] in H. destruct ls as [|l' ls].
  - constructor; [exists true; exact H|constructor].
  - destruct H as [H1 H2]. constructor; [exists false; exact H1|apply IH; exact H2].
Qed.

Lemma line_labels weighted k b l : wf_tline weighted k b l -> length (t_labels l) = k /\ Forall (fun x => 0 <= x)%Z (t_labels l).
Proof.
  intros (H1 & [_ H2] & H3 & _). split; [exact H1|]. unfold t_labels. constructor; [apply dval_range; exact H2|].
  rewrite Forall_map. eapply Forall_impl; [|exact H3]. cbn beta. intros p [_ [_ Hp]]. apply dval_range; exact Hp.
Qed.

Lemma tmode_open W wm reads fm tw ok rd L O order f ws pg fn ft ch : tmode W wm reads fm tw ok rd -> reads f ws ->
  is_ity L -> is_ity O -> wf_tns (is_some wm) order f -> plain_first (is_some wm) f -> off_page pg (tns_text f) ->
  as_edge_list ft fn (tns_text f) -> tensor_fits L O order f -> 1 <= lc_T ch ->
  let t := mkTensor (map Some (concat (map t_labels (tn_lines f)))) (if is_some wm then map Some ws else []) (Z.of_nat order) (Z.of_nat (length (tn_lines f))) in
  tensor_open L O wm pg fn (Some (tns_text f)) ft ch = Ok t.
Proof.
  destruct 1 as [|k fm tw ok rd ex bc Hww]; intros Hr HL HO Hf Hp Hpg Hft HF HT; cbn [is_some] in *; cbv zeta.
  - destruct (C36_tensor_text L O order f pg fn ft ch HL HO Hf Hp Hpg Hft HF HT) as (t & E & E1 & E2 & E3 & E4).
    rewrite E. destruct t as [c w o m]. cbn in *. subst. reflexivity.
  - destruct (ww_facts _ _ _ _ _ _ Hww) as [Hk _].
    destruct (C36_tensor_weighted k L O order f ws bc pg fn ft ch Hk Hr HL HO Hf Hp Hpg Hft HF HT) as (t & E & E1 & E2 & E3 & E4).
    rewrite E. destruct t as [c w o m]. cbn in *. subst. reflexivity.
Qed.

Lemma concat_fst_length {W} k (es : list (list Z * W)) : Forall (fun e => length (fst e) = k) es -> length (concat (map fst es)) = k * length es.
Proof. induction 1 as [|e es He HF IH]; cbn [map concat length]; [lia|]. rewrite app_length, IH, He. nia. Qed.

(** The file written is a well-formed tensor file. *)
Lemma tmode_file W wm reads fm tw ok rd L O k (es : list (list Z * W)) : tmode W wm reads fm tw ok rd ->
  1 <= k -> es <> [] -> Forall (tlabels_ok L k) es -> Forall (fun e => ok (snd e)) es -> (Z.of_nat (k * length es) <= imax O)%Z ->
  let f := tns_of tw es in
  tns_text f = tensor_text dec tw es /\ wf_tns (is_some wm) k f /\ plain_first (is_some wm) f /\ tensor_fits L O k f /\
  reads f (map (fun e => rd (snd e)) es) /\ map t_labels (tn_lines f) = map fst es.
Proof.
  intros HM Hk Hne HF Hok Hm f. pose proof (fst_nonempty L k es Hk HF) as Hfn.
  split; [apply tns_of_text; exact Hfn|].
  assert (E1 : map t_labels (tn_lines f) = map fst es) by (apply (tns_of_entries L k); assumption).
  assert (E2 : tensor_fits L O k f) by (apply tns_of_fits; assumption).
  destruct HM as [|kd fm tw ok rd ex bc Hww]; cbn [is_some].
  - split; [apply (tns_of_wf L); auto; apply Forall_forall; intros e _; split; [split; [constructor|exact I]|discriminate]|].
    split; [apply tns_of_plain; [|exact Hfn]; apply Forall_forall; intros e _; apply plain_nil|].
    split; [exact E2|]. split; [|exact E1]. unfold f, tns_of. cbn [tn_lines]. rewrite map_length. clear. induction es as [|[l []] es IH]; [reflexivity|]. cbn. f_equal. exact IH.
  - destruct (ww_facts _ _ _ _ _ _ Hww) as [Hkd HW]. rewrite Forall_forall in Hok.
    split; [apply (tns_of_wf L); auto; apply Forall_forall; intros e He; cbn [post_of]; destruct (HW _ (Hok e He)) as (_ & _ & P1 & _ & _ & P2); auto|].
    split; [apply tns_of_plain; [|exact Hfn]; apply Forall_forall; intros e He; cbn [post_of]; apply HW, Hok, He|].
    split; [exact E2|]. split; [|exact E1].
    assert (Epost : map t_post (tn_lines f) = map (fun e => ch_sp :: tw (snd e)) es).
    { unfold f, tns_of. cbn [tn_lines]. rewrite map_map. apply map_ext_in. intros e He. rewrite Forall_forall in Hfn. specialize (Hfn e He). unfold tline_of.
      destruct (fst e); [congruence|reflexivity]. }
    rewrite Epost. rewrite <- Forall_forall in Hok. clear - Hok HW. induction Hok as [|e es He HF IH]; cbn [map]; constructor; [apply HW; exact He|exact IH].
Qed.

Lemma tmode_write W wm reads fm tw ok rd L O k (es : list (list Z * W)) t parts sched : tmode W wm reads fm tw ok rd ->
  is_ity L -> is_ity O -> tensor_holds t k es -> (is_some wm = true -> tensor_weights t es) -> 1 <= k -> es <> [] ->
  Forall (tlabels_ok L k) es -> Forall (fun e => ok (snd e)) es -> (Z.of_nat (k * length es) <= imax O)%Z ->
  concat parts = seq 0 (length es) ->
  tensor_write O (fmt_int L) fm t parts sched = Ok (tensor_text dec tw es).
Proof.
  intros HM HL HO Ht Hw Hk Hne HF Hok Hm Hp.
  assert (HP : Permutation (concat parts) (seq 0 (length es))) by (rewrite Hp; apply Permutation_refl).
  pose proof (tlabels_printable L O k es HL HF Hm) as HPr.
  destruct HM as [|kd fm tw ok rd ex bc Hww].
  - destruct (C38_tensor_write_text L O k es t parts sched HL HO Ht Hk Hne HPr HP) as (f & ps & _ & _ & E & Ep). rewrite (Ep Hp) in E. exact E.
  - destruct (ww_facts _ _ _ _ _ _ Hww) as [_ HW]. rewrite Forall_forall in Hok.
    destruct (twrite_gen L O k (Some fm) tw es t parts sched HL HO Ht Hk Hne HPr (fun _ => Hw eq_refl)) as (f & ps & _ & _ & E & Ep).
    { intros g e Eg He. injection Eg as <-. apply HW, Hok, He. }
    { exact HP. }
    rewrite (Ep Hp) in E. exact E.
Qed.

(** ** The theorem

    A text tensor [f] with weights [ws] is loaded; stored and loaded in the
    binary format; written as text and loaded again.  The second object is the
    first one.  The text lists the entries of [f] in their order, and the last
    object holds the same entries (floating-point weights as they are read back
    from six decimals); if nothing is lost it is the first object again. *)
Theorem C69_tensor_chain : forall W wm reads fm tw ok rd L O (P : W -> Prop) order f ws pg fn ft ch tc tm pg1 fn1 ft1 ch1 parts sched pg2 fn2 ft2 ch2,
  tmode W wm reads fm tw ok rd -> is_ity L -> is_ity O ->
  wf_tns (is_some wm) order f -> plain_first (is_some wm) f -> reads f ws -> tensor_fits L O order f ->
  Forall ok ws -> storable wm P ws ->
  off_page pg (tns_text f) -> as_edge_list ft fn (tns_text f) -> 1 <= lc_T ch ->
  1 <= fst tc -> 1 <= fst tm -> teams ch1 -> ft1 = AUTO \/ ft1 = PIGO_TENSOR_BIN ->
  concat parts = seq 0 (length (tn_lines f)) ->
  off_page pg2 (tensor_text dec tw (tns_entries f ws)) -> as_edge_list ft2 fn2 (tensor_text dec tw (tns_entries f ws)) -> 1 <= lc_T ch2 ->
  exists t w s t',
    tensor_open L O wm pg fn (Some (tns_text f)) ft ch = Ok t /\
    tensor_holds t order (tns_entries f ws) /\ (is_some wm = true -> tensor_weights t (tns_entries f ws)) /\
    tensor_save L O (wbin wm) t tc tm = Ok w /\ contents w s /\
    tensor_open L O wm pg1 fn1 (Some s) ft1 ch1 = Ok t /\
    tensor_write O (fmt_int L) fm t parts sched = Ok (tensor_text dec tw (tns_entries f ws)) /\
    tensor_open L O wm pg2 fn2 (Some (tensor_text dec tw (tns_entries f ws))) ft2 ch2 = Ok t' /\
    tensor_holds t' order (map (fun e => (fst e, rd (snd e))) (tns_entries f ws)) /\
    (is_some wm = true -> tensor_weights t' (map (fun e => (fst e, rd (snd e))) (tns_entries f ws))) /\
    ((forall w, In w ws -> rd w = w) -> t' = t).
Proof.
  intros W wm reads fm tw ok rd L O P order f ws pg fn ft ch tc tm pg1 fn1 ft1 ch1 parts sched pg2 fn2 ft2 ch2
    HM HL HO Hf Hpl Hr Hfit Hok Hst Hpg Hft HT T1 T2 Hch1 Hft1 Hp Hpg2 Hft2 HT2.
  pose proof (tmode_len _ _ _ _ _ _ _ f ws HM Hr) as Hl.
  set (es := tns_entries f ws) in *.
  assert (Ef : map fst es = map t_labels (tn_lines f)) by (apply fst_combine; rewrite map_length; exact Hl).
  assert (Es : map snd es = ws) by (apply snd_combine; rewrite map_length; exact Hl).
  assert (Hle : length es = length (tn_lines f)) by (rewrite <- (map_length fst es), Ef; apply map_length).
  destruct Hfit as (F1 & F2 & F3 & F4). pose proof Hf as (Hne & _ & Hls). apply wf_line_in in Hls.
  assert (HF : Forall (tlabels_ok L order) es).
  { apply Forall_forall. intros e He. assert (Hi : In (fst e) (map t_labels (tn_lines f))) by (rewrite <- Ef; apply in_map; exact He).
    apply in_map_iff in Hi as (l & El & Hi). rewrite Forall_forall in Hls. destruct (Hls l Hi) as (b & Hb). destruct (line_labels _ _ _ _ Hb) as [L1 L2]. rewrite El in L1, L2.
    split; [exact L1|]. unfold tns_labels in F1. apply Forall_forall. intros x Hx. rewrite Forall_forall in L2. split; [apply L2; exact Hx|].
    rewrite Forall_forall in F1. apply F1. apply in_concat. exists (t_labels l). split; [apply in_map; exact Hi|rewrite El; exact Hx]. }
  assert (Hnes : es <> []) by (intros E; apply Hne; destruct (tn_lines f); [reflexivity|rewrite E in Hle; discriminate]).
  assert (Hk : 1 <= order).
  { rewrite Forall_forall in Hls. destruct (tn_lines f) as [|l ls] eqn:El; [congruence|]. destruct (Hls l (or_introl eq_refl)) as (b & H1 & _). rewrite <- H1. unfold t_labels. cbn [length]. lia. }
  assert (HW : Forall (fun e => ok (snd e)) es) by (rewrite <- Forall_map, Es; exact Hok).
  assert (Hm : (Z.of_nat (order * length es) <= imax O)%Z) by (rewrite Hle; exact F4).
  pose proof (tmode_open W wm reads fm tw ok rd L O order f ws pg fn ft ch HM Hr HL HO Hf Hpl Hpg Hft (conj F1 (conj F2 (conj F3 F4))) HT) as Eo. cbv zeta in Eo.
  set (t := mkTensor (map Some (concat (map t_labels (tn_lines f)))) (if is_some wm then map Some ws else []) (Z.of_nat order) (Z.of_nat (length (tn_lines f)))) in *.
  assert (Hh : tensor_holds t order es).
  { unfold tensor_holds, t. cbn [te_order te_m te_c]. rewrite Ef, Hle. repeat split. eapply Forall_impl; [|exact HF]. intros e He. apply He. }
  assert (Hw : is_some wm = true -> tensor_weights t es).
  { intros E. unfold tensor_weights, t. cbn [te_w]. rewrite E. rewrite <- Es, map_map. reflexivity. }
  assert (Hcl : length (concat (map fst es)) = order * length es).
  { apply concat_fst_length. eapply Forall_impl; [|exact HF]. intros e He. apply He. }
  assert (Hsh : tensor_shape (wbin wm) t).
  { unfold tensor_shape, t. cbn [te_order te_m te_c te_w]. split; [lia|]. split; [lia|]. split; [rewrite map_length, <- Ef, Hcl; nia|].
    destruct wm as [m|]; cbn [wbin option_map wlen is_some]; [rewrite map_length; congruence|reflexivity]. }
  assert (Hfu : tensor_full L O (wbin wm) P t).
  { unfold tensor_full, t. cbn [te_order te_m te_c te_w]. split; [apply in_type; [exact HO|lia]|]. split; [apply in_type; [exact HO|lia]|]. split.
    - rewrite Forall_map, <- Ef. apply Forall_forall. intros x Hx. apply in_concat in Hx as (l & Hi & Hx). apply in_map_iff in Hi as (e & <- & He).
      rewrite Forall_forall in HF. destruct (HF e He) as [_ H2]. rewrite Forall_forall in H2. apply fit_some, in_type; [exact HL|apply H2; exact Hx].
    - destruct wm as [m|]; cbn [wbin option_map wfit is_some]; [|exact I]. destruct Hst as (S1 & S2 & S3). split; [exact S1|]. split; [exact S2|].
      rewrite Forall_map. eapply Forall_impl; [|exact S3]. cbn beta. intros x Hx. exists x. auto. }
  destruct (C17_tensor_round_trip L O wm P t tc tm pg1 fn1 ft1 ch1 HL HO Hsh Hfu ltac:(unfold t; cbn [te_order te_m]; nia) T1 T2 Hch1 Hft1) as (w & s & Ew & Hs & Er).
  destruct (tmode_file W wm reads fm tw ok rd L O order es HM Hk Hnes HF HW Hm) as (G1 & G2 & G3 & G4 & G5 & G6). cbv zeta in G1, G2, G3, G4, G5, G6.
  set (f2 := tns_of tw es) in *. set (ws2 := map (fun e => rd (snd e)) es) in *.
  assert (Hl2 : length (tn_lines f2) = length es) by (rewrite <- (map_length t_labels), G6; apply map_length).
  pose proof (tmode_open W wm reads fm tw ok rd L O order f2 ws2 pg2 fn2 ft2 ch2 HM G5 HL HO G2 G3) as E2. rewrite G1 in E2. specialize (E2 Hpg2 Hft2 G4 HT2). cbv zeta in E2.
  rewrite G6, Hl2 in E2.
  eexists t, w, s, _.
  split; [exact Eo|]. split; [exact Hh|]. split; [exact Hw|]. split; [exact Ew|]. split; [exact Hs|]. split; [exact Er|].
  split; [eapply tmode_write; eauto; rewrite Hle; exact Hp|]. split; [exact E2|]. split.
  { unfold tensor_holds. cbn [te_order te_m te_c]. rewrite map_length, map_map. cbn [fst].
    split; [reflexivity|]. split; [reflexivity|]. split; [|reflexivity].
    rewrite Forall_map. cbn [fst]. eapply Forall_impl; [|exact HF]. intros e He. apply He. }
  split.
  { intros E. unfold tensor_weights. cbn [te_w]. rewrite E. unfold ws2. rewrite !map_map. reflexivity. }
  intros Hid. unfold t. rewrite Ef, Hle. f_equal. destruct (is_some wm); [|reflexivity]. f_equal. unfold ws2. rewrite <- Es, <- (map_map snd rd).
  rewrite Es. rewrite <- (map_id ws) at 2. apply map_ext_in. exact Hid.
Qed.
Print Assumptions C69_tensor_chain.

(** A tensor of order 2 with signed weights: the chain ends with the object it
    started with. *)
Example C69_tensor_applies : let wm := Some (mkWmode _ (wreader (WSigned i32)) (cint i32)) in exists t w s,
  tensor_open u32 u64 wm 64 (chars "a.tns") (Some (tns_text ex_tnsw)) EDGE_LIST ex_teams = Ok t /\
  te_c t = map Some [1; 2; 3; 0; 2; 2]%Z /\
  tensor_save u32 u64 (Some (cint i32)) t (2, [1; 0]) (3, []) = Ok w /\ contents w s /\
  tensor_open u32 u64 wm 4096 (chars "a.bin") (Some s) AUTO ex_teams = Ok t /\
  tensor_write u64 (fmt_int u32) (Some (fmt_int i32)) t [[0]; [1; 2]] [1; 0; 0; 1] = Ok (bs "1 2 -12" ++ [ch_nl] ++ bs "3 0 7" ++ [ch_nl] ++ bs "2 2 4" ++ [ch_nl]) /\
  tensor_open u32 u64 wm 4096 (chars "b.tns") (Some (bs "1 2 -12" ++ [ch_nl] ++ bs "3 0 7" ++ [ch_nl] ++ bs "2 2 4" ++ [ch_nl])) EDGE_LIST ex_teams = Ok t.
Proof.
  assert (H32 : is_ity u32) by (cbn; auto). assert (H64 : is_ity u64) by (cbn; tauto). assert (Hi : is_ity i32) by (cbn; tauto).
  destruct (C69_tensor_chain _ _ _ _ _ _ _ u32 u64 (fun z => inrange i32 z = true) 2 ex_tnsw [-12; 7; 4]%Z 64 (chars "a.tns") EDGE_LIST ex_teams
    (2, [1; 0]) (3, []) 4096 (chars "a.bin") AUTO ex_teams [[0]; [1; 2]] [1; 0; 0; 1] 4096 (chars "b.tns") EDGE_LIST ex_teams
    (tmode_weighted (WSigned i32) (fmt_int i32) dec (printable i32) (fun z => z) 0 (cint i32) (ww_signed i32 Hi eq_refl)) H32 H64 ex_tnsw_wf ex_tnsw_plain ex_tnsw_weights)
    as (t & w & s & t' & E1 & (_ & _ & _ & E2) & _ & E3 & E4 & E5 & E6 & E7 & _ & _ & E8).
  - split; [repeat (apply Forall_cons; [vm_compute; discriminate|]); apply Forall_nil|]. split; [vm_compute; discriminate|]. split; vm_compute; discriminate.
  - repeat (apply Forall_cons; [split; vm_compute; (reflexivity || discriminate)|]). apply Forall_nil.
  - split; [apply cint_faithful; exact Hi|]. split; [vm_compute; lia|]. repeat (apply Forall_cons; [reflexivity|]). apply Forall_nil.
  - split; [lia|vm_compute; discriminate].
  - left; reflexivity.
  - vm_compute; lia.
  - cbn; lia.
  - cbn; lia.
  - vm_compute; lia.
  - left; reflexivity.
  - reflexivity.
  - split; [lia|vm_compute; discriminate].
  - left; reflexivity.
  - vm_compute; lia.
  - rewrite (E8 (fun w _ => eq_refl)) in E7. exists t, w, s. split; [exact E1|]. split; [exact E2|]. split; [exact E3|]. split; [exact E4|]. split; [exact E5|]. split; [exact E6|exact E7].
Qed.
