(** * Property C36: tensor text files *)

From Coq Require Import String.
From Verif Require Import Base Reader Sched Spec SpecFp SpecTensor Coo CooLemmas ElSpec ElFinal Codec Bin SpecBin BinLemmas BinSave BinLoad Load BinOpen Tensor TensorMain P_Bin.
Open Scope list_scope.

(** The caller asks for the format, or leaves it to the file. *)
Definition as_edge_list (ft : ftype) (fn s : list byte) : Prop :=
  ft = EDGE_LIST \/
  (ft = AUTO /\ ~ begins s (chars "PIGO") /\ ~ ends_in fn (chars ".mtx") /\ ~ ends_in fn (chars ".graph")).

Lemma edge_list_detect pg fn s ft : s <> [] -> as_edge_list ft fn s -> used (reading s pg fn []) ft = Ok EDGE_LIST.
Proof.
  intros Hs [->|(-> & H1 & H2 & H3)]; [reflexivity|].
  destruct (C21_detection pg fn s Hs) as (f & Ef & _ & _ & _ & _ & HD). rewrite open_reading in Ef by exact Hs. injection Ef as <-.
  cbn [used].
  assert (P : forall t, ~ begins s (chars "PIGO" ++ t)).
  { intros t (b & r & E). apply H1. rewrite <- app_assoc in E. destruct t as [|x t]; [exists b, r; exact E|exists x, (t ++ b :: r); exact E]. }
  destruct (HD (P (chars "-COO-v1")) (P (chars "-CSR-v2")) (P (chars "-DiGraph-v1")) (P (chars "-Tensor-2"))) as (_ & _ & _ & HE).
  apply HE; assumption.
Qed.

(** Everything in the file fits the types: the labels, the order, the number of
    entries and their product. *)
Definition tensor_fits (L O : ity) (order : nat) (f : tns_file) : Prop :=
  Forall (fun v => v <= imax L)%Z (tns_labels f) /\
  (Z.of_nat order <= imax O)%Z /\ (Z.of_nat (List.length (tn_lines f)) <= imax O)%Z /\
  (Z.of_nat (order * List.length (tn_lines f)) <= imax O)%Z.

Lemma tns_text_ne weighted k f : wf_tns weighted k f -> tns_text f <> [].
Proof.
  intros (H & _ & Hw) E. unfold tns_text in E. apply app_eq_nil in E as [_ E]. destruct (tn_lines f) as [|l ls]; [congruence|].
  cbn [map concat] in E. apply app_eq_nil in E as [E _]. unfold tline_text in E. apply app_eq_nil in E as [_ E]. apply app_eq_nil in E as [_ E]. discriminate.
Qed.

Lemma tensor_open_el {W} L O (wm : option (wmode W)) s pg fn ft ch : s <> [] -> as_edge_list ft fn s ->
  tensor_open L O wm pg fn (Some s) ft ch = tensor_read_el L O (wtext wm) (mkMem s pg) 0 (flen (mkMem s pg)) (lc_T ch) (lc_el ch).
Proof.
  intros Hne Hg. unfold tensor_open. rewrite open_reading by exact Hne. cbn [bind]. unfold tensor_read.
  rewrite (edge_list_detect pg fn _ ft Hne Hg). cbn [bind]. unfold with_reader. cbn [reading rf_mem rf_fp List.length].
  destruct (tensor_read_el _ _ _ _ _ _ _ _); reflexivity.
Qed.

(** Without weights: the order is the number of labels on a line, the number of
    entries is the number of data lines, and the coordinates are the labels on
    the lines, in file order, whatever the team size and the interleaving. *)
Theorem C36_tensor_text : forall L O order f pg fn ft ch,
  is_ity L -> is_ity O -> wf_tns false order f -> plain_first false f -> off_page pg (tns_text f) ->
  as_edge_list ft fn (tns_text f) -> tensor_fits L O order f -> 1 <= lc_T ch ->
  exists t : tensor unit, tensor_open L O None pg fn (Some (tns_text f)) ft ch = Ok t /\
    te_order t = Z.of_nat order /\ te_m t = Z.of_nat (List.length (tn_lines f)) /\
    te_c t = map Some (concat (map t_labels (tn_lines f))) /\ te_w t = [].
Proof.
  intros L O k f pg fn ft ch HL HO Hf Hp Hpg Hg (F1 & F2 & F3 & F4) HT.
  rewrite tensor_open_el by (try assumption; eapply tns_text_ne; exact Hf). cbn [wtext option_map].
  eexists. split.
  - apply (tensor_read_main L O HL HO None k f (repeat tt (List.length (tn_lines f)))); try assumption; try reflexivity.
    + apply slack_off_page. exact Hpg.
    + apply repeat_length.
    + clear. induction (tn_lines f); constructor; [exact I|assumption].
    + rewrite Nat2Z.inj_mul. apply omul_ok; [exact HO|lia|lia|]. rewrite <- Nat2Z.inj_mul. exact F4.
  - repeat split.
Qed.
Print Assumptions C36_tensor_text.

(** With weights: the same, and the weights are those on the lines. *)
Theorem C36_tensor_weighted : forall kd L O order f ws bc pg fn ft ch,
  wf_kind kd -> Forall2 (wpost kd) (map t_post (tn_lines f)) ws ->
  is_ity L -> is_ity O -> wf_tns true order f -> plain_first true f -> off_page pg (tns_text f) ->
  as_edge_list ft fn (tns_text f) -> tensor_fits L O order f -> 1 <= lc_T ch ->
  exists t, tensor_open L O (Some (mkWmode _ (wreader kd) bc)) pg fn (Some (tns_text f)) ft ch = Ok t /\
    te_order t = Z.of_nat order /\ te_m t = Z.of_nat (List.length (tn_lines f)) /\
    te_c t = map Some (concat (map t_labels (tn_lines f))) /\ te_w t = map Some ws.
Proof.
  intros kd L O k f ws bc pg fn ft ch Hk Hws HL HO Hf Hp Hpg Hg (F1 & F2 & F3 & F4) HT.
  rewrite tensor_open_el by (try assumption; eapply tns_text_ne; exact Hf). cbn [wtext option_map wm_text].
  eexists. split.
  - apply (tensor_read_main L O HL HO (Some (wreader kd)) k f ws); try assumption; try reflexivity.
    + apply slack_off_page. exact Hpg.
    + rewrite <- (map_length t_post). clear - Hws. induction Hws; cbn [List.length]; [reflexivity|f_equal; assumption].
    + cbn [owok]. clear - Hws Hk. induction Hws; constructor; [apply wok_wpost; assumption|assumption].
    + rewrite Nat2Z.inj_mul. apply omul_ok; [exact HO|lia|lia|]. rewrite <- Nat2Z.inj_mul. exact F4.
  - repeat split.
Qed.
Print Assumptions C36_tensor_weighted.
