(** * Property C37: where reading a tensor file goes wrong *)

From Coq Require Import String.
From Verif Require Import Base Reader Sched Spec SpecFp SpecTensor SpecOrder SpecFrag SpecTensorCut Coo CooLemmas ElSpec ElFinal FragEl FragMain ElExamples Csr Graph Codec Bin SpecBin
  BinLemmas BinSave BinLoad Load BinOpen Tensor TensorMain TensorOrder TensorFrag TensorCut TensorShort Safe Term TensorSafe P_Bin P_Tensor P_BinEx.
Open Scope list_scope.
Notation length := List.length.

Lemma open_order {W} L O (wm : option (wmode W)) s pg fn ft ch t : s <> [] -> as_edge_list ft fn s ->
  tensor_open L O wm pg fn (Some s) ft ch = Ok t -> tensor_order O (is_some wm) (mkMem s pg) 0 (length s) = Ok (te_order t).
Proof.
  intros Hs Hg E. rewrite tensor_open_el in E by assumption. apply tensor_read_order in E. rewrite <- E. destruct wm; reflexivity.
Qed.

(** The order is the number of numbers on the first data line, less one for a
    weighted tensor, whatever else is in the file. *)
Theorem C37_order_of_first_line : forall {W} L O (wm : option (wmode W)) head ws tail others pg fn ft ch t,
  is_ity O -> 0 < pg -> gap false head -> words ws -> Forall (fun c => is_nl c = false) tail -> plain_tail tail ->
  (Z.of_nat (length ws) <= imax O)%Z ->
  let s := head ++ words_text ws ++ tail ++ ch_nl :: others in
  as_edge_list ft fn s -> tensor_open L O wm pg fn (Some s) ft ch = Ok t ->
  te_order t = Z.of_nat (length ws - if is_some wm then 1 else 0).
Proof.
  intros W L O wm head ws tail others pg fn ft ch t HO Hpg Hg Hw Hn Ht Hf s Hgs E.
  apply open_order in E; [|unfold s; destruct head; [destruct (words_text ws); [destruct tail|]|]; discriminate|exact Hgs].
  rewrite (order_first O (is_some wm) s pg head ws tail others (length ws)) in E; try assumption; try reflexivity.
  - injection E as <-. reflexivity.
  - left. auto.
Qed.
Print Assumptions C37_order_of_first_line.

(** Anything but spaces and a comment after the last number - a carriage
    return, a tab, a word - counts as one more dimension. *)
Theorem C37_trailing_text_adds_one : forall {W} L O (wm : option (wmode W)) head ws tail others pg fn ft ch t,
  is_ity O -> 0 < pg -> gap false head -> words ws -> Forall (fun c => is_nl c = false) tail -> leftover tail ->
  (Z.of_nat (length ws + 1) <= imax O)%Z ->
  let s := head ++ words_text ws ++ tail ++ ch_nl :: others in
  as_edge_list ft fn s -> tensor_open L O wm pg fn (Some s) ft ch = Ok t ->
  te_order t = Z.of_nat (length ws + 1 - if is_some wm then 1 else 0).
Proof.
  intros W L O wm head ws tail others pg fn ft ch t HO Hpg Hg Hw Hn Ht Hf s Hgs E.
  apply open_order in E; [|unfold s; destruct head; [destruct (words_text ws); [destruct tail|]|]; discriminate|exact Hgs].
  rewrite (order_first O (is_some wm) s pg head ws tail others (length ws + 1)) in E; try assumption; try reflexivity.
  - injection E as <-. reflexivity.
  - right. auto.
Qed.
Print Assumptions C37_trailing_text_adds_one.

Lemma tns_split f l ls : tn_lines f = l :: ls ->
  tns_text f = tn_head f ++ labels_text l ++ t_post l ++ ch_nl :: t_gap l ++ concat (map tline_text ls).
Proof. intros E. unfold tns_text. rewrite E. cbn [map concat]. unfold tline_text at 1. repeat (rewrite <- app_assoc; cbn [app]). reflexivity. Qed.

Lemma wf_tlines_first w k l ls : wf_tlines w k (l :: ls) -> exists fin, wf_tline w k fin l.
Proof. destruct ls; cbn [wf_tlines]; [intros H; exists true; exact H|intros [H _]; exists false; exact H]. Qed.

(** So a file with Windows line ends, each of its lines [order] labels, is never
    read as a tensor of that order. *)
Theorem C37_carriage_return : forall L O order f l ls pg fn ft ch (t : tensor unit),
  is_ity O -> 0 < pg -> wf_tns false order f -> tn_lines f = l :: ls -> t_post l = [ch_cr] ->
  Forall (fun p => spacing (fst p)) (t_more l) -> (Z.of_nat (order + 1) <= imax O)%Z ->
  as_edge_list ft fn (tns_text f) -> tensor_open L O None pg fn (Some (tns_text f)) ft ch = Ok t ->
  te_order t = Z.of_nat (order + 1).
Proof.
  intros L O k f l ls pg fn ft ch t HO Hpg (Hn & Hg & Hl) El Hp Hs Hf Hgs E. rewrite El in Hl. apply wf_tlines_first in Hl as (fin & Hk & H1 & H2 & _).
  destruct (line_words l H1 H2 Hs) as [W1 W2]. rewrite (tns_split f l ls El) in *. rewrite <- W2, Hp in *.
  assert (Hlk : length (([], t_first l) :: t_more l) = k) by (unfold t_labels in Hk; cbn [length] in *; rewrite map_length in Hk; exact Hk).
  rewrite <- Hlk in *.
  rewrite (C37_trailing_text_adds_one L O None (tn_head f) (([], t_first l) :: t_more l) [ch_cr] (t_gap l ++ concat (map tline_text ls)) pg fn ft ch t); try assumption.
  - cbn [is_some]. rewrite Nat.sub_0_r. reflexivity.
  - repeat constructor.
  - exists [], ch_cr, [], []. repeat split; try constructor; try discriminate; repeat constructor.
Qed.
Print Assumptions C37_carriage_return.

(** Nor is a weighted file whose first weight has an exponent. *)
Theorem C37_exponent : forall {W} L O (wm : wmode W) order f l ls a w1 b w2 tail pg fn ft ch t,
  is_ity O -> 0 < pg -> wf_tns true order f -> tn_lines f = l :: ls ->
  t_post l = a ++ w1 ++ b ++ w2 ++ tail -> spacing a -> number w1 -> spacing b -> number w2 -> plain_tail tail ->
  Forall (fun p => spacing (fst p)) (t_more l) -> (Z.of_nat (order + 2) <= imax O)%Z ->
  as_edge_list ft fn (tns_text f) -> tensor_open L O (Some wm) pg fn (Some (tns_text f)) ft ch = Ok t ->
  te_order t = Z.of_nat (order + 1).
Proof.
  intros W L O wm k f l ls a w1 b w2 tail pg fn ft ch t HO Hpg (Hn & Hg & Hl) El Hp Ha Hw1 Hb Hw2 Ht Hs Hf Hgs E.
  rewrite El in Hl. apply wf_tlines_first in Hl as (fin & Hk & H1 & H2 & [Hr _] & _).
  destruct (line_words l H1 H2 Hs) as [W1 W2]. rewrite (tns_split f l ls El) in *.
  set (ws := (([], t_first l) :: t_more l) ++ [(a, w1); (b, w2)]).
  assert (Ews : labels_text l ++ t_post l ++ ch_nl :: t_gap l ++ concat (map tline_text ls) = words_text ws ++ tail ++ ch_nl :: t_gap l ++ concat (map tline_text ls)).
  { unfold ws, words_text. rewrite map_app, concat_app. fold (words_text (([], t_first l) :: t_more l)). rewrite W2, Hp. cbn [map concat fst snd].
    rewrite app_nil_r. repeat rewrite <- app_assoc. reflexivity. }
  rewrite Ews in *.
  assert (Hlk : length ws = k + 2) by (unfold ws, t_labels in *; rewrite app_length; cbn [length] in *; rewrite map_length in Hk; lia).
  rewrite (C37_order_of_first_line L O (Some wm) (tn_head f) ws tail (t_gap l ++ concat (map tline_text ls)) pg fn ft ch t); try assumption.
  - cbn [is_some]. rewrite Hlk. f_equal. lia.
  - destruct W1 as [[W1 W1'] W3]. split; [unfold ws; cbn [app]; split; [exact W1|apply Forall_app; split; [exact W1'|constructor; [exact Ha|constructor; [exact Hb|constructor]]]]|].
    unfold ws. apply Forall_app; split; [exact W3|]. constructor; [exact Hw1|constructor; [exact Hw2|constructor]].
  - rewrite Hp, !app_assoc in Hr. apply Forall_app in Hr. apply Hr.
  - rewrite Hlk. exact Hf.
Qed.
Print Assumptions C37_exponent.

(** ** A last line without a newline *)
Definition cut_fits (L O : ity) (order : nat) (f : tns_file) (z : tline) (n : nat) : Prop :=
  Forall (fun v => v <= imax L)%Z (tns_labels f) /\ Forall (fun v => v <= imax L)%Z (t_labels z) /\
  (Z.of_nat (order + 1) <= imax O)%Z /\ (Z.of_nat n <= imax O)%Z /\ (Z.of_nat (order * n) <= imax O)%Z.

Lemma cut_open {W} L O (wm : option (wmode W)) w k f z pg fn ft ch : wf_tcut w k f z -> as_edge_list ft fn (tcut_text f z) ->
  tensor_open L O wm pg fn (Some (tcut_text f z)) ft ch =
  tensor_read_el L O (wtext wm) (mkMem (tcut_text f z) pg) 0 (flen (mkMem (tcut_text f z) pg)) (lc_T ch) (lc_el ch).
Proof.
  intros (_ & _ & _ & _ & [Hd _] & _) Hg. apply tensor_open_el; [|exact Hg]. unfold tcut_text, labels_text. intros E.
  apply app_eq_nil in E as [_ E]. apply app_eq_nil in E as [E _]. apply app_eq_nil in E as [E _]. congruence.
Qed.

(** Two or more labels that end the file: the entry is not counted, but all of
    its labels except the last are stored, past the end of the array. *)
Theorem C37_unterminated_overrun : forall L O order f z pg fn ft ch,
  is_ity L -> is_ity O -> wf_tcut false order f z -> plain_first false f -> t_post z = [] -> 2 <= order ->
  off_page pg (tcut_text f z) -> as_edge_list ft fn (tcut_text f z) -> cut_fits L O order f z (length (tn_lines f)) -> 1 <= lc_T ch ->
  tensor_open (W := unit) L O None pg fn (Some (tcut_text f z)) ft ch = UB.
Proof.
  intros L O k f z pg fn ft ch HL HO Hwf Hp Hz Hk Hpg Hg (F1 & F2 & F3 & F4 & F5) HT.
  rewrite (cut_open L O None false k f z pg fn ft ch Hwf Hg). cbn [wtext option_map]. apply (tc_ub L O k f z pg); try assumption. lia.
Qed.
Print Assumptions C37_unterminated_overrun.

(** A last line that ends with a newline but has too few labels: the entry is not
    counted, but its labels are stored past the end of the array. *)
Theorem C37_short_last_line : forall L O order f z pg fn ft ch,
  is_ity L -> is_ity O -> wf_tshort order f z -> plain_first false f ->
  off_page pg (tshort_text f z) -> as_edge_list ft fn (tshort_text f z) -> cut_fits L O order f z (length (tn_lines f)) -> 1 <= lc_T ch ->
  tensor_open (W := unit) L O None pg fn (Some (tshort_text f z)) ft ch = UB.
Proof.
  intros L O k f z pg fn ft ch HL HO Hwf Hp Hpg Hg (F1 & F2 & F3 & F4 & F5) HT.
  rewrite (tensor_open_el L O None); [|unfold tshort_text, tline_text; destruct (tns_text f); [destruct (labels_text z), (t_post z)|]; discriminate|exact Hg].
  cbn [wtext option_map]. apply (ts_ub L O k); try assumption. lia.
Qed.
Print Assumptions C37_short_last_line.

Lemma nowgt_ok f : Forall2 (owok (@None (wrd unit))) (map t_post (tn_lines f)) (repeat tt (length (tn_lines f))).
Proof. induction (tn_lines f); constructor; [exact Logic.I|assumption]. Qed.

(** With a single label the entry is lost. *)
Theorem C37_unterminated_single_label : forall L O f z pg fn ft ch,
  is_ity L -> is_ity O -> wf_tcut false 1 f z -> plain_first false f -> t_post z = [] ->
  off_page pg (tcut_text f z) -> as_edge_list ft fn (tcut_text f z) -> cut_fits L O 1 f z (length (tn_lines f)) -> 1 <= lc_T ch ->
  exists t : tensor unit, tensor_open L O None pg fn (Some (tcut_text f z)) ft ch = Ok t /\
    te_order t = 1%Z /\ te_m t = Z.of_nat (length (tn_lines f)) /\ te_c t = map Some (tns_labels f).
Proof.
  intros L O f z pg fn ft ch HL HO Hwf Hp Hz Hpg Hg (F1 & F2 & F3 & F4 & F5) HT.
  rewrite (cut_open L O None false 1 f z pg fn ft ch Hwf Hg). cbn [wtext option_map]. eexists. split.
  - apply (tc_read L O None 1 f z (repeat tt (length (tn_lines f))) tt Cut pg); try assumption; try discriminate.
    + apply repeat_length.
    + apply nowgt_ok.
    + auto.
    + replace (1 * (length (tn_lines f) + 0)) with (1 * length (tn_lines f)) by lia. exact F5.
    + left; reflexivity.
  - cbn [te_order te_m te_c]. rewrite app_nil_r, Nat.add_0_r. auto.
Qed.
Print Assumptions C37_unterminated_single_label.

(** Anything after the last label, even a space, and the entry is stored. *)
Theorem C37_unterminated_trailing_text : forall L O order f z pg fn ft ch,
  is_ity L -> is_ity O -> wf_tcut false order f z -> plain_first false f -> t_post z <> [] ->
  off_page pg (tcut_text f z) -> as_edge_list ft fn (tcut_text f z) -> cut_fits L O order f z (length (tn_lines f) + 1) -> 1 <= lc_T ch ->
  exists t : tensor unit, tensor_open L O None pg fn (Some (tcut_text f z)) ft ch = Ok t /\
    te_order t = Z.of_nat order /\ te_m t = Z.of_nat (length (tn_lines f) + 1) /\ te_c t = map Some (tns_labels f ++ t_labels z).
Proof.
  intros L O k f z pg fn ft ch HL HO Hwf Hp Hz Hpg Hg (F1 & F2 & F3 & F4 & F5) HT.
  rewrite (cut_open L O None false k f z pg fn ft ch Hwf Hg). cbn [wtext option_map]. eexists. split.
  - apply (tc_read L O None k f z (repeat tt (length (tn_lines f))) tt Tail pg); try assumption; try discriminate.
    + apply repeat_length.
    + apply nowgt_ok.
    + lia.
    + right; discriminate.
  - cbn [te_order te_m te_c]. auto.
Qed.
Print Assumptions C37_unterminated_trailing_text.

(** A weighted tensor's last line may end with its weight. *)
Theorem C37_unterminated_weighted : forall kd L O order f z ws v bc pg fn ft ch,
  wf_kind kd -> Forall2 (wpost kd) (map t_post (tn_lines f)) ws -> ends_in_weight kd (t_post z) v -> holds_number (t_post z) ->
  is_ity L -> is_ity O -> wf_tcut true order f z -> plain_first true f ->
  off_page pg (tcut_text f z) -> as_edge_list ft fn (tcut_text f z) -> cut_fits L O order f z (length (tn_lines f) + 1) -> 1 <= lc_T ch ->
  exists t, tensor_open L O (Some (mkWmode _ (wreader kd) bc)) pg fn (Some (tcut_text f z)) ft ch = Ok t /\
    te_order t = Z.of_nat order /\ te_m t = Z.of_nat (length (tn_lines f) + 1) /\
    te_c t = map Some (tns_labels f ++ t_labels z) /\ te_w t = map Some (ws ++ [v]).
Proof.
  intros kd L O k f z ws v bc pg fn ft ch Hkd Hws Hv Hz HL HO Hwf Hp Hpg Hg (F1 & F2 & F3 & F4 & F5) HT.
  rewrite (cut_open L O _ true k f z pg fn ft ch Hwf Hg). cbn [wtext option_map wm_text]. eexists. split.
  - apply (tc_read L O (Some (wreader kd)) k f z ws v Tail pg); try assumption; try discriminate.
    + rewrite <- (map_length t_post). clear - Hws. induction Hws; cbn [length]; [reflexivity|f_equal; assumption].
    + cbn [owok]. clear - Hws Hkd. induction Hws; constructor; [apply wok_wpost; assumption|assumption].
    + split; [exact Hz|]. exists (is_int_kind kd). apply wcut_kind; assumption.
    + lia.
    + right; discriminate.
  - cbn [te_order te_m te_c te_w is_some]. auto.
Qed.
Print Assumptions C37_unterminated_weighted.

(** A file whose size is a multiple of the page size is read past the mapping. *)
Theorem C37_page_multiple_overrun : forall {W} L O (wm : option (wmode W)) s pg fn ft ch,
  s <> [] -> 0 < pg -> length s mod pg = 0 -> as_edge_list ft fn s -> 1 <= lc_T ch ->
  tensor_open L O wm pg fn (Some s) ft ch = UB.
Proof.
  intros W L O wm s pg fn ft ch Hs Hpg Hm Hg HT. rewrite tensor_open_el by assumption. apply tensor_page_multiple; assumption.
Qed.
Print Assumptions C37_page_multiple_overrun.

(** ** The hypotheses are met *)
Ltac vals_t := match goal with |- Forall ?P ?l => let l' := eval vm_compute in l in change (Forall P l') end;
  repeat (apply Forall_cons; [vm_compute; discriminate|]); apply Forall_nil.
Ltac fits_t := split; [vals_t|split; [vals_t|split; [|split]; vm_compute; discriminate]].
Ltac seps_t := repeat (apply Forall_cons; [split; [split; [discriminate|repeat constructor]|first [digits_t|discriminate]]|]); apply Forall_nil.
Ltac auto_t := right; split; [reflexivity|]; split; [intros (b & r & E); vm_compute in E; discriminate|];
    split; intros (p & E); apply (f_equal (@rev byte)) in E; rewrite rev_app_distr in E; vm_compute in E; discriminate.

(** "1 2\r\n3 4\r\n5 6\r\n7 8\r\n". *)
Definition ex_crlf : tns_file :=
  mkTns [] [ mkTline (bs "1") [(bs " ", bs "2")] [ch_cr] []; mkTline (bs "3") [(bs " ", bs "4")] [ch_cr] [];
             mkTline (bs "5") [(bs " ", bs "6")] [ch_cr] []; mkTline (bs "7") [(bs " ", bs "8")] [ch_cr] [] ].
Definition ex_team (T : nat) : lchoice :=
  mkLchoice T [] (1, []) (1, []) (1, []) (mkGchoice 1 [] []) (mkChoice 1 0 [] [] [] [] []) [] [].
Lemma ex_crlf_wf : wf_tns false 2 ex_crlf.
Proof.
  split; [discriminate|]. split; [apply gap_nil|]. cbn [ex_crlf tn_lines].
  repeat split; try digits_t; try (repeat constructor; fail); try discriminate; try seps_t.
Qed.
Example C37_carriage_return_applies : exists t : tensor unit,
  tensor_open u32 u32 None 64 (chars "a.tns") (Some (tns_text ex_crlf)) AUTO (ex_team 1) = Ok t /\
     te_order t = 3%Z /\ te_c t = map Some [1; 2; 3; 5; 6; 7]%Z.
Proof.
  eexists. split; [vm_compute; reflexivity|]. split; [|reflexivity].
  eapply (C37_carriage_return u32 u32 2 ex_crlf _ _ 64 (chars "a.tns") AUTO (ex_team 1)); try reflexivity.
  - cbn; tauto.
  - lia.
  - exact ex_crlf_wf.
  - cbn [t_more]. apply Forall_cons; [split; [split; [discriminate|repeat constructor]|discriminate]|apply Forall_nil].
  - vm_compute; discriminate.
  - auto_t.
Qed.

(** What becomes of such a file depends on the number of threads: one thread
    pairs up labels of different lines, four threads write out of bounds. *)
Theorem C37_team_dependent : exists f pg fn (c1 c4 : lchoice) (t : tensor unit),
  wf_tns false 2 f /\ off_page pg (tns_text f) /\ as_edge_list AUTO fn (tns_text f) /\
  lc_T c1 = 1 /\ tensor_open u32 u32 None pg fn (Some (tns_text f)) AUTO c1 = Ok t /\
  c4 = mkLchoice 4 (lc_el c1) (lc_b1 c1) (lc_b2 c1) (lc_b3 c1) (lc_graph c1) (lc_conv c1) (lc_parts c1) (lc_back c1) /\
  tensor_open (W := unit) u32 u32 None pg fn (Some (tns_text f)) AUTO c4 = UB.
Proof.
  exists ex_crlf, 64, (chars "a.tns"), (ex_team 1), (ex_team 4). eexists. split; [exact ex_crlf_wf|].
  split; [split; [lia|vm_compute; discriminate]|]. split; [auto_t|]. split; [reflexivity|]. split; [vm_compute; reflexivity|]. split; [reflexivity|]. vm_compute. reflexivity.
Qed.
Print Assumptions C37_team_dependent.

(** "#\n1 2 3 # c\nrest 9": the order is 3 if the file is accepted. *)
Example C37_order_applies : exists t : tensor unit,
  tensor_open u32 u32 None 64 (chars "a.tns") (Some ((bs "#" ++ [ch_nl]) ++ words_text [([], bs "1"); (bs " ", bs "2"); (bs ", ", bs "3")] ++ bs " # c" ++ ch_nl :: bs "7 8 9 rest 9" ++ [ch_nl])) EDGE_LIST (ex_team 1) = Ok t /\
  te_order t = 3%Z.
Proof.
  eexists. split; [vm_compute; reflexivity|].
  eapply (C37_order_of_first_line u32 u32 (@None (wmode unit)) (bs "#" ++ [ch_nl]) [([], bs "1"); (bs " ", bs "2"); (bs ", ", bs "3")] (bs " # c") (bs "7 8 9 rest 9" ++ [ch_nl]) 64 (chars "a.tns") EDGE_LIST (ex_team 1)).
  - cbn; tauto.
  - lia.
  - apply (gap_cmt _ ch_hash [] []); [reflexivity|repeat constructor|apply gap_nil].
  - split; [split; [reflexivity|]|]; repeat (apply Forall_cons; [try (split; [split; [discriminate|repeat constructor]|discriminate])|]); try apply Forall_nil;
      (eexists; eexists; split; [reflexivity|]; split; [reflexivity|]; repeat constructor).
  - repeat constructor.
  - exists (bs " "), (bs "# c"). split; [reflexivity|]. split; [repeat constructor|reflexivity].
  - vm_compute; discriminate.
  - left; reflexivity.
  - vm_compute; reflexivity.
Qed.

(** "1 2 3\tend\n4 5 6 7\n" is a tensor of order 4. *)
Example C37_trailing_text_applies : exists t : tensor unit,
  tensor_open u32 u32 None 64 (chars "a.tns") (Some ([] ++ words_text [([], bs "1"); (bs " ", bs "2"); (bs " ", bs "3")] ++ (9%Z :: bs "end") ++ ch_nl :: bs "4 5 6 7" ++ [ch_nl])) EDGE_LIST (ex_team 1) = Ok t /\
  te_order t = 4%Z.
Proof.
  eexists. split; [vm_compute; reflexivity|].
  eapply (C37_trailing_text_adds_one u32 u32 (@None (wmode unit)) [] [([], bs "1"); (bs " ", bs "2"); (bs " ", bs "3")] (9%Z :: bs "end") (bs "4 5 6 7" ++ [ch_nl]) 64 (chars "a.tns") EDGE_LIST (ex_team 1)).
  - cbn; tauto.
  - lia.
  - apply gap_nil.
  - split; [split; [reflexivity|]|]; repeat (apply Forall_cons; [try (split; [split; [discriminate|repeat constructor]|discriminate])|]); try apply Forall_nil;
      (eexists; eexists; split; [reflexivity|]; split; [reflexivity|]; repeat constructor).
  - repeat constructor.
  - exists [], 9%Z, (bs "end"), []. split; [reflexivity|]. split; [constructor|]. split; [discriminate|]. split; [discriminate|]. split; [repeat constructor|exact Logic.I].
  - vm_compute; discriminate.
  - left; reflexivity.
  - vm_compute; reflexivity.
Qed.

(** "1 2 3e-4\n" with floating-point weights: order 3. *)
Definition ex_fp : fpops := mkFp Z 0%Z (fun a d => (10 * a + d)%Z) (fun a b _ => (a + b)%Z) (fun a b => (a * b)%Z) Z.opp.
Definition ex_exp : tns_file :=
  mkTns [] [ mkTline (bs "1") [(bs " ", bs "2")] (bs " 3e-4") [] ].
Example C37_exponent_applies : exists t,
  tensor_open u32 u32 (Some (mkWmode _ (wr_float ex_fp) (cint i32))) 64 (chars "a.tns") (Some (tns_text ex_exp)) EDGE_LIST (ex_team 1) = Ok t /\ te_order t = 3%Z.
Proof.
  eexists. split; [vm_compute; reflexivity|].
  eapply (C37_exponent u32 u32 (mkWmode _ (wr_float ex_fp) (cint i32)) 2 ex_exp (mkTline (bs "1") [(bs " ", bs "2")] (bs " 3e-4") []) _ (bs " ") (bs "3") (bs "e-") (bs "4") [] 64 (chars "a.tns") EDGE_LIST (ex_team 1)).
  - cbn; tauto.
  - lia.
  - split; [discriminate|]. split; [apply gap_nil|]. cbn [ex_exp tn_lines].
    repeat split; try digits_t; try (repeat constructor; fail); try discriminate; try seps_t; intros _.
    exists (bs " "), 51%Z, (bs "e-4"). split; [reflexivity|]. split; [split; [discriminate|repeat constructor]|reflexivity].
  - reflexivity.
  - reflexivity.
  - split; [split; [discriminate|repeat constructor]|discriminate].
  - eexists; eexists; split; [reflexivity|]; split; [reflexivity|constructor].
  - split; [split; [discriminate|repeat constructor]|discriminate].
  - eexists; eexists; split; [reflexivity|]; split; [reflexivity|constructor].
  - exists [], []. repeat constructor.
  - apply Forall_cons; [split; [split; [discriminate|repeat constructor]|discriminate]|apply Forall_nil].
  - vm_compute; discriminate.
  - left; reflexivity.
  - vm_compute; reflexivity.
Qed.

(** "1 2\n3 4\n5 6", and with a space at the end. *)
Definition ex_full : tns_file := mkTns [] [ mkTline (bs "1") [(bs " ", bs "2")] [] []; mkTline (bs "3") [(bs " ", bs "4")] [] [] ].
Definition ex_last (post : list byte) : tline := mkTline (bs "5") [(bs " ", bs "6")] post [].
Lemma ex_cut_wf post : rest post -> wf_tcut false 2 ex_full (ex_last post).
Proof.
  intros Hp. split; [discriminate|]. split; [apply gap_nil|]. split; [|split; [reflexivity|split; [digits_t|split; [cbn [ex_last t_more]; seps_t|exact Hp]]]].
  cbn [ex_full tn_lines]. repeat (apply Forall_cons; [|]); try apply Forall_nil;
    (split; [reflexivity|]; split; [digits_t|]; split; [cbn [t_more]; seps_t|]; split; [split; [constructor|exact Logic.I]|]; split; [discriminate|apply gap_nil]).
Qed.
Lemma ex_full_plain : plain_first false ex_full.
Proof.
  split; cbn [ex_full tn_lines t_more t_post]; [apply Forall_cons; [split; [split; [discriminate|repeat constructor]|discriminate]|apply Forall_nil]|].
  exists [], []. repeat constructor.
Qed.
Example C37_unterminated_overrun_applies : tensor_open (W := unit) u32 u32 None 64 (chars "a.tns") (Some (bs "1 2" ++ ch_nl :: bs "3 4" ++ ch_nl :: bs "5 6")) AUTO ex_teams = UB.
Proof.
  apply (C37_unterminated_overrun u32 u32 2 ex_full (ex_last [])).
  - cbn; tauto.
  - cbn; tauto.
  - apply ex_cut_wf. split; [constructor|exact Logic.I].
  - exact ex_full_plain.
  - reflexivity.
  - lia.
  - split; [lia|vm_compute; discriminate].
  - auto_t.
  - fits_t.
  - vm_compute; lia.
Qed.
Example C37_unterminated_trailing_applies : exists t : tensor unit,
  tensor_open u32 u32 None 64 (chars "a.tns") (Some (bs "1 2" ++ ch_nl :: bs "3 4" ++ ch_nl :: bs "5 6 ")) AUTO ex_teams = Ok t /\
  te_order t = 2%Z /\ te_m t = 3%Z /\ te_c t = map Some [1; 2; 3; 4; 5; 6]%Z.
Proof.
  apply (C37_unterminated_trailing_text u32 u32 2 ex_full (ex_last (bs " "))).
  - cbn; tauto.
  - cbn; tauto.
  - apply ex_cut_wf. repeat constructor.
  - exact ex_full_plain.
  - discriminate.
  - split; [lia|vm_compute; discriminate].
  - auto_t.
  - fits_t.
  - vm_compute; lia.
Qed.

(** "1\n3\n5": the last entry is lost. *)
Definition ex_one : tns_file := mkTns [] [ mkTline (bs "1") [] [] []; mkTline (bs "3") [] [] [] ].
Example C37_unterminated_single_applies : exists t : tensor unit,
  tensor_open u32 u32 None 64 (chars "a.tns") (Some (bs "1" ++ ch_nl :: bs "3" ++ ch_nl :: bs "5")) AUTO ex_teams = Ok t /\
  te_order t = 1%Z /\ te_m t = 2%Z /\ te_c t = map Some [1; 3]%Z.
Proof.
  apply (C37_unterminated_single_label u32 u32 ex_one (mkTline (bs "5") [] [] [])).
  - cbn; tauto.
  - cbn; tauto.
  - split; [discriminate|]. split; [apply gap_nil|]. split; [|split; [reflexivity|split; [digits_t|split; [constructor|split; [constructor|exact Logic.I]]]]].
    cbn [ex_one tn_lines]. repeat (apply Forall_cons; [|]); try apply Forall_nil;
      (split; [reflexivity|]; split; [digits_t|]; split; [constructor|]; split; [split; [constructor|exact Logic.I]|]; split; [discriminate|apply gap_nil]).
  - split; [constructor|]. exists [], []. repeat constructor.
  - reflexivity.
  - split; [lia|vm_compute; discriminate].
  - auto_t.
  - fits_t.
  - vm_compute; lia.
Qed.

(** "1 2 -12\n3 4 7": with signed weights both are stored. *)
Definition ex_wfull : tns_file := mkTns [] [ mkTline (bs "1") [(bs " ", bs "2")] (bs " -12") [] ].
Example C37_unterminated_weighted_applies : exists t,
  tensor_open u32 u32 (Some (mkWmode _ (wreader (WSigned i32)) (cint i32))) 64 (chars "a.tns") (Some (bs "1 2 -12" ++ ch_nl :: bs "3 4 7")) AUTO ex_teams = Ok t /\
  te_order t = 2%Z /\ te_m t = 2%Z /\ te_c t = map Some [1; 2; 3; 4]%Z /\ te_w t = map Some [-12; 7]%Z.
Proof.
  apply (C37_unterminated_weighted (WSigned i32) u32 u32 2 ex_wfull (mkTline (bs "3") [(bs " ", bs "4")] (bs " 7") []) [-12]%Z 7%Z (cint i32)).
  - split; [cbn; auto 8|reflexivity].
  - pose proof ex_elw_weights as H. inversion H as [|? ? ? ? H1 H2]; subst. constructor; [exact H1|constructor].
  - exists (bs " "), [], (bs "7"). split; [reflexivity|]. split; [|split; [digits_t|]; split; [left; split; reflexivity|vm_compute; split; discriminate]].
    split; [split; [discriminate|repeat constructor]|repeat constructor].
  - exists (bs " "), 55%Z, []. split; [reflexivity|]. split; [split; [discriminate|repeat constructor]|reflexivity].
  - cbn; tauto.
  - cbn; tauto.
  - split; [discriminate|]. split; [apply gap_nil|]. split; [|split; [reflexivity|split; [digits_t|split; [cbn [t_more]; seps_t|repeat constructor]]]].
    apply Forall_cons; [|apply Forall_nil]. split; [reflexivity|]. split; [digits_t|]. split; [cbn [t_more]; seps_t|]. split; [repeat constructor|]. split; [|apply gap_nil].
    intros _. exists (bs " -"), 49%Z, (bs "2"). split; [reflexivity|]. split; [split; [discriminate|repeat constructor]|reflexivity].
  - split; cbn [ex_wfull tn_lines t_more t_post]; [apply Forall_cons; [split; [split; [discriminate|repeat constructor]|discriminate]|apply Forall_nil]|].
    exists (bs " -"), 49%Z, (bs "2"), []. split; [reflexivity|]. split; [split; [split; [discriminate|repeat constructor]|discriminate]|].
    split; [reflexivity|]. split; [repeat constructor|]. exists [], []. repeat constructor.
  - split; [lia|vm_compute; discriminate].
  - auto_t.
  - fits_t.
  - vm_compute; lia.
Qed.

Example C37_page_multiple_applies : tensor_open (W := unit) u32 u32 None 4 (chars "a.tns") (Some (bs "1 2" ++ [ch_nl])) EDGE_LIST ex_teams = UB.
Proof. apply C37_page_multiple_overrun; [discriminate|lia|reflexivity|left; reflexivity|vm_compute; lia]. Qed.

(** "1 2\n3 4\n5 # x\n": one label too few on the last line. *)
Example C37_short_last_line_applies : tensor_open (W := unit) u32 u32 None 64 (chars "a.tns")
  (Some (bs "1 2" ++ ch_nl :: bs "3 4" ++ ch_nl :: bs "5 # x" ++ [ch_nl])) AUTO ex_teams = UB.
Proof.
  apply (C37_short_last_line u32 u32 2 ex_full (mkTline (bs "5") [] (bs " # x") [])).
  - cbn; tauto.
  - cbn; tauto.
  - destruct (ex_cut_wf [] ltac:(split; [constructor|exact Logic.I])) as (A & B & C & _). split; [exact A|]. split; [exact B|]. split; [exact C|].
    split; [cbn; lia|]. split; [digits_t|]. split; [constructor|]. split; [split; [repeat constructor; discriminate|reflexivity]|].
    split; [apply gap_nil|]. split; [repeat constructor|constructor].
  - exact ex_full_plain.
  - split; [lia|vm_compute; discriminate].
  - auto_t.
  - fits_t.
  - vm_compute; lia.
Qed.
