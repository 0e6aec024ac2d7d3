(** * The hypotheses of C36 are met *)

From Coq Require Import String.
From Verif Require Import Base Reader Sched Spec SpecFp SpecTensor Coo ElSpec ElExamples Codec Bin SpecBin Load Tensor P_Bin P_Tensor P_BinEx.
Open Scope list_scope.

(** "# t\n1 2 3\n4, 5, 6 \r\n%\n7\t0 1#x\n" *)
Definition ex_tns : tns_file :=
  mkTns (bs "# t" ++ [ch_nl])
    [ mkTline (bs "1") [(bs " ", bs "2"); (bs "  ", bs "3")] [] [];
      mkTline (bs "4") [(bs ", ", bs "5"); (bs ",", bs "6")] [32; 13]%Z (bs "%" ++ [ch_nl]);
      mkTline (bs "7") [([9%Z], bs "0"); (bs " ", bs "1")] (bs "#x") [] ].
Lemma ex_tns_wf : wf_tns false 3 ex_tns.
Proof.
  split; [discriminate|]. split; cbn [ex_tns tn_head tn_lines].
  - apply (gap_cmt _ ch_hash (bs " t") []); [reflexivity|repeat constructor|apply gap_nil].
  - repeat split; try digits_t; try (repeat constructor; fail); try discriminate; try (apply gap_nil);
      try (apply Forall_cons; [|apply Forall_cons; [|apply Forall_nil]]; (split; [split; [discriminate|repeat constructor]|digits_t])).
Qed.
Lemma ex_tns_plain : plain_first false ex_tns.
Proof.
  split; cbn [ex_tns tn_lines t_more t_post].
  - apply Forall_cons; [|apply Forall_cons; [|apply Forall_nil]]; (split; [split; [discriminate|repeat constructor]|discriminate]).
  - exists [], []. repeat constructor.
Qed.

Example C36_applies : exists t : tensor unit,
  tensor_open u8 u8 None 64 (chars "a.tns") (Some (tns_text ex_tns)) AUTO ex_teams = Ok t /\
  te_order t = 3%Z /\ te_m t = 3%Z /\ te_c t = map Some [1; 2; 3; 4; 5; 6; 7; 0; 1]%Z /\ te_w t = [].
Proof.
  apply (C36_tensor_text u8 u8 3 ex_tns 64 (chars "a.tns") AUTO ex_teams).
  - cbn; auto.
  - cbn; auto.
  - exact ex_tns_wf.
  - exact ex_tns_plain.
  - split; [lia|vm_compute; discriminate].
  - right. split; [reflexivity|]. split; [intros (b & r & E); vm_compute in E; discriminate|].
    split; intros (p & E); apply (f_equal (@rev byte)) in E; rewrite rev_app_distr in E; vm_compute in E; discriminate.
  - split; [vm_compute; repeat constructor; discriminate|]. split; [vm_compute; discriminate|]. split; vm_compute; discriminate.
  - vm_compute; lia.
Qed.

(** "1 2 -12\n3 0 7\n2 2 +4 \n" *)
Definition ex_tnsw : tns_file :=
  mkTns []
    [ mkTline (bs "1") [(bs " ", bs "2")] (bs " -12") [];
      mkTline (bs "3") [(bs " ", bs "0")] (bs " 7") [];
      mkTline (bs "2") [(bs " ", bs "2")] (bs " +4 ") [] ].
Lemma ex_tnsw_wf : wf_tns true 2 ex_tnsw.
Proof.
  split; [discriminate|]. split; cbn [ex_tnsw tn_head tn_lines]; [apply gap_nil|].
  repeat split; try digits_t; try (repeat constructor; fail); try discriminate; try apply gap_nil;
    try (apply Forall_cons; [|apply Forall_nil]; (split; [split; [discriminate|repeat constructor]|digits_t])); intros _.
  - exists (bs " -"), 49%Z, (bs "2"). split; [reflexivity|]. split; [split; [discriminate|repeat constructor]|reflexivity].
  - exists (bs " "), 55%Z, []. split; [reflexivity|]. split; [split; [discriminate|repeat constructor]|reflexivity].
  - exists (bs " +"), 52%Z, (bs " "). split; [reflexivity|]. split; [split; [discriminate|repeat constructor]|reflexivity].
Qed.
Lemma ex_tnsw_plain : plain_first true ex_tnsw.
Proof.
  split; cbn [ex_tnsw tn_lines t_more t_post].
  - apply Forall_cons; [|apply Forall_nil]; (split; [split; [discriminate|repeat constructor]|discriminate]).
  - exists (bs " -"), 49%Z, (bs "2"), []. split; [reflexivity|]. split; [split; [split; [discriminate|repeat constructor]|discriminate]|].
    split; [reflexivity|]. split; [repeat constructor|]. exists [], []. repeat constructor.
Qed.
Lemma ex_tnsw_weights : Forall2 (wpost (WSigned i32)) (map t_post (tn_lines ex_tnsw)) [-12; 7; 4]%Z.
Proof. exact ex_elw_weights. Qed.

Example C36_weighted_applies : exists t,
  tensor_open u32 u64 (Some (mkWmode _ (wreader (WSigned i32)) (cint i32))) 64 (chars "a.tns") (Some (tns_text ex_tnsw)) EDGE_LIST ex_teams = Ok t /\
  te_order t = 2%Z /\ te_m t = 3%Z /\ te_c t = map Some [1; 2; 3; 0; 2; 2]%Z /\ te_w t = map Some [-12; 7; 4]%Z.
Proof.
  apply (C36_tensor_weighted (WSigned i32) u32 u64 2 ex_tnsw [-12; 7; 4]%Z (cint i32) 64 (chars "a.tns") EDGE_LIST ex_teams).
  - split; [cbn; auto 8|reflexivity].
  - exact ex_tnsw_weights.
  - cbn; auto.
  - cbn; auto.
  - exact ex_tnsw_wf.
  - exact ex_tnsw_plain.
  - split; [lia|vm_compute; discriminate].
  - left; reflexivity.
  - split; [|split; [vm_compute; discriminate|]; split; vm_compute; discriminate].
    assert (E : tns_labels ex_tnsw = [1; 2; 3; 0; 2; 2]%Z) by reflexivity. rewrite E. repeat (apply Forall_cons; [vm_compute; discriminate|]). apply Forall_nil.
  - vm_compute; lia.
Qed.
