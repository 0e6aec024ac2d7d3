(** * Concrete adjacency files that meet the hypotheses of C34 and C35 *)

From Coq Require Import String.
From Verif Require Import Base Reader Sched Spec SpecGraph Coo ElSpec Ascii Csr SpecCsr Codec Bin SpecBin Graph Load P_Graph.
Open Scope list_scope.

Definition nl : string := String (Coq.Strings.Ascii.ascii_of_nat 10) EmptyString.

(** Undirected, numbered from 0, with a comment, blanks and an empty row. *)
Definition ex_g0 : adj_file := mkAdj (chars ("% a graph" ++ nl)) (chars "4") (chars " ") (chars "3") (chars " x") (chars ("# rows" ++ nl))
  (chars ("1 3" ++ nl ++ "0  2 " ++ nl ++ "1" ++ nl ++ "0" ++ nl)).
(** Numbered from 1; the last row is not empty. *)
Definition ex_g1 : adj_file := mkAdj [] (chars "3") (chars " ") (chars "2") [] []
  (chars ("2 3" ++ nl ++ "1" ++ nl ++ "1" ++ nl)).

Ltac wf := repeat first [apply gap_nil | apply gap_junk; [reflexivity|reflexivity|]].

Ltac fits := unfold graph_fits, room; repeat match goal with |- _ /\ _ => split end;
  [vm_compute; discriminate|vm_compute; discriminate|vm_compute; discriminate|right; vm_compute; reflexivity|vm_compute; discriminate|
   match goal with |- Forall _ ?l => let l' := eval vm_compute in l in change l with l' end; repeat constructor].

Lemma ex_g0_wf : wf_adj ex_g0.
Proof.
  unfold wf_adj. split; [apply (gap_cmt false 37%Z (chars " a graph") []); [reflexivity|repeat constructor|constructor]|].
  split; [split; [discriminate|repeat constructor]|]. split; [discriminate|]. split; [wf|]. split; [split; [discriminate|repeat constructor]|].
  split; [split; [repeat constructor|reflexivity]|]. split; [apply (gap_cmt false 35%Z (chars " rows") []); [reflexivity|repeat constructor|constructor]|].
  split; [repeat constructor|]. split; [eexists; eexists; split; reflexivity|]. exists (chars ("1 3" ++ nl ++ "0  2 " ++ nl ++ "1" ++ nl ++ "0")). reflexivity.
Qed.
Lemma ex_g1_wf : wf_adj ex_g1.
Proof.
  unfold wf_adj. split; [constructor|].
  split; [split; [discriminate|repeat constructor]|]. split; [discriminate|]. split; [wf|]. split; [split; [discriminate|repeat constructor]|].
  split; [split; [repeat constructor|reflexivity]|]. split; [constructor|].
  split; [repeat constructor|]. split; [eexists; eexists; split; reflexivity|]. exists (chars ("2 3" ++ nl ++ "1" ++ nl ++ "1")). reflexivity.
Qed.

Definition ex_gch (T : nat) : lchoice :=
  mkLchoice 1 [] (1, []) (1, []) (1, []) (mkGchoice T [1; 0; 1; 1] [1; 0; 1; 1; 0; 0; 1; 1; 1]) (mkChoice 1 0 [] [] [] [] []) [[1; 3]; [0; 2]] [0; 1].

Example C34_applies : exists c,
  is_ity u32 /\ is_ity u64 /\ wf_adj ex_g0 /\ off_page 4096 (adj_text ex_g0) /\ as_graph AUTO (chars "a.graph") (adj_text ex_g0) /\
  graph_fits u32 u64 ex_g0 /\ has_zero (a_body ex_g0) /\ header_ok ex_g0 4 /\ adj_rows (a_body ex_g0) = [[1; 3]; [0; 2]; [1]; [0]]%Z /\
  csr_open (W:=unit) u32 u64 None 4096 (chars "a.graph") (Some (adj_text ex_g0)) AUTO (ex_gch 2) = Ok c /\
  cs_off c = map Some [0; 2; 4; 5; 6]%Z /\ cs_end c = map Some [1; 3; 0; 2; 1; 0]%Z /\ cs_n c = 4%Z.
Proof.
  eexists. split; [cbn; tauto|]. split; [cbn; tauto|]. split; [exact ex_g0_wf|]. split; [split; [lia|discriminate]|].
  split; [right; split; [reflexivity|]; split; [intros (b & r & E); discriminate|exists (chars "a"); reflexivity]|].
  split; [fits|].
  split; [unfold has_zero; match goal with |- In _ ?l => let l' := eval vm_compute in l in change l with l' end; simpl; auto 10|].
  split; [split; [right; reflexivity|vm_compute; discriminate]|]. split; [reflexivity|].
  split; [vm_compute; reflexivity|].
  split; [reflexivity|]. split; reflexivity.
Qed.

Example C35_applies : exists c,
  wf_adj ex_g1 /\ off_page 4096 (adj_text ex_g1) /\ graph_fits i32 u64 ex_g1 /\ ~ has_zero (a_body ex_g1) /\ header_ok ex_g1 4 /\
  adj_rows (a_body ex_g1) = [[2; 3]; [1]; [1]]%Z /\ List.length (adj_text ex_g1) mod 12 = 0 /\
  csr_open (W:=unit) i32 u64 None 4096 [] (Some (adj_text ex_g1)) GRAPH (ex_gch 3) = Ok c /\
  cs_off c = map Some [0; 0; 2; 3; 4]%Z /\ cs_n c = 3%Z /\ cs_m c = 4%Z.
Proof.
  eexists. split; [exact ex_g1_wf|]. split; [split; [lia|discriminate]|].
  split; [fits|].
  split; [unfold has_zero; match goal with |- ~ In _ ?l => let l' := eval vm_compute in l in change l with l' end; intros H; repeat (destruct H as [H|H]; [discriminate|]); destruct H|].
  split; [split; [first [left; reflexivity|right; reflexivity]|vm_compute; discriminate]|]. split; [reflexivity|]. split; [reflexivity|].
  split; [vm_compute; reflexivity|].
  split; [reflexivity|]. split; reflexivity.
Qed.
