(** * P_GraphIso: C53, adjacency files whose first vertices have no neighbours *)

From Coq Require Import String Permutation.
From Verif Require Import Base Reader Sched SchedLemmas Spec SpecGraph ReaderLemmas Coo CooLemmas CooSplit CooMain Safe ElSpec ElFinal Ascii Csr SpecCsr Codec Bin SpecBin BinLemmas BinSave BinLoad Graph GraphLemmas GraphMain GraphFinal Load BinOpen P_Bin P_Csr P_Graph P_GraphEx.
Open Scope list_scope.
Notation length := List.length.

Lemma lines_from_cur s : forall cur, lines_from cur s = match lines s with [] => [] | l :: ls => (cur ++ l) :: ls end.
Proof.
  unfold lines. induction s as [|c s IH]; intros cur; cbn [lines_from app]; [reflexivity|].
  destruct (is_nl c); [rewrite app_nil_r; reflexivity|]. rewrite (IH (cur ++ [c])), (IH [c]).
  destruct (lines_from [] s); [reflexivity|]. rewrite <- app_assoc. reflexivity.
Qed.

Lemma numerals_skip a s : Forall (fun c => is_digit c = false) a -> numerals (a ++ s) = numerals s.
Proof. unfold numerals. induction 1 as [|c a Hc _ IH]; cbn [app numerals_from]; [reflexivity|]. rewrite Hc. exact IH. Qed.

Fixpoint nls (s : list byte) : nat := match s with [] => 0 | c :: s' => if is_nl c then S (nls s') else nls s' end.

Lemma rows_gap g b : Forall (fun c => is_digit c = false) g -> (exists b', b = b' ++ [ch_nl]) ->
  adj_rows (g ++ b) = repeat [] (nls g) ++ adj_rows b.
Proof.
  intros Hg Hb. unfold adj_rows, lines.
  assert (G : forall cur, Forall (fun c => is_digit c = false) cur ->
    map (fun l => map dval (numerals l)) (lines_from cur (g ++ b)) = repeat [] (nls g) ++ map (fun l => map dval (numerals l)) (lines_from [] b)).
  { induction Hg as [|c g Hc _ IH]; intros cur Hcur; cbn [app lines_from nls repeat].
    - rewrite lines_from_cur. fold (lines b). destruct (lines b) as [|l ls]; [reflexivity|]. cbn [map]. rewrite numerals_skip by exact Hcur. reflexivity.
    - destruct (is_nl c).
      + cbn [map repeat app]. rewrite IH by constructor. rewrite <- (app_nil_r cur), numerals_skip by exact Hcur. reflexivity.
      + apply IH. apply Forall_app. split; [exact Hcur|]. constructor; [exact Hc|constructor]. }
  apply G. constructor.
Qed.

Lemma lines_ne b : forall cur, lines_from cur (b ++ [ch_nl]) <> [].
Proof.
  induction b as [|y b IH]; intros cur; cbn [app lines_from].
  - change (is_nl ch_nl) with true. discriminate.
  - destruct (is_nl y); [discriminate|apply IH].
Qed.

Lemma first_row_ne b : adj_body b -> exists r rs, adj_rows b = r :: rs /\ r <> [].
Proof.
  intros (_ & (c & b' & -> & Hc) & (b2 & E)). unfold adj_rows, lines. cbn [lines_from].
  assert (Hnl : is_nl c = false) by (unfold is_nl, is_digit, ch_0, ch_9, ch_nl in *; lia). rewrite Hnl. cbn [app].
  rewrite lines_from_cur.
  assert (Hl : lines b' <> []).
  { destruct b2 as [|x b2]; cbn [app] in E; injection E as -> E; [unfold is_nl, is_digit, ch_0, ch_9, ch_nl in *; lia|]. subst b'.
    apply lines_ne. }
  destruct (lines b') as [|l ls]; [congruence|]. cbn [map]. eexists _, _. split; [reflexivity|].
  cbn [app]. unfold numerals. cbn [numerals_from]. rewrite Hc. cbn [app].
  assert (G : forall s cur, cur <> [] -> numerals_from cur s <> []).
  { clear. induction s as [|x s IH]; intros cur Hcur; cbn [numerals_from]; [destruct cur; [congruence|discriminate]|].
    destruct (is_digit x); [apply IH; destruct cur; discriminate|]. destruct cur; [congruence|discriminate]. }
  specialize (G l [c]). destruct (numerals_from [c] l); [elim G; congruence|discriminate].
Qed.

(** The lines between the header and the first number, and the body: all the
    lines after the header.  They have no comments. *)
Definition all_rows (f : adj_file) : list (list Z) := adj_rows (a_gap f ++ a_body f).
Definition no_comment_lines (f : adj_file) : Prop := Forall (fun c => is_cmt c = false) (a_gap f).

Lemma all_rows_split f : wf_adj f -> no_comment_lines f ->
  exists k r rs, adj_rows (a_body f) = r :: rs /\ r <> [] /\ all_rows f = repeat [] k ++ r :: rs.
Proof.
  intros Hf Hc. destruct Hf as (_ & _ & _ & _ & _ & _ & Hg & Hb).
  destruct (first_row_ne _ Hb) as (r & rs & E & Hr). exists (nls (a_gap f)), r, rs. split; [exact E|]. split; [exact Hr|].
  unfold all_rows. rewrite <- E. apply rows_gap; [|apply Hb].
  unfold no_comment_lines in Hc. clear - Hg Hc. induction Hg; inv Hc; try constructor; auto; try congruence.
Qed.

(** ** C53 *)

(** Numbered from 0, the first line after the header empty, an honest header:
    the file is rejected. *)
Theorem C53_zero_based_rejected : forall L O f pg fn ft ch,
  is_ity L -> is_ity O -> wf_adj f -> no_comment_lines f -> off_page pg (adj_text f) -> as_graph ft fn (adj_text f) -> graph_fits L O f ->
  0 < gc_T (lc_graph ch) -> has_zero (a_body f) ->
  nth_error (all_rows f) 0 = Some [] ->
  dval (a_n f) = Z.of_nat (length (all_rows f)) ->
  csr_open (W:=unit) L O None pg fn (Some (adj_text f)) ft ch = Throw EError.
Proof.
  intros L O f pg fn ft ch HL HO Hf Hc Hpg Hg Hfit HT Hz H0 Hn.
  destruct (all_rows_split f Hf Hc) as (k & r & rs & Eb & Hr & Ea).
  destruct (C34_header_checked L O f pg fn ft ch (adj_rows (a_body f)) HL HO Hf Hpg Hg Hfit HT (or_introl (conj Hz eq_refl))) as [_ H].
  apply H. intros [_ Hle]. rewrite Hn, Ea, Eb, app_length, repeat_length in Hle.
  destruct k as [|k]; [|cbn in Hle; lia]. rewrite Ea in H0. cbn in H0. injection H0 as H0. congruence.
Qed.
Print Assumptions C53_zero_based_rejected.

(** Numbered from 1, the first two lines empty: also rejected. *)
Theorem C53_one_based_rejected : forall L O f pg fn ft ch,
  is_ity L -> is_ity O -> wf_adj f -> no_comment_lines f -> off_page pg (adj_text f) -> as_graph ft fn (adj_text f) -> graph_fits L O f ->
  0 < gc_T (lc_graph ch) -> ~ has_zero (a_body f) ->
  nth_error (all_rows f) 0 = Some [] -> nth_error (all_rows f) 1 = Some [] ->
  dval (a_n f) = Z.of_nat (length (all_rows f)) ->
  csr_open (W:=unit) L O None pg fn (Some (adj_text f)) ft ch = Throw EError.
Proof.
  intros L O f pg fn ft ch HL HO Hf Hc Hpg Hg Hfit HT Hz H0 H1 Hn.
  destruct (all_rows_split f Hf Hc) as (k & r & rs & Eb & Hr & Ea).
  destruct (C34_header_checked L O f pg fn ft ch ([] :: adj_rows (a_body f)) HL HO Hf Hpg Hg Hfit HT (or_intror (conj Hz eq_refl))) as [_ H].
  apply H. intros [_ Hle]. rewrite Hn, Ea, Eb, app_length, repeat_length in Hle. rewrite Ea in H0, H1.
  destruct k as [|[|k]]; [cbn in H0; injection H0 as H0; congruence|cbn in H1; injection H1 as H1; congruence|cbn in Hle; lia].
Qed.
Print Assumptions C53_one_based_rejected.

(** Numbered from 1, only the first line empty, an honest header: accepted, and
    line [i] becomes row [i - 1] - while the numbers in the rows, which also
    count from 1, are stored as they are, and without the empty line (C35) line
    [i] becomes row [i]. *)
Theorem C53_one_based_misnumbered : forall L O f pg fn ft ch r,
  is_ity L -> is_ity O -> wf_adj f -> no_comment_lines f -> off_page pg (adj_text f) -> as_graph ft fn (adj_text f) -> graph_fits L O f ->
  0 < gc_T (lc_graph ch) -> ~ has_zero (a_body f) ->
  nth_error (all_rows f) 0 = Some [] -> nth_error (all_rows f) 1 = Some r -> r <> [] ->
  dval (a_n f) = Z.of_nat (length (all_rows f)) ->
  (Z.of_nat (length (concat (all_rows f))) = dval (a_m f) \/ Z.of_nat (length (concat (all_rows f))) = 2 * dval (a_m f))%Z ->
  exists c, csr_open (W:=unit) L O None pg fn (Some (adj_text f)) ft ch = Ok c /\ represents false c (unweighted (all_rows f)).
Proof.
  intros L O f pg fn ft ch r0 HL HO Hf Hc Hpg Hg Hfit HT Hz H0 H1 Hr0 Hn Hm.
  destruct (all_rows_split f Hf Hc) as (k & r & rs & Eb & Hr & Ea).
  assert (Ek : k = 1).
  { rewrite Ea in H0, H1. destruct k as [|[|k]]; [cbn in H0; injection H0 as H0; congruence|reflexivity|cbn in H1; injection H1 as H1; congruence]. }
  subst k. cbn [repeat app] in Ea. rewrite <- Eb in Ea.
  destruct (C34_header_checked L O f pg fn ft ch ([] :: adj_rows (a_body f)) HL HO Hf Hpg Hg Hfit HT (or_intror (conj Hz eq_refl))) as [H _].
  rewrite Ea in Hn, Hm |- *.
  destruct H as (c & E & Hs & Hcn); [split; [exact Hm|lia]|]. exists c. split; [exact E|].
  apply stores_represents; [exact Hs|]. rewrite Hcn. exact Hn.
Qed.
Print Assumptions C53_one_based_misnumbered.

(** ** Examples *)
(** Vertex 0 has no neighbours. *)
Definition ex_iso0 : adj_file := mkAdj [] (chars "4") (chars " ") (chars "2") [] (chars nl)
  (chars ("2 3" ++ nl ++ "1" ++ nl ++ "1 0" ++ nl)).
(** Vertex 1 has no neighbours: 2 - 3. *)
Definition ex_iso1 : adj_file := mkAdj [] (chars "3") (chars " ") (chars "1") [] (chars nl)
  (chars ("3" ++ nl ++ "2" ++ nl)).
Definition ex_iso2 : adj_file := mkAdj [] (chars "4") (chars " ") (chars "1") [] (chars (nl ++ nl))
  (chars ("4" ++ nl ++ "3" ++ nl)).

Ltac wfi := unfold wf_adj; split; [constructor|];
  split; [split; [discriminate|repeat constructor]|]; split; [discriminate|]; split; [wf|]; split; [split; [discriminate|repeat constructor]|];
  split; [split; [repeat constructor|reflexivity]|]; split; [wf|];
  split; [repeat constructor|]; split; [eexists; eexists; split; reflexivity|].
Ltac nz := unfold has_zero; match goal with |- ~ In _ ?l => let l' := eval vm_compute in l in change l with l' end; intros H; repeat (destruct H as [H|H]; [discriminate|]); destruct H.

Example C53_zero_based_applies :
  wf_adj ex_iso0 /\ no_comment_lines ex_iso0 /\ off_page 4096 (adj_text ex_iso0) /\ graph_fits u32 u64 ex_iso0 /\
  has_zero (a_body ex_iso0) /\ all_rows ex_iso0 = [[]; [2; 3]; [1]; [1; 0]]%Z /\ dval (a_n ex_iso0) = 4%Z /\
  csr_open (W:=unit) u32 u64 None 4096 [] (Some (adj_text ex_iso0)) GRAPH (ex_gch 2) = Throw EError.
Proof.
  split; [wfi; exists (chars ("2 3" ++ nl ++ "1" ++ nl ++ "1 0")); reflexivity|]. split; [repeat constructor|]. split; [split; [lia|discriminate]|].
  split; [fits|]. split; [unfold has_zero; match goal with |- In _ ?l => let l' := eval vm_compute in l in change l with l' end; simpl; auto 10|].
  split; [reflexivity|]. split; [reflexivity|]. vm_compute. reflexivity.
Qed.

Example C53_misnumbered_applies : exists c,
  wf_adj ex_iso1 /\ no_comment_lines ex_iso1 /\ off_page 4096 (adj_text ex_iso1) /\ graph_fits u32 u64 ex_iso1 /\
  ~ has_zero (a_body ex_iso1) /\ all_rows ex_iso1 = [[]; [3]; [2]]%Z /\ dval (a_n ex_iso1) = 3%Z /\
  csr_open (W:=unit) u32 u64 None 4096 [] (Some (adj_text ex_iso1)) GRAPH (ex_gch 2) = Ok c /\
  cs_off c = map Some [0; 0; 1; 2]%Z /\ cs_end c = map Some [3; 2]%Z /\ cs_n c = 3%Z.
Proof.
  eexists. split; [wfi; exists (chars ("3" ++ nl ++ "2")); reflexivity|]. split; [repeat constructor|]. split; [split; [lia|discriminate]|].
  split; [fits|]. split; [nz|]. split; [reflexivity|]. split; [reflexivity|]. split; [vm_compute; reflexivity|]. repeat split.
Qed.

Example C53_one_based_applies :
  wf_adj ex_iso2 /\ no_comment_lines ex_iso2 /\ off_page 4096 (adj_text ex_iso2) /\ graph_fits u32 u64 ex_iso2 /\
  ~ has_zero (a_body ex_iso2) /\ all_rows ex_iso2 = [[]; []; [4]; [3]]%Z /\
  csr_open (W:=unit) u32 u64 None 4096 [] (Some (adj_text ex_iso2)) GRAPH (ex_gch 3) = Throw EError.
Proof.
  split; [wfi; exists (chars ("4" ++ nl ++ "3")); reflexivity|]. split; [repeat constructor|]. split; [split; [lia|discriminate]|].
  split; [fits|]. split; [nz|]. split; [reflexivity|]. vm_compute; reflexivity.
Qed.
