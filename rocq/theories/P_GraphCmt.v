(** * Properties C54, C55: adjacency files with comments in the body, and without
    a newline at the end *)

From Coq Require Import String Permutation.
From Verif Require Import Base Reader Sched SchedLemmas Spec SpecGraph ReaderLemmas Coo CooLemmas CooSplit CooMain Safe ElSpec ElFinal Ascii Csr SpecCsr Codec Bin SpecBin BinLemmas BinSave BinLoad Graph GraphLemmas GraphMain GraphFinal Load BinOpen P_Bin P_Csr P_Graph P_GraphEx.
Open Scope list_scope.
Notation length := List.length.

(** ** Lines with comments *)
Fixpoint lastd (p : bool) (t : list byte) : bool := match t with [] => p | c :: t' => lastd (is_digit c) t' end.
Lemma lastd_last a z p : lastd p (a ++ [z]) = is_digit z.
Proof. revert p; induction a as [|c a IH]; intros p; [reflexivity|]. apply IH. Qed.
Lemma quiet_text t r : Forall (fun c => is_nl c = false /\ is_cmt c = false) t -> forall p, quiet (lastd p t) r -> quiet p (t ++ r).
Proof. induction 1 as [|c t [_ Hc] _ IH]; intros p H; [exact H|]. cbn [app quiet lastd] in *. split; [congruence|]. apply IH. exact H. Qed.

Lemma quiet_in c r : Forall (fun b => is_digit b = false /\ is_nl b = false) c -> quiet false r ->
  quiet_line (c ++ ch_nl :: r) /\ quiet false (c ++ ch_nl :: r).
Proof.
  intros Hc Hr. induction Hc as [|x c [Hd Hn] _ [IH1 IH2]].
  - cbn [app quiet_line quiet]. split; [exact I|]. split; [discriminate|]. exact Hr.
  - cbn [app quiet_line quiet]. rewrite Hd, Hn. split; [auto|]. split; [auto|exact IH2].
Qed.
Lemma quiet_note c r : comment c -> quiet false r -> quiet false (c ++ ch_nl :: r).
Proof.
  intros (x & t & -> & Hx & Ht) Hr. destruct (quiet_in t r Ht Hr) as [H1 H2]. cbn [app quiet]. split; [auto|]. destruct (cmt_junk x Hx) as [-> _]. exact H2.
Qed.
Lemma quiet_more cs r : Forall comment cs -> quiet false r -> quiet false (concat (map (fun c => c ++ [ch_nl]) cs) ++ r).
Proof.
  induction 1 as [|c cs Hc _ IH]; intros Hr; [exact Hr|]. cbn [map concat]. rewrite <- !app_assoc. apply quiet_note; [exact Hc|]. apply IH. exact Hr.
Qed.
Lemma quiet_nl p r : quiet false r -> quiet p (ch_nl :: r).
Proof. intros H. cbn [quiet]. split; [discriminate|exact H]. Qed.
Lemma quiet_cl l r : wf_cline l -> quiet false r -> quiet false (cl_bytes l ++ r).
Proof.
  intros (H1 & H2 & H3) Hr. unfold cl_bytes. rewrite <- !app_assoc. apply quiet_text; [exact H1|]. cbn [app].
  pose proof (quiet_more _ _ H3 Hr) as Hm. destruct (cl_note l) as [|x t].
  - apply quiet_nl. exact Hm.
  - destruct (H2 ltac:(discriminate)) as [Hc (a & z & E & Hz)]. rewrite E, lastd_last, Hz. apply quiet_note; [exact Hc|exact Hm].
Qed.
Lemma quiet_cls ls : Forall wf_cline ls -> quiet false (cl_body ls).
Proof. induction 1 as [|l ls Hl _ IH]; [exact I|]. unfold cl_body. cbn [map concat]. apply quiet_cl; assumption. Qed.

Lemma strip_text t r : Forall (fun c => is_nl c = false /\ is_cmt c = false) t -> strip (t ++ r) = t ++ strip r.
Proof. unfold strip. induction 1 as [|c t [_ Hc] _ IH]; [reflexivity|]. cbn [app strip_from]. rewrite Hc, IH. reflexivity. Qed.
Lemma strip_in c r : Forall (fun b => is_digit b = false /\ is_nl b = false) c -> strip_from InComment (c ++ ch_nl :: r) = strip_from AfterComment r.
Proof. induction 1 as [|x c [_ Hn] _ IH]; [reflexivity|]. cbn [app strip_from]. rewrite Hn. exact IH. Qed.
Lemma strip_more cs r : Forall comment cs -> strip_from AfterComment (concat (map (fun c => c ++ [ch_nl]) cs) ++ r) = strip_from AfterComment r.
Proof.
  induction 1 as [|c cs (x & t & -> & Hx & Ht) _ IH]; [reflexivity|]. cbn [map concat]. rewrite <- !app_assoc. cbn [app strip_from]. rewrite Hx, strip_in by exact Ht. exact IH.
Qed.
Lemma strip_after r : match r with [] => True | c :: _ => is_cmt c = false end -> strip_from AfterComment r = ch_nl :: strip r.
Proof. destruct r as [|c r]; [reflexivity|]. intros H. unfold strip. cbn [strip_from]. rewrite H. reflexivity. Qed.

Lemma cl_hd ls : Forall wf_cline ls -> match cl_body ls with [] => True | c :: _ => is_cmt c = false end.
Proof.
  destruct 1 as [|l ls (H1 & H2 & _) _]; [exact I|]. unfold cl_body. cbn [map concat]. unfold cl_bytes. destruct (cl_text l) as [|c t].
  - destruct (cl_note l) as [|x n]; [reflexivity|]. destruct (H2 ltac:(discriminate)) as [_ (a & z & E & _)]. destruct a; discriminate.
  - inv H1. cbn. apply H3.
Qed.

Lemma strip_cl l r : wf_cline l -> match r with [] => True | c :: _ => is_cmt c = false end ->
  strip (cl_bytes l ++ r) = cl_text l ++ ch_nl :: match cl_note l, cl_more l with [], _ :: _ => [ch_nl] | _, _ => [] end ++ strip r.
Proof.
  intros (H1 & H2 & H3) Hr. unfold cl_bytes. rewrite <- !app_assoc, strip_text by exact H1. f_equal. cbn [app].
  destruct (cl_note l) as [|x n].
  - cbn [app]. unfold strip at 1. cbn [strip_from]. change (is_cmt ch_nl) with false. cbn [app]. f_equal. fold (strip (concat (map (fun c => c ++ [ch_nl]) (cl_more l)) ++ r)).
    destruct (cl_more l) as [|c cs]; [reflexivity|]. inv H3. destruct H4 as (y & t & -> & Hy & Ht).
    cbn [map concat]. rewrite <- !app_assoc. unfold strip at 1. cbn [app strip_from]. rewrite Hy, strip_in, strip_more, strip_after by assumption. reflexivity.
  - destruct (H2 ltac:(discriminate)) as [(y & t & E & Hy & Ht) _]. injection E as -> ->. unfold strip at 1. cbn [app strip_from].
    rewrite Hy, strip_in, strip_more, strip_after by assumption. reflexivity.
Qed.

Lemma adj_rows_line t r : Forall (fun c => is_nl c = false) t -> adj_rows (t ++ ch_nl :: r) = map dval (numerals t) :: adj_rows r.
Proof. intros H. unfold adj_rows, lines. rewrite lines_from_line by exact H. reflexivity. Qed.
Lemma text_nonl l : wf_cline l -> Forall (fun c => is_nl c = false) (cl_text l).
Proof. intros (H & _). eapply Forall_impl; [|exact H]. intros a [Ha _]; exact Ha. Qed.

Lemma cl_rows_ok ls : Forall wf_cline ls -> adj_rows (strip (cl_body ls)) = cl_rows ls.
Proof.
  induction 1 as [|l ls Hl Hls IH]; [reflexivity|]. unfold cl_body, cl_rows. cbn [map concat]. fold (cl_body ls). fold (cl_rows ls).
  rewrite strip_cl; [|exact Hl|apply cl_hd; exact Hls]. rewrite adj_rows_line by (apply text_nonl; exact Hl). rewrite <- app_comm_cons. f_equal.
  destruct (cl_note l), (cl_more l); cbn [app]; rewrite ?IH; try reflexivity.
  change (ch_nl :: strip (cl_body ls)) with ([] ++ ch_nl :: strip (cl_body ls)). rewrite adj_rows_line by constructor. rewrite IH. reflexivity.
Qed.

Lemma numerals_line t : Forall (fun c => is_nl c = false) t -> forall cur r, numerals_from cur (t ++ ch_nl :: r) = numerals_from cur t ++ numerals r.
Proof.
  induction 1 as [|c t Hc _ IH]; intros cur r; cbn [app numerals_from].
  - change (is_digit ch_nl) with false. unfold numerals. destruct cur; reflexivity.
  - rewrite !IH. destruct (is_digit c); [reflexivity|]. destruct cur; reflexivity.
Qed.
Lemma cl_numerals ls : Forall wf_cline ls -> numerals (strip (cl_body ls)) = concat (map (fun l => numerals (cl_text l)) ls).
Proof.
  induction 1 as [|l ls Hl Hls IH]; [reflexivity|]. unfold cl_body. cbn [map concat]. fold (cl_body ls).
  rewrite strip_cl; [|exact Hl|apply cl_hd; exact Hls]. unfold numerals at 1. rewrite numerals_line by (apply text_nonl; exact Hl). f_equal.
  rewrite <- IH. destruct (cl_note l), (cl_more l); reflexivity.
Qed.
Lemma cl_zero_ok ls : Forall wf_cline ls -> (has_zero (strip (cl_body ls)) <-> cl_zero ls).
Proof.
  intros H. unfold has_zero, cl_zero. rewrite cl_numerals by exact H. rewrite in_concat. split.
  - intros (x & Hx & Hi). apply in_map_iff in Hx as (l & <- & Hl). eauto.
  - intros (l & Hl & Hi). eexists. split; [apply in_map_iff; exists l; split; [reflexivity|exact Hl]|exact Hi].
Qed.
Lemma cl_count ls : Forall wf_cline ls -> length (numerals (strip (cl_body ls))) = length (concat (cl_rows ls)).
Proof.
  intros H. rewrite cl_numerals by exact H. clear H. unfold cl_rows. induction ls as [|l ls IH]; [reflexivity|]. cbn [map concat]. rewrite concat_app, !app_length, IH. f_equal.
  unfold cl_row. destruct (cl_note l), (cl_more l); cbn [concat app]; rewrite ?app_nil_r, ?map_length; reflexivity.
Qed.

(** ** Reading *)

(** What is read fits the types: the header, the number [k] of numbers, the rows
    [rows] and one more, the labels and one more. *)
Definition rows_fit (L O : ity) (f : adj_file) (rows : list (list Z)) (k : nat) : Prop :=
  (dval (a_n f) <= imax L)%Z /\ (2 * dval (a_m f) <= imax O)%Z /\ room L (Z.of_nat (S (length rows))) /\
  (Z.of_nat k <= imax O)%Z /\ Forall (fun v => v < imax L)%Z (concat rows).

Definition offsets_of (rows : list (list Z)) : list (option Z) :=
  map (fun v => Some (Z.of_nat (length (concat (firstn v rows))))) (seq 0 (S (length rows))).

Lemma q_read L O OS f pg rows M rows' ch : is_ity L -> is_ity O -> is_ity OS -> wf_head f -> quiet false (a_body f) ->
  rows = adj_rows (strip (a_body f)) -> M = length (numerals (strip (a_body f))) -> 0 < length rows ->
  off_page pg (adj_text f) -> rows_fit L O f rows M -> (Z.of_nat M <= imax OS)%Z -> 0 < gc_T ch ->
  (has_zero (strip (a_body f)) /\ rows' = rows) \/ (~ has_zero (strip (a_body f)) /\ rows' = [] :: rows) ->
  read_graph (W:=unit) L O OS (mkMem (adj_text f) pg) 0 (flen (mkMem (adj_text f) pg)) ch =
    if (negb (Z.of_nat M =? 2 * dval (a_m f)) && negb (Z.of_nat M =? dval (a_m f)))%Z then Throw EError
    else if (Z.of_nat (length rows') <? dval (a_n f))%Z then Throw EError
    else Ok (mkCsr (offsets_of rows') (map Some (concat rows) ++ repeat None (M - length (concat rows))) [] (dval (a_n f)) (Z.of_nat M)
               (Some (Z.of_nat (length rows'))) (Some (max_of (concat rows) + 1)%Z)).
Proof.
  intros HL HO HOS Hf Hq Er EM Hpos Hpg (F1 & F2 & F3 & F4 & F5) F6 HT Hz. rewrite Er, EM in *.
  assert (Em : (0 <= dval (a_m f))%Z) by (apply dval_nonneg; apply Hf).
  set (zb := has_z (toks (a_body f))).
  assert (Erows : rows' = (if zb then [] else [[]]) ++ adj_rows (strip (a_body f))).
  { pose proof (has_z_zero (strip (a_body f))) as Z. fold (toks (a_body f)) in Z. fold zb in Z. destruct Hz as [[H1 ->]|[H1 ->]].
    - apply Z in H1. rewrite H1. reflexivity.
    - destruct zb; [elim H1; apply Z; reflexivity|reflexivity]. }
  assert (El : length rows' = (if zb then 0 else 1) + length (adj_rows (strip (a_body f)))) by (rewrite Erows; destruct zb; reflexivity).
  assert (Eo : gen_off f = offsets_of rows').
  { unfold gen_off, offsets_of. fold zb. rewrite Erows. destruct zb; [apply rows_offsets|apply rows_offsets1]. }
  rewrite (read_graph_gen f Hf (mkMem (adj_text f) pg) eq_refl); try assumption.
  - fold zb. rewrite <- El, Eo. reflexivity.
  - apply slack_off_page. exact Hpg.
  - lia.
  - fold zb. destruct zb; [|exact F3]. destruct F3 as [G1 G2]. split; [lia|]. destruct G2 as [?|?]; [left; assumption|right; lia].
Qed.

Lemma csr_open_head L O f pg fn ft ch : wf_head f -> as_graph ft fn (adj_text f) ->
  csr_open (W:=unit) L O None pg fn (Some (adj_text f)) ft ch = read_graph L O O (mkMem (adj_text f) pg) 0 (flen (mkMem (adj_text f) pg)) (lc_graph ch).
Proof.
  intros Hf Hg. assert (Hne : adj_text f <> []).
  { destruct Hf as (_ & [H _] & _). intros E. unfold adj_text in E. apply app_eq_nil in E as [_ E]. apply app_eq_nil in E as [E _]. congruence. }
  unfold csr_open. rewrite open_reading by exact Hne. cbn [bind]. unfold csr_read.
  rewrite (graph_detect pg fn _ ft Hne Hg). cbn [bind csr_direct is_some]. unfold with_reader. cbn [reading rf_mem rf_fp List.length].
  destruct (read_graph L O O _ _ _ _); reflexivity.
Qed.

(** The numbers and rows the header announces, against [k] numbers and the rows
    the reader makes: cf. [header_ok]. *)
Definition announces (f : adj_file) (k : nat) (rows : list (list Z)) : Prop :=
  (Z.of_nat k = dval (a_m f) \/ Z.of_nat k = 2 * dval (a_m f))%Z /\ (dval (a_n f) <= Z.of_nat (length rows))%Z.

Lemma rd_cases f k rows (A : Type) (x : res A) : (announces f k rows ->
   (if (negb (Z.of_nat k =? 2 * dval (a_m f)) && negb (Z.of_nat k =? dval (a_m f)))%Z then Throw EError
    else if (Z.of_nat (length rows) <? dval (a_n f))%Z then Throw EError else x) = x) /\
  (~ announces f k rows ->
   (if (negb (Z.of_nat k =? 2 * dval (a_m f)) && negb (Z.of_nat k =? dval (a_m f)))%Z then Throw EError
    else if (Z.of_nat (length rows) <? dval (a_n f))%Z then Throw EError else x) = Throw EError).
Proof.
  unfold announces. destruct (Z.eqb_spec (Z.of_nat k) (2 * dval (a_m f))); destruct (Z.eqb_spec (Z.of_nat k) (dval (a_m f))); cbn [negb andb];
    destruct (Z.ltb_spec (Z.of_nat (length rows)) (dval (a_n f))); split; intros H'; try reflexivity; exfalso; lia.
Qed.

(** ** C54 *)

(** A body of lines with comments: the arrays hold the rows [cl_rows], or the
    file is rejected. *)
Theorem C54_rows : forall L O f pg fn ft ch ls rows,
  is_ity L -> is_ity O -> wf_head f -> a_body f = cl_body ls -> Forall wf_cline ls ->
  off_page pg (adj_text f) -> as_graph ft fn (adj_text f) ->
  rows_fit L O f (cl_rows ls) (length (concat (cl_rows ls))) -> 0 < gc_T (lc_graph ch) ->
  (cl_zero ls /\ rows = cl_rows ls) \/ (~ cl_zero ls /\ rows = [] :: cl_rows ls) ->
  (announces f (length (concat rows)) rows ->
     exists c, csr_open (W:=unit) L O None pg fn (Some (adj_text f)) ft ch = Ok c /\ stores_rows c rows /\ cs_n c = dval (a_n f) /\
       cs_nrows c = Some (Z.of_nat (length rows)) /\ cs_ncols c = Some (max_of (concat rows) + 1)%Z) /\
  (~ announces f (length (concat rows)) rows -> csr_open (W:=unit) L O None pg fn (Some (adj_text f)) ft ch = Throw EError).
Proof.
  intros L O f pg fn ft ch ls rows HL HO Hf Eb Hls Hpg Hg Hfit HT Hz. rewrite csr_open_head by assumption.
  assert (Ec : concat rows = concat (cl_rows ls)) by (destruct Hz as [[_ ->]|[_ ->]]; reflexivity).
  rewrite (q_read L O O f pg (cl_rows ls) (length (concat (cl_rows ls))) rows (lc_graph ch)); try assumption.
  - rewrite <- Ec. rewrite Nat.sub_diag. cbn [repeat]. rewrite app_nil_r.
    split; intros Hh; [|apply rd_cases; exact Hh]. eexists. split; [apply rd_cases; exact Hh|].
    split; [split; [reflexivity|]; split; reflexivity|]. repeat split.
  - rewrite Eb. apply quiet_cls. exact Hls.
  - rewrite Eb. symmetry. apply cl_rows_ok. exact Hls.
  - rewrite Eb. symmetry. apply cl_count. exact Hls.
  - destruct ls as [|l ls]; [|cbn; lia]. destruct Hf as (_ & _ & _ & _ & _ & _ & _ & (c & b & E & _)). rewrite Eb in E. discriminate.
  - apply Hfit.
  - rewrite Eb. pose proof (cl_zero_ok ls Hls) as Z. tauto.
Qed.
Print Assumptions C54_rows.

Lemma cl_rows_plain ls : Forall (fun l => cl_more l = []) ls -> cl_rows ls = map cl_row ls.
Proof. unfold cl_rows. induction 1 as [|l ls Hl _ IH]; [reflexivity|]. cbn [map concat]. rewrite Hl, IH. destruct (cl_note l); reflexivity. Qed.

(** Comments at the ends of lines do no harm: with an honest header, exactly the
    rows of the file. *)
Theorem C54_notes_harmless : forall L O f pg fn ft ch ls,
  is_ity L -> is_ity O -> wf_head f -> a_body f = cl_body ls -> Forall wf_cline ls -> Forall (fun l => cl_more l = []) ls ->
  off_page pg (adj_text f) -> as_graph ft fn (adj_text f) ->
  let rows := map cl_row ls in
  rows_fit L O f rows (length (concat rows)) -> 0 < gc_T (lc_graph ch) -> cl_zero ls ->
  dval (a_n f) = Z.of_nat (length ls) ->
  (Z.of_nat (length (concat rows)) = dval (a_m f) \/ Z.of_nat (length (concat rows)) = 2 * dval (a_m f))%Z ->
  exists c, csr_open L O None pg fn (Some (adj_text f)) ft ch = Ok c /\ represents false c (unweighted rows).
Proof.
  intros L O f pg fn ft ch ls HL HO Hf Eb Hls Hmore Hpg Hg rows Hfit HT Hz Hn Hm.
  pose proof (cl_rows_plain ls Hmore) as Er. fold rows in Er.
  destruct (C54_rows L O f pg fn ft ch ls rows) as [H _]; try assumption; [rewrite Er; exact Hfit|left; rewrite Er; auto|].
  assert (El : length rows = length ls) by apply map_length.
  destruct H as (c & E & Hs & Hc & _); [split; [exact Hm|rewrite El; lia]|]. exists c. split; [exact E|]. apply stores_represents; [exact Hs|]. rewrite Hc, El. exact Hn.
Qed.
Print Assumptions C54_notes_harmless.

(** Comment lines between rows: with an honest header the file is accepted, and
    every row after the comment lines is stored one place too late, the last one
    behind [n()]. *)
Theorem C54_comment_lines_shift : forall L O f pg fn ft ch ls1 l ls2,
  is_ity L -> is_ity O -> wf_head f -> a_body f = cl_body (ls1 ++ l :: ls2) -> Forall wf_cline (ls1 ++ l :: ls2) ->
  Forall (fun l => cl_more l = []) (ls1 ++ ls2) -> cl_note l = [] -> cl_more l <> [] ->
  off_page pg (adj_text f) -> as_graph ft fn (adj_text f) ->
  let rows := map cl_row (ls1 ++ l :: ls2) in
  rows_fit L O f ([] :: rows) (length (concat rows)) -> 0 < gc_T (lc_graph ch) -> cl_zero (ls1 ++ l :: ls2) ->
  dval (a_n f) = Z.of_nat (length rows) ->
  (Z.of_nat (length (concat rows)) = dval (a_m f) \/ Z.of_nat (length (concat rows)) = 2 * dval (a_m f))%Z ->
  exists c, csr_open (W:=unit) L O None pg fn (Some (adj_text f)) ft ch = Ok c /\ cs_n c = Z.of_nat (length rows) /\
    stores_rows c (map cl_row (ls1 ++ [l]) ++ [] :: map cl_row ls2).
Proof.
  intros L O f pg fn ft ch ls1 l ls2 HL HO Hf Eb Hls Hmore Hnote Hl Hpg Hg rows Hfit HT Hz Hn Hm.
  apply Forall_app in Hmore as [M1 M2].
  assert (Er : cl_rows (ls1 ++ l :: ls2) = map cl_row (ls1 ++ [l]) ++ [] :: map cl_row ls2).
  { unfold cl_rows. rewrite map_app, concat_app. cbn [map concat]. fold (cl_rows ls1) (cl_rows ls2). rewrite !cl_rows_plain by assumption.
    rewrite Hnote. destruct (cl_more l) as [|x cs]; [congruence|]. rewrite map_app, <- app_assoc. reflexivity. }
  set (rows' := cl_rows (ls1 ++ l :: ls2)) in *.
  assert (Ec : concat rows' = concat rows).
  { rewrite Er. unfold rows. rewrite !map_app, !concat_app. cbn [map concat app]. rewrite app_nil_r, <- app_assoc. reflexivity. }
  assert (El : length rows' = S (length rows)).
  { rewrite Er. unfold rows. rewrite !app_length, !map_length, !app_length. cbn [length]. rewrite map_length. lia. }
  destruct (C54_rows L O f pg fn ft ch (ls1 ++ l :: ls2) rows') as [H _]; try assumption; [|left; auto|].
  { fold rows'. destruct Hfit as (F1 & F2 & F3 & F4 & F5). cbn [concat app] in F5. cbn [length] in F3.
    split; [exact F1|]. split; [exact F2|]. split; [rewrite El; exact F3|]. rewrite Ec. split; assumption. }
  destruct H as (c & E & Hs & Hc & _); [split; [rewrite Ec; exact Hm|rewrite El; lia]|]. exists c. split; [exact E|]. split; [lia|].
  rewrite <- Er. exact Hs.
Qed.
Print Assumptions C54_comment_lines_shift.

(** ** C55 *)

(** The last line is not ended by a newline: [b ++ newline :: tail], no comments,
    a number on the last line. *)
Definition unended (body b tail : list byte) : Prop :=
  body = b ++ ch_nl :: tail /\ Forall (fun c => is_cmt c = false) body /\ Forall (fun c => is_nl c = false) tail /\ numerals tail <> [].
(** All its rows. *)
Definition lines_rows (b tail : list byte) : list (list Z) := adj_rows (b ++ [ch_nl]) ++ [map dval (numerals tail)].

Lemma existsb_nonl s : Forall (fun c => is_nl c = false) s -> existsb is_nl s = false.
Proof. induction 1 as [|c s Hc _ IH]; [reflexivity|]. cbn [existsb]. rewrite Hc. exact IH. Qed.

Lemma lines_app a : forall cur r, lines_from cur (a ++ ch_nl :: r) = lines_from cur (a ++ [ch_nl]) ++ lines r.
Proof. induction a as [|c a IH]; intros cur r; cbn [app lines_from]; [reflexivity|]. destruct (is_nl c); rewrite IH; reflexivity. Qed.
Lemma numerals_app a : forall cur r, numerals_from cur (a ++ ch_nl :: r) = numerals_from cur (a ++ [ch_nl]) ++ numerals r.
Proof.
  induction a as [|c a IH]; intros cur r; cbn [app numerals_from].
  - change (is_digit ch_nl) with false. cbn iota. destruct cur; reflexivity.
  - rewrite (IH (cur ++ [c]) r), (IH [] r). destruct (is_digit c); [reflexivity|]. destruct cur; reflexivity.
Qed.

Lemma unended_read L O f pg rows' b tail ch : is_ity L -> is_ity O -> wf_head f -> unended (a_body f) b tail ->
  let rows := adj_rows (b ++ [ch_nl]) in
  off_page pg (adj_text f) -> rows_fit L O f rows (length (concat (lines_rows b tail))) -> 0 < gc_T ch ->
  (has_zero (a_body f) /\ rows' = rows) \/ (~ has_zero (a_body f) /\ rows' = [] :: rows) ->
  let M := length (concat (lines_rows b tail)) in
  read_graph (W:=unit) L O O (mkMem (adj_text f) pg) 0 (flen (mkMem (adj_text f) pg)) ch =
    if (negb (Z.of_nat M =? 2 * dval (a_m f)) && negb (Z.of_nat M =? dval (a_m f)))%Z then Throw EError
    else if (Z.of_nat (length rows') <? dval (a_n f))%Z then Throw EError
    else Ok (mkCsr (offsets_of rows') (map Some (concat rows) ++ repeat None (length (numerals tail))) [] (dval (a_n f)) (Z.of_nat M)
               (Some (Z.of_nat (length rows'))) (Some (max_of (concat rows) + 1)%Z)).
Proof.
  intros HL HO Hf (Eb & Hc & Ht & Hne) rows Hpg Hfit HT Hz M.
  assert (Es : strip (a_body f) = a_body f) by (apply strip_nocmt; exact Hc).
  assert (Er : rows = adj_rows (strip (a_body f))).
  { rewrite Es, Eb. unfold rows, adj_rows, lines. rewrite (lines_app b [] tail). unfold lines at 1. rewrite (lines_none tail) by (apply existsb_nonl; exact Ht). rewrite app_nil_r. reflexivity. }
  assert (EM : M = length (concat rows) + length (numerals tail)).
  { unfold M, lines_rows. rewrite concat_app, app_length. cbn [concat]. rewrite app_nil_r, map_length. reflexivity. }
  assert (EM2 : M = length (numerals (strip (a_body f)))).
  { rewrite EM, Es, Eb. unfold numerals at 2. rewrite (numerals_app b [] tail), app_length. fold (numerals (b ++ [ch_nl])). rewrite nums_rows. reflexivity. }
  rewrite (q_read L O O f pg rows M rows' ch); try assumption.
  - replace (M - length (concat rows)) with (length (numerals tail)) by lia. reflexivity.
  - apply nocmt_quiet. exact Hc.
  - apply rows_pos.
  - apply Hfit.
  - rewrite Es. exact Hz.
Qed.

(** Numbered from 0, with an honest header: rejected. *)
Theorem C55_zero_based_rejected : forall L O f pg fn ft ch b tail,
  is_ity L -> is_ity O -> wf_head f -> unended (a_body f) b tail -> off_page pg (adj_text f) -> as_graph ft fn (adj_text f) ->
  let rows := lines_rows b tail in
  rows_fit L O f rows (length (concat rows)) -> 0 < gc_T (lc_graph ch) -> has_zero (a_body f) ->
  dval (a_n f) = Z.of_nat (length rows) ->
  csr_open (W:=unit) L O None pg fn (Some (adj_text f)) ft ch = Throw EError.
Proof.
  intros L O f pg fn ft ch b tail HL HO Hf Hu Hpg Hg rows Hfit HT Hz Hn. rewrite csr_open_head by assumption.
  assert (El : length rows = S (length (adj_rows (b ++ [ch_nl])))) by (unfold rows, lines_rows; rewrite app_length; cbn [length]; lia).
  rewrite (unended_read L O f pg (adj_rows (b ++ [ch_nl])) b tail (lc_graph ch)); try assumption; [| |left; auto].
  - apply rd_cases. intros [_ H]. lia.
  - destruct Hfit as (F1 & F2 & F3 & F4 & F5). split; [exact F1|]. split; [exact F2|]. split; [|split; [exact F4|]].
    + rewrite El in F3. destruct F3 as [G1 G2]. split; [lia|]. destruct G2 as [?|?]; [left; assumption|right; lia].
    + unfold rows, lines_rows in F5. rewrite concat_app in F5. apply Forall_app in F5. apply F5.
Qed.
Print Assumptions C55_zero_based_rejected.

(** Numbered from 1, with an honest header: accepted, but the numbers of the
    last line are counted and never stored, and its row is empty. *)
Theorem C55_one_based_truncated : forall L O f pg fn ft ch b tail,
  is_ity L -> is_ity O -> wf_head f -> unended (a_body f) b tail -> off_page pg (adj_text f) -> as_graph ft fn (adj_text f) ->
  let rows := lines_rows b tail in
  rows_fit L O f rows (length (concat rows)) -> 0 < gc_T (lc_graph ch) -> ~ has_zero (a_body f) ->
  dval (a_n f) = Z.of_nat (length rows) ->
  (Z.of_nat (length (concat rows)) = dval (a_m f) \/ Z.of_nat (length (concat rows)) = 2 * dval (a_m f))%Z ->
  exists c, csr_open (W:=unit) L O None pg fn (Some (adj_text f)) ft ch = Ok c /\
    cs_n c = Z.of_nat (length rows) /\ cs_m c = Z.of_nat (length (concat rows)) /\
    cs_end c = map Some (concat (adj_rows (b ++ [ch_nl]))) ++ repeat None (length (numerals tail)) /\
    length (cs_off c) = S (length rows) /\
    cell_of (length rows) (cs_off c) = Ok (cs_m c - Z.of_nat (length (numerals tail)))%Z.
Proof.
  intros L O f pg fn ft ch b tail HL HO Hf Hu Hpg Hg rows Hfit HT Hz Hn Hm. rewrite csr_open_head by assumption.
  set (rows0 := adj_rows (b ++ [ch_nl])).
  assert (El : length rows = S (length rows0)) by (unfold rows, lines_rows; rewrite app_length; cbn [length]; fold rows0; lia).
  assert (EM : length (concat rows) = length (concat rows0) + length (numerals tail)).
  { unfold rows, lines_rows. rewrite concat_app, app_length. cbn [concat]. rewrite app_nil_r, map_length. reflexivity. }
  rewrite (unended_read L O f pg ([] :: rows0) b tail (lc_graph ch)); try assumption; [| |right; auto].
  - eexists. split; [apply rd_cases; split; [exact Hm|cbn [length]; lia]|]. cbn [cs_n cs_m cs_end cs_off]. split; [exact Hn|]. split; [reflexivity|]. split; [reflexivity|].
    split; [unfold offsets_of; rewrite map_length, seq_length; cbn [length]; lia|]. unfold offsets_of.
    rewrite (CsrLemmas.cell_of_map _ _ _ (length rows)); [|rewrite SchedMore.nth_error_seq' by (cbn [length]; lia); reflexivity].
    f_equal. rewrite El. cbn [firstn concat app]. rewrite firstn_all. fold rows. rewrite EM. lia.
  - destruct Hfit as (F1 & F2 & F3 & F4 & F5). split; [exact F1|]. split; [exact F2|]. split; [|split; [exact F4|]].
    + fold rows0. rewrite El in F3. destruct F3 as [G1 G2]. split; [lia|]. destruct G2 as [?|?]; [left; assumption|right; lia].
    + unfold rows, lines_rows in F5. rewrite concat_app in F5. apply Forall_app in F5. apply F5.
Qed.
Print Assumptions C55_one_based_truncated.

(** ** Examples *)
Ltac wfh := unfold wf_head; split; [constructor|];
  split; [split; [discriminate|repeat constructor]|]; split; [discriminate|]; split; [wf|]; split; [split; [discriminate|repeat constructor]|];
  split; [split; [repeat constructor|reflexivity]|]; split; [wf|]; eexists; eexists; split; reflexivity.
Ltac rfits := unfold rows_fit, room; repeat match goal with |- _ /\ _ => split end;
  [vm_compute; discriminate|vm_compute; discriminate|vm_compute; discriminate|right; vm_compute; reflexivity|vm_compute; discriminate|
   match goal with |- Forall _ ?l => let l' := eval vm_compute in l in change l with l' end; repeat constructor].

(** A comment at the end of a line. *)
Definition ex_note : list cline := [mkCline (chars "1 2") [] []; mkCline (chars "0 ") (chars "% x") []; mkCline (chars "0") [] []].
(** A comment line. *)
Definition ex_cline : list cline := [mkCline (chars "1 2") [] [chars "% x"; chars "#"]; mkCline (chars "0") [] []; mkCline (chars "0") [] []].
Definition ex_cmt (ls : list cline) : adj_file := mkAdj [] (chars "3") (chars " ") (chars "2") [] [] (cl_body ls).

Ltac wfc := repeat (constructor; [split; [repeat constructor|split; [|first [constructor|repeat (constructor; [eexists; eexists; split; [reflexivity|split; [reflexivity|repeat constructor]]|]); constructor]]]|]); [..|constructor].

Example C54_notes_apply : exists c,
  wf_head (ex_cmt ex_note) /\ Forall wf_cline ex_note /\ off_page 4096 (adj_text (ex_cmt ex_note)) /\
  rows_fit u32 u64 (ex_cmt ex_note) (map cl_row ex_note) 4 /\ cl_zero ex_note /\ map cl_row ex_note = [[1; 2]; [0]; [0]]%Z /\
  csr_open (W:=unit) u32 u64 None 4096 [] (Some (adj_text (ex_cmt ex_note))) GRAPH (ex_gch 2) = Ok c /\
  cs_off c = map Some [0; 2; 3; 4]%Z /\ cs_end c = map Some [1; 2; 0; 0]%Z.
Proof.
  eexists. split; [wfh|]. split.
  { constructor; [|constructor; [|constructor; [|constructor]]]; (split; [repeat constructor|]); (split; [|repeat constructor]); try (intros H; exfalso; apply H; reflexivity).
    intros _. split; [eexists; eexists; split; [reflexivity|]; split; [reflexivity|repeat constructor]|]. exists (chars "0"), 32%Z. split; reflexivity. }
  split; [split; [lia|discriminate]|]. split; [rfits|]. split; [eexists; split; [right; left; reflexivity|]; vm_compute; auto|]. split; [reflexivity|].
  split; [vm_compute; reflexivity|]. split; reflexivity.
Qed.

Example C54_lines_apply : exists c,
  wf_head (ex_cmt ex_cline) /\ Forall wf_cline ex_cline /\ off_page 4096 (adj_text (ex_cmt ex_cline)) /\
  rows_fit u32 u64 (ex_cmt ex_cline) ([] :: map cl_row ex_cline) 4 /\ cl_zero ex_cline /\ map cl_row ex_cline = [[1; 2]; [0]; [0]]%Z /\
  csr_open (W:=unit) u32 u64 None 4096 [] (Some (adj_text (ex_cmt ex_cline))) GRAPH (ex_gch 2) = Ok c /\ cs_n c = 3%Z /\
  cs_off c = map Some [0; 2; 2; 3; 4]%Z /\ cs_end c = map Some [1; 2; 0; 0]%Z.
Proof.
  eexists. split; [wfh|]. split.
  { constructor; [|constructor; [|constructor; [|constructor]]]; (split; [repeat constructor|]); (split; [intros H; exfalso; apply H; reflexivity|]); [|constructor|constructor].
    constructor; [eexists; eexists; split; [reflexivity|]; split; [reflexivity|repeat constructor]|]. constructor; [|constructor].
    eexists; eexists; split; [reflexivity|]; split; [reflexivity|repeat constructor]. }
  split; [split; [lia|discriminate]|]. split; [rfits|]. split; [eexists; split; [right; left; reflexivity|]; vm_compute; auto|]. split; [reflexivity|].
  split; [vm_compute; reflexivity|]. repeat split.
Qed.

(** The hypotheses on comments are needed: a comment that touches a number makes
    the second pass count its line twice, and a digit in a comment is read as a
    number by a thread that starts there. *)
Definition ex_raw (n m : string) (body : string) : list byte := chars (n ++ " " ++ m ++ nl ++ body).
Example C54_touching : exists c,
  csr_open (W:=unit) u32 u64 None 4096 [] (Some (ex_raw "3" "2" ("1 2% x" ++ nl ++ "0" ++ nl ++ "0" ++ nl))) GRAPH (ex_gch 1) = Ok c /\ cs_n c = 3%Z /\
  cs_off c = map Some [0; 2; 2; 3]%Z /\ cs_m c = 4%Z.
Proof. eexists. split; [vm_compute; reflexivity|]. repeat split. Qed.
Example C54_digits : exists c c',
  csr_open (W:=unit) u32 u64 None 4096 [] (Some (ex_raw "2" "2" ("1 % 7 7" ++ nl ++ "0" ++ nl))) GRAPH (ex_gch 1) = Ok c /\ cs_m c = 2%Z /\ cs_end c = map Some [1; 0]%Z /\
  csr_open (W:=unit) u32 u64 None 4096 [] (Some (ex_raw "2" "2" ("1 % 7 7" ++ nl ++ "0" ++ nl))) GRAPH (ex_gch 2) = Ok c' /\ cs_m c' = 4%Z /\ cs_end c' = map Some [1; 0; 7; 0]%Z.
Proof. eexists. eexists. split; [vm_compute; reflexivity|]. split; [reflexivity|]. split; [reflexivity|]. split; [vm_compute; reflexivity|]. split; reflexivity. Qed.

Definition ex_un0 : adj_file := mkAdj [] (chars "3") (chars " ") (chars "2") [] [] (chars ("1" ++ nl ++ "0 2" ++ nl ++ "1")).
Definition ex_un1 : adj_file := mkAdj [] (chars "3") (chars " ") (chars "2") [] [] (chars ("2" ++ nl ++ "1 3" ++ nl ++ "2")).
Example C55_zero_applies :
  wf_head ex_un0 /\ unended (a_body ex_un0) (chars ("1" ++ nl ++ "0 2")) (chars "1") /\ off_page 4096 (adj_text ex_un0) /\
  rows_fit u32 u64 ex_un0 (lines_rows (chars ("1" ++ nl ++ "0 2")) (chars "1")) 4 /\ has_zero (a_body ex_un0) /\
  lines_rows (chars ("1" ++ nl ++ "0 2")) (chars "1") = [[1]; [0; 2]; [1]]%Z /\
  csr_open (W:=unit) u32 u64 None 4096 [] (Some (adj_text ex_un0)) GRAPH (ex_gch 2) = Throw EError.
Proof.
  split; [wfh|]. split; [split; [reflexivity|]; split; [repeat constructor|]; split; [repeat constructor|discriminate]|]. split; [split; [lia|discriminate]|]. split; [rfits|].
  split; [vm_compute; auto|]. split; [reflexivity|]. vm_compute; reflexivity.
Qed.
Example C55_one_applies : exists c,
  wf_head ex_un1 /\ unended (a_body ex_un1) (chars ("2" ++ nl ++ "1 3")) (chars "2") /\ off_page 4096 (adj_text ex_un1) /\
  rows_fit u32 u64 ex_un1 (lines_rows (chars ("2" ++ nl ++ "1 3")) (chars "2")) 4 /\ ~ has_zero (a_body ex_un1) /\
  lines_rows (chars ("2" ++ nl ++ "1 3")) (chars "2") = [[2]; [1; 3]; [2]]%Z /\
  csr_open (W:=unit) u32 u64 None 4096 [] (Some (adj_text ex_un1)) GRAPH (ex_gch 2) = Ok c /\
  cs_off c = map Some [0; 0; 1; 3]%Z /\ cs_end c = [Some 2; Some 1; Some 3; None]%Z /\ cs_n c = 3%Z /\ cs_m c = 4%Z.
Proof.
  eexists. split; [wfh|]. split; [split; [reflexivity|]; split; [repeat constructor|]; split; [repeat constructor|discriminate]|]. split; [split; [lia|discriminate]|]. split; [rfits|].
  split; [unfold has_zero; match goal with |- ~ In _ ?l => let l' := eval vm_compute in l in change l with l' end; intros H; repeat (destruct H as [H|H]; [discriminate|]); destruct H|].
  split; [reflexivity|]. split; [vm_compute; reflexivity|]. repeat split.
Qed.
