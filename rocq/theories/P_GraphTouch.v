(** * Property C62: a comment that touches a number in an adjacency file *)

From Coq Require Import String.
From Verif Require Import Base Reader Sched SchedLemmas Spec SpecFp SpecGraph SpecTouch ReaderLemmas Coo CooMain WeightLemmas ElSpec ElFinal Safe Term Ascii Csr SpecCsr Codec Bin SpecBin BinLemmas BinSave BinLoad BinOpen Graph GraphLemmas GraphMain GraphFinal GraphTerm Load LoadTerm P_Bin P_Graph P_GraphEx GraphTouch.
Notation length := List.length.
Open Scope list_scope.

(** Everything in the file fits the types. *)
Definition touch_fits (L O : ity) (f : adj_file) (ls : list tline) : Prop :=
  (dval (a_n f) <= imax L)%Z /\ (2 * dval (a_m f) <= imax O)%Z /\ room L (Z.of_nat (S (length ls))) /\
  (Z.of_nat (length (concat (tl_rows ls))) <= imax O)%Z /\ Forall (fun v => v < imax L)%Z (concat (tl_rows ls)).

(** The rows that reach the arrays: the first [length ls] of the rows with the
    extra empty ones, after an empty row 0 if no number is written [0]. *)
Definition touch_rows (ls : list tline) (rows : list (list Z)) : Prop :=
  (tl_zero ls /\ rows = firstn (length ls) (tl_extra ls)) \/ (~ tl_zero ls /\ rows = [] :: firstn (length ls) (tl_extra ls)).

Definition honest (f : adj_file) (ls : list tline) (k : nat) : Prop :=
  (Z.of_nat (length (concat (tl_rows ls))) = dval (a_m f) \/ Z.of_nat (length (concat (tl_rows ls))) = 2 * dval (a_m f))%Z /\
  (dval (a_n f) <= Z.of_nat k)%Z.

(** One thread reads a file whose lines may end with comments, comments that may
    contain digits and may follow a number immediately: *)
Theorem C62_one_thread : forall L O f ls rows pg fn ft ch,
  is_ity L -> is_ity O -> wf_head f -> a_body f = tl_body ls -> Forall wf_tline ls ->
  off_page pg (adj_text f) -> as_graph ft fn (adj_text f) -> touch_fits L O f ls -> gc_T (lc_graph ch) = 1 ->
  touch_rows ls rows ->
  let total := length (concat (tl_rows ls)) in
  (honest f ls (length rows) ->
    exists c, csr_open (W:=unit) L O None pg fn (Some (adj_text f)) ft ch = Ok c /\
      cs_m c = Z.of_nat total /\ cs_n c = dval (a_n f) /\ cs_nrows c = Some (Z.of_nat (length rows)) /\
      cs_ncols c = Some (max_of (concat rows) + 1)%Z /\
      cs_off c = map (fun v => Some (Z.of_nat (length (concat (firstn v rows))))) (seq 0 (S (length rows))) /\
      cs_end c = map Some (concat rows) ++ repeat None (total - length (concat rows))) /\
  (~ honest f ls (length rows) -> csr_open (W:=unit) L O None pg fn (Some (adj_text f)) ft ch = Throw EError).
Proof.
  intros L O f ls rows pg fn ft ch HL HO Hf Hb Hls Hpg Hg (F1 & F2 & F3 & F4 & F5) HT Hr total.
  assert (Hne : adj_text f <> []) by (destruct Hf as (_ & [H _] & _); intros E; unfold adj_text in E; apply app_eq_nil in E as [_ E]; apply app_eq_nil in E as [E _]; congruence).
  assert (E : csr_open (W:=unit) L O None pg fn (Some (adj_text f)) ft ch = read_graph L O O (mkMem (adj_text f) pg) 0 (flen (mkMem (adj_text f) pg)) (lc_graph ch)).
  { unfold csr_open. rewrite open_reading by exact Hne. cbn [bind]. unfold csr_read.
    rewrite (graph_detect pg fn _ ft Hne Hg). cbn [bind csr_direct is_some]. unfold with_reader. cbn [reading rf_mem rf_fp List.length].
    destruct (read_graph L O O _ _ _ _); reflexivity. }
  pose proof (has_z_tl ls) as Z. set (zb := has_z (concat (map (fun l => row_toks (tl_text l)) ls))) in *.
  set (seen := firstn (length ls) (tl_extra ls)) in *.
  assert (Lse : length seen = length ls) by (unfold seen; rewrite firstn_length; pose proof (extra_len ls); lia).
  assert (Erows : rows = (if zb then [] else [[]]) ++ seen).
  { destruct Hr as [[H1 ->]|[H1 ->]].
    - apply Z in H1. rewrite H1. reflexivity.
    - destruct zb; [elim H1; apply Z; reflexivity|reflexivity]. }
  assert (Ec : concat rows = concat seen) by (rewrite Erows; destruct zb; reflexivity).
  assert (El : length rows = (if zb then 0 else 1) + length ls) by (rewrite Erows, app_length, Lse; destruct zb; reflexivity).
  rewrite E. rewrite (read_graph_touch f Hf ls Hb Hls (mkMem (adj_text f) pg) eq_refl (slack_off_page _ _ Hpg) L O O HL HO HO F1); try assumption.
  2:{ fold zb. destruct zb; [|exact F3]. destruct F3 as [G1 G2]. split; [lia|]. destruct G2 as [?|?]; [left; assumption|right; lia]. }
  fold zb seen. rewrite <- El, <- Ec. fold total. unfold honest. fold total. split.
  - intros [H1 H2].
    assert (T : (negb (Z.of_nat total =? 2 * dval (a_m f)) && negb (Z.of_nat total =? dval (a_m f)))%Z = false).
    { destruct (Z.eqb_spec (Z.of_nat total) (2 * dval (a_m f))), (Z.eqb_spec (Z.of_nat total) (dval (a_m f))); cbn [negb andb]; try reflexivity. lia. }
    rewrite T. destruct (Z.ltb_spec (Z.of_nat (length rows)) (dval (a_n f))); [lia|]. eexists; split; [reflexivity|].
    cbn [cs_m cs_n cs_nrows cs_ncols cs_off cs_end]. repeat (split; [reflexivity|]). split; [|reflexivity].
    rewrite Erows, <- Lse. destruct zb; [apply rows_offsets|apply rows_offsets1].
  - intros H.
    destruct (Z.eqb_spec (Z.of_nat total) (2 * dval (a_m f))), (Z.eqb_spec (Z.of_nat total) (dval (a_m f))); cbn [negb andb]; try reflexivity;
    (destruct (Z.ltb_spec (Z.of_nat (length rows)) (dval (a_n f))); [reflexivity|]); exfalso; apply H; split; auto; lia.
Qed.
Print Assumptions C62_one_thread.

Lemma apart_extra ls : Forall (fun l => touches l = false) ls -> tl_extra ls = tl_rows ls.
Proof. unfold tl_extra, tl_rows. induction 1 as [|l ls Hl _ IH]; [reflexivity|]. cbn [map concat]. rewrite Hl, IH. reflexivity. Qed.

(** No comment touches a number: exactly the rows as written (after an empty row
    0 if no number is written [0]), even if comments contain digits. *)
Theorem C62_apart : forall L O f ls rows pg fn ft ch,
  is_ity L -> is_ity O -> wf_head f -> a_body f = tl_body ls -> Forall wf_tline ls ->
  off_page pg (adj_text f) -> as_graph ft fn (adj_text f) -> touch_fits L O f ls -> gc_T (lc_graph ch) = 1 ->
  Forall (fun l => touches l = false) ls ->
  (tl_zero ls /\ rows = tl_rows ls) \/ (~ tl_zero ls /\ rows = [] :: tl_rows ls) -> honest f ls (length rows) ->
  exists c, csr_open (W:=unit) L O None pg fn (Some (adj_text f)) ft ch = Ok c /\ stores_rows c rows /\
    cs_n c = dval (a_n f) /\ cs_nrows c = Some (Z.of_nat (length rows)) /\ cs_ncols c = Some (max_of (concat rows) + 1)%Z.
Proof.
  intros L O f ls rows pg fn ft ch HL HO Hf Hb Hls Hpg Hg Hfit HT Ha Hr Hh.
  assert (Ef : firstn (length ls) (tl_extra ls) = tl_rows ls).
  { rewrite apart_extra by exact Ha. replace (length ls) with (length (tl_rows ls)) by (unfold tl_rows; apply map_length). apply firstn_all. }
  destruct (C62_one_thread L O f ls rows pg fn ft ch HL HO Hf Hb Hls Hpg Hg Hfit HT) as [H _]; [unfold touch_rows; rewrite Ef; exact Hr|].
  destruct (H Hh) as (c & E & E1 & E2 & E3 & E4 & E5 & E6). exists c. split; [exact E|].
  assert (Ec : concat rows = concat (tl_rows ls)) by (destruct Hr as [[_ ->]|[_ ->]]; reflexivity).
  rewrite Ec, Nat.sub_diag, app_nil_r in E6. split; [|split; [exact E2|split; [exact E3|exact E4]]].
  split; [rewrite E1, Ec; reflexivity|]. split; [exact E5|]. rewrite Ec. exact E6.
Qed.
Print Assumptions C62_apart.

(** Some comment before the last line touches a number, and the last line has
    a number: the file is accepted, [m()] counts all its numbers, the last
    offset is less than [m()] and the last endpoint was never assigned. *)
Theorem C62_lost : forall L O f ls l rows pg fn ft ch,
  is_ity L -> is_ity O -> wf_head f -> a_body f = tl_body (ls ++ [l]) -> Forall wf_tline (ls ++ [l]) ->
  off_page pg (adj_text f) -> as_graph ft fn (adj_text f) -> touch_fits L O f (ls ++ [l]) -> gc_T (lc_graph ch) = 1 ->
  touch_rows (ls ++ [l]) rows -> honest f (ls ++ [l]) (length rows) ->
  (exists t, In t ls /\ touches t = true) -> tl_row l <> [] ->
  exists c k off, csr_open (W:=unit) L O None pg fn (Some (adj_text f)) ft ch = Ok c /\
    cs_m c = Z.of_nat (length (concat (tl_rows (ls ++ [l])))) /\ cs_m c = Z.of_nat (S k) /\
    nth_error (cs_end c) k = Some None /\ last (cs_off c) None = Some off /\ (off < cs_m c)%Z.
Proof.
  intros L O f ls l rows pg fn ft ch HL HO Hf Hb Hls Hpg Hg Hfit HT Hr Hh Ht Hl.
  destruct (C62_one_thread L O f (ls ++ [l]) rows pg fn ft ch HL HO Hf Hb Hls Hpg Hg Hfit HT Hr) as [H _].
  destruct (H Hh) as (c & E & E1 & _ & _ & _ & E2 & E3). clear H. set (total := length (concat (tl_rows (ls ++ [l])))) in *.
  assert (Lx : length (concat rows) < total).
  { assert (Ec : concat rows = concat (firstn (length (ls ++ [l])) (tl_extra (ls ++ [l])))) by (destruct Hr as [[_ ->]|[_ ->]]; reflexivity).
    rewrite Ec. unfold tl_extra. rewrite map_app, concat_app. fold (tl_extra ls).
    assert (G : S (length ls) <= length (tl_extra ls)).
    { destruct Ht as (t & Hin & Htt). clear - Hin Htt. unfold tl_extra. induction ls as [|x ls IH]; [destruct Hin|]. cbn [map concat length]. rewrite app_length. cbn [length].
      destruct Hin as [->|Hin]; [rewrite Htt; cbn [length]; pose proof (extra_len ls) as G; unfold tl_extra in G; lia|]. specialize (IH Hin). destruct (touches x); cbn [length]; lia. }
    rewrite firstn_app. replace (length (ls ++ [l]) - length (tl_extra ls)) with 0 by (rewrite app_length; cbn [length]; lia). cbn [firstn]. rewrite app_nil_r.
    pose proof (firstn_concat_len (length (ls ++ [l])) (tl_extra ls)) as G2. rewrite concat_extra in G2.
    unfold total, tl_rows. rewrite map_app, concat_app, app_length. fold (tl_rows ls). cbn [map concat]. rewrite app_nil_r.
    destruct (tl_row l); [congruence|]. rewrite !app_length in *. cbn [length] in *. lia. }
  clearbody total. exists c, (total - 1), (Z.of_nat (length (concat rows))).
  split; [exact E|]. split; [exact E1|]. split; [rewrite E1; lia|]. split; [|split].
  - rewrite E3, nth_error_app2 by (rewrite map_length; lia). rewrite map_length. apply nth_error_repeat. lia.
  - rewrite E2. replace (S (length rows)) with (length rows + 1) by lia.
    rewrite seq_app, map_app. cbn [map seq plus]. rewrite last_last, firstn_all. reflexivity.
  - rewrite E1. lia.
Qed.
Print Assumptions C62_lost.

(** Three rows numbered from 1; a comment with a digit in it touches the last
    number of the first row. *)
Definition ex_t1 : list tline := [mkTline (chars "2 3") (chars "#a 7"); mkTline (chars "1") []; mkTline (chars "1") []].
Definition ex_touch : adj_file := mkAdj [] (chars "3") (chars " ") (chars "2") [] [] (tl_body ex_t1).
Lemma ex_t1_wf : Forall wf_tline ex_t1.
Proof.
  constructor; [split; [repeat constructor|right; split; [|discriminate]; exists 35%Z, (chars "a 7"); split; [reflexivity|]; split; [reflexivity|]; repeat constructor]|].
  constructor; [split; [repeat constructor|left; reflexivity]|]. constructor; [split; [repeat constructor|left; reflexivity]|constructor].
Qed.
Lemma ex_touch_wf : wf_head ex_touch.
Proof.
  unfold wf_head. split; [constructor|].
  split; [split; [discriminate|repeat constructor]|]. split; [discriminate|]. split; [wf|]. split; [split; [discriminate|repeat constructor]|].
  split; [split; [repeat constructor|reflexivity]|]. split; [constructor|]. eexists; eexists; split; reflexivity.
Qed.
Example C62_applies : exists c,
  wf_head ex_touch /\ a_body ex_touch = tl_body ex_t1 /\ Forall wf_tline ex_t1 /\ off_page 4096 (adj_text ex_touch) /\
  as_graph GRAPH [] (adj_text ex_touch) /\ touch_fits u32 u64 ex_touch ex_t1 /\
  touch_rows ex_t1 [[]; [2; 3]; []; [1]]%Z /\ honest ex_touch ex_t1 4 /\
  (exists t, In t [mkTline (chars "2 3") (chars "#a 7"); mkTline (chars "1") []] /\ touches t = true) /\
  csr_open (W:=unit) u32 u64 None 4096 [] (Some (adj_text ex_touch)) GRAPH (ex_gch 1) = Ok c /\
  cs_m c = 4%Z /\ cs_off c = map Some [0; 0; 2; 2; 3]%Z /\ cs_end c = [Some 2; Some 3; Some 1; None]%Z.
Proof.
  eexists. split; [exact ex_touch_wf|]. split; [reflexivity|]. split; [exact ex_t1_wf|]. split; [split; [lia|discriminate]|]. split; [left; reflexivity|].
  split.
  { unfold touch_fits, room. split; [vm_compute; discriminate|]. split; [vm_compute; discriminate|]. split; [split; [vm_compute; discriminate|right; vm_compute; reflexivity]|].
    split; [vm_compute; discriminate|]. match goal with |- Forall _ ?l => let l' := eval vm_compute in l in change l with l' end; repeat constructor. }
  split.
  { right. split; [|reflexivity]. intros H. apply has_z_tl in H. discriminate H. }
  split; [split; [right; reflexivity|vm_compute; discriminate]|]. split; [eexists; split; [left; reflexivity|reflexivity]|].
  split; [vm_compute; reflexivity|]. split; [reflexivity|]. split; reflexivity.
Qed.

(** The same file with two threads: the extra row of the first thread is stored
    where the second stores the end of its first row, and which of the two stays
    depends on the interleaving; with three threads, one of them starts in the
    comment and takes its digit for a number, and the file is rejected. *)
Definition ex_tch (T : nat) (sched : list nat) : lchoice :=
  mkLchoice 1 [] (1, []) (1, []) (1, []) (mkGchoice T [] sched) (mkChoice 1 0 [] [] [] [] []) [] [].
Example C62_depends :
  let r T sched := csr_open (W:=unit) u32 u64 None 4096 [] (Some (adj_text ex_touch)) GRAPH (ex_tch T sched) in
  (exists c, r 2 [0; 0; 0; 0; 1; 1; 1; 1] = Ok c /\ cs_off c = map Some [0; 0; 2; 3; 4]%Z /\ cs_end c = map Some [2; 3; 1; 1]%Z) /\
  (exists c, r 2 [1; 1; 1; 1; 0; 0; 0; 0] = Ok c /\ cs_off c = map Some [0; 0; 2; 2; 4]%Z /\ cs_end c = map Some [2; 3; 1; 1]%Z) /\
  r 3 [] = Throw EError.
Proof.
  split; [eexists; split; [vm_compute; reflexivity|split; reflexivity]|]. split; [eexists; split; [vm_compute; reflexivity|split; reflexivity]|]. vm_compute. reflexivity.
Qed.
