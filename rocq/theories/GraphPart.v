(** * GraphPart: converting a CSR whose [n()] is less than the number of rows its arrays hold *)

From Coq Require Import Permutation.
From Verif Require Import Base Sched SchedLemmas SchedMore Safe Coo Ascii Csr ElSpec SpecText SpecCsr CsrLemmas CsrScatter CsrMain CsrBack.

Lemma upd_app_l {V} (v : V) (l r : list V) : forall i, i < length l -> upd i v (l ++ r) = upd i v l ++ r.
Proof.
  induction l as [|a l IH]; intros [|i] H; cbn [length] in H; try lia; cbn [app upd]; [reflexivity|]. rewrite IH by lia. reflexivity.
Qed.

Lemma aset_app {V} i (v : V) l l' r : aset i v l = Ok l' -> aset i v (l ++ r) = Ok (l' ++ r).
Proof.
  unfold aset. destruct (Nat.ltb_spec i (length l)) as [H|H]; [|discriminate]. intros E. injection E as <-.
  rewrite app_length. destruct (Nat.ltb_spec i (length l + length r)); [|lia]. rewrite upd_app_l by exact H. reflexivity.
Qed.

(** [k] more cells behind the coordinates. *)
Definition longer {W} (k : nat) (s : cst W) : cst W := mkCst (cx s ++ fresh k) (cy s ++ fresh k) (cw s).

Lemma longer_step {W} k i (s s' : cst W) : cexec i s = Ok s' -> cexec i (longer k s) = Ok (longer k s').
Proof.
  destruct i as [p v|p v|p v|a b]; cbn [cexec longer cx cy cw]; intros H.
  - apply bind_ok_inv in H as (x & Ex & H). injection H as <-. rewrite (aset_app _ _ _ _ _ Ex). reflexivity.
  - apply bind_ok_inv in H as (x & Ex & H). injection H as <-. rewrite (aset_app _ _ _ _ _ Ex). reflexivity.
  - apply bind_ok_inv in H as (x & Ex & H). injection H as <-. rewrite Ex. reflexivity.
  - apply bind_ok_inv in H as (x & Ex & H). rewrite Ex. cbn [bind]. destruct (b <? length (cw s)); [|discriminate]. injection H as <-. reflexivity.
Qed.

Lemma longer_all {W} k l : forall s s' : cst W, exec_all cexec l s = Ok s' -> exec_all cexec l (longer k s) = Ok (longer k s').
Proof.
  induction l as [|i l IH]; intros s s' H; cbn [exec_all] in *; [injection H as <-; reflexivity|].
  apply bind_ok_inv in H as (a & Ea & H). rewrite (longer_step k _ _ _ Ea). cbn [bind]. apply IH. exact H.
Qed.

Lemma longer_run {W} k sched : forall ps (s s' : cst W), run cexec sched ps s = Ok s' -> run cexec sched ps (longer k s) = Ok (longer k s').
Proof.
  induction sched as [|t sched IH]; intros ps s s' H; cbn [run] in *; [apply longer_all; exact H|].
  destruct (pop t ps) as [[i ps']|]; [|apply IH; exact H].
  apply bind_ok_inv in H as (a & Ea & H). rewrite (longer_step k _ _ _ Ea). cbn [bind]. apply IH. exact H.
Qed.

Lemma concat_firstn_skipn {A} n (l : list (list A)) : length (concat l) = length (concat (firstn n l)) + length (concat (skipn n l)).
Proof. rewrite <- (firstn_skipn n l) at 1. rewrite concat_app, app_length. reflexivity. Qed.

Lemma nth_firstn {A} (d : A) v n l : v < n -> nth v (firstn n l) d = nth v l d.
Proof. revert v l. induction n as [|n IH]; intros [|v] [|a l] H; try lia; cbn [firstn nth]; try reflexivity. apply IH. lia. Qed.

Lemma firstn_firstn_le {A} v n (l : list A) : v <= n -> firstn v (firstn n l) = firstn v l.
Proof. intros H. rewrite firstn_firstn, Nat.min_l by exact H. reflexivity. Qed.

(** The arrays of [c] hold [rows]; [n] of them are converted. *)
Lemma convert_csr_part {W} O (c : csr W) rows n parts sched : is_ity O -> represents false (mkCsr (cs_off c) (cs_end c) (cs_w c) (Z.of_nat (length rows)) (cs_m c) (cs_nrows c) (cs_ncols c)) rows ->
  cs_n c = Z.of_nat n -> n <= length rows -> (cs_m c <= imax O)%Z -> Permutation (concat parts) (seq 0 n) ->
  exists r, convert_csr O no_flags false c parts sched = Ok r /\
    co_n r = Some (Z.of_nat n) /\ co_m r = Z.of_nat (length (concat rows)) /\
    co_x r = map (fun e => Some (fst (fst e))) (entries (firstn n rows)) ++ fresh (length (concat (skipn n rows))) /\
    co_y r = map (fun e => Some (snd (fst e))) (entries (firstn n rows)) ++ fresh (length (concat (skipn n rows))).
Proof.
  intros HO Hrep Hn Hle Hm HP.
  assert (Hl : length (firstn n rows) = n) by (rewrite firstn_length; lia).
  pose proof Hrep as (_ & Em & _). cbn [cs_m] in Em.
  (* a CSR with only these rows *)
  set (c0 := mkCsr (map (fun v => Some (Z.of_nat (length (concat (firstn v (firstn n rows)))))) (seq 0 (S n)))
      (map (fun p => Some (fst p)) (concat (firstn n rows))) [] (Z.of_nat n) (Z.of_nat (length (concat (firstn n rows)))) (cs_nrows c) (cs_ncols c) : csr W).
  assert (Hrep0 : represents false c0 (firstn n rows)).
  { unfold represents, c0. cbn [cs_n cs_m cs_off cs_end]. rewrite Hl. split; [reflexivity|]. split; [reflexivity|]. split; [reflexivity|]. split; [reflexivity|discriminate]. }
  pose proof (concat_firstn_skipn n rows) as Hs.
  destruct (convert_csr_ok no_flags false (or_intror eq_refl) c0 (firstn n rows) Hrep0 O parts sched HO eq_refl) as (r & E & H1 & _ & H3 & _).
  { cbn [no_flags f_sym f_ut from_csr].
    replace (length (flat_map (from_csr false false) (entries (firstn n rows)))) with (length (concat (firstn n rows))); [lia|].
    rewrite <- (entries_length (firstn n rows) 0). fold (entries (firstn n rows)). generalize (entries (firstn n rows)). intros l. induction l as [|[[x y] w] l IH]; [reflexivity|].
    cbn [flat_map from_csr app length]. rewrite <- IH. reflexivity. }
  { rewrite Hl. exact HP. }
  assert (EX : flat_map (from_csr false false) (entries (firstn n rows)) = entries (firstn n rows)).
  { generalize (entries (firstn n rows)). intros l. induction l as [|[[x y] w] l IH]; [reflexivity|]. cbn [flat_map from_csr app]. rewrite IH. reflexivity. }
  cbn [no_flags f_sym f_ut] in H1. rewrite EX in H1.
  (* the same stores *)
  assert (EP : csr_progs no_flags false c parts = csr_progs no_flags false c0 parts).
  { rewrite (progs_ok no_flags false c0 (firstn n rows) Hrep0 parts) by (rewrite Hl; exact HP).
    unfold csr_progs, progs. apply mapM_ok. intros p Hp. rewrite (mapM_ok _ (code_of no_flags false (firstn n rows))); [reflexivity|].
    intros v Hv. assert (Hvn : v < n).
    { assert (H : In v (seq 0 n)) by (apply (Permutation_in _ HP), in_concat; eauto). apply in_seq in H. lia. }
    pose proof (csr_row_ok no_flags false _ rows Hrep v ltac:(lia)) as R. unfold csr_row in R. cbn [cs_off] in R. unfold csr_row.
    assert (RL : forall v len k pos, csr_row_loop no_flags false (mkCsr (cs_off c) (cs_end c) (cs_w c) (Z.of_nat (length rows)) (cs_m c) (cs_nrows c) (cs_ncols c)) v len k pos =
      csr_row_loop no_flags false c v len k pos).
    { clear. intros v len. induction len as [|len IH]; intros k pos; cbn [csr_row_loop]; [reflexivity|]. cbn [cs_end].
      destruct (cell_of k (cs_end c)); cbn [bind]; [|reflexivity..]. rewrite IH. reflexivity. }
    destruct (cell_of v (cs_off c)) as [s| | |]; cbn [bind] in *; try discriminate.
    destruct (cell_of (S v) (cs_off c)) as [e| | |]; cbn [bind] in *; try discriminate.
    destruct (idx s) as [k| | |]; cbn [bind] in *; try discriminate. rewrite RL in R. rewrite R. f_equal.
    unfold code_of. rewrite nth_firstn by exact Hvn. rewrite firstn_firstn_le by lia. reflexivity. }
  (* more cells *)
  unfold convert_csr in E |- *. cbn [no_flags f_sym f_ut f_sl andb negb] in E |- *. cbn [bind c0 cs_m cs_n] in E.
  cbn [bind]. rewrite EP. fold c0 in E. unfold coo_alloc in E |- *.
  destruct (Z.ltb_spec (Z.of_nat (length (concat (firstn n rows)))) 0); [lia|]. destruct (Z.ltb_spec (cs_m c) 0); [lia|]. cbn [bind] in E |- *.
  apply bind_ok_inv in E as (ps & Eps & E). rewrite Eps. cbn [bind]. apply bind_ok_inv in E as (st & Est & E). injection E as <-.
  apply (longer_run (length (concat (skipn n rows)))) in Est. unfold longer in Est. cbn [cx cy cw] in Est.
  assert (EF : forall V : Type, @fresh V (Z.to_nat (cs_m c)) = fresh (Z.to_nat (Z.of_nat (length (concat (firstn n rows))))) ++ fresh (length (concat (skipn n rows)))).
  { intros V. unfold fresh. rewrite <- repeat_app. f_equal. lia. }
  rewrite EF. rewrite Est. cbn [bind]. eexists. split; [reflexivity|]. cbn [co_n co_m co_x co_y cx cy].
  destruct H1 as (_ & Hx & Hy). cbn [co_x co_y] in Hx, Hy. split; [rewrite Hn; reflexivity|]. split; [rewrite Em; reflexivity|].
  split; [rewrite Hx; reflexivity|rewrite Hy; reflexivity].
Qed.

(** A COO with an indeterminate row cannot be converted. *)
Lemma cell_safe {V} i (l : list (option V)) : safe False (cell_of i l) (fun _ => True).
Proof. unfold cell_of, aget. destruct (nth_error l i) as [[v|]|]; cbn [bind safe]; first [exact Logic.I | intros []]. Qed.

Lemma mapM_safe_true {A B} (f : A -> res B) l : (forall a, safe False (f a) (fun _ => True)) -> safe False (mapM f l) (fun _ => True).
Proof.
  intros H. induction l as [|a l IH]; cbn [mapM]; [exact Logic.I|]. pose proof (H a) as Ha. destruct (f a); cbn [bind safe] in *; try exact Ha; try contradiction.
  destruct (mapM f l); cbn [bind safe] in *; auto.
Qed.

Lemma convert_indeterminate {W} L O weighted (c : coo W) n ch i :
  is_ity L -> co_n c = Some n -> (0 <= n)%Z -> room L n -> (0 <= co_m c)%Z ->
  nth_error (co_x c) i = Some None -> In i (concat (ch_parts1 ch)) -> convert_coo L O weighted c ch = UB.
Proof.
  intros HL Hn H0 Hr Hm Hi Hin. unfold convert_coo. rewrite Hn. unfold csr_alloc.
  rewrite !alloc_ok by lia. cbn [bind]. set (ws0 := if weighted then _ else _).
  assert (Ews : exists ws, ws0 = Ok ws) by (unfold ws0; destruct weighted; eauto).
  destruct Ews as (ws & ->). cbn [bind]. rewrite (plus1_ok L n HL H0 Hr). cbn [bind]. rewrite alloc_ok by lia. cbn [bind].
  destruct (Z.ltb_spec n 0); [lia|]. apply in_concat in Hin as (p & Hp & Hip).
  rewrite (mapM_ub _ False (ch_parts1 ch) p); [reflexivity| |exact Hp|].
  - intros q _. apply mapM_safe_true. intros a. apply cell_safe.
  - apply (mapM_ub _ False p i); [intros a _; apply cell_safe|exact Hip|]. unfold cell_of, aget. rewrite Hi. reflexivity.
Qed.
