(** * Property C68: text files that were not written to their end

    [COO::write] and [Tensor::write] fill a shared mapping of the new file.  When
    the process dies each thread has made some of its stores.
    [coo_write_stopped] and [tensor_write_stopped] (CrashText.v) are the contents
    of the file when the thread number [t] has made the first [ns_t] of its
    stores, interleaved according to [sched]. *)

From Coq Require Import String Permutation.
From Verif Require Import Base Reader ReaderLemmas Sched SchedLemmas Spec SpecDec SpecFp SpecText SpecTensor SpecTensorOut SpecCrashText Coo CooLemmas WeightLemmas ElSpec ElFinal ElThms Ascii AsciiLemmas StbLemmas WriteLemmas TextRound Codec Bin SpecBin Load BinOpen Graph Csr Tensor TensorOut WriteGen TensorOutLemmas TensorRound
  Race RaceLemmas CrashText CrashTextLemmas CrashTextRead P_Text P_Bin P_Pipe P_Tensor P_TensorOut P_Arb.
Open Scope list_scope.
Notation length := List.length.

(** ** Specification *)

(** The caller asks for an edge list, or leaves it to a name that is not one of
    another format. *)
Definition read_as_text (ft : ftype) (fn : list byte) : Prop :=
  ft = EDGE_LIST \/ (ft = AUTO /\ ~ ends_in fn (chars ".mtx") /\ ~ ends_in fn (chars ".graph")).

(** Weights of kind [k] written by [fm]: [tw w] is the text of [w], [ok w] says
    that [w] can be written, [rd w] is what is read back from that text, and
    [extra] the number of bytes stored for a weight beyond its text (the zero at
    the end of the digits of a floating-point number, which is overwritten). *)
Inductive weight_writer : forall k : wkind, fmt (wtype k) -> (wtype k -> list byte) -> (wtype k -> Prop) -> (wtype k -> wtype k) -> nat -> Prop :=
| ww_unsigned t : is_ity t -> isigned t = false -> weight_writer (WUnsigned t) (fmt_int t) dec (fun z => inrange t z = true) (fun z => z) 0
| ww_signed t : is_ity t -> isigned t = true -> weight_writer (WSigned t) (fmt_int t) dec (printable t) (fun z => z) 0
| ww_float F rts base lb nb : weight_writer (WFloat F) (fmt_fp rts base lb nb) (fun w => stb_chars 0 0 (rts w))
    (fun w => wf_real (rts w) /\ length (stb_chars 0 0 (rts w)) < 1024) (fun w => fp_value F (real_lit (rts w))) 1.

(** ** Lemmas *)
Lemma ww_facts k fm tw ok rd ex : weight_writer k fm tw ok rd ex -> wf_kind k /\
  forall w, ok w -> formats fm w (tw w) /\ fvals fm w (tw w) ex /\ rest (ch_sp :: tw w) /\ wpost k (ch_sp :: tw w) (rd w) /\
    plain_weight (ch_sp :: tw w) /\ holds_number (ch_sp :: tw w).
Proof.
  destruct 1 as [t Ht Hs|t Ht Hs|F rts base lb nb].
  - split; [split; assumption|]. intros z Hz. assert (Hm : isigned t = true -> z <> imin t) by congruence.
    pose proof (int_post t z Ht Hz Hm) as P. rewrite Hs in P. destruct P as [P1 P2]. destruct (int_plain z) as [P3 P4].
    split; [apply formats_int; assumption|]. split; [apply fvals_int; assumption|]. auto.
  - split; [split; assumption|]. intros z [Hz Hm].
    pose proof (int_post t z Ht Hz Hm) as P. rewrite Hs in P. destruct P as [P1 P2]. destruct (int_plain z) as [P3 P4].
    split; [apply formats_int; assumption|]. split; [apply fvals_int; assumption|]. auto.
  - split; [exact I|]. intros w [H1 H2]. destruct (fp_post F (rts w) H1) as (P1 & _ & _ & _ & P2). destruct (fp_plain (rts w) H1) as [P3 P4].
    split; [apply formats_fp; exact H2|]. split; [apply fvals_fp|]. auto.
Qed.

Lemma fvals_printable {W} L (es : list (Z * Z * W)) : is_ity L ->
  Forall (fun e => printable L (fst (fst e)) /\ printable L (snd (fst e))) es ->
  forall e, In e es -> fvals (fmt_int L) (fst (fst e)) (dec (fst (fst e))) 0 /\ fvals (fmt_int L) (snd (fst e)) (dec (snd (fst e))) 0.
Proof.
  intros HL HF e Hi. rewrite Forall_forall in HF. destruct (HF e Hi) as [[H1 H2] [H3 H4]]. split; apply fvals_int; assumption.
Qed.

Lemma labels_printable {W} L (es : list (Z * Z * W)) : is_ity L -> Forall (label_ok L) es ->
  Forall (fun e => printable L (fst (fst e)) /\ printable L (snd (fst e))) es.
Proof.
  intros HL. apply Forall_impl. intros e [H1 H2]. pose proof (ity_imin L HL) as Ei. pose proof (ity_facts L HL) as (_ & _ & F3).
  assert (P : forall z, (0 <= z < imax L)%Z -> printable L z); [|split; apply P; assumption].
  intros z Hz. split.
  - unfold inrange. apply andb_true_intro; split; apply Z.leb_le; [destruct (isigned L); lia|lia].
  - intros Es. rewrite Es in Ei. lia.
Qed.

Lemma pick_forall {A} (P : A -> Prop) es p : Forall P es -> Forall P (pick es p).
Proof.
  intros H. rewrite Forall_forall in *. intros e He. unfold pick in He. apply in_flat_map in He as (i & _ & He).
  destruct (nth_error es i) as [a|] eqn:E; [|destruct He]. destruct He as [<-|[]]. apply H. eapply nth_error_In; exact E.
Qed.

Lemma off_page_len pg (s s' : list byte) : length s = length s' -> off_page pg s -> off_page pg s'.
Proof. unfold off_page. intros ->. auto. Qed.

Lemma blank_pigo txt s : partly_written txt s -> (forall b, nth_error txt 0 = Some b -> b <> 80%Z) -> ~ begins s (chars "PIGO").
Proof.
  intros [_ H] Ht (b & r & E). assert (E0 : nth_error s 0 = Some 80%Z) by (rewrite E; reflexivity).
  destruct (H 0 80%Z E0) as [H0|[H0|[_ H0]]]; [apply (Ht 80%Z H0); reflexivity|discriminate H0|discriminate H0].
Qed.

Lemma dec_first z b : nth_error (dec z) 0 = Some b -> b <> 80%Z.
Proof.
  assert (D : forall y c, (0 <= y)%Z -> nth_error (dec_abs y) 0 = Some c -> c <> 80%Z).
  { intros y c Hy E. destruct (dec_abs_canonical y Hy) as ([_ D] & _). rewrite Forall_forall in D. apply nth_error_In in E. apply D in E.
    unfold is_digit, ch_0, ch_9 in E. lia. }
  unfold dec. destruct (Z.ltb_spec z 0).
  - cbn [nth_error]. intros E. injection E as <-. discriminate.
  - apply D; lia.
Qed.

Lemma dec_ne z : dec z <> [].
Proof.
  unfold dec. destruct (Z.ltb_spec z 0); [discriminate|]. destruct (dec_abs_canonical z ltac:(lia)) as ([D _] & _). exact D.
Qed.

Lemma first_of (a b : list byte) : a <> [] -> nth_error (a ++ b) 0 = nth_error a 0.
Proof. destruct a; [congruence|reflexivity]. Qed.

Lemma coo_text_first {W} tw (es : list (Z * Z * W)) b : nth_error (coo_text dec tw es) 0 = Some b -> b <> 80%Z.
Proof.
  destruct es as [|[[x y] w] es]; [discriminate|]. unfold coo_text. cbn [map concat coo_line].
  rewrite <- !app_assoc. rewrite first_of by apply dec_ne. apply dec_first.
Qed.

Lemma tensor_text_first {W} tw (es : list (list Z * W)) b : Forall (fun e => fst e <> []) es -> nth_error (tensor_text dec tw es) 0 = Some b -> b <> 80%Z.
Proof.
  intros HF. destruct es as [|e es]; [discriminate|]. unfold tensor_text. cbn [map concat]. apply Forall_inv in HF.
  rewrite <- (tline_of_text tw e HF). unfold tline_text, labels_text, tline_of. destruct (fst e) as [|x xs]; [congruence|]. cbn [t_first].
  rewrite <- !app_assoc. rewrite first_of by apply dec_ne. apply dec_first.
Qed.

Lemma text_as_el ft fn s : read_as_text ft fn -> ~ begins s (chars "PIGO") -> as_el ft fn s.
Proof. intros [->|(-> & H1 & H2)] H; [left; reflexivity|right; auto]. Qed.

(** ** What is left, at any point

    The contents after the first [k] stores of an interleaving of the complete
    write, whatever [k], are those after some number of stores of each thread;
    and when every thread has made all its stores the file is complete. *)
Theorem C68_states : forall {W} lf (wf : option (fmt W)) c parts f ps, coo_write_plan lf wf c parts = Ok (f, ps) ->
  (forall sched k, exists ns sched', length ns = length ps /\
     exec_all pexec (firstn k (map snd (trace sched ps))) f = coo_write_stopped lf wf c parts ns sched') /\
  (forall ns sched, Forall2 (fun n p => length p <= n) ns ps ->
     coo_write_stopped lf wf c parts ns sched = coo_write lf wf c parts sched).
Proof.
  intros W lf wf c parts f ps E. split.
  - intros sched k. destruct (prefix_run pexec sched ps k) as (ns & sc & Hl & H). exists ns, sc. split; [exact Hl|].
    unfold coo_write_stopped. rewrite E. cbn [bind]. apply H.
  - intros ns sched H. unfold coo_write_stopped, coo_write. rewrite E. cbn [bind]. rewrite firsts_all by exact H. reflexivity.
Qed.
Print Assumptions C68_states.

Theorem C68_tensor_states : forall {W} O lf (wf : option (fmt W)) t parts f ps, tensor_write_plan O lf wf t parts = Ok (f, ps) ->
  (forall sched k, exists ns sched', length ns = length ps /\
     exec_all pexec (firstn k (map snd (trace sched ps))) f = tensor_write_stopped O lf wf t parts ns sched') /\
  (forall ns sched, Forall2 (fun n p => length p <= n) ns ps ->
     tensor_write_stopped O lf wf t parts ns sched = tensor_write O lf wf t parts sched).
Proof.
  intros W O lf wf t parts f ps E. unfold tensor_write_plan in E. split.
  - intros sched k. destruct (prefix_run pexec sched ps k) as (ns & sc & Hl & H). exists ns, sc. split; [exact Hl|].
    unfold tensor_write_stopped, gwrite_stopped. rewrite E. cbn [bind]. apply H.
  - intros ns sched H. unfold tensor_write_stopped, gwrite_stopped, tensor_write, gwrite. rewrite E. cbn [bind]. rewrite firsts_all by exact H. reflexivity.
Qed.
Print Assumptions C68_tensor_states.

(** The file has its final length from the start, and every byte is the one of
    the complete text, or has not been written. *)
Theorem C68_coo_left : forall L (es : list (Z * Z * unit)) c parts ns sched,
  is_ity L -> holds c es -> es <> [] ->
  Forall (fun e => printable L (fst (fst e)) /\ printable L (snd (fst e))) es ->
  Permutation (concat parts) (seq 0 (length es)) ->
  exists s, coo_write_stopped (fmt_int L) None c parts ns sched = Ok s /\
    partly_written (coo_text dec None (pick es (concat parts))) s.
Proof.
  intros L es c parts ns sched HL Hc Hne HF HP.
  exact (coo_stopped_ok (fmt_int L) None c es dec (fun _ => []) 0 Hc ltac:(discriminate) (formats_printable L es HL HF) (fvals_printable L es HL HF)
    ltac:(discriminate) ltac:(discriminate) ltac:(reflexivity) parts ns sched (bounds_perm es parts HP) (perm_nonempty es parts HP Hne)).
Qed.
Print Assumptions C68_coo_left.

Lemma some_ww k fm tw ok rd ex (A : Type) (es : list (A * wtype k)) : weight_writer k fm tw ok rd ex -> Forall (fun e => ok (snd e)) es ->
  (forall f e, Some fm = Some f -> In e es -> formats f (snd e) (tw (snd e))) /\
  (forall f e, Some fm = Some f -> In e es -> fvals f (snd e) (tw (snd e)) ex).
Proof.
  intros H HF. destruct (ww_facts _ _ _ _ _ _ H) as [_ HW]. rewrite Forall_forall in HF.
  split; intros f e Ef He; injection Ef as <-; apply HW; apply HF; exact He.
Qed.

Theorem C68_coo_left_weighted : forall L k fm tw ok rd extra (es : list (Z * Z * wtype k)) c parts ns sched,
  is_ity L -> weight_writer k fm tw ok rd extra -> holds c es -> holds_weights c es -> es <> [] ->
  Forall (fun e => printable L (fst (fst e)) /\ printable L (snd (fst e))) es -> Forall (fun e => ok (snd e)) es ->
  Permutation (concat parts) (seq 0 (length es)) ->
  exists s, coo_write_stopped (fmt_int L) (Some fm) c parts ns sched = Ok s /\
    partly_written (coo_text dec (Some tw) (pick es (concat parts))) s.
Proof.
  intros L k fm tw ok rd ex es c parts ns sched HL Hww Hc Hcw Hne HF HW HP. destruct (some_ww k fm tw ok rd ex _ es Hww HW) as [H1 H2].
  exact (coo_stopped_ok (fmt_int L) (Some fm) c es dec tw ex Hc (fun _ => Hcw) (formats_printable L es HL HF) (fvals_printable L es HL HF)
    H1 H2 ltac:(discriminate) parts ns sched (bounds_perm es parts HP) (perm_nonempty es parts HP Hne)).
Qed.
Print Assumptions C68_coo_left_weighted.

Lemma tfvals {W} L O k (es : list (list Z * W)) : is_ity L -> tensor_printable L O k es ->
  forall e x, In e es -> In x (fst e) -> fvals (fmt_int L) x (dec x) 0.
Proof.
  intros HL [HF _] e x He Hx. rewrite Forall_forall in HF. specialize (HF e He). rewrite Forall_forall in HF. destruct (HF x Hx) as [H1 H2].
  apply fvals_int; assumption.
Qed.

Theorem C68_tensor_left : forall L O order (es : list (list Z * unit)) t parts ns sched,
  is_ity L -> is_ity O -> tensor_holds t order es -> 1 <= order -> es <> [] -> tensor_printable L O order es ->
  Permutation (concat parts) (seq 0 (length es)) ->
  exists s, tensor_write_stopped O (fmt_int L) None t parts ns sched = Ok s /\
    partly_written (tensor_text dec None (pick es (concat parts))) s.
Proof.
  intros L O k es t parts ns sched HL HO Ht Hk Hne HF HP.
  exact (tensor_stopped_ok O HO (fmt_int L) None t k es dec (fun _ => []) 0 Ht (proj2 HF) Hk ltac:(discriminate) (tformats L O k es HL HF) (tfvals L O k es HL HF)
    ltac:(discriminate) ltac:(discriminate) ltac:(reflexivity) parts ns sched (bounds_perm es parts HP) (perm_nonempty es parts HP Hne)).
Qed.
Print Assumptions C68_tensor_left.

Theorem C68_tensor_left_weighted : forall L O k fm tw ok rd extra order (es : list (list Z * wtype k)) t parts ns sched,
  is_ity L -> is_ity O -> weight_writer k fm tw ok rd extra -> tensor_holds t order es -> tensor_weights t es -> 1 <= order -> es <> [] ->
  tensor_printable L O order es -> Forall (fun e => ok (snd e)) es ->
  Permutation (concat parts) (seq 0 (length es)) ->
  exists s, tensor_write_stopped O (fmt_int L) (Some fm) t parts ns sched = Ok s /\
    partly_written (tensor_text dec (Some tw) (pick es (concat parts))) s.
Proof.
  intros L O k fm tw ok rd ex order es t parts ns sched HL HO Hww Ht Htw Hk Hne HF HW HP. destruct (some_ww k fm tw ok rd ex _ es Hww HW) as [H1 H2].
  exact (tensor_stopped_ok O HO (fmt_int L) (Some fm) t order es dec tw ex Ht (proj2 HF) Hk (fun _ => Htw) (tformats L O order es HL HF) (tfvals L O order es HL HF)
    H1 H2 ltac:(discriminate) parts ns sched (bounds_perm es parts HP) (perm_nonempty es parts HP Hne)).
Qed.
Print Assumptions C68_tensor_left_weighted.

(** ** Every thread between two entries *)
Lemma pick_length_le {A} (es : list A) p : length (pick es p) <= length p.
Proof.
  unfold pick. induction p as [|i p IH]; cbn [flat_map length]; [lia|]. rewrite app_length. destruct (nth_error es i); cbn [length]; lia.
Qed.

Lemma pick_perm {A} (es : list A) p : Permutation p (seq 0 (length es)) -> Permutation (pick es p) es.
Proof. intros H. rewrite <- (pick_seq es) at 2. unfold pick. apply Permutation_flat_map. exact H. Qed.

Lemma perm_text_len {A} (f : A -> list byte) es es' : Permutation es es' -> length (concat (map f es)) = length (concat (map f es')).
Proof. intros H. rewrite <- !flat_map_concat_map. apply Permutation_length. apply Permutation_flat_map. exact H. Qed.

Lemma bounds_len {A} (es : list A) parts : Permutation (concat parts) (seq 0 (length es)) -> Forall (fun i => i < length es) (concat parts).
Proof. intros H. apply Forall_forall. intros i Hi. apply (Permutation_in _ H) in Hi. apply in_seq in Hi. lia. Qed.

(** The entries each thread has finished are [dones].  What loads from the file
    is exactly those entries, in the order of the file. *)
Theorem C68_coo_between : forall L O (es : list (Z * Z * unit)) c parts dones sched pg fn ft ch,
  is_ity L -> is_ity O -> holds c es -> Forall (label_ok L) es -> es <> [] ->
  Permutation (concat parts) (seq 0 (length es)) -> first_entries dones parts ->
  (Z.of_nat (length es) <= imax O)%Z -> off_page pg (coo_text dec None es) -> read_as_text ft fn -> 1 <= lc_T ch ->
  exists s c', coo_write_stopped (fmt_int L) None c parts (map (fun d => length (coo_text dec None (pick es d))) dones) sched = Ok s /\
    coo_open L O None no_flags pg fn (Some s) ft ch = Ok c' /\ holds c' (pick es (concat dones)).
Proof.
  intros L O es c parts dones sched pg fn ft ch HL HO Hc HF Hne HP HD Hm Hpg Hft HT.
  pose proof (labels_printable L es HL HF) as HF'.
  destruct (coo_done_ok (fmt_int L) None c es dec (fun _ => []) 0 Hc ltac:(discriminate) (formats_printable L es HL HF') (fvals_printable L es HL HF')
    ltac:(discriminate) ltac:(discriminate) ltac:(reflexivity) parts dones sched (bounds_perm es parts HP) (perm_nonempty es parts HP Hne) HD)
    as (s & h & egs & E & Ls & Eg & Jh & Jg & Es).
  destruct (C68_coo_left L es c parts (map (fun d => length (coo_text dec None (pick es d))) dones) sched HL Hc Hne HF' HP) as (s0 & E0 & Hs0).
  assert (En : map (fun d => length (coo_text dec None (pick es d)) + 0 * length d) dones = map (fun d => length (coo_text dec None (pick es d))) dones).
  { apply map_ext. intros d. lia. }
  rewrite En in E. rewrite E in E0. injection E0 as <-. exists s.
  assert (Hlen : length s = length (coo_text dec None es)).
  { rewrite Ls. apply (perm_text_len (coo_line dec None)). apply pick_perm. exact HP. }
  apply (off_page_len pg _ s (eq_sym Hlen)) in Hpg.
  assert (Hel : as_el ft fn s).
  { apply text_as_el; [exact Hft|]. apply (blank_pigo _ _ Hs0). intros b. apply coo_text_first. }
  assert (HG : Forall (label_ok L) (map fst egs)) by (rewrite Eg; apply pick_forall; exact HF).
  assert (Et : el_text (file_bl None h egs) = s) by (rewrite file_bl_text; symmetry; exact Es).
  destruct (edge_list_exact L O (file_bl None h egs) pg (lc_T ch) (lc_el ch)) as (c' & Er & H1 & H2 & H3); auto.
  - apply (file_bl_wf L); auto. apply Forall_forall. intros e _. split; [constructor|exact I].
  - apply file_bl_fit; exact HG.
  - rewrite (file_bl_pairs L) by exact HG. rewrite map_length, Eg.
    assert (length (pick es (concat dones)) <= length es); [|lia].
    etransitivity; [apply pick_length_le|]. rewrite <- (seq_length (length es) 0), <- (Permutation_length HP). clear - HD.
    induction HD as [|d p ds ps (r & ->) HD IH]; cbn [concat]; [lia|]. rewrite !app_length. lia.
  - rewrite Et. exact Hpg.
  - rewrite Et in Er. rewrite (file_bl_pairs L) in H1, H2, H3 by exact HG. rewrite Eg in H1, H2, H3. rewrite map_length in H1. rewrite map_map in H2, H3.
    exists c'. split; [exact E|]. split; [rewrite el_open; [exact Er|apply (off_page_ne pg); exact Hpg|exact Hel]|]. split; [exact H1|]. split; [exact H2|exact H3].
Qed.
Print Assumptions C68_coo_between.

Theorem C68_coo_between_weighted : forall L O k fm tw ok rd extra (es : list (Z * Z * wtype k)) c parts dones sched bc pg fn ft ch,
  is_ity L -> is_ity O -> weight_writer k fm tw ok rd extra -> holds c es -> holds_weights c es -> Forall (label_ok L) es -> Forall (fun e => ok (snd e)) es -> es <> [] ->
  Permutation (concat parts) (seq 0 (length es)) -> first_entries dones parts ->
  (Z.of_nat (length es) <= imax O)%Z -> off_page pg (coo_text dec (Some tw) es) -> read_as_text ft fn -> 1 <= lc_T ch ->
  exists s c', coo_write_stopped (fmt_int L) (Some fm) c parts (map (fun d => length (coo_text dec (Some tw) (pick es d)) + extra * length d) dones) sched = Ok s /\
    coo_open L O (Some (mkWmode _ (wreader k) bc)) no_flags pg fn (Some s) ft ch = Ok c' /\ holds c' (pick es (concat dones)) /\
    co_w c' = map (fun e => Some (rd (snd e))) (pick es (concat dones)).
Proof.
  intros L O k fm tw ok rd ex es c parts dones sched bc pg fn ft ch HL HO Hww Hc Hcw HF HW Hne HP HD Hm Hpg Hft HT.
  pose proof (labels_printable L es HL HF) as HF'. destruct (some_ww k fm tw ok rd ex _ es Hww HW) as [W1 W2]. destruct (ww_facts _ _ _ _ _ _ Hww) as [Hk HWW].
  destruct (coo_done_ok (fmt_int L) (Some fm) c es dec tw ex Hc (fun _ => Hcw) (formats_printable L es HL HF') (fvals_printable L es HL HF')
    W1 W2 ltac:(discriminate) parts dones sched (bounds_perm es parts HP) (perm_nonempty es parts HP Hne) HD)
    as (s & h & egs & E & Ls & Eg & Jh & Jg & Es).
  destruct (C68_coo_left_weighted L k fm tw ok rd ex es c parts (map (fun d => length (coo_text dec (Some tw) (pick es d)) + ex * length d) dones) sched HL Hww Hc Hcw Hne HF' HW HP) as (s0 & E0 & Hs0).
  rewrite E in E0. injection E0 as <-. exists s.
  assert (Hlen : length s = length (coo_text dec (Some tw) es)).
  { rewrite Ls. apply (perm_text_len (coo_line dec (Some tw))). apply pick_perm. exact HP. }
  apply (off_page_len pg _ s (eq_sym Hlen)) in Hpg.
  assert (Hel : as_el ft fn s).
  { apply text_as_el; [exact Hft|]. apply (blank_pigo _ _ Hs0). intros b. apply coo_text_first. }
  assert (HG : Forall (label_ok L) (map fst egs)) by (rewrite Eg; apply pick_forall; exact HF).
  assert (HGW : Forall (fun e => ok (snd e)) (map fst egs)) by (rewrite Eg; apply pick_forall; exact HW).
  assert (Et : el_text (file_bl (Some tw) h egs) = s) by (rewrite file_bl_text; symmetry; exact Es).
  set (ee := map fst egs) in *.
  set (es' := map (fun e => (fst e, rd (snd e))) ee : list (Z * Z * wtype k)).
  assert (Htr : triples (file_bl (Some tw) h egs) (map snd es') = es').
  { unfold triples. rewrite (file_bl_pairs L) by exact HG. fold ee. unfold es'. rewrite !map_map. cbn [snd]. clear.
    induction ee as [|[[x y] w] es IH]; [reflexivity|]. cbn [map combine fst snd]. rewrite IH. reflexivity. }
  assert (Hst : stored no_flags es' = es') by apply stored_no_flags.
  destruct (edge_list_weights k L O no_flags (file_bl (Some tw) h egs) (map snd es') pg (lc_T ch) (lc_el ch)) as (c' & Er & H1 & H2); auto.
  - unfold weights_are, file_bl, es', ee. cbn [el_lines]. rewrite !map_map. cbn [snd line_bl l_post post_of].
    unfold ee in HGW. clear - HGW HWW. induction egs as [|p egs IH]; cbn [map] in *; constructor; [apply HWW; apply (Forall_inv HGW)|apply IH; apply (Forall_inv_tail HGW)].
  - left. apply Forall_forall. intros [[x y] w] _. unfold keeps. cbn. discriminate.
  - apply (file_bl_wf L); auto. fold ee. rewrite Forall_forall in HGW |- *. intros e He. apply HWW. apply HGW; exact He.
  - apply file_bl_fit; exact HG.
  - rewrite Htr, Hst. unfold es'. rewrite map_length, Eg.
    assert (length (pick es (concat dones)) <= length es); [|lia].
    etransitivity; [apply pick_length_le|]. rewrite <- (seq_length (length es) 0), <- (Permutation_length HP). clear - HD.
    induction HD as [|d p ds ps (r & ->) HD IH]; cbn [concat]; [lia|]. rewrite !app_length. lia.
  - rewrite Et. exact Hpg.
  - rewrite Et in Er. rewrite Htr, Hst in H1, H2. unfold holds, holds_weights, es' in H1, H2. rewrite map_length, !map_map in H1. rewrite map_map in H2. cbn [fst snd] in *. rewrite Eg in H1, H2.
    exists c'. split; [exact E|]. split; [rewrite el_open; [exact Er|apply (off_page_ne pg); exact Hpg|exact Hel]|]. split; assumption.
Qed.
Print Assumptions C68_coo_between_weighted.

Lemma done_pos {A} (es : list A) parts dones : Permutation (concat parts) (seq 0 (length es)) -> first_entries dones parts -> concat dones <> [] ->
  pick es (concat dones) <> [] /\ length (pick es (concat dones)) <= length es.
Proof.
  intros HP HD Hd. split.
  - destruct (concat dones) as [|i l] eqn:E; [congruence|]. assert (Hi : In i (concat parts)).
    { assert (Hi : In i (concat dones)) by (rewrite E; left; reflexivity). clear - HD Hi.
      induction HD as [|d p ds ps (r & ->) HD IH]; [destruct Hi|]. cbn [concat] in *. apply in_app_or in Hi as [Hi|Hi]; apply in_or_app; [left; apply in_or_app; left; exact Hi|right; apply IH; exact Hi]. }
    apply (Permutation_in _ HP) in Hi. apply in_seq in Hi. cbn [pick flat_map]. destruct (nth_error es i) eqn:Ei; [discriminate|]. apply nth_error_None in Ei. lia.
  - etransitivity; [apply pick_length_le|]. rewrite <- (seq_length (length es) 0), <- (Permutation_length HP). clear - HD.
    induction HD as [|d p ds ps (r & ->) HD IH]; cbn [concat]; [lia|]. rewrite !app_length. lia.
Qed.

Lemma tns_bl_fits {W} L O k tw h (egs : list (list Z * W * list byte)) : 1 <= k -> Forall (tlabels_ok L k) (map fst egs) -> (Z.of_nat (k * length (map fst egs)) <= imax O)%Z -> map fst egs <> [] ->
  tensor_fits L O k (tns_bl tw h egs).
Proof.
  intros Hk HF Hm Hne. pose proof (tns_of_fits L O k tw (map fst egs) Hk HF Hm Hne) as H. unfold tensor_fits, tns_labels in *.
  rewrite tns_bl_labels. cbn [tns_bl tns_of tn_lines] in *. rewrite !map_length in *. exact H.
Qed.

(** Tensors; at least one entry has been finished. *)
Theorem C68_tensor_between : forall L O order (es : list (list Z * unit)) t parts dones sched pg fn ft ch,
  is_ity L -> is_ity O -> tensor_holds t order es -> 1 <= order ->
  Forall (fun e => Forall (fun x => 0 <= x <= imax L)%Z (fst e)) es -> (Z.of_nat (order * length es) <= imax O)%Z ->
  Permutation (concat parts) (seq 0 (length es)) -> first_entries dones parts -> concat dones <> [] ->
  off_page pg (tensor_text dec None es) -> read_as_text ft fn -> 1 <= lc_T ch ->
  exists s t', tensor_write_stopped O (fmt_int L) None t parts (map (fun d => length (tensor_text dec None (pick es d))) dones) sched = Ok s /\
    tensor_open L O None pg fn (Some s) ft ch = Ok t' /\ tensor_holds t' order (pick es (concat dones)).
Proof.
  intros L O k es t parts dones sched pg fn ft ch HL HO Ht Hk HL0 Hm HP HD Hd Hpg Hft HT.
  assert (HF : Forall (tlabels_ok L k) es).
  { destruct Ht as (_ & _ & H & _). rewrite Forall_forall in *. intros e He. split; auto. }
  pose proof (tlabels_printable L O k es HL HF Hm) as HF'. destruct (done_pos es parts dones HP HD Hd) as [Hne Hle].
  assert (Hes : es <> []) by (intros ->; cbn [length] in Hle; destruct (pick _ _); [congruence|cbn [length] in Hle; lia]).
  destruct (tensor_done_ok O HO (fmt_int L) None t k es dec (fun _ => []) 0 Ht Hm Hk ltac:(discriminate) (tformats L O k es HL HF') (tfvals L O k es HL HF')
    ltac:(discriminate) ltac:(discriminate) ltac:(reflexivity) parts dones sched (bounds_perm es parts HP) (perm_nonempty es parts HP Hes) HD)
    as (s & h & egs & E & Ls & Eg & Jh & Jg & Es).
  destruct (C68_tensor_left L O k es t parts (map (fun d => length (tensor_text dec None (pick es d))) dones) sched HL HO Ht Hk Hes HF' HP) as (s0 & E0 & Hs0).
  assert (En : map (fun d => length (tensor_text dec None (pick es d)) + 0 * length d) dones = map (fun d => length (tensor_text dec None (pick es d))) dones).
  { apply map_ext. intros d. lia. }
  rewrite En in E. rewrite E in E0. injection E0 as <-. exists s.
  assert (Hlen : length s = length (tensor_text dec None es)).
  { rewrite Ls. apply (perm_text_len (tensor_line dec None)). apply pick_perm. exact HP. }
  apply (off_page_len pg _ s (eq_sym Hlen)) in Hpg. pose proof (fst_nonempty L k es Hk HF) as Hfn.
  assert (Hel : as_el ft fn s).
  { apply text_as_el; [exact Hft|]. apply (blank_pigo _ _ Hs0). intros b. apply tensor_text_first. apply pick_forall. exact Hfn. }
  assert (HG : Forall (tlabels_ok L k) (map fst egs)) by (rewrite Eg; apply pick_forall; exact HF).
  assert (HGn : Forall (fun e => fst e <> []) (map fst egs)) by (rewrite Eg; apply pick_forall; exact Hfn).
  assert (Et : tns_text (tns_bl None h egs) = s) by (rewrite tns_bl_text by exact HGn; symmetry; exact Es).
  destruct (C36_tensor_text L O k (tns_bl None h egs) pg fn ft ch) as (t' & Er & R1 & R2 & R3 & _); auto.
  - apply (tns_bl_wf L); auto; [intros ->; apply Hne; rewrite <- Eg; reflexivity|]. apply Forall_forall. intros e _. cbn [post_of]. split; [split; [constructor|exact I]|discriminate].
  - apply tns_bl_plain; [|exact HGn]. apply Forall_forall. intros e _. cbn [post_of]. apply plain_nil.
  - rewrite Et. exact Hpg.
  - rewrite Et. exact Hel.
  - apply tns_bl_fits; auto; rewrite Eg; [nia|exact Hne].
  - rewrite Et in Er. exists t'. split; [exact E|]. split; [exact Er|].
    eapply same_tensor; [reflexivity|reflexivity|exact R1| |exact R3| |apply pick_forall; apply Ht].
    + rewrite R2. cbn [tns_bl tn_lines]. rewrite map_length, <- Eg, map_length. reflexivity.
    + rewrite tns_bl_labels, (tns_of_entries L k) by assumption. rewrite Eg. reflexivity.
Qed.
Print Assumptions C68_tensor_between.

Theorem C68_tensor_between_weighted : forall L O k fm tw ok rd extra order (es : list (list Z * wtype k)) t parts dones sched bc pg fn ft ch,
  is_ity L -> is_ity O -> weight_writer k fm tw ok rd extra -> tensor_holds t order es -> tensor_weights t es -> 1 <= order ->
  Forall (fun e => Forall (fun x => 0 <= x <= imax L)%Z (fst e)) es -> Forall (fun e => ok (snd e)) es -> (Z.of_nat (order * length es) <= imax O)%Z ->
  Permutation (concat parts) (seq 0 (length es)) -> first_entries dones parts -> concat dones <> [] ->
  off_page pg (tensor_text dec (Some tw) es) -> read_as_text ft fn -> 1 <= lc_T ch ->
  exists s t', tensor_write_stopped O (fmt_int L) (Some fm) t parts (map (fun d => length (tensor_text dec (Some tw) (pick es d)) + extra * length d) dones) sched = Ok s /\
    tensor_open L O (Some (mkWmode _ (wreader k) bc)) pg fn (Some s) ft ch = Ok t' /\ tensor_holds t' order (pick es (concat dones)) /\
    te_w t' = map (fun e => Some (rd (snd e))) (pick es (concat dones)).
Proof.
  intros L O k fm tw ok rd ex order es t parts dones sched bc pg fn ft ch HL HO Hww Ht Htw Hk HL0 HW Hm HP HD Hd Hpg Hft HT.
  assert (HF : Forall (tlabels_ok L order) es).
  { destruct Ht as (_ & _ & H & _). rewrite Forall_forall in *. intros e He. split; auto. }
  destruct (some_ww k fm tw ok rd ex _ es Hww HW) as [W1 W2]. destruct (ww_facts _ _ _ _ _ _ Hww) as [Hkd HWW].
  pose proof (tlabels_printable L O order es HL HF Hm) as HF'. destruct (done_pos es parts dones HP HD Hd) as [Hne Hle].
  assert (Hes : es <> []) by (intros ->; cbn [length] in Hle; destruct (pick _ _); [congruence|cbn [length] in Hle; lia]).
  destruct (tensor_done_ok O HO (fmt_int L) (Some fm) t order es dec tw ex Ht Hm Hk (fun _ => Htw) (tformats L O order es HL HF') (tfvals L O order es HL HF')
    W1 W2 ltac:(discriminate) parts dones sched (bounds_perm es parts HP) (perm_nonempty es parts HP Hes) HD)
    as (s & h & egs & E & Ls & Eg & Jh & Jg & Es).
  destruct (C68_tensor_left_weighted L O k fm tw ok rd ex order es t parts (map (fun d => length (tensor_text dec (Some tw) (pick es d)) + ex * length d) dones) sched HL HO Hww Ht Htw Hk Hes HF' HW HP) as (s0 & E0 & Hs0).
  rewrite E in E0. injection E0 as <-. exists s.
  assert (Hlen : length s = length (tensor_text dec (Some tw) es)).
  { rewrite Ls. apply (perm_text_len (tensor_line dec (Some tw))). apply pick_perm. exact HP. }
  apply (off_page_len pg _ s (eq_sym Hlen)) in Hpg. pose proof (fst_nonempty L order es Hk HF) as Hfn.
  assert (Hel : as_el ft fn s).
  { apply text_as_el; [exact Hft|]. apply (blank_pigo _ _ Hs0). intros b. apply tensor_text_first. apply pick_forall. exact Hfn. }
  assert (HG : Forall (tlabels_ok L order) (map fst egs)) by (rewrite Eg; apply pick_forall; exact HF).
  assert (HGn : Forall (fun e => fst e <> []) (map fst egs)) by (rewrite Eg; apply pick_forall; exact Hfn).
  assert (HGW : Forall (fun e => ok (snd e)) (map fst egs)) by (rewrite Eg; apply pick_forall; exact HW).
  assert (Et : tns_text (tns_bl (Some tw) h egs) = s) by (rewrite tns_bl_text by exact HGn; symmetry; exact Es).
  assert (Epost : map t_post (tn_lines (tns_bl (Some tw) h egs)) = map (fun e => ch_sp :: tw (snd e)) (map fst egs)).
  { rewrite tns_bl_posts. cbn [tns_of tn_lines]. rewrite (map_map (tline_of (Some tw)) t_post). apply map_ext_in. intros e He. rewrite Forall_forall in HGn. specialize (HGn e He). unfold tline_of.
    destruct (fst e); [congruence|reflexivity]. }
  destruct (C36_tensor_weighted k L O order (tns_bl (Some tw) h egs) (map (fun e => rd (snd e)) (map fst egs)) bc pg fn ft ch) as (t' & Er & R1 & R2 & R3 & R4); auto.
  - rewrite Epost. clear - HGW HWW. induction HGW as [|e es He HF IH]; cbn [map]; constructor; [apply HWW; exact He|exact IH].
  - apply (tns_bl_wf L); auto; [intros ->; apply Hne; rewrite <- Eg; reflexivity|]. rewrite Forall_forall in HGW |- *. intros e He. destruct (HWW _ (HGW e He)) as (_ & _ & P1 & _ & _ & P2). cbn [post_of]. split; [exact P1|intros _; exact P2].
  - apply tns_bl_plain; [|exact HGn]. rewrite Forall_forall in HGW |- *. intros e He. cbn [post_of]. apply HWW. apply HGW; exact He.
  - rewrite Et. exact Hpg.
  - rewrite Et. exact Hel.
  - apply tns_bl_fits; auto; rewrite Eg; [nia|exact Hne].
  - rewrite Et in Er. exists t'. split; [exact E|]. split; [exact Er|]. split; [|rewrite R4, Eg, map_map; reflexivity].
    eapply same_tensor; [reflexivity|reflexivity|exact R1| |exact R3| |apply pick_forall; apply Ht].
    + rewrite R2. cbn [tns_bl tn_lines]. rewrite map_length, <- Eg, map_length. reflexivity.
    + rewrite tns_bl_labels, (tns_of_entries L order) by assumption. rewrite Eg. reflexivity.
Qed.
Print Assumptions C68_tensor_between_weighted.

(** ** Stopped anywhere

    The constructor does not notice: for unsigned labels what is left always
    loads, as some list of pairs of labels, the same for every interleaving. *)
Lemma coo_text_last {W} tw (es : list (Z * Z * W)) : es <> [] -> exists p, coo_text dec tw es = p ++ [ch_nl].
Proof.
  intros Hne. destruct (exists_last Hne) as (es' & [[x y] w] & ->). unfold coo_text. rewrite map_app, concat_app. cbn [map concat coo_line]. rewrite app_nil_r.
  exists (concat (map (coo_line dec tw) es') ++ dec x ++ [ch_sp] ++ dec y ++ match tw with None => [] | Some f => [ch_sp] ++ f w end).
  repeat rewrite <- app_assoc. reflexivity.
Qed.

Lemma partly_last txt s p : partly_written txt s -> txt = p ++ [ch_nl] -> no_digit_at_end s.
Proof.
  intros [Hl H] Et q b E. assert (Ei : nth_error s (length q) = Some b) by (rewrite E, nth_error_app2, Nat.sub_diag by lia; reflexivity).
  assert (Lq : length q = length p) by (rewrite E, Et, !app_length in Hl; cbn [length] in Hl; lia).
  destruct (H (length q) b Ei) as [H0|[H0|[_ H0]]]; [|subst b; lia|subst b; lia].
  rewrite Et, Lq, nth_error_app2, Nat.sub_diag in H0 by lia. cbn [nth_error] in H0. injection H0 as <-. unfold ch_nl. lia.
Qed.

Theorem C68_coo_loads : forall L O (es : list (Z * Z * unit)) c parts ns sched fl pg fn ft T,
  is_ity L -> isigned L = false -> is_ity O -> holds c es -> es <> [] ->
  Forall (fun e => printable L (fst (fst e)) /\ printable L (snd (fst e))) es ->
  Permutation (concat parts) (seq 0 (length es)) ->
  off_page pg (coo_text dec None es) -> read_as_text ft fn -> 1 <= T -> (Z.of_nat (2 * T * length (coo_text dec None es)) <= imax O)%Z ->
  exists s ps, coo_write_stopped (fmt_int L) None c parts ns sched = Ok s /\ label_pairs L ps /\
    forall ch, lc_T ch = T -> exists c' : coo unit, coo_open L O None fl pg fn (Some s) ft ch = Ok c' /\ holds c' (stored fl (unweighted ps)).
Proof.
  intros L O es c parts ns sched fl pg fn ft T HL Hu HO Hc Hne HF HP Hpg Hft HT Hm.
  destruct (C68_coo_left L es c parts ns sched HL Hc Hne HF HP) as (s & E & Hs).
  assert (Hlen : length s = length (coo_text dec None es)).
  { destruct Hs as [Hl _]. rewrite Hl. apply (perm_text_len (coo_line dec None)). apply pick_perm. exact HP. }
  apply (off_page_len pg _ s (eq_sym Hlen)) in Hpg. rewrite <- Hlen in Hm.
  assert (Hpn : pick es (concat parts) <> []).
  { intros Hn. pose proof (pick_perm es (concat parts) HP) as P. rewrite Hn in P. apply Permutation_nil in P. congruence. }
  destruct (coo_text_last None (pick es (concat parts)) Hpn) as (p & Ep).
  destruct (C43_edge_list_contents L O fl s pg fn ft T HL Hu HO Hpg (partly_last _ _ p Hs Ep)) as (ps & H1 & H2); [|exact HT|exact Hm|].
  - apply text_as_el; [exact Hft|]. apply (blank_pigo _ _ Hs). intros b. apply coo_text_first.
  - exists s, ps. split; [exact E|]. split; [exact H1|]. intros ch Hch. destruct (H2 ch Hch) as (c' & E' & H' & _). exists c'. auto.
Qed.
Print Assumptions C68_coo_loads.

(** ** Concrete cases

    Two entries, each written by a thread of its own.  Stopped when both threads
    have stored the first label and the last digit of the second: one entry
    loads, and it was never in the COO.  Stopped when the first thread has stored
    its first label, and the second thread has finished: the same, and the
    finished entry is not there. *)
Definition ex_cut : coo unit := mkCoo [Some 10; Some 777]%Z [Some 25; Some 31]%Z [] (Some 778%Z) (Some 778%Z) (Some 32%Z) 2.
Definition ex_cut_es : list (Z * Z * unit) := [((10, 25), tt); ((777, 31), tt)]%Z.
Definition ex_cut_sched : list nat := [0; 1; 0; 1; 1; 0; 0; 1; 1].
Definition ex_cut_bytes : list byte := (chars "10 " ++ [0%Z] ++ chars "5" ++ [0%Z] ++ chars "777 " ++ [0%Z] ++ chars "1" ++ [1%Z])%list.

Example C68_made_up :
  holds ex_cut ex_cut_es /\ Forall (label_ok u32) ex_cut_es /\ Permutation (concat [[0]; [1]]) (seq 0 (length ex_cut_es)) /\
  (exists f ps, coo_write_plan (fmt_int u32) None ex_cut [[0]; [1]] = Ok (f, ps) /\
    exec_all pexec (firstn 9 (map snd (trace ex_cut_sched ps))) f = Ok ex_cut_bytes) /\
  coo_write_stopped (fmt_int u32) None ex_cut [[0]; [1]] [4; 5] ex_cut_sched = Ok ex_cut_bytes /\
  exists c, coo_open (W:=unit) u32 u32 None no_flags 4096 (chars "g.el") (Some ex_cut_bytes) AUTO ex_pch = Ok c /\
    holds c [((10, 5), tt)]%Z.
Proof.
  split; [repeat split|]. split; [unfold ex_cut_es; repeat (apply Forall_cons; [split; split; vm_compute; (reflexivity || discriminate)|]); apply Forall_nil|]. split; [apply Permutation_refl|].
  split; [do 2 eexists; split; [reflexivity|vm_compute; reflexivity]|]. split; [vm_compute; reflexivity|].
  eexists. split; [vm_compute; reflexivity|]. repeat split.
Qed.

Definition ex_cut_bytes2 : list byte := (chars "10 " ++ repeat 0%Z 3 ++ chars "777 31" ++ [ch_nl])%list.
Example C68_finished_lost :
  coo_write_stopped (fmt_int u32) None ex_cut [[0]; [1]] [3; 7] [0; 1; 1; 0; 1] = Ok ex_cut_bytes2 /\
  exists c, coo_open (W:=unit) u32 u32 None no_flags 4096 (chars "g.el") (Some ex_cut_bytes2) AUTO ex_pch = Ok c /\
    holds c [((10, 777), tt)]%Z.
Proof. split; [vm_compute; reflexivity|]. eexists. split; [vm_compute; reflexivity|]. repeat split. Qed.

(** Three weighted entries; the first thread has finished one of its two, the
    second none.  What loads is that entry. *)
Definition ex_half : coo Z := mkCoo [Some 10; Some 0; Some 7]%Z [Some 2; Some 31; Some 0]%Z [Some (-5); Some 66; Some 0]%Z
  (Some 32%Z) (Some 11%Z) (Some 32%Z) 3.
Definition ex_half_es : list (Z * Z * Z) := [(10, 2, -5); (0, 31, 66); (7, 0, 0)]%Z.
Example C68_between_applies :
  weight_writer (WSigned i8) (fmt_int i8) dec (printable i8) (fun z => z) 0 /\
  holds ex_half ex_half_es /\ holds_weights ex_half ex_half_es /\ Forall (label_ok u32) ex_half_es /\ Forall (fun e => printable i8 (snd e)) ex_half_es /\
  first_entries [[0]; []] [[0; 1]; [2]] /\ off_page 4096 (coo_text dec (Some dec) ex_half_es) /\ read_as_text AUTO (chars "g.el") /\
  coo_write_stopped (fmt_int u32) (Some (fmt_int i8)) ex_half [[0; 1]; [2]] [8; 0] [0; 0; 0; 1; 0] =
    Ok (chars "10 2 -5" ++ ch_nl :: repeat 0%Z 13 ++ [1%Z])%list /\
  exists c, coo_open u32 u32 (Some (mkWmode _ (wr_signed i8) (cint i8))) no_flags 4096 (chars "g.el") (Some (chars "10 2 -5" ++ ch_nl :: repeat 0%Z 13 ++ [1%Z])%list) AUTO ex_pch = Ok c /\
    holds c [(10, 2, -5)]%Z /\ holds_weights c [(10, 2, -5)]%Z.
Proof.
  split; [apply ww_signed; [cbn; tauto|reflexivity]|]. split; [repeat split|]. split; [reflexivity|].
  split; [unfold ex_half_es; repeat (apply Forall_cons; [split; split; vm_compute; (reflexivity || discriminate)|]); apply Forall_nil|].
  split; [unfold ex_half_es; repeat (apply Forall_cons; [split; [vm_compute; reflexivity|intros _; vm_compute; discriminate]|]); apply Forall_nil|].
  split; [constructor; [exists [1]; reflexivity|constructor; [exists [2]; reflexivity|constructor]]|].
  split; [split; [apply Nat.ltb_lt; reflexivity|vm_compute; discriminate]|].
  split; [right; split; [reflexivity|split; intros (p & E); apply (f_equal (@rev _)) in E; rewrite rev_app_distr in E; discriminate]|].
  split; [vm_compute; reflexivity|].
  eexists. split; [vm_compute; reflexivity|]. repeat split.
Qed.

(** A tensor, stopped: the first entry is complete, of the second only the
    first label. *)
Example C68_tensor_applies :
  tensor_holds ex_tout 3 ex_tout_es /\ tensor_printable u8 u8 3 ex_tout_es /\ first_entries [[0]] [[0; 1; 2]] /\
  tensor_write_stopped u8 (fmt_int u8) (Some (fmt_int i8)) ex_tout [[0; 1; 2]] [9] [] = Ok (chars "1 2 3 -5" ++ ch_nl :: repeat 0%Z 19 ++ [1%Z])%list /\
  exists t, tensor_open u8 u32 (Some (mkWmode _ (wr_signed i8) (cint i8))) 4096 (chars "t.tns") (Some (chars "1 2 3 -5" ++ ch_nl :: repeat 0%Z 19 ++ [1%Z])%list) AUTO ex_pch = Ok t /\
    tensor_holds t 3 [([1; 2; 3], -5)]%Z /\ tensor_weights t [([1; 2; 3], -5)]%Z.
Proof.
  split; [split; [reflexivity|split; [reflexivity|split; [repeat constructor|reflexivity]]]|].
  split; [split; [|vm_compute; discriminate]|].
  { unfold ex_tout_es. repeat (apply Forall_cons; [cbn [fst]; repeat (apply Forall_cons; [split; [vm_compute; reflexivity|discriminate]|]); apply Forall_nil|]). apply Forall_nil. }
  split; [constructor; [exists [1; 2]; reflexivity|constructor]|].
  split; [vm_compute; reflexivity|].
  eexists. split; [vm_compute; reflexivity|]. split; [repeat split; repeat constructor|reflexivity].
Qed.
