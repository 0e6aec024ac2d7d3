(** * Property C69: chains of conversions

    A text edge list is loaded, stored in a binary file, loaded again, turned
    from one class into another, written as text, loaded again: what the objects
    at the end hold, in terms of the lines of the first file.  This also shows
    that the objects the constructors build are among those that the round trips
    C15, C16 and C18 are about. *)

From Coq Require Import String Permutation Sorted.
From Verif Require Import Base Reader ReaderLemmas Sched SchedLemmas Spec SpecDec SpecFp SpecText SpecMm Coo Ascii Csr CooLemmas WeightLemmas ElSpec ElFinal ElThms ElExamples AsciiLemmas WriteLemmas TextRound
  SpecCsr SpecPipe CsrLemmas CsrMain CsrBack CsrSort CsrQuery Codec Bin SpecBin BinLemmas BinSave BinLoad Graph Load BinOpen P_Text P_Bin P_Mm P_Csr P_Pipe P_CrashText.
Open Scope list_scope.
Notation length := List.length.

(** ** Specification *)

(** How a class with or without weights reads and writes them: [wm] the template
    parameters, [reads f ws] says that the weights in the file [f] are [ws], [fm]
    and [tw] how a weight is written, [ok w] that [w] can be written as text and
    [rd w] what is read back from it. *)
Inductive mode : forall W : Type, option (wmode W) -> (el_file -> list W -> Prop) -> option (fmt W) -> option (W -> list byte) ->
    (W -> Prop) -> (W -> W) -> Prop :=
| mode_plain : mode unit None (fun f ws => ws = no_weights f) None None (fun _ => True) (fun w => w)
| mode_weighted k fm tw ok rd extra bc : weight_writer k fm tw ok rd extra ->
    mode (wtype k) (Some (mkWmode _ (wreader k) bc)) (weights_are k) (Some fm) (Some tw) ok rd.

(** The weights satisfy [P], and values satisfying [P] survive the binary format. *)
Definition storable {W} (wm : option (wmode W)) (P : W -> Prop) (ws : list W) : Prop :=
  match wm with None => True | Some m => faithful P (wm_bin m) /\ cd_size (wm_bin m) < 256 /\ Forall P ws end.

(** The entries are grouped by their first label, in increasing order. *)
Definition by_first {W} (es : list (Z * Z * W)) : Prop := StronglySorted Z.le (map (fun e => fst (fst e)) es).

(** ** The modes *)
Lemma mode_pairs W wm reads fm tw ok rd f ws : mode W wm reads fm tw ok rd -> reads f ws -> length ws = length (el_pairs f).
Proof. destruct 1 as [|k fm tw ok rd ex bc Hww]; intros H; [rewrite H; apply map_length|eapply weights_pairs_len; exact H]. Qed.

Lemma mode_open W wm reads fm tw ok rd L O f ws pg fn ft ch : mode W wm reads fm tw ok rd -> reads f ws ->
  is_ity L -> is_ity O -> wf_el f -> labels_fit (imax L - 2) f -> (Z.of_nat (length (el_pairs f)) <= imax O)%Z ->
  off_page pg (el_text f) -> as_el ft fn (el_text f) -> 1 <= lc_T ch ->
  coo_open L O wm no_flags pg fn (Some (el_text f)) ft ch = Ok (el_result (wtext wm) no_flags f ws).
Proof.
  destruct 1 as [|k fm tw ok rd ex bc Hww]; intros Hr HL HO Hf Hfit Hm Hpg Hft HT.
  - subst ws. apply coo_unweighted; assumption.
  - destruct (ww_facts _ _ _ _ _ _ Hww) as [Hk _]. apply coo_weighted; assumption.
Qed.

Lemma mode_holds {W} (wm : option (wmode W)) f ws :
  holds (el_result (wtext wm) no_flags f ws) (triples f ws) /\
  (is_some wm = true -> holds_weights (el_result (wtext wm) no_flags f ws) (triples f ws)).
Proof.
  pose proof (result_holds (wtext wm) no_flags f ws) as H. rewrite stored_no_flags in H. split; [exact H|].
  intros Hs. destruct wm as [[wt wb]|]; [|discriminate]. cbn [wtext option_map wm_text].
  pose proof (result_weights wt no_flags f ws) as H'. rewrite stored_no_flags in H'. exact H'.
Qed.

Lemma mode_write W wm reads fm tw ok rd L (es : list (Z * Z * W)) c parts sched : mode W wm reads fm tw ok rd ->
  is_ity L -> holds c es -> (is_some wm = true -> holds_weights c es) -> Forall (label_ok L) es -> Forall (fun e => ok (snd e)) es -> es <> [] ->
  concat parts = seq 0 (length es) ->
  coo_write (fmt_int L) fm c parts sched = Ok (coo_text dec tw es).
Proof.
  destruct 1 as [|k fm tw ok rd ex bc Hww]; intros HL Hc Hw HF Hok Hne Hp.
  - destruct (coo_write_ok (fmt_int L) None c es dec (fun _ => []) Hc ltac:(discriminate)
      (formats_labels L es HL HF) ltac:(discriminate) parts sched (perm_bounds es parts Hp)) as (f & ps & _ & _ & _ & _ & E).
    { rewrite Hp. destruct es; [congruence|discriminate]. }
    rewrite (pick_ordered es parts Hp) in E. exact E.
  - destruct (ww_facts _ _ _ _ _ _ Hww) as [Hk HW].
    destruct (coo_write_ok (fmt_int L) (Some fm) c es dec tw Hc (fun _ => Hw eq_refl)
      (formats_labels L es HL HF)) with (parts := parts) (sched := sched) as (f & ps & _ & _ & _ & _ & E).
    { intros g e Eg He. injection Eg as <-. rewrite Forall_forall in Hok. apply HW. apply Hok. exact He. }
    { apply (perm_bounds es parts Hp). }
    { rewrite Hp. destruct es; [congruence|discriminate]. }
    rewrite (pick_ordered es parts Hp) in E. exact E.
Qed.

(** The file [coo_write] makes is a well-formed edge list. *)
Lemma mode_file W wm reads fm tw ok rd L (es : list (Z * Z * W)) : mode W wm reads fm tw ok rd ->
  Forall (label_ok L) es -> Forall (fun e => ok (snd e)) es ->
  let f := file_of tw es in let ws := map (fun e => rd (snd e)) es in
  el_text f = coo_text dec tw es /\ wf_el f /\ reads f ws /\ el_pairs f = map fst es /\
  triples f ws = map (fun e => (fst e, rd (snd e))) es.
Proof.
  intros Hm HF Hok f ws. split; [apply file_of_text|].
  assert (HP : el_pairs f = map fst es) by (apply (file_of_pairs L); exact HF).
  assert (HT : triples f ws = map (fun e => (fst e, rd (snd e))) es).
  { unfold triples. rewrite HP. unfold ws. clear. induction es as [|[[x y] w] es IH]; [reflexivity|]. cbn [map combine fst snd]. rewrite IH. reflexivity. }
  destruct Hm as [|k fm tw ok rd ex bc Hww].
  - split; [apply (file_of_wf L); [exact HF|apply Forall_forall; intros e _; split; [constructor|exact I]]|].
    split; [|split; assumption]. unfold no_weights. rewrite HP, map_map. unfold ws. apply map_ext. intros [p []]. reflexivity.
  - destruct (ww_facts _ _ _ _ _ _ Hww) as [Hk HW].
    split; [apply (file_of_wf L); [exact HF|eapply Forall_impl; [|exact Hok]; intros e He; apply HW; exact He]|].
    split; [|split; assumption]. unfold weights_are, f, ws, file_of. cbn [el_lines]. rewrite !map_map. cbn [snd line_of l_post post_of].
    clear - Hok HW. induction Hok as [|e es He HF IH]; cbn [map]; constructor; [apply HW; exact He|exact IH].
Qed.

Lemma text_not_pigo {W} tw (es : list (Z * Z * W)) ft fn : read_as_text ft fn -> as_el ft fn (coo_text dec tw es).
Proof.
  intros H. apply text_as_el; [exact H|]. intros (b & r & E).
  assert (E0 : nth_error (coo_text dec tw es) 0 = Some 80%Z) by (rewrite E; reflexivity). apply coo_text_first in E0. apply E0. reflexivity.
Qed.

(** The result depends on the lines only. *)
Lemma result_ext {W} (wr : option (wrd W)) f f' ws ws' : triples f ws = triples f' ws' -> el_result wr no_flags f ws = el_result wr no_flags f' ws'.
Proof. intros H. unfold el_result. rewrite H. reflexivity. Qed.

(** ** What the constructors build can be stored *)
Lemma fit_some t z : inrange t z = true -> fit t (Some z).
Proof. intros H. exists z. auto. Qed.

Lemma in_type t z : is_ity t -> (0 <= z <= imax t)%Z -> inrange t z = true.
Proof.
  intros Ht Hz. pose proof (ity_imin t Ht) as E. unfold inrange. apply andb_true_intro. split; apply Z.leb_le; [|lia].
  pose proof Ht as H. unfold is_ity in H. cbn [In] in H. assert (H0 : (imin t <= 0)%Z); [|lia].
  clear - H. repeat (destruct H as [<-|H]; [vm_compute; discriminate|]). destruct H.
Qed.

Lemma max_below l hi : (0 <= hi)%Z -> Forall (fun z => z <= hi)%Z l -> (max_of l <= hi)%Z.
Proof. intros H0. induction 1 as [|x l Hx HF IH]; [exact H0|]. unfold max_of in *. cbn [fold_right]. lia. Qed.

Lemma max_pos l : (0 <= max_of l)%Z.
Proof. unfold max_of. induction l; cbn [fold_right]; lia. Qed.

Lemma result_shape {W} (wm : option (wmode W)) f ws : coo_shape (wbin wm) (el_result (wtext wm) no_flags f ws).
Proof.
  unfold coo_shape, el_result. cbn [co_x co_y co_w co_m]. rewrite !map_length. split; [reflexivity|]. split; [reflexivity|].
  destruct wm; cbn [wbin wtext option_map wlen]; [rewrite map_length|]; reflexivity.
Qed.

Lemma triples_weights {W} f (ws : list W) : length ws = length (el_pairs f) -> map snd (triples f ws) = ws.
Proof.
  unfold triples. rewrite map_map. cbn [snd]. generalize (el_pairs f). clear f. induction ws as [|w ws IH]; intros [|p l] H; try discriminate; [reflexivity|].
  cbn [combine map snd]. f_equal. apply IH. injection H as H. exact H.
Qed.

Lemma result_full {W} L O (wm : option (wmode W)) P f ws : is_ity L -> is_ity O -> wf_el f -> length ws = length (el_pairs f) ->
  labels_fit (imax L - 2) f -> (Z.of_nat (length (el_pairs f)) <= imax O)%Z -> storable wm P ws ->
  coo_full L O (wbin wm) P (el_result (wtext wm) no_flags f ws).
Proof.
  intros HL HO Hf Hl Hfit Hm Hst. pose proof (imax_2 L HL) as H2.
  assert (Hes : map fst (triples f ws) = el_pairs f) by (apply triples_pairs; exact Hl).
  assert (HB : Forall (fun e => 0 <= fst (fst e) <= imax L - 2 /\ 0 <= snd (fst e) <= imax L - 2)%Z (triples f ws)).
  { apply Forall_forall. intros e He. assert (Hp : In (fst e) (el_pairs f)) by (rewrite <- Hes; apply in_map; exact He).
    pose proof (pairs_nonneg f Hf) as H0. unfold labels_fit in Hfit. rewrite Forall_forall in H0, Hfit. specialize (H0 _ Hp). specialize (Hfit _ Hp). lia. }
  assert (M1 : (max_of (map (fun e => fst (fst e)) (triples f ws)) <= imax L - 2)%Z).
  { apply max_below; [lia|]. rewrite Forall_map. eapply Forall_impl; [|exact HB]. cbn beta. intros e He. lia. }
  assert (M2 : (max_of (map (fun e => snd (fst e)) (triples f ws)) <= imax L - 2)%Z).
  { apply max_below; [lia|]. rewrite Forall_map. eapply Forall_impl; [|exact HB]. cbn beta. intros e He. lia. }
  pose proof (max_pos (map (fun e => fst (fst e)) (triples f ws))) as P1. pose proof (max_pos (map (fun e => snd (fst e)) (triples f ws))) as P2.
  assert (Hlt : length (triples f ws) = length (el_pairs f)) by (rewrite <- Hes; symmetry; apply map_length).
  unfold coo_full, el_result. cbn [co_nrows co_ncols co_n co_m co_x co_y co_w]. rewrite counted_no_flags, stored_no_flags.
  split; [apply fit_some, in_type; [exact HL|lia]|]. split; [apply fit_some, in_type; [exact HL|lia]|]. split; [apply fit_some, in_type; [exact HL|lia]|].
  split; [apply in_type; [exact HO|rewrite Hlt; lia]|].
  split; [rewrite Forall_map; eapply Forall_impl; [|exact HB]; cbn beta; intros e He; apply fit_some, in_type; [exact HL|lia]|].
  split; [rewrite Forall_map; eapply Forall_impl; [|exact HB]; cbn beta; intros e He; apply fit_some, in_type; [exact HL|lia]|].
  destruct wm as [m|]; cbn [wbin wtext option_map wfit]; [|exact I]. destruct Hst as (S1 & S2 & S3). split; [exact S1|]. split; [exact S2|].
  rewrite Forall_map. apply Forall_forall. intros e He. exists (snd e). split; [reflexivity|].
  rewrite Forall_forall in S3. apply S3. rewrite <- (triples_weights f ws Hl). apply in_map. exact He.
Qed.

(** A CSR built without weights has no array of weights. *)
Lemma scatter_no_weights {W} O (c : coo W) off sched ps s s' : sc_w s = [] -> run (scexec O c off) sched ps s = Ok s' -> sc_w s' = [].
Proof.
  assert (STEP : forall i a b, sc_w a = [] -> scexec O c off i a = Ok b -> sc_w b = []).
  { intros i a b Ha. destruct i as [e|e|e]; cbn [scexec]; intros H.
    - repeat (apply bind_ok_inv in H as (? & ? & H)). injection H as <-. exact Ha.
    - repeat (apply bind_ok_inv in H as (? & ? & H)). injection H as <-. exact Ha.
    - apply bind_ok_inv in H as (v & _ & H). apply bind_ok_inv in H as (p & _ & H). rewrite Ha in H. unfold aset in H. cbn [length] in H.
      replace (p <? 0) with false in H by (symmetry; apply Nat.ltb_ge; lia). discriminate H. }
  assert (ALL : forall l a b, sc_w a = [] -> exec_all (scexec O c off) l a = Ok b -> sc_w b = []).
  { induction l as [|i l IH]; intros a b Ha H; cbn [exec_all] in H; [injection H as <-; exact Ha|].
    apply bind_ok_inv in H as (a' & E & H). exact (IH a' b (STEP i a a' Ha E) H). }
  revert ps s. induction sched as [|t sched IH]; intros ps s Hs H; cbn [run] in H; [exact (ALL _ _ _ Hs H)|].
  destruct (pop t ps) as [[i ps']|]; [|exact (IH ps s Hs H)].
  apply bind_ok_inv in H as (a' & E & H). exact (IH ps' a' (STEP i s a' Hs E) H).
Qed.

Lemma convert_no_weights {W} L O (c : coo W) ch r : convert_coo L O false c ch = Ok r -> cs_w r = [].
Proof.
  unfold convert_coo. destruct (co_n c) as [n|]; [|discriminate]. intros H.
  apply bind_ok_inv in H as ([[e w] o] & Ea & H). unfold csr_alloc in Ea.
  apply bind_ok_inv in Ea as (x1 & _ & Ea). cbn [bind] in Ea. apply bind_ok_inv in Ea as (x2 & _ & Ea). apply bind_ok_inv in Ea as (x3 & _ & Ea). injection Ea as <- <- <-.
  destruct (n <? 0)%Z; [discriminate|].
  apply bind_ok_inv in H as (incs & _ & H). apply bind_ok_inv in H as (ad & _ & H). apply bind_ok_inv in H as (off & _ & H).
  apply bind_ok_inv in H as (st & Es & H). injection H as <-. cbn [cs_w]. eapply scatter_no_weights; [|exact Es]. reflexivity.
Qed.

Lemma represents_shape {W} (wm : option (wmode W)) (r : csr W) rows : represents (is_some wm) r rows -> (wm = None -> cs_w r = []) ->
  csr_shape (wbin wm) r.
Proof.
  intros (H1 & H2 & H3 & H4 & H5) Hw. unfold csr_shape. rewrite H1, H2, H3, H4, !map_length, seq_length.
  split; [lia|]. split; [lia|]. split; [reflexivity|]. destruct wm as [m|]; cbn [wbin option_map wlen]; [rewrite H5 by reflexivity; rewrite map_length; reflexivity|auto].
Qed.

Lemma represents_full {W} L O (wm : option (wmode W)) P (r : csr W) rows : is_ity L -> is_ity O -> represents (is_some wm) r rows ->
  (cs_n r <= imax L)%Z -> (cs_m r <= imax O)%Z -> fit L (cs_nrows r) -> fit L (cs_ncols r) ->
  Forall (fun p => 0 <= fst p <= imax L)%Z (concat rows) -> storable wm P (map snd (concat rows)) ->
  csr_full L O (wbin wm) P r.
Proof.
  intros HL HO (H1 & H2 & H3 & H4 & H5) Hn Hm Hr Hc HF Hst. unfold csr_full.
  split; [apply in_type; [exact HL|lia]|]. split; [apply in_type; [exact HO|lia]|]. split; [exact Hr|]. split; [exact Hc|].
  split.
  { rewrite H3, Forall_map. apply Forall_forall. intros v _. apply fit_some, in_type; [exact HO|].
    assert (length (concat (firstn v rows)) <= length (concat rows)); [|lia].
    rewrite <- (firstn_skipn v rows) at 2. rewrite concat_app, app_length. lia. }
  split; [rewrite H4, Forall_map; eapply Forall_impl; [|exact HF]; cbn beta; intros p Hp; apply fit_some, in_type; [exact HL|exact Hp]|].
  destruct wm as [m|]; cbn [wbin option_map wfit]; [|exact I]. destruct Hst as (S1 & S2 & S3). split; [exact S1|]. split; [exact S2|].
  rewrite H5 by reflexivity. rewrite Forall_map. rewrite Forall_map in S3. eapply Forall_impl; [|exact S3]. cbn beta. intros p Hp. exists (snd p). auto.
Qed.

Lemma in_rows {W} n (es : list (Z * Z * W)) p : In p (concat (rows_of n es)) -> exists e, In e es /\ fst p = snd (fst e) /\ snd p = snd e.
Proof.
  intros H. apply in_concat in H as (q & Hq & Hp). unfold rows_of in Hq. apply in_map_iff in Hq as (v & <- & _).
  unfold row in Hp. apply in_map_iff in Hp as (e & <- & He). apply filter_In in He as [He _]. exists e. auto.
Qed.

Lemma built {W} L O (wm : option (wmode W)) P (c : coo W) es n ch :
  is_ity L -> is_ity O -> holds c es -> (is_some wm = true -> holds_weights c es) -> co_n c = Some n -> (0 <= n < imax L)%Z ->
  fit L (co_nrows c) -> fit L (co_ncols c) -> (Z.of_nat (length es) <= imax O)%Z ->
  Forall (fun e => 0 <= fst (fst e) < n /\ 0 <= snd (fst e) < n)%Z es -> storable wm P (map snd es) -> legal (length es) ch ->
  exists r es', convert_coo L O (is_some wm) c ch = Ok r /\ Permutation es' es /\ represents (is_some wm) r (rows_of (Z.to_nat n) es') /\
    cs_n r = n /\ cs_m r = Z.of_nat (length es) /\ csr_shape (wbin wm) r /\ csr_full L O (wbin wm) P r /\ room L (cs_n r).
Proof.
  intros HL HO Hc Hw Hn Hlt Hr Hcl Hm HF Hst HC.
  assert (HF1 : Forall (fun e => 0 <= fst (fst e) < n)%Z es) by (eapply Forall_impl; [|exact HF]; cbn beta; tauto).
  destruct (convert_coo_ok L O HL HO (is_some wm) c es n Hc Hw Hn ltac:(lia) (room_less L n ltac:(lia)) Hm HF1 ch HC) as (r & es' & E & HP & Hrep & E1 & E2 & _).
  assert (HF' : Forall (fun e => 0 <= fst (fst e) < Z.of_nat (Z.to_nat n))%Z es').
  { apply Forall_forall. intros e He. apply (Permutation_in _ HP) in He. rewrite Forall_forall in HF. specialize (HF e He). cbn beta in HF. lia. }
  pose proof Hrep as (R1 & R2 & _). rewrite rows_length in R1. rewrite rows_total in R2 by exact HF'. rewrite (Permutation_length HP) in R2.
  assert (En : cs_n r = n) by lia.
  exists r, es'. split; [exact E|]. split; [exact HP|]. split; [exact Hrep|]. split; [exact En|]. split; [exact R2|].
  assert (Hin : forall p, In p (concat (rows_of (Z.to_nat n) es')) -> exists e, In e es /\ fst p = snd (fst e) /\ snd p = snd e).
  { intros p Hp. destruct (in_rows _ _ p Hp) as (e & He & X). exists e. split; [apply (Permutation_in _ HP He)|exact X]. }
  split.
  { eapply represents_shape; [exact Hrep|]. intros ->. cbn [is_some] in E. eapply convert_no_weights; exact E. }
  split; [|rewrite En; apply room_less; lia].
  eapply represents_full; [exact HL|exact HO|exact Hrep|lia|lia|rewrite E1; exact Hr|rewrite E2; exact Hcl| |].
  - apply Forall_forall. intros p Hp. destruct (Hin p Hp) as (e & He & X & _). rewrite Forall_forall in HF. specialize (HF e He). cbn beta in HF. lia.
  - destruct wm as [m|]; [|exact I]. destruct Hst as (S1 & S2 & S3). split; [exact S1|]. split; [exact S2|].
    rewrite Forall_map. apply Forall_forall. intros p Hp. destruct (Hin p Hp) as (e & He & _ & ->). rewrite Forall_forall in S3. apply S3. apply in_map. exact He.
Qed.

(** ** The theorems

    A text edge list [f] with weights [ws], loaded as a COO; stored and loaded in
    the binary format; written as text and loaded again.  The second object is
    the first one.  The text lists the entries of [f] in their order; the last
    object holds the same entries (floating-point weights as they are read back
    from six decimals), and if nothing is lost it is the first object again, and
    writes the same text. *)
Theorem C69_text_chain : forall W wm reads fm tw ok rd L O (P : W -> Prop) f ws pg fn ft ch tx ty tm pg1 fn1 ft1 ch1 parts sched pg2 fn2 ft2 ch2,
  mode W wm reads fm tw ok rd -> is_ity L -> is_ity O ->
  wf_el f -> reads f ws -> el_pairs f <> [] -> labels_fit (imax L - 2) f -> (Z.of_nat (length (el_pairs f)) <= imax O)%Z ->
  Forall ok ws -> storable wm P ws ->
  off_page pg (el_text f) -> as_el ft fn (el_text f) -> 1 <= lc_T ch ->
  1 <= fst tx -> 1 <= fst ty -> 1 <= fst tm -> teams ch1 -> ft1 = AUTO \/ ft1 = PIGO_COO_BIN ->
  concat parts = seq 0 (length (el_pairs f)) ->
  off_page pg2 (coo_text dec tw (triples f ws)) -> read_as_text ft2 fn2 -> 1 <= lc_T ch2 ->
  exists c w s c',
    coo_open L O wm no_flags pg fn (Some (el_text f)) ft ch = Ok c /\
    coo_save L O (wbin wm) c tx ty tm = Ok w /\ contents w s /\
    coo_open L O wm no_flags pg1 fn1 (Some s) ft1 ch1 = Ok c /\
    coo_write (fmt_int L) fm c parts sched = Ok (coo_text dec tw (triples f ws)) /\
    coo_open L O wm no_flags pg2 fn2 (Some (coo_text dec tw (triples f ws))) ft2 ch2 = Ok c' /\
    holds c' (map (fun e => (fst e, rd (snd e))) (triples f ws)) /\
    (is_some wm = true -> holds_weights c' (map (fun e => (fst e, rd (snd e))) (triples f ws))) /\
    ((forall w, In w ws -> rd w = w) -> c' = c).
Proof.
  intros W wm reads fm tw ok rd L O P f ws pg fn ft ch tx ty tm pg1 fn1 ft1 ch1 parts sched pg2 fn2 ft2 ch2
    HM HL HO Hf Hr Hne Hfit Hm Hok Hst Hpg Hft HT T1 T2 T3 Hch1 Hft1 Hp Hpg2 Hft2 HT2.
  pose proof (mode_pairs _ _ _ _ _ _ _ f ws HM Hr) as Hl. pose proof (imax_2 L HL) as H2.
  set (c := el_result (wtext wm) no_flags f ws).
  assert (Ec : coo_open L O wm no_flags pg fn (Some (el_text f)) ft ch = Ok c) by (eapply mode_open; eassumption).
  destruct (C15_coo_round_trip L O wm P no_flags c tx ty tm pg1 fn1 ft1 ch1 HL HO (result_shape wm f ws)
    (result_full L O wm P f ws HL HO Hf Hl Hfit Hm Hst) T1 T2 T3 Hch1 Hft1) as (w & s & Es & Hs & Er).
  destruct (mode_holds wm f ws) as [Hh Hw]. fold c in Hh, Hw.
  assert (Hes : map fst (triples f ws) = el_pairs f) by (apply triples_pairs; exact Hl).
  assert (Hlt : length (triples f ws) = length (el_pairs f)) by (rewrite <- Hes; symmetry; apply map_length).
  assert (HF : Forall (label_ok L) (triples f ws)).
  { apply Forall_forall. intros e He. assert (Hi : In (fst e) (el_pairs f)) by (rewrite <- Hes; apply in_map; exact He).
    pose proof (pairs_nonneg f Hf) as H0. unfold labels_fit in Hfit. rewrite Forall_forall in H0, Hfit. specialize (H0 _ Hi). specialize (Hfit _ Hi). cbn beta in H0, Hfit.
    unfold label_ok. lia. }
  assert (HW : Forall (fun e => ok (snd e)) (triples f ws)) by (rewrite <- Forall_map, (triples_weights f ws Hl); exact Hok).
  assert (Hne' : triples f ws <> []) by (intros E; apply Hne; rewrite <- Hes, E; reflexivity).
  destruct (mode_file _ _ _ _ _ _ _ L (triples f ws) HM HF HW) as (G1 & G2 & G3 & G4 & G5). cbv zeta in G1, G2, G3, G4, G5.
  set (f2 := file_of tw (triples f ws)) in *. set (ws2 := map (fun e => rd (snd e)) (triples f ws)) in *.
  exists c, w, s, (el_result (wtext wm) no_flags f2 ws2).
  split; [exact Ec|]. split; [exact Es|]. split; [exact Hs|]. split; [exact Er|]. split.
  { eapply mode_write; eauto. rewrite Hlt. exact Hp. }
  split.
  { rewrite <- G1. eapply mode_open; eauto.
    - unfold labels_fit. rewrite G4, Hes. exact Hfit.
    - rewrite G4, Hes. exact Hm.
    - rewrite G1. exact Hpg2.
    - rewrite G1. apply text_not_pigo. exact Hft2. }
  destruct (mode_holds wm f2 ws2) as [Hh2 Hw2]. rewrite G5 in Hh2, Hw2. split; [exact Hh2|]. split; [exact Hw2|].
  intros Hid. apply result_ext. rewrite G5. rewrite <- (map_id (triples f ws)) at 2. apply map_ext_in. intros [q x] Hi. cbn [fst snd]. f_equal. apply Hid.
  rewrite <- (triples_weights f ws Hl). apply in_map_iff. exists (q, x). auto.
Qed.
Print Assumptions C69_text_chain.

(** Graphs do not depend on the order of the lines. *)
Lemma max_perm l l' : Permutation l l' -> max_of l = max_of l'.
Proof. unfold max_of. induction 1; cbn [fold_right]; lia. Qed.

Lemma vertices_perm ps ps' : Permutation ps ps' -> vertices ps = vertices ps'.
Proof. intros H. unfold vertices. f_equal. apply max_perm. apply Permutation_app; apply Permutation_map; exact H. Qed.

Lemma filter_perm {A} (p : A -> bool) l l' : Permutation l l' -> Permutation (filter p l) (filter p l').
Proof.
  induction 1 as [|x l l' H IH|x y l|l l' l'' H1 IH1 H2 IH2]; cbn [filter]; [constructor| | |eapply perm_trans; eassumption].
  - destruct (p x); [constructor|]; exact IH.
  - destruct (p x), (p y); try apply Permutation_refl. apply perm_swap.
Qed.

Lemma succs_perm ps ps' u : Permutation ps ps' -> Permutation (succs ps u) (succs ps' u).
Proof. intros H. apply Permutation_map, filter_perm, H. Qed.
Lemma preds_perm ps ps' u : Permutation ps ps' -> Permutation (preds ps u) (preds ps' u).
Proof. intros H. apply Permutation_map, filter_perm, H. Qed.
Lemma wsuccs_perm {W} (es es' : list (Z * Z * W)) u : Permutation es es' -> Permutation (wsuccs es u) (wsuccs es' u).
Proof. intros H. apply Permutation_map, filter_perm, H. Qed.
Lemma wpreds_perm {W} (es es' : list (Z * Z * W)) u : Permutation es es' -> Permutation (wpreds es u) (wpreds es' u).
Proof. intros H. apply Permutation_map, filter_perm, H. Qed.

Lemma is_graph_perm {W} O (c : csr W) n m a a' : (forall u, Permutation (a u) (a' u)) -> is_graph O c n m a -> is_graph O c n m a'.
Proof.
  intros HP (H1 & H2 & H3). split; [exact H1|]. split; [exact H2|]. intros u Hu. destruct (H3 u Hu) as (ns & N1 & N2 & N3). exists ns.
  split; [exact N1|]. split; [rewrite N2; rewrite (Permutation_length (HP u)); reflexivity|]. eapply perm_trans; [exact N3|apply HP].
Qed.

Lemma has_weights_perm {W} (c : csr W) n a a' : (forall u, Permutation (a u) (a' u)) -> has_weights c n a -> has_weights c n a'.
Proof.
  intros HP H u Hu. destruct (H u Hu) as (b & k & r & H1 & H2 & H3 & H4 & H5). exists b, k, r.
  split; [exact H1|]. split; [exact H2|]. split; [exact H3|]. split; [exact H4|]. eapply perm_trans; [exact H5|apply HP].
Qed.

Lemma built_graph {W} O weighted (r : csr W) es es' n : is_ity O -> represents weighted r (rows_of (Z.to_nat n) es') -> Permutation es' es ->
  cs_n r = n -> cs_m r = Z.of_nat (length es) -> (Z.of_nat (length es) <= imax O)%Z ->
  is_graph O r n (Z.of_nat (length es)) (succs (pairs es)) /\ (weighted = true -> has_weights r n (wsuccs es)).
Proof.
  intros HO Hrep HP En Em Hm. split.
  - split; [exact En|]. split; [exact Em|]. intros u Hu.
    assert (Eq : nth_error (rows_of (Z.to_nat n) es') (Z.to_nat u) = Some (row es' (Z.to_nat u))) by (apply rows_of_nth; lia).
    destruct (C29_degree_neighbors O weighted r _ (Z.to_nat u) _ HO Hrep ltac:(lia) Eq) as [E1 E2].
    exists (map fst (row es' (Z.to_nat u))). split; [exact E2|].
    pose proof (row_perm es' es (Z.to_nat u) HP) as HR.
    rewrite <- row_succs by lia. split; [rewrite E1, map_length, (Permutation_length HR); reflexivity|]. apply Permutation_map. exact HR.
  - intros ->. eapply represents_weights; [exact Hrep|exact En|]. intros u Hu. exists (row es' (Z.to_nat u)).
    split; [apply rows_of_nth; lia|]. rewrite <- row_wsuccs by lia. apply row_perm. exact HP.
Qed.

(** The entries of a well-formed file with its weights. *)
Lemma chain_facts W wm reads fm tw ok rd L f ws : mode W wm reads fm tw ok rd -> is_ity L ->
  wf_el f -> reads f ws -> el_pairs f <> [] -> labels_fit (imax L - 2) f -> Forall ok ws ->
  let es := triples f ws in
  map fst es = el_pairs f /\ map snd es = ws /\ length es = length (el_pairs f) /\ es <> [] /\ Forall (fun e => ok (snd e)) es /\
  Forall (fun e => (0 <= fst (fst e) < vertices (el_pairs f)) /\ (0 <= snd (fst e) < vertices (el_pairs f)))%Z es /\
  (0 < vertices (el_pairs f) < imax L)%Z.
Proof.
  intros HM HL Hf Hr Hne Hfit Hok es. pose proof (mode_pairs _ _ _ _ _ _ _ f ws HM Hr) as Hl. pose proof (imax_2 L HL) as H2.
  assert (Hes : map fst es = el_pairs f) by (apply triples_pairs; exact Hl).
  split; [exact Hes|]. split; [apply triples_weights; exact Hl|]. split; [rewrite <- Hes; symmetry; apply map_length|].
  split; [intros E; apply Hne; rewrite <- Hes, E; reflexivity|].
  split; [rewrite <- Forall_map; unfold es; rewrite (triples_weights f ws Hl); exact Hok|].
  split; [apply below_triples; assumption|].
  pose proof (vertices_le (imax L - 2) f ltac:(lia) Hfit). lia.
Qed.

(** A permutation of the entries, written and read again. *)
Lemma perm_text W wm reads fm tw ok rd L f ws es2 : mode W wm reads fm tw ok rd -> is_ity L ->
  wf_el f -> reads f ws -> el_pairs f <> [] -> labels_fit (imax L - 2) f -> Forall ok ws -> Permutation es2 (triples f ws) ->
  let f2 := file_of tw es2 in let ws2 := map (fun e => rd (snd e)) es2 in
  el_text f2 = coo_text dec tw es2 /\ wf_el f2 /\ reads f2 ws2 /\ el_pairs f2 = map fst es2 /\
  triples f2 ws2 = map (fun e => (fst e, rd (snd e))) es2 /\
  Forall (label_ok L) es2 /\ Forall (fun e => ok (snd e)) es2 /\ es2 <> [] /\ length es2 = length (el_pairs f) /\
  labels_fit (imax L - 2) f2 /\ length (coo_text dec tw es2) = length (coo_text dec tw (triples f ws)) /\
  vertices (el_pairs f2) = vertices (el_pairs f).
Proof.
  intros HM HL Hf Hr Hne Hfit Hok HP f2 ws2.
  destruct (chain_facts _ _ _ _ _ _ _ L f ws HM HL Hf Hr Hne Hfit Hok) as (F1 & F2 & F3 & F4 & F5 & F6 & F7). cbv zeta in F1, F2, F3, F4, F5, F6, F7.
  set (es := triples f ws) in *.
  assert (HF : Forall (label_ok L) es2).
  { apply Forall_forall. intros e He. apply (Permutation_in _ HP) in He. rewrite Forall_forall in F6. specialize (F6 e He). cbn beta in F6. unfold label_ok. lia. }
  assert (HW : Forall (fun e => ok (snd e)) es2).
  { apply Forall_forall. intros e He. apply (Permutation_in _ HP) in He. rewrite Forall_forall in F5. apply (F5 e He). }
  destruct (mode_file _ _ _ _ _ _ _ L es2 HM HF HW) as (G1 & G2 & G3 & G4 & G5). cbv zeta in G1, G2, G3, G4, G5.
  fold f2 in G1, G2, G3, G4, G5. fold ws2 in G3, G5.
  split; [exact G1|]. split; [exact G2|]. split; [exact G3|]. split; [exact G4|]. split; [exact G5|]. split; [exact HF|]. split; [exact HW|].
  split; [intros E; rewrite E in HP; apply Permutation_nil in HP; apply F4; exact HP|].
  split; [rewrite (Permutation_length HP); exact F3|].
  assert (HPp : Permutation (map fst es2) (el_pairs f)) by (rewrite <- F1; apply Permutation_map; exact HP).
  split.
  { unfold labels_fit. rewrite G4. apply Forall_forall. intros p Hp. apply (Permutation_in _ HPp) in Hp.
    unfold labels_fit in Hfit. rewrite Forall_forall in Hfit. apply Hfit. exact Hp. }
  split; [apply (perm_text_len (coo_line dec tw)); exact HP|].
  rewrite G4. apply vertices_perm. exact HPp.
Qed.

(** Loaded as a CSR; stored and loaded in the binary format; turned into a COO;
    written as text and loaded again as a CSR.  The second CSR is the first one;
    the COO and the text hold the lines of [f] grouped by their first label; the
    first and the last CSR are the graph of [f]. *)
Theorem C69_csr_chain : forall W wm reads fm tw ok rd L O (P : W -> Prop) f ws pg fn ft ch t1 t2 t3 pg1 fn1 ft1 ch1 rparts rsched parts sched pg2 fn2 ft2 ch2,
  mode W wm reads fm tw ok rd -> is_ity L -> is_ity O ->
  wf_el f -> reads f ws -> el_pairs f <> [] -> labels_fit (imax L - 2) f -> (Z.of_nat (length (el_pairs f)) <= imax O)%Z ->
  Forall ok ws -> storable wm P ws ->
  off_page pg (el_text f) -> as_el ft fn (el_text f) -> 1 <= lc_T ch -> legal (length (el_pairs f)) (lc_conv ch) ->
  1 <= fst t1 -> 1 <= fst t2 -> 1 <= fst t3 -> teams ch1 -> ft1 = AUTO \/ ft1 = PIGO_CSR_BIN ->
  Permutation (concat rparts) (seq 0 (Z.to_nat (vertices (el_pairs f)))) ->
  concat parts = seq 0 (length (el_pairs f)) ->
  off_page pg2 (coo_text dec tw (triples f ws)) -> read_as_text ft2 fn2 -> 1 <= lc_T ch2 -> legal (length (el_pairs f)) (lc_conv ch2) ->
  exists g w s c es g',
    csr_open L O wm pg fn (Some (el_text f)) ft ch = Ok g /\
    csr_save L O (wbin wm) g t1 t2 t3 = Ok w /\ contents w s /\
    csr_open L O wm pg1 fn1 (Some s) ft1 ch1 = Ok g /\
    convert_csr O no_flags (is_some wm) g rparts rsched = Ok c /\
    holds c es /\ (is_some wm = true -> holds_weights c es) /\ Permutation es (triples f ws) /\ by_first es /\
    coo_write (fmt_int L) fm c parts sched = Ok (coo_text dec tw es) /\
    csr_open L O wm pg2 fn2 (Some (coo_text dec tw es)) ft2 ch2 = Ok g' /\
    is_graph O g (vertices (el_pairs f)) (Z.of_nat (length (el_pairs f))) (succs (el_pairs f)) /\
    is_graph O g' (vertices (el_pairs f)) (Z.of_nat (length (el_pairs f))) (succs (el_pairs f)) /\
    (is_some wm = true -> has_weights g (vertices (el_pairs f)) (wsuccs (triples f ws)) /\
       has_weights g' (vertices (el_pairs f)) (wsuccs (map (fun e => (fst e, rd (snd e))) (triples f ws)))).
Proof.
  intros W wm reads fm tw ok rd L O P f ws pg fn ft ch t1 t2 t3 pg1 fn1 ft1 ch1 rparts rsched parts sched pg2 fn2 ft2 ch2
    HM HL HO Hf Hr Hne Hfit Hm Hok Hst Hpg Hft HT HC T1 T2 T3 Hch1 Hft1 HRP Hp Hpg2 Hft2 HT2 HC2.
  pose proof (mode_pairs _ _ _ _ _ _ _ f ws HM Hr) as Hl.
  destruct (chain_facts _ _ _ _ _ _ _ L f ws HM HL Hf Hr Hne Hfit Hok) as (F1 & F2 & F3 & F4 & F5 & F6 & F7). cbv zeta in F1, F2, F3, F4, F5, F6, F7.
  set (n := vertices (el_pairs f)) in *.
  pose proof (result_full L O wm P f ws HL HO Hf Hl Hfit Hm Hst) as (C1 & C2 & _).
  destruct (mode_holds wm f ws) as [Hh Hw].
  assert (Hres : co_n (el_result (wtext wm) no_flags f ws) = Some n) by (apply result_n; exact Hl).
  assert (Ec : coo_open L O wm no_flags pg fn (Some (el_text f)) ft ch = Ok (el_result (wtext wm) no_flags f ws)) by (eapply mode_open; eassumption).
  set (c0 := el_result (wtext wm) no_flags f ws) in *.
  assert (Hst' : storable wm P (map snd (triples f ws))) by (rewrite F2; exact Hst).
  destruct (built L O wm P c0 (triples f ws) n (lc_conv ch) HL HO Hh Hw Hres ltac:(lia) C1 C2 ltac:(rewrite F3; exact Hm) F6 Hst' ltac:(rewrite F3; exact HC))
    as (g & es' & Eg & HP & Hrep & En & Em & Sh & Fu & Ro).
  destruct (built_graph O (is_some wm) g (triples f ws) es' n HO Hrep HP En Em ltac:(lia)) as [GG GW].
  destruct (C16_csr_round_trip L O wm P g t1 t2 t3 pg1 fn1 ft1 ch1 HL HO Sh Fu Ro T1 T2 T3 Hch1 Hft1) as (w & s & Es & Hs & Er).
  destruct (C25_csr_to_coo O (is_some wm) g _ rparts rsched HO Hrep ltac:(lia) ltac:(rewrite rows_length; exact HRP)) as (c & Ec2 & Hc & Hcw & _ & _).
  set (es := entries (rows_of (Z.to_nat n) es')) in *.
  assert (HP2 : Permutation es (triples f ws)).
  { eapply perm_trans; [|exact HP]. apply entries_rows_perm. apply Forall_forall. intros e He. apply (Permutation_in _ HP) in He.
    rewrite Forall_forall in F6. specialize (F6 e He). cbn beta in F6. lia. }
  destruct (perm_text _ _ _ _ _ _ _ L f ws es HM HL Hf Hr Hne Hfit Hok HP2) as (G1 & G2 & G3 & G4 & G5 & G6 & G7 & G8 & G9 & G10 & G11 & G12).
  cbv zeta in G1, G2, G3, G4, G5, G10, G12.
  set (f2 := file_of tw es) in *. set (ws2 := map (fun e => rd (snd e)) es) in *.
  assert (L2 : length (el_pairs f2) = length (el_pairs f)) by (rewrite G4, map_length; exact G9).
  apply (off_page_len pg2 _ (coo_text dec tw es) (eq_sym G11)) in Hpg2.
  pose proof (mode_pairs _ _ _ _ _ _ _ f2 ws2 HM G3) as Hl2.
  destruct (csr_of_result L O wm f2 ws2 pg2 fn2 ft2 ch2 HL HO G2 Hl2 G10 ltac:(rewrite L2; exact Hm)) as (g' & Eg' & GG' & GW').
  { rewrite G1. exact Hpg2. }
  { rewrite G1. apply text_not_pigo. exact Hft2. }
  { rewrite L2. exact HC2. }
  { eapply mode_open; eauto; [lia|rewrite G1; exact Hpg2|rewrite G1; apply text_not_pigo; exact Hft2]. }
  exists g, w, s, c, es, g'.
  split.
  { rewrite (csr_via L O wm _ pg fn ft ch c0 EDGE_LIST (off_page_ne _ _ Hpg) (el_detect pg fn _ ft (off_page_ne _ _ Hpg) Hft) (or_introl eq_refl) Ec). exact Eg. }
  split; [exact Es|]. split; [exact Hs|]. split; [exact Er|]. split; [exact Ec2|]. split; [exact Hc|]. split; [exact Hcw|]. split; [exact HP2|].
  split; [apply (entries_sorted (rows_of (Z.to_nat n) es') 0)|].
  split; [eapply mode_write; eauto; rewrite G9; exact Hp|].
  split; [rewrite <- G1; exact Eg'|].
  assert (Hpp : pairs (triples f ws) = el_pairs f) by exact F1.
  assert (HPp : Permutation (el_pairs f2) (el_pairs f)) by (rewrite G4, <- F1; apply Permutation_map; exact HP2).
  split; [rewrite Hpp, F3 in GG; exact GG|].
  rewrite G12, L2 in GG'. split; [eapply is_graph_perm; [|exact GG']; intros u; apply succs_perm; exact HPp|].
  intros Hs'. split; [apply GW; exact Hs'|]. rewrite G12 in GW'.
  eapply has_weights_perm; [|apply GW'; destruct wm; discriminate]. intros u. rewrite G5. apply wsuccs_perm. apply Permutation_map. exact HP2.
Qed.
Print Assumptions C69_csr_chain.

(** The same for a DiGraph: both of its halves, stored and loaded in the binary
    format; the outgoing half turned into a COO, written as text and loaded again
    as a DiGraph. *)
Theorem C69_digraph_chain : forall W wm reads fm tw ok rd L O (P : W -> Prop) f ws pg fn ft ch ch0 c1 c2 t1 t2 t3 t4 t5 t6 pg1 fn1 ft1 ch1 ch1' d1 d2
    rparts rsched parts sched pg2 fn2 ft2 ch2 ch2' e1 e2,
  mode W wm reads fm tw ok rd -> is_ity L -> is_ity O ->
  wf_el f -> reads f ws -> el_pairs f <> [] -> labels_fit (imax L - 2) f -> (Z.of_nat (length (el_pairs f)) <= imax O)%Z ->
  Forall ok ws -> storable wm P ws ->
  off_page pg (el_text f) -> as_el ft fn (el_text f) -> 1 <= lc_T ch -> legal (length (el_pairs f)) c1 -> legal (length (el_pairs f)) c2 ->
  1 <= fst t1 -> 1 <= fst t2 -> 1 <= fst t3 -> 1 <= fst t4 -> 1 <= fst t5 -> 1 <= fst t6 -> teams ch1 -> teams ch1' -> ft1 = AUTO \/ ft1 = PIGO_DIGRAPH_BIN ->
  Permutation (concat rparts) (seq 0 (Z.to_nat (vertices (el_pairs f)))) ->
  concat parts = seq 0 (length (el_pairs f)) ->
  off_page pg2 (coo_text dec tw (triples f ws)) -> read_as_text ft2 fn2 -> 1 <= lc_T ch2 -> legal (length (el_pairs f)) e1 -> legal (length (el_pairs f)) e2 ->
  exists i o w s c es i' o',
    digraph_open L O wm pg fn (Some (el_text f)) ft ch ch0 c1 c2 = Ok (i, o) /\
    digraph_save L O (wbin wm) (i, o) t1 t2 t3 t4 t5 t6 = Ok w /\ contents w s /\
    digraph_open L O wm pg1 fn1 (Some s) ft1 ch1 ch1' d1 d2 = Ok (i, o) /\
    convert_csr O no_flags (is_some wm) o rparts rsched = Ok c /\
    holds c es /\ (is_some wm = true -> holds_weights c es) /\ Permutation es (triples f ws) /\ by_first es /\
    coo_write (fmt_int L) fm c parts sched = Ok (coo_text dec tw es) /\
    digraph_open L O wm pg2 fn2 (Some (coo_text dec tw es)) ft2 ch2 ch2' e1 e2 = Ok (i', o') /\
    (forall g, g = o \/ g = o' -> is_graph O g (vertices (el_pairs f)) (Z.of_nat (length (el_pairs f))) (succs (el_pairs f))) /\
    (forall g, g = i \/ g = i' -> is_graph O g (vertices (el_pairs f)) (Z.of_nat (length (el_pairs f))) (preds (el_pairs f))) /\
    (is_some wm = true ->
       has_weights o (vertices (el_pairs f)) (wsuccs (triples f ws)) /\
       has_weights i (vertices (el_pairs f)) (wpreds (triples f ws)) /\
       has_weights o' (vertices (el_pairs f)) (wsuccs (map (fun e => (fst e, rd (snd e))) (triples f ws))) /\
       has_weights i' (vertices (el_pairs f)) (wpreds (map (fun e => (fst e, rd (snd e))) (triples f ws)))).
Proof.
  intros W wm reads fm tw ok rd L O P f ws pg fn ft ch ch0 c1 c2 t1 t2 t3 t4 t5 t6 pg1 fn1 ft1 ch1 ch1' d1 d2 rparts rsched parts sched pg2 fn2 ft2 ch2 ch2' e1 e2
    HM HL HO Hf Hr Hne Hfit Hm Hok Hst Hpg Hft HT HC1 HC2 T1 T2 T3 T4 T5 T6 Hch1 Hch1' Hft1 HRP Hp Hpg2 Hft2 HT2 HE1 HE2.
  pose proof (mode_pairs _ _ _ _ _ _ _ f ws HM Hr) as Hl.
  destruct (chain_facts _ _ _ _ _ _ _ L f ws HM HL Hf Hr Hne Hfit Hok) as (F1 & F2 & F3 & F4 & F5 & F6 & F7). cbv zeta in F1, F2, F3, F4, F5, F6, F7.
  set (n := vertices (el_pairs f)) in *.
  pose proof (result_full L O wm P f ws HL HO Hf Hl Hfit Hm Hst) as (C1 & C2 & _).
  destruct (mode_holds wm f ws) as [Hh Hw].
  assert (Hres : co_n (el_result (wtext wm) no_flags f ws) = Some n) by (apply result_n; exact Hl).
  assert (Ec : coo_open L O wm no_flags pg fn (Some (el_text f)) ft ch = Ok (el_result (wtext wm) no_flags f ws)) by (eapply mode_open; eassumption).
  set (c0 := el_result (wtext wm) no_flags f ws) in *.
  assert (Hst' : storable wm P (map snd (triples f ws))) by (rewrite F2; exact Hst).
  destruct (built L O wm P c0 (triples f ws) n c2 HL HO Hh Hw Hres ltac:(lia) C1 C2 ltac:(rewrite F3; exact Hm) F6 Hst' ltac:(rewrite F3; exact HC2))
    as (o & es' & Eo & HP & Hrep & En & Em & Sh & Fu & Ro).
  destruct (built_graph O (is_some wm) o (triples f ws) es' n HO Hrep HP En Em ltac:(lia)) as [GG GW].
  assert (Hsw : map snd (map swap3 (triples f ws)) = map snd (triples f ws)).
  { rewrite map_map. apply map_ext. intros [[x y] z]. reflexivity. }
  destruct (built L O wm P (coo_transpose c0) (map swap3 (triples f ws)) n c1 HL HO) as (i & es1 & Ei & HPi & Hrepi & Eni & Emi & Shi & Fui & Roi).
  { apply transpose_holds. exact Hh. }
  { intros Es'. apply transpose_weights. auto. }
  { exact Hres. }
  { lia. }
  { cbn [coo_transpose co_nrows]. first [exact C2|exact C1]. }
  { cbn [coo_transpose co_ncols]. first [exact C1|exact C2]. }
  { rewrite map_length, F3. exact Hm. }
  { rewrite Forall_map. eapply Forall_impl; [|exact F6]. intros [[x y] z] He. cbn [swap3 fst snd] in *. lia. }
  { rewrite Hsw. exact Hst'. }
  { rewrite map_length, F3. exact HC1. }
  destruct (built_graph O (is_some wm) i (map swap3 (triples f ws)) es1 n HO Hrepi HPi Eni Emi ltac:(rewrite map_length; lia)) as [GGi GWi].
  destruct (C18_digraph_round_trip L O wm P i o t1 t2 t3 t4 t5 t6 pg1 fn1 ft1 ch1 ch1' d1 d2 HL HO Shi Fui Roi Sh Fu Ro T1 T2 T3 T4 T5 T6 Hch1 Hch1' Hft1) as (w & s & Es & Hs & Er).
  destruct (C25_csr_to_coo O (is_some wm) o _ rparts rsched HO Hrep ltac:(lia) ltac:(rewrite rows_length; exact HRP)) as (c & Ec2 & Hc & Hcw & _ & _).
  set (es := entries (rows_of (Z.to_nat n) es')) in *.
  assert (HP2 : Permutation es (triples f ws)).
  { eapply perm_trans; [|exact HP]. apply entries_rows_perm. apply Forall_forall. intros e He. apply (Permutation_in _ HP) in He.
    rewrite Forall_forall in F6. specialize (F6 e He). cbn beta in F6. lia. }
  destruct (perm_text _ _ _ _ _ _ _ L f ws es HM HL Hf Hr Hne Hfit Hok HP2) as (G1 & G2 & G3 & G4 & G5 & G6 & G7 & G8 & G9 & G10 & G11 & G12).
  cbv zeta in G1, G2, G3, G4, G5, G10, G12.
  set (f2 := file_of tw es) in *. set (ws2 := map (fun e => rd (snd e)) es) in *.
  assert (L2 : length (el_pairs f2) = length (el_pairs f)) by (rewrite G4, map_length; exact G9).
  apply (off_page_len pg2 _ (coo_text dec tw es) (eq_sym G11)) in Hpg2.
  pose proof (mode_pairs _ _ _ _ _ _ _ f2 ws2 HM G3) as Hl2.
  destruct (digraph_of_result L O wm f2 ws2 pg2 fn2 ft2 ch2 ch2' e1 e2 HL HO G2 Hl2 G10 ltac:(rewrite L2; exact Hm)) as (i' & o' & Eg' & GGo' & GGi' & GW').
  { rewrite G1. exact Hpg2. }
  { rewrite G1. apply text_not_pigo. exact Hft2. }
  { rewrite L2. exact HE1. }
  { rewrite L2. exact HE2. }
  { eapply mode_open; eauto; [lia|rewrite G1; exact Hpg2|rewrite G1; apply text_not_pigo; exact Hft2]. }
  exists i, o, w, s, c, es, i', o'.
  split.
  { rewrite (digraph_via L O wm _ pg fn ft ch ch0 c1 c2 c0 EDGE_LIST (off_page_ne _ _ Hpg) (el_detect pg fn _ ft (off_page_ne _ _ Hpg) Hft) ltac:(discriminate) Ec).
    unfold digraph_of_coo. rewrite Ei. cbn [bind]. rewrite Eo. reflexivity. }
  split; [exact Es|]. split; [exact Hs|]. split; [exact Er|]. split; [exact Ec2|]. split; [exact Hc|]. split; [exact Hcw|]. split; [exact HP2|].
  split; [apply (entries_sorted (rows_of (Z.to_nat n) es') 0)|].
  split; [eapply mode_write; eauto; rewrite G9; exact Hp|].
  split; [rewrite <- G1; exact Eg'|].
  assert (Hpp : pairs (triples f ws) = el_pairs f) by exact F1.
  assert (HPp : Permutation (el_pairs f2) (el_pairs f)) by (rewrite G4, <- F1; apply Permutation_map; exact HP2).
  rewrite G12, L2 in GGo', GGi'. rewrite G12 in GW'. rewrite map_length in GGi.
  split.
  { intros g [->| ->].
    - rewrite Hpp, F3 in GG; exact GG.
    - eapply is_graph_perm; [|exact GGo']; intros u; apply succs_perm; exact HPp. }
  split.
  { intros g [->| ->].
    - eapply is_graph_perm; [|rewrite F3 in GGi; exact GGi]. intros u. rewrite swap_preds, Hpp. apply Permutation_refl.
    - eapply is_graph_perm; [|exact GGi']; intros u; apply preds_perm; exact HPp. }
  intros Hs'. destruct GW' as [GWo' GWi']; [destruct wm; discriminate|].
  split; [apply GW; exact Hs'|].
  split; [eapply has_weights_ext; [|apply GWi; exact Hs']; intros u; apply swap_wpreds|].
  split; (eapply has_weights_perm; [|eassumption]; intros u; rewrite G5); [apply wsuccs_perm|apply wpreds_perm]; apply Permutation_map; exact HP2.
Qed.
Print Assumptions C69_digraph_chain.

(** A binary file read with another class: a DiGraph from the file of a COO and
    from the file of a CSR (the second for a label and an ordinal type of the
    same size, see C46) is what the in-memory constructor makes. *)
Lemma used_coo L O {W} (wc : option (codec W)) c w s pg fn ft tx ty tm P : is_ity L -> is_ity O -> coo_shape wc c -> coo_full L O wc P c ->
  1 <= fst tx -> 1 <= fst ty -> 1 <= fst tm -> coo_save L O wc c tx ty tm = Ok w -> contents w s -> ft = AUTO \/ ft = PIGO_COO_BIN ->
  s <> [] /\ used (reading s pg fn []) ft = Ok PIGO_COO_BIN.
Proof.
  intros HL HO Hs Hf T1 T2 T3 Es Hc Hft.
  destruct (coo_save_ok L O wc HL HO (wfit_sized _ P _ ltac:(apply Hf)) c tx ty tm Hs T1 T2 T3) as (w' & Ew & Hw & _).
  rewrite Ew in Es. injection Es as ->.
  assert (EL : coo_layout L O wc c = map Some s) by (unfold contents in Hc; rewrite <- Hc, Hw; unfold ones; rewrite map_map; cbn [fst]; symmetry; apply map_id).
  pose proof (coo_begins L O wc c s HL EL) as HB.
  assert (Hne : s <> []) by (destruct HB as (b & r & ->); discriminate).
  split; [exact Hne|]. apply (guess_begins_ft ft _ PIGO_COO_BIN Hft); [discriminate|]. eapply (guess_coo s pg fn [] s); [reflexivity|exact HB].
Qed.

Lemma used_csr L O {W} (wc : option (codec W)) c w s pg fn ft tx ty tm P : is_ity L -> is_ity O -> csr_shape wc c -> csr_full L O wc P c -> room L (cs_n c) ->
  1 <= fst tx -> 1 <= fst ty -> 1 <= fst tm -> csr_save L O wc c tx ty tm = Ok w -> contents w s -> ft = AUTO \/ ft = PIGO_CSR_BIN ->
  s <> [] /\ used (reading s pg fn []) ft = Ok PIGO_CSR_BIN.
Proof.
  intros HL HO Hs Hf HR T1 T2 T3 Es Hc Hft.
  destruct (csr_save_ok L O wc HL HO (wfit_sized _ P _ ltac:(apply Hf)) c tx ty tm _ Hs (plus1_ok L _ HL (proj1 Hs) HR) eq_refl T1 T2 T3) as (w' & Ew & Hw & _).
  rewrite Ew in Es. injection Es as ->.
  assert (EL : csr_layout L O wc c = map Some s) by (unfold contents in Hc; rewrite <- Hc, Hw; unfold ones; rewrite map_map; cbn [fst]; symmetry; apply map_id).
  pose proof (csr_begins L O wc c s EL) as HB.
  assert (Hne : s <> []) by (destruct HB as (b & r & ->); discriminate).
  split; [exact Hne|]. apply (guess_begins_ft ft _ PIGO_CSR_BIN Hft); [discriminate|]. eapply (guess_csr s pg fn [] s); [reflexivity|exact HB].
Qed.

Theorem C69_coo_file_to_digraph : forall {W} L O (wm : option (wmode W)) P c tx ty tm pg fn ft ch ch' c1 c2,
  is_ity L -> is_ity O -> coo_shape (wbin wm) c -> coo_full L O (wbin wm) P c ->
  1 <= fst tx -> 1 <= fst ty -> 1 <= fst tm -> teams ch -> ft = AUTO \/ ft = PIGO_COO_BIN ->
  exists w s, coo_save L O (wbin wm) c tx ty tm = Ok w /\ contents w s /\
    digraph_open L O wm pg fn (Some s) ft ch ch' c1 c2 = digraph_of_coo L O (is_some wm) c c1 c2.
Proof.
  intros W L O wm P c tx ty tm pg fn ft ch ch' c1 c2 HL HO Hs Hf T1 T2 T3 Hch Hft.
  destruct (C15_coo_round_trip L O wm P no_flags c tx ty tm pg fn ft ch HL HO Hs Hf T1 T2 T3 Hch Hft) as (w & s & Es & Hc & Er).
  destruct (used_coo L O (wbin wm) c w s pg fn ft tx ty tm P HL HO Hs Hf T1 T2 T3 Es Hc Hft) as [Hne Hu].
  exists w, s. split; [exact Es|]. split; [exact Hc|]. exact (digraph_via L O wm s pg fn ft ch ch' c1 c2 c _ Hne Hu ltac:(discriminate) Er).
Qed.
Print Assumptions C69_coo_file_to_digraph.

Theorem C69_csr_file_to_digraph : forall {W} L O (wm : option (wmode W)) P c r t1 t2 t3 pg fn ft ch ch' c1 c2,
  is_ity L -> is_ity O -> ibits L = ibits O -> Forall (fit L) (cs_off c) ->
  csr_shape (wbin wm) c -> csr_full L O (wbin wm) P c -> room L (cs_n c) ->
  1 <= fst t1 -> 1 <= fst t2 -> 1 <= fst t3 -> teams ch -> ft = AUTO \/ ft = PIGO_CSR_BIN ->
  convert_csr O no_flags (is_some wm) c (lc_parts ch) (lc_back ch) = Ok r ->
  exists w s, csr_save L O (wbin wm) c t1 t2 t3 = Ok w /\ contents w s /\
    digraph_open L O wm pg fn (Some s) ft ch ch' c1 c2 = digraph_of_coo L O (is_some wm) r c1 c2.
Proof.
  intros W L O wm P c r t1 t2 t3 pg fn ft ch ch' c1 c2 HL HO EB Fo Hs Hf HR T1 T2 T3 Hch Hft Ev.
  destruct (C16_csr_file_to_coo L O wm P no_flags c t1 t2 t3 pg fn ft ch HL HO EB Fo Hs Hf HR T1 T2 T3 Hch Hft) as (w & s & Es & Hc & Er).
  destruct (used_csr L O (wbin wm) c w s pg fn ft t1 t2 t3 P HL HO Hs Hf HR T1 T2 T3 Es Hc Hft) as [Hne Hu].
  exists w, s. split; [exact Es|]. split; [exact Hc|]. rewrite Ev in Er. exact (digraph_via L O wm s pg fn ft ch ch' c1 c2 r _ Hne Hu ltac:(discriminate) Er).
Qed.
Print Assumptions C69_csr_file_to_digraph.

(** So the binary file of a COO loaded from [f] gives the graph of [f], as a CSR
    and as a DiGraph. *)
Theorem C69_coo_file_graphs : forall W wm reads fm tw ok rd L O (P : W -> Prop) f ws pg fn ft ch tx ty tm pg1 fn1 ft1 ch1 ch1' c1 c2,
  mode W wm reads fm tw ok rd -> is_ity L -> is_ity O ->
  wf_el f -> reads f ws -> labels_fit (imax L - 2) f -> (Z.of_nat (length (el_pairs f)) <= imax O)%Z -> storable wm P ws ->
  off_page pg (el_text f) -> as_el ft fn (el_text f) -> 1 <= lc_T ch ->
  1 <= fst tx -> 1 <= fst ty -> 1 <= fst tm -> teams ch1 -> ft1 = AUTO \/ ft1 = PIGO_COO_BIN ->
  legal (length (el_pairs f)) (lc_conv ch1) -> legal (length (el_pairs f)) c1 -> legal (length (el_pairs f)) c2 ->
  exists c w s g i o,
    coo_open L O wm no_flags pg fn (Some (el_text f)) ft ch = Ok c /\
    coo_save L O (wbin wm) c tx ty tm = Ok w /\ contents w s /\
    csr_open L O wm pg1 fn1 (Some s) ft1 ch1 = Ok g /\
    digraph_open L O wm pg1 fn1 (Some s) ft1 ch1 ch1' c1 c2 = Ok (i, o) /\
    is_graph O g (vertices (el_pairs f)) (Z.of_nat (length (el_pairs f))) (succs (el_pairs f)) /\
    is_graph O o (vertices (el_pairs f)) (Z.of_nat (length (el_pairs f))) (succs (el_pairs f)) /\
    is_graph O i (vertices (el_pairs f)) (Z.of_nat (length (el_pairs f))) (preds (el_pairs f)) /\
    (is_some wm = true -> has_weights g (vertices (el_pairs f)) (wsuccs (triples f ws)) /\
       has_weights o (vertices (el_pairs f)) (wsuccs (triples f ws)) /\ has_weights i (vertices (el_pairs f)) (wpreds (triples f ws))).
Proof.
  intros W wm reads fm tw ok rd L O P f ws pg fn ft ch tx ty tm pg1 fn1 ft1 ch1 ch1' c1 c2
    HM HL HO Hf Hr Hfit Hm Hst Hpg Hft HT T1 T2 T3 Hch1 Hft1 HC HC1 HC2.
  pose proof (mode_pairs _ _ _ _ _ _ _ f ws HM Hr) as Hl.
  assert (Ec : coo_open L O wm no_flags pg fn (Some (el_text f)) ft ch = Ok (el_result (wtext wm) no_flags f ws)) by (eapply mode_open; eassumption).
  pose proof (result_full L O wm P f ws HL HO Hf Hl Hfit Hm Hst) as Fu. pose proof (result_shape wm f ws) as Sh.
  destruct (C15_coo_file_to_csr L O wm P _ tx ty tm pg1 fn1 ft1 ch1 HL HO Sh Fu T1 T2 T3 Hch1 Hft1) as (w & s & Es & Hs & Er).
  destruct (C69_coo_file_to_digraph L O wm P _ tx ty tm pg1 fn1 ft1 ch1 ch1' c1 c2 HL HO Sh Fu T1 T2 T3 Hch1 Hft1) as (w' & s' & Es' & Hs' & Er').
  rewrite Es in Es'. injection Es' as <-.
  assert (s' = s).
  { unfold contents in Hs, Hs'. rewrite Hs in Hs'. clear -Hs'. revert s' Hs'. induction s as [|x s IH]; intros [|y s'] H; try discriminate; [reflexivity|].
    cbn [map] in H. injection H as <- H. f_equal. apply IH. exact H. }
  subst s'.
  (* the graphs are those built from the text *)
  set (cv := mkLchoice (lc_T ch) (lc_el ch) (lc_b1 ch) (lc_b2 ch) (lc_b3 ch) (lc_graph ch) (lc_conv ch1) (lc_parts ch) (lc_back ch)).
  assert (Ec' : coo_open L O wm no_flags pg fn (Some (el_text f)) ft cv = Ok (el_result (wtext wm) no_flags f ws)) by (eapply mode_open; eassumption).
  destruct (csr_of_result L O wm f ws pg fn ft cv HL HO Hf Hl Hfit Hm Hpg Hft HC Ec') as (g & Eg & GG & GW).
  destruct (digraph_of_result L O wm f ws pg fn ft cv cv c1 c2 HL HO Hf Hl Hfit Hm Hpg Hft HC1 HC2 Ec') as (i & o & Ed & GO & GI & DW).
  rewrite (csr_via L O wm _ pg fn ft cv _ EDGE_LIST (off_page_ne _ _ Hpg) (el_detect pg fn _ ft (off_page_ne _ _ Hpg) Hft) (or_introl eq_refl) Ec') in Eg.
  rewrite (digraph_via L O wm _ pg fn ft cv cv c1 c2 _ EDGE_LIST (off_page_ne _ _ Hpg) (el_detect pg fn _ ft (off_page_ne _ _ Hpg) Hft) ltac:(discriminate) Ec') in Ed.
  exists (el_result (wtext wm) no_flags f ws), w, s, g, i, o.
  split; [exact Ec|]. split; [exact Es|]. split; [exact Hs|]. split; [rewrite Er; exact Eg|]. split; [rewrite Er'; exact Ed|].
  split; [exact GG|]. split; [exact GO|]. split; [exact GI|]. intros Hsm. assert (Hn : wm <> None) by (destruct wm; discriminate).
  split; [apply GW; exact Hn|apply DW; exact Hn].
Qed.
Print Assumptions C69_coo_file_graphs.

(** ** Concrete cases *)
Lemma ex_pf_teams : teams ex_pch.
Proof. unfold teams. cbn. lia. Qed.

(** "0 2", "2 1", "0 2", "2 2" with labels of 8 bits: all hypotheses hold. *)
Example C69_applies : exists (g : csr unit) w s c es (g' : csr unit),
  csr_open u8 u32 None 64 (chars "g.el") (Some (el_text ex_pf)) AUTO ex_pch = Ok g /\
  csr_save u8 u32 None g (2, [1; 0; 1]) (3, []) (1, []) = Ok w /\ contents w s /\
  csr_open u8 u32 None 32 (chars "g.bin") (Some s) AUTO ex_pch = Ok g /\
  convert_csr u32 no_flags false g [[2]; [0; 1]] [1; 0] = Ok c /\ holds c es /\ by_first es /\
  Permutation es [(0, 2, tt); (2, 1, tt); (0, 2, tt); (2, 2, tt)]%Z /\
  coo_write (fmt_int u8) None c [[0; 1]; [2; 3]] [1; 0; 0; 1] = Ok (coo_text dec None es) /\
  csr_open u8 u32 None 64 (chars "h.el") (Some (coo_text dec None es)) EDGE_LIST ex_pch = Ok g' /\
  is_graph u32 g' 3 4 (succs [(0, 2); (2, 1); (0, 2); (2, 2)]%Z).
Proof.
  destruct ex_pf_ok as (H1 & H2 & H3 & H4 & H5 & _ & _). assert (H8 : is_ity u8) by (cbn; auto). assert (H32 : is_ity u32) by (cbn; auto).
  assert (Hm : (Z.of_nat (length (el_pairs ex_pf)) <= imax u32)%Z) by (vm_compute; discriminate).
  assert (HP : Permutation (concat [[2]; [0; 1]]) (seq 0 (Z.to_nat (vertices (el_pairs ex_pf))))).
  { change (Z.to_nat (vertices (el_pairs ex_pf))) with 3. apply NoDup_Permutation; [repeat constructor; cbn; intuition discriminate|apply seq_NoDup|intros x; cbn; intuition]. }
  destruct (C69_csr_chain unit None _ None None _ _ u8 u32 (fun _ => True) ex_pf (no_weights ex_pf) 64 (chars "g.el") AUTO ex_pch
    (2, [1; 0; 1]) (3, []) (1, []) 32 (chars "g.bin") AUTO ex_pch [[2]; [0; 1]] [1; 0] [[0; 1]; [2; 3]] [1; 0; 0; 1] 64 (chars "h.el") EDGE_LIST ex_pch
    mode_plain H8 H32 H1 eq_refl ltac:(discriminate) H2 Hm) as (g & w & s & c & es & g' & E1 & E2 & E3 & E4 & E5 & E6 & _ & E7 & E8 & E9 & E10 & _ & E11 & _); auto.
  all: try (match goal with |- (_ <= _)%nat => cbn; lia end).
  - apply Forall_forall. intros; exact I.
  - exact I.
  - exact ex_pf_teams.
  - left; reflexivity.
  - exists g, w, s, c, es, g'. auto 20.
Qed.

(** With signed weights of 32 bits: the text chain ends with the object it
    started with. *)
Example C69_weighted_applies : let wm := Some (mkWmode _ (wreader (WSigned i32)) (cint i32)) in exists c w s,
  coo_open u32 u32 wm no_flags 4096 (chars "g.wel") (Some (el_text ex_elw)) EDGE_LIST ex_pch = Ok c /\
  coo_save u32 u32 (Some (cint i32)) c (2, [1; 0]) (1, []) (3, []) = Ok w /\ contents w s /\
  coo_write (fmt_int u32) (Some (fmt_int i32)) c [[0]; [1; 2]] [1; 0; 0; 1] = Ok (bs "1 2 -12" ++ [ch_nl] ++ bs "3 0 7" ++ [ch_nl] ++ bs "2 2 4" ++ [ch_nl]) /\
  coo_open u32 u32 wm no_flags 4096 (chars "h.wel") (Some (bs "1 2 -12" ++ [ch_nl] ++ bs "3 0 7" ++ [ch_nl] ++ bs "2 2 4" ++ [ch_nl])) AUTO ex_pch = Ok c.
Proof.
  assert (H32 : is_ity u32) by (cbn; auto). assert (Hi : is_ity i32) by (cbn; tauto).
  assert (EP : el_pairs ex_elw = [(1, 2); (3, 0); (2, 2)]%Z) by reflexivity.
  destruct (C69_text_chain _ _ _ _ _ _ _ u32 u32 (fun z => inrange i32 z = true) ex_elw [-12; 7; 4]%Z 4096 (chars "g.wel") EDGE_LIST ex_pch
    (2, [1; 0]) (1, []) (3, []) 4096 (chars "g.bin") AUTO ex_pch [[0]; [1; 2]] [1; 0; 0; 1] 4096 (chars "h.wel") AUTO ex_pch
    (mode_weighted (WSigned i32) (fmt_int i32) dec (printable i32) (fun z => z) 0 (cint i32) (ww_signed i32 Hi eq_refl)) H32 H32 ex_elw_wf ex_elw_weights)
    as (c & w & s & c' & E1 & E2 & E3 & E4 & E5 & E6 & _ & _ & E7).
  - rewrite EP. discriminate.
  - unfold labels_fit. rewrite EP. repeat (apply Forall_cons; [split; vm_compute; discriminate|]). apply Forall_nil.
  - vm_compute. discriminate.
  - repeat (apply Forall_cons; [split; vm_compute; (reflexivity || discriminate)|]). apply Forall_nil.
  - split; [apply cint_faithful; exact Hi|]. split; [vm_compute; lia|]. repeat (apply Forall_cons; [reflexivity|]). apply Forall_nil.
  - exact ex_elw_off.
  - left. reflexivity.
  - cbn; lia.
  - cbn; lia.
  - cbn; lia.
  - cbn; lia.
  - exact ex_pf_teams.
  - left. reflexivity.
  - reflexivity.
  - split; [lia|]. vm_compute. discriminate.
  - right. split; [reflexivity|]. split; intros (a & E); apply (f_equal (@rev _)) in E; rewrite rev_app_distr in E; discriminate.
  - cbn; lia.
  - rewrite (E7 (fun w _ => eq_refl)) in E6. exists c, w, s. split; [exact E1|]. split; [exact E2|]. split; [exact E3|]. split; [exact E5|exact E6].
Qed.
