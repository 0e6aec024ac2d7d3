(** * ElThms: proofs of the edge-list properties C01-C07 *)

From Verif Require Import Base Reader Sched SchedLemmas Spec SpecFp ReaderLemmas Coo CooLemmas CooExec
  CooSplit WeightLemmas CooMain ElSpec ElFinal.

Lemma no_weights_len f : length (no_weights f) = length (el_lines f).
Proof. unfold no_weights, el_pairs. rewrite !map_length. reflexivity. Qed.

Lemma owok_none {W} (f : el_file) (ws : list W) : length ws = length (el_lines f) ->
  Forall2 (owok None) (map l_post (el_lines f)) ws.
Proof.
  generalize (el_lines f) as l. induction ws as [|w ws IH]; intros [|a l] H; cbn in *; try lia; constructor; [exact Logic.I|].
  apply IH; lia.
Qed.

Lemma owok_some k (f : el_file) (ws : list (wtype k)) : wf_kind k -> weights_are k f ws ->
  Forall2 (owok (Some (wreader k))) (map l_post (el_lines f)) ws.
Proof.
  intros Hk H. induction H as [|a w l ws' Hp HF IH]; constructor; [|exact IH]. cbn. apply wok_wpost; assumption.
Qed.

Lemma weights_len k f ws : weights_are k f ws -> length ws = length (el_lines f).
Proof.
  unfold weights_are. intros H. rewrite <- (map_length l_post). symmetry.
  induction H as [|a b l l' Hab HF IH]; cbn [length]; [reflexivity|]. f_equal. exact IH.
Qed.

Lemma triples_no_weights f : triples f (no_weights f) = map (fun p => (fst p, snd p, tt)) (el_pairs f).
Proof.
  unfold triples, no_weights. generalize (el_pairs f) as l. induction l as [|[x y] l IH]; cbn; [reflexivity|].
  f_equal. exact IH.
Qed.

Lemma stored_no_flags {W} (l : list (Z * Z * W)) : stored no_flags l = l.
Proof.
  unfold stored. induction l as [|[[x y] w] l IH]; [reflexivity|]. cbn [flat_map]. rewrite IH. reflexivity.
Qed.

(** Unweighted, any flags. *)
Lemma el_unweighted L O fl f pg T sched :
  is_ity L -> is_ity O -> wf_el f -> labels_fit (imax L - 1) f ->
  (Z.of_nat (length (stored fl (triples f (no_weights f)))) <= imax O)%Z ->
  off_page pg (el_text f) -> 1 <= T ->
  read_el L O None fl (mkMem (el_text f) pg) 0 (length (el_text f)) T sched
    = Ok (el_result None fl f (no_weights f)).
Proof.
  intros HL HO Hwf Hfit Hcnt Hpg HT.
  exact (el_main L O None fl f (no_weights f) pg HL HO Hwf (no_weights_len f) Hfit Hcnt Hpg
           Logic.I (owok_none f _ (no_weights_len f)) T HT (or_introl eq_refl) sched).
Qed.

(** Weighted. *)
Lemma el_weighted k L O fl f ws pg T sched :
  wf_kind k -> weights_are k f ws ->
  is_ity L -> is_ity O -> wf_el f -> labels_fit (imax L - 1) f ->
  (Z.of_nat (length (stored fl (triples f ws))) <= imax O)%Z ->
  off_page pg (el_text f) -> 1 <= T ->
  (Forall (keeps fl) (triples f ws) \/
   (T = 1 /\ forall e, last (map Some (triples f ws)) None = Some e -> keeps fl e)) ->
  read_el L O (Some (wreader k)) fl (mkMem (el_text f) pg) 0 (length (el_text f)) T sched
    = Ok (el_result (Some (wreader k)) fl f ws).
Proof.
  intros Hk Hw HL HO Hwf Hfit Hcnt Hpg HT Hd.
  exact (el_main L O (Some (wreader k)) fl f ws pg HL HO Hwf (weights_len _ _ _ Hw) Hfit Hcnt Hpg
           (wend_kind k Hk) (owok_some k f ws Hk Hw) T HT (or_intror Hd) sched).
Qed.

(** C01 *)
Lemma edge_list_exact L O f pg T sched :
  is_ity L -> is_ity O -> wf_el f -> labels_fit (imax L - 1) f ->
  (Z.of_nat (length (el_pairs f)) <= imax O)%Z -> off_page pg (el_text f) -> 1 <= T ->
  exists c : coo unit,
    read_el L O None no_flags (mkMem (el_text f) pg) 0 (length (el_text f)) T sched = Ok c /\
    co_m c = Z.of_nat (length (el_pairs f)) /\
    co_x c = map (fun p => Some (fst p)) (el_pairs f) /\
    co_y c = map (fun p => Some (snd p)) (el_pairs f).
Proof.
  intros HL HO Hwf Hfit Hcnt Hpg HT. eexists. split.
  - apply el_unweighted; auto. rewrite stored_no_flags, triples_no_weights, map_length. exact Hcnt.
  - unfold el_result. cbn [co_m co_x co_y]. rewrite stored_no_flags, triples_no_weights, map_length, !map_map.
    repeat split.
Qed.

(** C02 *)
Lemma edge_list_deterministic L O fl f pg T T' sched sched' :
  is_ity L -> is_ity O -> wf_el f -> labels_fit (imax L - 1) f ->
  (Z.of_nat (length (stored fl (triples f (no_weights f)))) <= imax O)%Z ->
  off_page pg (el_text f) -> 1 <= T -> 1 <= T' ->
  exists c : coo unit,
    read_el L O None fl (mkMem (el_text f) pg) 0 (length (el_text f)) T sched = Ok c /\
    read_el L O None fl (mkMem (el_text f) pg) 0 (length (el_text f)) T' sched' = Ok c.
Proof. intros. eexists. split; apply el_unweighted; auto. Qed.

Lemma edge_list_weighted_deterministic k L O fl f ws pg T T' sched sched' :
  wf_kind k -> weights_are k f ws -> Forall (keeps fl) (triples f ws) ->
  is_ity L -> is_ity O -> wf_el f -> labels_fit (imax L - 1) f ->
  (Z.of_nat (length (stored fl (triples f ws))) <= imax O)%Z ->
  off_page pg (el_text f) -> 1 <= T -> 1 <= T' ->
  exists c,
    read_el L O (Some (wreader k)) fl (mkMem (el_text f) pg) 0 (length (el_text f)) T sched = Ok c /\
    read_el L O (Some (wreader k)) fl (mkMem (el_text f) pg) 0 (length (el_text f)) T' sched' = Ok c.
Proof. intros. exists (el_result (Some (wreader k)) fl f ws). split; apply el_weighted; auto. Qed.

(** C03 *)
Lemma edge_list_flags L O fl f pg T sched :
  is_ity L -> is_ity O -> wf_el f -> labels_fit (imax L - 1) f ->
  (Z.of_nat (length (stored fl (triples f (no_weights f)))) <= imax O)%Z ->
  off_page pg (el_text f) -> 1 <= T ->
  exists c : coo unit,
    read_el L O None fl (mkMem (el_text f) pg) 0 (length (el_text f)) T sched = Ok c /\
    holds c (flat_map (expand (f_sym fl) (f_ut fl) (f_sl fl)) (map (fun p => (fst p, snd p, tt)) (el_pairs f))).
Proof.
  intros. eexists. split; [apply el_unweighted; auto|].
  unfold holds, el_result. cbn [co_m co_x co_y]. rewrite triples_no_weights. auto.
Qed.

(** C04 *)
Lemma edge_list_weights k L O fl f ws pg T sched :
  wf_kind k -> weights_are k f ws ->
  (Forall (keeps fl) (triples f ws) \/
   (T = 1 /\ forall e, last (map Some (triples f ws)) None = Some e -> keeps fl e)) ->
  is_ity L -> is_ity O -> wf_el f -> labels_fit (imax L - 1) f ->
  (Z.of_nat (length (stored fl (triples f ws))) <= imax O)%Z ->
  off_page pg (el_text f) -> 1 <= T ->
  exists c,
    read_el L O (Some (wreader k)) fl (mkMem (el_text f) pg) 0 (length (el_text f)) T sched = Ok c /\
    holds c (stored fl (triples f ws)) /\ holds_weights c (stored fl (triples f ws)).
Proof.
  intros. exists (el_result (Some (wreader k)) fl f ws). split; [apply el_weighted; auto|].
  unfold holds, holds_weights, el_result. cbn [co_m co_x co_y co_w]. auto.
Qed.

(** C05 *)
Lemma max_of_in l x : In x l -> (x <= max_of l)%Z.
Proof. unfold max_of. induction l as [|a l IH]; cbn; [contradiction|]. intros [->|H]; [lia|]. specialize (IH H). lia. Qed.

Lemma stored_le_counted {W} fl (l : list (Z * Z * W)) x y w : In (x, y, w) (stored fl l) ->
  In (x, y, w) (counted fl l) \/ (f_sym fl = true /\ f_ut fl = false /\ In (y, x, w) (counted fl l)).
Proof.
  unfold stored, counted. rewrite !in_flat_map. intros (((a & b) & v) & Hin & He).
  assert (G : In (x, y, w) (kept (f_sym fl) (f_ut fl) (f_sl fl) (a, b, v)) \/
     (f_sym fl = true /\ f_ut fl = false /\ In (y, x, w) (kept (f_sym fl) (f_ut fl) (f_sl fl) (a, b, v)))).
  { unfold kept, expand in *. destruct fl as [[] [] []]; cbn [f_sym f_ut f_sl andb] in *;
      repeat match goal with H : context [if ?c then _ else _] |- _ => destruct c end; cbn [In firstn] in *;
      repeat match goal with H : _ \/ _ |- _ => destruct H as [H|H] end; try contradiction;
      injection He as <- <- <-; auto 6. }
  destruct G as [G|(G1 & G2 & G)]; [left|right; split; [exact G1|split; [exact G2|]]]; exists (a, b, v); auto.
Qed.

Lemma edge_list_dims L O fl f pg T sched :
  is_ity L -> is_ity O -> wf_el f -> labels_fit (imax L - 1) f ->
  (Z.of_nat (length (stored fl (triples f (no_weights f)))) <= imax O)%Z ->
  off_page pg (el_text f) -> 1 <= T ->
  exists (c : coo unit) nr nc,
    read_el L O None fl (mkMem (el_text f) pg) 0 (length (el_text f)) T sched = Ok c /\
    dims c nr nc /\
    nr = (1 + max_of (map (fun e => fst (fst e)) (counted fl (triples f (no_weights f)))))%Z /\
    nc = (1 + max_of (map (fun e => snd (fst e)) (counted fl (triples f (no_weights f)))))%Z /\
    (f_sym fl && negb (f_ut fl) = false -> forall i x y,
       nth_error (co_x c) i = Some (Some x) -> nth_error (co_y c) i = Some (Some y) -> (x < nr /\ y < nc)%Z) /\
    (forall i x y, nth_error (co_x c) i = Some (Some x) -> nth_error (co_y c) i = Some (Some y) ->
       (x < Z.max nr nc /\ y < Z.max nr nc)%Z).
Proof.
  intros HL HO Hwf Hfit Hcnt Hpg HT. do 3 eexists. split; [apply el_unweighted; auto|].
  unfold dims, el_result. cbn [co_m co_x co_y co_nrows co_ncols co_n].
  split; [auto|]. split; [reflexivity|]. split; [reflexivity|].
  set (tr := triples f (no_weights f)).
  assert (G : forall i x y, nth_error (map (fun e => Some (fst (fst e))) (stored fl tr)) i = Some (Some x) ->
     nth_error (map (fun e => Some (snd (fst e))) (stored fl tr)) i = Some (Some y) ->
     exists w, In (x, y, w) (stored fl tr)).
  { intros i x y Hx Hy. rewrite nth_error_map in Hx, Hy. destruct (nth_error (stored fl tr) i) as [[[a b] w]|] eqn:E; [|discriminate].
    cbn in Hx, Hy. injection Hx as <-. injection Hy as <-. exists w. eapply nth_error_In; exact E. }
  assert (M : forall x y w, In (x, y, w) (counted fl tr) ->
     (x <= max_of (map (fun e => fst (fst e)) (counted fl tr)) /\ y <= max_of (map (fun e => snd (fst e)) (counted fl tr)))%Z).
  { intros x y w Hin. split; apply max_of_in; apply in_map_iff; exists (x, y, w); auto. }
  split.
  - intros Hfl i x y Hx Hy. destruct (G i x y Hx Hy) as (w & Hin). apply stored_le_counted in Hin as [Hin|(H1 & H2 & _)].
    + apply M in Hin. lia.
    + rewrite H1, H2 in Hfl. discriminate.
  - intros i x y Hx Hy. destruct (G i x y Hx Hy) as (w & Hin). apply stored_le_counted in Hin as [Hin|(H1 & H2 & Hin)]; apply M in Hin; lia.
Qed.

(** C06 *)
Lemma edge_list_race_free_gen {W} :
  forall (wr : option (wrd W)) L fl f (ws : list W) pg T,
  is_ity L -> wf_el f -> labels_fit (imax L - 1) f -> off_page pg (el_text f) -> 1 <= T ->
  owend wr -> length ws = length (el_lines f) -> Forall2 (owok wr) (map l_post (el_lines f)) ws ->
  (wr = None \/ Forall (keeps fl) (triples f ws)) ->
  exists chunks counts p2,
    el_pass1 L wr fl (mkMem (el_text f) pg) 0 (length (el_text f)) T = Ok (chunks, counts) /\
    el_pass2 L wr fl (mkMem (el_text f) pg) chunks counts = Ok p2 /\
    sum_nat counts = length (stored fl (triples f ws)) /\
    race_free (is_some wr) (sum_nat counts) (map (fun r => fst (fst r)) p2).
Proof.
  intros wr L fl f ws pg T HL Hwf Hfit Hpg HT Hwe Hlen Hwok Hd.
  assert (Hd' : wr = None \/ Forall (keeps fl) (triples f ws) \/
     (T = 1 /\ forall e, last (map Some (triples f ws)) None = Some e -> keeps fl e)) by tauto.
  destruct (el_pass1_ok L wr fl f ws pg HL Hwf Hlen Hfit Hpg Hwe Hwok T HT) as (chunks & counts & E1 & Es & p2 & E2 & Ep).
  exists chunks, counts, p2. split; [exact E1|]. split; [exact E2|]. split; [exact Es|].
  unfold race_free. rewrite Ep. rewrite (el_progs_concat wr fl f ws pg Hlen T HT Hd').
  set (ps := combine (el_lines f) ws).
  assert (Hdp : wr = None \/ Forall (fun p => drop fl p = false) ps).
  { destruct Hd as [H|H]; [left; exact H|right]. rewrite <- ps_ent in H. rewrite Forall_map in H.
    eapply Forall_impl; [|exact H]. intros p; apply drop_keeps. }
  destruct (codes_writes wr fl ps Hdp 0) as [N1 N2]. cbn [plus] in N2.
  assert (Et : total fl ps = sum_nat counts) by (rewrite Es; unfold total, stored; fold ps; rewrite <- ps_ent; reflexivity).
  assert (Hprog : forall i p, nth_error (map (el_prog wr fl f ws pg T) (seq 0 T)) i = Some p ->
     i < T /\ p = el_prog wr fl f ws pg T i).
  { intros i p Hi. rewrite nth_error_map in Hi. destruct (nth_error (seq 0 T) i) as [t|] eqn:Et'; [|discriminate].
    assert (Hlt : i < length (seq 0 T)) by (apply nth_error_Some; congruence). rewrite seq_length in Hlt.
    apply nth_error_nth with (d := 0) in Et'. rewrite seq_nth in Et' by exact Hlt. cbn in Et'. subst t. cbn in Hi.
    injection Hi as <-. auto. }
  assert (Hcell : forall i c, i < T ->
     In c (flat_map writes (el_prog wr fl f ws pg T i)) \/ In c (flat_map reads (el_prog wr fl f ws pg T i)) ->
     P fl (el_head f) ps T i <= cidx c < P fl (el_head f) ps T (S i)).
  { intros i c Hi Hc. pose proof (el_prog_in wr fl f ws pg Hlen T HT Hd' i Hi) as Hin. rewrite Forall_forall in Hin.
    destruct Hc as [Hc|Hc]; apply in_flat_map in Hc as (x & Hx & Hc); specialize (Hin x Hx);
      eapply wr_in_cells; eauto. }
  split; [exact N1|]. split; [|split].
  - intros c. rewrite N2, Et. destruct c as [i|i|i]; cbn [cidx cell_ok]; intuition lia.
  - intros c Hc. unfold ps in Hc. rewrite <- (el_progs_concat wr fl f ws pg Hlen T HT Hd') in Hc.
    apply in_flat_map in Hc as (x & Hx & Hc). pose proof Hx as Hx0. apply in_concat in Hx as (p & Hp & Hx).
    apply in_map_iff in Hp as (i & <- & Hi). apply in_seq in Hi.
    assert (Hr : P fl (el_head f) ps T i <= cidx c < P fl (el_head f) ps T (S i)).
    { apply Hcell; [lia|]. right. apply in_flat_map; eauto. }
    pose proof (el_P_mono fl f ws pg Hlen T HT (S i) T ltac:(lia) ltac:(lia)) as HP. fold ps in HP.
    rewrite (P_T fl (mkMem (el_text f) pg) 0 (el_head f) ps) in HP.
    2:{ apply (el_end f ws pg Hlen). }
    2:{ exact HT. }
    rewrite Et in HP.
    destruct x as [a b|a b|a b|a b]; cbn [reads In] in Hc; try contradiction. destruct Hc as [<-|[]]. cbn [cidx] in Hr. cbn [cell_ok].
    split; [|lia].
    destruct (is_some wr) eqn:Ewr; [reflexivity|]. exfalso.
    destruct wr; [discriminate|].
    (* an unweighted program has no copies *)
    rewrite (el_progs_concat None fl f ws pg Hlen T HT Hd') in Hx0.
    clear - Hx0. revert Hx0. generalize 0 as pos. induction (combine (el_lines f) ws) as [|p qs IH]; intros pos H; [exact H|].
    cbn [codes] in H. apply in_app_or in H as [H|H]; [|eapply IH; exact H].
    unfold line_code, wcode in H. destruct (drop fl p); [exact H|].
    destruct (doubled fl _ _); cbn [app In] in H;
      repeat match goal with H : _ \/ _ |- _ => destruct H as [H|H] end; try contradiction; discriminate.
  - intros i j p q c Hij Hp Hq Hc Hw. apply Hprog in Hp as [Hi ->]. apply Hprog in Hq as [Hj ->].
    apply Hcell in Hc; [|exact Hi]. assert (Hc2 : P fl (el_head f) ps T j <= cidx c < P fl (el_head f) ps T (S j)) by (apply Hcell; auto).
    destruct (Nat.lt_ge_cases i j) as [Hlt|Hge].
    + pose proof (el_P_mono fl f ws pg Hlen T HT (S i) j ltac:(lia) ltac:(lia)) as HP. fold ps in HP. lia.
    + pose proof (el_P_mono fl f ws pg Hlen T HT (S j) i ltac:(lia) ltac:(lia)) as HP. fold ps in HP. lia.
Qed.

Lemma edge_list_race_free L fl f pg T :
  is_ity L -> wf_el f -> labels_fit (imax L - 1) f -> off_page pg (el_text f) -> 1 <= T ->
  exists chunks counts p2,
    el_pass1 (W := unit) L None fl (mkMem (el_text f) pg) 0 (length (el_text f)) T = Ok (chunks, counts) /\
    el_pass2 (W := unit) L None fl (mkMem (el_text f) pg) chunks counts = Ok p2 /\
    sum_nat counts = length (stored fl (triples f (no_weights f))) /\
    race_free false (sum_nat counts) (map (fun r => fst (fst r)) p2).
Proof.
  intros HL Hwf Hfit Hpg HT.
  exact (edge_list_race_free_gen None L fl f (no_weights f) pg T HL Hwf Hfit Hpg HT
           Logic.I (no_weights_len f) (owok_none f _ (no_weights_len f)) (or_introl eq_refl)).
Qed.

Lemma edge_list_race_free_weighted k L fl f ws pg T :
  wf_kind k -> weights_are k f ws -> Forall (keeps fl) (triples f ws) ->
  is_ity L -> wf_el f -> labels_fit (imax L - 1) f -> off_page pg (el_text f) -> 1 <= T ->
  exists chunks counts p2,
    el_pass1 L (Some (wreader k)) fl (mkMem (el_text f) pg) 0 (length (el_text f)) T = Ok (chunks, counts) /\
    el_pass2 L (Some (wreader k)) fl (mkMem (el_text f) pg) chunks counts = Ok p2 /\
    sum_nat counts = length (stored fl (triples f ws)) /\
    race_free true (sum_nat counts) (map (fun r => fst (fst r)) p2).
Proof.
  intros Hk Hw Hd HL Hwf Hfit Hpg HT.
  exact (edge_list_race_free_gen (Some (wreader k)) L fl f ws pg T HL Hwf Hfit Hpg HT
           (wend_kind k Hk) (weights_len _ _ _ Hw) (owok_some k f ws Hk Hw) (or_intror Hd)).
Qed.

(** C07 *)
Lemma edge_list_layout L O fl f f' pg T T' sched sched' :
  is_ity L -> is_ity O -> wf_el f -> wf_el f' -> el_pairs f = el_pairs f' -> labels_fit (imax L - 1) f ->
  (Z.of_nat (length (stored fl (triples f (no_weights f)))) <= imax O)%Z ->
  off_page pg (el_text f) -> off_page pg (el_text f') -> 1 <= T -> 1 <= T' ->
  exists c : coo unit,
    read_el L O None fl (mkMem (el_text f) pg) 0 (length (el_text f)) T sched = Ok c /\
    read_el L O None fl (mkMem (el_text f') pg) 0 (length (el_text f')) T' sched' = Ok c.
Proof.
  intros HL HO Hwf Hwf' Ep Hfit Hcnt Hpg Hpg' HT HT'.
  assert (Et : triples f (no_weights f) = triples f' (no_weights f')) by (rewrite !triples_no_weights, Ep; reflexivity).
  assert (Hfit' : labels_fit (imax L - 1) f') by (unfold labels_fit in *; rewrite <- Ep; exact Hfit).
  eexists. split; [apply el_unweighted; auto|].
  rewrite el_unweighted; auto.
  - unfold el_result. rewrite Et. reflexivity.
  - rewrite <- Et. exact Hcnt.
Qed.
