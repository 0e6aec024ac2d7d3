(** * Property C65: conversions between objects of different template types *)

From Coq Require Import Permutation.
From Verif Require Import Base Sched SchedLemmas Coo Ascii Csr ElSpec SpecText SpecCsr CsrLemmas CsrMain CsrBack CsrQuery ReaderLemmas
  Retype RetypeLemmas P_Csr.

(** ** What an integer conversion does

    The only value of the type congruent to the source modulo two to the width. *)
Theorem C65_integer_conversion : forall t z, is_ity t ->
  (imin t <= wrap t z <= imax t)%Z /\ (exists q, wrap t z = z + q * 2 ^ ibits t)%Z /\
  ((imin t <= z <= imax t)%Z -> wrap t z = z).
Proof. intros t z Ht. destruct (wrap_mod t z Ht) as (H1 & H2). split; [exact H1|]. split; [exact H2|]. apply wrap_in. exact Ht. Qed.
Print Assumptions C65_integer_conversion.

(** ** COO to CSR: everything fits *)
Theorem C65_coo_to_csr : forall {W W'} L O (f : W -> option W') (g : W -> W') weighted (c : coo W) es n nr nc ch,
  is_ity L -> is_ity O -> holds c es ->
  (weighted = true -> holds_weights c es /\ Forall (fun e => f (snd e) = Some (g (snd e))) es) ->
  co_n c = Some n -> co_nrows c = Some nr -> co_ncols c = Some nc ->
  (0 <= n)%Z -> room L n -> (0 <= nr <= imax L)%Z -> (0 <= nc <= imax L)%Z -> (Z.of_nat (length es) <= imax O)%Z ->
  Forall (fun e => 0 <= fst (fst e) < n /\ 0 <= snd (fst e) <= imax L)%Z es -> legal (length es) ch ->
  exists r rows, csr_from_coo L O f weighted c ch = Ok r /\ represents weighted r rows /\
    cs_n r = n /\ cs_m r = co_m c /\ cs_nrows r = Some nr /\ cs_ncols r = Some nc /\
    (forall v, v < Z.to_nat n -> exists q, nth_error rows v = Some q /\
       Permutation q (map (fun p => (fst p, g (snd p))) (row es v))) /\
    (ch_parts2 ch = [seq 0 (length es)] -> rows = map (map (fun p => (fst p, g (snd p)))) (rows_of (Z.to_nat n) es)).
Proof.
  intros W W' L O f g weighted c es n nr nc ch HL HO Hc Hw Hn Hnr Hnc H0 Hr Hnr' Hnc' Hm HF HC.
  assert (EO : wrap O (Z.of_nat (length es)) = Z.of_nat (length es)) by (apply wrap_small; [exact HO|lia]).
  assert (Ek : Z.to_nat (wrap O (Z.of_nat (length es))) = length es) by (rewrite EO; apply Nat2Z.id).
  assert (En : wrap L n = n) by (apply wrap_small; [exact HL|destruct Hr; lia]).
  assert (Ees : map (entry_as L g) (firstn (Z.to_nat (wrap O (Z.of_nat (length es)))) es) = map (fun e => (fst e, g (snd e))) es).
  { rewrite Ek, firstn_all. apply map_ext_in. intros e He. rewrite Forall_forall in HF. specialize (HF e He). unfold entry_as.
    rewrite !wrap_small by (try exact HL; destruct Hr; lia). destruct e as [[x y] w]; reflexivity. }
  pose proof (seen_ok L O f g weighted c es n Hc Hw Hn ch) as HS. rewrite Ek in HS. specialize (HS ltac:(lia) HC).
  pose proof (seen_holds L O g c es n HO ltac:(lia)) as (Hh & Hhw). rewrite Ees in Hh, Hhw.
  set (es' := map (fun e => (fst e, g (snd e))) es) in *. assert (EL : length es' = length es) by apply map_length.
  destruct (C22_coo_to_csr L O weighted (seen L O g c es n) es' n ch HL HO Hh (fun _ => Hhw)) as
    (r & rows & E & R & E1 & E2 & E3 & E4 & E5 & _ & _ & E6).
  - cbn [seen co_n]. rewrite En. reflexivity.
  - exact H0.
  - exact Hr.
  - rewrite EL. exact Hm.
  - apply Forall_forall. intros e He. apply in_map_iff in He as (q & <- & Hq). rewrite Forall_forall in HF. cbn [fst]. apply (HF q Hq).
  - rewrite EL. exact HC.
  - exists r, rows. split; [rewrite HS; exact E|]. split; [exact R|]. split; [exact E1|]. split; [|split; [|split; [|split]]].
    + rewrite E2. cbn [seen co_m]. rewrite EO. destruct Hc as (-> & _). reflexivity.
    + rewrite E3. cbn [seen co_nrows]. rewrite Hnr. cbn [cast option_map]. rewrite wrap_small by assumption. reflexivity.
    + rewrite E4. cbn [seen co_ncols]. rewrite Hnc. cbn [cast option_map]. rewrite wrap_small by assumption. reflexivity.
    + intros v Hv. destruct (E5 v Hv) as (q & Hq & HP). exists q. split; [exact Hq|]. unfold es' in HP. rewrite row_as in HP. exact HP.
    + intros HP. rewrite EL in E6. rewrite (E6 HP). unfold rows_of. rewrite map_map. apply map_ext. intros v. apply row_as.
Qed.
Print Assumptions C65_coo_to_csr.

(** ** COO to CSR: what happens to values that do not fit

    The sizes and labels are reduced to the target's types without a check: the
    first [m'] entries, with reduced labels, are distributed to [n'] rows; a
    source outside those is undefined behaviour. *)
Theorem C65_coo_to_csr_narrow : forall {W W'} L O (f : W -> option W') (g : W -> W') weighted (c : coo W) es n ch,
  is_ity L -> is_ity O -> holds c es ->
  (weighted = true -> holds_weights c es /\ Forall (fun e => f (snd e) = Some (g (snd e))) es) ->
  co_n c = Some n ->
  let n' := wrap L n in
  let m' := wrap O (Z.of_nat (length es)) in
  let es' := map (fun e => (wrap L (fst (fst e)), wrap L (snd (fst e)), g (snd e))) (firstn (Z.to_nat m') es) in
  legal (Z.to_nat m') ch ->
  ((m' < 0 \/ n' < 0)%Z -> csr_from_coo L O f weighted c ch = Throw EError) /\
  ((0 <= m' /\ 0 <= n')%Z -> room L n' -> Forall (fun e => 0 <= fst (fst e) < n')%Z es' ->
    exists r rows, csr_from_coo L O f weighted c ch = Ok r /\ represents weighted r rows /\ cs_n r = n' /\ cs_m r = m' /\
      forall v, v < Z.to_nat n' -> exists q, nth_error rows v = Some q /\ Permutation q (row es' v)) /\
  ((0 <= m' /\ 0 <= n')%Z -> room L n' -> ~ Forall (fun e => 0 <= fst (fst e) < n')%Z es' ->
    csr_from_coo L O f weighted c ch = UB).
Proof.
  intros W W' L O f g weighted c es n ch HL HO Hc Hw Hn n' m' es' HC.
  assert (EL : (0 <= m')%Z -> length es' = Z.to_nat m').
  { intros H. unfold es'. rewrite map_length, firstn_length. pose proof (wrap_le O (Z.of_nat (length es)) HO). unfold m' in *. lia. }
  destruct (wrap_mod L n HL) as (HnL & _). fold n' in HnL. destruct (wrap_mod O (Z.of_nat (length es)) HO) as (HmO & _). fold m' in HmO.
  split; [|split].
  - intros H. destruct (Z.ltb_spec m' 0) as [Hm|Hm].
    + unfold csr_from_coo. apply (convert_neg_m L O weighted _ n'); cbn [coo_as co_n co_m]; [rewrite Hn; reflexivity|].
      destruct Hc as (-> & _). exact Hm.
    + unfold csr_from_coo. apply (convert_neg_n L O weighted _ n'); cbn [coo_as co_n co_m]; [exact HL|rewrite Hn; reflexivity| |lia].
      destruct Hc as (-> & _). exact Hm.
  - intros (Hm & Hn0) Hr HF. rewrite (seen_ok L O f g weighted c es n Hc Hw Hn ch Hm HC).
    destruct (seen_holds L O g c es n HO Hm) as (Hh & Hhw).
    destruct (C22_coo_to_csr L O weighted (seen L O g c es n) es' n' ch HL HO Hh (fun _ => Hhw)) as
      (r & rows & E & R & E1 & E2 & _ & _ & E5 & _); auto.
    + rewrite (EL Hm). lia.
    + rewrite (EL Hm). exact HC.
    + exists r, rows. split; [exact E|]. split; [exact R|]. split; [exact E1|]. split; [exact E2|]. exact E5.
  - intros (Hm & Hn0) Hr HF. rewrite (seen_ok L O f g weighted c es n Hc Hw Hn ch Hm HC).
    destruct (seen_holds L O g c es n HO Hm) as (Hh & Hhw).
    assert (HE : exists e, In e es' /\ ~ (0 <= fst (fst e) < n')%Z).
    { clear -HF. induction es' as [|e l IH]; [exfalso; apply HF; constructor|].
      destruct (Z_le_dec 0 (fst (fst e))) as [H1|H1]; [destruct (Z_lt_dec (fst (fst e)) n') as [H2|H2]|].
      - destruct IH as (q & Hq & Hb); [intros HA; apply HF; constructor; [lia|exact HA]|]. exists q. split; [right; exact Hq|exact Hb].
      - exists e. split; [left; reflexivity|lia].
      - exists e. split; [left; reflexivity|lia]. }
    destruct HE as (e & He & Hb). apply (convert_bad L O weighted (seen L O g c es n) es' n' ch e); auto.
    rewrite (EL Hm). exact HC.
Qed.
Print Assumptions C65_coo_to_csr_narrow.

(** ** CSR to COO: everything fits *)
Definition image {W W'} (fl : flags) (g : W -> W') (rows : list (list (Z * W))) : list (Z * Z * W') :=
  flat_map (fun e => let '(x, y, w) := e in
    if f_sym fl then if f_ut fl then [(Z.min x y, Z.max x y, g w)] else [(y, x, g w); (x, y, g w)] else [(x, y, g w)]) (entries rows).

Lemma entries_as {W W'} (h : Z * W -> Z * W') rows : forall v,
  entries_from v (map (map h) rows) = map (fun e => (fst (fst e), fst (h (snd (fst e), snd e)), snd (h (snd (fst e), snd e)))) (entries_from v rows).
Proof.
  induction rows as [|r rows IH]; intros v; [reflexivity|]. cbn [map entries_from]. rewrite map_app, IH, !map_map. f_equal.
  apply map_ext. intros [y w]. reflexivity.
Qed.

Theorem C65_csr_to_coo : forall {W W'} L O (f : W -> option W') (g : W -> W') fl weighted (c : csr W) rows parts sched,
  is_ity L -> is_ity O -> represents weighted c rows ->
  (weighted = true -> Forall (fun p => f (snd p) = Some (g (snd p))) (concat rows)) ->
  (f_sym fl = true \/ f_ut fl = false) -> f_sl fl = false ->
  (cs_n c <= imax L)%Z -> Forall (fun p => 0 <= fst p <= imax L)%Z (concat rows) ->
  ((if f_sym fl && negb (f_ut fl) then 2 else 1) * cs_m c <= imax O)%Z ->
  Permutation (concat parts) (seq 0 (length rows)) ->
  exists r, coo_from_csr L O f fl weighted c parts sched = Ok r /\
    holds r (image fl g rows) /\ (weighted = true -> holds_weights r (image fl g rows)) /\ co_n r = Some (cs_n c).
Proof.
  intros W W' L O f g fl weighted c rows parts sched HL HO Hrep Hw Hfl Hsl Hn HF Hm HP. pose proof Hrep as (En & Em & _).
  pose proof (vals_represents L f g weighted c rows Hrep Hw) as HV. set (rows' := map (map (pair_as L g)) rows) in HV.
  assert (EM : wrap O (cs_m c) = cs_m c) by (apply wrap_small; [exact HO|destruct (f_sym fl && negb (f_ut fl)); lia]).
  assert (EN : wrap L (cs_n c) = cs_n c) by (apply wrap_small; [exact HL|lia]).
  assert (EI : flat_map (from_csr (f_sym fl) (f_ut fl)) (entries rows') = image fl g rows).
  { unfold image, entries, rows'. rewrite entries_as. assert (HF' : Forall (fun e => 0 <= snd (fst e) <= imax L)%Z (entries_from 0 rows)).
    { clear -HF. generalize 0. induction rows as [|r rows IH]; intros v; [constructor|]. cbn [entries_from concat] in *. apply Forall_app in HF as (H1 & H2).
      apply Forall_app. split; [|apply IH; exact H2]. apply Forall_forall. intros e He. apply in_map_iff in He as (p & <- & Hp).
      rewrite Forall_forall in H1. exact (H1 p Hp). }
    revert HF'. generalize (entries_from 0 rows). intros l. induction l as [|[[x y] w] l IH]; intros H; [reflexivity|].
    cbn [map flat_map]. rewrite IH by exact (Forall_inv_tail H). apply Forall_inv in H. cbn [fst snd] in H. unfold pair_as. cbn [fst snd].
    rewrite (wrap_small L y HL H). reflexivity. }
  assert (ELn : length rows' = length rows) by apply map_length.
  assert (ERL : Z.of_nat (length (entries rows')) = cs_m c).
  { unfold entries. rewrite entries_length. destruct HV as (_ & Hm' & _). rewrite <- Hm'. reflexivity. }
  assert (HI : (Z.of_nat (length (flat_map (from_csr (f_sym fl) (f_ut fl)) (entries rows'))) <= imax O)%Z).
  { rewrite (flat_X_len fl Hfl). unfold inc. destruct (f_sym fl && negb (f_ut fl)); lia. }
  assert (HP' : Permutation (concat parts) (seq 0 (length rows'))) by (rewrite ELn; exact HP).
  destruct (convert_csr_ok fl weighted Hfl (csr_vals L f c) rows' HV O parts sched HO Hsl HI HP') as (r & E & H1 & H2 & H3 & _).
  rewrite EI in H1, H2. exists r. split; [|split; [exact H1|split; [exact H2|rewrite H3, ELn, En; reflexivity]]].
  rewrite <- E. unfold coo_from_csr, convert_csr. rewrite (progs_vals L O f weighted c fl parts). cbn [csr_as csr_vals cs_m cs_n]. rewrite EM, EN. reflexivity.
Qed.
Print Assumptions C65_csr_to_coo.

(** ** CSR to COO: values that do not fit *)
Theorem C65_csr_to_coo_narrow : forall {W W'} L O (f : W -> option W') (g : W -> W') weighted (c : csr W) rows parts sched,
  is_ity L -> is_ity O -> represents weighted c rows ->
  (weighted = true -> Forall (fun p => f (snd p) = Some (g (snd p))) (concat rows)) ->
  let n' := wrap L (cs_n c) in
  let m' := wrap O (cs_m c) in
  let es' := map (fun e => (fst (fst e), wrap L (snd (fst e)), g (snd e))) (entries (firstn (Z.to_nat n') rows)) in
  let rest := Z.to_nat m' - length es' in
  Permutation (concat parts) (seq 0 (Z.to_nat n')) ->
  ((m' < 0)%Z -> coo_from_csr L O f no_flags weighted c parts sched = Throw EError) /\
  ((Z.of_nat (length es') <= m')%Z ->
    exists r, coo_from_csr L O f no_flags weighted c parts sched = Ok r /\ co_n r = Some n' /\ co_m r = m' /\
      co_x r = map (fun e => Some (fst (fst e))) es' ++ repeat None rest /\
      co_y r = map (fun e => Some (snd (fst e))) es' ++ repeat None rest /\
      (weighted = true -> co_w r = map (fun e => Some (snd e)) es' ++ repeat None rest)) /\
  ((0 <= m' < Z.of_nat (length es'))%Z -> coo_from_csr L O f no_flags weighted c parts sched = UB).
Proof.
  intros W W' L O f g weighted c rows parts sched HL HO Hrep Hw n' m' es' rest HP. pose proof Hrep as (En & Em & _).
  pose proof (vals_represents L f g weighted c rows Hrep Hw) as HV. set (rows' := map (map (pair_as L g)) rows) in HV.
  assert (Hfl : f_sym no_flags = true \/ f_ut no_flags = false) by (right; reflexivity).
  assert (ELn : length rows' = length rows) by apply map_length.
  assert (Hk : Z.to_nat n' <= length rows').
  { rewrite ELn. unfold n'. pose proof (wrap_le L (cs_n c) HL). lia. }
  assert (EI : flat_map (from_csr false false) (entries (firstn (Z.to_nat n') rows')) = es').
  { assert (EX : forall l : list (Z * Z * W'), flat_map (from_csr false false) l = l).
    { intros l. induction l as [|[[x y] w] l IH]; [reflexivity|]. cbn [flat_map from_csr app]. rewrite IH. reflexivity. }
    rewrite EX. unfold es', rows', entries. rewrite firstn_map, entries_as. apply map_ext. intros e. reflexivity. }
  unfold coo_from_csr, convert_csr. cbn [no_flags f_sym f_ut f_sl andb negb bind]. rewrite (progs_vals L O f weighted c no_flags parts).
  cbn [csr_as cs_m cs_n]. fold n' m'.
  rewrite (progs_first no_flags weighted (csr_vals L f c) rows' HV parts (Z.to_nat n') Hk HP). unfold coo_alloc.
  split; [|split].
  - intros H. destruct (Z.ltb_spec m' 0); [reflexivity|lia].
  - intros H. destruct (Z.ltb_spec m' 0); [lia|]. cbn [bind].
    destruct (first_rows no_flags weighted Hfl (csr_vals L f c) rows' HV parts sched (Z.to_nat n') (Z.to_nat m') Hk HP) as (s & -> & E1 & E2 & E3).
    { cbn [no_flags f_sym f_ut]. rewrite EI. lia. }
    cbn [no_flags f_sym f_ut] in E1, E2, E3. rewrite EI in E1, E2, E3. cbn [bind]. eexists. split; [reflexivity|].
    cbn [co_n co_m co_x co_y co_w]. split; [reflexivity|]. split; [reflexivity|]. split; [exact E1|]. split; [exact E2|exact E3].
  - intros H. destruct (Z.ltb_spec m' 0); [lia|]. cbn [bind].
    rewrite (rows_too_many no_flags weighted Hfl rows' parts sched (Z.to_nat n') (Z.to_nat m') Hk HP); [reflexivity|].
    cbn [no_flags f_sym f_ut]. rewrite EI. lia.
Qed.
Print Assumptions C65_csr_to_coo_narrow.

(** ** There and back through other types *)
Lemma entries_from_perm {W} (q r : list (list (Z * W))) : Forall2 (@Permutation _) q r -> forall v, Permutation (entries_from v q) (entries_from v r).
Proof.
  induction 1 as [|a b q r HP HF IH]; intros v; [apply Permutation_refl|]. cbn [entries_from]. apply Permutation_app; [apply Permutation_map; exact HP|apply IH].
Qed.

Theorem C65_round_trip : forall {W W1 W2} L1 O1 (f1 : W -> option W1) (g1 : W -> W1) L2 O2 (f2 : W1 -> option W2) (g2 : W1 -> W2)
    weighted (c : coo W) es n nr nc ch parts sched,
  is_ity L1 -> is_ity O1 -> is_ity L2 -> is_ity O2 -> holds c es -> (weighted = true -> holds_weights c es) ->
  Forall (fun e => f1 (snd e) = Some (g1 (snd e)) /\ f2 (g1 (snd e)) = Some (g2 (g1 (snd e)))) es ->
  co_n c = Some n -> co_nrows c = Some nr -> co_ncols c = Some nc ->
  (0 <= n)%Z -> room L1 n -> (n <= imax L2)%Z -> (0 <= nr <= imax L1)%Z -> (0 <= nc <= imax L1)%Z ->
  (Z.of_nat (length es) <= imax O1)%Z -> (Z.of_nat (length es) <= imax O2)%Z ->
  Forall (fun e => 0 <= fst (fst e) < n /\ 0 <= snd (fst e) < n)%Z es ->
  legal (length es) ch -> Permutation (concat parts) (seq 0 (Z.to_nat n)) ->
  exists r r2 es2, csr_from_coo L1 O1 f1 weighted c ch = Ok r /\ coo_from_csr L2 O2 f2 no_flags weighted r parts sched = Ok r2 /\
    holds r2 es2 /\ (weighted = true -> holds_weights r2 es2) /\ co_n r2 = Some n /\
    Permutation es2 (map (fun e => (fst e, g2 (g1 (snd e)))) es).
Proof.
  intros W W1 W2 L1 O1 f1 g1 L2 O2 f2 g2 weighted c es n nr nc ch parts sched HL1 HO1 HL2 HO2 Hc Hw Hfg Hn Hnr Hnc H0 Hr HnL Hnr' Hnc' Hm1 Hm2 HF HC HP.
  pose proof (imax_pos L1 HL1) as HP1.
  destruct (C65_coo_to_csr L1 O1 f1 g1 weighted c es n nr nc ch HL1 HO1 Hc) as (r & rows & E & R & E1 & E2 & _ & _ & E5 & _); auto.
  { intros Ew. split; [exact (Hw Ew)|]. eapply Forall_impl; [|exact Hfg]. cbn beta. tauto. }
  { eapply Forall_impl; [|exact HF]. cbn beta. intros e He. destruct Hr. lia. }
  set (es1 := map (fun e => (fst e, g1 (snd e))) es).
  assert (ER : length rows = Z.to_nat n) by (destruct R as (Hn' & _); lia).
  assert (HF2 : Forall2 (@Permutation _) rows (rows_of (Z.to_nat n) es1)).
  { assert (G : forall k v rws, length rws = k -> (forall i, i < k -> exists q, nth_error rws i = Some q /\ Permutation q (row es1 (v + i))) ->
      Forall2 (@Permutation _) rws (map (row es1) (seq v k))).
    { induction k as [|k IH]; intros v rws Hl Hi; destruct rws as [|q rws]; try discriminate; [constructor|]. cbn [seq map]. constructor.
      - destruct (Hi 0 ltac:(lia)) as (q' & Hq & Hp). cbn in Hq. injection Hq as <-. rewrite Nat.add_0_r in Hp. exact Hp.
      - apply IH; [cbn in Hl; lia|]. intros i Hlt. destruct (Hi (S i) ltac:(lia)) as (q' & Hq & Hp). exists q'. split; [exact Hq|].
        replace (S v + i) with (v + S i) by lia. exact Hp. }
    unfold rows_of. apply G; [exact ER|]. intros i Hi. cbn [Nat.add]. destruct (E5 i Hi) as (q & Hq & Hp). exists q. split; [exact Hq|].
    unfold es1. rewrite row_as. exact Hp. }
  assert (HB : Forall (fun e => 0 <= fst (fst e) < Z.of_nat (Z.to_nat n))%Z es1).
  { apply Forall_forall. intros e He. apply in_map_iff in He as (q & <- & Hq). rewrite Forall_forall in HF. specialize (HF q Hq). cbn [fst]. lia. }
  assert (HPE : Permutation (entries rows) es1).
  { rewrite <- (entries_rows_perm (Z.to_nat n) es1 HB). apply entries_from_perm. exact HF2. }
  assert (HIn : forall p, In p (concat rows) -> exists x, In (x, fst p, snd p) (entries rows)).
  { clear. unfold entries. generalize 0. induction rows as [|q rows IH]; intros v p Hp; [destruct Hp|]. cbn [concat entries_from] in *.
    apply in_app_or in Hp as [Hp|Hp].
    - exists (Z.of_nat v). apply in_or_app; left. apply in_map_iff. exists p. split; [reflexivity|exact Hp].
    - destruct (IH (S v) p Hp) as (x & Hx). exists x. apply in_or_app; right. exact Hx. }
  assert (HAll : forall p, In p (concat rows) -> exists e, In e es /\ fst p = snd (fst e) /\ snd p = g1 (snd e)).
  { intros p Hp. destruct (HIn p Hp) as (x & Hx). apply (Permutation_in _ HPE), in_map_iff in Hx as (e & Ee & He). exists e.
    split; [exact He|]. injection Ee as Ea Eb. rewrite Ea. cbn [fst snd]. auto. }
  destruct (C65_csr_to_coo L2 O2 f2 g2 no_flags weighted r rows parts sched HL2 HO2 R) as (r2 & F1 & F2 & F3 & F4).
  { intros _. apply Forall_forall. intros p Hp. destruct (HAll p Hp) as (e & He & _ & ->). rewrite Forall_forall in Hfg. apply (Hfg e He). }
  { right; reflexivity. } { reflexivity. } { lia. }
  { apply Forall_forall. intros p Hp. destruct (HAll p Hp) as (e & He & -> & _). rewrite Forall_forall in HF. specialize (HF e He). lia. }
  { cbn [no_flags f_sym f_ut andb]. destruct Hc as (Hcm & _). lia. }
  { rewrite ER. exact HP. }
  assert (EI : image no_flags g2 rows = map (fun e => (fst e, g2 (snd e))) (entries rows)).
  { unfold image. cbn [no_flags f_sym]. generalize (entries rows). intros l. induction l as [|[[x y] w] l IH]; [reflexivity|].
    cbn [flat_map map app fst snd]. rewrite IH. reflexivity. }
  rewrite EI in F2, F3. exists r, r2, (map (fun e => (fst e, g2 (snd e))) (entries rows)). split; [exact E|]. split; [exact F1|]. split; [exact F2|].
  split; [exact F3|]. split; [rewrite F4, E1; reflexivity|]. rewrite HPE. unfold es1. rewrite map_map. apply Permutation_refl.
Qed.
Print Assumptions C65_round_trip.

(** ** [DiGraph] and [Matrix] of other types *)
Theorem C65_in_out : forall {W W'} L O (f : W -> option W') (g : W -> W') weighted (c : coo W) es n nr nc ch1 ch2,
  is_ity L -> is_ity O -> holds c es ->
  (weighted = true -> holds_weights c es /\ Forall (fun e => f (snd e) = Some (g (snd e))) es) ->
  co_n c = Some n -> co_nrows c = Some nr -> co_ncols c = Some nc ->
  (0 <= n)%Z -> room L n -> (0 <= nr <= imax L)%Z -> (0 <= nc <= imax L)%Z -> (Z.of_nat (length es) <= imax O)%Z ->
  Forall (fun e => 0 <= fst (fst e) < n /\ 0 <= snd (fst e) < n)%Z es -> legal (length es) ch1 -> legal (length es) ch2 ->
  exists i o irows orows, digraph_from_coo L O f weighted c ch1 ch2 = Ok (i, o) /\
    represents weighted i irows /\ represents weighted o orows /\ cs_n i = n /\ cs_n o = n /\ cs_m i = co_m c /\ cs_m o = co_m c /\
    forall v, v < Z.to_nat n -> exists ro ri, nth_error orows v = Some ro /\ nth_error irows v = Some ri /\
      Permutation ro (map (fun p => (fst p, g (snd p))) (row es v)) /\
      Permutation ri (map (fun p => (fst p, g (snd p))) (row (map (fun e => (snd (fst e), fst (fst e), snd e)) es) v)).
Proof.
  intros W W' L O f g weighted c es n nr nc ch1 ch2 HL HO Hc Hw Hn Hnr Hnc H0 Hr Hnr' Hnc' Hm HF HC1 HC2.
  pose proof (imax_pos L HL) as HP. set (es1 := map (fun e => (snd (fst e), fst (fst e), snd e)) es).
  assert (EL : length es1 = length es) by apply map_length.
  destruct (C31_transpose c es Hc) as (Ht & _).
  destruct (C65_coo_to_csr L O f g weighted (coo_transpose c) es1 n nr nc ch1 HL HO Ht) as (i & irows & E & R & E1 & E2 & _ & _ & E5 & _); auto.
  { intros Ew. destruct (Hw Ew) as (H1 & H2). split.
    - unfold holds_weights, coo_transpose in *. cbn [co_w]. rewrite H1. unfold es1. rewrite map_map. reflexivity.
    - apply Forall_forall. intros e He. apply in_map_iff in He as (q & <- & Hq). rewrite Forall_forall in H2. cbn [snd]. apply (H2 q Hq). }
  { rewrite EL. exact Hm. }
  { apply Forall_forall. intros e He. apply in_map_iff in He as (q & <- & Hq). rewrite Forall_forall in HF. specialize (HF q Hq). cbn [fst snd]. destruct Hr. lia. }
  { rewrite EL. exact HC1. }
  destruct (C65_coo_to_csr L O f g weighted c es n nr nc ch2 HL HO Hc) as (o & orows & F & S & F1 & F2 & _ & _ & F5 & _); auto.
  { eapply Forall_impl; [|exact HF]. cbn beta. intros e He. destruct Hr. lia. }
  exists i, o, irows, orows. unfold digraph_from_coo. rewrite E. cbn [bind]. rewrite F. cbn [bind]. split; [reflexivity|].
  split; [exact R|]. split; [exact S|]. split; [exact E1|]. split; [exact F1|]. split; [exact E2|]. split; [exact F2|].
  intros v Hv. destruct (F5 v Hv) as (ro & Hro & Pro). destruct (E5 v Hv) as (ri & Hri & Pri). exists ro, ri. auto.
Qed.
Print Assumptions C65_in_out.

(** ** Cases *)

(** 64-bit labels to 8-bit ones, weights from [i64] to [i8]. *)
Definition ex_fits (w : Z) : option Z := Some (wrap i8 w).
Example C65_fits_applies :
  csr_from_coo u8 u16 ex_fits true (coo_of 4 ex_entries) ex_choice =
    Ok (mkCsr (map Some [0; 2; 2; 5; 5])%Z (map Some [1; 3; 0; 2; 1])%Z (map Some [50; 20; 30; 40; 10])%Z 4 5 (Some 4) (Some 4))%Z /\
  room u8 4 /\ Forall (fun e => ex_fits (snd e) = Some (wrap i8 (snd e))) ex_entries /\
  coo_from_csr u8 u8 ex_fits no_flags true ex_csr [[2]; [1; 0]] [1; 0; 1; 1; 0] = Ok
    (mkCoo (map Some [0; 0; 0; 0; 2; 2])%Z (map Some [2; 0; 2; 0; 1; 1])%Z (map Some [5; 6; 4; 9; 3; 2])%Z (Some 3%Z) None None 6).
Proof.
  split; [vm_compute; reflexivity|]. split; [split; [vm_compute; discriminate|left; reflexivity]|].
  split; [repeat constructor|vm_compute; reflexivity].
Qed.

(** 258 vertices to 8-bit labels: [n' = 2].  The edges (256, 0) and (0, 257)
    silently become (0, 0) and (0, 1); an edge from vertex 5 is out of bounds. *)
Definition ex_wide : list (Z * Z * unit) := [(256, 0, tt); (0, 257, tt)]%Z.
Definition ex_wide2 : list (Z * Z * unit) := [(256, 0, tt); (5, 257, tt)]%Z.
Definition ex_two : cchoice := mkChoice 2 1 [[0]; [1]] [[1]; [0]] [1; 0] [1; 1; 0] [1; 0].
Example C65_narrow_applies :
  legal 2 ex_two /\ wrap u8 258 = 2%Z /\ room u8 2 /\
  csr_from_coo u8 u32 (fun w => Some w) false (coo_of 258 ex_wide) ex_two =
    Ok (mkCsr (map Some [0; 2; 2])%Z (map Some [0; 1])%Z [] 2 2 (Some 2) (Some 2))%Z /\
  csr_from_coo u8 u32 (fun w => Some w) false (coo_of 258 ex_wide2) ex_two = UB /\
  (* signed labels: 200 vertices become -56 *)
  csr_from_coo i8 u32 (fun w => Some w) false (coo_of 200 ex_wide) ex_two = Throw EError.
Proof.
  split; [|split; [vm_compute; reflexivity|split; [split; [vm_compute; discriminate|left; reflexivity]|split; [|split]; vm_compute; reflexivity]]].
  unfold legal. cbn [ch_T ch_single ch_parts1 ch_parts2 ex_two concat app]. split; [lia|]. split; [lia|]. split; [reflexivity|].
  apply perm_swap.
Qed.

(** 300 rows without entries but the last, and 257 entries in one row. *)
Definition ex_tall : list (list (Z * unit)) := repeat [] 299 ++ [[(7, tt)]]%Z.
Definition csr_of {W} (rows : list (list (Z * W))) : csr W :=
  mkCsr (map (fun v => Some (Z.of_nat (length (concat (firstn v rows))))) (seq 0 (S (length rows))))
    (map (fun p => Some (fst p)) (concat rows)) (map (fun p => Some (snd p)) (concat rows))
    (Z.of_nat (length rows)) (Z.of_nat (length (concat rows))) None None.
Lemma csr_of_represents {W} (rows : list (list (Z * W))) : represents true (csr_of rows) rows.
Proof. repeat split. Qed.
Example C65_csr_narrow_applies :
  (* 300 rows become 44: the entry of row 299 is missing, the cells are indeterminate *)
  coo_from_csr u8 u8 (fun w => Some w) no_flags true (csr_of ex_tall) [seq 0 44] [] =
    Ok (mkCoo [None] [None] [None] (Some 44%Z) None None 1) /\
  (* 257 entries become 1 *)
  coo_from_csr u8 u8 (fun w => Some w) no_flags true (csr_of [repeat (3%Z, tt) 257]) [[0]] [] = UB /\
  (* an endpoint out of range is reduced *)
  coo_from_csr u8 u8 (fun w => Some w) no_flags true (csr_of [[(259%Z, tt)]]) [[0]] [] =
    Ok (mkCoo [Some 0] [Some 3] [Some tt] (Some 1) None None 1)%Z.
Proof. split; [|split]; vm_compute; reflexivity. Qed.
