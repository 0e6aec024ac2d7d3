(** * RetypeLemmas: proofs about conversions between template types *)

From Coq Require Import Permutation.
From Verif Require Import Base Sched SchedLemmas SchedMore Coo Ascii Csr ElSpec SpecText SpecCsr CsrLemmas CsrMain CsrBack CsrQuery
  ReaderLemmas ElBad Retype.

Lemma run_ext_in {S I} (f g : I -> S -> res S) : forall sched ps s,
  (forall i, In i (concat ps) -> forall s, f i s = g i s) -> run f sched ps s = run g sched ps s.
Proof.
  assert (HE : forall l s, (forall i, In i l -> forall s, f i s = g i s) -> exec_all f l s = exec_all g l s).
  { induction l as [|i l IH]; intros s H; [reflexivity|]. cbn [exec_all]. rewrite H by (left; reflexivity).
    destruct (g i s); cbn [bind]; auto. apply IH. intros; apply H; right; assumption. }
  induction sched as [|t sched IH]; intros ps s H; cbn [run]; [apply HE; exact H|].
  destruct (pop t ps) as [[i ps']|] eqn:E; [|apply IH; exact H].
  destruct (pop_split _ _ _ _ E) as (A & p & B & EA & EB).
  rewrite H by (rewrite EA, concat_app; cbn [concat app]; apply in_or_app; right; left; reflexivity).
  destruct (g i s); cbn [bind]; auto. apply IH. intros j Hj. apply H. rewrite EA, EB in *. rewrite concat_app in *. cbn [concat app] in *.
  apply in_app_or in Hj as [Hj|Hj]; apply in_or_app; [left; exact Hj|right; right; exact Hj].
Qed.

Lemma mapM_ext_in {A B} (f g : A -> res B) l : (forall a, In a l -> f a = g a) -> mapM f l = mapM g l.
Proof.
  induction l as [|a l IH]; intros H; [reflexivity|]. cbn [mapM]. rewrite H by (left; reflexivity). rewrite IH; [reflexivity|].
  intros; apply H; right; assumption.
Qed.

(** The conversion looks at the first [k] entries only. *)
Lemma convert_coo_prefix {W} L O weighted (c1 c2 : coo W) k ch :
  co_n c1 = co_n c2 -> co_m c1 = co_m c2 -> co_nrows c1 = co_nrows c2 -> co_ncols c1 = co_ncols c2 ->
  (forall e, e < k -> cell_of e (co_x c1) = cell_of e (co_x c2) /\ cell_of e (co_y c1) = cell_of e (co_y c2) /\
    (weighted = true -> cell_of e (co_w c1) = cell_of e (co_w c2))) ->
  legal k ch -> convert_coo L O weighted c1 ch = convert_coo L O weighted c2 ch.
Proof.
  intros En Em Er Ec HA (_ & _ & H1 & H2). unfold convert_coo. rewrite En, Em, Er, Ec. destruct (co_n c2) as [n|]; [|reflexivity].
  cbn zeta. apply bind_ext. intros [[ends ws] offs]. destruct (n <? 0)%Z; [reflexivity|].
  rewrite (mapM_ext_in (fun p => mapM (fun e => cell_of e (co_x c1)) p) (fun p => mapM (fun e => cell_of e (co_x c2)) p)).
  2:{ intros p Hp. apply mapM_ext_in. intros e He. apply HA. assert (Hi : In e (seq 0 k)) by (apply (Permutation_in _ H1), in_concat; eauto).
      apply in_seq in Hi. lia. }
  apply bind_ext. intros incs. apply bind_ext. intros degs. apply bind_ext. intros off.
  rewrite (run_ext_in (scexec O c1 off) (scexec O c2 off)); [reflexivity|].
  intros i Hi s. apply in_concat in Hi as (pr & Hpr & Hi). apply in_map_iff in Hpr as (es & <- & Hes).
  assert (HK : forall e, In e es -> e < k).
  { intros e He. assert (Hq : In e (seq 0 k)) by (apply (Permutation_in _ H2), in_concat; eauto). apply in_seq in Hq. lia. }
  unfold scatter_prog in Hi. apply in_flat_map in Hi as (e & He & Hi). destruct (HA e (HK e He)) as (Ax & Ay & Aw).
  apply in_app_or in Hi as [[<-|[<-|[]]]|Hi].
  - cbn [scexec]. rewrite Ax. reflexivity.
  - cbn [scexec]. unfold slot. rewrite Ax, Ay. reflexivity.
  - destruct weighted; [|destruct Hi]. destruct Hi as [<-|[]]. cbn [scexec]. unfold slot. rewrite Ax, (Aw eq_refl). reflexivity.
Qed.

Lemma nth_error_firstn_ {A} (l : list A) : forall k i, i < k -> nth_error (firstn k l) i = nth_error l i.
Proof.
  induction l as [|a l IH]; intros [|k] [|i] H; try lia; try reflexivity. cbn [firstn nth_error]. apply IH. lia.
Qed.

(** The entries as the target sees them. *)
Definition entry_as {W W'} (L : ity) (g : W -> W') (e : Z * Z * W) : Z * Z * W' :=
  (wrap L (fst (fst e)), wrap L (snd (fst e)), g (snd e)).

Section Seen.
  Context {W W' : Type}.
  Variables (L O : ity) (f : W -> option W') (g : W -> W').
  Variable weighted : bool.
  Variable c : coo W.
  Variable es : list (Z * Z * W).
  Variable n : Z.
  Hypothesis HL : is_ity L.
  Hypothesis HO : is_ity O.
  Hypothesis Hc : holds c es.
  Hypothesis Hw : weighted = true -> holds_weights c es /\ Forall (fun e => f (snd e) = Some (g (snd e))) es.
  Hypothesis Hn : co_n c = Some n.

  Let k := Z.to_nat (wrap O (Z.of_nat (length es))).
  Let es' := map (entry_as L g) (firstn k es).

  Definition seen : coo W' :=
    mkCoo (map (fun e => Some (fst (fst e))) es') (map (fun e => Some (snd (fst e))) es') (map (fun e => Some (snd e)) es')
      (Some (wrap L n)) (cast L (co_nrows c)) (cast L (co_ncols c)) (wrap O (Z.of_nat (length es))).

  Lemma wrap_le t z : is_ity t -> (0 <= z)%Z -> (wrap t z <= z)%Z.
  Proof.
    clear. intros Ht Hz. unfold is_ity in Ht. cbn [In] in Ht.
    repeat (destruct Ht as [<-|Ht]; [unfold wrap; cbn -[Z.modulo Z.add Z.pow]|]); [..|contradiction];
    try (apply Z.mod_le; lia); match goal with |- ((?a mod ?b) - _ <= _)%Z => pose proof (Z.mod_le a b); lia end.
  Qed.

  Lemma k_le : k <= length es.
  Proof. unfold k. pose proof (wrap_le O (Z.of_nat (length es)) HO). lia. Qed.

  Lemma cell_nth {V} i (l : list (option V)) : cell_of i l = match nth_error l i with Some (Some v) => Ok v | _ => UB end.
  Proof.
    clear. unfold cell_of, aget. destruct (nth_error l i) as [[v|]|] eqn:E; reflexivity.
  Qed.

  Lemma seen_ok ch : (0 <= wrap O (Z.of_nat (length es)))%Z -> legal k ch ->
    csr_from_coo L O f weighted c ch = convert_coo L O weighted seen ch.
  Proof.
    intros H0 HC. destruct Hc as (Em & Ex & Ey). unfold csr_from_coo. apply convert_coo_prefix with (k := k); cbn [coo_as seen co_n co_m co_nrows co_ncols co_x co_y co_w]; auto.
    - rewrite Hn. reflexivity.
    - rewrite Em. reflexivity.
    - intros e He. rewrite !cell_nth. unfold es'. rewrite Ex, Ey, !nth_error_map, nth_error_firstn_ by exact He.
      destruct (nth_error es e) as [q|] eqn:Eq; cbn [option_map cast entry_as fst snd]; [|repeat split].
      2:{ intros Hwt. destruct (Hw Hwt) as (E & _). rewrite E, !nth_error_map, Eq. reflexivity. }
      split; [reflexivity|]. split; [reflexivity|]. intros Hwt. destruct (Hw Hwt) as (E & HF). rewrite E, !nth_error_map, Eq. cbn [option_map cast_weight].
      rewrite Forall_forall in HF. rewrite (HF q) by (eapply nth_error_In; exact Eq). reflexivity.
  Qed.

  Lemma es'_length : length es' = k.
  Proof. unfold es'. rewrite map_length, firstn_length. pose proof k_le. lia. Qed.

  Lemma seen_holds : (0 <= wrap O (Z.of_nat (length es)))%Z -> holds seen es' /\ holds_weights seen es'.
  Proof.
    intros H0. split; [|reflexivity]. split; [|split; reflexivity]. cbn [seen co_m]. rewrite es'_length. unfold k. lia.
  Qed.
End Seen.

(** ** Sources that do not fit *)
Lemma inc_step O d l n : length l = n -> inc_exec O d l = UB \/ exists l', inc_exec O d l = Ok l' /\ length l' = n.
Proof.
  intros H. unfold inc_exec. destruct ((0 <=? d) && (d <? Z.of_nat (length l)))%Z; [|left; reflexivity].
  unfold arith. destruct (ibits O <? 32)%Z; [|destruct (isigned O); [destruct (inrange O _)|]]; cbn [bind];
    try (left; reflexivity); right; eexists; (split; [reflexivity|]); rewrite upd_length; exact H.
Qed.

Lemma convert_bad {W} L O weighted (c : coo W) es n ch e :
  is_ity L -> is_ity O -> holds c es -> co_n c = Some n -> (0 <= n)%Z -> room L n ->
  In e es -> ~ (0 <= fst (fst e) < n)%Z -> legal (length es) ch ->
  convert_coo L O weighted c ch = UB.
Proof.
  intros HL HO (Em & Ex & Ey) Hn H0 Hr He Hbad (_ & _ & HP & _). unfold convert_coo. rewrite Hn, Em. unfold csr_alloc.
  rewrite alloc_ok by lia. cbn [bind]. set (ws0 := if weighted then _ else _).
  assert (Ews : exists ws, ws0 = Ok ws) by (unfold ws0; destruct weighted; [rewrite alloc_ok by lia|]; eauto).
  destruct Ews as (ws & ->). cbn [bind]. rewrite (plus1_ok L n HL H0 Hr). cbn [bind]. rewrite alloc_ok by lia. cbn [bind].
  destruct (Z.ltb_spec n 0); [lia|].
  set (xs := map (fun e => fst (fst e)) es).
  assert (HIn : forall i, In i (concat (ch_parts1 ch)) -> i < length es).
  { intros i Hi. apply (Permutation_in _ HP), in_seq in Hi. lia. }
  rewrite (mapM_mapM_ok _ (fun i => nth i xs 0%Z)).
  2:{ intros i Hi. apply cell_of_some. rewrite Ex, nth_error_map. apply HIn in Hi.
      destruct (nth_error es i) as [q|] eqn:Eq; [|apply nth_error_None in Eq; lia].
      cbn [option_map]. do 2 f_equal. symmetry. apply nth_error_nth. unfold xs. rewrite nth_error_map, Eq. reflexivity. }
  cbn [bind]. rewrite (run_ub (inc_exec O) (fun l => length l = Z.to_nat n) (fst (fst e))); [reflexivity| | | |apply repeat_length].
  - intros d l Hl. apply inc_step. exact Hl.
  - intros l Hl. unfold inc_exec. destruct ((0 <=? fst (fst e)) && (fst (fst e) <? Z.of_nat (length l)))%Z eqn:E; [|reflexivity].
    apply andb_prop in E as [E1 E2]. lia.
  - rewrite <- concat_map. apply in_map_iff. apply In_nth_error in He as (i & Hi). exists i. split.
    + apply nth_error_nth. unfold xs. rewrite nth_error_map, Hi. reflexivity.
    + apply (Permutation_in _ (Permutation_sym HP)), in_seq. split; [lia|]. cbn [Nat.add]. apply nth_error_Some. congruence.
Qed.

Lemma convert_neg_m {W} L O weighted (c : coo W) n ch : co_n c = Some n -> (co_m c < 0)%Z -> convert_coo L O weighted c ch = Throw EError.
Proof. intros Hn Hm. unfold convert_coo. rewrite Hn. unfold csr_alloc, alloc. destruct (Z.ltb_spec (co_m c) 0); [reflexivity|lia]. Qed.

Lemma convert_neg_n {W} L O weighted (c : coo W) n ch : is_ity L -> co_n c = Some n -> (0 <= co_m c)%Z -> (imin L <= n < 0)%Z ->
  convert_coo L O weighted c ch = Throw EError.
Proof.
  intros HL Hn Hm Hneg. unfold convert_coo. rewrite Hn. unfold csr_alloc. rewrite alloc_ok by lia. cbn [bind].
  set (ws0 := if weighted then _ else _).
  assert (Ews : exists ws, ws0 = Ok ws) by (unfold ws0; destruct weighted; [rewrite alloc_ok by lia|]; eauto).
  destruct Ews as (ws & ->). cbn [bind]. assert (E1 : plus1 L n = Ok (n + 1)%Z).
  { unfold plus1. destruct (ibits L <? 32)%Z; [reflexivity|]. apply arith_in; [exact HL|]. pose proof (imax_pos L HL). lia. }
  rewrite E1. cbn [bind]. unfold alloc. destruct (Z.ltb_spec (n + 1) 0); [reflexivity|]. cbn [bind].
  destruct (Z.ltb_spec n 0); [reflexivity|lia].
Qed.

Lemma wrap_mod t z : is_ity t -> (imin t <= wrap t z <= imax t)%Z /\ exists q, (wrap t z = z + q * 2 ^ ibits t)%Z.
Proof.
  intros Ht. assert (HB : (0 < 2 ^ ibits t)%Z /\ (2 ^ ibits t = 2 * 2 ^ (ibits t - 1))%Z).
  { unfold is_ity in Ht. cbn [In] in Ht. repeat (destruct Ht as [<-|Ht]; [split; reflexivity|]). contradiction. }
  destruct HB as (HB & H2). unfold wrap, imin, imax. destruct (isigned t).
  - pose proof (Z.mod_pos_bound (z + 2 ^ (ibits t - 1)) _ HB). split; [lia|].
    exists (- ((z + 2 ^ (ibits t - 1)) / 2 ^ ibits t))%Z. rewrite Z.mod_eq by lia. lia.
  - pose proof (Z.mod_pos_bound z _ HB). split; [lia|]. exists (- (z / 2 ^ ibits t))%Z. rewrite Z.mod_eq by lia. lia.
Qed.

Lemma row_as {W W'} (g : W -> W') (es : list (Z * Z * W)) v :
  row (map (fun e => (fst e, g (snd e))) es) v = map (fun p => (fst p, g (snd p))) (row es v).
Proof.
  unfold row. induction es as [|e es IH]; [reflexivity|]. cbn [map filter fst snd].
  destruct (fst (fst e) =? Z.of_nat v)%Z; cbn [map fst snd]; rewrite IH; reflexivity.
Qed.

(** ** CSR to COO *)
Definition pair_as {W W'} (L : ity) (g : W -> W') (p : Z * W) : Z * W' := (wrap L (fst p), g (snd p)).

Section SeenCsr.
  Context {W W' : Type}.
  Variables (L O : ity) (f : W -> option W') (g : W -> W').
  Variable weighted : bool.
  Variable c : csr W.
  Variable rows : list (list (Z * W)).
  Hypothesis HL : is_ity L.
  Hypothesis HO : is_ity O.
  Hypothesis Hrep : represents weighted c rows.
  Hypothesis Hw : weighted = true -> Forall (fun p => f (snd p) = Some (g (snd p))) (concat rows).

  Let rows' := map (map (pair_as L g)) rows.

  (** The CSR with converted endpoints and weights, but its own sizes. *)
  Definition csr_vals : csr W' :=
    mkCsr (cs_off c) (map (cast L) (cs_end c)) (map (cast_weight f) (cs_w c)) (cs_n c) (cs_m c) None None.

  Lemma concat_rows' : concat rows' = map (pair_as L g) (concat rows).
  Proof. unfold rows'. symmetry. apply concat_map. Qed.

  Lemma firstn_rows' v : length (concat (firstn v rows')) = length (concat (firstn v rows)).
  Proof. unfold rows'. rewrite firstn_map, <- concat_map, map_length. reflexivity. Qed.

  Lemma vals_represents : represents weighted csr_vals rows'.
  Proof.
    destruct Hrep as (E1 & E2 & E3 & E4 & E5). unfold represents, csr_vals. cbn [cs_n cs_m cs_off cs_end cs_w].
    rewrite concat_rows'. rewrite !map_length. assert (EL : length rows' = length rows) by (unfold rows'; apply map_length). rewrite EL. split; [exact E1|]. split; [exact E2|]. split; [|split].
    - rewrite E3. apply map_ext. intros v. rewrite firstn_rows'. reflexivity.
    - rewrite E4, !map_map. reflexivity.
    - intros Ew. rewrite (E5 Ew), !map_map. specialize (Hw Ew). apply map_ext_in. intros p Hp. cbn [cast_weight pair_as snd].
      rewrite Forall_forall in Hw. apply Hw. exact Hp.
  Qed.

  (** The stores of the rows do not depend on the sizes. *)
  Lemma progs_vals fl parts : csr_progs fl weighted (csr_as L O f c) parts = csr_progs fl weighted csr_vals parts.
  Proof.
    unfold csr_progs. apply mapM_ext_in. intros p _. f_equal. apply mapM_ext_in. intros v _. unfold csr_row.
    cbn [csr_as csr_vals cs_off]. apply bind_ext. intros s. apply bind_ext. intros e. apply bind_ext. intros k.
    generalize (Z.to_nat (e - s)). intros len. generalize (if f_sym fl && negb (f_ut fl) then 2 * k else k). intros pos.
    revert k pos. induction len as [|len IH]; intros k pos; [reflexivity|]. cbn [csr_row_loop csr_as csr_vals cs_end cs_w].
    apply bind_ext. intros y. apply bind_ext. intros w. rewrite IH. reflexivity.
  Qed.
End SeenCsr.

(** ** Fewer rows than the source has: a frame around the stores *)
Lemma cexec_more {W} (i : cinstr W) s s' xx yy ww : (forall a b, i <> CopyW a b) -> cexec i s = Ok s' ->
  cexec i (mkCst (cx s ++ xx) (cy s ++ yy) (cw s ++ ww)) = Ok (mkCst (cx s' ++ xx) (cy s' ++ yy) (cw s' ++ ww)).
Proof.
  assert (HA : forall {V} k (v : V) l l' ext, aset k v l = Ok l' -> aset k v (l ++ ext) = Ok (l' ++ ext)).
  { intros V k v l l' ext H. unfold aset in *. destruct (Nat.ltb_spec k (length l)) as [Hk|Hk]; [|discriminate]. injection H as <-.
    rewrite app_length. destruct (Nat.ltb_spec k (length l + length ext)); [|lia]. f_equal.
    clear H. revert k Hk. induction l as [|a l IH]; intros k H; cbn [length] in H; [lia|].
    destruct k as [|k]; cbn [upd app]; [reflexivity|]. rewrite IH by lia. reflexivity. }
  intros Hn H. destruct i as [k v|k v|k v|a b]; cbn [cexec cx cy cw] in *.
  - apply bind_ok_inv in H as (l' & E & H). injection H as <-. rewrite (HA _ _ _ _ _ _ E). reflexivity.
  - apply bind_ok_inv in H as (l' & E & H). injection H as <-. rewrite (HA _ _ _ _ _ _ E). reflexivity.
  - apply bind_ok_inv in H as (l' & E & H). injection H as <-. rewrite (HA _ _ _ _ _ _ E). reflexivity.
  - exfalso. eapply Hn; reflexivity.
Qed.

Lemma run_more {W} sched : forall (ps : list (list (cinstr W))) s s' xx yy ww,
  (forall a b, ~ In (CopyW a b) (concat ps)) -> run cexec sched ps s = Ok s' ->
  run cexec sched ps (mkCst (cx s ++ xx) (cy s ++ yy) (cw s ++ ww)) = Ok (mkCst (cx s' ++ xx) (cy s' ++ yy) (cw s' ++ ww)).
Proof.
  intros ps s s' xx yy ww HN H. destruct (run_merge cexec sched ps) as (l & HM & E). rewrite E in *. clear E.
  pose proof (merge_perm _ _ HM) as HP. assert (HN' : forall a b, ~ In (CopyW a b) l).
  { intros a b Hi. apply (HN a b), (Permutation_in _ HP). exact Hi. }
  clear HM HP HN. revert s H. induction l as [|i l IH]; intros s H; cbn [exec_all] in *; [injection H as <-; reflexivity|].
  apply bind_ok_inv in H as (s1 & E & H). rewrite (cexec_more i s s1) by (try exact E; intros a b ->; apply (HN' a b); left; reflexivity).
  cbn [bind]. apply IH; [|exact H]. intros a b Hi. apply (HN' a b). right; exact Hi.
Qed.

Lemma code_of_firstn {W} fl weighted (rows : list (list (Z * W))) k v : v < k -> v < length rows ->
  code_of fl weighted (firstn k rows) v = code_of fl weighted rows v.
Proof.
  intros Hk Hv. unfold code_of. rewrite firstn_firstn, Nat.min_l by lia.
  destruct (nth_error rows v) as [r|] eqn:E; [|apply nth_error_None in E; lia].
  rewrite (nth_error_nth _ _ [] E), (nth_error_nth (firstn k rows) v [] (x:=r)); [reflexivity|].
  rewrite nth_error_firstn_ by exact Hk. exact E.
Qed.

Section Rows.
  Context {W : Type}.
  Variable fl : flags.
  Variable weighted : bool.
  Hypothesis Hfl : f_sym fl = true \/ f_ut fl = false.
  Variable c : csr W.
  Variable rows : list (list (Z * W)).
  Hypothesis Hrep : represents weighted c rows.
  Notation X := (from_csr (f_sym fl) (f_ut fl)).

  Lemma progs_first parts k : k <= length rows -> Permutation (concat parts) (seq 0 k) ->
    csr_progs fl weighted c parts = Ok (progs fl weighted (firstn k rows) parts).
  Proof.
    intros Hk HP. unfold csr_progs, progs. apply mapM_ok. intros p Hp. rewrite (mapM_ok _ (code_of fl weighted (firstn k rows))); [reflexivity|].
    intros v Hv. assert (Hi : In v (seq 0 k)) by (apply (Permutation_in _ HP), in_concat; eauto). apply in_seq in Hi.
    rewrite code_of_firstn by lia. apply csr_row_ok; [exact Hrep|lia].
  Qed.

  (** Storing the first [k] rows into arrays with room for more. *)
  Lemma first_rows parts sched k N : k <= length rows -> Permutation (concat parts) (seq 0 k) ->
    let tgt := flat_map X (entries (firstn k rows)) in length tgt <= N ->
    exists s, run cexec sched (progs fl weighted (firstn k rows) parts)
        (mkCst (fresh N) (fresh N) (if weighted then fresh N else [])) = Ok s /\
      cx s = map (fun e => Some (fst (fst e))) tgt ++ fresh (N - length tgt) /\
      cy s = map (fun e => Some (snd (fst e))) tgt ++ fresh (N - length tgt) /\
      (weighted = true -> cw s = map (fun e => Some (snd e)) tgt ++ fresh (N - length tgt)).
  Proof.
    intros Hk HP tgt HN. assert (HP' : Permutation (concat parts) (seq 0 (length (firstn k rows)))) by (rewrite firstn_length, Nat.min_l by lia; exact HP).
    assert (HNC : forall a b, ~ In (CopyW a b) (concat (progs fl weighted (firstn k rows) parts))).
    { intros a b Hi. pose proof (progs_hits fl weighted Hfl (firstn k rows) parts HP') as HH. rewrite Forall_forall in HH. apply (HH _ Hi). }
    destruct (run_fill weighted tgt (progs fl weighted (firstn k rows) parts) sched
      (mkCst (fresh (length tgt)) (fresh (length tgt)) (if weighted then fresh (length tgt) else []))) as (s & E & E1 & E2 & E3).
    - apply progs_hits; assumption.
    - intros j Hj. pose proof (progs_race_free fl weighted Hfl (firstn k rows) parts HP') as (_ & HC & _).
      split; [|split].
      + apply (writes_set _ HNC (CX j)). apply HC. exact Hj.
      + apply (writes_set _ HNC (CY j)). apply HC. exact Hj.
      + intros Ew. apply (writes_set _ HNC (CW j)). apply HC. split; [exact Ew|exact Hj].
    - apply fresh_length.
    - apply fresh_length.
    - intros ->. apply fresh_length.
    - assert (EF : forall V, @fresh V N = fresh (length tgt) ++ fresh (N - length tgt)).
      { intros V. unfold fresh. rewrite <- repeat_app. f_equal. lia. }
      pose proof (run_more sched _ _ _ (fresh (N - length tgt)) (fresh (N - length tgt)) (if weighted then fresh (N - length tgt) else []) HNC E) as R.
      cbn [cx cy cw] in R. rewrite <- !EF in R. replace ((if weighted then fresh (length tgt) else []) ++ _) with (if weighted then @fresh W N else []) in R
        by (destruct weighted; [apply EF|reflexivity]).
      eexists. split; [exact R|]. cbn [cx cy cw]. rewrite E1, E2. split; [reflexivity|]. split; [reflexivity|].
      intros Ew. rewrite (E3 Ew), Ew. reflexivity.
  Qed.

  (** Too little room. *)
  Lemma rows_too_many parts sched k N : k <= length rows -> Permutation (concat parts) (seq 0 k) ->
    N < length (flat_map X (entries (firstn k rows))) ->
    run cexec sched (progs fl weighted (firstn k rows) parts) (mkCst (fresh N) (fresh N) (if weighted then fresh N else [])) = UB.
  Proof.
    intros Hk HP HN. assert (HP' : Permutation (concat parts) (seq 0 (length (firstn k rows)))) by (rewrite firstn_length, Nat.min_l by lia; exact HP).
    assert (HNC : forall a b, ~ In (CopyW a b) (concat (progs fl weighted (firstn k rows) parts))).
    { intros a b Hi. pose proof (progs_hits fl weighted Hfl (firstn k rows) parts HP') as HH. rewrite Forall_forall in HH. apply (HH _ Hi). }
    pose proof (progs_race_free fl weighted Hfl (firstn k rows) parts HP') as (_ & HC & _).
    destruct (writes_set _ HNC (CX N)) as (v & Hv); [apply HC; exact HN|].
    apply (run_ub cexec (fun s => length (cx s) = N) (SetX N v)); [| |exact Hv|apply fresh_length].
    - intros i s Hs. destruct i as [j u|j u|j u|a b]; cbn [cexec]; unfold aset, aget.
      + destruct (j <? length (cx s)); [right|left; reflexivity]. cbn [bind]. eexists. split; [reflexivity|]. cbn [cx]. rewrite upd_length. exact Hs.
      + destruct (j <? length (cy s)); [right|left; reflexivity]. cbn [bind]. eexists. split; [reflexivity|]. exact Hs.
      + destruct (j <? length (cw s)); [right|left; reflexivity]. cbn [bind]. eexists. split; [reflexivity|]. exact Hs.
      + destruct (nth_error (cw s) a); [|left; reflexivity]. cbn [bind]. destruct (b <? length (cw s)); [right|left; reflexivity].
        eexists. split; [reflexivity|]. exact Hs.
    - intros s Hs. cbn [cexec]. unfold aset. destruct (Nat.ltb_spec N (length (cx s))); [lia|]. reflexivity.
  Qed.
End Rows.
