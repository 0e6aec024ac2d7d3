(** * CsrSort: [sort] and [new_csr_without_dups] *)

From Coq Require Import Permutation Sorted.
From Verif Require Import Base Sched SchedLemmas SchedMore Coo Ascii Csr ElSpec SpecText SpecCsr CsrLemmas CsrScatter CsrMain CsrBack.

Lemma mapM_cells {V} (r : list V) : forall A B, mapM (fun k => cell_of k (map Some (A ++ r ++ B))) (seq (length A) (length r)) = Ok r.
Proof.
  induction r as [|a r IH]; intros A B; cbn [length seq mapM]; [reflexivity|].
  rewrite (cell_of_some _ _ a) by (rewrite nth_error_map, nth_error_app2, Nat.sub_diag by lia; reflexivity). cbn [bind].
  specialize (IH (A ++ [a]) B). rewrite app_length, Nat.add_1_r, <- app_assoc in IH. cbn [app] in IH. cbn [app]. rewrite IH. reflexivity.
Qed.

Lemma set_range_ok {V} (vs : list V) : forall A old B, length old = length vs ->
  set_range (length A) vs (A ++ old ++ B) = Ok (A ++ map Some vs ++ B).
Proof.
  induction vs as [|v vs IH]; intros A old B Hl; cbn [set_range map].
  - destruct old; [reflexivity|discriminate].
  - destruct old as [|o old]; [discriminate|]. cbn [app]. unfold aset at 1. rewrite app_length. cbn [length].
    destruct (Nat.ltb_spec (length A) (length A + S (length (old ++ B)))); [|lia]. cbn [bind]. rewrite upd_mid.
    specialize (IH (A ++ [Some v]) old B). rewrite app_length, Nat.add_1_r, <- !app_assoc in IH. cbn [app] in IH. apply IH.
    cbn [length] in Hl. lia.
Qed.

Section Sort.
  Context {W : Type}.
  Variable srt : list (Z * W) -> list (Z * W).
  Variable srt1 : list Z -> list Z.
  Hypothesis Hsrt : forall l, Permutation (srt l) l.
  Hypothesis Hsrt1 : forall l, Permutation (srt1 l) l.
  Variable weighted : bool.
  Definition sorted_row (r : list (Z * W)) : list (Z * W) :=
    if weighted then srt r else combine (srt1 (map fst r)) (map snd r).

  Lemma combine_fst {A B} (a : list A) (b : list B) : length a = length b -> map fst (combine a b) = a.
  Proof. revert b; induction a as [|x a IH]; intros [|y b] H; cbn in *; try discriminate; [reflexivity|]. f_equal. apply IH. lia. Qed.

  Lemma combine_self {A B} (l : list (A * B)) : combine (map fst l) (map snd l) = l.
  Proof. induction l as [|[a b] l IH]; cbn; [reflexivity|]. f_equal. exact IH. Qed.

  Lemma srt1_len r : length (srt1 (map fst r)) = length (map (@snd Z W) r).
  Proof. rewrite (Permutation_length (Hsrt1 _)), !map_length. reflexivity. Qed.

  Lemma sorted_row_len r : length (sorted_row r) = length r.
  Proof.
    unfold sorted_row. destruct weighted; [apply Permutation_length, Hsrt|]. rewrite combine_length, srt1_len, map_length. lia.
  Qed.

  Variable c : csr W.
  Variable rows : list (list (Z * W)).
  Hypothesis Hrep : represents weighted c rows.

  Definition enc (rs : list (list (Z * W))) : list (option Z) * list (option W) :=
    (map Some (map fst (concat rs)), if weighted then map Some (map snd (concat rs)) else cs_w c).

  Lemma sort_step rs v : map (@length _) rs = map (@length _) rows -> v < length rows ->
    sort_exec srt srt1 weighted (cs_off c) v (enc rs) = Ok (enc (upd v (sorted_row (nth v rs [])) rs)).
  Proof.
    intros HL Hv. unfold sort_exec, row_range.
    rewrite (cell_off weighted c rows Hrep v) by lia. cbn [bind]. rewrite (cell_off weighted c rows Hrep (S v)) by lia. cbn [bind].
    unfold idx. destruct (Z.ltb_spec (Z.of_nat (length (concat (firstn v rows)))) 0); [lia|]. cbn [bind]. rewrite Nat2Z.id.
    assert (HLf : forall k, length (concat (firstn k rows)) = length (concat (firstn k rs))).
    { clear -HL. revert rs HL. induction rows as [|r rows' IH]; intros [|r' rs] HL k; cbn [map] in HL; try discriminate; [reflexivity|].
      destruct k; [reflexivity|]. injection HL as H1 H2. cbn [firstn concat]. rewrite !app_length, (IH _ H2). lia. }
    rewrite !HLf.
    assert (Hlr : length rs = length rows) by (rewrite <- (map_length (@length _) rs), HL, map_length; reflexivity).
    destruct (nth_error rs v) as [r|] eqn:Er; [|apply nth_error_None in Er; lia].
    rewrite (concat_split_len _ _ _ Er). rewrite (nth_error_nth _ _ [] Er).
    apply nth_error_split in Er as (a & b & -> & Ea).
    assert (EF : firstn v (a ++ r :: b) = a) by (rewrite <- Ea, firstn_app, firstn_all, Nat.sub_diag; apply app_nil_r).
    rewrite EF. replace (Z.to_nat _) with (length r) by lia.
    unfold enc. cbn [fst snd]. rewrite <- Ea, upd_mid. rewrite !concat_app. cbn [concat]. rewrite !map_app.
    unfold get_range.
    assert (LA : length (concat a) = length (map fst (concat a))) by (rewrite map_length; reflexivity).
    assert (LB : length (concat a) = length (map snd (concat a))) by (rewrite map_length; reflexivity).
    rewrite <- !(map_app Some).
    assert (Lr : length r = length (map fst r)) by (rewrite map_length; reflexivity).
    assert (Lw : length r = length (map snd r)) by (rewrite map_length; reflexivity).
    pose proof (mapM_cells (map fst r) (map fst (concat a)) (map fst (concat b))) as G1. rewrite <- LA, <- Lr in G1. rewrite G1. cbn [bind].
    pose proof (mapM_cells (map snd r) (map snd (concat a)) (map snd (concat b))) as G2. rewrite <- LB, <- Lw in G2.
    rewrite !map_app. pose proof (sorted_row_len r) as HSL. unfold sorted_row in *. destruct weighted.
    - rewrite <- !(map_app Some). rewrite G2. cbn [bind]. rewrite combine_self. rewrite !map_app.
      pose proof (set_range_ok (map fst (srt r)) (map Some (map fst (concat a))) (map Some (map fst r)) (map Some (map fst (concat b)))) as S1.
      rewrite !map_length in S1. rewrite S1 by (symmetry; exact HSL). cbn [bind].
      pose proof (set_range_ok (map snd (srt r)) (map Some (map snd (concat a))) (map Some (map snd r)) (map Some (map snd (concat b)))) as S2.
      rewrite !map_length in S2. rewrite S2 by (symmetry; exact HSL). cbn [bind]. reflexivity.
    - pose proof (set_range_ok (srt1 (map fst r)) (map Some (map fst (concat a))) (map Some (map fst r)) (map Some (map fst (concat b)))) as S1.
      rewrite !map_length in S1. rewrite S1 by (rewrite (Permutation_length (Hsrt1 _)), map_length; reflexivity). cbn [bind].
      rewrite combine_fst by apply srt1_len. reflexivity.
  Qed.

  Lemma sort_run q : forall rs, NoDup q -> Forall (fun v => v < length rows) q -> map (@length _) rs = map (@length _) rows ->
    exists rs', exec_all (sort_exec srt srt1 weighted (cs_off c)) q (enc rs) = Ok (enc rs') /\ length rs' = length rs /\
      (forall v, In v q -> nth_error rs' v = option_map sorted_row (nth_error rs v)) /\
      (forall v, ~ In v q -> nth_error rs' v = nth_error rs v).
  Proof.
    induction q as [|v q IH]; intros rs HN HF HL; cbn [exec_all].
    - exists rs. split; [reflexivity|]. split; [reflexivity|]. split; [intros v []|reflexivity].
    - inversion HN as [|? ? Hv HN']; inversion HF as [|? ? Hlt HF']; subst. rewrite sort_step by assumption. cbn [bind].
      assert (Hlr : length rs = length rows) by (rewrite <- (map_length (@length _) rs), HL, map_length; reflexivity).
      assert (Er : nth_error rs v = Some (nth v rs [])) by (apply nth_error_nth'; lia).
      destruct (IH (upd v (sorted_row (nth v rs [])) rs) HN' HF') as (rs' & E & HL' & H1 & H2).
      + rewrite <- HL. apply nth_error_ext_all; [rewrite !map_length, upd_length; reflexivity|].
        intros i Hi. rewrite map_length, upd_length in Hi. rewrite !nth_error_map. destruct (Nat.eq_dec v i) as [<-|Hne].
        * rewrite nth_error_upd_eq by lia. rewrite Er. cbn [option_map]. rewrite sorted_row_len. reflexivity.
        * rewrite nth_error_upd_ne by exact Hne. reflexivity.
      + exists rs'. split; [exact E|]. rewrite upd_length in HL'. split; [exact HL'|]. split.
        * intros i [<-|Hi].
          -- rewrite H2 by exact Hv. rewrite nth_error_upd_eq by lia. rewrite Er. reflexivity.
          -- rewrite H1 by exact Hi. rewrite nth_error_upd_ne; [reflexivity|]. intros ->; contradiction.
        * intros i Hi. cbn [In] in Hi. rewrite H2 by tauto. apply nth_error_upd_ne. tauto.
  Qed.

  Lemma sort_ok parts sched : Permutation (concat parts) (seq 0 (length rows)) ->
    exists r, csr_sort srt srt1 weighted c parts sched = Ok r /\ represents weighted r (map sorted_row rows) /\
      cs_off r = cs_off c /\ cs_n r = cs_n c /\ cs_m r = cs_m c /\ cs_nrows r = cs_nrows c /\ cs_ncols r = cs_ncols c.
  Proof.
    intros HP. unfold csr_sort.
    destruct (run_merge (sort_exec srt srt1 weighted (cs_off c)) sched parts) as (l & HM & ->). pose proof (merge_perm _ _ HM) as HL.
    assert (HLs : Permutation l (seq 0 (length rows))) by (rewrite HL; exact HP).
    destruct Hrep as (Rn & Rm & Ro & Re & Rw).
    assert (Einit : (cs_end c, cs_w c) = enc rows).
    { unfold enc. rewrite Re, map_map. f_equal. destruct weighted; [|reflexivity]. rewrite Rw by reflexivity. rewrite map_map. reflexivity. }
    rewrite Einit. destruct (sort_run l rows) as (rs' & E & HLen & H1 & _).
    - eapply Permutation_NoDup; [apply Permutation_sym, HLs|apply seq_NoDup].
    - apply Forall_forall. intros v Hv. apply (Permutation_in _ HLs), in_seq in Hv. lia.
    - reflexivity.
    - rewrite E. cbn [bind]. eexists. split; [reflexivity|].
      assert (ER : rs' = map sorted_row rows).
      { apply nth_error_ext_all; [rewrite map_length; exact HLen|]. intros i Hi. rewrite nth_error_map. apply H1.
        apply (Permutation_in _ (Permutation_sym HLs)), in_seq. lia. }
      subst rs'. unfold represents, enc. cbn [cs_n cs_m cs_off cs_end cs_w cs_nrows cs_ncols fst snd].
      assert (HLf : forall k, length (concat (firstn k (map sorted_row rows))) = length (concat (firstn k rows))).
      { clear -Hsrt Hsrt1. induction rows as [|r rows' IH]; intros [|k]; cbn [map firstn concat]; try reflexivity.
        rewrite !app_length, sorted_row_len, IH. reflexivity. }
      split; [|repeat split; reflexivity].
      split; [rewrite map_length; exact Rn|]. split.
      { rewrite <- (firstn_all (map sorted_row rows)), HLf, map_length, firstn_all. exact Rm. }
      split; [rewrite Ro, map_length; apply map_ext; intros v; rewrite HLf; reflexivity|].
      split; [apply map_map|]. intros ->. apply map_map.
  Qed.
End Sort.

(** ** Runs *)
Section Runs.
  Context {W : Type}.

  (** The first pair of every run of equal endpoints. *)
  Fixpoint heads (p : option Z) (r : list (Z * W)) : list (Z * W) :=
    match r with
    | [] => []
    | q :: r' => if (match p with None => false | Some a => (a =? fst q)%Z end) then heads p r' else q :: heads (Some (fst q)) r'
    end.

  Lemma heads_incl r : forall p, incl (heads p r) r.
  Proof.
    induction r as [|q r IH]; intros p x Hx; cbn [heads] in Hx; [destruct Hx|].
    destruct (match p with None => false | Some a => (a =? fst q)%Z end).
    - right. eapply IH; exact Hx.
    - destruct Hx as [<-|Hx]; [left; reflexivity|right; eapply IH; exact Hx].
  Qed.

  Definition lower (p : option Z) (z : Z) : Prop := match p with None => True | Some a => (a < z)%Z end.
  Definition lower_eq (p : option Z) (z : Z) : Prop := match p with None => True | Some a => (a <= z)%Z end.

  Lemma heads_sorted r : forall p, ascending r -> Forall (fun q => lower_eq p (fst q)) r ->
    strictly_ascending (heads p r) /\ Forall (fun q => lower p (fst q)) (heads p r).
  Proof.
    induction r as [|q r IH]; intros p HA HL; cbn [heads]; [split; constructor|].
    inversion HA as [|? ? HA' HF]; inversion HL as [|? ? Hq HL']; subst.
    assert (HQ : Forall (fun x => lower_eq (Some (fst q)) (fst x)) r).
    { apply Forall_forall. intros x Hx. rewrite Forall_forall in HF. apply HF. apply in_map; exact Hx. }
    destruct p as [a|].
    - cbn [lower_eq] in Hq. destruct (Z.eqb_spec a (fst q)) as [->|Hne].
      + apply IH; [exact HA'|]. exact HQ.
      + destruct (IH (Some (fst q)) HA' HQ) as [H1 H2]. split.
        * unfold strictly_ascending in *. cbn [map]. constructor; [exact H1|]. apply Forall_forall. intros z Hz. apply in_map_iff in Hz as (x & <- & Hx).
          rewrite Forall_forall in H2. apply (H2 x Hx).
        * constructor; [cbn; lia|]. eapply Forall_impl; [|exact H2]. cbn [lower]. intros x Hx. lia.
    - destruct (IH (Some (fst q)) HA' HQ) as [H1 H2]. split.
      + unfold strictly_ascending in *. cbn [map]. constructor; [exact H1|]. apply Forall_forall. intros z Hz. apply in_map_iff in Hz as (x & <- & Hx).
        rewrite Forall_forall in H2. apply (H2 x Hx).
      + constructor; [exact I|]. apply Forall_forall. intros x _. exact I.
  Qed.

  Lemma heads_same r : forall p y, In y (map fst r) -> p = Some y \/ In y (map fst (heads p r)).
  Proof.
    induction r as [|q r IH]; intros p y Hy; cbn [map] in Hy; [destruct Hy|]. cbn [heads].
    destruct p as [a|].
    - destruct (Z.eqb_spec a (fst q)) as [->|Hne].
      + destruct Hy as [<-|Hy]; [left; reflexivity|]. apply IH; exact Hy.
      + right. cbn [map]. destruct Hy as [<-|Hy]; [left; reflexivity|]. destruct (IH (Some (fst q)) y Hy) as [H|H]; [left; congruence|right; exact H].
    - right. cbn [map]. destruct Hy as [<-|Hy]; [left; reflexivity|]. destruct (IH (Some (fst q)) y Hy) as [H|H]; [left; congruence|right; exact H].
  Qed.

  Lemma heads_first r : forall p, ascending r -> Forall (fun q => lower_eq p (fst q)) r ->
    forall x, In x (heads p r) -> exists a b, r = a ++ x :: b /\ ~ In (fst x) (map fst a).
  Proof.
    induction r as [|q r IH]; intros p HA HL x Hx; cbn [heads] in Hx; [destruct Hx|].
    inversion HA as [|? ? HA' HF]; inversion HL as [|? ? Hq HL']; subst.
    assert (HQ : Forall (fun x => lower_eq (Some (fst q)) (fst x)) r).
    { apply Forall_forall. intros z Hz. rewrite Forall_forall in HF. apply HF. apply in_map; exact Hz. }
    assert (HR : In x (heads (Some (fst q)) r) -> exists a b, q :: r = a ++ x :: b /\ ~ In (fst x) (map fst a)).
    { intros Hi. pose proof (heads_sorted r (Some (fst q)) HA' HQ) as [_ H2]. rewrite Forall_forall in H2. specialize (H2 x Hi). cbn in H2.
      destruct (IH (Some (fst q)) HA' HQ x Hi) as (a & b & -> & Ha).
      exists (q :: a), b. split; [reflexivity|]. cbn [map]. intros [H|H]; [lia|contradiction]. }
    destruct p as [a|].
    - destruct (Z.eqb_spec a (fst q)) as [->|Hne]; [apply HR; exact Hx|].
      destruct Hx as [<-|Hx]; [exists [], r; split; [reflexivity|intros []]|apply HR; exact Hx].
    - destruct Hx as [<-|Hx]; [exists [], r; split; [reflexivity|intros []]|apply HR; exact Hx].
  Qed.

  (** A strictly increasing list of labels below [b] has at most [b] elements. *)
  Lemma strict_len (l : list Z) : forall lo b, StronglySorted Z.lt l -> Forall (fun z => lo <= z < b)%Z l -> (Z.of_nat (length l) <= Z.max 0 (b - lo))%Z.
  Proof.
    induction l as [|z l IH]; intros lo b HS HF; cbn [length]; [lia|].
    inversion HS as [|? ? HS' HL]; inversion HF as [|? ? Hz HF']; subst.
    assert (Z.of_nat (length l) <= Z.max 0 (b - (z + 1)))%Z; [|lia]. apply IH; [exact HS'|].
    apply Forall_forall. intros x Hx. rewrite Forall_forall in HL, HF'. specialize (HL x Hx). specialize (HF' x Hx). lia.
  Qed.

  Lemma count_runs_ok L (HL : is_ity L) r : forall prev deg, (0 <= deg)%Z -> (deg + Z.of_nat (length (heads (Some prev) r)) <= imax L)%Z ->
    count_runs L prev deg (map fst r) = Ok (deg + Z.of_nat (length (heads (Some prev) r)))%Z.
  Proof.
    induction r as [|q r IH]; intros prev deg H0 Hm; cbn [map count_runs heads] in *; [f_equal; cbn; lia|].
    rewrite (Z.eqb_sym (fst q) prev). destruct (prev =? fst q)%Z.
    - apply IH; assumption.
    - cbn [length] in *. rewrite arith_small by (assumption || lia). cbn [bind]. rewrite IH by lia. f_equal. lia.
  Qed.
End Runs.

Section Dups.
  Context {W : Type}.
  Variable weighted : bool.
  Variables L O : ity.
  Hypothesis HL : is_ity L.
  Hypothesis HO : is_ity O.
  Variable c : csr W.
  Variable rows : list (list (Z * W)).
  Hypothesis Hrep : represents weighted c rows.
  Hypothesis Hdeg : Forall (fun r => (Z.of_nat (length (heads None r)) <= imax L)%Z) rows.
  Hypothesis Hm : (Z.of_nat (length (concat rows)) <= imax O)%Z.
  Notation drows := (map (heads None) rows).

  Lemma heads_len_le p (r : list (Z * W)) : length (heads p r) <= length r.
  Proof. revert p; induction r as [|q r IH]; intros p; cbn [heads length]; [lia|]. destruct (match p with None => false | Some a => (a =? fst q)%Z end); cbn [length]; [specialize (IH p)|specialize (IH (Some (fst q)))]; lia. Qed.

  Lemma drows_len_le : length (concat drows) <= length (concat rows).
  Proof. clear. induction rows as [|r rs IH]; cbn [map concat]; [lia|]. rewrite !app_length. pose proof (heads_len_le None r). lia. Qed.

  Lemma ends_split v r : nth_error rows v = Some r ->
    exists A B, cs_end c = map Some (map fst A ++ map fst r ++ map fst B) /\ length A = length (concat (firstn v rows)) /\
      concat rows = A ++ r ++ B.
  Proof.
    intros H. destruct Hrep as (_ & _ & _ & HE & _). apply nth_error_split in H as (a & b & Er & Ea).
    assert (EC : concat rows = concat a ++ r ++ concat b) by (rewrite Er, concat_app; reflexivity).
    assert (EF : firstn v rows = a) by (rewrite Er, <- Ea, firstn_app, firstn_all, Nat.sub_diag; cbn [firstn]; apply app_nil_r).
    exists (concat a), (concat b). rewrite EF. split; [|auto].
    rewrite HE, EC, <- !map_app, map_map. reflexivity.
  Qed.

  Lemma off_cells v r : nth_error rows v = Some r ->
    cell_of v (cs_off c) = Ok (Z.of_nat (length (concat (firstn v rows)))) /\
    cell_of (S v) (cs_off c) = Ok (Z.of_nat (length (concat (firstn v rows))) + Z.of_nat (length r))%Z.
  Proof.
    intros H. assert (v < length rows) by (apply nth_error_Some; congruence).
    rewrite !(cell_off weighted c rows Hrep) by lia. rewrite (concat_split_len _ _ _ H). split; [reflexivity|f_equal; lia].
  Qed.

  Lemma row_deg_ok v r : nth_error rows v = Some r -> row_deg L c v = Ok (Z.of_nat (length (heads None r))).
  Proof.
    intros H. destruct (off_cells v r H) as [E1 E2]. unfold row_deg. rewrite E1, E2. cbn [bind].
    destruct (ends_split v r H) as (A & B & EE & EA & _). rewrite <- EA.
    destruct r as [|q r].
    - cbn [length]. destruct (Z.eqb_spec (Z.of_nat (length A) + Z.of_nat 0 - Z.of_nat (length A)) 0); [reflexivity|lia].
    - destruct (Z.eqb_spec (Z.of_nat (length A) + Z.of_nat (length (q :: r)) - Z.of_nat (length A)) 0) as [E|_]; [cbn [length] in E; lia|].
      destruct (Z.ltb_spec (Z.of_nat (length A) + Z.of_nat (length (q :: r))) (Z.of_nat (length A))); [lia|].
      unfold idx. destruct (Z.ltb_spec (Z.of_nat (length A)) 0); [lia|]. cbn [bind]. rewrite Nat2Z.id.
      replace (Z.to_nat _) with (length (map fst (q :: r))) by (rewrite map_length; lia).
      unfold get_range. rewrite EE. pose proof (mapM_cells (map fst (q :: r)) (map fst A) (map fst B)) as G. rewrite (map_length fst A) in G.
      rewrite G. cbn [bind map]. rewrite Forall_forall in Hdeg. pose proof (Hdeg _ (nth_error_In _ _ H)) as Hd. cbn [heads length] in Hd.
      cbn [heads length]. rewrite count_runs_ok by (assumption || lia). f_equal. lia.
  Qed.

  (** The stores for the heads of a row. *)
  Fixpoint head_code (l : list (Z * W)) (cur : nat) : list rinstr :=
    match l with
    | [] => []
    | q :: l' => (if weighted then [REnd cur (fst q); RWgt cur (snd q)] else [REnd cur (fst q)]) ++ head_code l' (S cur)
    end.

  Lemma copy_runs_ok r : forall p A B cur, concat rows = A ++ r ++ B ->
    copy_runs weighted c p (length r) (length A) cur = Ok (head_code (heads p r) cur).
  Proof.
    induction r as [|q r IH]; intros p A B cur E; cbn [length copy_runs heads head_code]; [reflexivity|].
    destruct Hrep as (_ & _ & _ & HE & HW).
    assert (N0 : nth_error (concat rows) (length A) = Some q).
    { rewrite E, nth_error_app2, Nat.sub_diag by lia. reflexivity. }
    assert (EY : cell_of (length A) (cs_end c) = Ok (fst q)) by (rewrite HE; apply (cell_of_map (fun p => fst p) _ _ _ N0)).
    rewrite EY. cbn [bind].
    assert (EI : concat rows = (A ++ [q]) ++ r ++ B) by (rewrite E, <- app_assoc; reflexivity).
    assert (EL : S (length A) = length (A ++ [q])) by (rewrite app_length; cbn; lia).
    rewrite EL. destruct (match p with None => false | Some a => (a =? fst q)%Z end).
    - eapply IH; exact EI.
    - set (code := if weighted then _ else _).
      assert (Ec : code = Ok (if weighted then [REnd cur (fst q); RWgt cur (snd q)] else [REnd cur (fst q)])).
      { unfold code. destruct weighted; [|reflexivity]. rewrite HW by reflexivity. rewrite (cell_of_map (fun p => snd p) _ _ _ N0). reflexivity. }
      rewrite Ec. cbn [bind]. rewrite (IH _ _ _ _ EI). reflexivity.
  Qed.

  Definition dcode (v : nat) : list rinstr := head_code (nth v drows []) (length (concat (firstn v drows))).

  Lemma copy_row_ok off v r : nth_error rows v = Some r ->
    cell_of v off = Ok (Z.of_nat (length (concat (firstn v drows)))) ->
    copy_row weighted c off v = Ok (dcode v).
  Proof.
    intros H Ho. destruct (off_cells v r H) as [E1 E2]. unfold copy_row. rewrite E1, E2. cbn [bind].
    destruct (ends_split v r H) as (A & B & _ & EA & EC). rewrite <- EA.
    assert (Ed : nth v drows [] = heads None r) by (apply nth_error_nth; rewrite nth_error_map, H; reflexivity).
    unfold dcode. rewrite Ed. destruct r as [|q r].
    - cbn [length]. destruct (Z.eqb_spec (Z.of_nat (length A) + Z.of_nat 0 - Z.of_nat (length A)) 0); [reflexivity|lia].
    - destruct (Z.eqb_spec (Z.of_nat (length A) + Z.of_nat (length (q :: r)) - Z.of_nat (length A)) 0) as [E|_]; [cbn [length] in E; lia|].
      destruct (Z.ltb_spec (Z.of_nat (length A) + Z.of_nat (length (q :: r))) (Z.of_nat (length A))); [lia|].
      unfold idx. destruct (Z.ltb_spec (Z.of_nat (length A)) 0); [lia|]. cbn [bind]. rewrite Ho. cbn [bind].
      destruct (Z.ltb_spec (Z.of_nat (length (concat (firstn v drows)))) 0); [lia|]. cbn [bind]. rewrite !Nat2Z.id.
      replace (Z.to_nat _) with (length (q :: r)) by lia. eapply copy_runs_ok; exact EC.
  Qed.

  (** ** Filling the new arrays *)
  Definition rhits (tgt : list (Z * W)) (i : rinstr) : Prop :=
    match i with
    | REnd k v => nth_error (map fst tgt) k = Some v
    | RWgt k v => weighted = true /\ nth_error (map snd tgt) k = Some v
    end.

  Lemma head_hits l : forall A B tgt, tgt = A ++ l ++ B -> Forall (rhits tgt) (head_code l (length A)).
  Proof.
    induction l as [|q l IH]; intros A B tgt Et; cbn [head_code]; [constructor|].
    assert (N0 : forall {U} (f : Z * W -> U), nth_error (map f tgt) (length A) = Some (f q)).
    { intros U f. rewrite Et, nth_error_map, nth_error_app2, Nat.sub_diag by lia. reflexivity. }
    apply Forall_app. split.
    - destruct weighted eqn:Ew.
      + constructor; [apply N0|]. constructor; [|constructor]. split; [first [reflexivity|exact Ew]|apply N0].
      + constructor; [apply N0|constructor].
    - specialize (IH (A ++ [q]) B tgt). rewrite app_length, Nat.add_1_r in IH. apply IH. rewrite Et, <- app_assoc. reflexivity.
  Qed.

  Lemma head_covers l : forall cur k, cur <= k < cur + length l ->
    (exists v, In (REnd k v) (head_code l cur)) /\ (weighted = true -> exists v, In (RWgt k v) (head_code l cur)).
  Proof.
    induction l as [|q l IH]; intros cur k Hk; cbn [length] in Hk; [lia|]. cbn [head_code].
    destruct (Nat.eq_dec k cur) as [->|Hne].
    - split.
      + exists (fst q). apply in_or_app; left. destruct weighted; left; reflexivity.
      + intros ->. exists (snd q). apply in_or_app; left. right; left; reflexivity.
    - destruct (IH (S cur) k ltac:(lia)) as [(v & Hv) HW]. split.
      + exists v. apply in_or_app; right; exact Hv.
      + intros Ew. destruct (HW Ew) as (w & Hw). exists w. apply in_or_app; right; exact Hw.
  Qed.

  Lemma rfill (tgt : list (Z * W)) q : forall p s, Forall (rhits tgt) q ->
    (filled (map fst tgt) (fst s) (fun k => exists v, In (REnd k v) p) /\
     (weighted = true -> filled (map snd tgt) (snd s) (fun k => exists v, In (RWgt k v) p))) ->
    exists s', exec_all rexec q s = Ok s' /\
      filled (map fst tgt) (fst s') (fun k => exists v, In (REnd k v) (p ++ q)) /\
      (weighted = true -> filled (map snd tgt) (snd s') (fun k => exists v, In (RWgt k v) (p ++ q))).
  Proof.
    induction q as [|i q IH]; intros p s HF [F1 F2]; cbn [exec_all].
    - exists s. rewrite app_nil_r. auto.
    - inversion HF as [|? ? Hi HF']; subst.
      assert (G : exists s1, rexec i s = Ok s1 /\ filled (map fst tgt) (fst s1) (fun k => exists v, In (REnd k v) (p ++ [i])) /\
        (weighted = true -> filled (map snd tgt) (snd s1) (fun k => exists v, In (RWgt k v) (p ++ [i])))).
      { destruct i as [k v|k v]; cbn [rhits rexec] in *.
        - destruct (filled_set _ _ _ _ _ F1 Hi) as (x' & -> & F'). cbn [bind]. eexists. split; [reflexivity|]. cbn [fst snd]. split.
          + eapply filled_mono; [exact F'|]. intros j (u & Hu). apply in_app_or in Hu as [Hu|[Hu|[]]]; [left; eauto|right; congruence].
          + intros Ew. eapply filled_mono; [exact (F2 Ew)|]. intros j (u & Hu). apply in_app_or in Hu as [Hu|[Hu|[]]]; [eauto|discriminate].
        - destruct Hi as [Ew Hi]. destruct (filled_set _ _ _ _ _ (F2 Ew) Hi) as (x' & -> & F'). cbn [bind]. eexists. split; [reflexivity|]. cbn [fst snd]. split.
          + eapply filled_mono; [exact F1|]. intros j (u & Hu). apply in_app_or in Hu as [Hu|[Hu|[]]]; [eauto|discriminate].
          + intros _. eapply filled_mono; [exact F'|]. intros j (u & Hu). apply in_app_or in Hu as [Hu|[Hu|[]]]; [left; eauto|right; congruence]. }
      destruct G as (s1 & -> & G1). cbn [bind]. destruct (IH (p ++ [i]) s1 HF' G1) as (s2 & E & G2). exists s2. rewrite <- app_assoc in G2. auto.
  Qed.

  Lemma run_rfill (tgt : list (Z * W)) ps sched s0 : Forall (rhits tgt) (concat ps) ->
    (forall k, k < length tgt -> (exists v, In (REnd k v) (concat ps)) /\ (weighted = true -> exists v, In (RWgt k v) (concat ps))) ->
    length (fst s0) = length tgt -> (weighted = true -> length (snd s0) = length tgt) ->
    exists s, run rexec sched ps s0 = Ok s /\ fst s = map (fun p => Some (fst p)) tgt /\
      (weighted = true -> snd s = map (fun p => Some (snd p)) tgt).
  Proof.
    intros HF HA H1 H2. destruct (run_merge rexec sched ps) as (l & HM & ->). pose proof (merge_perm _ _ HM) as HP.
    assert (HIn : forall i, In i (concat ps) -> In i l) by (intros i; apply (Permutation_in _ (Permutation_sym HP))).
    destruct (rfill tgt l [] s0) as (s & E & F1 & F2).
    - apply Forall_forall. intros i Hi. rewrite Forall_forall in HF. apply HF. apply (Permutation_in _ HP); exact Hi.
    - split; [|intros Ew]; (split; [rewrite map_length; auto|intros k v (u & [])]).
    - exists s. split; [exact E|]. cbn [app] in *. rewrite (filled_all _ _ _ F1).
      + rewrite map_map. split; [reflexivity|]. intros Ew. rewrite (filled_all _ _ _ (F2 Ew)).
        * rewrite map_map. reflexivity.
        * intros k Hk. rewrite map_length in Hk. destruct (HA k Hk) as (_ & HW). destruct (HW Ew) as (v & Hv). eauto.
      + intros k Hk. rewrite map_length in Hk. destruct (HA k Hk) as ((v & Hv) & _). eauto.
  Qed.

  Lemma dcodes_ok parts : Permutation (concat parts) (seq 0 (length rows)) ->
    Forall (rhits (concat drows)) (concat (map (fun p => concat (map dcode p)) parts)) /\
    (forall k, k < length (concat drows) -> (exists v, In (REnd k v) (concat (map (fun p => concat (map dcode p)) parts))) /\
       (weighted = true -> exists v, In (RWgt k v) (concat (map (fun p => concat (map dcode p)) parts)))).
  Proof.
    intros HP.
    assert (EC : concat (map (fun p => concat (map dcode p)) parts) = concat (map dcode (concat parts))).
    { clear. induction parts as [|p ps IH]; [reflexivity|]. cbn [map concat]. rewrite IH, map_app, concat_app. reflexivity. }
    rewrite EC. split.
    - apply Forall_forall. intros i Hi. apply in_concat in Hi as (cd & Hcd & Hi). apply in_map_iff in Hcd as (v & <- & Hv).
      apply (Permutation_in _ HP), in_seq in Hv.
      destruct (nth_error drows v) as [r|] eqn:Er; [|apply nth_error_None in Er; rewrite map_length in Er; lia].
      unfold dcode in Hi. rewrite (nth_error_nth _ _ [] Er) in Hi.
      apply nth_error_split in Er as (a & b & Er & Ea).
      assert (EF : firstn v drows = a) by (rewrite Er, <- Ea, firstn_app, firstn_all, Nat.sub_diag; apply app_nil_r).
      rewrite EF in Hi. pose proof (head_hits r (concat a) (concat b) (concat drows)) as HH.
      rewrite Forall_forall in HH. apply HH; [|exact Hi]. rewrite Er, concat_app. reflexivity.
    - intros k Hk. apply concat_split in Hk as (v & r & j & Hv & Hj & ->).
      assert (Hvl : v < length rows) by (rewrite <- (map_length (heads None) rows); apply nth_error_Some; congruence).
      destruct (head_covers r (length (concat (firstn v drows))) (length (concat (firstn v drows)) + j) ltac:(lia)) as [(z & Hz) HW].
      assert (HIn : forall i, In i (head_code r (length (concat (firstn v drows)))) -> In i (concat (map dcode (concat parts)))).
      { intros i Hi. apply in_concat. exists (dcode v). split.
        - apply in_map. apply (Permutation_in _ (Permutation_sym HP)), in_seq. lia.
        - unfold dcode. rewrite (nth_error_nth _ _ [] Hv). exact Hi. }
      split; [eauto|]. intros Ew. destruct (HW Ew) as (w & Hw). eauto.
  Qed.

  (** Everything after the sort. *)
  Lemma dups_ok n' T k soff copyp scopy :
    room L (Z.of_nat (length rows)) -> n' = length rows ->
    0 < T -> k < T -> Permutation (concat copyp) (seq 0 (length rows)) ->
    exists degs off st,
      mapM (row_deg L c) (seq 0 n') = Ok degs /\ osum O 0 degs = Ok (Z.of_nat (length (concat drows))) /\
      exists ends ws offs, csr_alloc L weighted (cs_n c) (Z.of_nat (length (concat drows))) = Ok (ends, ws, offs) /\
      offsets_of O n' T k (Z.of_nat (length (concat drows))) (map (wrap O) degs) soff offs = Ok off /\
      exists ps, mapM (fun p => codes <- mapM (copy_row weighted c off) p ;; Ok (concat codes)) copyp = Ok ps /\
        run rexec scopy ps (ends, ws) = Ok st /\
        off = map (fun v => Some (Z.of_nat (length (concat (firstn v drows))))) (seq 0 (S (length drows))) /\
        fst st = map (fun p => Some (fst p)) (concat drows) /\
        (weighted = true -> snd st = map (fun p => Some (snd p)) (concat drows)).
  Proof.
    intros Hroom -> HT Hk HP. pose proof Hrep as (Rn & Rm & _).
    set (ds := map (fun r => Z.of_nat (length r)) drows).
    assert (Hdl : length ds = length rows) by (unfold ds; rewrite !map_length; reflexivity).
    assert (Hds : mapM (row_deg L c) (seq 0 (length rows)) = Ok ds).
    { assert (G : forall v, v < length rows -> row_deg L c v = Ok (nth v ds 0%Z)).
      { intros v Hv. destruct (nth_error rows v) as [r|] eqn:Er; [|apply nth_error_None in Er; lia].
        rewrite (row_deg_ok v r Er). f_equal. symmetry. apply nth_error_nth. unfold ds. rewrite !nth_error_map, Er. reflexivity. }
      rewrite (mapM_ok _ (fun v => nth v ds 0%Z)) by (intros v Hv; apply in_seq in Hv; apply G; lia).
      f_equal. apply nth_error_ext_all; [rewrite map_length, seq_length; lia|]. intros i Hi. rewrite map_length, seq_length in Hi.
      rewrite nth_error_map, nth_error_seq' by exact Hi. cbn [option_map plus]. symmetry. apply nth_error_nth'. lia. }
    pose proof drows_len_le as HDL.
    assert (Hzs : zsum ds = Z.of_nat (length (concat drows))) by apply zsum_lengths.
    assert (HposD : Forall (fun d => 0 <= d)%Z ds) by (apply Forall_forall; intros d Hd; apply in_map_iff in Hd as (r & <- & _); lia).
    assert (Ewr : map (wrap O) ds = ds).
    { rewrite <- (map_id ds) at 2. apply map_ext_in. intros d Hd. apply wrap_small; [exact HO|].
      rewrite Forall_forall in HposD. split; [apply HposD; exact Hd|].
      assert (d <= zsum ds)%Z; [|lia]. clear -Hd HposD. revert HposD Hd. induction ds as [|a l IH]; intros HF Hd; [destruct Hd|].
      cbn [zsum fold_right]. fold (zsum l). assert (0 <= zsum l)%Z by (apply zsum_nonneg, Forall_forall; intros x Hx; apply HF; right; exact Hx).
      pose proof (HF a (or_introl eq_refl)). destruct Hd as [->|Hd]; [lia|]. specialize (IH (fun x Hx => HF x (or_intror Hx)) Hd). lia. }
    assert (Hws : exists ws : list (option W), (if weighted then alloc (Z.of_nat (length (concat drows))) else Ok []) = Ok ws /\ (weighted = true -> length ws = length (concat drows))).
    { destruct weighted.
      - rewrite alloc_ok by lia. eexists. split; [reflexivity|]. intros _. rewrite fresh_length. lia.
      - exists []. split; [reflexivity|discriminate]. }
    destruct Hws as (ws & Ews & Hwl).
    set (off := map (fun v => Some (Z.of_nat (length (concat (firstn v drows))))) (seq 0 (S (length drows)))).
    set (ends := fresh (V := Z) (length (concat drows))).
    assert (Hps : mapM (fun p => codes <- mapM (copy_row weighted c off) p ;; Ok (concat codes)) copyp = Ok (map (fun p => concat (map dcode p)) copyp)).
    { apply mapM_ok. intros p Hp. rewrite (mapM_ok _ dcode); [reflexivity|]. intros v Hv.
      assert (Hvl : v < length rows). { assert (HI : In v (seq 0 (length rows))) by (apply (Permutation_in _ HP), in_concat; eauto). apply in_seq in HI. lia. }
      destruct (nth_error rows v) as [r|] eqn:Er; [|apply nth_error_None in Er; lia].
      apply (copy_row_ok off v r Er). apply cell_of_some. unfold off. rewrite nth_error_map, nth_error_seq' by (rewrite map_length; lia). reflexivity. }
    destruct (dcodes_ok copyp HP) as [HH HCov].
    destruct (run_rfill (concat drows) _ scopy (ends, ws) HH HCov) as (st & Est & E1 & E2); cbn [fst snd].
    { apply fresh_length. } { exact Hwl. }
    exists ds, off, st. split; [exact Hds|]. split.
    { rewrite osum_ok; [f_equal; lia|exact HO|exact HposD|lia|lia]. }
    exists ends, ws, (fresh (S (length rows))). split.
    { unfold csr_alloc. rewrite alloc_ok by lia. cbn [bind]. rewrite Ews. cbn [bind]. rewrite Rn.
      assert (H0 : (0 <= Z.of_nat (length rows))%Z) by lia.
      rewrite (plus1_ok L _ HL H0 Hroom). cbn [bind]. rewrite alloc_ok by lia. cbn [bind].
      unfold ends. rewrite Nat2Z.id. do 3 f_equal. lia. }
    split.
    { rewrite Ewr, <- Hzs. rewrite <- Hdl. rewrite (offsets_ok O HO ds HposD).
      - unfold off. rewrite Hdl, !map_length. f_equal. apply map_ext_in. intros v _. unfold ds. rewrite D_lengths. reflexivity.
      - lia.
      - exact HT.
      - exact Hk.
      - rewrite fresh_length. reflexivity. }
    exists (map (fun p => concat (map dcode p)) copyp). split; [exact Hps|]. split; [exact Est|]. split; [reflexivity|]. split; assumption.
  Qed.
End Dups.

Lemma sorted_row_asc {W} srt srt1 weighted (r : list (Z * W)) : sorts srt srt1 -> ascending (sorted_row srt srt1 weighted r).
Proof.
  intros [H1 H2 H3 H4]. unfold sorted_row. destruct weighted; [apply H2|]. unfold ascending. rewrite combine_fst; [apply H4|].
  rewrite (Permutation_length (H3 _)), !map_length. reflexivity.
Qed.

Theorem without_dups_ok {W} (srt : list (Z * W) -> list (Z * W)) srt1 weighted L O (c : csr W) rows ch :
  is_ity L -> is_ity O -> sorts srt srt1 -> represents weighted c rows ->
  room L (cs_n c) -> (cs_m c <= imax O)%Z ->
  Forall (fun r => Forall (fun p => 0 <= fst p < imax L)%Z r) rows ->
  Permutation (concat (dc_sort ch)) (seq 0 (length rows)) -> Permutation (concat (dc_copy ch)) (seq 0 (length rows)) ->
  dc_single ch < dc_T ch ->
  exists c' r, without_dups srt srt1 weighted L O c ch = Ok (c', r) /\
    represents weighted c' (map (sorted_row srt srt1 weighted) rows) /\
    represents weighted r (map (heads None) (map (sorted_row srt srt1 weighted) rows)) /\
    cs_nrows c' = cs_nrows c /\ cs_ncols c' = cs_ncols c /\ cs_nrows r = cs_nrows c /\ cs_ncols r = cs_ncols c.
Proof.
  intros HL HO HS Hrep Hroom Hm Hlab HP1 HP2 HT. pose proof HS as [S1 S2 S3 S4].
  destruct (sort_ok srt srt1 S1 S3 weighted c rows Hrep (dc_sort ch) (dc_ssort ch) HP1) as (c' & Ec & Hrep' & Eo & En & Em & Enr & Enc).
  unfold without_dups. rewrite Ec. cbn [bind]. set (srows := map (sorted_row srt srt1 weighted) rows) in *.
  assert (Hls : length srows = length rows) by (unfold srows; apply map_length).
  pose proof Hrep as (Rn & Rm & _). pose proof Hrep' as (Rn' & Rm' & _).
  destruct (Z.ltb_spec (cs_n c') 0); [lia|].
  destruct (dups_ok weighted L O HL HO c' srows Hrep') with (n' := Z.to_nat (cs_n c')) (T := dc_T ch) (k := dc_single ch)
      (soff := dc_soff ch) (copyp := dc_copy ch) (scopy := dc_scopy ch)
    as (degs & off & st & E1 & E2 & ends & ws & offs & E3 & E4 & ps & E5 & E6 & Eoff & Eend & Ew).
  - apply Forall_forall. intros r Hr. unfold srows in Hr. apply in_map_iff in Hr as (r0 & <- & Hr0).
    assert (HA : ascending (sorted_row srt srt1 weighted r0)) by (apply sorted_row_asc; exact HS).
    destruct (heads_sorted (sorted_row srt srt1 weighted r0) None HA) as [HSS _]; [apply Forall_forall; intros; exact I|].
    rewrite <- (map_length fst). etransitivity; [apply (strict_len _ 0 (imax L))|pose proof (imax_pos L HL); lia].
    + exact HSS.
    + apply Forall_forall. intros z Hz. apply in_map_iff in Hz as (p & <- & Hp). apply heads_incl in Hp.
      rewrite Forall_forall in Hlab. specialize (Hlab r0 Hr0). rewrite Forall_forall in Hlab.
      assert (Hf : In (fst p) (map fst r0)).
      { unfold sorted_row in Hp. destruct weighted.
        - apply (Permutation_in _ (S1 r0)) in Hp. apply in_map; exact Hp.
        - apply (Permutation_in _ (S3 (map fst r0))). rewrite <- (combine_fst (srt1 (map fst r0)) (map snd r0)); [apply in_map; exact Hp|].
          rewrite (Permutation_length (S3 _)), !map_length. reflexivity. }
      apply in_map_iff in Hf as (q & <- & Hq). apply Hlab; exact Hq.
  - rewrite <- Rm', Em. exact Hm.
  - rewrite <- Rn', En. exact Hroom.
  - lia.
  - lia.
  - exact HT.
  - rewrite Hls. exact HP2.
  - rewrite E1. cbn [bind]. rewrite E2. cbn [bind]. rewrite E3. cbn [bind]. rewrite E4. cbn [bind]. rewrite E5. cbn [bind]. rewrite E6. cbn [bind].
    eexists. eexists. split; [reflexivity|]. split; [exact Hrep'|]. split.
    + unfold represents. cbn [cs_n cs_m cs_off cs_end cs_w]. rewrite Rn'. split; [rewrite map_length; reflexivity|]. split; [reflexivity|].
      split; [exact Eoff|]. split; [exact Eend|exact Ew].
    + cbn [cs_nrows cs_ncols]. auto.
Qed.
