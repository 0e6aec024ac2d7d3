(** * CsrScatter: the atomic scatter of [convert_coo_] *)

From Coq Require Import Permutation.
From Verif Require Import Base Sched SchedLemmas SchedMore Coo Ascii Csr SpecText SpecCsr CsrLemmas.

(** ** Filling an array with a target *)
Definition filled {V} (tgt : list V) (arr : list (option V)) (P : nat -> Prop) : Prop :=
  length arr = length tgt /\ forall k v, P k -> nth_error tgt k = Some v -> nth_error arr k = Some (Some v).

Lemma filled_set {V} (tgt : list V) arr P k v : filled tgt arr P -> nth_error tgt k = Some v ->
  exists arr', aset k v arr = Ok arr' /\ filled tgt arr' (fun j => P j \/ j = k).
Proof.
  intros [HL HF] Hk. assert (Hlt : k < length arr) by (rewrite HL; apply nth_error_Some; congruence).
  unfold aset. destruct (Nat.ltb_spec k (length arr)); [|lia]. eexists. split; [reflexivity|].
  split; [rewrite upd_length; exact HL|]. intros j u HP Hj. destruct (Nat.eq_dec k j) as [<-|Hne].
  - rewrite nth_error_upd_eq by exact Hlt. congruence.
  - rewrite nth_error_upd_ne by exact Hne. apply HF; [|exact Hj]. destruct HP; [assumption|congruence].
Qed.

Lemma filled_mono {V} (tgt : list V) arr (P Q : nat -> Prop) : filled tgt arr P -> (forall k, Q k -> P k) -> filled tgt arr Q.
Proof. intros [H1 H2] H. split; auto. Qed.

Lemma filled_all {V} (tgt : list V) arr P : filled tgt arr P -> (forall k, k < length tgt -> P k) -> arr = map Some tgt.
Proof.
  intros [HL HF] HP. apply nth_error_ext_all; [rewrite map_length; exact HL|]. intros k Hk.
  rewrite nth_error_map. destruct (nth_error tgt k) as [v|] eqn:E; [|apply nth_error_None in E; lia].
  cbn [option_map]. apply HF; [apply HP; lia|exact E].
Qed.

(** ** Positions in concatenations *)
Lemma nth_error_concat {A} (ll : list (list A)) : forall v l k a, nth_error ll v = Some l -> nth_error l k = Some a ->
  nth_error (concat ll) (length (concat (firstn v ll)) + k) = Some a.
Proof.
  induction ll as [|l0 ll IH]; intros v l k a Hv Hk; [destruct v; discriminate|].
  destruct v as [|v]; cbn [nth_error firstn concat] in *.
  - injection Hv as ->. cbn [length plus]. rewrite nth_error_app1; [exact Hk|]. apply nth_error_Some; congruence.
  - rewrite app_length, <- Nat.add_assoc. rewrite nth_error_app2 by lia.
    replace (length l0 + (length (concat (firstn v ll)) + k) - length l0) with (length (concat (firstn v ll)) + k) by lia.
    eapply IH; eassumption.
Qed.

Lemma concat_split {A} (ll : list (list A)) : forall k, k < length (concat ll) ->
  exists v l j, nth_error ll v = Some l /\ j < length l /\ k = length (concat (firstn v ll)) + j.
Proof.
  induction ll as [|l0 ll IH]; intros k Hk; cbn [concat] in Hk; [cbn in Hk; lia|].
  rewrite app_length in Hk. destruct (Nat.lt_ge_cases k (length l0)) as [H|H].
  - exists 0, l0, k. cbn. repeat split; auto.
  - destruct (IH (k - length l0) ltac:(lia)) as (v & l & j & Hv & Hj & E).
    exists (S v), l, j. cbn [nth_error firstn concat]. rewrite app_length. repeat split; auto; lia.
Qed.

Lemma concat_split_len {A} (ll : list (list A)) : forall v r, nth_error ll v = Some r ->
  length (concat (firstn (S v) ll)) = length (concat (firstn v ll)) + length r.
Proof.
  induction ll as [|a ll IH]; intros v r H; [destruct v; discriminate|]. destruct v as [|v].
  - cbn in *. injection H as ->. rewrite app_nil_r. reflexivity.
  - cbn [nth_error] in H. specialize (IH v r H). cbn [firstn concat] in *. rewrite !app_length. rewrite IH. lia.
Qed.
Lemma concat_firstn_le {A} (ll : list (list A)) : forall v, length (concat (firstn v ll)) <= length (concat ll).
Proof.
  induction ll as [|a ll IH]; intros v; [destruct v; cbn; lia|]. destruct v as [|v]; cbn [firstn concat]; [cbn; lia|].
  rewrite !app_length. specialize (IH v). lia.
Qed.

Lemma filter_len_le {A} (p : A -> bool) k : length (filter p k) <= length k.
Proof. induction k as [|a k IH]; cbn; [lia|]. destruct (p a); cbn; lia. Qed.

Lemma NoDup_app_inv {A} (a b : list A) : NoDup (a ++ b) -> NoDup a /\ NoDup b /\ (forall x, In x a -> ~ In x b).
Proof.
  induction a as [|x a IH]; cbn [app]; intros H.
  - split; [constructor|]. split; [exact H|]. intros x [].
  - inversion H as [|? ? Hx H']; subst. destruct (IH H') as (H1 & H2 & H3). split.
    + constructor; [|exact H1]. intros Hi. apply Hx, in_or_app; auto.
    + split; [exact H2|]. intros y [<-|Hy]; [|apply H3; exact Hy]. intros Hi. apply Hx, in_or_app; auto.
Qed.

(** ** The part of a list before an element *)
Fixpoint before (e : nat) (l : list nat) : list nat :=
  match l with
  | [] => []
  | a :: l' => if a =? e then [] else a :: before e l'
  end.

Lemma before_mid e a b : ~ In e a -> before e (a ++ e :: b) = a.
Proof.
  induction a as [|x a IH]; intros H; cbn [app before].
  - rewrite Nat.eqb_refl. reflexivity.
  - destruct (Nat.eqb_spec x e); [exfalso; apply H; left; auto|]. f_equal. apply IH. intros Hi; apply H; right; exact Hi.
Qed.

Lemma filter_nth_before (p : nat -> bool) l : NoDup l -> forall j e, nth_error (filter p l) j = Some e ->
  In e l /\ p e = true /\ length (filter p (before e l)) = j.
Proof.
  induction l as [|a l IH]; intros Hn j e H; cbn [filter] in H; [destruct j; discriminate|].
  inversion Hn as [|? ? Ha Hn']; subst. destruct (p a) eqn:Ep.
  - destruct j as [|j]; cbn [nth_error] in H.
    + injection H as ->. split; [left; reflexivity|]. split; [exact Ep|]. cbn [before]. rewrite Nat.eqb_refl. reflexivity.
    + destruct (IH Hn' j e H) as (Hi & Hp & Hl). split; [right; exact Hi|]. split; [exact Hp|]. cbn [before].
      destruct (Nat.eqb_spec a e); [subst; contradiction|]. cbn [filter]. rewrite Ep. cbn [length]. lia.
  - destruct (IH Hn' j e H) as (Hi & Hp & Hl). split; [right; exact Hi|]. split; [exact Hp|]. cbn [before].
    destruct (Nat.eqb_spec a e); [subst; contradiction|]. cbn [filter]. rewrite Ep. exact Hl.
Qed.

Lemma filter_before_nth (p : nat -> bool) l : forall e, In e l -> p e = true ->
  nth_error (filter p l) (length (filter p (before e l))) = Some e.
Proof.
  induction l as [|a l IH]; intros e Hi Hp; [destruct Hi|]. cbn [before]. destruct (Nat.eqb_spec a e) as [->|Hne].
  - cbn [filter length]. rewrite Hp. reflexivity.
  - destruct Hi as [->|Hi]; [congruence|]. cbn [filter]. destruct (p a); cbn [length nth_error]; apply IH; assumption.
Qed.

(** ** The scatter *)
Definition caps (l : list sinstr) : list nat := flat_map (fun i => match i with Capture e => [e] | _ => [] end) l.

Lemma caps_app a b : caps (a ++ b) = caps a ++ caps b.
Proof. apply flat_map_app. Qed.
Lemma caps_in e l : In e (caps l) <-> In (Capture e) l.
Proof.
  unfold caps. rewrite in_flat_map. split.
  - intros ([k|k|k] & Hi & H); cbn in H; try tauto. destruct H as [<-|[]]; exact Hi.
  - intros H. exists (Capture e). split; [exact H|left; reflexivity].
Qed.

Section Scatter.
  Context {W : Type}.
  Variable O : ity.
  Hypothesis HO : is_ity O.
  Variable c : coo W.
  Variable off : list (option Z).
  Variable weighted : bool.
  Variable es : list (Z * Z * W).
  Variable d0 : Z * Z * W.
  Variable n : nat.
  Notation m := (length es).
  Notation E e := (nth e es d0).
  Hypothesis Hx : forall e, e < m -> nth_error (co_x c) e = Some (Some (fst (fst (E e)))).
  Hypothesis Hy : forall e, e < m -> nth_error (co_y c) e = Some (Some (snd (fst (E e)))).
  Hypothesis Hw : weighted = true -> forall e, e < m -> nth_error (co_w c) e = Some (Some (snd (E e))).
  Hypothesis Hsrc : forall e, e < m -> (0 <= fst (fst (E e)) < Z.of_nat n)%Z.
  Hypothesis Hm : (Z.of_nat m <= imax O)%Z.

  Definition src (e : nat) : nat := Z.to_nat (fst (fst (E e))).
  Definition cnt (v : nat) (l : list nat) : nat := length (filter (fun e => src e =? v) l).

  Variable l : list sinstr.
  Notation ord := (caps l).
  Hypothesis Hord : Permutation ord (seq 0 m).
  Hypothesis Hend : forall l1 e l2, l = l1 ++ StoreEnd e :: l2 -> e < m /\ In (Capture e) l1.
  Hypothesis Hwgt : forall l1 e l2, l = l1 ++ StoreW e :: l2 -> weighted = true /\ e < m /\ In (Capture e) l1.
  Hypothesis Hall : forall e, e < m -> In (StoreEnd e) l /\ (weighted = true -> In (StoreW e) l).

  Definition irows : list (list nat) := map (fun v => filter (fun e => src e =? v) ord) (seq 0 n).
  Definition posn (e : nat) : nat := length (concat (firstn (src e) irows)) + cnt (src e) (before e ord).
  Hypothesis Hoff : forall v, v <= n -> nth_error off v = Some (Some (Z.of_nat (length (concat (firstn v irows))))).

  Lemma ord_nodup : NoDup ord.
  Proof. eapply Permutation_NoDup; [apply Permutation_sym, Hord|apply seq_NoDup]. Qed.
  Lemma ord_in e : In e ord <-> e < m.
  Proof.
    split; intros H.
    - apply (Permutation_in _ Hord) in H. apply in_seq in H. lia.
    - apply (Permutation_in _ (Permutation_sym Hord)). apply in_seq. lia.
  Qed.
  Lemma src_lt e : e < m -> src e < n.
  Proof. intros H. specialize (Hsrc e H). unfold src. lia. Qed.

  Lemma irow v : v < n -> nth_error irows v = Some (filter (fun e => src e =? v) ord).
  Proof. intros H. unfold irows. rewrite nth_error_map, nth_error_seq' by exact H. reflexivity. Qed.

  Lemma posn_spec e : e < m -> nth_error (concat irows) (posn e) = Some e.
  Proof.
    intros H. unfold posn. eapply nth_error_concat; [apply irow, src_lt, H|].
    apply (filter_before_nth (fun k => src k =? src e)); [apply ord_in; exact H|apply Nat.eqb_refl].
  Qed.

  Lemma posn_surj k : k < length (concat irows) -> exists e, e < m /\ posn e = k.
  Proof.
    intros H. apply concat_split in H as (v & r & j & Hv & Hj & ->).
    assert (Hvn : v < n). { assert (HH : v < length irows) by (apply nth_error_Some; congruence). unfold irows in HH. rewrite map_length, seq_length in HH. exact HH. }
    rewrite irow in Hv by exact Hvn. injection Hv as <-.
    destruct (nth_error (filter (fun e => src e =? v) ord) j) as [e|] eqn:Ee; [|apply nth_error_None in Ee; lia].
    destruct (filter_nth_before _ _ ord_nodup _ _ Ee) as (Hi & Hp & Hl). apply Nat.eqb_eq in Hp.
    exists e. split; [apply ord_in; exact Hi|]. unfold posn, cnt. rewrite Hp. rewrite Hl. reflexivity.
  Qed.

  Lemma cnt_app v a b : cnt v (a ++ b) = cnt v a + cnt v b.
  Proof. unfold cnt. rewrite filter_app, app_length. reflexivity. Qed.

  Lemma cnt_bound v k : cnt v k <= length k.
  Proof. apply filter_len_le. Qed.

  Lemma Dn_S v : v < n -> length (concat (firstn (S v) irows)) = length (concat (firstn v irows)) + cnt v ord.
  Proof. intros H. apply concat_split_len. apply irow; exact H. Qed.

  Lemma irows_len : length (concat irows) = m.
  Proof.
    assert (HN : forall k a, length (concat (map (fun v => filter (fun e => src e =? v) ord) (seq a k))) =
      length (filter (fun e => (a <=? src e) && (src e <? a + k)) ord)).
    { induction k as [|k IH]; intros a.
      - cbn [seq map concat length]. symmetry. apply length_zero_iff_nil. generalize ord as o. induction o as [|x o IHo]; [reflexivity|]. cbn [filter].
        replace ((a <=? src x) && (src x <? a + 0)) with false; [exact IHo|].
        symmetry. apply andb_false_iff. destruct (Nat.leb_spec a (src x)); [right; apply Nat.ltb_ge; lia|left; reflexivity].
      - cbn [seq map concat]. rewrite app_length, IH. generalize ord as o. induction o as [|x o IHo]; [reflexivity|]. cbn [filter].
        destruct (Nat.eqb_spec (src x) a); destruct (Nat.leb_spec (S a) (src x)); destruct (Nat.ltb_spec (src x) (S a + k));
          destruct (Nat.leb_spec a (src x)); destruct (Nat.ltb_spec (src x) (a + S k)); cbn [andb length]; lia. }
    unfold irows. rewrite HN. transitivity (length ord).
    - f_equal. assert (HA : forall e, In e ord -> e < m) by (intros e; apply ord_in). revert HA. generalize ord as o.
      induction o as [|x o IHo]; intros HA; [reflexivity|]. cbn [filter].
      pose proof (src_lt x (HA x (or_introl eq_refl))).
      replace ((0 <=? src x) && (src x <? 0 + n)) with true.
      + f_equal. apply IHo. intros e He; apply HA; right; exact He.
      + symmetry. apply andb_true_intro. split; [reflexivity|apply Nat.ltb_lt; lia].
    - rewrite (Permutation_length Hord). apply seq_length.
  Qed.

  Definition tgt_end : list Z := map (fun e => snd (fst (E e))) (concat irows).
  Definition tgt_w : list W := map (fun e => snd (E e)) (concat irows).

  Record Inv (p : list sinstr) (s : scst W) : Prop := {
    I_rem : length (sc_rem s) = n /\ forall v, v < n ->
      nth_error (sc_rem s) v = Some (Some (Z.of_nat (cnt v ord) - Z.of_nat (cnt v (caps p)))%Z);
    I_reg : length (sc_reg s) = m /\ forall e, In e (caps p) ->
      nth_error (sc_reg s) e = Some (Some (Z.of_nat (cnt (src e) ord) - Z.of_nat (cnt (src e) (before e ord)))%Z);
    I_end : filled tgt_end (sc_end s) (fun k => exists e, In (StoreEnd e) p /\ posn e = k);
    I_w : weighted = true -> filled tgt_w (sc_w s) (fun k => exists e, In (StoreW e) p /\ posn e = k)
  }.

  Lemma idx_src e : e < m -> idx (fst (fst (E e))) = Ok (src e).
  Proof. intros H. unfold idx, src. specialize (Hsrc e H). destruct (Z.ltb_spec (fst (fst (E e))) 0); [lia|reflexivity]. Qed.

  Lemma posn_lt e : e < m -> posn e < m.
  Proof. intros H. rewrite <- irows_len. apply nth_error_Some. rewrite posn_spec by exact H. discriminate. Qed.

  Lemma slot_ok p s e : Inv p s -> In e (caps p) -> e < m -> slot O c off s e = Ok (posn e).
  Proof.
    intros HI Hc He. unfold slot. rewrite (cell_of_some _ _ _ (Hx e He)). cbn [bind]. rewrite idx_src by exact He. cbn [bind].
    destruct (I_reg _ _ HI) as [_ Hr]. rewrite (cell_of_some _ _ _ (Hr e Hc)). cbn [bind].
    pose proof (src_lt e He) as Hs. rewrite (cell_of_some _ _ _ (Hoff (S (src e)) ltac:(lia))). cbn [bind].
    rewrite Dn_S by exact Hs.
    set (z := (_ - _)%Z). assert (Ez : z = Z.of_nat (posn e)) by (unfold z, posn; lia). rewrite Ez.
    pose proof (posn_lt e He). rewrite arith_small; [|exact HO|lia]. cbn [bind]. unfold idx.
    destruct (Z.ltb_spec (Z.of_nat (posn e)) 0); [lia|]. rewrite Nat2Z.id. reflexivity.
  Qed.

  Lemma inv_step p i q s : l = p ++ i :: q -> Inv p s -> exists s', scexec O c off i s = Ok s' /\ Inv (p ++ [i]) s'.
  Proof.
    intros El HI. destruct i as [e|e|e]; cbn [scexec].
    - assert (Ho : ord = caps p ++ e :: caps q) by (rewrite El at 1; rewrite caps_app; reflexivity).
      assert (He : e < m) by (apply ord_in; rewrite Ho; apply in_or_app; right; left; reflexivity).
      pose proof ord_nodup as HN. rewrite Ho in HN. apply NoDup_remove_2 in HN.
      assert (Hni : ~ In e (caps p)) by (intros Hi; apply HN, in_or_app; left; exact Hi).
      assert (Hb : before e ord = caps p) by (rewrite Ho at 1; apply before_mid; exact Hni).
      pose proof (src_lt e He) as Hs.
      rewrite (cell_of_some _ _ _ (Hx e He)). cbn [bind]. rewrite idx_src by exact He. cbn [bind].
      destruct (I_rem _ _ HI) as [HR1 HR2]. destruct (I_reg _ _ HI) as [HG1 HG2].
      rewrite (cell_of_some _ _ _ (HR2 _ Hs)). cbn [bind].
      assert (Hcnt : cnt (src e) ord = cnt (src e) (caps p) + S (cnt (src e) (caps q))).
      { rewrite Ho at 1. rewrite cnt_app. f_equal. unfold cnt. cbn [filter]. rewrite Nat.eqb_refl. reflexivity. }
      assert (Hle : cnt (src e) ord <= m).
      { transitivity (length ord); [apply cnt_bound|]. rewrite (Permutation_length Hord), seq_length. lia. }
      rewrite arith_small; [|exact HO|lia]. cbn [bind]. unfold aset at 1.
      destruct (Nat.ltb_spec (src e) (length (sc_rem s))); [|lia]. cbn [bind]. unfold aset at 1.
      destruct (Nat.ltb_spec e (length (sc_reg s))); [|lia]. cbn [bind].
      eexists. split; [reflexivity|]. constructor; cbn [sc_rem sc_reg sc_end sc_w].
      + split; [rewrite upd_length; exact HR1|]. intros v Hv. rewrite caps_app. cbn [caps flat_map app]. rewrite cnt_app.
        destruct (Nat.eq_dec (src e) v) as [<-|Hne].
        * rewrite nth_error_upd_eq by lia. do 2 f_equal.
          assert (cnt (src e) [e] = 1) by (unfold cnt; cbn [filter]; rewrite Nat.eqb_refl; reflexivity). lia.
        * rewrite nth_error_upd_ne by exact Hne. rewrite HR2 by exact Hv. do 2 f_equal. apply Nat.eqb_neq in Hne.
          assert (cnt v [e] = 0) by (unfold cnt; cbn [filter]; rewrite Hne; reflexivity). lia.
      + split; [rewrite upd_length; exact HG1|]. intros e' He'. rewrite caps_app in He'. apply in_app_or in He' as [He'|He'].
        * rewrite nth_error_upd_ne by (intros ->; contradiction). apply HG2; exact He'.
        * cbn in He'. destruct He' as [<-|[]]. rewrite nth_error_upd_eq by lia. rewrite Hb. reflexivity.
      + eapply filled_mono; [apply (I_end _ _ HI)|]. intros k (e' & Hi & Hk). exists e'. split; [|exact Hk].
        apply in_app_or in Hi as [Hi|[Hi|[]]]; [exact Hi|discriminate].
      + intros Ew. eapply filled_mono; [apply (I_w _ _ HI Ew)|]. intros k (e' & Hi & Hk). exists e'. split; [|exact Hk].
        apply in_app_or in Hi as [Hi|[Hi|[]]]; [exact Hi|discriminate].
    - destruct (Hend _ _ _ El) as [He Hc]. apply caps_in in Hc.
      rewrite (cell_of_some _ _ _ (Hy e He)). cbn [bind]. rewrite (slot_ok _ _ _ HI Hc He). cbn [bind].
      destruct (filled_set _ _ _ (posn e) (snd (fst (E e))) (I_end _ _ HI)) as (arr & -> & HF).
      { unfold tgt_end. rewrite nth_error_map, posn_spec by exact He. reflexivity. }
      cbn [bind]. eexists. split; [reflexivity|].
      assert (EC : caps (p ++ [StoreEnd e]) = caps p) by (rewrite caps_app; cbn; apply app_nil_r).
      constructor; cbn [sc_rem sc_reg sc_end sc_w]; rewrite ?EC.
      + apply (I_rem _ _ HI).
      + apply (I_reg _ _ HI).
      + eapply filled_mono; [exact HF|]. intros k (e' & Hi & Hk). apply in_app_or in Hi as [Hi|[Hi|[]]].
        * left. exists e'. auto.
        * right. injection Hi as ->. auto.
      + intros Ew. eapply filled_mono; [apply (I_w _ _ HI Ew)|]. intros k (e' & Hi & Hk). exists e'. split; [|exact Hk].
        apply in_app_or in Hi as [Hi|[Hi|[]]]; [exact Hi|discriminate].
    - destruct (Hwgt _ _ _ El) as (Ew & He & Hc). apply caps_in in Hc.
      rewrite (cell_of_some _ _ _ (Hw Ew e He)). cbn [bind]. rewrite (slot_ok _ _ _ HI Hc He). cbn [bind].
      destruct (filled_set _ _ _ (posn e) (snd (E e)) (I_w _ _ HI Ew)) as (arr & -> & HF).
      { unfold tgt_w. rewrite nth_error_map, posn_spec by exact He. reflexivity. }
      cbn [bind]. eexists. split; [reflexivity|].
      assert (EC : caps (p ++ [StoreW e]) = caps p) by (rewrite caps_app; cbn; apply app_nil_r).
      constructor; cbn [sc_rem sc_reg sc_end sc_w]; rewrite ?EC.
      + apply (I_rem _ _ HI).
      + apply (I_reg _ _ HI).
      + eapply filled_mono; [apply (I_end _ _ HI)|]. intros k (e' & Hi & Hk). exists e'. split; [|exact Hk].
        apply in_app_or in Hi as [Hi|[Hi|[]]]; [exact Hi|discriminate].
      + intros _. eapply filled_mono; [exact HF|]. intros k (e' & Hi & Hk). apply in_app_or in Hi as [Hi|[Hi|[]]].
        * left. exists e'. auto.
        * right. injection Hi as ->. auto.
  Qed.

  Lemma inv_run q : forall p s, l = p ++ q -> Inv p s -> exists s', exec_all (scexec O c off) q s = Ok s' /\ Inv l s'.
  Proof.
    induction q as [|i q IH]; intros p s El HI; cbn [exec_all].
    - rewrite app_nil_r in El. subst p. exists s. split; [reflexivity|exact HI].
    - destruct (inv_step _ _ _ _ El HI) as (s1 & -> & HI1). cbn [bind].
      apply (IH (p ++ [i])); [rewrite <- app_assoc; exact El|exact HI1].
  Qed.

  Lemma scatter_ok s : length (sc_rem s) = n ->
    (forall v, v < n -> nth_error (sc_rem s) v = Some (Some (Z.of_nat (cnt v ord)))) ->
    length (sc_reg s) = m -> length (sc_end s) = m -> (weighted = true -> length (sc_w s) = m) ->
    exists s', exec_all (scexec O c off) l s = Ok s' /\ sc_end s' = map Some tgt_end /\
      (weighted = true -> sc_w s' = map Some tgt_w).
  Proof.
    intros H1 H2 H3 H4 H5. destruct (inv_run l [] s eq_refl) as (s' & E' & HI).
    - constructor.
      + split; [exact H1|]. intros v Hv. rewrite H2 by exact Hv. do 2 f_equal. cbn. lia.
      + split; [exact H3|]. intros e [].
      + split; [unfold tgt_end; rewrite map_length, irows_len; exact H4|]. intros k v (e & [] & _).
      + intros Ew. split; [unfold tgt_w; rewrite map_length, irows_len; auto|]. intros k v (e & [] & _).
    - exists s'. split; [exact E'|]. split.
      + eapply filled_all; [apply (I_end _ _ HI)|]. intros k Hk. unfold tgt_end in Hk. rewrite map_length in Hk.
        destruct (posn_surj _ Hk) as (e & He & Ep). exists e. split; [apply Hall; exact He|exact Ep].
      + intros Ew. eapply filled_all; [apply (I_w _ _ HI Ew)|]. intros k Hk. unfold tgt_w in Hk. rewrite map_length in Hk.
        destruct (posn_surj _ Hk) as (e & He & Ep). exists e. split; [apply Hall; auto|exact Ep].
  Qed.
End Scatter.
