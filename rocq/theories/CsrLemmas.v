(** * CsrLemmas: conversion of a COO to a CSR *)

From Coq Require Import Permutation.
From Verif Require Import Base Sched SchedLemmas SchedMore Coo Ascii Csr SpecCsr.

(** ** Machine arithmetic without overflow *)
Lemma imax_pos t : is_ity t -> (0 < imax t)%Z.
Proof. intros H. destruct H as [<-|[<-|[<-|[<-|[<-|[<-|[<-|[<-|[]]]]]]]]]; reflexivity. Qed.

Lemma wrap_small t z : is_ity t -> (0 <= z <= imax t)%Z -> wrap t z = z.
Proof.
  intros H Hz. unfold wrap, imax in *.
  destruct H as [<-|[<-|[<-|[<-|[<-|[<-|[<-|[<-|[]]]]]]]]]; cbn [isigned ibits u8 u16 u32 u64 i8 i16 i32 i64] in *;
    try (rewrite Z.mod_small by (cbn in *; lia); cbn in *; lia).
Qed.

Lemma arith_small t z : is_ity t -> (0 <= z <= imax t)%Z -> arith t z = Ok z.
Proof.
  intros H Hz. unfold arith. rewrite wrap_small by assumption.
  destruct (ibits t <? 32)%Z; [reflexivity|]. destruct (isigned t) eqn:E; [|reflexivity].
  unfold inrange. replace ((imin t <=? z) && (z <=? imax t))%Z with true; [reflexivity|].
  symmetry. apply andb_true_intro. split; [|apply Z.leb_le; lia]. apply Z.leb_le.
  assert (imin t <= 0)%Z; [|lia]. unfold imin. rewrite E.
  pose proof (Z.pow_nonneg 2 (ibits t - 1)). lia.
Qed.

Lemma plus1_ok L n : is_ity L -> (0 <= n)%Z -> room L n -> plus1 L n = Ok (n + 1)%Z.
Proof.
  intros HL Hn [H1 H2]. unfold plus1. destruct (Z.ltb_spec (ibits L) 32); [reflexivity|].
  apply arith_small; [assumption|]. lia.
Qed.

Lemma alloc_ok {V} k : (0 <= k)%Z -> @alloc V k = Ok (fresh (Z.to_nat k)).
Proof. intros H. unfold alloc. destruct (Z.ltb_spec k 0); [lia|reflexivity]. Qed.

(** ** Loads of cells *)
Lemma cell_of_some {V} i (l : list (option V)) v : nth_error l i = Some (Some v) -> cell_of i l = Ok v.
Proof. intros H. unfold cell_of, aget. rewrite H. reflexivity. Qed.

Lemma cell_of_map {A V} (f : A -> V) i l a : nth_error l i = Some a -> cell_of i (map (fun x => Some (f x)) l) = Ok (f a).
Proof. intros H. apply cell_of_some. rewrite nth_error_map, H. reflexivity. Qed.

Lemma mapM_ok {A B} (f : A -> res B) (g : A -> B) l : (forall a, In a l -> f a = Ok (g a)) -> mapM f l = Ok (map g l).
Proof.
  induction l as [|a l IH]; intros H; [reflexivity|]. cbn [mapM map]. rewrite H by (left; reflexivity). cbn [bind].
  rewrite IH by (intros b Hb; apply H; right; exact Hb). reflexivity.
Qed.

Definition zsum (l : list Z) : Z := fold_right Z.add 0%Z l.
Lemma zsum_app a b : zsum (a ++ b) = (zsum a + zsum b)%Z.
Proof. induction a as [|x a IH]; cbn [app zsum fold_right]; [reflexivity|]. fold (zsum (a ++ b)); fold (zsum a). rewrite IH; lia. Qed.
Lemma zsum_nonneg l : Forall (fun d => 0 <= d)%Z l -> (0 <= zsum l)%Z.
Proof. induction 1; cbn [zsum fold_right]; [lia|]. fold (zsum l). lia. Qed.

Lemma nth_upd_eq {V} i (v d : V) l : i < length l -> nth i (upd i v l) d = v.
Proof. intros H. apply nth_error_nth, nth_error_upd_eq, H. Qed.
Lemma nth_upd_ne {V} i j (v d : V) l : i <> j -> nth j (upd i v l) d = nth j l d.
Proof. revert i j; induction l as [|a l IH]; intros [|i] [|j] H; cbn; auto; lia. Qed.

(** ** Counting degrees *)
Section Inc.
  Variable O : ity.
  Hypothesis HO : is_ity O.

  Definition zcount (l : list Z) (v : nat) : Z := Z.of_nat (count_occ Z.eq_dec l (Z.of_nat v)).

  Lemma inc_all l : forall s,
    Forall (fun d => 0 <= d < Z.of_nat (length s))%Z l ->
    (forall v, v < length s -> (0 <= nth v s 0 /\ nth v s 0 + zcount l v <= imax O)%Z) ->
    exec_all (inc_exec O) l s = Ok (map (fun v => nth v s 0 + zcount l v)%Z (seq 0 (length s))).
  Proof.
    induction l as [|d l IH]; intros s HF HB; cbn [exec_all].
    - f_equal. apply nth_error_ext_all; [rewrite map_length, seq_length; reflexivity|].
      intros i Hi. rewrite nth_error_map, nth_error_seq' by exact Hi. cbn [option_map plus].
      rewrite (nth_error_nth' _ 0%Z) by exact Hi. unfold zcount. cbn [count_occ]. f_equal; lia.
    - inversion HF as [|? ? Hd HF']; subst. unfold inc_exec at 1.
      replace ((0 <=? d) && (d <? Z.of_nat (length s)))%Z with true
        by (symmetry; apply andb_true_intro; split; [apply Z.leb_le|apply Z.ltb_lt]; lia).
      assert (Hv : Z.to_nat d < length s) by lia.
      assert (Ed : Z.of_nat (Z.to_nat d) = d) by lia.
      rewrite arith_small; [|exact HO|].
      2:{ destruct (HB _ Hv) as [H1 H2]. unfold zcount in H2. rewrite Ed in H2. cbn [count_occ] in H2.
          destruct (Z.eq_dec d d); [|congruence]. lia. }
      cbn [bind]. rewrite IH.
      + f_equal. rewrite upd_length. apply map_ext_in. intros v Hin. apply in_seq in Hin.
        unfold zcount. cbn [count_occ]. destruct (Z.eq_dec d (Z.of_nat v)) as [->|Hne].
        * rewrite Nat2Z.id in *. rewrite nth_upd_eq by lia. lia.
        * rewrite nth_upd_ne by lia. reflexivity.
      + rewrite upd_length. exact HF'.
      + rewrite upd_length. intros v Hl. specialize (HB v Hl). unfold zcount in *. cbn [count_occ] in HB.
        destruct (Z.eq_dec d (Z.of_nat v)) as [->|Hne].
        * rewrite Nat2Z.id in *. rewrite nth_upd_eq by lia. lia.
        * rewrite nth_upd_ne by lia. exact HB.
  Qed.
End Inc.

(** ** Offsets from degrees *)
Section Offsets.
  Variable O : ity.
  Hypothesis HO : is_ity O.
  Variable ds : list Z.
  Hypothesis Hpos : Forall (fun d => 0 <= d)%Z ds.
  Hypothesis Hfit : (zsum ds <= imax O)%Z.
  Notation n := (length ds).

  Definition D (v : nat) : Z := zsum (firstn v ds).

  Lemma D_0 : D 0 = 0%Z.
  Proof. reflexivity. Qed.
  Lemma D_n : D n = zsum ds.
  Proof. unfold D. rewrite firstn_all. reflexivity. Qed.
  Lemma D_S v d : nth_error ds v = Some d -> D (S v) = (D v + d)%Z.
  Proof.
    intros H. unfold D. revert v H. clear Hpos Hfit. induction ds as [|a l IH]; intros v H; [destruct v; discriminate|].
    destruct v as [|v]; cbn [nth_error] in H.
    - injection H as ->. cbn; lia.
    - specialize (IH v H). cbn [firstn zsum fold_right] in *. unfold zsum in IH. fold (zsum (firstn v l)) in *. lia.
  Qed.
  Lemma Forall_firstn' {A} (P : A -> Prop) k l : Forall P l -> Forall P (firstn k l).
  Proof. revert k; induction l; intros [|k] H; cbn; auto. inversion H; subst; constructor; auto. Qed.
  Lemma Forall_skipn' {A} (P : A -> Prop) k l : Forall P l -> Forall P (skipn k l).
  Proof. revert k; induction l; intros [|k] H; cbn; auto. inversion H; subst; auto. Qed.
  Lemma D_le v w : v <= w -> (D v <= D w)%Z.
  Proof.
    intros H. unfold D. replace (firstn w ds) with (firstn v ds ++ firstn (w - v) (skipn v ds)).
    - rewrite zsum_app. pose proof (zsum_nonneg _ (Forall_firstn' _ (w - v) _ (Forall_skipn' _ v _ Hpos))). lia.
    - replace w with (v + (w - v)) at 2 by lia. generalize (w - v) as k. clear. revert v. generalize ds as l.
      induction l as [|a l IH]; intros v k; [destruct v; cbn; rewrite ?firstn_nil; reflexivity|].
      destruct v; [reflexivity|]. cbn [skipn plus firstn app]. f_equal.
      apply IH.
  Qed.
  Lemma D_nonneg v : (0 <= D v)%Z.
  Proof. apply (D_le 0); lia. Qed.
  Lemma D_max v : (D v <= imax O)%Z.
  Proof.
    transitivity (D (v + n)); [apply D_le; lia|]. unfold D. rewrite firstn_all2 by lia. exact Hfit.
  Qed.

  Lemma degs_cell c d : nth_error ds c = Some d -> cell_of c (map Some ds) = Ok d.
  Proof. intros H. apply cell_of_some. rewrite nth_error_map, H. reflexivity. Qed.

  Lemma osum_ok l : forall acc, Forall (fun d => 0 <= d)%Z l -> (0 <= acc)%Z -> (acc + zsum l <= imax O)%Z ->
    osum O acc l = Ok (acc + zsum l)%Z.
  Proof.
    induction l as [|d l IH]; intros acc HF Ha Hm; cbn [osum].
    - cbn. f_equal; lia.
    - inversion HF; subst. cbn [zsum fold_right] in Hm. fold (zsum l) in Hm.
      assert (0 <= zsum l)%Z by (apply zsum_nonneg; assumption).
      rewrite arith_small by (assumption || lia). cbn [bind]. rewrite IH by (assumption || lia).
      cbn [zsum fold_right]. fold (zsum l). f_equal; lia.
  Qed.

  (** The sum of a range of degrees. *)
  Lemma range_sum k : forall a, a + k <= n ->
    exists l, mapM (fun c => cell_of c (map Some ds)) (seq a k) = Ok l /\ Forall (fun d => 0 <= d)%Z l /\ zsum l = (D (a + k) - D a)%Z.
  Proof.
    induction k as [|k IH]; intros a H; cbn [seq mapM].
    - exists []. split; [reflexivity|]. split; [constructor|]. rewrite Nat.add_0_r. cbn; lia.
    - destruct (nth_error ds a) as [d|] eqn:E; [|apply nth_error_None in E; lia].
      rewrite (degs_cell _ _ E). cbn [bind]. destruct (IH (S a) ltac:(lia)) as (l & -> & HF & HS).
      cbn [bind]. exists (d :: l). split; [reflexivity|]. split.
      + constructor; [|exact HF]. rewrite Forall_forall in Hpos. apply Hpos. eapply nth_error_In; exact E.
      + cbn [zsum fold_right]. fold (zsum l). rewrite HS. pose proof (D_S _ _ E). replace (a + S k) with (S a + k) by lia. lia.
  Qed.

  Lemma off_prog_ok k : forall a, a + k <= n ->
    off_prog O (map Some ds) (seq a k) (D a) = Ok (map (fun c => (c, D c)) (seq a k)).
  Proof.
    induction k as [|k IH]; intros a H; cbn [seq off_prog]; [reflexivity|].
    destruct (nth_error ds a) as [d|] eqn:E; [|apply nth_error_None in E; lia].
    rewrite (degs_cell _ _ E). cbn [bind]. pose proof (D_S _ _ E) as ES.
    rewrite arith_small; [|exact HO|pose proof (D_nonneg (S a)); pose proof (D_max (S a)); lia].
    cbn [bind]. rewrite <- ES. rewrite IH by lia. reflexivity.
  Qed.

  Lemma ostarts_ok (b : nat -> nat) k : forall a, (forall i, b i <= b (S i)) ->
    ostarts O (D (b a)) (map (fun t => (D (b (S t)) - D (b t))%Z) (seq a k)) = Ok (map (fun t => D (b t)) (seq a k)).
  Proof.
    induction k as [|k IH]; intros a Hb; cbn [seq map ostarts]; [reflexivity|].
    rewrite arith_small.
    - cbn [bind]. replace (D (b a) + (D (b (S a)) - D (b a)))%Z with (D (b (S a))) by lia.
      rewrite IH by exact Hb. reflexivity.
    - exact HO.
    - pose proof (D_nonneg (b (S a))); pose proof (D_max (b (S a))); lia.
  Qed.

  Lemma vrange_bounds (T t : nat) : t < T -> (t * n) / T <= ((t + 1) * n) / T <= n.
  Proof.
    intros H. split; [apply Nat.div_le_mono; nia|].
    apply Nat.div_le_upper_bound; nia.
  Qed.

  Lemma ranges_concat {A} (f : nat -> A) (b : nat -> nat) k : (forall i, b i <= b (S i)) ->
    concat (map (fun t => map f (seq (b t) (b (S t) - b t))) (seq 0 k)) = map f (seq (b 0) (b k - b 0)).
  Proof.
    intros Hb. induction k as [|k IH]; [rewrite Nat.sub_diag; reflexivity|].
    rewrite seq_S, map_app, concat_app, IH. cbn [map concat plus]. rewrite app_nil_r.
    assert (b 0 <= b k) by (clear IH; induction k; [lia|]; specialize (Hb k); lia).
    specialize (Hb k). replace (b (S k) - b 0) with ((b k - b 0) + (b (S k) - b k)) by lia.
    rewrite seq_app, map_app. replace (b 0 + (b k - b 0)) with (b k) by lia. reflexivity.
  Qed.

  Lemma add_to_perm {A} (i : A) ps : forall k, k < length ps -> Permutation (concat (add_to k i ps)) (concat ps ++ [i]).
  Proof.
    induction ps as [|p ps IH]; intros k Hk; cbn [length] in Hk; [lia|]. destruct k as [|k]; cbn [add_to concat].
    - rewrite <- !app_assoc. apply Permutation_app_head. apply Permutation_app_comm.
    - rewrite <- app_assoc. apply Permutation_app_head. apply IH. lia.
  Qed.

  Lemma offsets_ok T k sched off0 : 0 < T -> k < T -> length off0 = S n ->
    offsets_of O n T k (zsum ds) ds sched off0 = Ok (map (fun v => Some (D v)) (seq 0 (S n))).
  Proof.
    intros HT Hk Hl. unfold offsets_of.
    set (b := fun t => (t * n) / T).
    assert (Hb : forall i, b i <= b (S i)) by (intros i; unfold b; apply Nat.div_le_mono; nia).
    assert (EV : forall t, vrange n T t = seq (b t) (b (S t) - b t))
      by (intros t; unfold vrange, b; rewrite Nat.add_1_r; reflexivity).
    assert (HB : forall t, t < T -> b (S t) <= n).
    { intros t Ht. unfold b. rewrite <- Nat.add_1_r. apply vrange_bounds; exact Ht. }
    rewrite (mapM_ok _ (fun t => (D (b (S t)) - D (b t))%Z)).
    2:{ intros t Ht. apply in_seq in Ht. rewrite EV. specialize (Hb t). specialize (HB t ltac:(lia)).
        destruct (range_sum (b (S t) - b t) (b t) ltac:(lia)) as (l & El & HF & HS).
        rewrite El. cbn [bind]. replace (b t + (b (S t) - b t)) with (b (S t)) in HS by lia.
        rewrite osum_ok; [f_equal; lia|exact HF|lia|].
        pose proof (D_nonneg (b t)); pose proof (D_max (b (S t))); lia. }
    cbn [bind].
    assert (E0 : b 0 = 0) by (unfold b; rewrite Nat.mul_0_l; apply Nat.div_0_l; lia).
    pose proof (ostarts_ok b T 0 Hb) as HS. rewrite E0, D_0 in HS. rewrite HS. cbn [bind].
    rewrite (mapM_ok _ (fun q => map (fun c => (c, D c)) (seq (b (fst q)) (b (S (fst q)) - b (fst q))))).
    2:{ intros [t z] Hq. cbn [fst snd].
        assert (z = D (b t) /\ t < T) as [-> Ht].
        { clear -Hq. assert (G : forall (f : nat -> Z) k a, In (t, z) (combine (seq a k) (map f (seq a k))) -> z = f t /\ a <= t < a + k).
          { intros f k. induction k as [|k IH]; intros a H; cbn in H; [destruct H|].
            destruct H as [H|H]; [injection H as -> ->; split; [reflexivity|lia]|]. apply IH in H. split; [tauto|lia]. }
          apply G in Hq. split; [tauto|lia]. }
        rewrite EV. apply off_prog_ok. specialize (Hb t). specialize (HB t Ht). lia. }
    cbn [bind].
    assert (EC : map (fun q => map (fun c => (c, D c)) (seq (b (fst q)) (b (S (fst q)) - b (fst q))))
        (combine (seq 0 T) (map (fun t => D (b t)) (seq 0 T))) =
      map (fun t => map (fun c => (c, D c)) (seq (b t) (b (S t) - b t))) (seq 0 T)).
    { clear. generalize (seq 0 T) as l. induction l as [|a l IH]; [reflexivity|]. cbn [map combine fst]. f_equal. exact IH. }
    rewrite EC. change (@sexec Z) with (@sets_exec Z).
    apply run_sets_all; [|exact Hl].
    rewrite add_to_perm by (rewrite map_length, seq_length; exact Hk).
    rewrite ranges_concat by exact Hb.
    assert (ET : b T = n) by (unfold b; rewrite Nat.mul_comm; apply Nat.div_mul; lia).
    rewrite E0, ET, Nat.sub_0_r. rewrite seq_S, map_app. cbn [map plus]. rewrite D_n. reflexivity.
  Qed.
End Offsets.
