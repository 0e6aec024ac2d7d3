(** * SchedMore: more about interleavings *)

From Coq Require Import Permutation.
From Verif Require Import Base Sched SchedLemmas.

(** ** The interleaving a schedule denotes *)
Section Merge.
  Context {S I : Type}.
  Variable exec : I -> S -> res S.

  (** [l] interleaves the programs [ps]. *)
  Inductive merge : list (list I) -> list I -> Prop :=
  | merge_seq ps : merge ps (concat ps)
  | merge_pop t ps i ps' l : pop t ps = Some (i, ps') -> merge ps' l -> merge ps (i :: l).

  Lemma run_merge sched : forall ps, exists l, merge ps l /\ forall s, run exec sched ps s = exec_all exec l s.
  Proof.
    induction sched as [|t sched IH]; intros ps.
    - exists (concat ps). split; [constructor|reflexivity].
    - cbn [run]. destruct (pop t ps) as [[i ps']|] eqn:E.
      + destruct (IH ps') as (l & Hm & Hl). exists (i :: l). split; [econstructor; eassumption|].
        intros s. cbn [exec_all]. apply bind_ext. intros a. apply Hl.
      + destruct (IH ps) as (l & Hm & Hl). exists l. split; assumption.
  Qed.

  Lemma merge_perm ps l : merge ps l -> Permutation l (concat ps).
  Proof.
    induction 1 as [ps|t ps i ps' l E M IH]; [apply Permutation_refl|].
    destruct (pop_split _ _ _ _ E) as (A & p & B & -> & ->). rewrite concat_app in *. cbn [concat app] in *.
    rewrite IH. apply Permutation_middle.
  Qed.

  (** Every program is a subsequence of the interleaving. *)
  Inductive sub : list I -> list I -> Prop :=
  | sub_nil l : sub [] l
  | sub_take i p l : sub p l -> sub (i :: p) (i :: l)
  | sub_skip i p l : sub p l -> sub p (i :: l).

  Lemma sub_refl l : sub l l.
  Proof. induction l; constructor; auto. Qed.
  Lemma sub_app_l a b p : sub p b -> sub p (a ++ b).
  Proof. induction a; cbn; auto. intros; constructor; auto. Qed.
  Lemma sub_app_r a b p : sub p a -> sub p (a ++ b).
  Proof. induction 1; cbn; constructor; auto. Qed.

  Lemma merge_sub ps l : merge ps l -> forall p, In p ps -> sub p l.
  Proof.
    induction 1 as [ps|t ps i ps' l E M IH]; intros p Hp.
    - apply in_split in Hp as (A & B & ->). rewrite concat_app. apply sub_app_l. cbn [concat]. apply sub_app_r, sub_refl.
    - destruct (pop_split _ _ _ _ E) as (A & q & B & -> & ->).
      apply in_app_or in Hp as [Hp|[<-|Hp]].
      + apply sub_skip, IH. apply in_or_app; auto.
      + apply sub_take, IH. apply in_or_app; right; left; reflexivity.
      + apply sub_skip, IH. apply in_or_app; right; right; exact Hp.
  Qed.

  Lemma sub_in p l : sub p l -> forall i, In i p -> In i l.
  Proof. induction 1; intros j Hj; [destruct Hj|destruct Hj as [<-|Hj]; [left; reflexivity|right; auto]|right; auto]. Qed.

  (** If [a] comes before [b] in a subsequence of a duplicate-free list, it does
      in the list. *)
  Lemma sub_before p l : sub p l -> NoDup l -> forall p1 p2 a b, p = p1 ++ a :: p2 -> In b p2 ->
    forall l1 l2, l = l1 ++ b :: l2 -> In a l1.
  Proof.
    induction 1 as [l|i p l Hs IH|i p l Hs IH]; intros Hn p1 p2 a b E Hb l1 l2 El.
    - destruct p1; discriminate.
    - inversion Hn as [|? ? Hni Hn']; subst. destruct p1 as [|k p1]; cbn [app] in E; injection E as -> ->.
      + destruct l1 as [|j l1]; cbn [app] in El; injection El as -> ->.
        * exfalso. apply Hni. apply (sub_in _ _ Hs); exact Hb.
        * left; reflexivity.
      + destruct l1 as [|j l1]; cbn [app] in El; injection El as -> ->.
        * exfalso. apply Hni. apply (sub_in _ _ Hs). apply in_or_app; right; right; exact Hb.
        * right. eapply IH; eauto.
    - inversion Hn as [|? ? Hni Hn']; subst. destruct l1 as [|j l1]; cbn [app] in El; injection El as -> ->.
      + exfalso. apply Hni. apply (sub_in _ _ Hs). apply in_or_app; right; right; exact Hb.
      + right. eapply IH; eauto.
  Qed.

  Lemma merge_single p l : merge [p] l -> l = p.
  Proof.
    intros H. remember [p] as ps eqn:E. revert p E. induction H as [ps|t ps i ps' l E M IH]; intros p ->.
    - cbn. apply app_nil_r.
    - destruct t as [|t]; cbn [pop] in E; [|destruct t; discriminate].
      destruct p as [|j p]; [discriminate|]. injection E as <- <-. f_equal. apply IH; reflexivity.
  Qed.

  Lemma merge_app_nil ps l : merge ps l -> concat ps = [] -> l = [].
  Proof. intros H E. apply merge_perm in H. rewrite E in H. apply Permutation_sym, Permutation_nil in H. exact H. Qed.
End Merge.

Lemma nth_error_ext_all {V} (l l' : list V) : length l = length l' ->
  (forall i, i < length l -> nth_error l i = nth_error l' i) -> l = l'.
Proof.
  revert l'. induction l as [|a l IH]; intros [|b l'] Hl H; cbn in Hl; try lia; [reflexivity|].
  f_equal; [specialize (H 0); cbn in H; injection (H ltac:(lia)); auto|].
  apply IH; [lia|]. intros i Hi. apply (H (S i)). cbn; lia.
Qed.

Lemma nth_error_seq' n : forall a i, i < n -> nth_error (seq a n) i = Some (a + i).
Proof.
  induction n as [|n IH]; intros a i Hi; [lia|]. destruct i as [|i]; cbn [seq nth_error]; [f_equal; lia|].
  rewrite IH by lia. f_equal; lia.
Qed.

(** ** Stores to distinct cells of one array *)
Section Sets.
  Context {V : Type}.
  Definition sets_exec (i : nat * V) (l : list (option V)) : res (list (option V)) := aset (fst i) (snd i) l.

  Lemma exec_sets ps : forall l, Forall (fun i => fst i < length l) ps -> NoDup (map fst ps) ->
    exists l', exec_all sets_exec ps l = Ok l' /\ length l' = length l /\
      (forall a v, In (a, v) ps -> nth_error l' a = Some (Some v)) /\
      (forall a, ~ In a (map fst ps) -> nth_error l' a = nth_error l a).
  Proof.
    induction ps as [|[a v] ps IH]; intros l HF HN; cbn [exec_all].
    - exists l. repeat split; auto. intros a v [].
    - inversion HF as [|? ? Ha HF']; inversion HN as [|? ? Hna HN']; subst. cbn [fst] in *.
      unfold sets_exec at 1, aset. cbn [fst snd]. destruct (Nat.ltb_spec a (length l)); [|lia]. cbn [bind].
      destruct (IH (upd a (Some v) l)) as (l' & E & Hl & H1 & H2).
      + rewrite upd_length. exact HF'.
      + exact HN'.
      + rewrite upd_length in Hl. exists l'. split; [exact E|]. split; [exact Hl|]. split.
        * intros b w [Eb|Hb]; [injection Eb as <- <-|apply H1; exact Hb].
          rewrite H2 by exact Hna. apply nth_error_upd_eq; lia.
        * intros b Hb. cbn [map In fst] in Hb. rewrite H2 by tauto. apply nth_error_upd_ne. tauto.
  Qed.

  Lemma sets_comm (i j : nat * V) : fst i <> fst j -> comm sets_exec i j.
  Proof.
    intros H s. unfold sets_exec, aset.
    destruct (Nat.ltb_spec (fst i) (length s)), (Nat.ltb_spec (fst j) (length s)); cbn [bind]; rewrite ?upd_length;
      repeat match goal with |- context [(?a <? ?b)] => destruct (Nat.ltb_spec a b) end; try lia; try reflexivity.
    rewrite upd_comm by auto. reflexivity.
  Qed.

  (** Any interleaving of stores to distinct cells. *)
  Lemma run_sets sched ps l : Forall (fun i => fst i < length l) (concat ps) -> NoDup (map fst (concat ps)) ->
    exists l', run sets_exec sched ps l = Ok l' /\ length l' = length l /\
      (forall a v, In (a, v) (concat ps) -> nth_error l' a = Some (Some v)) /\
      (forall a, ~ In a (map fst (concat ps)) -> nth_error l' a = nth_error l a).
  Proof.
    intros HF HN. destruct (run_merge sets_exec sched ps) as (q & Hm & Hq). pose proof (merge_perm _ _ Hm) as HP.
    rewrite Hq. destruct (exec_sets q l) as (l' & E & Hl & H1 & H2).
    - apply Forall_forall. intros i Hi. apply (Permutation_in _ HP) in Hi. rewrite Forall_forall in HF. apply HF; exact Hi.
    - eapply Permutation_NoDup; [|exact HN]. apply Permutation_map, Permutation_sym, HP.
    - exists l'. split; [exact E|]. split; [exact Hl|]. split.
      + intros a v Hi. apply H1. apply (Permutation_in _ (Permutation_sym HP)); exact Hi.
      + intros a Ha. apply H2. intros Hi. apply Ha. apply (Permutation_in _ (Permutation_map fst HP)); exact Hi.
  Qed.

  (** All cells are written. *)
  Lemma run_sets_all sched ps (f : nat -> V) n :
    Permutation (concat ps) (map (fun i => (i, f i)) (seq 0 n)) ->
    forall l, length l = n -> run sets_exec sched ps l = Ok (map (fun i => Some (f i)) (seq 0 n)).
  Proof.
    intros HP l Hl. assert (EM : map fst (map (fun i => (i, f i)) (seq 0 n)) = seq 0 n).
    { rewrite map_map. cbn [fst]. apply map_id. }
    destruct (run_sets sched ps l) as (l' & E & Hl' & H1 & _).
    - apply Forall_forall. intros i Hi. apply (Permutation_in _ HP) in Hi. apply in_map_iff in Hi as (k & <- & Hk).
      apply in_seq in Hk. cbn [fst]. lia.
    - eapply Permutation_NoDup; [apply Permutation_map, Permutation_sym, HP|]. rewrite EM. apply seq_NoDup.
    - rewrite E. f_equal. apply nth_error_ext_all; [rewrite map_length, seq_length; lia|].
      intros i Hi. rewrite nth_error_map. rewrite (H1 i (f i)).
      + rewrite nth_error_seq'; [reflexivity|lia].
      + apply (Permutation_in _ (Permutation_sym HP)). apply in_map_iff. exists i. split; [reflexivity|]. apply in_seq. lia.
  Qed.
End Sets.
