(** * SchedLemmas: interleavings of independent threads *)

From Verif Require Import Base Sched.

Lemma bind_assoc {A B C} (x : res A) (f : A -> res B) (g : B -> res C) :
  bind (bind x f) g = bind x (fun a => bind (f a) g).
Proof. destruct x; reflexivity. Qed.

Lemma bind_ok_inv {A B} (x : res A) (f : A -> res B) b :
  bind x f = Ok b -> exists a, x = Ok a /\ f a = Ok b.
Proof. destruct x; cbn; intros H; try discriminate; eauto. Qed.

Lemma bind_ext {A B} (x : res A) (f g : A -> res B) :
  (forall a, f a = g a) -> bind x f = bind x g.
Proof. intros H; destruct x; cbn; auto. Qed.

Section Indep.
  Context {S I : Type}.
  Variable exec : I -> S -> res S.

  (** Two actions commute: performing them in either order gives the same
      outcome from every state. *)
  Definition comm (i j : I) : Prop :=
    forall s, bind (exec i s) (exec j) = bind (exec j s) (exec i).

  Definition indep (p q : list I) : Prop := forall i j, In i p -> In j q -> comm i j.

  Lemma exec_all_app l1 l2 s :
    exec_all exec (l1 ++ l2) s = bind (exec_all exec l1 s) (exec_all exec l2).
  Proof.
    revert s; induction l1 as [|i l1 IH]; intros s; [reflexivity|].
    cbn [app exec_all]. rewrite bind_assoc. apply bind_ext; intros a; apply IH.
  Qed.

  Lemma exec_all_pull i l r s :
    (forall j, In j l -> comm j i) ->
    exec_all exec (l ++ i :: r) s = bind (exec i s) (exec_all exec (l ++ r)).
  Proof.
    revert s; induction l as [|j l IH]; intros s Hc; [reflexivity|].
    cbn [app exec_all].
    erewrite bind_ext; [|intros a; apply IH; intros k Hk; apply Hc; right; exact Hk].
    rewrite <- bind_assoc, (Hc j (or_introl eq_refl)), bind_assoc. reflexivity.
  Qed.

  Lemma pop_split t (ps : list (list I)) i ps' :
    pop t ps = Some (i, ps') ->
    exists A p B, ps = A ++ (i :: p) :: B /\ ps' = A ++ p :: B.
  Proof.
    revert ps ps'; induction t as [|t IH]; intros [|p ps] ps' H; cbn in H; try discriminate.
    - destruct p as [|j p]; [discriminate|]. injection H as -> <-.
      exists [], p, ps; auto.
    - destruct (pop t ps) as [[k ps'']|] eqn:E; [|discriminate].
      injection H as -> <-. destruct (IH _ _ E) as (A & q & B & -> & ->).
      exists (p :: A), q, B; auto.
  Qed.

  Lemma fop_app_mid {X} (R : X -> X -> Prop) A x x' B :
    (forall y, R y x -> R y x') -> (forall y, R x y -> R x' y) ->
    ForallOrdPairs R (A ++ x :: B) -> ForallOrdPairs R (A ++ x' :: B).
  Proof.
    intros H1 H2. induction A as [|a A IH]; cbn [app]; intros H; inversion H; subst.
    - constructor; [|assumption].
      match goal with F : Forall _ _ |- _ =>
        eapply Forall_impl; [|exact F] end. auto.
    - constructor; [|apply IH; assumption].
      match goal with F : Forall _ _ |- _ => rename F into HF end.
      apply Forall_app in HF as [HF1 HF2]. inversion HF2; subst.
      apply Forall_app; split; [assumption|]. constructor; auto.
  Qed.

  Lemma fop_before {X} (R : X -> X -> Prop) A x B :
    ForallOrdPairs R (A ++ x :: B) -> Forall (fun y => R y x) A.
  Proof.
    induction A as [|a A IH]; cbn [app]; intros H; [constructor|].
    inversion H; subst. constructor; [|apply IH; assumption].
    match goal with F : Forall (R a) _ |- _ => rewrite Forall_forall in F; apply F end.
    apply in_or_app; right; left; reflexivity.
  Qed.

  (** If actions of different threads commute pairwise, every interleaving has
      the outcome of running the threads one after the other. *)
  Theorem run_indep sched ps s :
    ForallOrdPairs indep ps ->
    run exec sched ps s = exec_all exec (concat ps) s.
  Proof.
    revert ps s; induction sched as [|t sched IH]; intros ps s HI; [reflexivity|].
    cbn [run]. destruct (pop t ps) as [[i ps']|] eqn:E; [|apply IH; exact HI].
    destruct (pop_split _ _ _ _ E) as (A & p & B & -> & ->).
    rewrite concat_app; cbn [concat app].
    rewrite exec_all_pull.
    - apply bind_ext; intros s'. rewrite IH.
      + rewrite concat_app; reflexivity.
      + eapply fop_app_mid; [| |exact HI]; intros q Hq a b Ha Hb; apply Hq; cbn; auto.
    - intros j Hj. apply in_concat in Hj as (q & Hq & Hj).
      pose proof (fop_before _ _ _ _ HI) as HF. rewrite Forall_forall in HF.
      exact (HF q Hq j i Hj (or_introl eq_refl)).
  Qed.
End Indep.

(** ** Arrays *)
Lemma upd_length {V} i (v : V) l : length (upd i v l) = length l.
Proof. revert i; induction l as [|a l IH]; intros [|i]; cbn; auto. Qed.

Lemma upd_comm {V} i j (a b : V) l : i <> j -> upd i a (upd j b l) = upd j b (upd i a l).
Proof.
  revert i j; induction l as [|c l IH]; intros [|i] [|j] H; cbn; auto; try lia.
  f_equal; apply IH; lia.
Qed.

Lemma nth_error_upd_ne {V} i j (a : V) l : i <> j -> nth_error (upd i a l) j = nth_error l j.
Proof.
  revert i j; induction l as [|c l IH]; intros [|i] [|j] H; cbn; auto; try lia.
Qed.

Lemma nth_error_upd_eq {V} i (a : V) l : i < length l -> nth_error (upd i a l) i = Some a.
Proof.
  revert i; induction l as [|c l IH]; intros [|i] H; cbn in *; auto; try lia.
  apply IH; lia.
Qed.

Lemma upd_app_r {V} (l1 l2 : list V) i v :
  upd (length l1 + i) v (l1 ++ l2) = l1 ++ upd i v l2.
Proof. induction l1 as [|a l1 IH]; cbn; [reflexivity|]. f_equal; exact IH. Qed.

Lemma upd_mid {V} (l1 l2 : list V) a v : upd (length l1) v (l1 ++ a :: l2) = l1 ++ v :: l2.
Proof. rewrite <- (Nat.add_0_r (length l1)), upd_app_r. reflexivity. Qed.

Lemma upd_out {V} i (v : V) l : length l <= i -> upd i v l = l.
Proof.
  revert i; induction l as [|a l IH]; intros [|i] H; cbn in *; auto; try lia.
  f_equal; apply IH; lia.
Qed.

Lemma fresh_length {V} n : length (@fresh V n) = n.
Proof. apply repeat_length. Qed.
