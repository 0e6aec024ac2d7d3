From Verif Require Import Base Reader ReaderLemmas SpecCursor.

Lemma nth_error_ext_ {A} (l l' : list A) : (forall i, nth_error l i = nth_error l' i) -> l = l'.
Proof.
  revert l'. induction l as [|a l IH]; intros [|b l'] H; auto; try (specialize (H 0); discriminate).
  pose proof (H 0) as H0. cbn in H0. injection H0 as ->. f_equal. apply IH. intros i. exact (H (S i)).
Qed.

Section Cursor.
  Variable m : mem.
  Let s := bytes m.
  Variable e : nat.
  Hypothesis He : e <= flen m.
  (** The byte at [e] may be loaded. *)
  Hypothesis Hsl : e < flen m \/ slack m.

  Lemma load_in i : i < e -> load m i = Ok (byte_at s i).
  Proof.
    clear Hsl. intros H. unfold load, byte_at, s. destruct (nth_error (bytes m) i) as [b|] eqn:E.
    - now rewrite (nth_error_nth _ _ _ E).
    - apply nth_error_None in E. unfold flen in He. lia.
  Qed.

  Lemma load_to i : i <= e -> load m i = Ok (byte_at s i).
  Proof.
    intros H. destruct (Nat.eq_dec i (flen m)) as [->|N].
    - destruct Hsl as [?|X]; [lia|]. rewrite load_eof by exact X. unfold byte_at, s. f_equal. rewrite nth_overflow; [reflexivity|]. unfold flen. lia.
    - unfold load, byte_at, s. destruct (nth_error (bytes m) i) as [b|] eqn:E.
      + now rewrite (nth_error_nth _ _ _ E).
      + apply nth_error_None in E. unfold flen in *. lia.
  Qed.

  (** ** Loops over one predicate *)
  Lemma scan_first p : forall n d, d + n = e -> exists k, scan_ m p n d = Ok k /\ first_pos (not_char s p) d e k.
  Proof.
    clear Hsl. induction n as [|n IH]; intros d H; cbn [scan_].
    - exists d. split; [reflexivity|]. split; [lia|]. split; [lia|]. lia.
    - rewrite load_in by lia. cbn [bind]. destruct (p (byte_at s d)) eqn:E.
      + destruct (IH (S d) ltac:(lia)) as (k & -> & H1 & H2 & H3). exists k. split; [reflexivity|].
        split; [lia|]. split; [|exact H3]. intros i Hi. destruct (Nat.eq_dec i d) as [->|]; [unfold not_char; congruence|apply H2; lia].
      + exists d. split; [reflexivity|]. split; [lia|]. split; [lia|]. intros _. exact E.
  Qed.

  Lemma scan_is p d : d <= e -> exists k, scan m p e d = Ok k /\ first_pos (not_char s p) d e k.
  Proof. clear Hsl. intros H. apply scan_first. lia. Qed.

  Lemma first_ext P Q d k : (forall i, P i <-> Q i) -> first_pos P d e k -> first_pos Q d e k.
  Proof. clear Hsl. intros H (H1 & H2 & H3). split; [exact H1|]. split; [intros i Hi X; apply (H2 i Hi), H, X|]. intros X. now apply H, H3. Qed.

  Lemma scan_neg p q d : (forall c, q c = negb (p c)) -> d <= e -> exists k, scan m q e d = Ok k /\ first_pos (char s p) d e k.
  Proof.
    clear Hsl. intros Hq H. destruct (scan_is q d H) as (k & E & F). exists k. split; [exact E|].
    eapply first_ext; [|exact F]. intros i. unfold not_char, char. rewrite Hq. destruct (p (byte_at s i)); cbn; intuition congruence.
  Qed.

  (** ** Comments *)
  Lemma skip_line_first : forall n d, d + n = e ->
    exists k, skip_line_ m n d = Ok k /\ d <= k <= e /\
      ((k = e /\ forall i, d <= i < e -> is_nl (byte_at s i) = false) \/
       (d < k /\ is_nl (byte_at s (k - 1)) = true /\ forall i, d <= i < k - 1 -> is_nl (byte_at s i) = false)).
  Proof.
    clear Hsl. induction n as [|n IH]; intros d H; cbn [skip_line_].
    - exists d. split; [reflexivity|]. split; [lia|]. left. split; [lia|]. lia.
    - rewrite load_in by lia. cbn [bind]. destruct (is_nl (byte_at s d)) eqn:E.
      + exists (S d). split; [reflexivity|]. split; [lia|]. right. replace (S d - 1) with d by lia. split; [lia|]. split; [exact E|lia].
      + destruct (IH (S d) ltac:(lia)) as (k & -> & H1 & H2). exists k. split; [reflexivity|]. split; [lia|].
        destruct H2 as [[H2 H3]|(H2 & H3 & H4)]; [left|right].
        * split; [exact H2|]. intros i Hi. destruct (Nat.eq_dec i d) as [->|]; [exact E|apply H3; lia].
        * split; [lia|]. split; [exact H3|]. intros i Hi. destruct (Nat.eq_dec i d) as [->|]; [exact E|apply H4; lia].
  Qed.

  Lemma ic_mono a b i : a <= b -> in_comment s b i -> in_comment s a i.
  Proof. clear Hsl. intros H (j & H1 & H2 & H3). exists j. split; [lia|auto]. Qed.

  Lemma ic_self d : in_comment s d d <-> is_cmt (byte_at s d) = true.
  Proof.
    clear Hsl.
    split.
    - intros (j & H1 & H2 & _). replace d with j by lia. exact H2.
    - intros H. exists d. split; [lia|]. split; [exact H|lia].
  Qed.

  Lemma ic_dec a : forall i, in_comment s a i \/ ~ in_comment s a i.
  Proof.
    clear Hsl. assert (C : forall i, (a <= i /\ is_cmt (byte_at s i) = true) \/ ~ (a <= i /\ is_cmt (byte_at s i) = true)).
    { intros i. destruct (le_lt_dec a i); [|right; lia]. destruct (is_cmt (byte_at s i)); [left; auto|right; intros [_ H]; discriminate]. }
    induction i as [|i IH].
    - destruct (C 0) as [[H1 H2]|H]; [left; exists 0; repeat split; auto; lia|].
      right. intros (j & H1 & H2 & _). apply H. replace j with 0 in H2 by lia. split; [lia|exact H2].
    - destruct (C (S i)) as [[H1 H2]|H]; [left; exists (S i); split; [lia|]; split; [exact H2|lia]|].
      destruct IH as [(j & J1 & J2 & J3)|N].
      + destruct (is_nl (byte_at s i)) eqn:E.
        * right. intros (x & X1 & X2 & X3). destruct (Nat.eq_dec x (S i)) as [->|]; [apply H; split; [lia|exact X2]|].
          specialize (X3 i ltac:(lia)). congruence.
        * left. exists j. split; [lia|]. split; [exact J2|]. intros k Hk. destruct (Nat.eq_dec k i) as [->|]; [exact E|apply J3; lia].
      + right. intros (x & X1 & X2 & X3). destruct (Nat.eq_dec x (S i)) as [->|]; [apply H; split; [lia|exact X2]|].
        apply N. exists x. split; [lia|]. split; [exact X2|]. intros k Hk. apply X3; lia.
  Qed.

  Lemma skip_comments_first : forall fuel d, d <= e -> e - d < fuel ->
    exists k, skip_comments_ m e fuel d = Ok k /\ first_pos (fun i => ~ in_comment s d i) d e k.
  Proof.
    clear Hsl. induction fuel as [|fuel IH]; intros d Hd Hf; [lia|]. cbn [skip_comments_].
    destruct (Nat.ltb_spec d e).
    2:{ exists d. split; [reflexivity|]. split; [lia|]. split; lia. }
    rewrite load_in by lia. cbn [bind]. destruct (is_cmt (byte_at s d)) eqn:E.
    2:{ exists d. split; [reflexivity|]. split; [lia|]. split; [lia|]. intros _ X. apply ic_self in X. congruence. }
    destruct (skip_line_first (e - d) d ltac:(lia)) as (d' & -> & H1 & H2). cbn [bind].
    assert (Hd' : d < d') by lia.
    destruct (IH d' ltac:(lia) ltac:(lia)) as (k & -> & (K1 & K2 & K3)). exists k. split; [reflexivity|].
    assert (IN : forall i, d <= i < d' -> in_comment s d i).
    { intros i Hi. exists d. split; [lia|]. split; [exact E|]. intros x Hx. destruct H2 as [[_ H2]|(_ & _ & H2)]; apply H2; lia. }
    split; [lia|]. split.
    - intros i Hi X. apply X. destruct (Nat.lt_ge_cases i d'); [apply IN; lia|].
      apply (ic_mono d d'); [lia|].
      destruct (ic_dec d' i) as [Y|Y]; [exact Y|]. exfalso. apply (K2 i); [lia|exact Y].
    - intros Hk (j & J1 & J2 & J3). destruct H2 as [[H2 _]|(_ & H2 & _)]; [lia|].
      destruct (Nat.lt_ge_cases j d').
      + specialize (J3 (d' - 1) ltac:(lia)). congruence.
      + apply (K3 Hk). exists j. split; [lia|auto].
  Qed.

  Lemma skip_here_first d : d <= e -> exists k, skip_comments_here m e d = Ok k /\ first_pos (fun i => ~ in_comment s d i) d e k.
  Proof.
    intros Hd. unfold skip_comments_here. rewrite load_to by exact Hd. cbn [bind].
    destruct (is_cmt (byte_at s d)) eqn:E.
    - unfold skip_comments. apply skip_comments_first; lia.
    - exists d. split; [reflexivity|]. split; [lia|]. split; [lia|]. intros _ X. apply ic_self in X. congruence.
  Qed.

  (** Just before a position that is not in a comment, but whose predecessors
      are, there is a newline. *)
  Lemma comment_ends a b j : first_pos (fun i => ~ in_comment s a i) a e b -> b < e -> a <= j < b -> is_nl (byte_at s (b - 1)) = true.
  Proof.
    intros (H1 & H2 & H3) Hb Hj. destruct (is_nl (byte_at s (b - 1))) eqn:E; [reflexivity|]. exfalso. apply (H3 Hb).
    destruct (ic_dec a (b - 1)) as [(x & X1 & X2 & X3)|N]; [|exfalso; apply (H2 (b - 1)); [lia|exact N]].
    exists x. split; [lia|]. split; [exact X2|]. intros k Hk. destruct (Nat.eq_dec k (b - 1)) as [->|]; [exact E|apply X3; lia].
  Qed.

  Definition seen (stop : byte -> bool) (a i : nat) : Prop := char s stop i /\ ~ in_comment s a i.

  Lemma seen_comp stop a b k :
    first_pos (fun i => ~ in_comment s a i) a e b -> first_pos (seen stop b) b e k -> first_pos (seen stop a) a e k.
  Proof.
    intros F (K1 & K2 & K3). pose proof F as (B1 & B2 & B3). split; [lia|]. split.
    - intros i Hi (X1 & X2). destruct (Nat.lt_ge_cases i b).
      + apply (B2 i); [lia|exact X2].
      + apply (K2 i); [lia|]. split; [exact X1|]. intros Y. apply X2. apply (ic_mono a b); [lia|exact Y].
    - intros Hk. destruct (K3 Hk) as [X1 X2]. split; [exact X1|]. intros (j & J1 & J2 & J3).
      destruct (Nat.lt_ge_cases j b).
      + pose proof (comment_ends a b j F ltac:(lia) ltac:(lia)) as N. specialize (J3 (b - 1) ltac:(lia)). congruence.
      + apply X2. exists j. split; [lia|auto].
  Qed.

  Lemma seek_first stop : (forall c, stop c = true -> is_cmt c = false) -> forall fuel d, d <= e -> e - d < fuel ->
    (d < e -> is_cmt (byte_at s d) = false) ->
    exists k, seek_ m stop e fuel d = Ok k /\ first_pos (seen stop d) d e k.
  Proof.
    intros Hst. induction fuel as [|fuel IH]; intros d Hd Hf Hc; [lia|]. cbn [seek_].
    destruct (Nat.ltb_spec d e) as [Hl|].
    2:{ exists d. split; [reflexivity|]. split; [lia|]. split; lia. }
    specialize (Hc Hl). rewrite load_in by lia. cbn [bind]. destruct (stop (byte_at s d)) eqn:E.
    - exists d. split; [reflexivity|]. split; [lia|]. split; [lia|]. intros _. split; [exact E|]. intros X. apply ic_self in X. congruence.
    - destruct (skip_here_first (S d) ltac:(lia)) as (d' & -> & F). cbn [bind]. pose proof F as (F1 & F2 & F3).
      destruct (IH d' ltac:(lia) ltac:(lia)) as (k & -> & K).
      { intros X. specialize (F3 X). destruct (is_cmt (byte_at s d')) eqn:Y; [|reflexivity]. exfalso. apply F3.
        exists d'. split; [lia|]. split; [exact Y|lia]. }
      exists k. split; [reflexivity|]. pose proof (seen_comp stop (S d) d' k F K) as (K1 & K2 & K3).
      assert (IC : forall i, in_comment s d i -> in_comment s (S d) i).
      { intros i (j & J1 & J2 & J3). destruct (Nat.eq_dec j d) as [->|]; [congruence|]. exists j. split; [lia|auto]. }
      split; [lia|]. split.
      + intros i Hi (X1 & X2). destruct (Nat.eq_dec i d) as [->|]; [unfold char in X1; congruence|].
        apply (K2 i); [lia|]. split; [exact X1|]. intros Y. apply X2. apply (ic_mono d (S d)); [lia|exact Y].
      + intros Hk. destruct (K3 Hk) as [X1 X2]. split; [exact X1|]. intros Y. apply X2, IC, Y.
  Qed.

  Lemma seek_from stop d : (forall c, stop c = true -> is_cmt c = false) -> d <= e ->
    exists k, (d1 <- skip_comments_here m e d ;; seek_ m stop e (S (e - d1)) d1) = Ok k /\ first_pos (seen stop d) d e k.
  Proof.
    intros Hst Hd. destruct (skip_here_first d Hd) as (d1 & -> & F). cbn [bind]. pose proof F as (F1 & F2 & F3).
    destruct (seek_first stop Hst (S (e - d1)) d1 ltac:(lia) ltac:(lia)) as (k & -> & K).
    { intros X. specialize (F3 X). destruct (is_cmt (byte_at s d1)) eqn:Y; [|reflexivity]. exfalso. apply F3.
      exists d1. split; [lia|]. split; [exact Y|lia]. }
    exists k. split; [reflexivity|]. eapply seen_comp; eauto.
  Qed.

  Lemma digit_nc c : is_digit c = true -> is_cmt c = false.
  Proof. unfold is_digit, is_cmt, ch_pct, ch_hash, ch_0, ch_9. lia. Qed.
  Lemma signed_nc c : is_signed_start c = true -> is_cmt c = false.
  Proof. unfold is_signed_start, is_digit, is_cmt, ch_pct, ch_hash, ch_0, ch_9, ch_plus, ch_minus. lia. Qed.

  Lemma first_int_first d : d <= e -> exists k, move_to_first_int m e d = Ok k /\ first_pos (seen is_digit d) d e k.
  Proof. intros Hd. apply (seek_from is_digit d digit_nc Hd). Qed.

  (** ** The end of a line *)
  Lemma load_n_ok : forall n d, d + n <= e -> exists r, load_n m n d = Ok r /\ length r = n /\ forall i, i < n -> nth_error r i = Some (byte_at s (d + i)).
  Proof.
    clear Hsl. induction n as [|n IH]; intros d H; cbn [load_n].
    - exists []. split; [reflexivity|]. split; [reflexivity|lia].
    - rewrite load_in by lia. cbn [bind]. destruct (IH (S d) ltac:(lia)) as (r & -> & L & R). cbn [bind].
      eexists. split; [reflexivity|]. split; [cbn; lia|]. intros [|i] Hi; cbn [nth_error].
      + now rewrite Nat.add_0_r.
      + rewrite R by lia. f_equal. f_equal. lia.
  Qed.

  Lemma str_eq_iff a b : str_eq a b = true <-> a = b.
  Proof.
    clear Hsl He. revert b. induction a as [|x a IH]; intros [|y b]; cbn; split; intros H; try congruence; try discriminate.
    - apply andb_prop in H as [H1 H2]. apply IH in H2. subst. f_equal. lia.
    - injection H as -> ->. rewrite Z.eqb_refl. apply IH. reflexivity.
  Qed.

  Lemma at_str_text t d : exists b, at_str m e d t = Ok b /\ (b = true <-> text_at s t d e).
  Proof.
    clear Hsl. unfold at_str, text_at. destruct (Nat.leb_spec e (d + length t)).
    - exists false. split; [reflexivity|]. split; [discriminate|lia].
    - destruct (load_n_ok (length t) d ltac:(lia)) as (r & -> & L & R). cbn [bind].
      eexists. split; [reflexivity|]. rewrite str_eq_iff. split.
      + intros ->. split; [exact H|exact R].
      + intros [_ X]. apply nth_error_ext_. intros i. destruct (Nat.lt_ge_cases i (length t)).
        * now rewrite X, R.
        * transitivity (@None byte); [|symmetry]; apply nth_error_None; lia.
  Qed.
End Cursor.
