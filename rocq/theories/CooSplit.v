(** * CooSplit: where the threads' ranges begin and end *)

From Verif Require Import Base Reader Sched SchedLemmas Spec ReaderLemmas Coo CooLemmas.

Definition isnil {A} (l : list A) : bool := match l with [] => true | _ => false end.

Lemma wf_lines_cons l ls : wf_lines (l :: ls) <-> wf_line (isnil ls) l /\ wf_lines ls.
Proof. destruct ls; cbn; tauto. Qed.

Definition text (ls : list line) : list byte := concat (map line_text ls).

Lemma text_app a b : text (a ++ b) = text a ++ text b.
Proof. unfold text. rewrite map_app, concat_app. reflexivity. Qed.

Lemma gap_suffix_nl fin g : gap fin g -> forall a b, g = a ++ ch_nl :: b -> gap fin b.
Proof.
  induction 1 as [|c s Hd Hc Hg IH|c body s Hc Hb Hg IH|c body Hf Hc Hb]; intros a b E.
  - destruct a; discriminate.
  - destruct a as [|c' a]; cbn [app] in E.
    + injection E as E1 E2. subst s; exact Hg.
    + injection E as E1 E2. eapply IH; exact E2.
  - destruct a as [|c' a]; cbn [app] in E.
    { injection E as E1 E2. subst c. discriminate Hc. }
    injection E as E1 E2. clear Hc E1. revert a E2. induction Hb as [|c0 body H0 Hb IHb]; intros a E2.
    + destruct a as [|c1 a]; cbn [app] in E2.
      * injection E2 as E3. subst; exact Hg.
      * injection E2 as E3 E4. eapply IH; exact E4.
    + destruct a as [|c1 a]; cbn [app] in E2; injection E2 as E3 E4; [subst; discriminate H0|].
      eapply IHb; exact E4.
  - exfalso. destruct a as [|c' a]; cbn [app] in E.
    { injection E as E1 E2. subst c. discriminate Hc. }
    injection E as E1 E2.
    subst body. apply Forall_app in Hb as [_ Hb]. inversion Hb as [|? ? Hx]; subst. discriminate Hx.
Qed.

(** Is there a newline at or after position [p] of [g]? *)
Definition nl_from (p : nat) (g : list byte) : bool := existsb is_nl (skipn p g).

Lemma nl_split s : existsb is_nl s = true ->
  exists a b, s = a ++ ch_nl :: b /\ Forall (fun c => is_nl c = false) a.
Proof.
  induction s as [|c s IH]; cbn; [discriminate|]. destruct (is_nl c) eqn:E; cbn.
  - intros _. exists [], s. split; [|constructor]. cbn. f_equal. unfold is_nl in E. lia.
  - intros H. destruct (IH H) as (a & b & -> & Ha). exists (c :: a), b. split; [reflexivity|]. constructor; auto.
Qed.

Lemma no_nl s : existsb is_nl s = false -> Forall (fun c => is_nl c = false) s.
Proof.
  induction s as [|c s IH]; cbn; [constructor|]. destruct (is_nl c) eqn:E; cbn; [discriminate|]. auto.
Qed.

Lemma skipn_skipn_ {A} a b (l : list A) : skipn a (skipn b l) = skipn (a + b) l.
Proof.
  revert l; induction b as [|b IH]; intros l; [rewrite Nat.add_0_r; reflexivity|].
  destruct l as [|c l]; [rewrite !skipn_nil; reflexivity|]. rewrite Nat.add_succ_r. cbn [skipn]. apply IH.
Qed.

Lemma nl_from_mono p q g : p <= q -> nl_from q g = true -> nl_from p g = true.
Proof.
  unfold nl_from. intros H Hq. rewrite existsb_exists in *. destruct Hq as (c & Hin & Hc). exists c; split; [|exact Hc].
  replace q with ((q - p) + p) in Hin by lia. rewrite <- skipn_skipn_ in Hin.
  rewrite <- (firstn_skipn (q - p) (skipn p g)). apply in_or_app; right; exact Hin.
Qed.

Lemma nl_from_end p g : length g <= p -> nl_from p g = false.
Proof. intros H; unfold nl_from. rewrite skipn_all2 by exact H. reflexivity. Qed.

(** The number of lines before the boundary a thread finds from position [p]
    of the text [g ++ text ls]. *)
Fixpoint kf (g : list byte) (ls : list line) (p : nat) : nat :=
  match ls with
  | [] => 0
  | l :: ls' =>
      if nl_from p g then 0
      else if p <=? length g + length (lhead l) then 1
      else S (kf (l_gap l) ls' (p - (length g + length (lhead l) + 1)))
  end.

Lemma kf_mono g ls p q : p <= q -> kf g ls p <= kf g ls q.
Proof.
  revert g p q; induction ls as [|l ls IH]; intros g p q H; cbn [kf]; [lia|].
  destruct (nl_from p g) eqn:Ep; [lia|].
  destruct (nl_from q g) eqn:Eq; [rewrite (nl_from_mono p q g H Eq) in Ep; discriminate|].
  destruct (Nat.leb_spec p (length g + length (lhead l)));
  destruct (Nat.leb_spec q (length g + length (lhead l))); try lia.
  apply le_n_S, IH; lia.
Qed.

Lemma kf_le g ls p : kf g ls p <= length ls.
Proof.
  revert g p; induction ls as [|l ls IH]; intros g p; cbn [kf length]; [lia|].
  destruct (nl_from p g); [lia|]. destruct (p <=? _); [lia|]. apply le_n_S, IH.
Qed.

Lemma kf_end g ls p : length (g ++ text ls) <= p -> kf g ls p = length ls.
Proof.
  revert g p; induction ls as [|l ls IH]; intros g p H; cbn [kf length]; [reflexivity|].
  rewrite app_length in H. unfold text in H; cbn [map concat] in H; fold (text ls) in H.
  rewrite app_length, line_text_len in H.
  rewrite nl_from_end by lia. destruct (Nat.leb_spec p (length g + length (lhead l))); [lia|].
  f_equal. apply IH. rewrite app_length. lia.
Qed.

(** The offset of the [k]-th line. *)
Definition off (d : nat) (g : list byte) (ls : list line) (k : nat) : nat :=
  d + length g + length (text (firstn k ls)).

Lemma off_S d g l ls k : off d g (l :: ls) (S k) = off (d + length g + length (lhead l) + 1) (l_gap l) ls k.
Proof.
  unfold off. cbn [firstn]. unfold text; cbn [map concat]. rewrite app_length, line_text_len. lia.
Qed.

Section Split.
  Variable m : mem.
  Variable e : nat.
  Variable ce : byte.
  Hypothesis Hce : load m e = Ok ce.
  Hypothesis Hce' : is_cmt ce = false.

  Lemma ends_end : ends m is_digit e e.
  Proof. exists ce. repeat split; auto; lia. Qed.

  Lemma ends_text d ls : wf_lines ls -> has m d (text ls) -> d + length (text ls) = e -> ends m is_digit e d.
  Proof.
    intros Hw Hh He. destruct ls as [|l ls].
    - cbn in He. rewrite Nat.add_0_r in He. subst d. apply ends_end.
    - apply wf_lines_cons in Hw as [((Hne & Hd) & _) _].
      unfold text in *; cbn [map concat] in *. unfold line_text in Hh at 1. rewrite <- !app_assoc in Hh.
      destruct (l_x l) as [|c x] eqn:Ex; [congruence|]. cbn [app] in Hh.
      exists c. apply forall_hd in Hd.
      split; [eapply load_has; exact Hh|]. split; [apply digit_not_cmt; exact Hd|].
      split; [lia|intros _; exact Hd].
  Qed.

  Lemma next_line_kf : forall ls d g p,
    gap (isnil ls) g -> wf_lines ls -> has m d (g ++ text ls) -> d + length (g ++ text ls) = e ->
    p <= length (g ++ text ls) ->
    next_line m e (d + p) = Ok (off d g ls (kf g ls p)).
  Proof.
    assert (Hnl : forall ls d g p,
      gap (isnil ls) g -> wf_lines ls -> has m d (g ++ text ls) -> d + length (g ++ text ls) = e ->
      nl_from p g = true -> next_line m e (d + p) = Ok (d + length g)).
    { intros ls d g p Hg Hw Hh He Hp. rewrite app_length in He.
      destruct (nl_split _ Hp) as (a & b & Es & Ha).
      assert (Hpl : p <= length g).
      { destruct (Nat.le_gt_cases p (length g)) as [|Hgt]; [assumption|]. rewrite nl_from_end in Hp by lia. discriminate. }
      assert (Hlen : length g = p + (length a + 1 + length b)).
      { rewrite <- (firstn_skipn p g), app_length, firstn_length_le, Es, app_length by lia. cbn [length]; lia. }
      rewrite (next_line_from m (isnil ls) e (d + p) a b).
      - f_equal; lia.
      - exact Ha.
      - eapply gap_suffix_nl with (a := firstn p g ++ a); [exact Hg|].
        rewrite <- app_assoc, <- Es, firstn_skipn. reflexivity.
      - apply (has_skipn m d p g (text ls)) in Hh; [|exact Hpl]. rewrite Es in Hh.
        apply has_app in Hh; apply Hh.
      - replace (d + p + length a + 1 + length b) with (d + length g) by lia.
        apply has_app in Hh as [_ Hh]. apply ends_text with (ls := ls); auto; lia.
      - intros Hn. destruct ls as [|? ?]; [|discriminate]. cbn in He. lia. }
    induction ls as [|l ls IH]; intros d g p Hg Hw Hh He Hp; cbn [kf].
    - destruct (nl_from p g) eqn:En.
      + rewrite (Hnl [] d g p Hg Hw Hh He En). unfold off; cbn. f_equal; lia.
      + unfold off; cbn in *. rewrite app_nil_r in *. rewrite Nat.add_0_r, He.
        unfold next_line, move_to_eol.
        rewrite (scan_to m _ e (d + p) (skipn p g)).
        * rewrite skipn_length. replace (d + p + (length g - p)) with e by lia. cbn [bind].
          apply move_to_next_int_end with (c := ce); assumption.
        * rewrite <- (app_nil_r (skipn p g)). apply (has_skipn m d p g []); [exact Hp|]. rewrite app_nil_r; exact Hh.
        * eapply Forall_impl; [|apply no_nl; exact En]. cbn; intros c ->; reflexivity.
        * rewrite skipn_length; lia.
        * left. rewrite skipn_length; lia.
    - destruct (nl_from p g) eqn:En.
      + rewrite (Hnl (l :: ls) d g p Hg Hw Hh He En). unfold off; cbn. f_equal; lia.
      + rewrite app_length in He, Hp.
        unfold text in Hh, He, Hp; cbn [map concat] in Hh, He, Hp. fold (text ls) in Hh, He, Hp.
        rewrite line_text_eq in Hh, He, Hp. rewrite !app_length in He, Hp. cbn [length] in He, Hp.
        apply wf_lines_cons in Hw as [Hwl Hw].
        assert (Hh2 : has m d ((g ++ lhead l) ++ ch_nl :: (l_gap l ++ text ls))).
        { repeat rewrite <- app_assoc in Hh |- *. exact Hh. }
        assert (Hg2 : has m (d + length g + length (lhead l) + 1) (l_gap l ++ text ls)).
        { apply has_app in Hh2 as [_ [_ H]]. rewrite app_length in H.
          replace (d + length g + length (lhead l) + 1) with (S (d + (length g + length (lhead l)))) by lia. exact H. }
        assert (Hends : ends m is_digit e (d + length g + length (lhead l) + 1 + length (l_gap l))).
        { apply has_app in Hg2 as [_ Hg2]. apply ends_text with (ls := ls); auto; lia. }
        assert (Hfin : isnil ls = true -> d + length g + length (lhead l) + 1 + length (l_gap l) = e).
        { intros Hn. destruct ls; [|discriminate]. cbn in He. lia. }
        destruct (Nat.leb_spec p (length g + length (lhead l))) as [Hle|Hgt].
        * rewrite (next_line_from m (isnil ls) e (d + p) (skipn p (g ++ lhead l)) (l_gap l)).
          -- rewrite off_S. unfold off. cbn [firstn]. unfold text; cbn. rewrite skipn_length, app_length. f_equal; lia.
          -- rewrite skipn_app. apply Forall_app; split; [apply no_nl; exact En|].
             apply skipn_forall. eapply lhead_nl; exact Hwl.
          -- apply Hwl.
          -- apply (has_skipn m d p (g ++ lhead l)) in Hh2; [|rewrite app_length; lia].
             change (ch_nl :: l_gap l ++ text ls) with ((ch_nl :: l_gap l) ++ text ls) in Hh2.
             rewrite app_assoc in Hh2. apply has_app in Hh2; apply Hh2.
          -- rewrite skipn_length, app_length.
             replace (d + p + (length g + length (lhead l) - p) + 1 + length (l_gap l))
               with (d + length g + length (lhead l) + 1 + length (l_gap l)) by lia. exact Hends.
          -- intros Hn. specialize (Hfin Hn). rewrite skipn_length, app_length. lia.
        * rewrite off_S.
          rewrite <- (IH (d + length g + length (lhead l) + 1) (l_gap l)
                         (p - (length g + length (lhead l) + 1))).
          -- f_equal; lia.
          -- apply Hwl.
          -- exact Hw.
          -- exact Hg2.
          -- rewrite app_length; lia.
          -- rewrite app_length; lia.
  Qed.
End Split.
