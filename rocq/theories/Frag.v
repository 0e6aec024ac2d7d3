(** * Frag: dividing a line-oriented file between threads

    [Blocks] for files whose last line may lack its newline: a block is a line
    without newlines that begins with a digit, its newline and the text up to
    the next block, or, at the end of the file, neither. *)

From Verif Require Import Base Reader Sched SchedLemmas Spec ReaderLemmas Coo CooLemmas CooSplit CooMain.

Record blk := mkBlk { b_head : list byte; b_term : bool; b_gap : list byte }.
Definition btail (b : blk) : list byte := if b_term b then ch_nl :: b_gap b else [].
Definition btext (b : blk) : list byte := b_head b ++ btail b.
Definition wf_blk (fin : bool) (b : blk) : Prop :=
  (exists c h, b_head b = c :: h /\ is_digit c = true) /\
  Forall (fun c => is_nl c = false) (b_head b) /\ gap fin (b_gap b) /\ (b_term b = false -> fin = true).
Fixpoint wf_blks (bs : list blk) : Prop :=
  match bs with
  | [] => True
  | b :: bs' => wf_blk (isnil bs') b /\ wf_blks bs'
  end.
Definition bstext (bs : list blk) : list byte := concat (map btext bs).

Lemma bstext_app a b : bstext (a ++ b) = bstext a ++ bstext b.
Proof. unfold bstext. rewrite map_app, concat_app. reflexivity. Qed.
Lemma btext_len b : length (btext b) = length (b_head b) + length (btail b).
Proof. unfold btext. apply app_length. Qed.
Lemma btail_len b : b_term b = true -> length (btail b) = 1 + length (b_gap b).
Proof. unfold btail. intros ->. reflexivity. Qed.
Lemma bstext_cons b bs : bstext (b :: bs) = btext b ++ bstext bs.
Proof. reflexivity. Qed.

(** The number of blocks before the boundary found from position [p] of
    [g ++ bstext bs]. *)
Fixpoint bkf (g : list byte) (bs : list blk) (p : nat) : nat :=
  match bs with
  | [] => 0
  | b :: bs' =>
      if nl_from p g then 0
      else if p <=? length g + length (b_head b) then 1
      else S (bkf (b_gap b) bs' (p - (length g + length (b_head b) + 1)))
  end.

Lemma bkf_mono g bs p q : p <= q -> bkf g bs p <= bkf g bs q.
Proof.
  revert g p q; induction bs as [|l ls IH]; intros g p q H; cbn [bkf]; [lia|].
  destruct (nl_from p g) eqn:Ep; [lia|].
  destruct (nl_from q g) eqn:Eq; [rewrite (nl_from_mono p q g H Eq) in Ep; discriminate|].
  destruct (Nat.leb_spec p (length g + length (b_head l)));
  destruct (Nat.leb_spec q (length g + length (b_head l))); try lia.
  apply le_n_S, IH; lia.
Qed.

Lemma bkf_le g bs p : bkf g bs p <= length bs.
Proof.
  revert g p; induction bs as [|l ls IH]; intros g p; cbn [bkf length]; [lia|].
  destruct (nl_from p g); [lia|]. destruct (p <=? _); [lia|]. apply le_n_S, IH.
Qed.

Lemma bkf_end g bs p : wf_blks bs -> length (g ++ bstext bs) <= p -> bkf g bs p = length bs.
Proof.
  revert g p; induction bs as [|l ls IH]; intros g p Hw H; cbn [bkf length]; [reflexivity|].
  destruct Hw as [(_ & _ & _ & Hf) Hw].
  rewrite app_length, bstext_cons, app_length, btext_len in H.
  rewrite nl_from_end by lia. destruct (b_term l) eqn:Et.
  - rewrite (btail_len l Et) in H. destruct (Nat.leb_spec p (length g + length (b_head l))); [lia|].
    f_equal. apply IH; [exact Hw|]. rewrite app_length. lia.
  - destruct ls; [|specialize (Hf eq_refl); discriminate]. destruct (p <=? _); reflexivity.
Qed.

Definition boff (d : nat) (g : list byte) (bs : list blk) (k : nat) : nat :=
  d + length g + length (bstext (firstn k bs)).

Lemma boff_S d g l bs k : b_term l = true -> boff d g (l :: bs) (S k) = boff (d + length g + length (b_head l) + 1) (b_gap l) bs k.
Proof. intros Et. unfold boff. cbn [firstn]. rewrite bstext_cons, app_length, btext_len, (btail_len l Et). lia. Qed.

Section Split.
  Variable m : mem.
  Variable e : nat.
  Variable ce : byte.
  Hypothesis Hce : load m e = Ok ce.
  Hypothesis Hce' : is_cmt ce = false.

  Lemma bends d bs : wf_blks bs -> has m d (bstext bs) -> d + length (bstext bs) = e -> ends m is_digit e d.
  Proof.
    intros Hw Hh He. destruct bs as [|l bs].
    - cbn in He. rewrite Nat.add_0_r in He. subst d. exists ce. repeat split; auto; lia.
    - destruct Hw as [((c & h & Ex & Hd) & _) _]. rewrite bstext_cons in *. unfold btext in Hh. rewrite Ex in Hh. cbn [app] in Hh.
      exists c. split; [eapply load_has; exact Hh|]. split; [apply digit_not_cmt; exact Hd|].
      split; [lia|intros _; exact Hd].
  Qed.

  Lemma next_line_bkf : forall bs d g p,
    gap (isnil bs) g -> wf_blks bs -> has m d (g ++ bstext bs) -> d + length (g ++ bstext bs) = e ->
    p <= length (g ++ bstext bs) ->
    next_line m e (d + p) = Ok (boff d g bs (bkf g bs p)).
  Proof.
    assert (Hnl : forall bs d g p,
      gap (isnil bs) g -> wf_blks bs -> has m d (g ++ bstext bs) -> d + length (g ++ bstext bs) = e ->
      nl_from p g = true -> next_line m e (d + p) = Ok (d + length g)).
    { intros bs d g p Hg Hw Hh He Hp. rewrite app_length in He.
      destruct (nl_split _ Hp) as (a & b & Es & Ha).
      assert (Hpl : p <= length g).
      { destruct (Nat.le_gt_cases p (length g)) as [|Hgt]; [assumption|]. rewrite nl_from_end in Hp by lia. discriminate. }
      assert (Hlen : length g = p + (length a + 1 + length b)).
      { rewrite <- (firstn_skipn p g), app_length, firstn_length_le, Es, app_length by lia. cbn [length]; lia. }
      rewrite (next_line_from m (isnil bs) e (d + p) a b).
      - f_equal; lia.
      - exact Ha.
      - eapply gap_suffix_nl with (a := firstn p g ++ a); [exact Hg|].
        rewrite <- app_assoc, <- Es, firstn_skipn. reflexivity.
      - apply (has_skipn m d p g (bstext bs)) in Hh; [|exact Hpl]. rewrite Es in Hh.
        apply has_app in Hh; apply Hh.
      - replace (d + p + length a + 1 + length b) with (d + length g) by lia.
        apply has_app in Hh as [_ Hh]. apply bends with (bs := bs); auto; lia.
      - intros Hn. destruct bs as [|? ?]; [|discriminate]. cbn in He. lia. }
    induction bs as [|l bs IH]; intros d g p Hg Hw Hh He Hp; cbn [bkf].
    - destruct (nl_from p g) eqn:En.
      + rewrite (Hnl [] d g p Hg Hw Hh He En). unfold boff; cbn. f_equal; lia.
      + unfold boff; cbn in *. rewrite app_nil_r in *. rewrite Nat.add_0_r, He.
        unfold next_line, move_to_eol.
        rewrite (scan_to m _ e (d + p) (skipn p g)).
        * rewrite skipn_length. replace (d + p + (length g - p)) with e by lia. cbn [bind].
          apply move_to_next_int_end with (c := ce); assumption.
        * rewrite <- (app_nil_r (skipn p g)). apply (has_skipn m d p g []); [exact Hp|]. rewrite app_nil_r; exact Hh.
        * eapply Forall_impl; [|apply no_nl; exact En]. cbn; intros c ->; reflexivity.
        * rewrite skipn_length; lia.
        * left. rewrite skipn_length; lia.
    - destruct (nl_from p g) eqn:En.
      + rewrite (Hnl (l :: bs) d g p Hg Hw Hh He En). unfold boff; cbn. f_equal; lia.
      + rewrite app_length in He, Hp. rewrite bstext_cons in Hh, He, Hp. unfold btext in Hh, He, Hp.
        destruct Hw as [(Hwd & Hwn & Hwg & Hwt) Hw].
        destruct (b_term l) eqn:Et.
        2:{ (* the last line, without a newline *)
          destruct bs; [|specialize (Hwt eq_refl); discriminate]. unfold btail in Hh, He, Hp. rewrite Et in Hh, He, Hp. cbn [bstext map concat] in Hh, He, Hp.
          rewrite !app_nil_r in Hh. rewrite !app_nil_r in He, Hp. cbn [isnil] in *.
          assert (Ek : (if p <=? length g + length (b_head l) then 1 else S (bkf (b_gap l) [] (p - (length g + length (b_head l) + 1)))) = 1) by (destruct (p <=? _); reflexivity).
          rewrite Ek. unfold boff. cbn [firstn bstext map concat]. unfold btext, btail. rewrite Et, !app_nil_r. 
          unfold next_line, move_to_eol. rewrite (scan_to m _ e (d + p) (skipn p (g ++ b_head l))).
          * rewrite skipn_length, app_length. replace (d + p + (length g + length (b_head l) - p)) with e by lia. cbn [bind].
            rewrite move_to_next_int_end with (c := ce) by assumption. f_equal. lia.
          * rewrite <- (app_nil_r (skipn p (g ++ b_head l))). apply (has_skipn m d p (g ++ b_head l) []); [rewrite app_length; lia|]. rewrite app_nil_r. exact Hh.
          * rewrite skipn_app. apply Forall_app; split; [|apply skipn_forall].
            -- eapply Forall_impl; [|apply no_nl; exact En]. cbn; intros c ->; reflexivity.
            -- eapply Forall_impl; [|exact Hwn]. cbn; intros c ->; reflexivity.
          * rewrite skipn_length, app_length; lia.
          * left. rewrite skipn_length, app_length; lia. }
        unfold btail in Hh, He, Hp. rewrite Et in Hh, He, Hp.
        rewrite !app_length in He, Hp. cbn [length] in He, Hp.
        assert (Hh2 : has m d ((g ++ b_head l) ++ ch_nl :: (b_gap l ++ bstext bs))).
        { repeat rewrite <- app_assoc in Hh |- *. exact Hh. }
        assert (Hg2 : has m (d + length g + length (b_head l) + 1) (b_gap l ++ bstext bs)).
        { apply has_app in Hh2 as [_ [_ H]]. rewrite app_length in H.
          replace (d + length g + length (b_head l) + 1) with (S (d + (length g + length (b_head l)))) by lia. exact H. }
        assert (Hends : ends m is_digit e (d + length g + length (b_head l) + 1 + length (b_gap l))).
        { apply has_app in Hg2 as [_ Hg2]. apply bends with (bs := bs); auto; lia. }
        assert (Hfin : isnil bs = true -> d + length g + length (b_head l) + 1 + length (b_gap l) = e).
        { intros Hn. destruct bs; [|discriminate]. cbn in He. lia. }
        destruct (Nat.leb_spec p (length g + length (b_head l))) as [Hle|Hgt].
        * rewrite (next_line_from m (isnil bs) e (d + p) (skipn p (g ++ b_head l)) (b_gap l)).
          -- rewrite boff_S by exact Et. unfold boff. cbn [firstn]. unfold bstext; cbn. rewrite skipn_length, app_length. f_equal; lia.
          -- rewrite skipn_app. apply Forall_app; split; [apply no_nl; exact En|].
             apply skipn_forall. exact Hwn.
          -- exact Hwg.
          -- apply (has_skipn m d p (g ++ b_head l)) in Hh2; [|rewrite app_length; lia].
             change (ch_nl :: b_gap l ++ bstext bs) with ((ch_nl :: b_gap l) ++ bstext bs) in Hh2.
             rewrite app_assoc in Hh2. apply has_app in Hh2; apply Hh2.
          -- rewrite skipn_length, app_length.
             replace (d + p + (length g + length (b_head l) - p) + 1 + length (b_gap l))
               with (d + length g + length (b_head l) + 1 + length (b_gap l)) by lia. exact Hends.
          -- intros Hn. specialize (Hfin Hn). rewrite skipn_length, app_length. lia.
        * rewrite boff_S by exact Et.
          rewrite <- (IH (d + length g + length (b_head l) + 1) (b_gap l)
                         (p - (length g + length (b_head l) + 1))).
          -- f_equal; lia.
          -- exact Hwg.
          -- exact Hw.
          -- exact Hg2.
          -- rewrite app_length; lia.
          -- rewrite app_length; lia.
  Qed.
End Split.

(** ** The threads' ranges *)
Section Ranges.
  Context {A : Type}.
  Variable toblk : A -> blk.
  Variable m : mem.
  Hypothesis Hslack : slack m.
  Variable d0 : nat.
  Variable g : list byte.
  Variable ls : list A.
  Let bs := map toblk ls.
  Let e := flen m.
  Hypothesis Hh : has m d0 (g ++ bstext bs).
  Hypothesis He : d0 + length (g ++ bstext bs) = e.
  Hypothesis Hg : gap (isnil bs) g.
  Hypothesis Hw : wf_blks bs.
  Variable T : nat.
  Hypothesis HT : 1 <= T.

  Let size := length (g ++ bstext bs).

  Lemma bload_e : load m e = Ok 0%Z.
  Proof. apply load_eof; exact Hslack. Qed.

  Definition bK (t : nat) : nat := if t =? 0 then 0 else bkf g bs (t * size / T).

  Lemma bpos_le t : t <= T -> t * size / T <= size.
  Proof. intros Ht. apply Nat.div_le_upper_bound; [lia|]. apply Nat.mul_le_mono_r. exact Ht. Qed.

  Lemma bK_mono t : t < T -> bK t <= bK (S t).
  Proof.
    intros Ht. unfold bK. destruct t as [|t]; [apply Nat.le_0_l|]. cbn [Nat.eqb].
    apply bkf_mono. apply Nat.div_le_mono; [lia|]. apply Nat.mul_le_mono_r. lia.
  Qed.
  Lemma bK_0 : bK 0 = 0.
  Proof. reflexivity. Qed.
  Lemma bK_T : bK T = length ls.
  Proof.
    unfold bK. destruct (Nat.eqb_spec T 0) as [E0|E0]; [lia|].
    rewrite Nat.mul_comm, Nat.div_mul by exact E0. rewrite bkf_end by (try exact Hw; apply le_n).
    unfold bs. apply map_length.
  Qed.
  Lemma bK_le t : bK t <= length ls.
  Proof. unfold bK. destruct (t =? 0); [lia|]. rewrite <- (map_length toblk ls). apply bkf_le. Qed.
  Lemma bK_mono2 i j : i <= j -> j <= T -> bK i <= bK j.
  Proof. intros Hij Hj. induction Hij as [|j Hij IH]; [lia|]. pose proof (bK_mono j ltac:(lia)). specialize (IH ltac:(lia)). lia. Qed.

  Definition boffs (k : nat) : nat := boff d0 g bs k.

  Lemma boffs_le k : boffs k <= e.
  Proof.
    unfold boffs, boff. rewrite <- He, app_length.
    rewrite <- (firstn_skipn k bs) at 2. rewrite bstext_app, app_length. lia.
  Qed.

  Lemma bchunk_at t : t < T -> el_chunk m d0 e T t = Ok (boffs (bK t), boffs (bK (S t))).
  Proof.
    intros Ht. unfold el_chunk. rewrite (proj2 (Nat.ltb_ge e d0)) by (clear - He; lia); cbn [andb].
    assert (Esz : e - d0 = size) by (unfold size; lia). rewrite Esz.
    pose proof (bpos_le t ltac:(lia)) as Hp1. pose proof (bpos_le (t + 1) ltac:(lia)) as Hp2.
    assert (Eadv : forall p, p <= size -> advance e d0 p = d0 + p) by (intros p Hp; unfold advance, size in *; lia).
    rewrite !Eadv by assumption. unfold line_boundary.
    pose proof (next_line_bkf m e 0%Z bload_e eq_refl bs d0 g) as NL.
    rewrite NL by assumption. cbn [bind].
    assert (Es : (if t =? 0 then move_to_first_int m e (d0 + t * size / T) else next_line m e (d0 + t * size / T))
                 = Ok (boffs (bK t))).
    { unfold bK. destruct (Nat.eqb_spec t 0) as [->|Hne].
      - rewrite Nat.mul_0_l, Nat.div_0_l, Nat.add_0_r by lia.
        rewrite (move_to_first_int_gap m (isnil bs) e d0 g).
        + unfold boffs, boff; cbn. f_equal; lia.
        + exact Hg.
        + apply has_app in Hh; apply Hh.
        + apply bends with (ce := 0%Z) (bs := bs); auto using bload_e.
          * apply has_app in Hh; apply Hh.
          * rewrite app_length in He; lia.
        + intros Hn. rewrite app_length in He. destruct bs; [cbn in He; lia|discriminate].
      - apply NL; assumption. }
    rewrite Es. cbn [bind]. f_equal. f_equal.
    assert (EK : bkf g bs ((t + 1) * size / T) = bK (S t)).
    { unfold bK. rewrite Nat.add_1_r. reflexivity. }
    rewrite EK. fold (boffs (bK (S t))). unfold smaller_end. pose proof (boffs_le (bK (S t))).
    destruct (Nat.ltb_spec (boffs (bK (S t))) e); lia.
  Qed.

  Definition bchunk (t : nat) : list A := slice (bK t) (bK (S t)) ls.

  Lemma boffs_slice a b : a <= b -> boffs b = boffs a + length (bstext (map toblk (slice a b ls))).
  Proof.
    intros Hab. unfold boffs, boff, bs. rewrite !firstn_map.
    rewrite <- (firstn_slice a b ls Hab), map_app, bstext_app, app_length. lia.
  Qed.

  Lemma wf_blks_app a b : wf_blks (a ++ b) -> wf_blks b.
  Proof. induction a as [|x a IH]; intros H; [exact H|]. cbn [app wf_blks] in H. apply IH, H. Qed.

  (** What a thread finds: blocks [B] from [d] to its end [e'], each followed by
      a digit or the end. *)
  Fixpoint at_blks (e' d : nat) (B : list A) : Prop :=
    match B with
    | [] => d = e'
    | a :: B' =>
        (exists fin, wf_blk fin (toblk a) /\ has m d (btext (toblk a)) /\
           ends m is_digit e' (d + length (btext (toblk a))) /\
           (fin = true -> d + length (btext (toblk a)) = e')) /\
        at_blks e' (d + length (btext (toblk a))) B'
    end.

  Lemma at_blks_text : forall (B C : list A) d,
    has m d (bstext (map toblk (B ++ C))) -> d + length (bstext (map toblk (B ++ C))) = e ->
    wf_blks (map toblk (B ++ C)) -> at_blks (d + length (bstext (map toblk B))) d B.
  Proof.
    induction B as [|p B IH]; intros C d H1 H2 H3.
    - cbn. lia.
    - cbn [app map wf_blks] in H1, H2, H3. destruct H3 as [Hwl H3].
      rewrite bstext_cons in H1, H2. rewrite app_length in H2. apply has_app in H1 as [H1a H1b].
      cbn [at_blks map]. rewrite bstext_cons, app_length. split.
      + exists (isnil (map toblk (B ++ C))). split; [exact Hwl|]. split; [exact H1a|]. split.
        * destruct (bends m e 0%Z bload_e eq_refl (d + length (btext (toblk p))) (map toblk (B ++ C)) H3 H1b ltac:(lia))
            as (c & Hl & Hc & Hle & Hst).
          exists c. split; [exact Hl|]. split; [exact Hc|]. split; [lia|].
          intros Hlt. apply Hst. rewrite map_app, bstext_app, app_length in H2. lia.
        * intros Hn. destruct B; [cbn; lia|discriminate].
      + rewrite Nat.add_assoc. apply IH with (C := C); auto. lia.
  Qed.

  Lemma at_bchunk t : t < T -> at_blks (boffs (bK (S t))) (boffs (bK t)) (bchunk t).
  Proof.
    intros Ht. pose proof (bK_mono t Ht) as Hm. rewrite (boffs_slice _ _ Hm). unfold bchunk.
    pose proof (slice_split (bK t) (bK (S t)) ls Hm) as Esp.
    assert (Els : bstext bs = bstext (map toblk (firstn (bK t) ls)) ++ bstext (map toblk (slice (bK t) (bK (S t)) ls ++ skipn (bK (S t)) ls))).
    { unfold bs. rewrite Esp at 1. rewrite map_app, bstext_app. reflexivity. }
    apply at_blks_text with (C := skipn (bK (S t)) ls).
    - apply has_app in Hh as [_ Hh']. rewrite Els in Hh'. apply has_app in Hh' as [_ Hh'].
      unfold boffs, boff, bs. rewrite firstn_map. exact Hh'.
    - rewrite <- He, app_length, Els, app_length. unfold boffs, boff, bs. rewrite firstn_map. lia.
    - apply (wf_blks_app (map toblk (firstn (bK t) ls))). rewrite <- map_app. rewrite <- Esp. exact Hw.
  Qed.

  Lemma bload_boundary t : t < T -> exists ce, load m (boffs (bK (S t))) = Ok ce /\ (ce = 0%Z \/ is_digit ce = true).
  Proof.
    intros Ht. destruct (skipn (bK (S t)) ls) as [|p rest] eqn:Es.
    - exists 0%Z. split; [|left; reflexivity].
      assert (boffs (bK (S t)) = e).
      { unfold boffs, boff, bs. rewrite firstn_map.
        rewrite <- (app_nil_r (firstn (bK (S t)) ls)), <- Es, firstn_skipn. fold bs. rewrite app_length in He. lia. }
      rewrite H. apply bload_e.
    - assert (Els : bstext bs = bstext (map toblk (firstn (bK (S t)) ls)) ++ bstext (map toblk (p :: rest))).
      { unfold bs. rewrite <- (firstn_skipn (bK (S t)) ls) at 1. rewrite Es, map_app, bstext_app. reflexivity. }
      assert (Hwp : wf_blks (map toblk (p :: rest))).
      { apply (wf_blks_app (map toblk (firstn (bK (S t)) ls))). rewrite <- map_app, <- Es, firstn_skipn. exact Hw. }
      destruct Hwp as [((c & h & Ex & Hd) & _) _].
      apply has_app in Hh as [_ Hh']. rewrite Els in Hh'. apply has_app in Hh' as [_ Hh'].
      cbn [map] in Hh'. rewrite bstext_cons in Hh'. unfold btext in Hh'. rewrite Ex in Hh'. cbn [app] in Hh'.
      exists c. split; [|right; exact Hd].
      unfold boffs, boff, bs. rewrite firstn_map. eapply load_has; exact Hh'.
  Qed.

  Lemma at_blks_le e' d B : at_blks e' d B -> d + length B <= e'.
  Proof using Type.
    clear. revert d; induction B as [|a B IH]; intros d H; cbn [at_blks length] in *; [lia|].
    destruct H as [(fin & ((c & h & Eh & _) & _) & _) H]. apply IH in H. pose proof (btext_len (toblk a)) as Hl. rewrite Eh in Hl. cbn [length] in Hl. lia.
  Qed.

  Lemma bchunks_concat n : n <= T -> concat (map bchunk (seq 0 n)) = firstn (bK n) ls.
  Proof.
    intros Hn. pose proof (concat_slices bK ls n (fun t Ht => bK_mono t (Nat.lt_le_trans _ _ _ Ht Hn))) as H.
    rewrite bK_0 in H. exact H.
  Qed.
  Lemma bchunk_len t : t < T -> bK (S t) = bK t + length (bchunk t).
  Proof.
    intros Ht. pose proof (bK_mono t Ht). unfold bchunk, slice. rewrite firstn_length, skipn_length. pose proof (bK_le (S t)). lia.
  Qed.
End Ranges.
