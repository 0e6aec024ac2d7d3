(** * FragEl: edge lists whose last line has no newline *)

From Verif Require Import Base Reader Sched SchedLemmas Spec ReaderLemmas Coo CooLemmas CooExec CooSplit CooMain Frag.

(** What the weight reader does on a weight [post] that ends the file: it reads
    [v] and stops at the end.  [ints]: does the counting pass stop before it. *)
Definition wcut {W} (w : wrd W) (ints : bool) (post : list byte) (v : W) : Prop :=
  forall m e d, has m d post -> d + length post = e -> load m e = Ok 0%Z ->
    w_read w m e d = Ok (v, e) /\
    exists d', w_count w m e d = Ok d' /\ d <= d' /\ (if ints then d' < e else d' = e).
Definition owcut {W} (wr : option (wrd W)) (ints : bool) (post : list byte) (v : W) : Prop :=
  match wr with None => ints = false /\ post = [] | Some w => wcut w ints post v end.

(** A line: with its newline; cut off right after what is read; cut off after
    some more text. *)
Inductive tag := Full | Cut | Tail.
Definition item (W : Type) : Type := tag * (line * W).
Definition itblk {W} (it : item W) : blk :=
  mkBlk (lhead (fst (snd it))) (match fst it with Full => true | _ => false end) (l_gap (fst (snd it))).

Lemma itblk_full {W} (p : line * W) : btext (itblk (Full, p)) = line_text (fst p).
Proof. unfold btext, btail, itblk; cbn. symmetry. apply line_text_eq. Qed.
Lemma itblk_cut {W} tg (p : line * W) : tg <> Full -> btext (itblk (tg, p)) = lhead (fst p).
Proof. unfold btext, btail, itblk; cbn. destruct tg; [congruence|..]; intros _; apply app_nil_r. Qed.

Section Item.
  Context {W : Type}.
  Variable L : ity.
  Hypothesis HL : is_ity L.
  Variable wr : option (wrd W).
  Variable ints : bool.
  Variable fl : flags.
  Variable m : mem.
  Variable e : nat.
  Variable ce : byte.
  Hypothesis Hce : load m e = Ok ce.
  Hypothesis Hce' : ce = 0%Z \/ is_digit ce = true.
  Hypothesis Hwe : owend wr.
  Let sym := f_sym fl.
  Let ut := f_ut fl.
  Let sl := f_sl fl.

  Definition line_ok (it : item W) : Prop :=
    let l := fst (snd it) in
    digits (l_x l) /\ separator (l_sep l) /\ digits (l_y l) /\ rest (l_post l) /\
    (dval (l_x l) <= imax L)%Z /\ (dval (l_y l) <= imax L)%Z /\
    match fst it with
    | Full => owok wr (l_post l) (snd (snd it))
    | Cut => owcut wr ints (l_post l) (snd (snd it))
    | Tail => wr = None /\ l_post l <> []
    end.

  Definition at_item (d : nat) (it : item W) : Prop :=
    match fst it with
    | Full => exists fin, at_line L wr m e fin d (snd it)
    | _ => line_ok it /\ has m d (lhead (fst (snd it))) /\ d + length (lhead (fst (snd it))) = e /\ load m e = Ok 0%Z
    end.

  Lemma at_item_len d it : at_item d it -> d < d + length (btext (itblk it)).
  Proof.
    destruct it as [tg [l w]]. unfold at_item; cbn [fst snd]. rewrite btext_len. unfold itblk; cbn [b_head fst snd].
    assert (H : digits (l_x l) -> d < d + (length (lhead l) + length (btail (itblk (tg, (l, w)))))).
    { intros [H _]. rewrite lhead_len. destruct (l_x l); [congruence|]. cbn [length]. lia. }
    intros Hi. apply H. destruct tg.
    - destruct Hi as (fin & [Hw _ _ _ _ _ _]). apply Hw.
    - apply Hi.
    - apply Hi.
  Qed.

  Lemma read_xy_cut tg d p : tg <> Full -> at_item d (tg, p) ->
    read_xy L m e d = Ok (dval (l_x (fst p)), dval (l_y (fst p)), post_at d (fst p)).
  Proof.
    intros Htg Hi. destruct p as [l w]. unfold at_item in Hi; cbn [fst snd] in *.
    assert (Hi' : line_ok (tg, (l, w)) /\ has m d (lhead l) /\ d + length (lhead l) = e /\ load m e = Ok 0%Z) by (destruct tg; [congruence|exact Hi..]).
    clear Hi. destruct Hi' as (Hlo & Hh & He & Hl0). unfold line_ok in Hlo; cbn [fst snd] in Hlo.
    destruct Hlo as (H1 & H2 & H3 & H4 & Hx & Hy & _).
    rewrite lhead_len in He. unfold lhead in Hh. unfold read_xy, post_at.
    destruct (l_sep l) as [|cs sp] eqn:Es; [destruct H2; congruence|].
    pose proof Hh as Hh0. apply has_app in Hh0 as [Hx0 Hh1].
    rewrite (read_int_digits m L e d (l_x l) cs Hx0 H1).
    2:{ cbn [length] in *; lia. }
    2:{ cbn [app] in Hh1. eapply load_has; exact Hh1. }
    2:{ destruct H2 as [_ H2]. apply forall_hd in H2. apply H2. }
    rewrite (read_val_fit L _ HL (proj2 H1) Hx). cbn [bind].
    destruct (l_y l) as [|cy ys] eqn:Ey; [destruct H3; congruence|].
    assert (Hh2 : has m (d + length (l_x l)) (cs :: sp) /\ has m (d + length (l_x l) + length (cs :: sp)) ((cy :: ys) ++ l_post l)).
    { apply has_app in Hh1. exact Hh1. }
    destruct Hh2 as [Hsp Hh2].
    rewrite (move_to_next_int_sep m e _ (cs :: sp) cy H2 Hsp).
    2:{ cbn [app] in Hh2. eapply load_has; exact Hh2. }
    2:{ destruct H3 as [_ H3]. apply forall_hd in H3. exact H3. }
    2:{ cbn [length] in *; lia. }
    cbn [bind]. apply has_app in Hh2 as [Hy0 Hh3].
    rewrite (read_int_gen m L e _ [] (cy :: ys)).
    - rewrite (read_val_fit L _ HL (proj2 H3) Hy). cbn [bind]. f_equal. f_equal. cbn [length]. lia.
    - exact Hy0.
    - constructor.
    - apply H3.
    - cbn [length] in *; lia.
    - destruct (l_post l) as [|cp ps] eqn:Ep.
      + left. cbn [length] in *. lia.
      + right. split; [|discriminate]. exists cp. split; [|apply H4].
        replace (d + length (l_x l) + length (cs :: sp) + length (@nil byte) + length (cy :: ys)) with
          (d + length (l_x l) + length (cs :: sp) + length (cy :: ys)) by (cbn [length]; lia).
        eapply load_has; exact Hh3.
  Qed.

  (** From anywhere in a line without newline, the next line is the end. *)
  Lemma next_line_cut tg d p k : tg <> Full -> at_item d (tg, p) -> d <= k -> k <= e -> next_line m e k = Ok e.
  Proof.
    intros Htg Hi Hk1 Hk2. destruct p as [l w]. unfold at_item in Hi; cbn [fst snd] in *.
    assert (Hi' : line_ok (tg, (l, w)) /\ has m d (lhead l) /\ d + length (lhead l) = e /\ load m e = Ok 0%Z) by (destruct tg; [congruence|exact Hi..]).
    clear Hi. destruct Hi' as (Hlo & Hh & He & Hl0). unfold line_ok in Hlo; cbn [fst snd] in Hlo.
    destruct Hlo as (H1 & H2 & H3 & H4 & _).
    assert (Hnl : Forall (fun c => is_nl c = false) (lhead l)).
    { unfold lhead. repeat (apply Forall_app; split); auto using digits_nl, sep_nl. apply H4. }
    unfold next_line, move_to_eol. rewrite (scan_to m _ e k (skipn (k - d) (lhead l))).
    - rewrite skipn_length. replace (k + (length (lhead l) - (k - d))) with e by lia. cbn [bind].
      apply move_to_next_int_end with (c := 0%Z); [exact Hl0|reflexivity].
    - replace k with (d + (k - d)) at 1 by lia. rewrite <- (app_nil_r (skipn _ _)). apply has_skipn; [lia|]. rewrite app_nil_r; exact Hh.
    - apply skipn_forall. eapply Forall_impl; [|exact Hnl]. cbn; intros c ->; reflexivity.
    - rewrite skipn_length; lia.
    - left. rewrite skipn_length; lia.
  Qed.

  (** What a line that lacks its newline is counted as when it is cut right
      after what is read. *)
  Definition cutcount (p : line * W) : nat :=
    if has_flags fl then (if ints then length (expand sym ut sl (ent p)) else 0) else 1.

  Definition itcount (it : item W) : nat :=
    match fst it with
    | Cut => cutcount (snd it)
    | _ => length (expand sym ut sl (ent (snd it)))
    end.

  Lemma count_plain_cut tg d p : tg <> Full -> at_item d (tg, p) -> entry_count_plain m e d = Ok (e, 1).
  Proof.
    intros Htg Hi. pose proof (next_line_cut tg d p) as NL. pose proof Hi as Hi2. destruct p as [l w]. unfold at_item in Hi; cbn [fst snd] in *.
    assert (Hi' : line_ok (tg, (l, w)) /\ has m d (lhead l) /\ d + length (lhead l) = e /\ load m e = Ok 0%Z) by (destruct tg; [congruence|exact Hi..]).
    clear Hi. destruct Hi' as (Hlo & Hh & He & Hl0). unfold line_ok in Hlo; cbn [fst snd] in Hlo.
    destruct Hlo as (H1 & H2 & H3 & H4 & _). unfold entry_count_plain.
    rewrite lhead_len in He. unfold lhead in Hh. rewrite app_assoc in Hh.
    destruct (l_y l) as [|cy ys] eqn:Ey; [destruct H3; congruence|]. cbn [length] in He.
    rewrite (move_to_next_int_dsep m e d (l_x l) (l_sep l) cy (proj2 H1) H2).
    2:{ apply has_app in Hh; apply Hh. }
    2:{ cbn [app] in Hh. rewrite <- Nat.add_assoc, <- app_length. eapply load_in; exact Hh. }
    2:{ destruct H3 as [_ H3]. apply forall_hd in H3. exact H3. }
    2:{ cbn [length] in *; lia. }
    cbn [bind]. destruct (Nat.leb_spec e (d + length (l_x l) + length (l_sep l))); [lia|].
    rewrite (NL _ Htg Hi2) by lia. cbn [bind]. reflexivity.
  Qed.

  Lemma cut_pos d p : at_item d (Cut, p) -> d <= post_at d (fst p) /\ has m (post_at d (fst p)) (l_post (fst p)) /\
    post_at d (fst p) + length (l_post (fst p)) = e /\ load m e = Ok 0%Z /\ owcut wr ints (l_post (fst p)) (snd p).
  Proof.
    destruct p as [l w]. unfold at_item; cbn [fst snd]. intros (Hlo & Hh & He & Hl0).
    unfold line_ok in Hlo; cbn [fst snd] in Hlo. rewrite post_at_len. unfold lhead in Hh.
    split; [unfold post_at; lia|]. split; [|split; [exact He|split; [exact Hl0|apply Hlo]]].
    do 3 (apply has_app in Hh as [_ Hh]). exact Hh.
  Qed.

  Lemma count_flags_cut d p fuel : has_flags fl = true -> at_item d (Cut, p) ->
    entry_count_flags L wr fl m e (S (S fuel)) d = Ok (e, cutcount p).
  Proof.
    intros Hf Hi. remember (S fuel) as f1 eqn:Ef1. cbn [entry_count_flags].
    rewrite (read_xy_cut Cut d p ltac:(discriminate) Hi). cbn [bind].
    destruct (cut_pos d p Hi) as (Hd & Hh & He & Hl0 & Hc). unfold cutcount. rewrite Hf.
    assert (Hcnt : exists d2, match wr with None => Ok (post_at d (fst p)) | Some w => w_count w m e (post_at d (fst p)) end = Ok d2
       /\ d <= d2 /\ (if ints then d2 < e else d2 = e)).
    { unfold owcut in Hc. destruct wr as [w|].
      - destruct (Hc m e _ Hh He Hl0) as [_ (d' & E & H1 & H2)]. exists d'. split; [exact E|]. split; [lia|exact H2].
      - destruct Hc as [-> Ep]. rewrite Ep in He. cbn [length] in He. eexists; split; [reflexivity|]. split; lia. }
    destruct Hcnt as (d2 & E & Hd2 & Hlt). rewrite E. cbn [bind]. destruct ints.
    - destruct (Nat.leb_spec e d2); [lia|]. rewrite (next_line_cut Cut d p d2 ltac:(discriminate) Hi) by lia. cbn [bind].
      fold (drop fl p). destruct (drop fl p) eqn:Ed.
      + subst f1. rewrite (count_flags_end L wr fl m e ce Hce Hce' fuel Hwe). apply drop_expand in Ed. unfold sym, ut, sl. rewrite Ed. reflexivity.
      + unfold sym, ut, sl. rewrite (doubled_expand fl p Ed). reflexivity.
    - destruct (Nat.leb_spec e d2); [|lia]. subst d2. reflexivity.
  Qed.

  Lemma set_weight_cut d p pos : at_item d (Cut, p) ->
    set_weight wr m e pos (post_at d (fst p)) = Ok (e, wcode wr pos (snd p)).
  Proof.
    intros Hi. destruct (cut_pos d p Hi) as (Hd & Hh & He & Hl0 & Hc). unfold set_weight, wcode, owcut in *. destruct wr as [w|].
    - destruct (Hc m e _ Hh He Hl0) as [E _]. rewrite E. cbn [bind]. reflexivity.
    - destruct Hc as [_ Ep]. rewrite Ep in He. cbn [length] in He. f_equal. f_equal. lia.
  Qed.

  Lemma set_flags_cut d p fuel pos mr mc : at_item d (Cut, p) ->
    entry_set_flags L wr fl m e (S fuel) d pos mr mc = Ok (mkEset e pos (wcode wr pos (snd p)) mr mc).
  Proof.
    intros Hi. cbn [entry_set_flags]. rewrite (read_xy_cut Cut d p ltac:(discriminate) Hi). cbn [bind].
    rewrite (set_weight_cut d p pos Hi). cbn [bind]. rewrite Nat.leb_refl. reflexivity.
  Qed.
  Lemma set_plain_cut d p pos mr mc : at_item d (Cut, p) ->
    entry_set_plain L wr m e d pos mr mc = Ok (mkEset e pos (wcode wr pos (snd p)) mr mc).
  Proof.
    intros Hi. unfold entry_set_plain. rewrite (read_xy_cut Cut d p ltac:(discriminate) Hi). cbn [bind].
    rewrite (set_weight_cut d p pos Hi). cbn [bind]. rewrite Nat.leb_refl. reflexivity.
  Qed.

  (** A line cut off after more text is read like a full one. *)
  Lemma tail_facts d p : at_item d (Tail, p) -> wr = None /\ post_at d (fst p) < e /\ d <= post_at d (fst p) /\ d + length (lhead (fst p)) = e.
  Proof.
    destruct p as [l w]. unfold at_item; cbn [fst snd]. intros (Hlo & Hh & He & Hl0). unfold line_ok in Hlo; cbn [fst snd] in Hlo.
    destruct Hlo as (_ & _ & _ & _ & _ & _ & Hn & Hp). split; [exact Hn|]. rewrite <- He, <- post_at_len.
    destruct (l_post l); [congruence|]. cbn [length]. unfold post_at; lia.
  Qed.

  Lemma count_flags_tail d p fuel : at_item d (Tail, p) ->
    entry_count_flags L wr fl m e (S fuel) d =
      if drop fl p then entry_count_flags L wr fl m e fuel e
      else Ok (e, length (expand sym ut sl (ent p))).
  Proof.
    intros Hi. destruct (tail_facts d p Hi) as (Hn & Hlt & Hd & He). cbn [entry_count_flags].
    rewrite (read_xy_cut Tail d p ltac:(discriminate) Hi). cbn [bind]. rewrite Hn at 1. cbn [bind].
    destruct (Nat.leb_spec e (post_at d (fst p))); [lia|].
    rewrite (next_line_cut Tail d p _ ltac:(discriminate) Hi) by lia. cbn [bind]. fold (drop fl p).
    destruct (drop fl p) eqn:Ed; [reflexivity|]. unfold sym, ut, sl. rewrite (doubled_expand fl p Ed). reflexivity.
  Qed.

  Lemma set_flags_tail d p fuel pos mr mc : at_item d (Tail, p) ->
    entry_set_flags L wr fl m e (S fuel) d pos mr mc =
      if drop fl p then
        r <- entry_set_flags L wr fl m e fuel e pos mr mc ;;
        Ok (mkEset (es_d r) (es_pos r) (line_code wr fl pos p ++ es_code r) (es_mr r) (es_mc r))
      else Ok (mkEset e (pos + length (expand sym ut sl (ent p)))
                 (line_code wr fl pos p) (mxr fl mr [p]) (mxc fl mc [p])).
  Proof.
    intros Hi. destruct (tail_facts d p Hi) as (Hn & Hlt & Hd & He). cbn [entry_set_flags].
    rewrite (read_xy_cut Tail d p ltac:(discriminate) Hi). cbn [bind]. unfold set_weight. rewrite Hn at 1. cbn [bind].
    destruct (Nat.leb_spec e (post_at d (fst p))); [lia|].
    rewrite (next_line_cut Tail d p _ ltac:(discriminate) Hi) by lia. cbn [bind]. fold (drop fl p).
    unfold line_code, wcode. destruct (drop fl p) eqn:Ed; [rewrite Hn; reflexivity|].
    unfold sym, ut, sl. rewrite (doubled_expand fl p Ed). rewrite doubled_swap.
    rewrite mxr_cons, mxc_cons. pose proof (kept_keep fl p Ed) as Hk. cbn zeta in Hk. rewrite Hk.
    cbn [map fold_left fst snd]. unfold mxr, mxc, kents. cbn [map flat_map fold_left]. rewrite Hn. reflexivity.
  Qed.

  Lemma set_plain_tail d p pos mr mc : has_flags fl = false -> at_item d (Tail, p) ->
    entry_set_plain L wr m e d pos mr mc =
      Ok (mkEset e (pos + length (expand sym ut sl (ent p)))
             (line_code wr fl pos p) (mxr fl mr [p]) (mxc fl mc [p])).
  Proof.
    intros Hf Hi. destruct (tail_facts d p Hi) as (Hn & Hlt & Hd & He). unfold entry_set_plain.
    rewrite (read_xy_cut Tail d p ltac:(discriminate) Hi). cbn [bind]. unfold set_weight. rewrite Hn at 1. cbn [bind].
    destruct (Nat.leb_spec e (post_at d (fst p))); [lia|].
    rewrite (next_line_cut Tail d p _ ltac:(discriminate) Hi) by lia. cbn [bind].
    rewrite mxr_cons, mxc_cons. unfold kept, sym, ut, sl. rewrite (expand_noflags fl _ Hf).
    assert (Hs : f_sym fl = false) by (unfold has_flags in Hf; destruct (f_sym fl); [discriminate|reflexivity]).
    unfold line_code, doubled, wcode. rewrite (nodrop_noflags fl p Hf), Hs, Hn.
    cbn [andb orb negb length firstn map fold_left ent fst snd]. unfold mxr, mxc, kents. cbn [map flat_map fold_left]. reflexivity.
  Qed.

  (** ** A thread's range *)
  Fixpoint at_items (d : nat) (B : list (item W)) : Prop :=
    match B with
    | [] => d = e
    | it :: B' => at_item d it /\ at_items (d + length (btext (itblk it))) B'
    end.

  Lemma at_items_le d B : at_items d B -> d + length B <= e.
  Proof.
    revert d; induction B as [|it B IH]; intros d H; cbn [at_items length] in *; [lia|].
    destruct H as [H1 H2]. apply at_item_len in H1. apply IH in H2. lia.
  Qed.

  Lemma cut_last d tg p B : tg <> Full -> at_items d ((tg, p) :: B) -> d + length (btext (itblk (tg, p))) = e /\ B = [].
  Proof.
    intros Htg [Hi HB]. rewrite (itblk_cut tg p Htg) in *. unfold at_item in Hi; cbn [fst snd] in Hi.
    assert (E : d + length (lhead (fst p)) = e) by (destruct tg; [congruence|apply Hi..]).
    split; [exact E|]. apply at_items_le in HB. destruct B; [reflexivity|cbn [length] in HB; lia].
  Qed.

  Definition ittotal (B : list (item W)) : nat := sum_nat (map itcount B).
  Lemma ittotal_cons it B : ittotal (it :: B) = itcount it + ittotal B.
  Proof. reflexivity. Qed.

  Lemma icount_flags_run B : has_flags fl = true -> forall d fuel, at_items d B -> e - d < fuel ->
    exists d' c B', entry_count_flags L wr fl m e fuel d = Ok (d', c) /\
      at_items d' B' /\ (B <> [] -> length B' < length B) /\ c + ittotal B' = ittotal B.
  Proof.
    intros Hf. induction B as [|it B IH]; intros d fuel Ha Hfu.
    - cbn in Ha; subst d. destruct fuel as [|fuel]; [lia|].
      exists e, 0, []. rewrite (count_flags_end L wr fl m e ce Hce Hce' fuel Hwe). cbn; repeat split; auto; congruence.
    - pose proof (at_items_le _ _ Ha) as Hle. cbn [length] in Hle. pose proof Ha as Ha0. destruct Ha as [Hi Ha].
      pose proof (at_item_len d it Hi) as Hlen. destruct it as [tg p]. destruct fuel as [|fuel]; [lia|]. destruct tg.
      + rewrite itblk_full in *. destruct Hi as [fin Hal]. cbn [snd] in Hal. rewrite (count_flags_step L HL wr fl m e fin d p fuel Hal).
        destruct (drop fl p) eqn:Ed.
        * destruct (IH _ fuel Ha ltac:(lia)) as (d' & c & B' & E & Ha' & Hl & Ht).
          exists d', c, B'. split; [exact E|]. split; [exact Ha'|]. split.
          -- intros _. destruct B as [|q B]; [|specialize (Hl ltac:(discriminate)); cbn [length] in *; lia].
             cbn in Ha. apply at_items_le in Ha'. destruct B'; [cbn; lia|]. exfalso.
             destruct fuel as [|fuel]; [lia|]. rewrite Ha in E. rewrite (count_flags_end L wr fl m e ce Hce Hce' fuel Hwe) in E.
             injection E as <- <-. cbn [length] in Ha'. lia.
          -- rewrite ittotal_cons. unfold itcount; cbn [fst snd]. apply drop_expand in Ed. unfold sym, ut, sl. rewrite Ed. exact Ht.
        * eexists _, _, B. split; [reflexivity|]. split; [exact Ha|]. split; [intros _; cbn; lia|]. reflexivity.
      + destruct (cut_last d Cut p B ltac:(discriminate) Ha0) as [Ee ->]. destruct fuel as [|fuel]; [lia|].
        rewrite (count_flags_cut d p fuel Hf Hi). exists e, (cutcount p), []. split; [reflexivity|]. split; [reflexivity|]. split; [cbn; lia|].
        rewrite ittotal_cons. reflexivity.
      + destruct (cut_last d Tail p B ltac:(discriminate) Ha0) as [Ee ->]. rewrite (count_flags_tail d p fuel Hi).
        destruct (drop fl p) eqn:Ed.
        * destruct fuel as [|fuel]; [lia|]. rewrite (count_flags_end L wr fl m e ce Hce Hce' fuel Hwe).
          exists e, 0, []. split; [reflexivity|]. split; [reflexivity|]. split; [cbn; lia|].
          rewrite ittotal_cons. unfold itcount; cbn [fst snd]. apply drop_expand in Ed. unfold sym, ut, sl. rewrite Ed. reflexivity.
        * eexists _, _, []. split; [reflexivity|]. split; [reflexivity|]. split; [cbn; lia|]. reflexivity.
  Qed.

  Lemma icount_run it B d : at_items d (it :: B) ->
    exists d' c B', entry_count L wr fl m e d = Ok (d', c) /\
      at_items d' B' /\ length B' < length (it :: B) /\ c + ittotal B' = ittotal (it :: B).
  Proof.
    intros Ha. unfold entry_count. destruct (has_flags fl) eqn:Ef.
    - destruct (icount_flags_run (it :: B) Ef d (S (e - d)) Ha ltac:(lia)) as (d' & c & B' & E & Ha' & Hl & Ht).
      exists d', c, B'. repeat split; auto. apply Hl; discriminate.
    - destruct it as [tg p]. destruct tg.
      + destruct Ha as [[fin Hal] Ha]. rewrite itblk_full in Ha. cbn [snd] in Hal. eexists _, 1, B.
        split; [apply (count_plain_at L wr m e _ _ _ Hal)|]. split; [exact Ha|]. split; [cbn; lia|].
        rewrite ittotal_cons. unfold itcount; cbn [fst snd]. unfold sym, ut, sl. rewrite (expand_noflags fl _ Ef). reflexivity.
      + destruct (cut_last d Cut p B ltac:(discriminate) Ha) as [Ee ->]. destruct Ha as [Hi _].
        exists e, 1, []. split; [apply (count_plain_cut Cut d p ltac:(discriminate) Hi)|]. split; [reflexivity|]. split; [cbn; lia|].
        rewrite ittotal_cons. unfold itcount, cutcount; cbn [fst snd]. rewrite Ef. reflexivity.
      + destruct (cut_last d Tail p B ltac:(discriminate) Ha) as [Ee ->]. destruct Ha as [Hi _].
        exists e, 1, []. split; [apply (count_plain_cut Tail d p ltac:(discriminate) Hi)|]. split; [reflexivity|]. split; [cbn; lia|].
        rewrite ittotal_cons. unfold itcount; cbn [fst snd]. unfold sym, ut, sl. rewrite (expand_noflags fl _ Ef). reflexivity.
  Qed.

  Lemma icount_loop_run n : forall B d fuel ct,
    length B <= n -> at_items d B -> length B < fuel -> count_loop L wr fl m e fuel d ct = Ok (ct + ittotal B).
  Proof.
    induction n as [|n IH]; intros B d fuel ct Hn Ha Hf; (destruct fuel as [|fuel]; [lia|]).
    - destruct B as [|p B]; [|cbn in Hn; lia]. cbn in Ha; subst d. cbn [count_loop].
      rewrite Nat.ltb_irrefl. f_equal; cbn; lia.
    - destruct B as [|p B].
      + cbn in Ha; subst d. cbn [count_loop]. rewrite Nat.ltb_irrefl. f_equal; cbn; lia.
      + cbn [count_loop]. pose proof (at_items_le _ _ Ha) as Hle. cbn [length] in Hle.
        destruct (Nat.ltb_spec d e); [|lia].
        destruct (icount_run _ _ _ Ha) as (d' & c & B' & E & Ha' & Hl & Ht).
        rewrite E; cbn [bind]. rewrite (IH B' d' fuel (ct + c)) by (auto; lia). f_equal; lia.
  Qed.

  (** The stores of a thread. *)
  Fixpoint icodes (pos : nat) (B : list (item W)) : list (cinstr W) :=
    match B with
    | [] => []
    | (Cut, p) :: B' => wcode wr pos (snd p) ++ icodes pos B'
    | (_, p) :: B' =>
        let pos' := pos + length (expand sym ut sl (ent p)) in
        line_code wr fl pos p ++ (if drop fl p && isnil B' then etail wr m e pos' else []) ++ icodes pos' B'
    end.

  Definition full (B : list (item W)) : list (line * W) :=
    flat_map (fun it => match fst it with Cut => [] | _ => [snd it] end) B.
  Definition imr (mr : Z) (B : list (item W)) : Z := mxr fl mr (full B).
  Definition imc (mc : Z) (B : list (item W)) : Z := mxc fl mc (full B).

  Lemma iset_end pos mr mc fuel : entry_set_flags L wr fl m e (S fuel) e pos mr mc = Ok (mkEset e pos (etail wr m e pos) mr mc).
  Proof. apply (set_flags_end L wr fl m e ce Hce Hce' fuel pos mr mc Hwe). Qed.

  Lemma imr_drop mr (p : line * W) : drop fl p = true -> mxr fl mr [p] = mr /\ mxc fl mr [p] = mr.
  Proof. intros Ed. rewrite mxr_cons, mxc_cons, (kept_drop fl p Ed). split; reflexivity. Qed.

  Lemma iset_flags_run B : forall d fuel pos mr mc, at_items d B -> B <> [] -> e - d < fuel ->
    exists r B', entry_set_flags L wr fl m e fuel d pos mr mc = Ok r /\
      at_items (es_d r) B' /\ length B' < length B /\
      es_code r ++ icodes (es_pos r) B' = icodes pos B /\
      imr (es_mr r) B' = imr mr B /\ imc (es_mc r) B' = imc mc B.
  Proof.
    induction B as [|it B IH]; intros d fuel pos mr mc Ha Hne Hfu; [congruence|].
    pose proof (at_items_le _ _ Ha) as Hle. cbn [length] in Hle. pose proof Ha as Ha0. destruct Ha as [Hi Ha].
    pose proof (at_item_len d it Hi) as Hlen. destruct it as [tg p]. destruct fuel as [|fuel]; [lia|].
    assert (Hx : drop fl p = true -> expand sym ut sl (ent p) = []) by (intros Ed; apply drop_expand; exact Ed).
    destruct tg.
    - rewrite itblk_full in *. destruct Hi as [fin Hal]. cbn [snd] in Hal. rewrite (set_flags_step L HL wr fl m e fin d p fuel pos mr mc Hal).
      destruct (drop fl p) eqn:Ed.
      + destruct B as [|q B].
        * cbn in Ha. destruct fuel as [|fuel]; [lia|]. rewrite Ha, iset_end. cbn [bind].
          eexists; exists []. split; [reflexivity|]. cbn [es_d es_pos es_code es_mr es_mc]. split; [reflexivity|]. split; [cbn; lia|]. split.
          -- cbn [icodes isnil]. rewrite Ed, (Hx eq_refl). cbn [length andb]. rewrite Nat.add_0_r, !app_nil_r. reflexivity.
          -- unfold imr, imc. cbn [full flat_map fst snd app]. destruct (imr_drop mr p Ed) as [-> _]. destruct (imr_drop mc p Ed) as [_ ->]. split; reflexivity.
        * destruct (IH _ fuel pos mr mc Ha ltac:(discriminate) ltac:(lia)) as (r & B' & E & Ha' & Hl & Hc & Hmr & Hmc).
          rewrite E. cbn [bind]. eexists; exists B'. split; [reflexivity|]. cbn [es_d es_pos es_code es_mr es_mc].
          split; [exact Ha'|]. split; [cbn [length] in *; lia|]. split.
          -- rewrite <- app_assoc, Hc. cbn [icodes isnil]. rewrite Ed, (Hx eq_refl). cbn [length andb app]. rewrite Nat.add_0_r. reflexivity.
          -- rewrite Hmr, Hmc. unfold imr, imc. change (full ((Full, p) :: q :: B)) with (p :: full (q :: B)).
             rewrite (mxr_cons fl mr p), (mxc_cons fl mc p), (kept_drop fl p Ed). split; reflexivity.
      + eexists; exists B. split; [reflexivity|]. cbn [es_d es_pos es_code es_mr es_mc]. split; [exact Ha|]. split; [cbn; lia|]. split.
        * cbn [icodes]. rewrite Ed. cbn [andb app]. reflexivity.
        * unfold imr, imc. change (full ((Full, p) :: B)) with (p :: full B).
          rewrite (mxr_cons fl mr p (full B)), (mxc_cons fl mc p (full B)), (mxr_cons fl mr p []), (mxc_cons fl mc p []). split; reflexivity.
    - destruct (cut_last d Cut p B ltac:(discriminate) Ha0) as [Ee ->]. rewrite (set_flags_cut d p fuel pos mr mc Hi).
      eexists; exists []. split; [reflexivity|]. cbn [es_d es_pos es_code es_mr es_mc]. split; [reflexivity|]. split; [cbn; lia|].
      cbn [icodes]. split; [reflexivity|]. split; reflexivity.
    - destruct (cut_last d Tail p B ltac:(discriminate) Ha0) as [Ee ->]. rewrite (set_flags_tail d p fuel pos mr mc Hi).
      destruct (drop fl p) eqn:Ed.
      + destruct fuel as [|fuel]; [lia|]. rewrite iset_end. cbn [bind]. eexists; exists []. split; [reflexivity|].
        cbn [es_d es_pos es_code es_mr es_mc]. split; [reflexivity|]. split; [cbn; lia|]. split.
        * cbn [icodes isnil]. rewrite Ed, (Hx eq_refl). cbn [length andb]. rewrite Nat.add_0_r, !app_nil_r. reflexivity.
        * unfold imr, imc. cbn [full flat_map fst snd app]. destruct (imr_drop mr p Ed) as [-> _]. destruct (imr_drop mc p Ed) as [_ ->]. split; reflexivity.
      + eexists; exists []. split; [reflexivity|]. cbn [es_d es_pos es_code es_mr es_mc]. split; [reflexivity|]. split; [cbn; lia|]. split.
        * cbn [icodes]. rewrite Ed. cbn [andb app]. reflexivity.
        * split; reflexivity.
  Qed.

  Lemma iset_run it B d pos mr mc : at_items d (it :: B) ->
    exists r B', entry_set L wr fl m e d pos mr mc = Ok r /\
      at_items (es_d r) B' /\ length B' < length (it :: B) /\
      es_code r ++ icodes (es_pos r) B' = icodes pos (it :: B) /\
      imr (es_mr r) B' = imr mr (it :: B) /\ imc (es_mc r) B' = imc mc (it :: B).
  Proof.
    intros Ha. unfold entry_set. destruct (has_flags fl) eqn:Ef.
    - apply iset_flags_run; [exact Ha|discriminate|lia].
    - destruct it as [tg p]. pose proof (nodrop_noflags fl p Ef) as Ed. destruct tg.
      + destruct Ha as [[fin Hal] Ha]. rewrite itblk_full in Ha. cbn [snd] in Hal. eexists; exists B.
        split; [apply (set_plain_at L HL wr fl m e _ _ _ _ _ _ Ef Hal)|]. cbn [es_d es_pos es_code es_mr es_mc].
        split; [exact Ha|]. split; [cbn; lia|]. split.
        * cbn [icodes]. rewrite Ed. cbn [andb app]. reflexivity.
        * unfold imr, imc. change (full ((Full, p) :: B)) with (p :: full B).
          rewrite (mxr_cons fl mr p (full B)), (mxc_cons fl mc p (full B)), (mxr_cons fl mr p []), (mxc_cons fl mc p []). split; reflexivity.
      + destruct (cut_last d Cut p B ltac:(discriminate) Ha) as [Ee ->]. destruct Ha as [Hi _]. eexists; exists [].
        split; [apply (set_plain_cut d p pos mr mc Hi)|]. cbn [es_d es_pos es_code es_mr es_mc]. split; [reflexivity|]. split; [cbn; lia|].
        cbn [icodes]. split; [reflexivity|]. split; reflexivity.
      + destruct (cut_last d Tail p B ltac:(discriminate) Ha) as [Ee ->]. destruct Ha as [Hi _]. eexists; exists [].
        split; [apply (set_plain_tail d p pos mr mc Ef Hi)|]. cbn [es_d es_pos es_code es_mr es_mc]. split; [reflexivity|]. split; [cbn; lia|]. split.
        * cbn [icodes]. rewrite Ed. cbn [andb app]. reflexivity.
        * split; reflexivity.
  Qed.

  Lemma iset_loop_run n : forall B d fuel pos mr mc,
    length B <= n -> at_items d B -> length B < fuel ->
    set_loop L wr fl m e fuel d pos mr mc = Ok (icodes pos B, imr mr B, imc mc B).
  Proof.
    induction n as [|n IH]; intros B d fuel pos mr mc Hn Ha Hf; (destruct fuel as [|fuel]; [lia|]).
    - destruct B as [|p B]; [|cbn in Hn; lia]. cbn in Ha; subst d. cbn [set_loop].
      rewrite Nat.ltb_irrefl. reflexivity.
    - destruct B as [|p B].
      + cbn in Ha; subst d. cbn [set_loop]. rewrite Nat.ltb_irrefl. reflexivity.
      + cbn [set_loop]. pose proof (at_items_le _ _ Ha) as Hle. cbn [length] in Hle. destruct (Nat.ltb_spec d e); [|lia].
        destruct (iset_run _ _ _ pos mr mc Ha) as (r & B' & E & Ha' & Hl & Hc & Hmr & Hmc).
        rewrite E; cbn [bind].
        rewrite (IH B' (es_d r) fuel (es_pos r) (es_mr r) (es_mc r)) by (auto; lia).
        cbn [bind]. rewrite Hc, Hmr, Hmc. reflexivity.
  Qed.
End Item.
