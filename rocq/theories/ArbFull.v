(** * ArbFull: what the edge-list reader stores on arbitrary bytes

    When the last byte is not a digit, every cell that pass 1 reserves is
    assigned by pass 2: the result is that of some list of pairs of labels. *)

From Verif Require Import Base Reader Sched SchedLemmas Spec ReaderLemmas Coo Safe Arb CooLemmas CooExec CooMain SpecDec TextRound Ascii.

(** A line with these two labels; only its labels matter below. *)
Definition mk_lbl (x y : Z) : line * unit := (mkLine (dec x) [] (dec y) [] [], tt).

Lemma ent_lbl x y : (0 <= x)%Z -> (0 <= y)%Z -> ent (mk_lbl x y) = (x, y, tt).
Proof. intros Hx Hy. unfold ent, mk_lbl. cbn [fst snd l_x l_y]. rewrite (proj2 (dec_digits x Hx)), (proj2 (dec_digits y Hy)). reflexivity. Qed.

Section Back.
  Variable m : mem.
  Hypothesis Hs : slack m.
  Variable e : nat.
  Hypothesis He : e <= flen m.

  Definition nondig (d : nat) : Prop := exists c, load m d = Ok c /\ is_digit c = false.

  Lemma nl_nondig c : is_nl c = true -> is_digit c = false.
  Proof. unfold is_nl, is_digit, ch_nl, ch_0, ch_9. lia. Qed.
  Lemma cmt_nondig c : is_cmt c = true -> is_digit c = false.
  Proof. unfold is_cmt, is_digit, ch_0, ch_9. unfold ch_pct, ch_hash. lia. Qed.

  Lemma skip_line_prev n : forall d d', skip_line_ m n d = Ok d' -> d' < d + n -> 0 < n -> nondig (d' - 1).
  Proof.
    induction n as [|n IH]; intros d d' E Hd Hn; [lia|]. cbn [skip_line_] in E.
    destruct (load m d) as [c| | |] eqn:Ec; try discriminate. cbn [bind] in E. destruct (is_nl c) eqn:En.
    - injection E as <-. replace (S d - 1) with d by lia. exists c. split; [exact Ec|apply nl_nondig; exact En].
    - destruct n as [|n]; [cbn [skip_line_] in E; injection E as <-; lia|]. apply (IH (S d)); [exact E|lia|lia].
  Qed.

  Lemma skip_line_le n : forall d d', skip_line_ m n d = Ok d' -> d <= d' <= d + n.
  Proof.
    clear He.
    induction n as [|n IH]; intros d d' E; cbn [skip_line_] in E; [injection E as <-; lia|].
    destruct (load m d) as [c| | |] eqn:Ec; try discriminate. cbn [bind] in E. destruct (is_nl c).
    - injection E as <-. lia.
    - apply IH in E. lia.
  Qed.

  Lemma skip_comments_prev fuel : forall d d', skip_comments_ m e fuel d = Ok d' -> d < d' -> d' < e -> nondig (d' - 1).
  Proof.
    induction fuel as [|fuel IH]; intros d d' E H1 H2; [discriminate|]. cbn [skip_comments_] in E.
    destruct (Nat.ltb_spec d e) as [Hlt|Hge]; [|injection E as <-; lia].
    destruct (load m d) as [c| | |] eqn:Ec; try discriminate. cbn [bind] in E. destruct (is_cmt c); [|injection E as <-; lia].
    destruct (skip_line_ m (e - d) d) as [d1| | |] eqn:E1; try discriminate. cbn [bind] in E.
    pose proof (skip_line_le _ _ _ E1) as B1.
    destruct (Nat.eq_dec d1 d') as [->|Hne].
    - apply (skip_line_prev (e - d) d); [exact E1|lia|lia].
    - destruct (Nat.lt_ge_cases d1 d') as [Hl|Hg]; [apply (IH d1); assumption|].
      exfalso. assert (Hx : forall f a b, skip_comments_ m e f a = Ok b -> a <= b).
      { clear. induction f as [|f IH]; intros a b E; [discriminate|]. cbn [skip_comments_] in E.
        destruct (a <? e); [|injection E as <-; lia].
        destruct (load m a) as [c| | |]; try discriminate. cbn [bind] in E. destruct (is_cmt c); [|injection E as <-; lia].
        destruct (skip_line_ m (e - a) a) as [d1| | |] eqn:E1; try discriminate. cbn [bind] in E.
        apply skip_line_le in E1. apply IH in E. lia. }
      apply Hx in E. lia.
  Qed.

  Lemma skip_here_prev d d' : skip_comments_here m e d = Ok d' -> d < d' -> d' < e -> nondig (d' - 1).
  Proof.
    unfold skip_comments_here. destruct (load m d) as [c| | |] eqn:Ec; try discriminate. cbn [bind]. destruct (is_cmt c).
    - apply skip_comments_prev.
    - intros E. injection E as <-. lia.
  Qed.

  Lemma seek_prev fuel : forall d d', d <= e -> e - d < fuel -> seek_ m is_digit e fuel d = Ok d' -> d < d' -> d' < e -> nondig (d' - 1).
  Proof.
    induction fuel as [|fuel IH]; intros d d' Hd Hf E H1 H2; [lia|]. cbn [seek_] in E.
    destruct (Nat.ltb_spec d e) as [Hlt|Hge]; [|injection E as <-; lia].
    destruct (load m d) as [c| | |] eqn:Ec; try discriminate. cbn [bind] in E. destruct (is_digit c) eqn:Ed; [injection E as <-; lia|].
    destruct (safe_ok _ _ _ Hs (skip_comments_here_safe m e He (S d) ltac:(lia))) as (d1 & E1 & B1 & _).
    rewrite E1 in E. cbn [bind] in E.
    destruct (safe_ok _ _ _ Hs (seek_safe m e He is_digit fuel d1 ltac:(lia) ltac:(lia))) as (d2 & E2 & B2 & _).
    rewrite E in E2. injection E2 as <-.
    destruct (Nat.eq_dec d1 d') as [->|Hne]; [|apply (IH d1); [lia|lia|exact E|lia|exact H2]].
    destruct (Nat.eq_dec (S d) d') as [<-|Hne']; [replace (S d - 1) with d by lia; exists c; auto|].
    apply (skip_here_prev (S d)); [exact E1|lia|exact H2].
  Qed.

  Lemma first_int_prev d d' : d <= e -> move_to_first_int m e d = Ok d' -> d < d' -> d' < e -> nondig (d' - 1).
  Proof.
    intros Hd E H1 H2. unfold move_to_first_int in E.
    destruct (safe_ok _ _ _ Hs (skip_comments_here_safe m e He d Hd)) as (d1 & E1 & B1 & _).
    rewrite E1 in E. cbn [bind] in E.
    destruct (Nat.eq_dec d1 d') as [->|Hne]; [apply (skip_here_prev d); assumption|].
    destruct (safe_ok _ _ _ Hs (seek_safe m e He is_digit (S (e - d1)) d1 ltac:(lia) ltac:(lia))) as (d2 & E2 & B2 & _).
    rewrite E in E2. injection E2 as <-.
    apply (seek_prev _ d1 d') in E; [exact E|lia|lia|lia|exact H2].
  Qed.

  Lemma next_line_prev d d' : d <= e -> next_line m e d = Ok d' -> d' < e -> nondig (d' - 1).
  Proof.
    intros Hd E H2. unfold next_line, move_to_eol, move_to_next_int, move_to_non_int in E.
    destruct (safe_ok _ _ _ Hs (scan_safe m e He (fun c => negb (is_nl c)) d Hd)) as (d1 & E1 & B1 & C1 & _).
    rewrite E1 in E. cbn [bind] in E.
    destruct (Nat.lt_ge_cases d1 e) as [Hl|Hg].
    - destruct (C1 Hl) as (c & Hc & Hn). assert (Hn' : is_nl c = true) by (destruct (is_nl c); [reflexivity|discriminate]).
      rewrite (scan_stop m is_digit e d1 c Hc (nl_nondig c Hn')) in E. cbn [bind] in E.
      destruct (safe_ok _ _ _ Hs (move_to_first_int_safe m e He d1 ltac:(lia))) as (d2 & E2 & B2 & D2).
      rewrite E in E2. injection E2 as <-. destruct (D2 H2) as (c2 & Hc2 & Dc2).
      apply (first_int_prev d1); [lia|exact E| |exact H2].
      assert (d' <> d1); [|lia]. intros ->. rewrite Hc in Hc2. injection Hc2 as <-. rewrite (nl_nondig c Hn') in Dc2. discriminate.
    - rewrite scan_end in E by lia. cbn [bind] in E.
      destruct (safe_ok _ _ _ Hs (move_to_first_int_safe m e He d1 ltac:(lia))) as (d2 & E2 & B2 & D2).
      rewrite E in E2. injection E2 as <-. lia.
  Qed.
End Back.

Section Full.
  Variable L : ity.
  Hypothesis HL : is_ity L.
  Hypothesis Hu : isigned L = false.
  Variable fl : flags.
  Variable m : mem.
  Hypothesis Hs : slack m.
  Variable e : nat.
  Hypothesis He : e <= flen m.
  Hypothesis Hnd : nondig m (e - 1).

  Let HM : modular L := or_introl Hu.

  Definition lbl (x : Z) : Prop := (0 <= x <= imax L)%Z.
  Definition fake (p : line * unit) : Prop := exists x y, lbl x /\ lbl y /\ p = mk_lbl x y.

  Lemma lbl0 : lbl 0.
  Proof. pose proof (ity_facts L HL) as (F1 & F2 & _). unfold lbl; lia. Qed.

  Lemma wrap_lbl z : lbl (wrap L z).
  Proof.
    unfold lbl, wrap, imax. rewrite Hu.
    assert (H : (0 < 2 ^ ibits L)%Z).
    { apply Z.pow_pos_nonneg; [lia|]. pose proof HL as H. unfold is_ity in H. cbn [In] in H. repeat (destruct H as [<-|H]; [vm_compute; discriminate|]). destruct H. }
    pose proof (Z.mod_pos_bound z _ H). lia.
  Qed.

  Lemma read_digits_lbl n : forall d acc v d1, lbl acc -> read_digits_ m L n d acc = Ok (v, d1) -> lbl v.
  Proof.
    induction n as [|n IH]; intros d acc v d1 Ha E; cbn [read_digits_] in E; [injection E as <- <-; exact Ha|].
    destruct (load m d) as [c| | |]; try discriminate. cbn [bind] in E. destruct (is_digit c); [|injection E as <- <-; exact Ha].
    rewrite arith_modular in E by exact HM. cbn [bind] in E. eapply IH; [|exact E]. apply wrap_lbl.
  Qed.

  Lemma read_int_lbl d v d1 : read_int m L e d = Ok (v, d1) -> lbl v.
  Proof.
    unfold read_int. destruct (scan _ _ _ _) as [d0| | |]; try discriminate. cbn [bind]. apply read_digits_lbl. exact lbl0.
  Qed.

  Lemma read_xy_lbl d x y d1 : read_xy L m e d = Ok (x, y, d1) -> lbl x /\ lbl y.
  Proof.
    unfold read_xy. destruct (read_int m L e d) as [[x' d2]| | |] eqn:E1; try discriminate. cbn [bind].
    destruct (move_to_next_int m e d2) as [d3| | |]; try discriminate. cbn [bind].
    destruct (read_int m L e d3) as [[y' d4]| | |] eqn:E2; try discriminate. cbn [bind]. intros E. injection E as <- <- <-.
    split; eapply read_int_lbl; eassumption.
  Qed.

  Definition exact_ (d : nat) (rc : res (nat * nat)) (rs : nat -> Z -> Z -> res (@eset unit)) : Prop :=
    exists d' ps, rc = Ok (d', total fl ps) /\ d <= d' <= e /\ (d < e -> d < d') /\ at_digit m e d' /\ Forall fake ps /\
      total fl ps <= 2 * (d' - d) /\
      forall pos mr mc, rs pos mr mc = Ok (mkEset d' (pos + total fl ps) (codes none fl pos ps) (mxr fl mr ps) (mxc fl mc ps)).

  Lemma total_nil : total fl (@nil (line * unit)) = 0.
  Proof. reflexivity. Qed.

  Lemma plain_exact d : has_flags fl = false -> d < e -> at_digit m e d ->
    exact_ d (entry_count_plain m e d) (entry_set_plain L none m e d).
  Proof.
    intros Hfl Hd Ha. destruct (Ha Hd) as (c & Hc & Ec). unfold entry_count_plain, entry_set_plain, exact_.
    destruct (read_xy_trace L HM m Hs e He d c Hd Hc Ec) as (x & y & dy & d3 & E & Ey & B1 & B2 & Sy).
    destruct (read_xy_lbl _ _ _ _ E) as [Lx Ly].
    rewrite E, Ey. cbn [bind set_weight none app].
    destruct (Nat.leb_spec e dy) as [Hg|Hl].
    - assert (dy = e) by lia. assert (d3 = e) by lia. subst dy d3. rewrite Nat.leb_refl.
      exists e, []. split; [reflexivity|].
      split; [lia|]. split; [lia|]. split; [exact (at_digit_end m e He)|]. split; [constructor|]. split; [cbn; lia|].
      intros. rewrite total_nil, Nat.add_0_r. reflexivity.
    - specialize (Sy Hl). pose proof (next_line_mid m Hs e He dy d3 ltac:(lia) Sy) as En.
      destruct (next_line_ok m Hs e He dy ltac:(lia)) as (d4 & E4 & B4 & P4 & D4). rewrite E4. cbn [bind].
      destruct (Nat.leb_spec e d3) as [Hg3|Hl3].
      + exfalso. assert (d3 = e) by lia. subst d3.
        destruct (scan_ok m Hs e He is_digit dy ltac:(lia)) as (d' & S1 & _ & _ & S3). rewrite Sy in S1. injection S1 as <-.
        destruct (S3 (e - 1) ltac:(lia)) as (c1 & C1 & C2). destruct Hnd as (c2 & C3 & C4). congruence.
      + rewrite <- En, E4. cbn [bind]. exists d4, [mk_lbl x y].
        assert (Hx : expand (f_sym fl) (f_ut fl) (f_sl fl) (ent (mk_lbl x y)) = [(x, y, tt)]).
        { rewrite ent_lbl by (apply Lx || apply Ly). unfold has_flags in Hfl. destruct fl as [[] [] []]; try discriminate. reflexivity. }
        assert (Ht : total fl [mk_lbl x y] = 1).
        { unfold total. cbn [map flat_map]. rewrite Hx. reflexivity. }
        assert (Hk : kents fl [mk_lbl x y] = [(x, y, tt)]).
        { unfold kents, kept. cbn [map flat_map]. rewrite Hx. reflexivity. }
        split; [rewrite Ht; reflexivity|].
        split; [lia|]. split; [lia|]. split; [exact D4|]. split; [repeat constructor; exists x, y; auto|].
        split; [rewrite Ht; lia|]. intros pos mr mc. rewrite Ht. unfold mxr, mxc. rewrite Hk. cbn [map fold_left fst snd].
        f_equal. f_equal.
        cbn [codes]. rewrite app_nil_r. unfold line_code, drop. unfold has_flags in Hfl.
        unfold wcode, none. cbn [mk_lbl fst snd l_x l_y]. rewrite (proj2 (dec_digits x (proj1 Lx))), (proj2 (dec_digits y (proj1 Ly))).
        unfold dropped, doubled. destruct fl as [[] [] []]; try discriminate. reflexivity.
  Qed.

  Lemma flags_exact fuel : forall d, d <= e -> at_digit m e d -> e - d < fuel ->
    exact_ d (entry_count_flags L none fl m e fuel d) (entry_set_flags L none fl m e fuel d).
  Proof.
    induction fuel as [|fuel IH]; intros d Hd Ha Hf; [lia|]. unfold exact_. cbn [entry_count_flags entry_set_flags].
    assert (Hend : exists d' ps, Ok (e, 0) = Ok (d', total fl ps) /\ d <= d' <= e /\ (d < e -> d < d') /\ at_digit m e d' /\ Forall fake ps /\
      total fl ps <= 2 * (d' - d) /\
      forall pos mr mc, Ok (mkEset e pos (@nil (cinstr unit)) mr mc) = Ok (mkEset d' (pos + total fl ps) (codes none fl pos ps) (mxr fl mr ps) (mxc fl mc ps))).
    { exists e, []. split; [reflexivity|].
      split; [lia|]. split; [lia|]. split; [exact (at_digit_end m e He)|]. split; [constructor|]. split; [cbn; lia|].
      intros. rewrite total_nil, Nat.add_0_r. reflexivity. }
    destruct (Nat.lt_ge_cases d e) as [Hlt|Hge].
    2:{ assert (d = e) by lia. subst d.
        assert (E : exists x y, read_xy L m e e = Ok (x, y, e)).
        { unfold read_xy. rewrite read_int_end by lia. cbn [bind].
          destruct (next_int_ok m Hs e He e ltac:(lia)) as (d2 & E2 & B2 & _). assert (d2 = e) by lia. subst d2. rewrite E2. cbn [bind].
          rewrite read_int_end by lia. cbn [bind]. eauto. }
        destruct E as (x & y & E). rewrite E. cbn [bind set_weight none app]. rewrite Nat.leb_refl. exact Hend. }
    destruct (Ha Hlt) as (c & Hc & Ec).
    destruct (read_xy_trace L HM m Hs e He d c Hlt Hc Ec) as (x & y & dy & d3 & E & Ey & B1 & B2 & Sy).
    destruct (read_xy_lbl _ _ _ _ E) as [Lx Ly].
    rewrite E. cbn [bind set_weight none app].
    destruct (Nat.leb_spec e d3) as [Hg|Hl].
    - assert (d3 = e) by lia. subst d3. exact Hend.
    - destruct (next_line_ok m Hs e He d3 ltac:(lia)) as (d4 & E4 & B4 & P4 & D4). rewrite E4. cbn [bind].
      assert (Lab : dval (l_x (fst (mk_lbl x y))) = x /\ dval (l_y (fst (mk_lbl x y))) = y).
      { cbn [mk_lbl fst l_x l_y]. rewrite (proj2 (dec_digits x (proj1 Lx))), (proj2 (dec_digits y (proj1 Ly))). auto. }
      destruct Lab as [Labx Laby].
      assert (Hf1 : fake (mk_lbl x y)) by (exists x, y; auto).
      destruct (dropped fl x y) eqn:Edr.
      + assert (Hd' : drop fl (mk_lbl x y) = true) by (unfold drop; rewrite Labx, Laby; exact Edr).
        pose proof (proj1 (drop_expand fl (mk_lbl x y)) Hd') as Hex.
        destruct (IH d4 ltac:(lia) D4 ltac:(lia)) as (d' & ps & C1 & C3 & C4 & C5 & C6 & C7 & C8).
        rewrite C1. cbn [bind]. exists d', (mk_lbl x y :: ps).
        assert (Ht : total fl (mk_lbl x y :: ps) = total fl ps) by (rewrite total_cons, Hex; reflexivity).
        assert (Hk : kents fl (mk_lbl x y :: ps) = kents fl ps) by (rewrite kents_cons; unfold kept; rewrite Hex; reflexivity).
        split; [rewrite Ht; reflexivity|].
        split; [lia|]. split; [lia|]. split; [exact C5|]. split; [constructor; assumption|]. split; [lia|].
        intros pos mr mc. rewrite C8. cbn [bind es_d es_pos es_code es_mr es_mc]. rewrite Ht. unfold mxr, mxc. rewrite Hk.
        f_equal. f_equal.
        cbn [codes]. rewrite Hex. cbn [length]. rewrite Nat.add_0_r. unfold line_code. rewrite Hd'. reflexivity.
      + assert (Hd' : drop fl (mk_lbl x y) = false) by (unfold drop; rewrite Labx, Laby; exact Edr).
        pose proof (doubled_expand fl (mk_lbl x y) Hd') as Hlen. rewrite Labx, Laby in Hlen.
        pose proof (kept_keep fl (mk_lbl x y) Hd') as Hk. cbn zeta in Hk. rewrite Labx, Laby in Hk.
        assert (Ht : total fl [mk_lbl x y] = if doubled fl x y then 2 else 1).
        { rewrite total_cons. rewrite Hlen. rewrite total_nil. lia. }
        exists d4, [mk_lbl x y]. split; [rewrite Ht; reflexivity|].
        split; [lia|]. split; [lia|]. split; [exact D4|]. split; [repeat constructor; exact Hf1|].
        split; [rewrite Ht; destruct (doubled fl x y); lia|].
        intros pos mr mc. unfold mxr, mxc. rewrite kents_cons. rewrite Hk, Ht, swap_doubled. cbn [kents map flat_map app fold_left fst snd].
        f_equal. f_equal.
        cbn [codes]; rewrite app_nil_r; unfold line_code; rewrite Hd', Labx, Laby, swap_doubled; reflexivity.
  Qed.

  Lemma entry_exact d : d < e -> at_digit m e d ->
    exact_ d (entry_count L none fl m e d) (entry_set L none fl m e d).
  Proof.
    intros Hd Ha. unfold entry_count, entry_set. destruct (has_flags fl) eqn:Ef; [|apply plain_exact; assumption].
    apply flags_exact; [lia|exact Ha|lia].
  Qed.

  Lemma mxr_app a b mr : mxr fl mr (a ++ b) = mxr (W:=unit) fl (mxr fl mr a) b.
  Proof. unfold mxr, kents. rewrite map_app, flat_map_app, map_app, fold_left_app. reflexivity. Qed.
  Lemma mxc_app a b mr : mxc fl mr (a ++ b) = mxc (W:=unit) fl (mxc fl mr a) b.
  Proof. unfold mxc, kents. rewrite map_app, flat_map_app, map_app, fold_left_app. reflexivity. Qed.

  Lemma loops_exact fuel : forall d, at_digit m e d -> d <= e -> e - d < fuel ->
    exists ps, Forall fake ps /\ total fl ps <= 2 * (e - d) /\
    (forall ct, count_loop L none fl m e fuel d ct = Ok (ct + total fl ps)) /\
    forall pos mr mc, set_loop L none fl m e fuel d pos mr mc = Ok (codes none fl pos ps, mxr fl mr ps, mxc fl mc ps).
  Proof.
    induction fuel as [|fuel IH]; intros d Ha Hd Hf; [lia|]. cbn [count_loop set_loop].
    destruct (Nat.ltb_spec d e) as [Hlt|Hge].
    2:{ exists []. split; [constructor|]. split; [cbn; lia|]. split; [intros; rewrite total_nil, Nat.add_0_r; reflexivity|]. reflexivity. }
    destruct (entry_exact d Hlt Ha) as (d' & ps & C1 & C3 & C4 & C5 & C6 & C7 & C8).
    rewrite C1. cbn [bind].
    destruct (IH d' C5 ltac:(lia) ltac:(lia)) as (ps' & K1 & K4 & K2 & K3).
    exists (ps ++ ps'). split; [apply Forall_app; auto|]. rewrite total_app. split; [lia|].
    split; [intros ct; rewrite K2; f_equal; lia|].
    intros pos mr mc. rewrite C8. cbn [bind es_d es_pos es_code es_mr es_mc]. rewrite K3. cbn [bind].
    rewrite codes_app, mxr_app, mxc_app. reflexivity.
  Qed.
End Full.

(** ** The whole reader, from a position [d0] *)
Section Whole.
  Variable L O : ity.
  Hypothesis HL : is_ity L.
  Hypothesis Hu : isigned L = false.
  Hypothesis HO : is_ity O.
  Variable fl : flags.
  Variable m : mem.
  Hypothesis Hs : slack m.
  Variable T : nat.
  Hypothesis HT : 1 <= T.
  Variable d0 : nat.
  Let e := flen m.
  Hypothesis Hd0 : d0 <= e.
  Hypothesis Hlast : nondig m (e - 1).

  Definition chunk_end (c : nat * nat) : Prop :=
    snd c <= e /\ nondig m (snd c - 1) /\ (fst c < snd c -> exists ch, load m (fst c) = Ok ch /\ is_digit ch = true).

  Lemma chunk_at_end t : t < T -> exists c, el_chunk m d0 e T t = Ok c /\ chunk_end c.
  Proof.
    intros Ht. unfold el_chunk, line_boundary. rewrite (proj2 (Nat.ltb_ge e d0)) by lia; cbn [andb]. 
    assert (Ha : forall p, advance e d0 p <= e) by (intros; unfold advance; lia).
    destruct (next_line_ok m Hs e (le_n _) (advance e d0 ((t + 1) * (e - d0) / T)) (Ha _)) as (re & E1 & B1 & _).
    rewrite E1. cbn [bind]. set (ps := advance e d0 (t * (e - d0) / T)).
    assert (E2 : exists rs, (if t =? 0 then move_to_first_int m e ps else next_line m e ps) = Ok rs /\ rs <= e /\
       (rs < e -> exists c, load m rs = Ok c /\ is_digit c = true)).
    { destruct (t =? 0).
      - destruct (safe_ok _ _ _ Hs (move_to_first_int_safe m e (le_n _) ps (Ha _))) as (rs & E & B & D).
        exists rs. split; [exact E|]. split; [lia|exact D].
      - destruct (next_line_ok m Hs e (le_n _) ps (Ha _)) as (rs & E & B & _ & D).
        exists rs. split; [exact E|]. split; [lia|exact D]. }
    destruct E2 as (rs & E2 & B2 & D2). rewrite E2. cbn [bind].
    eexists. split; [reflexivity|]. unfold chunk_end. cbn [fst snd].
    assert (Hse : smaller_end e re = re) by (unfold smaller_end; destruct (Nat.ltb_spec re e); lia). rewrite Hse.
    split; [lia|]. split; [|intros; apply D2; lia].
    destruct (Nat.eq_dec re e) as [->|Hne]; [exact Hlast|].
    eapply (next_line_prev m Hs e (le_n _)); [|exact E1|lia]. apply Ha.
  Qed.

  Definition chunk_does (c : nat * nat) (ps : list (line * unit)) : Prop :=
    Forall (fake L) ps /\ total fl ps <= 2 * e /\
    count_loop L none fl m (snd c) (S (snd c - fst c)) (fst c) 0 = Ok (total fl ps) /\
    forall pos mr mc, set_loop L none fl m (snd c) (S (snd c - fst c)) (fst c) pos mr mc = Ok (codes none fl pos ps, mxr fl mr ps, mxc fl mc ps).

  Lemma chunk_exact c : chunk_end c -> exists ps, chunk_does c ps.
  Proof.
    intros (H1 & H2 & H3). unfold chunk_does. destruct (Nat.le_gt_cases (fst c) (snd c)) as [Hle|Hgt].
    - destruct (loops_exact L HL Hu fl m Hs (snd c) H1 H2 (S (snd c - fst c)) (fst c) H3 Hle ltac:(lia)) as (ps & K1 & K4 & K2 & K3).
      exists ps. split; [exact K1|]. split; [lia|]. split; [rewrite K2; reflexivity|exact K3].
    - exists []. cbn [count_loop set_loop]. destruct (Nat.ltb_spec (fst c) (snd c)); [lia|].
      split; [constructor|]. split; [cbn; lia|]. split; reflexivity.
  Qed.

  Lemma chunks_exact cs : Forall chunk_end cs -> exists pss, Forall2 chunk_does cs pss.
  Proof.
    induction 1 as [|c cs Hc _ (pss & IH)]; [exists []; constructor|].
    destruct (chunk_exact c Hc) as (ps & Hps). exists (ps :: pss). constructor; assumption.
  Qed.

  Fixpoint progs (pos : nat) (pss : list (list (line * unit))) : list (list (cinstr unit)) :=
    match pss with [] => [] | ps :: r => codes none fl pos ps :: progs (pos + total fl ps) r end.

  Lemma passes_exact cs pss : Forall2 chunk_does cs pss -> forall pos,
    mapM (fun c => count_loop L none fl m (snd c) (S (snd c - fst c)) (fst c) 0) cs = Ok (map (total fl) pss) /\
    exists p2, mapM (fun cs => set_loop L none fl m (snd (fst cs)) (S (snd (fst cs) - fst (fst cs)))
                    (fst (fst cs)) (snd cs) (imin L) (imin L)) (combine cs (prefix_sums pos (map (total fl) pss))) = Ok p2 /\
      map (fun r => fst (fst r)) p2 = progs pos pss /\
      map (fun r => snd (fst r)) p2 = map (mxr fl (imin L)) pss /\ map (fun r => snd r) p2 = map (mxc fl (imin L)) pss.
  Proof.
    induction 1 as [|c ps cs pss (K1 & K4 & K2 & K3) HF IH]; intros pos.
    - split; [reflexivity|]. exists []. repeat split.
    - cbn [map mapM prefix_sums combine fst snd]. rewrite K2. cbn [bind].
      destruct (IH (pos + total fl ps)) as (I1 & p2 & I2 & I3 & I4 & I5). rewrite I1. cbn [bind]. split; [reflexivity|].
      rewrite K3. cbn [bind]. rewrite I2. cbn [bind]. eexists. split; [reflexivity|]. cbn [map fst snd progs]. rewrite I3, I4, I5. repeat split.
  Qed.

  Lemma progs_in pss : forall pos, Forall (Forall (wr_in pos (pos + total fl (concat pss)))) (progs pos pss).
  Proof.
    induction pss as [|ps pss IH]; intros pos; cbn [progs concat]; [constructor|]. rewrite total_app. constructor.
    - apply codes_in; [lia|lia|left; reflexivity].
    - eapply Forall_impl; [|apply IH]. intros l Hl. eapply Forall_impl; [|exact Hl]. intros i. unfold wr_in. destruct i; lia.
  Qed.

  Lemma progs_independent pss : forall pos, ForallOrdPairs (indep cexec) (progs pos pss).
  Proof.
    induction pss as [|ps pss IH]; intros pos; cbn [progs]; constructor; [|apply IH].
    eapply Forall_impl; [|apply (progs_in pss)]. intros l Hl a b Ha Hb.
    assert (H : Forall (wr_in pos (pos + total fl ps)) (codes none fl pos ps)) by (apply codes_in; [lia|lia|left; reflexivity]).
    rewrite Forall_forall in H, Hl. eapply comm_cinstr; [exact (H a Ha)|exact (Hl b Hb)|]. left. lia.
  Qed.

  Lemma progs_all pss : forall pos, concat (progs pos pss) = codes none fl pos (concat pss).
  Proof. induction pss as [|ps pss IH]; intros pos; cbn [progs concat]; [reflexivity|]. rewrite codes_app, IH. reflexivity. Qed.

  Lemma reduce_kents (f : Z * Z * unit -> Z) pss : fold_left Z.max (map (fun ps => fold_left Z.max (map f (kents fl ps)) (imin L)) pss) 0%Z =
    max_of (map f (kents fl (concat pss))).
  Proof.
    rewrite <- (map_map (fun ps => map f (kents fl ps)) (fun l => fold_left Z.max l (imin L))).
    rewrite reduce_max.
    - f_equal. induction pss as [|ps pss IH]; [reflexivity|]. cbn [map concat]. rewrite IH. unfold kents. rewrite map_app, flat_map_app, map_app. reflexivity.
    - pose proof (ity_facts L HL) as (F1 & F2 & _). lia.
  Qed.

  Definition labels_of (es : list (Z * Z)) : list (Z * Z * unit) := map (fun p => (p, tt)) es.
  Definition stored_ (es : list (Z * Z)) : list (Z * Z * unit) := flat_map (expand (f_sym fl) (f_ut fl) (f_sl fl)) (labels_of es).
  Definition counted_ (es : list (Z * Z)) : list (Z * Z * unit) := flat_map (kept (f_sym fl) (f_ut fl) (f_sl fl)) (labels_of es).

  Lemma fakes ps : Forall (fake L) ps -> exists es, map ent ps = labels_of es /\ Forall (fun p => lbl L (fst p) /\ lbl L (snd p)) es.
  Proof.
    induction 1 as [|p ps (x & y & Hx & Hy & ->) _ (es & IH & HF)]; [exists []; split; [reflexivity|constructor]|].
    exists ((x, y) :: es). cbn [map labels_of]. rewrite ent_lbl by (apply Hx || apply Hy). rewrite IH. split; [reflexivity|]. constructor; auto.
  Qed.

  Theorem read_el_exact : exists es, Forall (fun p => lbl L (fst p) /\ lbl L (snd p)) es /\ length (stored_ es) <= 2 * T * e /\
    ((Z.of_nat (length (stored_ es)) <= imax O)%Z -> forall sched,
       read_el L O none fl m d0 e T sched =
       let nr := wrap L (max_of (map (fun p => fst (fst p)) (counted_ es)) + 1) in
       let nc := wrap L (max_of (map (fun p => snd (fst p)) (counted_ es)) + 1) in
       Ok (mkCoo (map (fun p => Some (fst (fst p))) (stored_ es)) (map (fun p => Some (snd (fst p))) (stored_ es)) []
             (Some (Z.max nr nc)) (Some nr) (Some nc) (Z.of_nat (length (stored_ es))))).
  Proof.
    unfold read_el, el_pass1, el_pass2.
    destruct (mapM_all (el_chunk m d0 e T) (seq 0 T)) as (chunks & E1).
    { intros t Ht. apply in_seq in Ht. destruct (chunk_at_end t ltac:(lia)) as (c & E & _). eauto. }
    assert (Hc : Forall chunk_end chunks /\ length chunks = T).
    { pose proof (mapM_forall2 _ _ _ E1) as F. split.
      - assert (Hin : forall t, In t (seq 0 T) -> t < T) by (intros t H; apply in_seq in H; lia).
        clear E1. induction F as [|t c ts cs E HF IH]; [constructor|]. constructor.
        + destruct (chunk_at_end t (Hin t (or_introl eq_refl))) as (c' & E' & B). congruence.
        + apply IH. intros; apply Hin; right; assumption.
      - clear - F. transitivity (length (seq 0 T)); [|apply seq_length]. induction F; cbn; congruence. }
    destruct Hc as [Hc Hlen]. destruct (chunks_exact chunks Hc) as (pss & HF).
    destruct (passes_exact chunks pss HF 0) as (P1 & p2 & P2 & P3 & P4 & P5).
    assert (Hfk : Forall (fake L) (concat pss) /\ total fl (concat pss) <= 2 * length chunks * e /\ sum_nat (map (total fl) pss) = total fl (concat pss)).
    { clear - HF. induction HF as [|c ps cs pss (K1 & K4 & _) HF (I1 & I2 & I3)]; [repeat split; [constructor|cbn; lia]|].
      cbn [concat map length]. rewrite total_app. split; [apply Forall_app; auto|]. split; [lia|]. cbn [sum_nat fold_right]. fold (sum_nat (map (total fl) pss)). lia. }
    destruct Hfk as (Hfk & Hb & Hsum). rewrite Hlen in Hb.
    destruct (fakes _ Hfk) as (es & Hes & Hlb). exists es. split; [exact Hlb|].
    assert (Ht : total fl (concat pss) = length (stored_ es)) by (unfold total, stored_; rewrite Hes; reflexivity).
    split; [lia|]. intros HcO sched. rewrite E1. cbn [bind]. rewrite P1. cbn [bind]. rewrite Hsum, Ht.
    pose proof (ity_facts O HO) as (F1 & F2 & _). pose proof (ity_facts L HL) as (F3 & F4 & _).
    rewrite wrap_in by (auto; lia). unfold coo_alloc. destruct (Z.ltb_spec (Z.of_nat (length (stored_ es))) 0) as [|_]; [lia|]. cbn [bind is_some none].
    rewrite Nat2Z.id, P2. cbn [bind]. rewrite P3, P4, P5.
    rewrite run_indep by apply progs_independent. rewrite progs_all.
    set (st0 := mkCst _ _ _). set (N := length (stored_ es)) in *.
    destruct (exec_codes none fl N (concat pss) [] st0) as (s' & E & Hf).
    { exists (fresh N), (fresh N), []. unfold st0; cbn [cx cy cw map app length none]. rewrite !fresh_length. auto 10. }
    { cbn [length plus]. lia. }
    { left; reflexivity. }
    cbn [length] in E. rewrite E. cbn [bind].
    rewrite !arith_modular by (left; exact Hu). cbn [bind].
    unfold mxr, mxc. rewrite !reduce_kents.
    assert (Hk : kents fl (concat pss) = counted_ es) by (unfold kents, counted_; rewrite Hes; reflexivity). rewrite Hk.
    destruct Hf as (rx & ry & rw & Hx & Hy & Hlx & Hly & Hwt). cbn [app none] in Hx, Hy, Hlx, Hly, Hwt.
    rewrite Hes in Hx, Hy, Hlx, Hly. change (flat_map _ (labels_of es)) with (stored_ es) in Hx, Hy, Hlx, Hly.
    assert (rx = []) by (apply length_zero_iff_nil; lia).
    assert (ry = []) by (apply length_zero_iff_nil; lia). subst rx ry. rewrite app_nil_r in *. rewrite Hx, Hy, Hwt. cbn zeta.
    f_equal. f_equal. f_equal.
    match goal with |- context [(?a <? ?b)%Z] => destruct (Z.ltb_spec a b); lia end.
  Qed.
End Whole.
