(** * Bare: a weighted reader on an edge list without weights *)

From Verif Require Import Base Reader Sched SchedLemmas Spec SpecFp ReaderLemmas Coo CooLemmas CooExec
  CooSplit WeightLemmas CooMain ElSpec ElFinal ElThms SpecBare.

Lemma blank_facts c : blank c \/ c = ch_nl ->
  is_digit c = false /\ is_cmt c = false /\ is_fp c = false /\ is_signed_start c = false /\
  (c =? ch_plus)%Z = false /\ (c =? ch_minus)%Z = false.
Proof. intros [[->|[->| ->]]| ->]; repeat split. Qed.

Lemma blank_sep c : blank c -> sep_char c.
Proof. intros [->|[->| ->]]; repeat split. Qed.

Lemma bare_wf fin l : bare_line l -> wf_line fin l.
Proof.
  intros (H1 & (H2 & H2') & H3 & H4 & H5). split; [exact H1|]. split; [split; [exact H2|]|].
  { eapply Forall_impl; [|exact H2']. intros c; apply blank_sep. }
  split; [exact H3|]. split.
  - split.
    + eapply Forall_impl; [|exact H4]. intros c Hc. apply blank_sep in Hc. apply Hc.
    + destruct (l_post l) as [|c s]; [exact Logic.I|]. apply forall_hd in H4. apply blank_sep in H4. apply H4.
  - clear -H5. induction H5 as [|c s Hc Hs IH]; [apply gap_nil|].
    apply blank_facts in Hc as (Hd & Hc & _). apply gap_junk; assumption.
Qed.

Lemma bare_wf_lines ls : Forall bare_line ls -> wf_lines ls.
Proof. induction 1 as [|l ls H Hs IH]; [exact Logic.I|]. apply wf_lines_cons. split; [apply bare_wf; exact H|exact IH]. Qed.

Lemma bare_wf_el f : bare_el f -> wf_el f.
Proof. intros [H1 H2]. split; [exact H1|]. apply bare_wf_lines; exact H2. Qed.

Lemma blank_gap fin s : Forall (fun c => blank c \/ c = ch_nl) s -> gap fin s.
Proof.
  induction 1 as [|c s Hc Hs IH]; [apply gap_nil|]. apply blank_facts in Hc as (Hd & Hc & _). apply gap_junk; assumption.
Qed.

Lemma blank_gapS stop s : Forall (fun c => blank c \/ c = ch_nl) s -> (forall c, blank c \/ c = ch_nl -> stop c = false) -> gapS stop false s.
Proof.
  intros H Hst. induction H as [|c s Hc Hs IH]; [apply gapS_nil|].
  pose proof (blank_facts c Hc) as (_ & H & _). apply gapS_junk; auto.
Qed.

(** ** The weight readers cross the end of the line *)
Section Cross.
  Variable m : mem.
  Variables e d : nat.
  Variable s : list byte.
  Hypothesis Hs : Forall (fun c => blank c \/ c = ch_nl) s.
  Hypothesis Hne : s <> [].
  Hypothesis Hh : has m d s.

  Lemma cross_next : ends m is_digit e (d + length s) -> move_to_next_int m e d = Ok (d + length s).
  Proof.
    intros He. pose proof (move_to_next_int_gap m false e d [] s) as H. cbn [length app] in H.
    rewrite Nat.add_0_r in H. apply H; auto; [|discriminate]. apply blank_gap; exact Hs.
  Qed.

  Lemma cross_signed : ends m is_signed_start e (d + length s) -> move_to_next_signed_int m e d = Ok (d + length s).
  Proof.
    intros He. assert (Hc0 : exists c0 s0, s = c0 :: s0) by (destruct s as [|c0 s0]; [congruence|eauto]).
    destruct Hc0 as (c0 & s0 & Es).
    assert (Hl0 : load m d = Ok c0) by (rewrite Es in Hh; eapply load_has; exact Hh).
    assert (Hb0 : blank c0 \/ c0 = ch_nl) by (rewrite Es in Hs; apply forall_hd in Hs; exact Hs).
    pose proof (blank_facts c0 Hb0) as (H1 & H2 & H3 & H4 & H5 & H6).
    unfold move_to_next_signed_int. rewrite Hl0. cbn [bind]. rewrite H5, H6. cbn [orb].
    unfold move_to_non_int. rewrite (scan_stop m _ e d c0 Hl0 H1). cbn [bind].
    apply seek_from with (fin := false); [|exact Hh|exact He|discriminate].
    apply blank_gapS; [exact Hs|]. intros c Hc. apply blank_facts in Hc. apply Hc.
  Qed.

  Lemma cross_fp : d + length s <= e ->
    (d + length s = e \/ exists c, load m (d + length s) = Ok c /\ is_fp c = true) -> move_to_fp m e d = Ok (d + length s).
  Proof.
    intros He Hc. unfold move_to_fp. apply scan_to; [exact Hh| |exact He|].
    - eapply Forall_impl; [|exact Hs]. cbn. intros c Hb. apply blank_facts in Hb as (_ & _ & -> & _). reflexivity.
    - destruct Hc as [Hc|(c & Hl & Hc)]; [left; exact Hc|right]. exists c. rewrite Hc. auto.
  Qed.

  (** A numeral beyond the line is taken for the weight. *)
  Lemma cross_weight k ds c : wf_kind k -> wholds k ds -> digits ds -> has m (d + length s) ds ->
    load m (d + length s + length ds) = Ok c -> blank c -> d + length s + length ds < e ->
    w_read (wreader k) m e d = Ok (wnum k ds, d + length s + length ds).
  Proof.
    intros Hk Hfit Hds Hhd Hl Hc He.
    pose proof (blank_facts c (or_introl Hc)) as (C1 & C2 & C3 & _).
    assert (H0 : exists c0, load m (d + length s) = Ok c0 /\ is_digit c0 = true).
    { destruct Hds as [Hn Hd]. destruct ds as [|c0 ds]; [congruence|]. exists c0. split; [eapply load_has; exact Hhd|].
      apply forall_hd in Hd. exact Hd. }
    destruct H0 as (c0 & Hl0 & Hd0).
    assert (Hend : forall stop, (forall b, is_digit b = true -> stop b = true) -> ends m stop e (d + length s)).
    { intros stop Hst. exists c0. split; [exact Hl0|]. split; [apply digit_not_cmt; exact Hd0|]. split; [lia|auto]. }
    destruct k as [t|t|F]; cbn [wreader wnum wholds wtype wf_kind] in *.
    - cbn [w_read wr_unsigned]. rewrite cross_next by auto. cbn [bind].
      rewrite (read_int_digits m t e _ ds c Hhd Hds) by auto.
      rewrite (read_val_fit t ds (proj1 Hk) (proj2 Hds) Hfit). reflexivity.
    - cbn [w_read wr_signed]. rewrite cross_signed by (apply Hend; intros b Hb; unfold is_signed_start; rewrite Hb; reflexivity).
      cbn [bind]. unfold read_sign. rewrite Hl0. cbn [bind].
      assert (Em : (c0 =? ch_minus)%Z = false) by (unfold is_digit, ch_0, ch_9, ch_minus in *; lia). rewrite Em.
      rewrite (read_int_digits m t e _ ds c Hhd Hds) by auto.
      rewrite (read_val_fit t ds (proj1 Hk) (proj2 Hds) Hfit). cbn [bind].
      rewrite Z.mul_1_r. pose proof (ity_facts t (proj1 Hk)). pose proof (dval_nonneg ds (proj2 Hds)).
      rewrite arith_in by (try apply Hk; lia). reflexivity.
    - cbn [w_read wr_float].
      rewrite cross_fp.
      2:{ lia. }
      2:{ right; exists c0; split; [exact Hl0|apply digit_fp; exact Hd0]. }
      cbn [bind].
      set (lit := mkFplit SNone ds None None).
      assert (Et : fplit_text lit = ds) by (unfold fplit_text, lit; cbn; rewrite !app_nil_r; reflexivity).
      assert (Hlit : wf_fplit lit).
      { split; [apply Hds|]. split; [exact Logic.I|]. split; [left; apply Hds|exact Logic.I]. }
      pose proof (read_fp_at F m e (d + length s) lit c) as HR. rewrite Et in HR.
      rewrite HR by (auto; lia). cbn [bind].
      unfold move_to_non_fp. rewrite (scan_stop m _ e _ c Hl C3). reflexivity.
  Qed.

  (** Nothing beyond: the weight is 0 and the reader is at the end of its part. *)
  Lemma cross_end k c : wf_kind k -> d + length s = e -> load m e = Ok c -> (c = 0%Z \/ is_digit c = true) ->
    w_read (wreader k) m e d = Ok (wzero k, e).
  Proof.
    intros Hk He Hl Hc.
    assert (Hend : forall stop, ends m stop e (d + length s)).
    { intros stop. exists c. rewrite He. split; [exact Hl|]. split; [apply ce_not_cmt; exact Hc|]. split; [lia|lia]. }
    destruct k as [t|t|F]; cbn [wreader wzero wtype wf_kind] in *.
    - cbn [w_read wr_unsigned]. rewrite cross_next by auto. cbn [bind]. rewrite He. apply read_int_end. lia.
    - cbn [w_read wr_signed]. rewrite cross_signed by auto. cbn [bind]. unfold read_sign. rewrite He, Hl. cbn [bind].
      rewrite read_int_end by lia. cbn [bind]. rewrite Z.mul_0_l.
      pose proof (ity_facts t (proj1 Hk)). rewrite arith_in by (try apply Hk; lia). reflexivity.
    - cbn [w_read wr_float]. rewrite cross_fp by lia. cbn [bind]. rewrite He.
      assert (E : read_fp F m e e = Ok (fp_zero F, e)).
      { unfold read_fp. cbn [read_fp_]. rewrite scan_end by lia. cbn [bind]. rewrite Hl. cbn [bind].
        assert (Hq : (c =? ch_minus)%Z = false /\ (c =? ch_plus)%Z = false /\ (c =? ch_dot)%Z = false /\ ((c =? ch_e) || (c =? ch_E))%Z = false).
        { destruct Hc as [->|Hc]; [auto|]. unfold is_digit, ch_0, ch_9, ch_plus, ch_minus, ch_dot, ch_e, ch_E in *. lia. }
        destruct Hq as (-> & -> & Hdot & Hexp). cbn [orb]. rewrite Nat.sub_diag. cbn [fp_digits_ bind].
        rewrite Hl. cbn [bind]. rewrite Hdot. cbn [bind]. rewrite Hl. cbn [bind]. rewrite Hexp. reflexivity. }
      rewrite E. cbn [bind]. unfold move_to_non_fp. rewrite scan_end by lia. reflexivity.
  Qed.
End Cross.

(** ** A thread's part *)
Section Part.
  Variable k : wkind.
  Hypothesis Hk : wf_kind k.
  Variable L : ity.
  Hypothesis HL : is_ity L.
  Variable m : mem.
  Variable e : nat.
  Variable ce : byte.
  Hypothesis Hce : load m e = Ok ce.
  Hypothesis Hce' : ce = 0%Z \/ is_digit ce = true.
  Notation W := (wtype k).

  Fixpoint bcode (pos : nat) (ls : list (line * W)) : list (cinstr W) :=
    match ls with
    | p :: q :: ls' =>
        [SetW pos (wnum k (l_x (fst q))); SetX pos (dval (l_x (fst p))); SetY pos (dval (l_y (fst p)))] ++ bcode (pos + 1) ls'
    | [p] => [SetW pos (wzero k)]
    | [] => []
    end.

  Definition bmr (a : Z) (ls : list (line * W)) : Z := fold_left Z.max (map (fun p => fst (fst p)) (paired (map fst ls))) a.
  Definition bmc (a : Z) (ls : list (line * W)) : Z := fold_left Z.max (map (fun p => snd (fst p)) (paired (map fst ls))) a.

  Lemma bare_tail l : bare_line l -> Forall (fun c => blank c \/ c = ch_nl) (l_post l ++ ch_nl :: l_gap l).
  Proof.
    intros (_ & _ & _ & H4 & H5). apply Forall_app. split; [eapply Forall_impl; [|exact H4]; intros; left; assumption|].
    constructor; [right; reflexivity|exact H5].
  Qed.

  Lemma at_tail fin d (p : line * W) : at_line L None m e fin d p ->
    has m (post_at d (fst p)) (l_post (fst p) ++ ch_nl :: l_gap (fst p)) /\
    post_at d (fst p) + length (l_post (fst p) ++ ch_nl :: l_gap (fst p)) = d + length (line_text (fst p)).
  Proof.
    intros [Hw _ _ _ Hh He _]. destruct p as [l w]; cbn [fst snd] in *. unfold line_text in Hh.
    do 3 (apply has_app in Hh as [_ Hh]). unfold post_at. split; [exact Hh|].
    rewrite line_text_len, lhead_len, app_length. cbn [length]. lia.
  Qed.

  Lemma set_bare : forall n ls d fuel pos mr mc, length ls <= n ->
    at_lines L None m e d ls -> Forall (fun p => bare_line (fst p) /\ wholds k (l_x (fst p))) ls -> length ls < fuel ->
    set_loop L (Some (wreader k)) no_flags m e fuel d pos mr mc = Ok (bcode pos ls, bmr mr ls, bmc mc ls).
  Proof.
    induction n as [|n IH]; intros ls d fuel pos mr mc Hn Ha Hb Hf; (destruct fuel as [|fuel]; [lia|]).
    { destruct ls; [|cbn in Hn; lia]. cbn in Ha; subst d. cbn [set_loop]. rewrite Nat.ltb_irrefl. reflexivity. }
    destruct ls as [|p ls].
    { cbn in Ha; subst d. cbn [set_loop]. rewrite Nat.ltb_irrefl. reflexivity. }
    cbn [set_loop]. pose proof (at_lines_lt _ _ _ _ _ _ _ Ha). destruct (Nat.ltb_spec d e); [|lia].
    destruct Ha as [(fin & Hp) Ha].
    inversion Hb as [|? ? [Hb1 _] Hb']; subst.
    unfold entry_set. change (has_flags no_flags) with false. cbv iota. unfold entry_set_plain.
    rewrite (read_xy_at L HL None m e fin d p Hp). cbn [bind].
    change (d + length (l_x (fst p)) + length (l_sep (fst p)) + length (l_y (fst p))) with (post_at d (fst p)).
    destruct (at_tail _ _ _ Hp) as [Ht1 Ht2].
    pose proof (bare_tail _ Hb1) as Hbt.
    set (s := l_post (fst p) ++ ch_nl :: l_gap (fst p)) in *.
    assert (Hsne : s <> []) by (unfold s; destruct (l_post (fst p)); discriminate).
    unfold set_weight.
    destruct ls as [|q ls].
    - (* the last line *)
      cbn in Ha. rewrite (cross_end m e _ s Hbt Hsne Ht1 k ce Hk) by (auto; lia). cbn [bind].
      rewrite Nat.leb_refl. cbn [bind es_d es_pos es_mr es_mc es_code].
      destruct fuel as [|fuel]; [cbn [length] in Hf; lia|]. cbn [set_loop]. rewrite Nat.ltb_irrefl. reflexivity.
    - (* a line that swallows the next one *)
      destruct Ha as [(fin' & Hq) Ha].
      inversion Hb' as [|? ? [Hb2 Hfit] Hb'']; subst.
      assert (Hx : has m (post_at d (fst p) + length s) (l_x (fst q)) /\
                   exists c, load m (post_at d (fst p) + length s + length (l_x (fst q))) = Ok c /\ blank c).
      { rewrite Ht2. pose proof (al_has _ _ _ _ _ _ _ Hq) as Hh. unfold line_text in Hh.
        apply has_app in Hh as [Hh1 Hh2]. split; [exact Hh1|].
        destruct Hb2 as (_ & (Hsn & Hsb) & _). destruct (l_sep (fst q)) as [|c sp]; [congruence|].
        exists c. split; [cbn [app] in Hh2; eapply load_has; exact Hh2|]. apply forall_hd in Hsb. exact Hsb. }
      destruct Hx as (Hx1 & c & Hx2 & Hx3).
      pose proof (al_ends _ _ _ _ _ _ _ Hq) as (ec & _ & _ & Hle & _).
      assert (Hpos : d + length (line_text (fst p)) + length (l_x (fst q)) + 1 <= e).
      { rewrite (line_text_len (fst q)), (lhead_len (fst q)) in Hle. lia. }
      rewrite (cross_weight m e _ s Hbt Hsne Ht1 k (l_x (fst q)) c Hk Hfit) by (auto; try apply Hb2; lia).
      cbn [bind]. rewrite Ht2.
      destruct (Nat.leb_spec e (d + length (line_text (fst p)) + length (l_x (fst q)))); [lia|].
      rewrite (next_line_at L None m e fin' _ q _ Hq).
      2:{ lia. }
      2:{ rewrite lhead_len. lia. }
      cbn [bind es_d es_pos es_mr es_mc es_code].
      rewrite (IH ls); [|cbn [length] in Hn; lia|exact Ha|exact Hb''|cbn [length] in Hf; lia].
      cbn [bind]. reflexivity.
  Qed.

  (** *** Executing it *)
  Lemma upd_at {A} (a : list A) v c b : upd (length a) v (a ++ c :: b) = a ++ v :: b.
  Proof. induction a as [|x a IH]; [reflexivity|]. cbn. rewrite IH. reflexivity. Qed.

  Lemma aset_at {A} (a : list (option A)) v c b : aset (length a) v (a ++ c :: b) = Ok (a ++ Some v :: b).
  Proof.
    unfold aset. rewrite app_length. cbn [length].
    destruct (Nat.ltb_spec (length a) (length a + S (length b))); [|lia]. rewrite upd_at. reflexivity.
  Qed.

  Definition bxs (ls : list (line * W)) : list Z := map (fun p => fst (fst p)) (paired (map fst ls)).
  Definition bys (ls : list (line * W)) : list Z := map (fun p => snd (fst p)) (paired (map fst ls)).
  Definition bws (ls : list (line * W)) : list W :=
    map (fun p => wnum k (snd p)) (paired (map fst ls)) ++ if Nat.odd (length ls) then [wzero k] else [].

  Lemma exec_bare : forall n ls ax ay aw r, length ls <= n -> length ls <= r ->
    length ay = length ax -> length aw = length ax ->
    exec_all cexec (bcode (length ax) ls) (mkCst (ax ++ repeat None r) (ay ++ repeat None r) (aw ++ repeat None r))
    = Ok (mkCst (ax ++ cells r (bxs ls)) (ay ++ cells r (bys ls)) (aw ++ cells r (bws ls))).
  Proof.
    assert (Hnil : forall ax ay aw r, exec_all cexec (bcode (length ax) []) (mkCst (ax ++ repeat None r) (ay ++ repeat None r) (aw ++ repeat None r))
      = Ok (mkCst (ax ++ cells r (bxs [])) (ay ++ cells r (bys [])) (aw ++ cells r (bws [])))).
    { intros. cbn [bcode exec_all]. unfold cells, bxs, bys, bws. cbn [paired map app length Nat.odd Nat.even negb].
      rewrite Nat.sub_0_r. reflexivity. }
    induction n as [|n IH]; intros ls ax ay aw r Hn Hr Ey Ew.
    { destruct ls; [apply Hnil|cbn in Hn; lia]. }
    destruct ls as [|p [|q ls]]; [apply Hnil| |].
    - destruct r as [|r]; [cbn in Hr; lia|]. cbn [bcode exec_all cexec repeat cw cx cy].
      rewrite <- Ew at 1. rewrite aset_at. cbn [bind exec_all].
      unfold cells, bxs, bys, bws. cbn [paired map app length Nat.odd Nat.even negb repeat Nat.sub].
      rewrite Nat.sub_0_r. reflexivity.
    - cbn [length] in Hn, Hr. destruct r as [|r]; [lia|].
      cbn [bcode app exec_all cexec repeat cw cx cy].
      rewrite <- Ew at 1. rewrite aset_at. cbn [bind exec_all cexec cw cx cy].
      rewrite aset_at. cbn [bind exec_all cexec cw cx cy].
      rewrite <- Ey at 1. rewrite aset_at. cbn [bind].
      pose proof (IH ls (ax ++ [Some (dval (l_x (fst p)))]) (ay ++ [Some (dval (l_y (fst p)))])
                    (aw ++ [Some (wnum k (l_x (fst q)))]) r) as H.
      rewrite !app_length in H. cbn [length] in H.
      specialize (H ltac:(lia) ltac:(lia) ltac:(lia) ltac:(lia)).
      rewrite <- !app_assoc in H. cbn [app] in H. exact H.
  Qed.
End Part.

(** ** The whole file *)
Lemma paired_len : forall n ls, length ls <= n -> length ls = 2 * length (paired ls) + (if Nat.odd (length ls) then 1 else 0).
Proof.
  induction n as [|n IH]; intros ls H; [destruct ls; [reflexivity|cbn in H; lia]|].
  destruct ls as [|p [|q ls]]; [reflexivity|reflexivity|]. cbn [length] in *. cbn [paired length].
  change (Nat.odd (S (S (length ls)))) with (Nat.odd (length ls)). specialize (IH ls ltac:(lia)). lia.
Qed.

Lemma cells_len {A} n (l : list A) : length l <= n -> length (cells n l) = n.
Proof. intros H. unfold cells. rewrite app_length, map_length, repeat_length. lia. Qed.

Section Whole.
  Variable k : wkind.
  Hypothesis Hk : wf_kind k.
  Notation W := (wtype k).
  Variables L O : ity.
  Hypothesis HL : is_ity L.
  Hypothesis HO : is_ity O.
  Variable f : el_file.
  Variable pg : nat.
  Hypothesis Hbare : bare_el f.
  Hypothesis Hfit : labels_fit (imax L - 1) f.
  Hypothesis Hwfit : Forall (fun l => wholds k (l_x l)) (el_lines f).
  Hypothesis Hcnt : (Z.of_nat (length (el_lines f)) <= imax O)%Z.
  Hypothesis Hpg : off_page pg (el_text f).
  Let m := mkMem (el_text f) pg.
  Variable T : nat.
  Hypothesis HT : 1 <= T.

  Definition bps : list (line * W) := map (fun l => (l, wzero k)) (el_lines f).

  Lemma bps_fst : map fst bps = el_lines f.
  Proof. unfold bps. rewrite map_map. cbn [fst]. apply map_id. Qed.

  Lemma b_has : has m 0 (el_head f ++ text (map fst bps)).
  Proof. rewrite bps_fst. apply (has_all m). Qed.
  Lemma b_end : 0 + length (el_head f ++ text (map fst bps)) = flen m.
  Proof. rewrite bps_fst. reflexivity. Qed.
  Lemma b_gap : gap (isnil (map fst bps)) (el_head f).
  Proof. rewrite bps_fst. apply Hbare. Qed.
  Lemma b_wfl : wf_lines (map fst bps).
  Proof. rewrite bps_fst. apply bare_wf_lines, Hbare. Qed.
  Lemma b_fit : Forall (fun p => dval (l_x (fst p)) <= imax L /\ dval (l_y (fst p)) <= imax L)%Z bps.
  Proof.
    unfold bps. apply Forall_map. cbn [fst]. unfold labels_fit, el_pairs in Hfit. rewrite Forall_map in Hfit.
    eapply Forall_impl; [|exact Hfit]. cbn. intros l. lia.
  Qed.
  Lemma b_wok : Forall (fun p => owok None (l_post (fst p)) (snd p)) bps.
  Proof. apply Forall_forall. intros p _. exact Logic.I. Qed.
  Lemma b_slack : slack m.
  Proof. apply slack_off_page; exact Hpg. Qed.

  Notation Kt := (K (el_head f) bps T).
  Notation ch := (chunk (el_head f) bps T).
  Notation ofs := (offs 0 (el_head f) bps).

  Lemma total_bare (l : list (line * W)) : total no_flags l = length l.
  Proof.
    unfold total. induction l as [|p l IH]; [reflexivity|]. cbn [map flat_map]. rewrite app_length, IH. reflexivity.
  Qed.

  Definition groups : list (list line) := map (fun t => map fst (ch t)) (seq 0 T).

  Lemma groups_len : length groups = T.
  Proof. unfold groups. rewrite map_length, seq_length. reflexivity. Qed.

  Lemma groups_concat : concat groups = el_lines f.
  Proof.
    pose proof (f_equal (map fst) (chunks_concat m 0 (el_head f) bps b_end T HT)) as H.
    rewrite bps_fst, concat_map, map_map in H. exact H.
  Qed.

  Lemma chunk_in t p : In p (ch t) -> In p bps.
  Proof.
    unfold chunk, slice. intros H. rewrite <- (firstn_skipn (Kt t) bps). apply in_or_app. right.
    rewrite <- (firstn_skipn (Kt (S t) - Kt t) (skipn (Kt t) bps)). apply in_or_app. left. exact H.
  Qed.

  Lemma chunk_bare t : Forall (fun p => bare_line (fst p) /\ wholds k (l_x (fst p))) (ch t).
  Proof.
    apply Forall_forall. intros p Hp. apply chunk_in in Hp. unfold bps in Hp. apply in_map_iff in Hp as (l & <- & Hl).
    cbn [fst]. rewrite Forall_forall in Hwfit. destruct Hbare as [_ Hb]. rewrite Forall_forall in Hb. auto.
  Qed.

  Notation Pt := (P no_flags (el_head f) bps T).

  Definition bprog (t : nat) : list (cinstr W) := bcode k (Pt t) (ch t).

  Lemma b_pass1 : el_pass1 L (Some (wreader k)) no_flags m 0 (flen m) T =
    Ok (map (fun t => (ofs (Kt t), ofs (Kt (S t)))) (seq 0 T), map (fun t => total no_flags (ch t)) (seq 0 T)).
  Proof.
    rewrite <- (pass1_ok L HL None Logic.I no_flags m b_slack 0 (el_head f) bps b_has b_end b_gap b_wfl b_fit b_wok T HT).
    reflexivity.
  Qed.

  Lemma b_pass2 :
    el_pass2 L (Some (wreader k)) no_flags m (map (fun t => (ofs (Kt t), ofs (Kt (S t)))) (seq 0 T)) (map (fun t => total no_flags (ch t)) (seq 0 T)) =
    Ok (map (fun t => (bprog t, bmr k (imin L) (ch t), bmc k (imin L) (ch t))) (seq 0 T)).
  Proof.
    unfold el_pass2.
    pose proof (prefix_sums_seq Pt (fun t => total no_flags (ch t)) T 0) as Hps.
    rewrite P_0 in Hps. rewrite Hps by (intros t Ht; apply (P_S no_flags m 0 (el_head f) bps b_end T HT); lia).
    rewrite combine_map, mapM_map. cbn [fst snd]. apply mapM_ok.
    intros t Ht. apply in_seq in Ht.
    pose proof (at_chunk L None m b_slack 0 (el_head f) bps b_has b_end) as Hat.
    specialize (Hat b_wfl b_fit b_wok T HT t ltac:(lia)).
    destruct (load_boundary m b_slack 0 (el_head f) bps b_has b_end b_wfl T HT t ltac:(lia)) as (ce & Hce & Hce').
    pose proof (at_lines_len L None m 0 (el_head f) bps b_end T HT _ _ _ Hat).
    rewrite (set_bare k Hk L HL m _ ce Hce Hce' (length (ch t)) (ch t)); auto; [apply chunk_bare|lia].
  Qed.

  Lemma P_len t : t <= T -> Pt t = length (firstn (Kt t) bps).
  Proof. intros _. unfold P. apply total_bare. Qed.

  Lemma bcode_in : forall n (ls : list (line * W)) pos hi, length ls <= n -> pos + length ls <= hi ->
    Forall (wr_in pos hi) (bcode k pos ls).
  Proof.
    induction n as [|n IH]; intros ls pos hi Hn Hh; [destruct ls; [constructor|cbn in Hn; lia]|].
    destruct ls as [|p [|q ls]]; cbn [bcode length] in *; [constructor| |].
    - repeat constructor; cbn; lia.
    - cbn [app]. constructor; [cbn; lia|]. constructor; [cbn; lia|]. constructor; [cbn; lia|].
      eapply Forall_impl; [|apply (IH ls (pos + 1) hi); lia].
      intros i. unfold wr_in. destruct i; lia.
  Qed.

  Lemma bprog_in t : t < T -> Forall (wr_in (Pt t) (Pt (S t))) (bprog t).
  Proof.
    intros Ht. apply (bcode_in (length (ch t))); [lia|].
    rewrite (P_S no_flags m 0 (el_head f) bps b_end T HT t Ht), total_bare. lia.
  Qed.

  Lemma bprogs_indep : ForallOrdPairs (indep cexec) (map bprog (seq 0 T)).
  Proof.
    apply fop_map, fop_seq. intros i j Hij Hj. cbn [plus] in Hj.
    intros a b Ha Hb.
    pose proof (bprog_in i ltac:(lia)) as Hi. rewrite Forall_forall in Hi. specialize (Hi a Ha).
    pose proof (bprog_in j ltac:(lia)) as Hjj. rewrite Forall_forall in Hjj. specialize (Hjj b Hb).
    eapply comm_cinstr; [exact Hi|exact Hjj|]. left.
    apply (P_mono2 no_flags m 0 (el_head f) bps b_end T HT); lia.
  Qed.

  Lemma cells_split {A} a b (l : list A) : length l <= a -> cells (a + b) l = cells a l ++ repeat None b.
  Proof.
    intros H. unfold cells. rewrite <- app_assoc, <- repeat_app. f_equal. f_equal. lia.
  Qed.



  Lemma exec_groups : forall n, n <= T ->
    exec_all cexec (concat (map bprog (seq 0 n))) (mkCst (fresh (length bps)) (fresh (length bps)) (fresh (length bps))) =
    Ok (mkCst (concat (map (fun t => bare_x (map fst (ch t))) (seq 0 n)) ++ repeat None (length bps - Pt n))
              (concat (map (fun t => bare_y (map fst (ch t))) (seq 0 n)) ++ repeat None (length bps - Pt n))
              (concat (map (fun t => bare_w k (map fst (ch t))) (seq 0 n)) ++ repeat None (length bps - Pt n))) /\
    length (concat (map (fun t => bare_x (map fst (ch t))) (seq 0 n))) = Pt n /\
    length (concat (map (fun t => bare_y (map fst (ch t))) (seq 0 n))) = Pt n /\
    length (concat (map (fun t => bare_w k (map fst (ch t))) (seq 0 n))) = Pt n.
  Proof.
    induction n as [|n IH]; intros Hn.
    { cbn [seq map concat exec_all app length]. rewrite P_0, Nat.sub_0_r. auto. }
    destruct (IH ltac:(lia)) as (E & Lx & Ly & Lw). clear IH.
    pose proof (P_S no_flags m 0 (el_head f) bps b_end T HT n ltac:(lia)) as HP. rewrite total_bare in HP.
    assert (HPT : Pt (S n) <= length bps).
    { rewrite P_len by lia. rewrite firstn_length. lia. }
    rewrite seq_S. cbn [plus]. rewrite !map_app, !concat_app. cbn [map concat]. rewrite !app_nil_r.
    rewrite exec_all_app, E. cbn [bind].
    set (X := concat (map (fun t => bare_x (map fst (ch t))) (seq 0 n))) in *.
    set (Y := concat (map (fun t => bare_y (map fst (ch t))) (seq 0 n))) in *.
    set (Z0 := concat (map (fun t => bare_w k (map fst (ch t))) (seq 0 n))) in *.
    pose proof (paired_len (length (ch n)) (map fst (ch n)) ltac:(rewrite map_length; lia)) as Hpl.
    rewrite map_length in Hpl.
    assert (Lb : length (bare_x (map fst (ch n))) = length (ch n) /\ length (bare_y (map fst (ch n))) = length (ch n) /\
                 length (bare_w k (map fst (ch n))) = length (ch n)).
    { unfold bare_x, bare_y, bare_w. rewrite !cells_len; rewrite !map_length; [auto| | |];
        rewrite ?app_length, ?map_length; destruct (Nat.odd (length (ch n))); cbn [length]; lia. }
    destruct Lb as (Lbx & Lby & Lbw).
    split; [|rewrite !app_length; lia].
    unfold bprog. rewrite <- Lx at 1.
    rewrite (exec_bare k (length (ch n)) (ch n) X Y Z0) by lia.
    replace (length bps - Pt n) with (length (ch n) + (length bps - Pt (S n))) by lia.
    rewrite !cells_split.
    2,3,4: unfold bxs, bys, bws; rewrite ?app_length, ?map_length; destruct (Nat.odd (length (ch n))); cbn [length]; lia.
    unfold bare_x, bare_y, bare_w. rewrite !map_length, <- !app_assoc. reflexivity.
  Qed.

  (** The stored pairs. *)
  Definition bare_pairs (gs : list (list line)) : list (Z * Z) := map fst (concat (map paired gs)).

  Lemma paired_in : forall n (ls : list line) p, length ls <= n -> In p (paired ls) ->
    exists l, In l ls /\ fst p = (dval (l_x l), dval (l_y l)).
  Proof.
    induction n as [|n IH]; intros ls p Hn Hp; [destruct ls; [contradiction|cbn in Hn; lia]|].
    destruct ls as [|a [|b ls]]; cbn [paired] in Hp; [contradiction|contradiction|].
    destruct Hp as [<-|Hp]; [exists a; split; [left; reflexivity|reflexivity]|].
    destruct (IH ls p) as (l & Hl & E); [cbn [length] in Hn; lia|exact Hp|]. exists l. split; [right; right; exact Hl|exact E].
  Qed.

  Lemma bare_pairs_fit p : In p (bare_pairs groups) -> (0 <= fst p <= imax L - 1 /\ 0 <= snd p <= imax L - 1)%Z.
  Proof.
    unfold bare_pairs. intros Hp. apply in_map_iff in Hp as (q & <- & Hq). apply in_concat in Hq as (g & Hg & Hq).
    apply in_map_iff in Hg as (ls & <- & Hls).
    destruct (paired_in (length ls) ls q (le_n _) Hq) as (l & Hl & ->). cbn [fst snd].
    assert (Hin : In l (el_lines f)) by (rewrite <- groups_concat; apply in_concat; eauto).
    unfold labels_fit, el_pairs in Hfit. rewrite Forall_map, Forall_forall in Hfit. specialize (Hfit l Hin). unfold l_pair in Hfit. cbn [fst snd] in Hfit.
    destruct Hbare as [_ Hb]. rewrite Forall_forall in Hb. destruct (Hb l Hin) as ((_ & Hx) & _ & (_ & Hy) & _).
    pose proof (dval_nonneg _ Hx). pose proof (dval_nonneg _ Hy). lia.
  Qed.

  Definition bare_result : coo W :=
    let nr := (1 + max_of (map fst (bare_pairs groups)))%Z in
    let nc := (1 + max_of (map snd (bare_pairs groups)))%Z in
    mkCoo (concat (map bare_x groups)) (concat (map bare_y groups)) (concat (map (bare_w k) groups))
          (Some (Z.max nr nc)) (Some nr) (Some nc) (Z.of_nat (length (el_lines f))).

  Lemma bare_main sched :
    read_el L O (Some (wreader k)) no_flags m 0 (flen m) T sched = Ok bare_result.
  Proof.
    unfold read_el. rewrite b_pass1. cbn [bind].
    rewrite (counts_sum no_flags m 0 (el_head f) bps b_end T HT), total_bare.
    assert (El : length bps = length (el_lines f)) by (unfold bps; apply map_length).
    pose proof (ity_facts O HO) as (HO1 & HO2 & _). pose proof (ity_facts L HL) as (HL1 & HL2 & HL3).
    rewrite wrap_in by (auto; lia).
    unfold coo_alloc. destruct (Z.ltb_spec (Z.of_nat (length bps)) 0) as [Hlt|_]; [lia|].
    cbn [bind is_some]. rewrite Nat2Z.id. rewrite b_pass2. cbn [bind].
    rewrite !map_map. cbn [fst snd].
    change (map (fun x => bprog x) (seq 0 T)) with (map bprog (seq 0 T)).
    rewrite run_indep by exact bprogs_indep.
    destruct (exec_groups T (le_n T)) as (E & _). rewrite E. cbn [bind].
    rewrite (P_T no_flags m 0 (el_head f) bps b_end T HT), total_bare, Nat.sub_diag. cbn [repeat]. rewrite !app_nil_r.
    assert (Mr : fold_left Z.max (map (fun t => bmr k (imin L) (ch t)) (seq 0 T)) 0%Z = max_of (map fst (bare_pairs groups))).
    { pose proof (reduce_max (imin L) (map (fun g => map (fun p => fst (fst p)) (paired g)) groups) ltac:(lia)) as H.
      unfold bmr. unfold groups in H at 1. rewrite !map_map in H. etransitivity; [exact H|]. f_equal.
      unfold bare_pairs. rewrite map_map, concat_map, map_map. reflexivity. }
    assert (Mc : fold_left Z.max (map (fun t => bmc k (imin L) (ch t)) (seq 0 T)) 0%Z = max_of (map snd (bare_pairs groups))).
    { pose proof (reduce_max (imin L) (map (fun g => map (fun p => snd (fst p)) (paired g)) groups) ltac:(lia)) as H.
      unfold bmc. unfold groups in H at 1. rewrite !map_map in H. etransitivity; [exact H|]. f_equal.
      unfold bare_pairs. rewrite map_map, concat_map, map_map. reflexivity. }
    rewrite Mr, Mc.
    assert (B1 : (0 <= max_of (map fst (bare_pairs groups)) <= imax L - 1)%Z).
    { split; [apply max_of_nonneg|]. apply max_of_le; [lia|]. apply Forall_map, Forall_forall. intros p Hp. apply bare_pairs_fit in Hp. lia. }
    assert (B2 : (0 <= max_of (map snd (bare_pairs groups)) <= imax L - 1)%Z).
    { split; [apply max_of_nonneg|]. apply max_of_le; [lia|]. apply Forall_map, Forall_forall. intros p Hp. apply bare_pairs_fit in Hp. lia. }
    rewrite !arith_in by (auto; lia). cbn [bind]. unfold bare_result. cbn [cx cy cw].
    assert (G : forall (A : Type) (h : list line -> list A), concat (map h groups) = concat (map (fun t => h (map fst (ch t))) (seq 0 T)))
      by (intros A h; unfold groups; rewrite map_map; reflexivity).
    rewrite !(Z.add_comm 1), El, !G. f_equal. f_equal. f_equal.
    destruct (Z.ltb_spec (max_of (map snd (bare_pairs groups)) + 1) (max_of (map fst (bare_pairs groups)) + 1)); lia.
  Qed.

  (** With a thread for every byte no thread has more than one line. *)
  Lemma kf_step g ls p : kf g ls (S p) <= S (kf g ls p).
  Proof.
    revert g p; induction ls as [|l ls IH]; intros g p; cbn [kf]; [lia|].
    destruct (nl_from p g) eqn:E1.
    - destruct (nl_from (S p) g) eqn:E2; [lia|]. destruct (Nat.leb_spec (S p) (length g + length (lhead l))); [lia|].
      assert (nl_from p g = false) by (apply nl_from_end; lia). congruence.
    - assert (E2 : nl_from (S p) g = false).
      { destruct (nl_from (S p) g) eqn:E2; [|reflexivity]. apply (nl_from_mono p) in E2; [congruence|lia]. }
      rewrite E2. destruct (Nat.leb_spec p (length g + length (lhead l))).
      + destruct (Nat.leb_spec (S p) (length g + length (lhead l))); [lia|].
        replace (S p - (length g + length (lhead l) + 1)) with 0 by lia.
        assert (kf (l_gap l) ls 0 <= 1) by (destruct ls; cbn [kf]; [lia|]; destruct (nl_from 0 (l_gap l)); [lia|]; destruct (Nat.leb_spec 0 (length (l_gap l) + length (lhead l0))); lia).
        lia.
      + destruct (Nat.leb_spec (S p) (length g + length (lhead l))); [lia|].
        replace (S p - (length g + length (lhead l) + 1)) with (S (p - (length g + length (lhead l) + 1))) by lia.
        specialize (IH (l_gap l) (p - (length g + length (lhead l) + 1))). lia.
  Qed.

  Lemma kf_0 g ls : kf g ls 0 <= 1.
  Proof. destruct ls as [|l ls]; cbn [kf]; [lia|]. destruct (nl_from 0 g); [lia|]. destruct (Nat.leb_spec 0 (length g + length (lhead l))); lia. Qed.

  Lemma groups_small : length (el_text f) <= T -> Forall (fun g => length g <= 1) groups.
  Proof.
    intros HsT. unfold groups. apply Forall_map, Forall_forall. intros t Ht. apply in_seq in Ht. rewrite map_length.
    unfold chunk, slice. rewrite firstn_length.
    assert (Hsz : length (el_head f ++ text (map fst bps)) <= T) by (rewrite bps_fst; exact HsT).
    assert (HK : Kt (S t) <= S (Kt t)).
    { unfold K. cbn [Nat.eqb]. set (sz := length (el_head f ++ text (map fst bps))) in *.
      assert (Hq : S t * sz / T <= S (t * sz / T)).
      { replace (S (t * sz / T)) with ((t * sz + 1 * T) / T) by (rewrite Nat.div_add; lia).
        apply Nat.div_le_mono; [lia|]. cbn [Nat.mul]. lia. }
      destruct (Nat.eqb_spec t 0) as [->|Hne].
      - rewrite Nat.mul_0_l, Nat.div_0_l in Hq by lia.
        assert (Hc : kf (el_head f) (map fst bps) (1 * sz / T) <= kf (el_head f) (map fst bps) 1) by (apply kf_mono; exact Hq).
        assert (H1 : kf (el_head f) (map fst bps) 1 <= 1); [|lia].
        assert (Hl : Forall bare_line (map fst bps)) by (rewrite bps_fst; apply Hbare).
        clear -Hl. destruct (map fst bps) as [|l ls]; cbn [kf]; [lia|]. destruct (nl_from 1 (el_head f)) eqn:E; [lia|].
        destruct (Nat.leb_spec 1 (length (el_head f) + length (lhead l))) as [H|H]; [lia|].
        apply forall_hd in Hl as ((Hx & _) & _). rewrite lhead_len in H. destruct (l_x l); [congruence|cbn [length] in H; lia].
      - etransitivity; [|apply kf_step]. apply kf_mono. exact Hq. }
    lia.
  Qed.
End Whole.
