(** * GraphTouch: one thread reads an adjacency body in which comments touch numbers *)

From Verif Require Import Base Reader Sched SchedLemmas Spec SpecGraph SpecTouch ReaderLemmas Coo CooLemmas CooSplit CooMain Csr SpecCsr Graph GraphLemmas GraphMain GraphFinal.

Definition textb (t : list byte) : Prop := Forall (fun c => is_nl c = false /\ is_cmt c = false) t.
Definition noteb (n : list byte) : Prop := n = [] \/ end_comment n.
Definition nocmt_hd (r : list byte) : Prop := match r with [] => True | c :: _ => is_cmt c = false end.
Definition sfx (t n r : list byte) : list byte := match dropw nd t with [] => ch_nl :: r | c :: t' => (c :: t') ++ n ++ ch_nl :: r end.
Definition tch (t n : list byte) : bool := match n with [] => false | _ => ends_digit false t end.

Lemma body_hd ls : Forall wf_tline ls -> nocmt_hd (tl_body ls).
Proof.
  destruct 1 as [|l ls (H1 & H2) _]; [exact I|]. unfold tl_body. cbn [map concat]. unfold tl_bytes, nocmt_hd. destruct (tl_text l) as [|c t].
  - destruct H2 as [->|[_ H]]; [reflexivity|congruence].
  - inv H1. cbn. apply H3.
Qed.
Lemma dropw_text p t : textb t -> textb (dropw p t).
Proof. apply dropw_forall. Qed.

Lemma mx_step mx mx1 v l : mx1 = Z.max mx v -> Z.max mx1 (max_of l) = Z.max mx (max_of (v :: l)).
Proof. intros ->. unfold max_of. cbn [fold_right]. lia. Qed.

Section Touch.
  Variable m : mem.
  Hypothesis Hsl : slack m.
  Let e := flen m.
  Definition at0 (d : nat) (s : list byte) : Prop := has m d s /\ d + length s = e.

  Lemma at0_app d a b : at0 d (a ++ b) -> at0 (d + length a) b.
  Proof. intros [H1 H2]. rewrite app_length in H2. apply has_app in H1 as [_ H1]. split; [exact H1|lia]. Qed.
  Lemma at0_pos d s : at0 d s -> d = e - length s.
  Proof. intros [_ H]. lia. Qed.
  Lemma at0_cons d c s : at0 d (c :: s) -> load m d = Ok c /\ d < e /\ at0 (S d) s.
  Proof. intros H. pose proof H as [H1 H2]. cbn [length] in H2. split; [eapply load_has; exact H1|]. split; [lia|]. split; [apply H1|lia]. Qed.
  Lemma at0_suffix d a s : at0 d (a ++ s) -> at0 (e - length s) s.
  Proof. intros H. apply at0_app in H. rewrite (at0_pos _ _ H) in H. exact H. Qed.
  Lemma at0_hd d s : at0 d s -> nocmt_hd s -> exists c, load m d = Ok c /\ is_cmt c = false.
  Proof.
    intros H Hc. destruct s as [|c s].
    - exists 0%Z. destruct H as [_ H]. cbn in H. rewrite Nat.add_0_r in H. subst d. split; [apply load_eof; exact Hsl|reflexivity].
    - exists c. apply at0_cons in H as (H & _). split; assumption.
  Qed.

  Lemma skip_here_stay d s fuel : at0 d s -> nocmt_hd s -> 0 < fuel -> skip_comments_ m e fuel d = Ok d.
  Proof.
    intros H Hc Hf. destruct fuel as [|fuel]; [lia|]. cbn [skip_comments_]. destruct (Nat.ltb_spec d e); [|reflexivity].
    destruct (at0_hd d s H Hc) as (c & E1 & E2). rewrite E1. cbn [bind]. rewrite E2. reflexivity.
  Qed.

  Lemma skip_note d n r : at0 d (n ++ ch_nl :: r) -> end_comment n -> nocmt_hd r ->
    (d' <- skip_comments m e d ;; Ok (d' - 1)) = Ok (e - length (ch_nl :: r)).
  Proof.
    intros Ha (x & t & -> & Hx & Ht) Hr. pose proof Ha as [Hh He]. cbn [app length] in Hh, He. rewrite app_length in He. cbn [length] in He.
    unfold skip_comments. cbn [skip_comments_]. destruct (Nat.ltb_spec d e); [|lia].
    rewrite (load_has _ _ _ _ Hh). cbn [bind]. rewrite Hx.
    rewrite (skip_line_nl m (e - d) d (x :: t) r); [|exact Hh|constructor; [apply cmt_junk; exact Hx|exact Ht]|cbn [length]; lia]. cbn [bind length].
    rewrite (skip_here_stay _ r); [cbn [bind]; f_equal; cbn [length]; lia| |exact Hr|].
    - replace (d + S (length t) + 1) with (d + length ((x :: t) ++ [ch_nl])) by (rewrite app_length; cbn [length]; lia).
      apply at0_app. rewrite <- app_assoc. exact Ha.
    - lia.
  Qed.

  Lemma seek_text t : forall n r d fuel, at0 d (t ++ n ++ ch_nl :: r) -> textb t -> noteb n -> nocmt_hd r -> (t <> [] \/ n = []) -> e - d < fuel ->
    int_or_nl_loop m e fuel d = Ok (e - length (sfx t n r)).
  Proof.
    induction t as [|c t IH]; intros n r d fuel Ha Ht Hn Hr Hne Hf; (destruct fuel as [|fuel]; [lia|]); cbn [int_or_nl_loop].
    - destruct Hne as [Hne| ->]; [congruence|]. cbn [app] in Ha. pose proof (at0_pos _ _ Ha) as Ed. apply at0_cons in Ha as (E1 & E2 & _).
      destruct (Nat.ltb_spec d e); [|lia]. rewrite E1. cbn [bind orb]. change (is_digit ch_nl || is_nl ch_nl) with true. cbn iota. unfold sfx. cbn [dropw]. rewrite <- Ed. reflexivity.
    - cbn [app] in Ha. pose proof (at0_pos _ _ Ha) as Ed. apply at0_cons in Ha as (E1 & E2 & Ha). pose proof (Forall_inv Ht) as [Hc1 Hc2]. pose proof (Forall_inv_tail Ht) as Ht'.
      destruct (Nat.ltb_spec d e); [|lia]. rewrite E1. cbn [bind]. rewrite Hc1, orb_false_r. unfold sfx. cbn [dropw]. unfold nd at 1. destruct (is_digit c) eqn:Ec; cbn [negb].
      + rewrite Ed. reflexivity.
      + destruct t as [|c' t].
        * cbn [app] in Ha. destruct Hn as [->|Hn].
          -- cbn [app] in Ha. pose proof (at0_cons _ _ _ Ha) as (E3 & _ & _). rewrite E3. cbn [bind]. change (is_cmt ch_nl) with false. cbn iota.
             apply (IH [] r (S d) fuel); [exact Ha|constructor|left; reflexivity|exact Hr|right; reflexivity|lia].
          -- pose proof Hn as (x & t' & En & Hx & _). assert (E3 : load m (S d) = Ok x) by (rewrite En in Ha; apply at0_cons in Ha as (E3 & _ & _); exact E3).
             rewrite E3. cbn [bind]. rewrite Hx. rewrite (skip_note (S d) n r Ha Hn Hr). reflexivity.
        * pose proof (at0_cons _ _ _ Ha) as (E3 & _ & _). rewrite E3. cbn [bind]. pose proof (Forall_inv Ht') as [_ Hc4]. rewrite Hc4.
          rewrite (IH n r (S d) fuel); [reflexivity|exact Ha|exact Ht'|exact Hn|exact Hr|left; discriminate|lia].
  Qed.

  Definition start (ls : list tline) : list byte := match ls with [] => [] | l :: ls' => sfx (tl_text l) (tl_note l) (tl_body ls') end.

  Lemma body_cons l ls : tl_body (l :: ls) = tl_text l ++ tl_note l ++ ch_nl :: tl_body ls.
  Proof. unfold tl_body. cbn [map concat]. unfold tl_bytes. rewrite <- !app_assoc. reflexivity. Qed.

  Lemma sfx_suffix t n r : exists a, t ++ n ++ ch_nl :: r = a ++ sfx t n r.
  Proof.
    unfold sfx. pose proof (takew_dropw nd t) as E. destruct (dropw nd t) as [|c t'].
    - exists (t ++ n). rewrite app_assoc. reflexivity.
    - exists (takew nd t). rewrite <- E at 1. rewrite <- app_assoc. reflexivity.
  Qed.
  Lemma start_suffix ls : exists a, tl_body ls = a ++ start ls.
  Proof. destruct ls as [|l ls]; [exists []; reflexivity|]. rewrite body_cons. apply sfx_suffix. Qed.

  Lemma next_nl d ls : at0 d (ch_nl :: tl_body ls) -> Forall wf_tline ls -> move_to_next_int_or_nl m e d = Ok (e - length (start ls)) /\ at0 (e - length (start ls)) (start ls).
  Proof.
    intros Ha Hls. pose proof (at0_cons _ _ _ Ha) as (E1 & E2 & Ha'). split.
    2:{ destruct (start_suffix ls) as [a Ea]. rewrite Ea in Ha'. eapply at0_suffix; exact Ha'. }
    unfold move_to_next_int_or_nl. destruct (Nat.ltb_spec d e); [|lia]. rewrite E1. cbn [bind]. change (is_digit ch_nl) with false.
    unfold move_to_non_int. rewrite (scan_stop m is_digit e d ch_nl) by (exact E1 || reflexivity). cbn [bind]. destruct (Nat.ltb_spec d e); [|lia]. rewrite E1. cbn [bind].
    change (is_nl ch_nl) with true. cbn [andb]. cbn iota.
    destruct (at0_hd _ _ Ha' (body_hd ls Hls)) as (c & E3 & E4). rewrite E3. cbn [bind]. rewrite E4.
    destruct ls as [|l ls].
    - destruct Ha' as [_ Ha']. cbn in Ha'. cbn [start length]. rewrite Nat.sub_0_r. cbn [int_or_nl_loop]. destruct (Nat.ltb_spec (S d) e); [lia|]. f_equal. lia.
    - rewrite body_cons in Ha'. pose proof (Forall_inv Hls) as [W1 W2]. pose proof (Forall_inv_tail Hls) as Hls'. apply seek_text; [exact Ha'|exact W1| |apply body_hd; assumption| |lia].
      + destruct W2 as [->|[W2 _]]; [left; reflexivity|right; exact W2].
      + destruct W2 as [->|[_ W2]]; [right; reflexivity|left; exact W2].
  Qed.

  Lemma next_note d n r : at0 d (n ++ ch_nl :: r) -> end_comment n -> nocmt_hd r -> move_to_next_int_or_nl m e d = Ok (e - length (ch_nl :: r)).
  Proof.
    intros Ha Hn Hr. pose proof Hn as (x & t & En & Hx & _). assert (E : load m d = Ok x /\ d < e) by (rewrite En in Ha; apply at0_cons in Ha as (E3 & E4 & _); auto). destruct E as [E1 E2].
    destruct (cmt_junk x Hx) as [Hd Hl].
    unfold move_to_next_int_or_nl. destruct (Nat.ltb_spec d e); [|lia]. rewrite E1. cbn [bind]. rewrite Hd.
    unfold move_to_non_int. rewrite (scan_stop m is_digit e d x) by assumption. cbn [bind]. destruct (Nat.ltb_spec d e); [|lia]. rewrite E1. cbn [bind]. rewrite Hl. cbn [andb].
    rewrite E1. cbn [bind]. rewrite Hx. apply (skip_note d n r); assumption.
  Qed.

  Lemma next_text d c t n r : at0 d ((c :: t) ++ n ++ ch_nl :: r) -> textb (c :: t) -> is_digit c = false -> noteb n -> nocmt_hd r ->
    move_to_next_int_or_nl m e d = Ok (e - length (sfx (c :: t) n r)).
  Proof.
    intros Ha Ht Hd Hn Hr. pose proof Ha as Ha0. cbn [app] in Ha0. apply at0_cons in Ha0 as (E1 & E2 & _). inversion Ht as [|? ? [Hc1 Hc2] Ht']; subst.
    unfold move_to_next_int_or_nl. destruct (Nat.ltb_spec d e); [|lia]. rewrite E1. cbn [bind]. rewrite Hd.
    unfold move_to_non_int. rewrite (scan_stop m is_digit e d c) by assumption. cbn [bind]. destruct (Nat.ltb_spec d e); [|lia]. rewrite E1. cbn [bind]. rewrite Hc1. cbn [andb].
    rewrite E1. cbn [bind]. rewrite Hc2. apply seek_text; [exact Ha|exact Ht|exact Hn|exact Hr|left; discriminate|lia].
  Qed.

  Lemma next_digits d ds t n r : at0 d (ds ++ t ++ n ++ ch_nl :: r) -> ds <> [] -> Forall (fun c => is_digit c = true) ds ->
    textb t -> match t with [] => True | c :: _ => is_digit c = false end -> noteb n -> nocmt_hd r ->
    move_to_next_int_or_nl m e d = Ok (e - length (sfx t n r)) /\ at0 (e - length (sfx t n r)) (sfx t n r).
  Proof.
    intros Ha Hne Hds Ht Hhd Hn Hr. split.
    2:{ apply at0_app in Ha. destruct (sfx_suffix t n r) as [a Ea]. rewrite Ea in Ha. eapply at0_suffix; exact Ha. }
    destruct ds as [|c0 ds]; [congruence|]. pose proof Ha as Ha0. cbn [app] in Ha0. apply at0_cons in Ha0 as (E1 & E2 & _).
    pose proof (at0_app _ _ _ Ha) as Ha1. set (d1 := d + length (c0 :: ds)) in *.
    unfold move_to_next_int_or_nl. destruct (Nat.ltb_spec d e); [|lia]. rewrite E1. cbn [bind]. assert (Hc0 : is_digit c0 = true) by (inv Hds; assumption). rewrite Hc0.
    assert (X : exists c1 s, t ++ n ++ ch_nl :: r = c1 :: s /\ is_digit c1 = false).
    { destruct t as [|c1 t]; [|cbn [app]; eauto]. cbn [app]. destruct Hn as [->|(x & t' & -> & Hx & _)]; [exists ch_nl, r; auto|]. cbn [app]. exists x, (t' ++ ch_nl :: r). split; [reflexivity|apply cmt_junk; exact Hx]. }
    destruct X as (c1 & s & Es & Hc1). pose proof Ha1 as Ha2. rewrite Es in Ha2. apply at0_cons in Ha2 as (E3 & E4 & _).
    unfold move_to_non_int. rewrite (scan_to m is_digit e d (c0 :: ds)); [|destruct Ha as [Hh _]; apply has_app in Hh; apply Hh|exact Hds|fold d1; lia|right; exists c1; fold d1; auto].
    fold d1. cbn [bind]. destruct (Nat.ltb_spec d1 e); [|lia]. rewrite E3. cbn [bind]. rewrite andb_true_r.
    destruct t as [|ct t].
    - cbn [app] in *. destruct Hn as [->|Hn].
      + cbn [app] in *. injection Es as <- <-. change (is_nl ch_nl) with true. cbn iota. unfold sfx. cbn [dropw]. rewrite <- (at0_pos _ _ Ha1). reflexivity.
      + pose proof Hn as (x & t' & En & Hx & _). rewrite En in Es. cbn [app] in Es. injection Es as <- _. destruct (cmt_junk x Hx) as [_ Hl]. rewrite Hl. cbn iota. rewrite E3. cbn [bind]. rewrite Hx.
        apply (skip_note d1 n r); assumption.
    - cbn [app] in Es. injection Es as <- _. inversion Ht as [|? ? [Hk1 Hk2] _]; subst. rewrite Hk1. cbn iota. rewrite E3. cbn [bind]. rewrite Hk2.
      apply seek_text; [exact Ha1|exact Ht|exact Hn|exact Hr|left; discriminate|lia].
  Qed.

  (** ** Pass 1 *)
  Lemma nums_drop t : numerals (dropw nd t) = numerals t.
  Proof.
    unfold numerals. induction t as [|c t IH]; [reflexivity|]. cbn [dropw]. unfold nd at 1. destruct (is_digit c) eqn:E; cbn [negb]; [reflexivity|].
    cbn [numerals_from]. rewrite E. exact IH.
  Qed.
  Lemma nums_run ds : ds <> [] -> Forall (fun c => is_digit c = true) ds -> forall t, match t with [] => True | c :: _ => is_digit c = false end -> numerals (ds ++ t) = ds :: numerals t.
  Proof.
    intros Hne Hds t Ht. unfold numerals.
    assert (G : forall cur, numerals_from cur (ds ++ t) = numerals_from (cur ++ ds) t).
    { clear Hne. induction Hds as [|c ds Hc _ IH]; intros cur; [rewrite app_nil_r; reflexivity|]. cbn [app numerals_from]. rewrite Hc, IH, <- app_assoc. reflexivity. }
    rewrite G. cbn [app]. destruct ds as [|c ds]; [congruence|]. destruct t as [|x t]; [reflexivity|]. cbn [numerals_from]. rewrite Ht. reflexivity.
  Qed.
  Lemma ends_run ds c t p : ends_digit p (ds ++ c :: t) = ends_digit false (c :: t).
  Proof. revert p; induction ds as [|x ds IH]; intros p; [reflexivity|]. cbn [app ends_digit]. apply IH. Qed.
  Lemma ends_all ds : ds <> [] -> Forall (fun c => is_digit c = true) ds -> forall p, ends_digit p ds = true.
  Proof. intros Hne. induction 1 as [|c ds Hc Hds IH]; [congruence|]. intros p. cbn [ends_digit]. rewrite Hc. destruct ds; [reflexivity|]. apply IH. discriminate. Qed.
  Lemma ends_drop t : forall p, ends_digit p t = match dropw nd t with [] => match t with [] => p | _ => false end | _ => ends_digit false (dropw nd t) end.
  Proof.
    induction t as [|c t IH]; intros p; [reflexivity|]. cbn [dropw]. unfold nd at 1 3. destruct (is_digit c) eqn:E; cbn [negb ends_digit]; [reflexivity|].
    rewrite E, IH. destruct (dropw nd t); [destruct t; reflexivity|reflexivity].
  Qed.
  Lemma tch_drop t n : tch t n = match dropw nd t with [] => false | _ => tch (dropw nd t) n end.
  Proof. unfold tch. destruct n; [destruct (dropw nd t); reflexivity|]. rewrite ends_drop. destruct (dropw nd t); [destruct t; reflexivity|reflexivity]. Qed.

  (** The head of what a number begins. *)
  Lemma split_run t c t' : dropw nd t = c :: t' -> textb t -> exists ds t2, dropw nd t = ds ++ t2 /\ ds <> [] /\ Forall (fun c => is_digit c = true) ds /\
    match t2 with [] => True | x :: _ => is_digit x = false end /\ textb t2 /\ length t2 < length (dropw nd t) /\
    numerals t = ds :: numerals t2.
  Proof.
    intros E Ht. set (u := dropw nd t) in *. assert (Hu : textb u) by (apply dropw_text; exact Ht). exists (takew is_digit u), (dropw is_digit u).
    assert (Hc : is_digit c = true). { pose proof (dropw_hd nd t) as H. fold u in H. rewrite E in H. unfold nd in H. apply negb_false_iff in H. exact H. }
    assert (Hne : takew is_digit u <> []) by (rewrite E; cbn [takew]; rewrite Hc; discriminate).
    split; [symmetry; apply takew_dropw|]. split; [exact Hne|]. split; [apply takew_all|]. split; [apply dropw_hd|]. split; [apply dropw_forall; exact Hu|]. split.
    - pose proof (takew_dropw is_digit u) as E2. rewrite <- E2 at 2. rewrite app_length. destruct (takew is_digit u); [congruence|cbn [length]; lia].
    - rewrite <- (nums_drop t). fold u. rewrite <- (takew_dropw is_digit u) at 1. apply nums_run; [exact Hne|apply takew_all|apply dropw_hd].
  Qed.

  Definition toks1 (t : list byte) (ls : list tline) : list tok := map TInt (numerals t) ++ TNl :: concat (map (fun l => row_toks (tl_text l)) ls).
  Lemma toks1_cons l ls : toks1 (tl_text l) ls = concat (map (fun l => row_toks (tl_text l)) (l :: ls)).
  Proof. unfold toks1. cbn [map concat]. unfold row_toks at 2. rewrite <- app_assoc. reflexivity. Qed.

  Lemma at_zero0 d ds s c s' : at0 d (ds ++ s) -> s = c :: s' -> is_digit c = false -> ds <> [] -> Forall (fun c => is_digit c = true) ds -> at_zero m e d = Ok (is_zero ds).
  Proof.
    intros Ha -> Hc Hne Hds. destruct ds as [|c0 ds]; [congruence|]. cbn [app] in Ha. apply at0_cons in Ha as (E1 & E2 & Ha).
    unfold at_zero. destruct (Nat.leb_spec (e + 1) d); [lia|]. rewrite E1. cbn [bind]. unfold is_zero. cbn [str_eq].
    destruct (c0 =? ch_0)%Z; cbn [negb andb]; [|reflexivity]. destruct ds as [|c1 ds].
    - cbn [app] in Ha. apply at0_cons in Ha as (E3 & _ & _). rewrite E3. cbn [bind str_eq]. rewrite Hc. reflexivity.
    - cbn [app] in Ha. apply at0_cons in Ha as (E3 & _ & _). rewrite E3. cbn [bind str_eq]. inv Hds. inv H3. rewrite H4. reflexivity.
  Qed.

  Lemma after_hd t n r : match t with [] => True | c :: _ => is_digit c = false end -> noteb n -> exists c s, t ++ n ++ ch_nl :: r = c :: s /\ is_digit c = false.
  Proof.
    intros Ht Hn. destruct t as [|c1 t]; [|cbn [app]; eauto]. cbn [app]. destruct Hn as [->|(x & t' & -> & Hx & _)]; [exists ch_nl, r; auto|].
    cbn [app]. exists x, (t' ++ ch_nl :: r). split; [reflexivity|apply cmt_junk; exact Hx].
  Qed.

  Lemma note_of l : wf_tline l -> noteb (tl_note l).
  Proof. intros [_ [->|[H _]]]; [left; reflexivity|right; exact H]. Qed.

  Lemma sfx_len t n r : length (sfx t n r) <= length t + length n + S (length r).
  Proof. destruct (sfx_suffix t n r) as [a E]. apply (f_equal (@length byte)) in E. rewrite !app_length in E. cbn [length] in E. lia. Qed.
  Lemma start_len ls : length (start ls) <= length (tl_body ls).
  Proof. destruct (start_suffix ls) as [a E]. rewrite E at 1. rewrite app_length. lia. Qed.

  Lemma count_touch : forall k t n ls d fuel a b h, length (sfx t n (tl_body ls)) <= k -> at0 d (sfx t n (tl_body ls)) -> textb t -> noteb n -> Forall wf_tline ls ->
    length (sfx t n (tl_body ls)) < fuel ->
    gr_count m e fuel d a b h = Ok (a + n_nl (toks1 t ls), b + n_int (toks1 t ls), h || has_z (toks1 t ls)).
  Proof.
    induction k as [|k IH]; intros t n ls d fuel a b h Hk Ha Ht Hn Hls Hf.
    { exfalso. unfold sfx in Hk. destruct (dropw nd t); cbn in Hk; lia. }
    destruct fuel as [|fuel]; [lia|]. cbn [gr_count]. unfold sfx in Hk, Ha, Hf. destruct (dropw nd t) as [|c t'] eqn:Ed.
    - assert (En : numerals t = []) by (rewrite <- nums_drop, Ed; reflexivity). unfold toks1. rewrite En. cbn [map app n_nl n_int has_z].
      pose proof (at0_cons _ _ _ Ha) as (E1 & E2 & _). destruct (Nat.ltb_spec d e); [|lia].
      unfold at_nl_or_eol. destruct (Nat.eqb_spec d e); [lia|]. rewrite E1. cbn [bind]. change (is_nl ch_nl || is_cmt ch_nl) with true.
      unfold at_zero. destruct (Nat.leb_spec (e + 1) d); [lia|]. rewrite E1. cbn [bind]. change (negb (ch_nl =? ch_0)%Z) with true. cbn [bind]. cbn iota.
      destruct (next_nl d ls Ha Hls) as [E3 Ha']. rewrite E3. cbn [bind]. rewrite orb_false_r.
      destruct ls as [|l ls].
      + cbn [start length map concat n_nl n_int has_z]. rewrite Nat.sub_0_r. destruct fuel as [|fuel]; [cbn in Hf; lia|]. cbn [gr_count]. destruct (Nat.ltb_spec e e); [lia|].
        rewrite orb_false_r. f_equal. f_equal. f_equal; lia.
      + pose proof (start_len (l :: ls)) as HL. cbn [length] in Hk, Hf. cbn [start] in Ha', HL |- *. pose proof (Forall_inv Hls) as Hl. pose proof (Forall_inv_tail Hls) as Hls'.
        rewrite (IH (tl_text l) (tl_note l) ls); [|lia|exact Ha'|apply Hl|apply note_of; exact Hl|exact Hls'|lia].
        rewrite toks1_cons. f_equal. f_equal. f_equal; lia.
    - rewrite <- Ed in *. destruct (split_run t c t' Ed Ht) as (ds & t2 & E & Hne & Hds & Hhd & Ht2 & Hlt & En).
      rewrite E in Ha, Hk, Hf, Hlt. rewrite <- app_assoc in Ha, Hk, Hf. clear Ed.
      destruct (after_hd t2 n (tl_body ls) Hhd Hn) as (x & s & Ex & Hx).
      destruct ds as [|c0 ds]; [congruence|]. pose proof Ha as Ha0. cbn [app] in Ha0. apply at0_cons in Ha0 as (E1 & E2 & _).
      assert (Hc0 : is_digit c0 = true) by (inversion Hds; assumption).
      destruct (Nat.ltb_spec d e); [|lia]. unfold at_nl_or_eol. destruct (Nat.eqb_spec d e); [lia|]. rewrite E1. cbn [bind].
      assert (Hcc : is_nl c0 || is_cmt c0 = false) by (rewrite (digit_not_cmt c0 Hc0); unfold is_nl, is_digit, ch_nl, ch_0, ch_9 in *; lia). rewrite Hcc.
      rewrite (at_zero0 d (c0 :: ds) _ x s Ha Ex Hx Hne Hds). cbn [bind].
      destruct (next_digits d (c0 :: ds) t2 n (tl_body ls) Ha Hne Hds Ht2 Hhd Hn (body_hd ls Hls)) as [E3 Ha']. rewrite E3. cbn [bind].
      pose proof (sfx_len t2 n (tl_body ls)) as HS. rewrite !app_length in Hk, Hf. cbn [length] in Hk, Hf.
      rewrite (IH t2 n ls); [|lia|exact Ha'|exact Ht2|exact Hn|exact Hls|lia].
      unfold toks1. rewrite En. cbn [map app n_nl n_int has_z]. rewrite orb_assoc. f_equal. f_equal. f_equal; lia.
  Qed.

  (** ** Pass 2: up to the [K]-th newline it meets *)
  Fixpoint cutn (K : nat) (l : list tok) : list tok :=
    match K, l with
    | 0, _ | _, [] => []
    | S K', TNl :: l' => TNl :: cutn K' l'
    | S _, TInt ds :: l' => TInt ds :: cutn K l'
    end.
  Lemma cutn0 l : cutn 0 l = [].
  Proof. destruct l; reflexivity. Qed.
  Definition line_toks (l : tline) : list tok := map TInt (numerals (tl_text l)) ++ (if touches l then [TNl] else []) ++ [TNl].
  Definition toks2 (t n : list byte) (ls : list tline) : list tok :=
    map TInt (numerals t) ++ (if tch t n then [TNl] else []) ++ TNl :: concat (map line_toks ls).
  Lemma toks2_cons l ls : toks2 (tl_text l) (tl_note l) ls = concat (map line_toks (l :: ls)).
  Proof. unfold toks2. cbn [map concat]. unfold line_toks at 2, touches. fold (tch (tl_text l) (tl_note l)). rewrite <- !app_assoc. reflexivity. Qed.
  Lemma toks2_drop t n ls : dropw nd t = [] -> toks2 t n ls = TNl :: concat (map line_toks ls).
  Proof. intros E. unfold toks2. rewrite tch_drop, <- nums_drop, E. reflexivity. Qed.

  Variables (L O : ity).
  Hypothesis HL : is_ity L.
  Hypothesis HO : is_ity O.

  Lemma set_touch : forall k t n ls d fuel K opos epos mx, length (sfx t n (tl_body ls)) <= k -> at0 d (sfx t n (tl_body ls)) -> textb t -> noteb n -> Forall wf_tline ls ->
    length (sfx t n (tl_body ls)) < fuel ->
    (0 <= opos)%Z -> (opos + Z.of_nat K <= imax L)%Z -> (0 <= epos)%Z -> (epos + Z.of_nat (n_int (cutn K (toks2 t n ls))) <= imax O)%Z -> (0 <= mx)%Z ->
    Forall (fun v => v <= imax L)%Z (ints (cutn K (toks2 t n ls))) ->
    gr_set L O (opos + Z.of_nat K) m e fuel d opos epos mx = Ok (gprog opos epos (cutn K (toks2 t n ls)), Z.max mx (max_of (ints (cutn K (toks2 t n ls))))).
  Proof.
    pose proof (ity_facts L HL) as FL. pose proof (ity_facts O HO) as FO.
    induction k as [|k IH]; intros t n ls d fuel K opos epos mx Hk Ha Ht Hn Hls Hf Ho1 Ho2 He1 He2 Hmx Hfit.
    { exfalso. unfold sfx in Hk. destruct (dropw nd t); cbn in Hk; lia. }
    (* a newline, from a state in front of one *)
    assert (NL : forall d fuel K opos epos mx, length (ch_nl :: tl_body ls) <= S k -> at0 d (ch_nl :: tl_body ls) -> length (ch_nl :: tl_body ls) < fuel ->
      (0 <= opos)%Z -> (opos + Z.of_nat K <= imax L)%Z -> (0 <= epos)%Z -> (epos + Z.of_nat (n_int (cutn K (TNl :: concat (map line_toks ls)))) <= imax O)%Z -> (0 <= mx)%Z ->
      Forall (fun v => v <= imax L)%Z (ints (cutn K (TNl :: concat (map line_toks ls)))) ->
      gr_set L O (opos + Z.of_nat K) m e fuel d opos epos mx = Ok (gprog opos epos (cutn K (TNl :: concat (map line_toks ls))), Z.max mx (max_of (ints (cutn K (TNl :: concat (map line_toks ls))))))).
    { clear d fuel K opos epos mx Hk Ha Hf Ho1 Ho2 He1 He2 Hmx Hfit. intros d fuel K opos epos mx Hk Ha Hf Ho1 Ho2 He1 He2 Hmx Hfit.
      destruct fuel as [|fuel]; [lia|]. cbn [gr_set]. pose proof (at0_cons _ _ _ Ha) as (E1 & E2 & _). destruct (Nat.ltb_spec d e); [|lia].
      destruct K as [|K]; [destruct (Z.leb_spec (opos + Z.of_nat 0) opos); [|lia]; rewrite !cutn0; cbn [gprog ints max_of fold_right]; rewrite (Z.max_l mx 0) by exact Hmx; reflexivity|].
      destruct (Z.leb_spec (opos + Z.of_nat (S K)) opos); [lia|]. cbn [cutn n_int ints gprog] in *.
      unfold at_nl_or_eol. destruct (Nat.eqb_spec d e); [lia|]. rewrite E1. cbn [bind]. change (is_nl ch_nl || is_cmt ch_nl) with true. cbn iota.
      rewrite arith_in by (try assumption; lia). cbn [bind]. destruct (next_nl d ls Ha Hls) as [E3 Ha']. rewrite E3. cbn [bind].
      replace (opos + Z.of_nat (S K))%Z with ((opos + 1) + Z.of_nat K)%Z by lia. cbn [length] in Hk, Hf.
      destruct ls as [|l ls].
      - cbn [start length] in *. rewrite Nat.sub_0_r. destruct fuel as [|fuel]; [lia|]. cbn [gr_set]. destruct (Nat.ltb_spec e e); [lia|]. cbn [bind map concat].
        assert (Ez : cutn K [] = []) by (destruct K; reflexivity). rewrite Ez. cbn. rewrite Z.max_l by lia. reflexivity.
      - pose proof (start_len (l :: ls)) as HS. cbn [start] in Ha', HS |- *. pose proof (Forall_inv Hls) as Hl. pose proof (Forall_inv_tail Hls) as Hls'.
        rewrite <- toks2_cons in *.
        rewrite (IH (tl_text l) (tl_note l) ls); [reflexivity|lia|exact Ha'|apply Hl|apply note_of; exact Hl|exact Hls'|lia|lia|lia|lia|lia|lia|exact Hfit]. }
    unfold sfx in Hk, Ha, Hf. destruct (dropw nd t) as [|c t'] eqn:Ed.
    - rewrite (toks2_drop t n ls Ed) in *. apply NL; assumption.
    - rewrite <- Ed in *. destruct (split_run t c t' Ed Ht) as (ds & t2 & E & Hne & Hds & Hhd & Ht2 & Hlt & En).
      assert (Etc : tch t n = match t2, n with [], _ :: _ => true | _, _ => tch t2 n end).
      { rewrite tch_drop, Ed, <- Ed. rewrite E. unfold tch. destruct n; [destruct t2; reflexivity|]. destruct t2 as [|x t2]; [rewrite app_nil_r; apply ends_all; assumption|apply ends_run]. }
      rewrite E in Ha, Hk, Hf, Hlt. rewrite <- app_assoc in Ha, Hk, Hf. clear Ed.
      destruct (after_hd t2 n (tl_body ls) Hhd Hn) as (x & s & Ex & Hx).
      assert (Hd0 : exists c0 ds0, ds = c0 :: ds0) by (destruct ds; [congruence|eauto]). destruct Hd0 as (c0 & ds0 & Eds).
      assert (Hc0 : is_digit c0 = true) by (rewrite Eds in Hds; inversion Hds; assumption).
      assert (E1 : load m d = Ok c0 /\ d < e) by (rewrite Eds in Ha; cbn [app] in Ha; apply at0_cons in Ha as (A & B & _); auto). destruct E1 as [E1 E2].
      destruct fuel as [|fuel]; [lia|]. cbn [gr_set]. destruct (Nat.ltb_spec d e); [|lia].
      destruct K as [|K]; [destruct (Z.leb_spec (opos + Z.of_nat 0) opos); [|lia]; rewrite !cutn0; cbn [gprog ints max_of fold_right]; rewrite (Z.max_l mx 0) by exact Hmx; reflexivity|].
      destruct (Z.leb_spec (opos + Z.of_nat (S K)) opos); [lia|].
      assert (E0 : at_nl_or_eol m e d = Ok false).
      { unfold at_nl_or_eol. destruct (Nat.eqb_spec d e); [lia|]. rewrite E1. cbn [bind]. f_equal. rewrite (digit_not_cmt c0 Hc0). unfold is_nl, is_digit, ch_nl, ch_0, ch_9 in *. lia. }
      rewrite E0. cbn [bind]. clear E0.
      set (rest := (if tch t n then [TNl] else []) ++ TNl :: concat (map line_toks ls)) in *.
      assert (Etk : toks2 t n ls = TInt ds :: map TInt (numerals t2) ++ rest) by (unfold toks2, rest; rewrite En; reflexivity).
      rewrite Etk in *. cbn [cutn n_int ints gprog] in *.
      assert (Hv : (0 <= dval ds)%Z) by (apply dval_nonneg; exact Hds).
      pose proof (at0_app _ _ _ Ha) as Ha1. pose proof Ha1 as Ha2. rewrite Ex in Ha2. apply at0_cons in Ha2 as (E3 & E4 & _). set (d1 := d + length ds) in *.
      assert (Erd : read_int m L e d = Ok (dval ds, d1)).
      { rewrite (read_int_gen m L e d [] ds).
        - rewrite read_val_fit; [cbn [bind length]; rewrite Nat.add_0_r; reflexivity|exact HL|exact Hds|inversion Hfit; assumption].
        - cbn [app]. destruct Ha as [Hh _]. apply has_app in Hh. apply Hh.
        - constructor.
        - exact Hds.
        - cbn [length]. rewrite Nat.add_0_r. fold d1. lia.
        - right. split; [|exact Hne]. exists x. cbn [length]. rewrite Nat.add_0_r. auto. }
      rewrite Erd. cbn [bind]. rewrite (arith_in O) by (try assumption; lia). cbn [bind].
      unfold at_nl_or_eol at 1. destruct (Nat.eqb_spec d1 e); [lia|]. rewrite E3. cbn [bind].
      set (mx1 := if (mx <? dval ds)%Z then dval ds else mx). assert (Hmx1 : (mx1 = Z.max mx (dval ds))%Z) by (unfold mx1; destruct (Z.ltb_spec mx (dval ds)); lia). clearbody mx1.
      pose proof (Forall_inv_tail Hfit) as Hfit'.
      rewrite !app_length in Hk, Hf. cbn [length] in Hk, Hf. rewrite Eds in Hk, Hf. cbn [length] in Hk, Hf.
      destruct t2 as [|c2 t2].
      + cbn [app] in Ex, Ha1, Hk, Hf |- *. unfold rest in *. clear rest. rewrite Etc in *. destruct n as [|nh nt].
        * cbn [tch] in *. change (numerals []) with (@nil (list byte)) in *. cbn [map app] in *. injection Ex as <- <-. change (is_nl ch_nl || is_cmt ch_nl) with true. cbn [bind]. cbn iota. cbn [bind].
          rewrite NL; [|cbn [length]; lia|exact Ha1|cbn [length]; lia|lia|lia|lia|cbn [cutn] in *; lia|lia|exact Hfit'].
          cbn [bind]. f_equal. f_equal. cbn [cutn ints]. apply mx_step; assumption.
        * change (numerals []) with (@nil (list byte)) in *. cbn [map app] in *. injection Ex as <- <-. destruct Hn as [Hn|Hn]; [discriminate|]. pose proof Hn as (y & u & Ey & Hy & _). injection Ey as -> ->.
          destruct (cmt_junk y Hy) as [_ Hyn]. rewrite Hyn, Hy. cbn [orb]. cbn [bind].
          destruct fuel as [|fuel]; [lia|]. cbn [gr_set]. destruct (Nat.ltb_spec d1 e); [|lia]. destruct (Z.leb_spec (opos + Z.of_nat (S K)) opos); [lia|].
          unfold at_nl_or_eol. destruct (Nat.eqb_spec d1 e); [lia|]. rewrite E3. cbn [bind]. rewrite Hyn, Hy. cbn [orb].
          rewrite (arith_in L) by (try assumption; lia). cbn [bind].
          rewrite (next_note d1 (y :: u) (tl_body ls)); [|exact Ha1|exact Hn|apply body_hd; exact Hls]. cbn [bind].
          replace (opos + Z.of_nat (S K))%Z with ((opos + 1) + Z.of_nat K)%Z by lia. cbn [cutn n_int ints gprog] in *.
          rewrite NL; [|cbn [length]; lia| |cbn [length] in *; lia|lia|lia|lia|lia|lia|exact Hfit'].
          -- cbn [bind]. f_equal. f_equal. cbn [cutn ints]. apply mx_step; assumption.
          -- change (y :: u ++ ch_nl :: tl_body ls) with ((y :: u) ++ ch_nl :: tl_body ls) in Ha1. eapply at0_suffix; exact Ha1.
      + pose proof (Forall_inv Ht2) as [Hk1 Hk2]. cbn [app] in Ex. injection Ex as <- <-. rewrite Hk1, Hk2. cbn [orb]. cbn iota.
        rewrite (next_text d1 c2 t2 n (tl_body ls)); [|exact Ha1|exact Ht2|exact Hhd|exact Hn|apply body_hd; exact Hls]. cbn [bind].
        assert (Er : rest = (if tch (c2 :: t2) n then [TNl] else []) ++ TNl :: concat (map line_toks ls)) by (unfold rest; rewrite Etc; reflexivity).
        rewrite Er in *. fold (toks2 (c2 :: t2) n ls) in *.
        pose proof (sfx_len (c2 :: t2) n (tl_body ls)) as HS. cbn [length] in HS, Hk, Hf.
        rewrite (IH (c2 :: t2) n ls); [|lia| |exact Ht2|exact Hn|exact Hls|lia|lia|lia|lia|lia|lia|exact Hfit'].
        * cbn [bind]. f_equal. f_equal. cbn [cutn ints]. apply mx_step; assumption.
        * destruct (sfx_suffix (c2 :: t2) n (tl_body ls)) as [a Ea]. rewrite Ea in Ha1. eapply at0_suffix; exact Ha1.
  Qed.
End Touch.

(** ** Tokens and rows *)
Definition rt (ns : list (list byte)) : list tok := map TInt ns ++ [TNl].
Definition vals (nss : list (list (list byte))) : list (list Z) := map (map dval) nss.

Lemma cutn_ints K ns l : cutn K (map TInt ns ++ l) = match K with 0 => [] | _ => map TInt ns ++ cutn K l end.
Proof. destruct K as [|K]; [apply cutn0|]. induction ns as [|x ns IH]; [reflexivity|]. cbn [map app cutn]. rewrite IH. reflexivity. Qed.
Lemma cutn_rows : forall nss K, cutn K (concat (map rt nss)) = concat (map rt (firstn K nss)).
Proof.
  induction nss as [|ns nss IH]; intros K; [destruct K; reflexivity|]. cbn [map concat]. unfold rt at 1. rewrite <- app_assoc, cutn_ints.
  destruct K as [|K]; [reflexivity|]. cbn [app cutn firstn map concat]. unfold rt at 2. rewrite <- app_assoc. cbn [app]. rewrite IH. reflexivity.
Qed.
Definition extra_nums (ls : list tline) : list (list (list byte)) := concat (map (fun l => numerals (tl_text l) :: if touches l then [[]] else []) ls).
Lemma line_toks_extra ls : concat (map line_toks ls) = concat (map rt (extra_nums ls)).
Proof.
  unfold extra_nums. induction ls as [|l ls IH]; [reflexivity|]. cbn [map concat]. rewrite map_app, concat_app, IH. f_equal.
  unfold line_toks. destruct (touches l); cbn [map concat app]; unfold rt; rewrite <- ?app_assoc, ?app_nil_r; reflexivity.
Qed.
Lemma vals_extra ls : vals (extra_nums ls) = tl_extra ls.
Proof.
  unfold vals, extra_nums, tl_extra. induction ls as [|l ls IH]; [reflexivity|]. cbn [map concat]. rewrite map_app, IH. f_equal. unfold tl_row.
  destruct (touches l); reflexivity.
Qed.
Lemma ints_rt ns l : ints (rt ns ++ l) = map dval ns ++ ints l.
Proof. unfold rt. induction ns as [|x ns IH]; [reflexivity|]. cbn [map app ints]. rewrite IH. reflexivity. Qed.
Lemma n_nl_rt ns l : n_nl (rt ns ++ l) = S (n_nl l).
Proof. unfold rt. induction ns as [|x ns IH]; [reflexivity|]. cbn [map app n_nl]. exact IH. Qed.
Lemma nlpos_rt ns l i : nlpos i (rt ns ++ l) = (i + Z.of_nat (length ns))%Z :: nlpos (i + Z.of_nat (length ns)) l.
Proof.
  unfold rt. revert i; induction ns as [|x ns IH]; intros i; cbn [map app nlpos length].
  - rewrite Z.add_0_r. reflexivity.
  - rewrite IH. f_equal; [lia|]. f_equal. lia.
Qed.
Lemma ints_rts nss : ints (concat (map rt nss)) = concat (vals nss).
Proof. unfold vals. induction nss as [|ns nss IH]; [reflexivity|]. cbn [map concat]. rewrite ints_rt, IH. reflexivity. Qed.
Lemma n_nl_rts nss : n_nl (concat (map rt nss)) = length nss.
Proof. induction nss as [|ns nss IH]; [reflexivity|]. cbn [map concat length]. rewrite n_nl_rt, IH. reflexivity. Qed.
Lemma nlpos_rts : forall nss i, nlpos i (concat (map rt nss)) = map (fun v => (i + Z.of_nat (length (concat (firstn v (vals nss)))))%Z) (seq 1 (length nss)).
Proof.
  induction nss as [|ns nss IH]; intros i; [reflexivity|]. cbn [map concat length seq]. rewrite nlpos_rt, IH. f_equal.
  - unfold vals. cbn [map firstn concat]. rewrite app_nil_r, map_length. reflexivity.
  - rewrite <- (seq_shift (length nss) 1), map_map. apply map_ext. intros v. unfold vals. cbn [map firstn concat]. rewrite app_length, map_length. lia.
Qed.
Lemma extra_len ls : length ls <= length (tl_extra ls).
Proof. unfold tl_extra. induction ls as [|l ls IH]; [cbn; lia|]. cbn [map concat length]. rewrite app_length. destruct (touches l); cbn [length]; lia. Qed.
Lemma firstn_vals K nss : vals (firstn K nss) = firstn K (vals nss).
Proof. unfold vals. symmetry. apply firstn_map. Qed.

Lemma pass1_rows ls : concat (map (fun l => row_toks (tl_text l)) ls) = concat (map rt (map (fun l => numerals (tl_text l)) ls)).
Proof. rewrite map_map. reflexivity. Qed.
Lemma has_z_app a b : has_z (a ++ b) = has_z a || has_z b.
Proof. induction a as [|[ds|] a IH]; [reflexivity| |exact IH]. cbn [app has_z]. rewrite IH, orb_assoc. reflexivity. Qed.
Lemma has_z_tl ls : has_z (concat (map (fun l => row_toks (tl_text l)) ls)) = true <-> tl_zero ls.
Proof.
  unfold tl_zero. induction ls as [|l ls IH]; cbn [map concat].
  - split; [discriminate|]. intros (l & [] & _).
  - rewrite has_z_app, orb_true_iff, IH.
    assert (G : has_z (row_toks (tl_text l)) = true <-> In [ch_0] (numerals (tl_text l))).
    { unfold row_toks. rewrite has_z_app. cbn [has_z]. rewrite orb_false_r. induction (numerals (tl_text l)) as [|x ns IHn]; [split; [discriminate|intros []]|].
      cbn [map has_z In]. rewrite orb_true_iff, is_zero_eq, IHn. tauto. }
    rewrite G. split.
    + intros [H|(l' & H1 & H2)]; [exists l; split; [left; reflexivity|exact H]|exists l'; split; [right; exact H1|exact H2]].
    + intros (l' & [<-|H1] & H2); [left; exact H2|right; exists l'; auto].
Qed.
Lemma concat_incl {A} (l : list (list A)) K P : Forall P (concat l) -> Forall P (concat (firstn K l)).
Proof. intros H. rewrite <- (firstn_skipn K l), concat_app in H. apply Forall_app in H. apply H. Qed.
Lemma concat_extra ls : concat (tl_extra ls) = concat (tl_rows ls).
Proof.
  unfold tl_extra, tl_rows. induction ls as [|l ls IH]; [reflexivity|]. cbn [map concat]. rewrite concat_app, IH. cbn [concat]. destruct (touches l); cbn [concat app]; rewrite app_nil_r; reflexivity.
Qed.
Lemma firstn_concat_len {A} K (l : list (list A)) : length (concat (firstn K l)) <= length (concat l).
Proof. rewrite <- (firstn_skipn K l) at 2. rewrite concat_app, app_length. lia. Qed.

(** ** The reader, with a team of one thread *)
Section Read1.
  Variable f : adj_file.
  Hypothesis Hf : wf_head f.
  Variable ls : list tline.
  Hypothesis Hbody : a_body f = tl_body ls.
  Hypothesis Hls : Forall wf_tline ls.
  Variable m : mem.
  Hypothesis Hm : bytes m = adj_text f.
  Hypothesis Hsl : slack m.
  Let e := flen m.
  Variable L O OS : ity.
  Hypothesis HL : is_ity L.
  Hypothesis HO : is_ity O.
  Hypothesis HOS : is_ity OS.
  Let zb : bool := has_z (concat (map (fun l => row_toks (tl_text l)) ls)).
  Let base : nat := if zb then 0 else 1.
  Let N := length ls.
  Let M := length (concat (tl_rows ls)).
  Let seen := firstn N (tl_extra ls).
  Hypothesis Hn : (dval (a_n f) <= imax L)%Z.
  Hypothesis HN : room L (Z.of_nat (base + N)).
  Hypothesis HM : (Z.of_nat M <= imax O)%Z.
  Hypothesis HMS : (Z.of_nat M <= imax OS)%Z.
  Hypothesis Hfit : Forall (fun v => v < imax L)%Z (concat (tl_rows ls)).
  Hypothesis H2m : (2 * dval (a_m f) <= imax O)%Z.

  Lemma read_graph_touch {W} ch : gc_T ch = 1 ->
    read_graph (W:=W) L O OS m 0 e ch =
      if (negb (Z.of_nat M =? 2 * dval (a_m f)) && negb (Z.of_nat M =? dval (a_m f)))%Z then Throw EError
      else if (Z.of_nat (base + N) <? dval (a_n f))%Z then Throw EError
      else Ok (mkCsr (map Some (repeat 0%Z (S base) ++ map (fun v => Z.of_nat (length (concat (firstn v seen)))) (seq 1 N)))
                 (map Some (concat seen) ++ fresh (M - length (concat seen))) [] (dval (a_n f)) (Z.of_nat M)
                 (Some (Z.of_nat (base + N))) (Some (max_of (concat seen) + 1)%Z)).
  Proof.
    intros HT. pose proof Hf as (Gh & Dn & Sne & Sg & Dm & Rp & Gg & Hb0).
    pose proof (ity_facts L HL) as FL. pose proof (ity_facts O HO) as FO. pose proof (ity_facts OS HOS) as FOS.
    assert (HmO : (dval (a_m f) <= imax O)%Z) by (assert (0 <= dval (a_m f))%Z by (apply dval_nonneg; apply Dm); lia).
    destruct (header_pos f Hf m Hm L O HL HO Hn HmO) as (d1 & d2 & d3 & d4 & d5 & d6 & X1 & X2 & X3 & X4 & X5 & X6 & K8 & Hd6 & Lb). fold e in X1, X2, X3, X4, X5, X6.
    unfold read_graph. rewrite X1. cbn [bind]. rewrite X2. cbn [bind]. rewrite X3. cbn [bind]. rewrite X4. cbn [bind]. rewrite X5. cbn [bind]. rewrite X6. cbn [bind].
    rewrite HT. cbn [seq mapM].
    assert (Xc : gr_chunk m d6 e 1 0 = Ok (d6, e)).
    { unfold gr_chunk. cbn [Nat.mul Nat.add Nat.eqb]. rewrite Nat.add_0_r, !Nat.div_1_r. unfold advance. rewrite (Nat.min_r (d6 + (e - d6)) e) by (unfold e; lia). rewrite Nat.add_0_r, (Nat.min_l d6 e) by (unfold e; lia).
      assert (Xe : move_to_next_int m e e = Ok e).
      { unfold move_to_next_int, move_to_non_int. rewrite (scan_stop m is_digit e e 0%Z) by (try (apply load_eof; exact Hsl); reflexivity). cbn [bind].
        pose proof (move_to_first_int_gap m false e e [] ) as G. cbn [length] in G. rewrite Nat.add_0_r in G. apply G; [constructor|exact I| |discriminate].
        exists 0%Z. split; [apply load_eof; exact Hsl|]. split; [reflexivity|]. split; [lia|lia]. }
      rewrite Xe. cbn [bind].
      destruct Hb0 as (c & b' & Eb & Hc). rewrite Eb in K8. pose proof (load_has _ _ _ _ K8) as Ec.
      pose proof (move_to_first_int_gap m false e d6 []) as G. cbn [length] in G. rewrite Nat.add_0_r in G. rewrite G; [|constructor|exact I| |discriminate].
      - cbn [bind]. unfold smaller_end. rewrite Nat.ltb_irrefl. reflexivity.
      - exists c. split; [exact Ec|]. split; [apply digit_not_cmt; exact Hc|]. unfold e. split; [lia|intros _; exact Hc]. }
    rewrite Xc. cbn [bind]. cbn [mapM fst snd].
    (* the body starts with a line whose text begins with a digit *)
    assert (X : exists l0 ls0, ls = l0 :: ls0).
    { destruct ls as [|l0 ls0]; [exfalso; rewrite Hbody in Lb; cbn in Lb; lia|eauto]. }
    destruct X as (l0 & ls0 & Els).
    pose proof Hls as Hls1. rewrite Els in Hls1. pose proof (Forall_inv Hls1) as Wl0. pose proof (Forall_inv_tail Hls1) as Wls0.
    assert (Esf : sfx (tl_text l0) (tl_note l0) (tl_body ls0) = a_body f).
    { rewrite Hbody, Els, body_cons. destruct Hb0 as (c & b' & Eb & Hc). rewrite Hbody, Els, body_cons in Eb. unfold sfx. destruct (tl_text l0) as [|c0 t0] eqn:Et0.
      - exfalso. destruct Wl0 as [_ [Hno|[_ Hno]]]; [|congruence]. rewrite Hno in Eb. cbn [app] in Eb. injection Eb as <- _. discriminate.
      - cbn [app] in Eb. injection Eb as -> _. cbn [dropw]. unfold nd at 1. rewrite Hc. reflexivity. }
    assert (A0 : at0 m d6 (sfx (tl_text l0) (tl_note l0) (tl_body ls0))) by (rewrite Esf; split; [exact K8|exact Hd6]).
    assert (Lsf : length (sfx (tl_text l0) (tl_note l0) (tl_body ls0)) < S (e - d6)) by (rewrite Esf; unfold e; lia).
    pose proof (count_touch m Hsl _ (tl_text l0) (tl_note l0) ls0 d6 (S (e - d6)) 0 0 false (Nat.le_refl _) A0 (proj1 Wl0) (note_of l0 Wl0) Wls0 Lsf) as CT. fold e in CT. rewrite CT. clear CT.
    cbn [bind orb plus]. rewrite toks1_cons, <- Els. fold zb.
    assert (EN : n_nl (concat (map (fun l => row_toks (tl_text l)) ls)) = N).
    { rewrite pass1_rows, n_nl_rts, map_length. reflexivity. }
    assert (EM : n_int (concat (map (fun l => row_toks (tl_text l)) ls)) = M).
    { rewrite <- ints_len, pass1_rows, ints_rts. unfold vals. rewrite map_map. reflexivity. }
    rewrite EN, EM. cbn [map fst snd]. rewrite found_zero_ok. cbn [existsb bind]. rewrite orb_false_r. fold base.
    unfold sum_nat. cbn [fold_right]. rewrite !Nat.add_0_r.
    assert (HN' : (Z.of_nat (base + N) <= imax L)%Z) by apply HN.
    rewrite (wrap_in L (Z.of_nat (base + N))) by (try assumption; lia). rewrite (wrap_in O (Z.of_nat M)) by (try assumption; lia).
    assert (Npos : 0 < N) by (unfold N; rewrite Els; cbn; lia).
    (* the allocation *)
    unfold csr_alloc, alloc. destruct (Z.ltb_spec (Z.of_nat M) 0); [lia|]. cbn [bind].
    assert (XP : plus1 L (Z.of_nat (base + N)) = Ok (Z.of_nat (base + N) + 1)%Z).
    { unfold plus1. destruct (Z.ltb_spec (ibits L) 32); [reflexivity|]. apply arith_in; [exact HL|]. destruct HN as [_ [?|?]]; lia. }
    rewrite XP. cbn [bind]. destruct (Z.ltb_spec (Z.of_nat (base + N) + 1) 0); [lia|]. cbn [bind].
    rewrite Nat2Z.id. replace (Z.to_nat (Z.of_nat (base + N) + 1)) with (S base + N) by lia.
    assert (Xoff : exists B, length B = N /\
      bind (bind (zset 0 0 (fresh (S base + N))) (fun off => if zb then Ok off else zset 1 0 off)) (fun off => zset (Z.of_nat (base + N)) (wrap OS (Z.of_nat M)) off) =
      Ok (map Some (repeat 0%Z (S base)) ++ B)).
    { exists (fresh (N - 1) ++ [Some (wrap OS (Z.of_nat M))]). split; [rewrite app_length, fresh_length; cbn; lia|].
      assert (EF : fresh (V:=Z) N = fresh (N - 1) ++ [None]) by (replace N with ((N - 1) + 1) at 1 by lia; unfold fresh; rewrite repeat_app; reflexivity).
      unfold base. destruct zb; cbn [plus].
      - change (fresh (S N)) with ([] ++ @None Z :: fresh N). rewrite zset_at by reflexivity. cbn [bind app]. rewrite EF.
        change (Some 0%Z :: fresh (N - 1) ++ [None]) with ((Some 0%Z :: fresh (N - 1)) ++ [None]). rewrite zset_at; [reflexivity|]. cbn [length]. rewrite fresh_length. lia.
      - change (fresh (S (S N))) with ([] ++ @None Z :: fresh (S N)). rewrite zset_at by reflexivity. cbn [bind app].
        change (Some 0%Z :: fresh (S N)) with ([Some 0%Z] ++ @None Z :: fresh N). rewrite zset_at by reflexivity. cbn [bind app]. rewrite EF.
        change (Some 0%Z :: Some 0%Z :: fresh (N - 1) ++ [None]) with ((Some 0%Z :: Some 0%Z :: fresh (N - 1)) ++ [None]). rewrite zset_at; [reflexivity|]. cbn [length]. rewrite fresh_length. lia. }
    destruct Xoff as (B & LB & Xoff). rewrite bind_assoc in Xoff.
    destruct (zset 0 0 (fresh (S base + N))) as [o1| | |]; cbn [bind] in Xoff |- *; try discriminate.
    destruct (if zb then Ok o1 else zset 1 0 o1) as [o2| | |]; cbn [bind] in Xoff |- *; try discriminate. rewrite Xoff. cbn [bind].
    (* pass 2 *)
    cbn [prefix_sums combine mapM fst snd].
    rewrite (wrap_in L (Z.of_nat base)) by (try assumption; lia). rewrite (wrap_in O (Z.of_nat 0)) by (try assumption; lia).
    set (tk := cutn N (toks2 (tl_text l0) (tl_note l0) ls0)).
    assert (Etk : tk = concat (map rt (firstn N (extra_nums ls)))).
    { unfold tk. rewrite toks2_cons, <- Els, line_toks_extra, cutn_rows. reflexivity. }
    assert (Eints : ints tk = concat seen) by (rewrite Etk, ints_rts, firstn_vals, vals_extra; reflexivity).
    assert (Lseen : length (concat seen) <= M) by (unfold M, seen; rewrite <- concat_extra; apply firstn_concat_len).
    assert (Enl : n_nl tk = N).
    { rewrite Etk, n_nl_rts, firstn_length, Nat.min_l; [reflexivity|]. pose proof (extra_len ls) as G. rewrite <- vals_extra in G. unfold vals in G. rewrite map_length in G. exact G. }
    assert (Hfs : Forall (fun v => v < imax L)%Z (concat seen)) by (unfold seen; apply concat_incl; rewrite concat_extra; exact Hfit).
    rewrite Nat2Z.inj_add.
    pose proof (set_touch m Hsl L O HL HO _ (tl_text l0) (tl_note l0) ls0 d6 (S (e - d6)) N (Z.of_nat base) (Z.of_nat 0) 0%Z (Nat.le_refl _) A0 (proj1 Wl0) (note_of l0 Wl0) Wls0 Lsf) as ST. fold e in ST.
    rewrite ST;
      [|lia|lia|lia|fold tk; rewrite <- ints_len, Eints; lia|lia|fold tk; rewrite Eints; eapply Forall_impl; [|exact Hfs]; cbn; intros; lia].
    fold tk. cbn [bind]. cbn [map fst snd].
    rewrite run_indep by (constructor; constructor). cbn [concat]. rewrite app_nil_r.
    assert (EF : fresh (V:=Z) M = fresh (length (concat seen)) ++ fresh (M - length (concat seen))).
    { unfold fresh. rewrite <- repeat_app. f_equal. lia. }
    pose proof (gprog_exec OS HOS tk (Z.of_nat base) 0 (map Some (repeat 0%Z (S base))) B [] [] (fresh (length (concat seen))) (fresh (M - length (concat seen)))) as G.
    rewrite !app_nil_r in G. cbn [app] in G. rewrite <- EF in G. change (Z.of_nat 0) with 0%Z. rewrite G; clear G.
    2:{ rewrite map_length, repeat_length. lia. }
    2:{ lia. }
    2:{ rewrite Enl. exact LB. }
    2:{ reflexivity. }
    2:{ rewrite <- ints_len, Eints. apply fresh_length. }
    2:{ rewrite <- ints_len, Eints. lia. }
    cbn [bind g_off g_end].
    assert (Ht : twice O (dval (a_m f)) = Ok (2 * dval (a_m f))%Z).
    { assert (0 <= dval (a_m f))%Z by (apply dval_nonneg; apply Dm). unfold twice. destruct (ibits O <? 32)%Z; [reflexivity|]. apply arith_in; [exact HO|lia]. }
    rewrite Ht. cbn [bind]. rewrite <- Nat2Z.inj_add.
    destruct (negb (Z.of_nat M =? 2 * dval (a_m f))%Z && negb (Z.of_nat M =? dval (a_m f))%Z); [reflexivity|].
    destruct (Z.of_nat (base + N) <? dval (a_n f))%Z; [reflexivity|].
    cbn [fold_left]. rewrite Eints. pose proof (max_of_nonneg (concat seen)) as Hm0.
    assert (Hmx : (max_of (concat seen) <= imax L - 1)%Z).
    { apply max_of_le; [lia|]. eapply Forall_impl; [|exact Hfs]. cbn; intros; lia. }
    rewrite !Z.max_r by lia.
    rewrite arith_in by (try assumption; lia). cbn [bind].
    assert (EO : nlpos 0 tk = map (fun v => Z.of_nat (length (concat (firstn v seen)))) (seq 1 N)).
    { rewrite Etk, nlpos_rts, firstn_vals, vals_extra. fold seen. rewrite Etk, n_nl_rts in Enl. rewrite Enl. apply map_ext. intros v. lia. }
    rewrite EO, map_app. reflexivity.
  Qed.
End Read1.
