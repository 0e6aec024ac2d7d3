(** * TensorFrag: tensor files whose last line lacks its newline *)

From Verif Require Import Base Reader Sched SchedLemmas Spec SpecTensor ReaderLemmas Coo CooLemmas CooSplit CooMain CooExec
  Csr Codec Bin Load Tensor TensorLemmas TensorMain TensorOrder Frag FragEl ElBad.

Definition titem (W : Type) : Type := tag * (tline * W).
Definition thead (l : tline) : list byte := labels_text l ++ t_post l.
Definition tiblk {W} (it : titem W) : blk :=
  mkBlk (thead (fst (snd it))) (match fst it with Full => true | _ => false end) (t_gap (fst (snd it))).

Lemma tiblk_full {W} (p : tline * W) : btext (tiblk (Full, p)) = tline_text (fst p).
Proof. unfold btext, btail, tiblk, thead, tline_text; cbn [b_head b_term b_gap fst snd]. rewrite <- app_assoc. reflexivity. Qed.
Lemma tiblk_cut {W} tg (p : tline * W) : tg <> Full -> btext (tiblk (tg, p)) = thead (fst p).
Proof. unfold btext, btail, tiblk; cbn [b_head b_term b_gap fst snd]. destruct tg; [congruence|..]; intros _; apply app_nil_r. Qed.

Lemma setCs_app {W} a : forall i b, setCs (W:=W) i (a ++ b) = setCs i a ++ setCs (i + length a) b.
Proof. induction a as [|x a IH]; intros i b; cbn [app setCs length]; [rewrite Nat.add_0_r; reflexivity|]. rewrite IH. do 3 f_equal. lia. Qed.

Section Item.
  Context {W : Type}.
  Variable L : ity.
  Hypothesis HL : is_ity L.
  Variable wr : option (wrd W).
  Variable k : nat.
  Variable m : mem.
  Variable e : nat.

  Definition tline_ok (it : titem W) : Prop :=
    let l := fst (snd it) in
    length (t_labels l) = k /\ digits (t_first l) /\ Forall (fun p => separator (fst p) /\ digits (snd p)) (t_more l) /\
    rest (t_post l) /\ Forall (fun v => v <= imax L)%Z (t_labels l) /\
    match fst it with
    | Full => (is_some wr = true -> holds_number (t_post l)) /\ owok wr (t_post l) (snd (snd it))
    | Cut => wr = None /\ t_post l = []
    | Tail => match wr with
              | None => t_post l <> []
              | Some w => holds_number (t_post l) /\ exists ints, wcut w ints (t_post l) (snd (snd it))
              end
    end.

  Definition at_titem (d : nat) (it : titem W) : Prop :=
    match fst it with
    | Full => tgood L wr k (snd it) /\ at_tline m e d (snd it)
    | _ => tline_ok it /\ has m d (thead (fst (snd it))) /\ d + length (thead (fst (snd it))) = e /\ load m e = Ok 0%Z
    end.

  Definition tcnt (it : titem W) : nat := match fst it with Cut => 0 | _ => 1 end.
  Definition ticode (pos : nat) (it : titem W) : list (tinstr W) :=
    match fst it with
    | Cut => setCs (pos * k) (removelast (t_labels (fst (snd it))))
    | _ => setCs (pos * k) (t_labels (fst (snd it))) ++ twcode wr pos (snd (snd it))
    end.

  Lemma thead_nl it : tline_ok it -> Forall (fun c => is_nl c = false) (thead (fst (snd it))).
  Proof.
    intros (_ & H1 & H2 & [H3 _] & _). unfold thead, labels_text. apply Forall_app; split; [|exact H3].
    apply Forall_app; split; [apply digits_nl; exact H1|apply seps_nl; exact H2].
  Qed.

  Lemma tnext_line_cut d it j : tline_ok it -> has m d (thead (fst (snd it))) -> d + length (thead (fst (snd it))) = e -> load m e = Ok 0%Z ->
    d <= j -> j <= e -> next_line m e j = Ok e.
  Proof using Type.
    intros Hlo Hh He Hl0 Hk1 Hk2. pose proof (thead_nl it Hlo) as Hnl. set (h := thead (fst (snd it))) in *. clearbody h.
    unfold next_line, move_to_eol. rewrite (scan_to m _ e j (skipn (j - d) h)).
    - rewrite skipn_length. replace (j + (length h - (j - d))) with e by lia. cbn [bind].
      apply move_to_next_int_end with (c := 0%Z); [exact Hl0|reflexivity].
    - replace j with (d + (j - d)) at 1 by lia. rewrite <- (app_nil_r (skipn _ _)). apply has_skipn; [lia|]. rewrite app_nil_r; exact Hh.
    - apply skipn_forall. eapply Forall_impl; [|exact Hnl]. cbn; intros c ->; reflexivity.
    - rewrite skipn_length; lia.
    - left. rewrite skipn_length; lia.
  Qed.

  (** Labels that run up to the end of the file. *)
  Lemma cut_labels its : its <> [] -> forall d, has m d (its_text its) -> d + length (its_text its) = e ->
    match its with [] => True | p :: its' => Forall (fun c => is_digit c = false) (fst p) /\ digits (snd p) /\ (dval (snd p) <= imax L)%Z /\ good_its L its' end ->
    tcount_labels (W:=W) L None m e (length its) d = Ok (e, false) /\
    forall i, tset_labels (W:=W) L m e (length its) d i = Ok (e, setCs i (removelast (map (fun p => dval (snd p)) its)), false).
  Proof using HL.
    induction its as [|[j ds] its IH]; intros Hne d Hh He Hg; [congruence|]. clear Hne.
    cbn [fst snd] in Hg. destruct Hg as (Hj & Hds & Hv & Hg1 & Hg2).
    rewrite its_text_cons in Hh, He. cbn [fst snd] in Hh, He. rewrite !app_length in He.
    rewrite app_assoc in Hh. apply has_app in Hh as [Hh1 Hh2]. rewrite app_length in Hh2.
    cbn [length tcount_labels tset_labels is_some map removelast].
    assert (Hdl : length ds > 0) by (destruct Hds as [N _]; destruct ds; [congruence|cbn [length]; lia]).
    rewrite (read_int_gen m L e d j ds Hh1 Hj (proj2 Hds)); [|lia|].
    2:{ destruct its as [|[j2 ds2] its].
        - left. cbn in He. lia.
        - right. split; [|apply Hds]. pose proof (forall_hd _ _ _ Hg1) as [N D]. cbn [fst] in N, D. destruct j2 as [|x j2]; [congruence|].
          rewrite its_text_cons in Hh2. cbn [fst snd app] in Hh2. exists x. split; [replace (d + length j + length ds) with (d + (length j + length ds)) by lia; eapply load_has; exact Hh2|].
          apply forall_hd in D. exact D. }
    rewrite (read_val_fit L _ HL (proj2 Hds) Hv). cbn [bind].
    destruct its as [|[j2 ds2] its].
    - cbn in He. destruct (Nat.leb_spec e (d + length j + length ds)); [|lia]. replace (d + length j + length ds) with e by lia.
      split; [reflexivity|intros i; reflexivity].
    - assert (Hl2 : length (its_text ((j2, ds2) :: its)) > 0).
      { rewrite its_text_cons. cbn [fst snd]. rewrite !app_length. pose proof (forall_hd _ _ _ Hg1) as [N _]. cbn [fst] in N. destruct j2; [congruence|cbn [length]; lia]. }
      destruct (Nat.leb_spec e (d + length j + length ds)); [lia|].
      destruct (IH ltac:(discriminate) (d + length j + length ds)) as [E1 E2].
      + replace (d + length j + length ds) with (d + (length j + length ds)) by lia. exact Hh2.
      + lia.
      + inversion Hg1 as [|? ? [_ D] ?]; subst. inversion Hg2 as [|? ? [D1 D2] ?]; subst. cbn [fst snd] in *. split; [assumption|]. split; [assumption|]. split; [assumption|]. split; assumption.
      + split; [exact E1|]. intros i. rewrite E2. cbn [bind]. reflexivity.
  Qed.

  Lemma ok_its it : tline_ok it -> length (its_of (fst (snd it))) = k /\
    match its_of (fst (snd it)) with [] => True | p :: its' => Forall (fun c => is_digit c = false) (fst p) /\ digits (snd p) /\ (dval (snd p) <= imax L)%Z /\ good_its L its' end.
  Proof using Type.
    intros (H0 & H1 & H2 & _ & Hv & _). unfold its_of. split; [unfold t_labels in H0; cbn [length] in *; rewrite map_length in H0; exact H0|].
    cbn [fst snd]. split; [constructor|]. split; [exact H1|]. unfold t_labels in Hv. inversion Hv as [|? ? Hv1 Hv2]; subst. split; [exact Hv1|].
    rewrite Forall_map in Hv2. split.
    - eapply Forall_impl; [|exact H2]. intros p [Hs _]. apply sep_nondigit. exact Hs.
    - rewrite Forall_forall in *. intros p Hp. split; [apply (H2 p Hp)|apply Hv2; exact Hp].
  Qed.

  Lemma titem_len d it : at_titem d it -> d < d + length (btext (tiblk it)).
  Proof using Type.
    destruct it as [tg [l w]]. unfold at_titem; cbn [fst snd]. rewrite btext_len. unfold tiblk; cbn [b_head fst snd].
    assert (H : digits (t_first l) -> d < d + (length (thead l) + length (btail (tiblk (tg, (l, w)))))).
    { intros [H _]. unfold thead, labels_text. rewrite !app_length. destruct (t_first l); [congruence|]. cbn [length]. lia. }
    intros Hi. apply H. destruct tg.
    - destruct Hi as [((fin & Hw) & _) _]. apply Hw.
    - apply Hi.
    - apply Hi.
  Qed.

  Lemma ticount_at d it : at_titem d it -> tentry_count L wr k m e d = Ok (d + length (btext (tiblk it)), tcnt it).
  Proof using HL.
    destruct it as [tg [l w]]. unfold at_titem; cbn [fst snd]. destruct tg.
    - intros [Hg Ha]. rewrite (tentry_count_at L HL wr k m e d (l, w) Hg Ha). unfold ptoblk; cbn [fst].
      rewrite toblk_text, tiblk_full. reflexivity.
    - intros (Hlo & Hh & He & Hl0). rewrite tiblk_cut by discriminate. cbn [fst]. rewrite He. unfold tcnt; cbn [fst].
      destruct (ok_its _ Hlo) as [Hk Hits]. cbn [fst snd] in Hk, Hits. destruct Hlo as (_ & _ & _ & _ & _ & Hwr & Hp). cbn [fst snd] in Hp, Hwr.
      unfold tentry_count. rewrite Hwr, <- Hk. unfold thead in Hh, He. rewrite Hp, app_nil_r, <- its_of_text in Hh, He.
      destruct (cut_labels (its_of l) ltac:(discriminate) d Hh He Hits) as [E _]. rewrite E. reflexivity.
    - intros (Hlo & Hh & He & Hl0). rewrite tiblk_cut by discriminate. cbn [fst]. rewrite He. unfold tcnt; cbn [fst].
      destruct (ok_its _ Hlo) as [Hk Hits]. cbn [fst snd] in Hk, Hits. pose proof (fun j => tnext_line_cut d (Tail, (l, w)) j Hlo) as NL. cbn [fst snd] in NL.
      assert (E : exists d1, tcount_labels L wr m e k d = Ok (d1, true) /\ d <= d1 <= e).
      { destruct Hlo as (_ & H1 & H2 & H3 & _ & Ht). cbn [fst snd] in *. unfold thead in Hh, He. rewrite app_length in He. destruct wr as [w0|].
        - destruct Ht as [(a & c & b & Epost & Ha & Hc) _]. rewrite Epost in Hh, He. unfold labels_text in Hh, He. fold (its_text (t_more l)) in Hh, He.
          rewrite !app_length in He. cbn [length] in He. repeat rewrite <- app_assoc in Hh. cbn [app] in Hh.
          exists (d + length (t_first l) + length (its_text (t_more l)) + length a). split; [|lia].
          rewrite <- Hk. unfold its_of. cbn [length]. apply (tcount_labels_w L m e w0 (t_more l) d (t_first l) a c b); auto; [apply H1|lia].
        - destruct (t_post l) as [|c s] eqn:Ep; [congruence|]. cbn [length] in He. exists (d + length (its_text (its_of l))). rewrite its_of_text. split; [|lia].
          rewrite <- Hk, <- its_of_text. apply (tcount_labels_u L HL m e (its_of l) d c s); [rewrite its_of_text; exact Hh|apply H3|rewrite its_of_text; lia|exact Hits]. }
      destruct E as (d1 & E1 & Hd1). unfold tentry_count. rewrite E1. cbn [bind]. rewrite (NL d1 Hh He Hl0) by lia. reflexivity.
  Qed.

  Lemma tiset_at d it pos : at_titem d it ->
    tentry_set L wr k m e d pos = Ok (d + length (btext (tiblk it)), pos + tcnt it, ticode pos it).
  Proof using HL.
    destruct it as [tg [l w]]. unfold at_titem; cbn [fst snd]. destruct tg.
    - intros [Hg Ha]. rewrite (tentry_set_at L HL wr k m e d (l, w) pos Hg Ha). unfold ptoblk; cbn [fst].
      rewrite toblk_text, tiblk_full. reflexivity.
    - intros (Hlo & Hh & He & Hl0). rewrite tiblk_cut by discriminate. cbn [fst]. rewrite He. unfold tcnt, ticode; cbn [fst snd].
      destruct (ok_its _ Hlo) as [Hk Hits]. cbn [fst snd] in Hk, Hits. destruct Hlo as (_ & _ & _ & _ & _ & Hwr & Hp). cbn [fst snd] in Hp, Hwr.
      unfold tentry_set. rewrite <- Hk at 1. unfold thead in Hh, He. rewrite Hp, app_nil_r, <- its_of_text in Hh, He.
      destruct (cut_labels (its_of l) ltac:(discriminate) d Hh He Hits) as [_ E]. rewrite E. cbn [bind]. rewrite its_of_vals, Nat.add_0_r. reflexivity.
    - intros (Hlo & Hh & He & Hl0). rewrite tiblk_cut by discriminate. cbn [fst]. rewrite He. unfold tcnt, ticode; cbn [fst snd].
      destruct (ok_its _ Hlo) as [Hk Hits]. cbn [fst snd] in Hk, Hits. pose proof (fun j => tnext_line_cut d (Tail, (l, w)) j Hlo) as NL. cbn [fst snd] in NL.
      specialize (fun j => NL j Hh He Hl0).
      destruct Hlo as (_ & H1 & H2 & H3 & _ & Ht). cbn [fst snd] in *. unfold thead in Hh, He. rewrite app_length in He.
      assert (Hp : exists c s, t_post l = c :: s /\ is_digit c = false).
      { assert (N : t_post l <> []) by (destruct wr; [destruct Ht as [(a & c & b & -> & _) _]; destruct a; discriminate|exact Ht]).
        destruct H3 as [_ H3]. destruct (t_post l) as [|c s]; [congruence|]. eauto. }
      destruct Hp as (c & s & Ep & Hc).
      unfold tentry_set. rewrite <- Hk at 1.
      rewrite (tset_labels_at L HL m e (its_of l) d (pos * k) c s); [|rewrite its_of_text, <- Ep; exact Hh|exact Hc|rewrite its_of_text; rewrite Ep in He; cbn [length] in He; lia|exact Hits].
      cbn [bind]. rewrite its_of_text, its_of_vals.
      assert (E : exists d2, match wr with
                | None => Ok (d + length (labels_text l), [])
                | Some w0 => '(v, d') <- w_read w0 m e (d + length (labels_text l)) ;; Ok (d', [SetTW pos v])
                end = Ok (d2, twcode wr pos w) /\ d <= d2 <= e).
      { unfold twcode. destruct wr as [w0|].
        - destruct Ht as [_ (ints & Hw)]. apply has_app in Hh as [_ Hh2].
          destruct (Hw m e (d + length (labels_text l)) Hh2 ltac:(lia) Hl0) as [E _]. rewrite E. cbn [bind]. exists e. split; [reflexivity|lia].
        - eexists. split; [reflexivity|lia]. }
      destruct E as (d2 & E2 & Hd2). rewrite E2. cbn [bind]. rewrite NL by lia. cbn [bind]. reflexivity.
  Qed.

  (** ** Loops *)
  Fixpoint at_titems (d : nat) (B : list (titem W)) : Prop :=
    match B with
    | [] => d = e
    | it :: B' => at_titem d it /\ at_titems (d + length (btext (tiblk it))) B'
    end.
  Definition titot (B : list (titem W)) : nat := sum_nat (map tcnt B).
  Fixpoint ticodes (pos : nat) (B : list (titem W)) : list (tinstr W) :=
    match B with
    | [] => []
    | it :: B' => ticode pos it ++ ticodes (pos + tcnt it) B'
    end.

  Lemma at_titems_le d B : at_titems d B -> d + length B <= e.
  Proof using Type.
    revert d; induction B as [|it B IH]; intros d H; cbn [at_titems length] in *; [lia|]. destruct H as [H1 H2].
    apply titem_len in H1. apply IH in H2. lia.
  Qed.

  Lemma ticount_run B : forall d ct fuel, at_titems d B -> length B < fuel -> tcount_loop L wr k m e fuel d ct = Ok (ct + titot B).
  Proof using HL.
    induction B as [|it B IH]; intros d ct fuel Ha Hf; (destruct fuel as [|fuel]; [cbn [length] in Hf; lia|]); cbn [tcount_loop].
    - cbn in Ha. subst d. rewrite Nat.ltb_irrefl. unfold titot; cbn. rewrite Nat.add_0_r. reflexivity.
    - pose proof (at_titems_le _ _ Ha) as Hle. cbn [length] in Hle, Hf. destruct (Nat.ltb_spec d e); [|lia].
      destruct Ha as [Ha1 Ha2]. rewrite (ticount_at d it Ha1). cbn [bind]. rewrite (IH _ (ct + tcnt it) fuel Ha2) by lia. f_equal.
      unfold titot. cbn [map sum_nat fold_right]. unfold sum_nat. lia.
  Qed.

  Lemma tiset_run B : forall d pos fuel, at_titems d B -> length B < fuel -> tset_loop L wr k m e fuel d pos = Ok (ticodes pos B).
  Proof using HL.
    induction B as [|it B IH]; intros d pos fuel Ha Hf; (destruct fuel as [|fuel]; [cbn [length] in Hf; lia|]); cbn [tset_loop ticodes].
    - cbn in Ha. subst d. rewrite Nat.ltb_irrefl. reflexivity.
    - pose proof (at_titems_le _ _ Ha) as Hle. cbn [length] in Hle, Hf. destruct (Nat.ltb_spec d e); [|lia].
      destruct Ha as [Ha1 Ha2]. rewrite (tiset_at d it pos Ha1). cbn [bind]. rewrite (IH _ (pos + tcnt it) fuel Ha2) by lia. reflexivity.
  Qed.
End Item.
