(** * TensorLemmas: the tensor reader on well-formed text *)

From Verif Require Import Base Reader Sched SchedLemmas Spec SpecTensor ReaderLemmas Coo CooLemmas CooSplit CooMain CooExec Blocks Csr Codec Bin Load Tensor.

Definition toblk (l : tline) : blk := mkBlk (labels_text l ++ t_post l) (t_gap l).

Lemma toblk_text l : btext (toblk l) = tline_text l.
Proof. unfold btext, toblk, tline_text. cbn [b_head b_gap]. rewrite <- app_assoc. reflexivity. Qed.

Lemma seps_nl (ms : list (list byte * list byte)) : Forall (fun p => separator (fst p) /\ digits (snd p)) ms ->
  Forall (fun c => is_nl c = false) (concat (map (fun p => fst p ++ snd p) ms)).
Proof.
  induction 1 as [|p ms [H1 H2] _ IH]; [constructor|]. cbn [map concat].
  apply Forall_app; split; [|exact IH]. apply Forall_app; split; [apply sep_nl; exact H1|apply digits_nl; exact H2].
Qed.

Lemma wf_toblk wgt k fin l : wf_tline wgt k fin l -> wf_blk fin (toblk l).
Proof.
  intros (_ & H1 & H2 & [H3 _] & _ & H4). split; [|split; [|exact H4]]; cbn [b_head toblk].
  - destruct H1 as [Hn Hd]. unfold labels_text. destruct (t_first l) as [|c h]; [congruence|]. exists c. eexists. split; [reflexivity|]. apply forall_hd in Hd. exact Hd.
  - apply Forall_app; split; [|exact H3]. unfold labels_text. apply Forall_app; split; [apply digits_nl; exact H1|apply seps_nl; exact H2].
Qed.

Lemma wf_tlines_cons wgt k l ls : wf_tlines wgt k (l :: ls) <-> wf_tline wgt k (isnil ls) l /\ wf_tlines wgt k ls.
Proof. destruct ls; cbn; tauto. Qed.

Lemma isnil_map {A B} (f : A -> B) l : isnil (map f l) = isnil l.
Proof. destruct l; reflexivity. Qed.

Lemma wf_toblks wgt k ls : wf_tlines wgt k ls -> wf_blks (map toblk ls).
Proof.
  induction ls as [|l ls IH]; intros H; [exact Logic.I|]. apply wf_tlines_cons in H as [H1 H2].
  cbn [map wf_blks]. rewrite isnil_map. split; [eapply wf_toblk; exact H1|auto].
Qed.

Lemma wf_tlines_all wgt k ls : wf_tlines wgt k ls -> Forall (fun l => exists fin, wf_tline wgt k fin l) ls.
Proof.
  induction ls as [|l ls IH]; intros H; [constructor|]. apply wf_tlines_cons in H as [H1 H2]. constructor; eauto.
Qed.

(** ** Labels *)
Definition its_text (its : list (list byte * list byte)) : list byte := concat (map (fun p => fst p ++ snd p) its).

Lemma its_text_cons p its : its_text (p :: its) = fst p ++ snd p ++ its_text its.
Proof. unfold its_text. cbn [map concat]. rewrite <- app_assoc. reflexivity. Qed.

(** The stores of the labels [vs] from index [i] on. *)
Fixpoint setCs {W : Type} (i : nat) (vs : list Z) : list (tinstr W) :=
  match vs with [] => [] | v :: vs' => SetC i v :: setCs (S i) vs' end.

Section Labels.
  Context {W : Type}.
  Variable L : ity.
  Hypothesis HL : is_ity L.
  Variable m : mem.
  Variable e : nat.

  (** The first character after a numeral: of the next separator, or the given one. *)
  Lemma after_numeral d its c s : has m d (its_text its ++ c :: s) -> is_digit c = false ->
    Forall (fun p => fst p <> [] /\ Forall (fun c => is_digit c = false) (fst p)) its ->
    exists c', load m d = Ok c' /\ is_digit c' = false.
  Proof.
    intros Hh Hc Hi. destruct its as [|[j ds] its]; cbn [its_text map concat app] in Hh.
    - exists c. split; [eapply load_has; exact Hh|exact Hc].
    - apply forall_hd in Hi. cbn [fst] in Hi. destruct j as [|c' j]; [destruct Hi; congruence|]. cbn [app fst snd] in Hh.
      exists c'. split; [eapply load_has; exact Hh|]. destruct Hi as [_ Hi]. apply forall_hd in Hi. exact Hi.
  Qed.

  Lemma step_label d j ds its c s : has m d (its_text ((j, ds) :: its) ++ c :: s) -> is_digit c = false ->
    Forall (fun c => is_digit c = false) j -> digits ds -> (dval ds <= imax L)%Z ->
    Forall (fun p => fst p <> [] /\ Forall (fun c => is_digit c = false) (fst p)) its ->
    d + length (its_text ((j, ds) :: its)) < e ->
    read_int m L e d = Ok (dval ds, d + length j + length ds) /\
    has m (d + length j + length ds) (its_text its ++ c :: s).
  Proof.
    intros Hh Hc Hj Hds Hv Hi He. rewrite its_text_cons in Hh, He. cbn [fst snd] in Hh, He. rewrite !app_length in He.
    rewrite <- !app_assoc in Hh. pose proof Hh as Hh'. rewrite app_assoc in Hh'. apply has_app in Hh' as [Hh1 _].
    apply has_app in Hh as [_ Hh]. apply has_app in Hh as [_ Hh]. split; [|exact Hh].
    rewrite (read_int_gen m L e d j ds Hh1 Hj (proj2 Hds)); [|lia|].
    - rewrite (read_val_fit L ds HL (proj2 Hds) Hv). reflexivity.
    - right. split; [|apply Hds]. eapply after_numeral; eassumption.
  Qed.

  Definition good_its (its : list (list byte * list byte)) : Prop :=
    Forall (fun p => fst p <> [] /\ Forall (fun c => is_digit c = false) (fst p)) its /\
    Forall (fun p => digits (snd p) /\ dval (snd p) <= imax L)%Z its.

  Lemma tset_labels_at its : forall d i c s,
    has m d (its_text its ++ c :: s) -> is_digit c = false -> d + length (its_text its) < e ->
    match its with [] => True | p :: its' => Forall (fun c => is_digit c = false) (fst p) /\ digits (snd p) /\ (dval (snd p) <= imax L)%Z /\ good_its its' end ->
    tset_labels (W:=W) L m e (length its) d i = Ok (d + length (its_text its), setCs i (map (fun p => dval (snd p)) its), true).
  Proof.
    induction its as [|[j ds] its IH]; intros d i c s Hh Hc He Hg; cbn [length tset_labels map setCs].
    - cbn. rewrite Nat.add_0_r. reflexivity.
    - cbn [fst snd] in Hg. destruct Hg as (Hj & Hds & Hv & Hg1 & Hg2).
      destruct (step_label d j ds its c s Hh Hc Hj Hds Hv Hg1 He) as [E Hh']. rewrite E. cbn [bind].
      rewrite its_text_cons in He |- *. cbn [fst snd] in He |- *. rewrite !app_length in *.
      destruct (Nat.leb_spec e (d + length j + length ds)); [lia|].
      rewrite (IH (d + length j + length ds) (S i) c s Hh' Hc); [|lia|].
      + cbn [bind]. rewrite !Nat.add_assoc. reflexivity.
      + destruct its as [|p its']; [exact Logic.I|]. inversion Hg1 as [|? ? [A1 A2] A3]; inversion Hg2 as [|? ? [B1 B2] B3]; subst.
        split; [exact A2|]. split; [exact B1|]. split; [exact B2|]. split; [exact A3|exact B3].
  Qed.

  Lemma tcount_labels_u its : forall d c s,
    has m d (its_text its ++ c :: s) -> is_digit c = false -> d + length (its_text its) < e ->
    match its with [] => True | p :: its' => Forall (fun c => is_digit c = false) (fst p) /\ digits (snd p) /\ (dval (snd p) <= imax L)%Z /\ good_its its' end ->
    tcount_labels (W:=W) L None m e (length its) d = Ok (d + length (its_text its), true).
  Proof.
    induction its as [|[j ds] its IH]; intros d c s Hh Hc He Hg; cbn [length tcount_labels is_some].
    - cbn. rewrite Nat.add_0_r. reflexivity.
    - cbn [fst snd] in Hg. destruct Hg as (Hj & Hds & Hv & Hg1 & Hg2).
      destruct (step_label d j ds its c s Hh Hc Hj Hds Hv Hg1 He) as [E Hh']. rewrite E. cbn [bind].
      rewrite its_text_cons in He |- *. cbn [fst snd] in He |- *. rewrite !app_length in *.
      destruct (Nat.leb_spec e (d + length j + length ds)); [lia|].
      rewrite (IH (d + length j + length ds) c s Hh' Hc); [|lia|].
      + rewrite !Nat.add_assoc. reflexivity.
      + destruct its as [|p its']; [exact Logic.I|]. inversion Hg1 as [|? ? [A1 A2] A3]; inversion Hg2 as [|? ? [B1 B2] B3]; subst.
        split; [exact A2|]. split; [exact B1|]. split; [exact B2|]. split; [exact A3|exact B3].
  Qed.

  (** Counting with weights: from inside the first label to the first digit
      after the labels. *)
  Lemma tcount_labels_w wr0 more : forall d ds a c s,
    has m d (ds ++ its_text more ++ a ++ c :: s) -> Forall (fun c => is_digit c = true) ds ->
    Forall (fun p => separator (fst p) /\ digits (snd p)) more -> separator a -> is_digit c = true ->
    d + length ds + length (its_text more) + length a < e ->
    tcount_labels (W:=W) L (Some wr0) m e (S (length more)) d = Ok (d + length ds + length (its_text more) + length a, true).
  Proof.
    induction more as [|[j ds'] more IH]; intros d ds a c s Hh Hds Hm Ha Hc He; cbn [length tcount_labels is_some].
    - cbn [its_text map concat app length] in *. rewrite Nat.add_0_r in *.
      rewrite (move_to_next_int_dsep m e d ds a c Hds Ha); [| |rewrite <- Nat.add_assoc, <- app_length; rewrite app_assoc in Hh; eapply load_in; exact Hh|exact Hc|exact He].
      + cbn [bind]. destruct (Nat.leb_spec e (d + length ds + length a)); [lia|]. reflexivity.
      + rewrite app_assoc in Hh. apply has_app in Hh. apply Hh.
    - inversion Hm as [|? ? [H1 H2] H3]; subst. cbn [fst snd] in H1, H2. rewrite its_text_cons in Hh, He |- *. cbn [fst snd] in Hh, He |- *. rewrite !app_length in *.
      rewrite <- !app_assoc in Hh. rewrite app_assoc in Hh. pose proof Hh as Hh0. apply has_app in Hh0 as [Hha Hhb]. rewrite app_length in Hhb.
      destruct ds' as [|c' ds'']; [destruct H2; congruence|].
      rewrite (move_to_next_int_dsep m e d ds j c' Hds H1 Hha).
      + cbn [bind]. destruct (Nat.leb_spec e (d + length ds + length j)); [cbn [length] in He; lia|].
        fold (tcount_labels (W:=W) L (Some wr0) m e).
        pose proof (IH (d + length ds + length j) (c' :: ds'') a c s) as IH'. cbn [tcount_labels is_some] in IH'. rewrite IH'.
        * f_equal. f_equal. lia.
        * rewrite <- Nat.add_assoc. exact Hhb.
        * apply H2.
        * exact H3.
        * exact Ha.
        * exact Hc.
        * lia.
      + cbn [app] in Hhb. rewrite <- Nat.add_assoc. eapply load_has; exact Hhb.
      + destruct H2 as [_ H2]. apply forall_hd in H2. exact H2.
      + cbn [length] in He; lia.
  Qed.
End Labels.

(** ** Entries *)
Section Line.
  Context {W : Type}.
  Variable L : ity.
  Hypothesis HL : is_ity L.
  Variable wr : option (wrd W).
  Variable k : nat.
  Variable m : mem.
  Variable e : nat.

  (** A line with its weight. *)
  Definition tgood (p : tline * W) : Prop :=
    (exists fin, wf_tline (is_some wr) k fin (fst p)) /\
    Forall (fun v => v <= imax L)%Z (t_labels (fst p)) /\ owok wr (t_post (fst p)) (snd p).
  Definition ptoblk (p : tline * W) : blk := toblk (fst p).

  Definition its_of (l : tline) : list (list byte * list byte) := ([], t_first l) :: t_more l.
  Lemma its_of_text l : its_text (its_of l) = labels_text l.
  Proof. unfold its_of. rewrite its_text_cons. reflexivity. Qed.
  Lemma its_of_vals l : map (fun p => dval (snd p)) (its_of l) = t_labels l.
  Proof. reflexivity. Qed.

  Lemma sep_nondigit s : separator s -> s <> [] /\ Forall (fun c => is_digit c = false) s.
  Proof. intros [H1 H2]. split; [exact H1|]. eapply Forall_impl; [|exact H2]. intros c H; apply H. Qed.

  Lemma its_of_good fin l : wf_tline (is_some wr) k fin l -> Forall (fun v => v <= imax L)%Z (t_labels l) ->
    length (its_of l) = k /\
    match its_of l with [] => True | p :: its' => Forall (fun c => is_digit c = false) (fst p) /\ digits (snd p) /\ (dval (snd p) <= imax L)%Z /\ good_its L its' end.
  Proof.
    intros (H0 & H1 & H2 & _) Hv. unfold its_of. split; [unfold t_labels in H0; cbn [length] in *; rewrite map_length in H0; exact H0|].
    cbn [fst snd]. split; [constructor|]. split; [exact H1|]. unfold t_labels in Hv. inversion Hv as [|? ? Hv1 Hv2]; subst. split; [exact Hv1|].
    rewrite Forall_map in Hv2. split.
    - eapply Forall_impl; [|exact H2]. intros p [Hs _]. apply sep_nondigit. exact Hs.
    - clear - H2 Hv2. rewrite Forall_forall in *. intros p Hp. split; [apply H2; exact Hp|apply Hv2; exact Hp].
  Qed.

  (** What follows the labels. *)
  Lemma post_front (l : tline) fin : wf_tline (is_some wr) k fin l -> exists c s, t_post l ++ ch_nl :: t_gap l = c :: s /\ is_digit c = false.
  Proof.
    intros (_ & _ & _ & [_ H] & _). destruct (t_post l) as [|c s]; [exists ch_nl, (t_gap l); split; reflexivity|].
    exists c. eexists. split; [reflexivity|exact H].
  Qed.

  Lemma next_line_blk fin d b j : wf_blk fin b -> has m d (btext b) -> ends m is_digit e (d + length (btext b)) ->
    (fin = true -> d + length (btext b) = e) -> d <= j <= d + length (b_head b) ->
    next_line m e j = Ok (d + length (btext b)).
  Proof.
    intros (_ & Hn & Hg) Hh He Hf Hj. rewrite btext_len in *. unfold btext in Hh.
    replace j with (d + (j - d)) by lia.
    apply (has_skipn _ _ (j - d)) in Hh; [|lia].
    replace (d + (length (b_head b) + 1 + length (b_gap b))) with (d + (j - d) + length (skipn (j - d) (b_head b)) + 1 + length (b_gap b)) in * by (rewrite skipn_length; lia).
    apply next_line_from with (fin := fin); auto. apply skipn_forall. exact Hn.
  Qed.

  Definition at_tline (d : nat) (p : tline * W) : Prop :=
    exists fin, wf_blk fin (ptoblk p) /\ has m d (btext (ptoblk p)) /\
      ends m is_digit e (d + length (btext (ptoblk p))) /\ (fin = true -> d + length (btext (ptoblk p)) = e).

  Lemma tentry_count_at d p : tgood p -> at_tline d p ->
    tentry_count L wr k m e d = Ok (d + length (btext (ptoblk p)), 1).
  Proof.
    intros [(fin0 & Hwf) [Hv Hw]] (fin & Hb & Hh & He & Hf). destruct p as [l w]; cbn [fst snd] in *. unfold ptoblk in *; cbn [fst] in *.
    assert (Hle : d + length (btext (toblk l)) <= e) by (destruct He as (? & _ & _ & ? & _); lia).
    pose proof (next_line_blk fin d (toblk l)) as NL. destruct (its_of_good fin0 l Hwf Hv) as [Hk Hits].
    destruct (post_front l fin0 Hwf) as (cp & sp & Ep & Hcp).
    assert (Hlen : length (btext (toblk l)) = length (labels_text l) + length (t_post l) + 1 + length (t_gap l)).
    { rewrite btext_len. cbn [b_head b_gap toblk]. rewrite app_length. lia. }
    assert (Hhd : length (b_head (toblk l)) = length (labels_text l) + length (t_post l)) by (cbn [b_head toblk]; apply app_length).
    pose proof Hh as Hh'. rewrite toblk_text in Hh'. unfold tline_text in Hh'. 
    assert (E : exists d1, tcount_labels L wr m e k d = Ok (d1, true) /\ d <= d1 <= d + length (b_head (toblk l))).
    { destruct wr as [w0|].
      - destruct Hwf as (Hk' & H1 & H2 & H3 & H4 & _). destruct (H4 eq_refl) as (a & c & b & Epost & Ha & Hc).
        exists (d + length (t_first l) + length (its_text (t_more l)) + length a). split.
        + rewrite <- Hk. unfold its_of. cbn [length].
          apply (tcount_labels_w L m e w0 (t_more l) d (t_first l) a c (b ++ ch_nl :: t_gap l)).
          * rewrite Epost in Hh'. unfold labels_text in Hh'. fold (its_text (t_more l)) in Hh'. rewrite <- !app_assoc in Hh'. cbn [app] in Hh'. exact Hh'.
          * apply H1.
          * exact H2.
          * exact Ha.
          * exact Hc.
          * rewrite Hlen in Hle. unfold labels_text in Hle. rewrite Epost, !app_length in Hle. fold (its_text (t_more l)) in Hle. cbn [length] in Hle. lia.
        + rewrite Hhd. unfold labels_text. rewrite Epost, !app_length. fold (its_text (t_more l)). cbn [length]. lia.
      - exists (d + length (its_text (its_of l))). split.
        + rewrite <- Hk. apply (tcount_labels_u L HL m e (its_of l) d cp sp).
          * rewrite its_of_text, <- Ep. exact Hh'.
          * exact Hcp.
          * rewrite its_of_text. lia.
          * exact Hits.
        + rewrite its_of_text. lia. }
    destruct E as (d1 & E1 & Hd1). unfold tentry_count. rewrite E1. cbn [bind]. rewrite (NL d1 Hb Hh He Hf Hd1). reflexivity.
  Qed.

  Definition twcode (pos : nat) (v : W) : list (tinstr W) := match wr with None => [] | Some _ => [SetTW pos v] end.

  Lemma tentry_set_at d p pos : tgood p -> at_tline d p ->
    tentry_set L wr k m e d pos = Ok (d + length (btext (ptoblk p)), pos + 1, setCs (pos * k) (t_labels (fst p)) ++ twcode pos (snd p)).
  Proof.
    intros [(fin0 & Hwf) [Hv Hw]] (fin & Hb & Hh & He & Hf). destruct p as [l w]; cbn [fst snd] in *. unfold ptoblk in *; cbn [fst] in *.
    assert (Hle : d + length (btext (toblk l)) <= e) by (destruct He as (? & _ & _ & ? & _); lia).
    pose proof (next_line_blk fin d (toblk l)) as NL. destruct (its_of_good fin0 l Hwf Hv) as [Hk Hits].
    destruct (post_front l fin0 Hwf) as (cp & sp & Ep & Hcp).
    assert (Hlen : length (btext (toblk l)) = length (labels_text l) + length (t_post l) + 1 + length (t_gap l)).
    { rewrite btext_len. cbn [b_head b_gap toblk]. rewrite app_length. lia. }
    assert (Hhd : length (b_head (toblk l)) = length (labels_text l) + length (t_post l)) by (cbn [b_head toblk]; apply app_length).
    pose proof Hh as Hh'. rewrite toblk_text in Hh'. unfold tline_text in Hh'.
    unfold tentry_set. rewrite <- Hk at 1.
    rewrite (tset_labels_at L HL m e (its_of l) d (pos * k) cp sp); [|rewrite its_of_text, <- Ep; exact Hh'|exact Hcp|rewrite its_of_text; lia|exact Hits].
    cbn [bind]. rewrite its_of_text, its_of_vals.
    assert (E : exists d2, match wr with
                | None => Ok (d + length (labels_text l), [])
                | Some w0 => '(v, d') <- w_read w0 m e (d + length (labels_text l)) ;; Ok (d', [SetTW pos v])
                end = Ok (d2, twcode pos w) /\ d <= d2 <= d + length (b_head (toblk l))).
    { unfold owok, twcode in *. destruct wr as [w0|].
      - apply has_app in Hh' as [_ Hh2].
        destruct (Hw m e (d + length (labels_text l))) as [(d' & E & Hd') _].
        + apply has_app in Hh2. apply Hh2.
        + eapply load_in; exact Hh2.
        + lia.
        + rewrite E. cbn [bind]. exists d'. split; [reflexivity|lia].
      - eexists. split; [reflexivity|lia]. }
    destruct E as (d2 & E2 & Hd2). rewrite E2. cbn [bind]. rewrite (NL d2 Hb Hh He Hf Hd2). cbn [bind]. reflexivity.
  Qed.

  (** ** Loops *)
  Definition at_tlines (d : nat) (ps : list (tline * W)) : Prop := at_blks ptoblk m e d ps.

  Lemma tcount_run ps : Forall tgood ps -> forall d ct fuel, at_tlines d ps -> length ps < fuel ->
    tcount_loop L wr k m e fuel d ct = Ok (ct + length ps).
  Proof.
    induction 1 as [|p ps Hp _ IH]; intros d ct fuel Ha Hf; (destruct fuel as [|fuel]; [cbn [length] in Hf; lia|]); cbn [tcount_loop length].
    - cbn in Ha. subst d. rewrite Nat.ltb_irrefl, Nat.add_0_r. reflexivity.
    - pose proof (at_blks_le _ _ _ _ _ Ha) as Hle. cbn [length] in Hle, Hf. destruct (Nat.ltb_spec d e); [|lia].
      destruct Ha as [Ha1 Ha2]. rewrite (tentry_count_at d p Hp Ha1). cbn [bind]. rewrite (IH _ (ct + 1) fuel Ha2) by lia. f_equal. lia.
  Qed.

  (** The stores for the lines [ps], from entry [pos] on. *)
  Fixpoint tcodes (pos : nat) (ps : list (tline * W)) : list (tinstr W) :=
    match ps with
    | [] => []
    | p :: ps' => setCs (pos * k) (t_labels (fst p)) ++ twcode pos (snd p) ++ tcodes (pos + 1) ps'
    end.

  Lemma tset_run ps : Forall tgood ps -> forall d pos fuel, at_tlines d ps -> length ps < fuel ->
    tset_loop L wr k m e fuel d pos = Ok (tcodes pos ps).
  Proof.
    induction 1 as [|p ps Hp _ IH]; intros d pos fuel Ha Hf; (destruct fuel as [|fuel]; [cbn [length] in Hf; lia|]); cbn [tset_loop tcodes].
    - cbn in Ha. subst d. rewrite Nat.ltb_irrefl. reflexivity.
    - pose proof (at_blks_le _ _ _ _ _ Ha) as Hle. cbn [length] in Hle, Hf. destruct (Nat.ltb_spec d e); [|lia].
      destruct Ha as [Ha1 Ha2]. rewrite (tentry_set_at d p pos Hp Ha1). cbn [bind]. rewrite (IH _ (pos + 1) fuel Ha2) by lia. cbn [bind].
      rewrite <- app_assoc. reflexivity.
  Qed.

  Lemma tcodes_app a : forall pos b, tcodes pos (a ++ b) = tcodes pos a ++ tcodes (pos + length a) b.
  Proof.
    induction a as [|p a IH]; intros pos b; cbn [app tcodes length]; [rewrite Nat.add_0_r; reflexivity|].
    rewrite IH, <- !app_assoc. replace (pos + 1 + length a) with (pos + S (length a)) by lia. reflexivity.
  Qed.
End Line.

(** ** Execution *)
Definition tin (k lo hi : nat) {W} (i : tinstr W) : Prop :=
  match i with SetC i _ => lo * k <= i < hi * k | SetTW i _ => lo <= i < hi end.

Lemma tcomm k lo1 hi1 lo2 hi2 {W} (i j : tinstr W) : tin k lo1 hi1 i -> tin k lo2 hi2 j -> hi1 <= lo2 -> comm texec i j.
Proof.
  intros Hi Hj Hd s. destruct s as [C Wt].
  assert (hi1 * k <= lo2 * k) by nia.
  destruct i as [a u|a u], j as [b v|b v]; cbn [tin] in *; unfold texec, aset; cbn [bind tc tw];
  repeat (match goal with |- context [if ?x <? ?y then _ else _] => destruct (x <? y) eqn:? end; cbn [bind tc tw]; rewrite ?upd_length in *);
  try congruence; try reflexivity;
  f_equal; f_equal; apply upd_comm; lia.
Qed.

Lemma setCs_in k lo hi {W} vs : forall i, lo * k <= i -> i + length vs <= hi * k -> Forall (tin (W:=W) k lo hi) (setCs i vs).
Proof.
  induction vs as [|v vs IH]; intros i H1 H2; cbn [setCs length] in *; constructor.
  - cbn. lia.
  - apply IH; lia.
Qed.

Lemma tcodes_in {W} (wr : option (wrd W)) k ps : Forall (fun p => length (t_labels (fst p)) = k) ps -> forall lo hi pos,
  lo <= pos -> pos + length ps <= hi -> Forall (tin k lo hi) (tcodes wr k pos ps).
Proof.
  induction 1 as [|p ps Hp _ IH]; intros lo hi pos H1 H2; cbn [tcodes length] in *; [constructor|].
  apply Forall_app; split; [apply setCs_in; nia|]. apply Forall_app; split; [|apply IH; lia].
  unfold twcode. destruct wr; constructor; [cbn; lia|constructor].
Qed.

Lemma exec_setCs {W} (Wt : list (option W)) vs : forall (a : list Z) r,
  length vs <= length r ->
  exec_all texec (setCs (length a) vs) (mkTst (map Some a ++ r) Wt) = Ok (mkTst (map Some (a ++ vs) ++ skipn (length vs) r) Wt).
Proof.
  induction vs as [|v vs IH]; intros a r Hr; cbn [setCs exec_all].
  - cbn. rewrite app_nil_r. reflexivity.
  - destruct r as [|c r]; [cbn [length] in Hr; lia|]. cbn [length] in Hr.
    cbn [texec tc tw]. rewrite aset_mapped by reflexivity. cbn [bind].
    replace (map Some a ++ Some v :: r) with (map Some (a ++ [v]) ++ r) by (rewrite map_app, <- app_assoc; reflexivity).
    replace (S (length a)) with (length (a ++ [v])) by (rewrite app_length; cbn; lia).
    rewrite IH by lia. rewrite <- app_assoc. reflexivity.
Qed.

Lemma exec_tcodes {W} (wr : option (wrd W)) k ps : Forall (fun p => length (t_labels (fst p)) = k) ps ->
  forall (done : list (tline * W)) rc rw,
  Forall (fun p => length (t_labels (fst p)) = k) done ->
  length rc = length ps * k -> length rw = (if is_some wr then length ps else 0) ->
  exec_all texec (tcodes wr k (length done) ps)
    (mkTst (map Some (concat (map (fun p => t_labels (fst p)) done)) ++ rc) ((if is_some wr then map (fun p => Some (snd p)) done else []) ++ rw)) =
  Ok (mkTst (map Some (concat (map (fun p => t_labels (fst p)) (done ++ ps)))) (if is_some wr then map (fun p => Some (snd p)) (done ++ ps) else [])).
Proof.
  induction 1 as [|p ps Hp _ IH]; intros done rc rw Hd Hrc Hrw; cbn [tcodes length] in *.
  - destruct rc; [|discriminate]. assert (rw = []) as -> by (destruct rw; [reflexivity|destruct wr; discriminate]).
    cbn [exec_all]. rewrite !app_nil_r. reflexivity.
  - assert (Ecl : length (concat (map (fun p => t_labels (fst p)) done)) = length done * k).
    { clear - Hd. induction Hd as [|q done Hq _ IHd]; [reflexivity|]. cbn [map concat length]. rewrite app_length, IHd, Hq. lia. }
    rewrite exec_all_app. rewrite <- Ecl, exec_setCs by (rewrite Hrc, Hp; lia). cbn [bind].
    rewrite exec_all_app.
    assert (E : exists rw', exec_all texec (twcode wr (length done) (snd p))
       (mkTst (map Some (concat (map (fun p => t_labels (fst p)) done) ++ t_labels (fst p)) ++ skipn (length (t_labels (fst p))) rc)
              ((if is_some wr then map (fun p => Some (snd p)) done else []) ++ rw)) =
       Ok (mkTst (map Some (concat (map (fun p => t_labels (fst p)) (done ++ [p]))) ++ skipn (length (t_labels (fst p))) rc)
              ((if is_some wr then map (fun p => Some (snd p)) (done ++ [p]) else []) ++ rw')) /\ length rw' = (if is_some wr then length ps else 0)).
    { rewrite (map_app (fun p => t_labels (fst p)) done [p]), concat_app. cbn [map concat]. rewrite (app_nil_r (t_labels (fst p))). unfold twcode. destruct wr as [w0|]; cbn [is_some] in *.
      - destruct rw as [|c rw]; [discriminate|]. exists rw. cbn [length] in Hrw. split; [|lia].
        cbn [exec_all texec tc tw]. rewrite (aset_mapped done rw (fun p => Some (snd p)) (snd p) c (length done) eq_refl). cbn [bind].
        rewrite (map_app (fun p => Some (snd p))), <- app_assoc. reflexivity.
      - exists rw. split; [reflexivity|exact Hrw]. }
    destruct E as (rw' & E & Hrw'). rewrite E. cbn [bind].
    replace (length done + 1) with (length (done ++ [p])) by (rewrite app_length; reflexivity).
    rewrite IH.
    + rewrite <- !app_assoc. reflexivity.
    + apply Forall_app; split; [exact Hd|constructor; [exact Hp|constructor]].
    + rewrite skipn_length, Hrc, Hp. lia.
    + exact Hrw'.
Qed.
