(** * TensorMain: the parallel tensor reader on well-formed text *)

From Verif Require Import Base Reader Sched SchedLemmas Spec SpecTensor ReaderLemmas Coo CooLemmas CooSplit CooMain CooExec Blocks Csr Codec Bin Load Tensor TensorLemmas RaceIO.

(** ** The order *)
Lemma skip_spaces_to m sp : forall d fuel c, has m d sp -> Forall (fun c => c = ch_space) sp -> load m (d + length sp) = Ok c -> c <> ch_space -> length sp < fuel ->
  skip_spaces_ m fuel d = Ok (d + length sp).
Proof.
  induction sp as [|x sp IH]; intros d fuel c Hh Hs Hl Hc Hf; (destruct fuel as [|fuel]; [cbn [length] in Hf; lia|]); cbn [skip_spaces_ length] in *.
  - rewrite Nat.add_0_r in *. rewrite Hl. cbn [bind]. destruct (Z.eqb_spec c ch_sp); [elim Hc; assumption|]. reflexivity.
  - inversion Hs as [|? ? Hx Hs']; subst. rewrite (load_has _ _ _ _ Hh). cbn [bind].
    change (ch_space =? ch_sp)%Z with true. cbv iota. destruct Hh as [_ Hh].
    rewrite (IH (S d) fuel c Hh Hs'); [f_equal; lia| |exact Hc|lia].
    replace (S d + length sp) with (d + S (length sp)) by lia. exact Hl.
Qed.

Lemma split_spaces j : exists sp r, j = sp ++ r /\ Forall (fun c => c = ch_space) sp /\ match r with [] => True | c :: _ => c <> ch_space end.
Proof.
  induction j as [|c j IH]; [exists [], []; repeat constructor|].
  destruct (Z.eqb_spec c ch_space) as [E|E].
  - destruct IH as (sp & r & -> & H1 & H2). exists (c :: sp), r. split; [reflexivity|]. split; [constructor; assumption|exact H2].
  - exists [], (c :: j). split; [reflexivity|]. split; [constructor|exact E].
Qed.

Definition numeric (s : list byte) : Prop :=
  exists c run, s = c :: run /\ is_digit c = true /\ Forall (fun b => is_digit b = true \/ b = ch_dot) run.
Definition witem (p : list byte * list byte) : Prop := Forall sep_char (fst p) /\ numeric (snd p).

Lemma space_facts c : c = ch_space -> is_digit c = false /\ is_nl c = false /\ is_cmt c = false /\ c <> ch_dot.
Proof. intros ->. repeat split; discriminate. Qed.

(** The words [its] on a line that ends in [sp ++ t], [t] empty or a comment. *)
Lemma count_spaces_at m e : forall n its, length its = n -> its <> [] -> forall d ct fuel sp t s,
  has m d (its_text its ++ sp ++ t ++ ch_nl :: s) ->
  Forall witem its -> Forall (fun p => spacing (fst p)) (tl its) ->
  Forall (fun c => c = ch_space) sp -> Forall (fun c => is_nl c = false) t -> match t with [] => True | c :: _ => is_cmt c = true end ->
  d + length (its_text its) + length sp + length t < e -> e <= map_len m -> length its <= fuel ->
  exists d', count_spaces_ m e fuel d ct = Ok (ct + (length its - 1), d').
Proof.
  induction n as [|n IH]; intros its0 Hn Hne d ct fuel sp t s Hh Hw Hspc Hsp Htn Ht He Hlen Hf; [destruct its0; [congruence|discriminate]|].
  destruct its0 as [|[j ds] its]; [congruence|]. cbn [length] in Hn. injection Hn as Hn.
  destruct fuel as [|fuel]; [cbn [length] in Hf; lia|].
  inversion Hw as [|? ? [Hj (c & run & Eds & Hc & Hrun)] Hw']; subst. cbn [fst snd] in *. subst ds. cbn [tl] in Hspc.
  rewrite its_text_cons in Hh, He. cbn [fst snd] in Hh, He. rewrite !app_length in He. rewrite <- !app_assoc in Hh. cbn [length] in He.
  cbn [count_spaces_]. destruct (Nat.ltb_spec d e); [|lia].
  pose proof Hh as Hh0. apply has_app in Hh0 as [Hhj Hh1].
  assert (Hd0 : exists c0, load m d = Ok c0 /\ is_nl c0 = false).
  { destruct j as [|c0 j].
    - exists c. cbn [app] in Hh. split; [eapply load_has; exact Hh|apply digit_not_nl; exact Hc].
    - exists c0. split; [eapply load_has; exact Hhj|]. apply forall_hd in Hj. apply Hj. }
  destruct Hd0 as (c0 & El0 & Hnl0). rewrite El0. cbn [bind]. rewrite Hnl0.
  rewrite (scan_to m _ e d j Hhj).
  2:{ eapply Forall_impl; [|exact Hj]. intros b (B1 & B2 & B3). rewrite B1, B2, B3. reflexivity. }
  2:{ lia. }
  2:{ right. exists c. split; [cbn [app] in Hh1; eapply load_has; exact Hh1|]. rewrite Hc, !andb_false_r. reflexivity. }
  cbn [bind]. cbn [app] in Hh1. rewrite (load_has _ _ _ _ Hh1). cbn [bind]. rewrite Hc. cbn [negb].
  change (c :: run ++ its_text its ++ sp ++ t ++ ch_nl :: s) with ((c :: run) ++ its_text its ++ sp ++ t ++ ch_nl :: s) in Hh1.
  apply has_app in Hh1 as [Hhr Hh2].
  set (d2 := d + length j + length (c :: run)) in *.
  assert (Hd2 : d2 = d + length j + S (length run)) by reflexivity.
  (* the character after the word *)
  assert (Hc2 : exists c2, load m d2 = Ok c2 /\ is_digit c2 = false /\ c2 <> ch_dot).
  { destruct its as [|[j2 ds2] its].
    - cbn [its_text map concat app] in Hh2. destruct sp as [|x sp]; [destruct t as [|x t]|].
      + cbn [app] in Hh2. exists ch_nl. split; [eapply load_has; exact Hh2|]. split; [reflexivity|discriminate].
      + cbn [app] in Hh2. exists x. split; [eapply load_has; exact Hh2|]. unfold is_cmt, is_digit, ch_pct, ch_hash, ch_0, ch_9, ch_dot in *. lia.
      + cbn [app] in Hh2. exists x. split; [eapply load_has; exact Hh2|]. apply forall_hd in Hsp. apply space_facts in Hsp. tauto.
    - rewrite its_text_cons in Hh2. cbn [fst snd] in Hh2. apply forall_hd in Hspc. destruct Hspc as [[N F] D]. cbn [fst] in N, F, D.
      destruct j2 as [|x j2]; [congruence|]. rewrite <- !app_assoc in Hh2. cbn [app] in Hh2. exists x. split; [eapply load_has; exact Hh2|].
      apply forall_hd in F. split; [apply F|exact D]. }
  destruct Hc2 as (c2 & El2 & Hc2d & Hc2p).
  rewrite (scan_to m _ e (d + length j) (c :: run) Hhr).
  2:{ constructor; [rewrite Hc; reflexivity|]. eapply Forall_impl; [|exact Hrun]. intros b [B|B]; [rewrite B; reflexivity|subst b; reflexivity]. }
  2:{ cbn [length]; lia. }
  2:{ right. exists c2. fold d2. split; [exact El2|]. rewrite Hc2d. destruct (Z.eqb_spec c2 ch_dot); [congruence|reflexivity]. }
  cbn [bind]. fold d2. rewrite El2. cbn [bind].
  destruct its as [|[j2 ds2] its].
  - (* the last word *)
    cbn [its_text map concat app length] in Hh2, He, Hf |- *.
    pose proof Hh2 as Hh3. apply has_app in Hh3 as [Hhsp Hh3]. pose proof Hh3 as Hh4. apply has_app in Hh4 as [Hht Hh4].
    assert (Hend : load m (d2 + length sp + length t) = Ok ch_nl) by (eapply load_has; exact Hh4).
    assert (Hfin : forall q, q = d2 + length sp -> is_cmt match t with [] => ch_nl | x :: _ => x end = true -> exists d', move_to_eol m e q = Ok d').
    { intros q -> _. eexists. apply (move_to_eol_to m e (d2 + length sp) t Htn Hht Hend). lia. }
    destruct sp as [|x sp].
    + cbn [app length] in *. rewrite Nat.add_0_r in *. destruct t as [|y t].
      * cbn [app length] in *. rewrite Nat.add_0_r in Hend. assert (c2 = ch_nl) by congruence. subst c2. change (is_nl ch_nl) with true. cbn [bind]. eexists. cbn [length]; replace (ct + (1 - 1)) with ct by lia; reflexivity.
      * assert (c2 = y). { cbn [app] in Hh2. pose proof (load_has _ _ _ _ Hh2). congruence. } subst c2.
        rewrite (cmt_not_nl y Ht), Ht. destruct (Hfin d2 eq_refl Ht) as [d' E]. rewrite E. cbn [bind]. eexists. cbn [length]; replace (ct + (1 - 1)) with ct by lia; reflexivity.
    + assert (c2 = ch_space). { pose proof (load_has _ _ _ _ Hhsp). apply forall_hd in Hsp. congruence. } subst c2.
      change (is_nl ch_space) with false. change (is_cmt ch_space) with false. cbv iota.
      assert (Hc3 : exists c3, load m (d2 + length (x :: sp)) = Ok c3 /\ c3 <> ch_space /\ (t = [] /\ c3 = ch_nl \/ is_cmt c3 = true)).
      { destruct t as [|y t].
        - rewrite Nat.add_0_r in Hend. exists ch_nl. split; [exact Hend|]. split; [discriminate|left; split; reflexivity].
        - exists y. cbn [app] in Hh3. split; [eapply load_has; exact Hh3|]. split; [|right; exact Ht]. intros ->. discriminate Ht. }
      destruct Hc3 as (c3 & El3 & Hc3 & Hor).
      rewrite (skip_spaces_to m (x :: sp) d2 _ c3 Hhsp Hsp El3 Hc3) by lia.
      cbn [bind]. rewrite El3. cbn [bind]. destruct Hor as [[-> ->]|Hor].
      * change (is_nl ch_nl) with true. cbn [bind]. eexists. cbn [length]; replace (ct + (1 - 1)) with ct by lia; reflexivity.
      * rewrite (cmt_not_nl c3 Hor), Hor. destruct t as [|y t]; [exfalso; rewrite Nat.add_0_r in Hend; assert (c3 = ch_nl) by congruence; subst; discriminate|].
        destruct (Hfin _ eq_refl Ht) as [d' E]. rewrite E. cbn [bind]. eexists. cbn [length]; replace (ct + (1 - 1)) with ct by lia; reflexivity.
  - (* a word follows *)
    pose proof (forall_hd _ _ _ Hspc) as [[Nj2 Fj2] Dj2]. cbn [fst] in Nj2, Fj2, Dj2.
    destruct (split_spaces j2) as (sp2 & r2 & Ej2 & Hsp2 & Hr2). subst j2.
    rewrite its_text_cons in Hh2, He. cbn [fst snd] in Hh2, He. rewrite !app_length in He. rewrite <- !app_assoc in Hh2.
    assert (Hc2f : is_nl c2 = false /\ is_cmt c2 = false).
    { destruct (sp2 ++ r2) as [|x q] eqn:Eq; [congruence|]. rewrite app_assoc, Eq in Hh2. cbn [app] in Hh2.
      pose proof (load_has _ _ _ _ Hh2). assert (c2 = x) by congruence. subst c2. apply forall_hd in Fj2. split; apply Fj2. }
    destruct Hc2f as [-> ->].
    inversion Hw' as [|? ? [Hj2 Hn2] Hw2]; subst. cbn [fst snd] in Hj2, Hn2. destruct Hn2 as (c' & run' & -> & Hc' & Hrun').
    pose proof Hh2 as Hh3. apply has_app in Hh3 as [Hhsp Hh3].
    assert (Hc3 : exists c3, load m (d2 + length sp2) = Ok c3 /\ c3 <> ch_space /\ is_nl c3 = false /\ is_cmt c3 = false).
    { destruct r2 as [|x r2].
      - cbn [app] in Hh3. exists c'. split; [eapply load_has; exact Hh3|]. split; [intros ->; discriminate Hc'|]. split; [apply digit_not_nl|apply digit_not_cmt]; exact Hc'.
      - cbn [app] in Hh3. exists x. split; [eapply load_has; exact Hh3|]. split; [exact Hr2|]. apply Forall_app in Fj2 as [_ F]. apply forall_hd in F. split; apply F. }
    destruct Hc3 as (c3 & El3 & Hc3 & Hc3n & Hc3c).
    rewrite (skip_spaces_to m sp2 d2 _ c3 Hhsp Hsp2 El3 Hc3) by lia.
    cbn [bind]. rewrite El3. cbn [bind]. rewrite Hc3n, Hc3c.
    destruct (IH ((r2, c' :: run') :: its) eq_refl ltac:(discriminate)) with (d := d2 + length sp2) (ct := S ct) (fuel := fuel) (sp := sp) (t := t) (s := s) as [d' E].
    + rewrite its_text_cons. cbn [fst snd]. rewrite <- !app_assoc. exact Hh3.
    + constructor; [|exact Hw2]. split; [cbn [fst]; apply Forall_app in Fj2; apply Fj2|]. cbn [snd]. exists c', run'. auto.
    + cbn [tl]. inversion Hspc; assumption.
    + exact Hsp.
    + exact Htn.
    + exact Ht.
    + rewrite its_text_cons. cbn [fst snd]. rewrite !app_length. lia.
    + exact Hlen.
    + cbn [length] in *. lia.
    + exists d'. rewrite E. do 2 f_equal. cbn [length]. lia.
Qed.

(** ** The stores and their execution *)
Lemma read_el_progs {W} L O (wr : option (wrd W)) m d0 e T sched :
  tensor_read_el L O wr m d0 e T sched =
  ('(order, m_, s, ps) <- tensor_progs L O wr m d0 e T ;;
   st <- run texec sched ps s ;; Ok (mkTensor (tc st) (tw st) order m_)).
Proof.
  unfold tensor_read_el, tensor_progs. destruct (tensor_order O (is_some wr) m d0 e); cbn [bind]; try reflexivity.
  destruct (mapM _ (seq 0 T)); cbn [bind]; try reflexivity. destruct (mapM _ _); cbn [bind]; try reflexivity.
  destruct (tensor_alloc _ _ _ _) as [[c0 w0]| | |]; cbn [bind]; try reflexivity. destruct (mapM _ _); reflexivity.
Qed.

(** ** The reader *)
Section Main.
  Context {W : Type}.
  Variables L O : ity.
  Hypothesis HL : is_ity L.
  Hypothesis HO : is_ity O.
  Variable wr : option (wrd W).
  Variable k : nat.
  Variable f : tns_file.
  Variable ws : list W.
  Variable m : mem.
  Hypothesis Hm : bytes m = tns_text f.
  Hypothesis Hslack : slack m.
  Hypothesis Hwf : wf_tns (is_some wr) k f.
  Hypothesis Hlen : length ws = length (tn_lines f).
  Hypothesis Hfit : Forall (fun v => v <= imax L)%Z (tns_labels f).
  Hypothesis Hwok : Forall2 (owok wr) (map t_post (tn_lines f)) ws.
  Variable T : nat.
  Hypothesis HT : 1 <= T.

  Let e := flen m.
  Let ps := combine (tn_lines f) ws.

  Lemma tps_fst : map fst ps = tn_lines f.
  Proof.
    unfold ps. clear - Hlen. revert ws Hlen. induction (tn_lines f) as [|l ls IH]; intros [|w v] H; cbn in *; try lia; [reflexivity|]. f_equal. apply IH. lia.
  Qed.
  Lemma tps_snd : map snd ps = ws.
  Proof.
    unfold ps. clear - Hlen. revert ws Hlen. induction (tn_lines f) as [|l ls IH]; intros [|w v] H; cbn in *; try lia; [reflexivity|]. f_equal. apply IH. lia.
  Qed.
  Lemma tps_len : length ps = length (tn_lines f).
  Proof. rewrite <- tps_fst, map_length. reflexivity. Qed.

  Lemma tps_blks : map ptoblk ps = map toblk (tn_lines f).
  Proof. rewrite <- tps_fst, map_map. reflexivity. Qed.
  Lemma tps_text : bstext (map ptoblk ps) = concat (map tline_text (tn_lines f)).
  Proof. rewrite tps_blks. unfold bstext. rewrite map_map. f_equal. apply map_ext. apply toblk_text. Qed.
  Lemma t_has : has m 0 (tn_head f ++ bstext (map ptoblk ps)).
  Proof. rewrite tps_text. fold (tns_text f). rewrite <- Hm. apply has_all. Qed.
  Lemma t_end : 0 + length (tn_head f ++ bstext (map ptoblk ps)) = flen m.
  Proof. rewrite tps_text. fold (tns_text f). rewrite <- Hm. reflexivity. Qed.
  Lemma t_gapp : gap (isnil (map ptoblk ps)) (tn_head f).
  Proof. rewrite tps_blks. destruct Hwf as (Hn & Hg & _). destruct (tn_lines f); [congruence|exact Hg]. Qed.
  Lemma t_wfb : wf_blks (map ptoblk ps).
  Proof. rewrite tps_blks. eapply wf_toblks. apply Hwf. Qed.

  Lemma t_good : Forall (tgood L wr k) ps.
  Proof.
    destruct Hwf as (_ & _ & Hw). apply wf_tlines_all in Hw. unfold tns_labels in Hfit.
    assert (Hf : Forall (fun l => Forall (fun v => v <= imax L)%Z (t_labels l)) (tn_lines f)).
    { clear - Hfit. induction (tn_lines f) as [|l ls IH]; constructor; cbn [map concat] in Hfit; apply Forall_app in Hfit; [apply Hfit|apply IH, Hfit]. }
    unfold ps. clear - Hw Hf Hwok Hlen. revert ws Hwok Hlen. induction (tn_lines f) as [|l ls IH]; intros ws Hwok Hlen; [constructor|].
    destruct ws as [|w v]; [constructor|]. cbn [combine map] in *. inversion Hw; inversion Hf; inversion Hwok; subst. constructor.
    - split; [assumption|]. split; assumption.
    - apply IH; auto.
  Qed.
  Lemma t_lens : Forall (fun p => length (t_labels (fst p)) = k) ps.
  Proof. eapply Forall_impl; [|exact t_good]. intros p ((fin & H) & _). apply H. Qed.

  (** The order of a file whose first line is plain. *)
  Hypothesis Hplain : plain_first (is_some wr) f.
  Hypothesis Hk : (Z.of_nat k <= imax O)%Z.

  Lemma order_ok : tensor_order O (is_some wr) m 0 e = Ok (Z.of_nat k).
  Proof.
    destruct Hwf as (Hn & Hg & Hw). pose proof t_has as Hh. rewrite tps_text in Hh. pose proof t_end as He. rewrite tps_text in He. fold e in He. cbn [plus] in He.
    unfold plain_first in Hplain. destruct (tn_lines f) as [|l ls] eqn:El; [congruence|]. clear Hn. cbn [map concat] in Hh, He.
    apply wf_tlines_cons in Hw as [Hl _]. destruct Hl as (Hlab & H1 & H2 & [H3 H3'] & _ & H5). destruct Hplain as [Hsp Hpost].
    apply has_app in Hh as [Hhg Hh]. rewrite !app_length in He.
    assert (Hmap : e <= map_len m) by (unfold e; unfold slack in Hslack; lia).
    unfold tensor_order.
    assert (Hd : exists c s, t_first l = c :: s /\ is_digit c = true).
    { destruct H1 as [N D]. destruct (t_first l) as [|c s]; [congruence|]. exists c, s. split; [reflexivity|]. apply forall_hd in D. exact D. }
    destruct Hd as (c & s & Ec & Hc).
    rewrite (move_to_first_int_gap m false e 0 (tn_head f) Hg Hhg).
    2:{ exists c. split; [|split; [apply digit_not_cmt; exact Hc|split; [lia|intros _; exact Hc]]].
        unfold tline_text, labels_text in Hh. rewrite Ec in Hh. cbn [app] in Hh. eapply load_has; exact Hh. }
    2:{ discriminate. }
    cbn [plus bind]. cbn [plus] in Hh.
    (* the words of the line *)
    assert (HW : exists its sp t, its_text its ++ sp ++ t = labels_text l ++ t_post l /\ length its = k + (if is_some wr then 1 else 0) /\ its <> [] /\
      Forall witem its /\ Forall (fun p => spacing (fst p)) (tl its) /\ Forall (fun c => c = ch_space) sp /\ Forall (fun c => is_nl c = false) t /\
      match t with [] => True | c :: _ => is_cmt c = true end).
    { assert (Hits : Forall witem (its_of l)).
      { constructor.
        - split; [constructor|]. cbn [snd]. exists c, s. split; [exact Ec|]. split; [exact Hc|]. destruct H1 as [_ D]. rewrite Ec in D. inversion D; subst. eapply Forall_impl; [|eassumption]. auto.
        - eapply Forall_impl; [|exact H2]. intros p [[_ P1] [P2 P3]]. split; [exact P1|]. destruct (snd p) as [|c' s']; [congruence|]. exists c', s'. split; [reflexivity|].
          inversion P3; subst. split; [assumption|]. eapply Forall_impl; [|eassumption]. auto. }
      assert (Hlk : length (its_of l) = k). { unfold its_of, t_labels in *. cbn [length] in *. rewrite map_length in Hlab. exact Hlab. }
      assert (Htail : forall q t0, Forall (fun c => is_nl c = false) (q ++ t0) -> plain_tail t0 -> exists sp t, t0 = sp ++ t /\ Forall (fun c => c = ch_space) sp /\ Forall (fun c => is_nl c = false) t /\
         match t with [] => True | c :: _ => is_cmt c = true end).
      { intros q t0 Hq (sp & t & -> & Q1 & Q2). exists sp, t. split; [reflexivity|]. split; [exact Q1|]. split; [|exact Q2].
        apply Forall_app in Hq as [_ Hq]. apply Forall_app in Hq. apply Hq. }
      destruct (is_some wr) eqn:Ew.
      - destruct Hpost as (a & c1 & run & t0 & Ep & Ha & Hc1 & Hrun & Ht).
        destruct (Htail (a ++ c1 :: run) t0) as (sp & t & Et & Q1 & Q2 & Q3); [rewrite <- app_assoc; cbn [app]; rewrite <- Ep; exact H3|exact Ht|].
        exists (its_of l ++ [(a, c1 :: run)]), sp, t. split.
        { unfold its_text. rewrite map_app, concat_app. fold (its_text (its_of l)). rewrite its_of_text, Ep, Et. cbn [map concat fst snd]. rewrite app_nil_r, <- !app_assoc. reflexivity. }
        split; [rewrite app_length, Hlk; reflexivity|]. split; [unfold its_of; discriminate|].
        split; [apply Forall_app; split; [exact Hits|constructor; [|constructor]]; split; [apply Ha|]; exists c1, run; auto|].
        split; [cbn [its_of app tl]; apply Forall_app; split; [exact Hsp|constructor; [exact Ha|constructor]]|]. auto.
      - destruct (Htail [] (t_post l) H3 Hpost) as (sp & t & Et & Q1 & Q2 & Q3).
        exists (its_of l), sp, t. rewrite its_of_text, Et. split; [reflexivity|]. split; [lia|]. split; [discriminate|]. split; [exact Hits|]. split; [exact Hsp|]. auto. }
    destruct HW as (its & sp & t & Etext & Hl & Hne & HW1 & HW2 & HW3 & HW4 & HW5).
    assert (Hlen2 : length (tline_text l) = length (its_text its) + length sp + length t + 1 + length (t_gap l)).
    { unfold tline_text. rewrite app_assoc, <- Etext, !app_length. cbn [length]. lia. }
    assert (Hits_le : length its <= length (its_text its)).
    { clear - HW1. induction HW1 as [|p its [_ (c & r & E & _)] _ IH]; [cbn; lia|]. rewrite its_text_cons, E, !app_length. cbn [length]. lia. }
    unfold count_spaces_to_eol.
    destruct (count_spaces_at m e (length its) its eq_refl Hne (length (tn_head f)) 0 (S (e - length (tn_head f))) sp t (t_gap l ++ concat (map tline_text ls))) as [d' E]; auto.
    - unfold tline_text in Hh. repeat rewrite <- app_assoc in Hh. rewrite (app_assoc (labels_text l)), <- Etext in Hh. repeat rewrite <- app_assoc in Hh. cbn [app] in Hh. exact Hh.
    - lia.
    - lia.
    - rewrite E. cbn [bind plus]. pose proof (ity_facts O HO) as (HO1 & HO2 & _).
      destruct (is_some wr).
      + rewrite wrap_in by (auto; lia). f_equal. lia.
      + assert (1 <= k). { rewrite <- Hlab. unfold t_labels. cbn [length]. lia. }
        rewrite wrap_in by (auto; lia). rewrite arith_in by (auto; lia). f_equal. lia.
  Qed.

  Hypothesis Hm_fit : (Z.of_nat (length (tn_lines f)) <= imax O)%Z.
  Hypothesis Hmul : omul O (Z.of_nat k) (Z.of_nat (length (tn_lines f))) = Ok (Z.of_nat (k * length (tn_lines f))).

  Let K t := bK ptoblk (tn_head f) ps T t.
  Let offs i := boffs ptoblk 0 (tn_head f) ps i.
  Let chunk t := bchunk ptoblk (tn_head f) ps T t.

  Lemma chunk_good t : Forall (tgood L wr k) (chunk t).
  Proof.
    unfold chunk, bchunk, slice. apply Forall_forall. intros p Hp. pose proof t_good as G. rewrite Forall_forall in G. apply G.
    rewrite <- (firstn_skipn (bK ptoblk (tn_head f) ps T t) ps). apply in_or_app; right.
    rewrite <- (firstn_skipn (bK ptoblk (tn_head f) ps T (S t) - bK ptoblk (tn_head f) ps T t) (skipn _ ps)). apply in_or_app; left; exact Hp.
  Qed.

  Lemma K_S t : t < T -> K (S t) = K t + length (chunk t).
  Proof. intros Ht. apply (bchunk_len ptoblk m 0 (tn_head f) ps t_end T HT t Ht). Qed.

  Definition tprogs : list (list (tinstr W)) := map (fun t => tcodes wr k (K t) (chunk t)) (seq 0 T).
  Lemma tprogs_in t : t < T -> Forall (tin k (K t) (K (S t))) (tcodes wr k (K t) (chunk t)).
  Proof.
    intros Ht. apply tcodes_in; [eapply Forall_impl; [|apply (chunk_good t)]; intros p ((fin & H') & _); apply H'|lia|].
    rewrite (K_S t Ht). lia.
  Qed.
  Lemma tprogs_apart i j : i < j -> j < T -> K (S i) <= K j.
  Proof. intros Hi Hj. apply (bK_mono2 ptoblk m 0 (tn_head f) ps t_end T HT); lia. Qed.

  Lemma tensor_progs_ok :
    tensor_progs L O wr m 0 e T =
    Ok (Z.of_nat k, Z.of_nat (length (tn_lines f)),
        mkTst (fresh (k * length (tn_lines f))) (if is_some wr then fresh (length (tn_lines f)) else []), tprogs).
  Proof.
    unfold tensor_progs. rewrite order_ok. cbn [bind]. rewrite Nat2Z.id.
    rewrite (mapM_ok _ (fun t => (offs (K t), offs (K (S t))))).
    2:{ intros t Ht. apply in_seq in Ht. apply (bchunk_at ptoblk m Hslack 0 (tn_head f) ps t_has t_end t_gapp t_wfb T HT). lia. }
    cbn [bind]. rewrite mapM_map. cbn [fst snd].
    assert (Hat : forall t, t < T -> at_tlines m (offs (K (S t))) (offs (K t)) (chunk t)).
    { intros t Ht. apply (at_bchunk ptoblk m Hslack 0 (tn_head f) ps t_has t_end t_wfb T HT t Ht). }
    rewrite (mapM_ok _ (fun t => length (chunk t))).
    2:{ intros t Ht. apply in_seq in Ht. pose proof (Hat t ltac:(lia)) as Ha. pose proof (at_blks_le _ _ _ _ _ Ha).
        rewrite (tcount_run L HL wr k m _ (chunk t) (chunk_good t) _ 0 _ Ha) by lia. reflexivity. }
    cbn [bind].
    assert (Esum : sum_nat (map (fun t => length (chunk t)) (seq 0 T)) = length (tn_lines f)).
    { pose proof (sum_nat_seq K (fun t => length (chunk t)) T 0) as H. cbn [plus] in H.
      assert (K0 : K 0 = 0) by reflexivity. rewrite K0 in H. cbn [plus] in H. rewrite H by (intros t Ht; apply K_S; lia).
      unfold K. rewrite (bK_T ptoblk m 0 (tn_head f) ps t_end T HT). apply tps_len. }
    rewrite Esum. pose proof (ity_facts O HO) as (HO1 & HO2 & _). rewrite wrap_in by (auto; lia).
    unfold tensor_alloc. rewrite Hmul. cbn [bind]. unfold alloc.
    destruct (Z.ltb_spec (Z.of_nat (k * length (tn_lines f))) 0); [lia|]. cbn [bind].
    destruct (Z.ltb_spec (Z.of_nat (length (tn_lines f))) 0); [lia|]. rewrite !Nat2Z.id.
    assert (Eps : prefix_sums 0 (map (fun t => length (chunk t)) (seq 0 T)) = map K (seq 0 T)).
    { apply (prefix_sums_seq K (fun t => length (chunk t)) T 0). intros t Ht. apply K_S. lia. }
    replace (if is_some wr then Ok (fresh (length (tn_lines f))) else Ok []) with (Ok (if is_some wr then fresh (V:=W) (length (tn_lines f)) else [])) by (destruct (is_some wr); reflexivity).
    cbn [bind]. rewrite Eps, combine_map, mapM_map. cbn [fst snd].
    rewrite (mapM_ok _ (fun t => tcodes wr k (K t) (chunk t))).
    2:{ intros t Ht. apply in_seq in Ht. pose proof (Hat t ltac:(lia)) as Ha. pose proof (at_blks_le _ _ _ _ _ Ha).
        apply (tset_run L HL wr k m _ (chunk t) (chunk_good t) _ _ _ Ha). lia. }
    reflexivity.
  Qed.

  Lemma tensor_read_main sched :
    tensor_read_el L O wr m 0 e T sched =
    Ok (mkTensor (map Some (tns_labels f)) (if is_some wr then map Some ws else []) (Z.of_nat k) (Z.of_nat (length (tn_lines f)))).
  Proof.
    rewrite read_el_progs, tensor_progs_ok. cbn [bind]. unfold tprogs.
    rewrite run_indep.
    2:{ apply fop_map, fop_seq. intros i j Hij Hj. cbn [plus] in Hj. intros a b Ha Hb.
        pose proof (tprogs_in i ltac:(lia)) as Hi. rewrite Forall_forall in Hi. specialize (Hi a Ha).
        pose proof (tprogs_in j ltac:(lia)) as Hjj. rewrite Forall_forall in Hjj. specialize (Hjj b Hb).
        eapply tcomm; [exact Hi|exact Hjj|]. apply tprogs_apart; lia. }
    assert (Econ : forall n, n <= T -> concat (map (fun t => tcodes wr k (K t) (chunk t)) (seq 0 n)) = tcodes wr k 0 (firstn (K n) ps)).
    { induction n as [|n IH]; intros Hn; [reflexivity|]. rewrite seq_S, map_app, concat_app, IH by lia. cbn [map concat plus]. rewrite app_nil_r.
      unfold chunk, bchunk. fold (K n). fold (K (S n)). rewrite <- (firstn_slice (K n) (K (S n)) ps) by (apply (bK_mono ptoblk m 0 (tn_head f) ps t_end T HT); lia).
      rewrite tcodes_app. rewrite firstn_length_le by (rewrite <- (bK_T ptoblk m 0 (tn_head f) ps t_end T HT); apply (bK_mono2 ptoblk m 0 (tn_head f) ps t_end T HT); lia). reflexivity. }
    rewrite Econ by lia. unfold K at 1. rewrite (bK_T ptoblk m 0 (tn_head f) ps t_end T HT), firstn_all.
    pose proof (exec_tcodes wr k ps t_lens [] (fresh (k * length (tn_lines f))) (if is_some wr then fresh (V:=W) (length (tn_lines f)) else [])) as HE.
    cbn [length map concat app] in HE. assert (En : (if is_some wr then @nil (option W) else []) = []) by (destruct (is_some wr); reflexivity). rewrite En in HE. cbn [app] in HE.
    rewrite HE.
    - cbn [bind tc tw].
      assert (E1 : map (fun p => Some (snd p)) ps = map Some ws) by (rewrite <- (map_map snd Some), tps_snd; reflexivity).
      assert (E2 : concat (map (fun p => t_labels (fst p)) ps) = tns_labels f) by (unfold tns_labels; rewrite <- (map_map fst t_labels), tps_fst; reflexivity).
      rewrite E1, E2. reflexivity.
    - constructor.
    - unfold fresh. rewrite repeat_length, tps_len. lia.
    - destruct (is_some wr); [unfold fresh; rewrite repeat_length, tps_len; reflexivity|reflexivity].
  Qed.
End Main.
