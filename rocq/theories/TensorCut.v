(** * TensorCut: the cut tensor file of [SpecTensorCut] as the blocks of [TensorFragMain] *)

From Verif Require Import Base Reader Sched SchedLemmas Spec SpecFp SpecTensor SpecOrder SpecTensorCut ReaderLemmas Coo CooLemmas CooSplit CooMain CooExec
  ElSpec ElFinal Csr Codec Bin SpecBin BinLemmas BinSave BinLoad Load Tensor TensorLemmas TensorMain TensorOrder Frag FragEl ElBad FragMain FragFinal TensorFrag TensorFragMain.

(** The words of a plain line. *)
Lemma line_words l : digits (t_first l) -> Forall (fun p => separator (fst p) /\ digits (snd p)) (t_more l) -> Forall (fun p => spacing (fst p)) (t_more l) ->
  words (([], t_first l) :: t_more l) /\ words_text (([], t_first l) :: t_more l) = labels_text l.
Proof.
  intros [N D] H2 Hsp.
  assert (Hnum : forall s, digits s -> number s).
  { intros s [N1 D1]. destruct s as [|c s]; [congruence|]. exists c, s. inversion D1; subst. split; [reflexivity|]. split; [assumption|]. eapply Forall_impl; [|eassumption]. auto. }
  split; [split|reflexivity].
  - split; [reflexivity|exact Hsp].
  - constructor; [apply Hnum; split; assumption|]. eapply Forall_impl; [|exact H2]. intros p [_ H]. apply Hnum, H.
Qed.

Section Cut.
  Context {W : Type}.
  Variables L O : ity.
  Variable wr : option (wrd W).
  Variable k : nat.
  Variable f : tns_file.
  Variable z : tline.
  Variable ws : list W.
  Variable v : W.
  Variable tg : tag.
  Variable pg : nat.
  Let ps := combine (tn_lines f) ws.
  Let zg := mkTline (t_first z) (t_more z) (t_post z) [].
  Let qs : list (titem W) := map (fun p => (Full, p)) ps.
  Let its : list (titem W) := qs ++ [(tg, (zg, v))].
  Let m := mkMem (tcut_text f z) pg.

  Hypothesis HL : is_ity L.
  Hypothesis HO : is_ity O.
  Hypothesis Hwf : wf_tcut (is_some wr) k f z.
  Hypothesis Hplain : plain_first (is_some wr) f.
  Hypothesis Htg : tg <> Full.
  Hypothesis Hlen : length ws = length (tn_lines f).
  Hypothesis Hfit : Forall (fun v => v <= imax L)%Z (tns_labels f).
  Hypothesis Hfz : Forall (fun v => v <= imax L)%Z (t_labels z).
  Hypothesis Hpg : off_page pg (tcut_text f z).
  Hypothesis Hwok : Forall2 (owok wr) (map t_post (tn_lines f)) ws.
  Hypothesis Hzok : match tg with
    | Full => True
    | Cut => wr = None /\ t_post z = []
    | Tail => match wr with None => t_post z <> [] | Some w => holds_number (t_post z) /\ exists ints, wcut w ints (t_post z) v end
    end.
  Hypothesis Hk_fit : (Z.of_nat k + 1 <= imax O)%Z.

  Lemma tc_fst : map fst ps = tn_lines f.
  Proof.
    unfold ps. clear - Hlen. revert ws Hlen. induction (tn_lines f) as [|l ls IH]; intros [|w ws] H; cbn [length] in H; try discriminate; [reflexivity|].
    cbn [combine map fst]. f_equal. apply IH. lia.
  Qed.

  Lemma tc_text : tn_head f ++ bstext (map tiblk its) = tcut_text f z.
  Proof.
    unfold its, qs, tcut_text, tns_text. rewrite map_app, bstext_app, <- app_assoc. f_equal. f_equal.
    - rewrite <- tc_fst. unfold bstext. rewrite !map_map. f_equal. apply map_ext. intros p. apply tiblk_full.
    - unfold bstext. cbn [map concat]. rewrite app_nil_r, tiblk_cut by exact Htg. reflexivity.
  Qed.

  Lemma tc_isnil : isnil (map (@tiblk W) its) = false.
  Proof. unfold its, qs. destruct ps; reflexivity. Qed.

  Lemma head_wf l fin : digits (t_first l) -> Forall (fun p => separator (fst p) /\ digits (snd p)) (t_more l) -> rest (t_post l) -> gap fin (t_gap l) ->
    forall b, (b = false -> fin = true) -> wf_blk fin (mkBlk (thead l) b (t_gap l)).
  Proof using Type.
    clear. intros H1 H2 H3 H4 b Hb. unfold wf_blk; cbn [b_head b_term b_gap]. split; [|split; [|split; [|exact Hb]]].
    - destruct (t_first l) as [|c xs] eqn:E; [destruct H1; congruence|]. exists c. unfold thead, labels_text. rewrite E. eexists. split; [reflexivity|].
      destruct H1 as [_ Hx]. apply forall_hd in Hx. exact Hx.
    - unfold thead, labels_text. apply Forall_app; split; [|apply H3]. apply Forall_app; split; [apply digits_nl; exact H1|apply seps_nl; exact H2].
    - exact H4.
  Qed.

  Lemma tc_wf : wf_blks (map tiblk its).
  Proof.
    destruct Hwf as (_ & _ & Hl & _ & Hx & Hs & Hp). unfold its, qs. rewrite <- tc_fst, Forall_map in Hl. clear - Hl Hx Hs Hp Htg.
    induction ps as [|p q IH].
    - cbn [map app wf_blks]. split; [|exact Logic.I]. unfold tiblk; cbn [fst snd isnil]. apply head_wf; try assumption; [constructor|auto].
    - inversion Hl as [|? ? H1 H2]; subst. cbn [map app wf_blks]. split; [|apply IH; exact H2].
      destruct H1 as (_ & A & B & C & _ & G). apply (head_wf (fst p) _ A B C); [destruct q; exact G|discriminate].
  Qed.

  Lemma tc_ok : Forall (tline_ok L wr k) its.
  Proof.
    destruct Hwf as (_ & _ & Hl & Hk & Hx & Hs & Hp). unfold its, qs. apply Forall_app; split.
    - rewrite Forall_map. assert (Ho : Forall (fun p => owok wr (t_post (fst p)) (snd p)) ps).
      { unfold ps. clear - Hwok. revert ws Hwok. induction (tn_lines f) as [|l ls IH]; intros ws H; inversion H; subst; [constructor|].
        cbn [combine]. constructor; [assumption|]. apply IH; assumption. }
      assert (Hf : Forall (fun p => Forall (fun v => v <= imax L)%Z (t_labels (fst p))) ps).
      { rewrite <- Forall_map with (f := fst) (P := fun l => Forall (fun v => v <= imax L)%Z (t_labels l)). rewrite tc_fst.
        unfold tns_labels in Hfit. rewrite Forall_forall in *. intros l Hin. rewrite Forall_forall. intros x Hx'. apply Hfit.
        apply in_concat. exists (t_labels l). split; [apply in_map; exact Hin|exact Hx']. }
      rewrite <- tc_fst, Forall_map in Hl. rewrite Forall_forall in *. intros p Hin. destruct (Hl p Hin) as (A & B & C & D & E & _).
      unfold tline_ok; cbn [fst snd]. split; [exact A|]. split; [exact B|]. split; [exact C|]. split; [exact D|]. split; [apply Hf; exact Hin|].
      split; [exact E|apply Ho; exact Hin].
    - constructor; [|constructor]. unfold tline_ok; cbn [fst snd zg t_first t_more t_post]. 
      split; [exact Hk|]. split; [exact Hx|]. split; [exact Hs|]. split; [exact Hp|]. split; [exact Hfz|].
      destruct tg; [congruence|exact Hzok..].
  Qed.

  Lemma tc_gap : gap (isnil (map (@tiblk W) its)) (tn_head f).
  Proof. rewrite tc_isnil. apply Hwf. Qed.
  Lemma tc_has : has m 0 (tn_head f ++ bstext (map tiblk its)).
  Proof. rewrite tc_text. apply (has_all m). Qed.
  Lemma tc_end : 0 + length (tn_head f ++ bstext (map tiblk its)) = flen m.
  Proof. rewrite tc_text. reflexivity. Qed.
  Lemma tc_slack : slack m.
  Proof. apply slack_off_page. exact Hpg. Qed.

  Lemma tc_order : tensor_order O (is_some wr) m 0 (flen m) = Ok (Z.of_nat k).
  Proof using HO Hwf Hplain Hpg Hk_fit.
    clear - HO Hwf Hplain Hpg Hk_fit. destruct Hwf as (Hn & Hg & Hl & _). unfold plain_first in Hplain. unfold m, flen; cbn [bytes]. unfold tcut_text, tns_text.
    destruct (tn_lines f) as [|l ls] eqn:El; [congruence|]. apply forall_hd in Hl. destruct Hl as (Hlab & H1 & H2 & [H3 H3'] & _ & H5). destruct Hplain as [Hsp Hpost].
    destruct (line_words l H1 H2 Hsp) as [W1 W2].
    assert (Hlk : S (length (t_more l)) = k) by (unfold t_labels in Hlab; cbn [length] in Hlab; rewrite map_length in Hlab; exact Hlab).
    assert (Hpos : 0 < pg) by (destruct Hpg; lia).
    cbn [map concat]. unfold tline_text.
    destruct (is_some wr) eqn:Ew.
    - destruct Hpost as (a & c1 & run & t0 & Ep & Ha & Hc1 & Hrun & Ht).
      replace k with (S k - 1) by lia.
      eapply (order_first O true _ pg (tn_head f) ((([], t_first l) :: t_more l) ++ [(a, c1 :: run)]) t0
        (t_gap l ++ concat (map (fun l => labels_text l ++ t_post l ++ ch_nl :: t_gap l) ls) ++ labels_text z ++ t_post z) (S k)); try assumption.
      + unfold words_text. rewrite map_app, concat_app. fold (words_text (([], t_first l) :: t_more l)). rewrite W2, Ep. cbn [map concat fst snd].
        rewrite app_nil_r. repeat (rewrite <- app_assoc; cbn [app]). reflexivity.
      + destruct W1 as [[W1 W1'] W3]. split; [cbn [app]; split; [exact W1|apply Forall_app; split; [exact W1'|constructor; [exact Ha|constructor]]]|].
        apply Forall_app; split; [exact W3|]. constructor; [|constructor]. exists c1, run. auto.
      + rewrite Ep in H3. apply Forall_app in H3 as [_ H3]. inversion H3 as [|? ? _ H4]; subst. apply Forall_app in H4. apply H4.
      + left. split; [exact Ht|]. rewrite app_length. cbn [length]. lia.
      + lia.
    - replace k with (k - 0) by lia.
      eapply (order_first O false _ pg (tn_head f) (([], t_first l) :: t_more l) (t_post l)
        (t_gap l ++ concat (map (fun l => labels_text l ++ t_post l ++ ch_nl :: t_gap l) ls) ++ labels_text z ++ t_post z) k); try assumption.
      + rewrite W2. repeat (rewrite <- app_assoc; cbn [app]). reflexivity.
      + left. split; [exact Hpost|]. cbn [length]. lia.
      + lia.
  Qed.
  Lemma tc_full : Forall (fun it => fst it = Full) qs.
  Proof using Type. unfold qs. rewrite Forall_map. apply Forall_forall. reflexivity. Qed.
  Lemma tc_len : length qs = length (tn_lines f).
  Proof. unfold qs. rewrite map_length, <- tc_fst, map_length. reflexivity. Qed.
  Lemma tc_kept : tkept qs = ps.
  Proof using Type. clear. unfold qs, tkept. induction ps as [|p q IH]; [reflexivity|]. cbn [map flat_map fst snd app]. f_equal. exact IH. Qed.
  Lemma tc_snd : map snd ps = ws.
  Proof.
    unfold ps. clear - Hlen. revert ws Hlen. induction (tn_lines f) as [|l ls IH]; intros [|w ws] H; cbn [length] in H; try discriminate; [reflexivity|].
    cbn [combine map snd]. f_equal. apply IH. lia.
  Qed.

  (** The entries of the other lines, and of the last one unless it is cut right
      after its labels. *)
  Let n := length (tn_lines f) + match tg with Cut => 0 | _ => 1 end.
  Hypothesis Hmul : (Z.of_nat (k * n) <= imax O)%Z.
  Hypothesis Hn_fit : (Z.of_nat n <= imax O)%Z.
  Hypothesis Hkind : k = 1 \/ tg <> Cut.
  Variable T : nat.
  Hypothesis HT : 1 <= T.

  Lemma tc_read sched : tensor_read_el L O wr m 0 (flen m) T sched =
    Ok (mkTensor (map Some (tns_labels f ++ match tg with Cut => [] | _ => t_labels z end))
         (if is_some wr then map Some (ws ++ match tg with Cut => [] | _ => [v] end) else []) (Z.of_nat k) (Z.of_nat n)).
  Proof.
    assert (En : titot its = n).
    { unfold its. rewrite titot_app, (full_tot qs tc_full), tc_len. unfold n, titot, tcnt. cbn [map sum_nat fold_right fst]. destruct tg; lia. }
    rewrite (read_kept L O HL HO wr k m tc_slack (tn_head f) its tc_has tc_end tc_gap tc_wf tc_ok T HT tc_order).
    - rewrite En. unfold its. rewrite tkept_app, tc_kept, !map_app, concat_app, !map_app.
      assert (E1 : concat (map (fun p => t_labels (fst p)) ps) = tns_labels f).
      { unfold tns_labels. rewrite <- tc_fst, map_map. reflexivity. }
      assert (E2 : map (fun p : tline * W => Some (snd p)) ps = map Some ws) by (rewrite <- tc_snd, map_map; reflexivity).
      rewrite E1. unfold tkept; cbn [flat_map fst snd]. destruct tg; [congruence|..]; cbn [app map concat fst snd]; rewrite ?app_nil_r.
      + rewrite E2. destruct (is_some wr); reflexivity.
      + rewrite E2. destruct (is_some wr); rewrite ?map_app; reflexivity.
    - rewrite En. exact Hn_fit.
    - rewrite En. rewrite Nat2Z.inj_mul. apply omul_ok; [exact HO|lia|lia|]. rewrite <- Nat2Z.inj_mul. exact Hmul.
    - destruct Hkind as [|H]; [left; assumption|right]. unfold its. apply Forall_app; split.
      + eapply Forall_impl; [|exact tc_full]. intros it ->. discriminate.
      + constructor; [exact H|constructor].
  Qed.
End Cut.

Section Over.
  Variables L O : ity.
  Variable k : nat.
  Variable f : tns_file.
  Variable z : tline.
  Variable pg : nat.

  Lemma tc_ub T sched : is_ity L -> is_ity O -> wf_tcut false k f z -> plain_first false f -> t_post z = [] -> 2 <= k ->
    Forall (fun v => v <= imax L)%Z (tns_labels f) -> Forall (fun v => v <= imax L)%Z (t_labels z) -> off_page pg (tcut_text f z) ->
    (Z.of_nat k + 1 <= imax O)%Z -> (Z.of_nat (length (tn_lines f)) <= imax O)%Z -> (Z.of_nat (k * length (tn_lines f)) <= imax O)%Z -> 1 <= T ->
    tensor_read_el L O (@None (wrd unit)) (mkMem (tcut_text f z) pg) 0 (flen (mkMem (tcut_text f z) pg)) T sched = UB.
  Proof.
    intros HL HO Hwf Hp Hz Hk Hf Hfz Hpg Hko Hn Hm HT.
    set (ws := repeat tt (length (tn_lines f))).
    assert (Hws : length ws = length (tn_lines f)) by apply repeat_length.
    assert (Hok : Forall2 (owok (@None (wrd unit))) (map t_post (tn_lines f)) ws).
    { unfold ws. clear. induction (tn_lines f); constructor; [exact Logic.I|assumption]. }
    pose proof (tc_len (W:=unit) f ws Hws) as Hl.
    eapply (cut_read_ub L O HL HO k Hk _ _ (tn_head f) (map (fun p => (Full, p)) (combine (tn_lines f) ws)) (mkTline (t_first z) (t_more z) (t_post z) [], tt)).
    - apply tc_full.
    - apply (tc_has (W:=unit) f z ws tt Cut pg); [discriminate|exact Hws].
    - apply (tc_end (W:=unit) f z ws tt Cut pg); [discriminate|exact Hws].
    - apply (tc_gap (@None (wrd unit)) k f z ws tt Cut Hwf).
    - apply (tc_wf (@None (wrd unit)) k f z ws tt Cut); [exact Hwf|exact Hws].
    - apply (tc_ok L (@None (wrd unit)) k f z ws tt Cut); try assumption; [discriminate|]. split; [reflexivity|exact Hz].
    - exact HT.
    - apply (tc_order O (@None (wrd unit)) k f z pg); assumption.
    - rewrite Hl. exact Hn.
    - rewrite Hl. rewrite Nat2Z.inj_mul. apply omul_ok; [exact HO|lia|lia|]. rewrite <- Nat2Z.inj_mul. exact Hm.
    Unshelve. apply slack_off_page. exact Hpg.
  Qed.
End Over.
