(** * ElFinal: the edge-list theorems in terms of the specification *)

From Verif Require Import Base Reader Sched SchedLemmas Spec SpecFp ReaderLemmas Coo CooLemmas CooExec
  CooSplit WeightLemmas CooMain ElSpec.

Lemma slack_off_page pg s : off_page pg s -> slack (mkMem s pg).
Proof.
  intros [Hp Hm]. unfold slack, map_len, flen; cbn [bytes page].
  set (n := length s) in *.
  pose proof (Nat.div_mod n pg ltac:(lia)) as E. pose proof (Nat.mod_upper_bound n pg ltac:(lia)) as B.
  assert (E2 : (n + (pg - 1)) / pg = n / pg + 1).
  { symmetry. apply Nat.div_unique with (r := n mod pg - 1); nia. }
  rewrite E2. nia.
Qed.

Lemma off_page_slack pg s : 0 < pg -> slack (mkMem s pg) -> off_page pg s.
Proof.
  intros Hp H. split; [exact Hp|]. intros Hm. unfold slack, map_len, flen in H; cbn [bytes page] in H.
  set (n := length s) in *. pose proof (Nat.div_mod n pg ltac:(lia)) as E.
  assert (E2 : (n + (pg - 1)) / pg = n / pg).
  { symmetry. apply Nat.div_unique with (r := pg - 1); nia. }
  rewrite E2 in H. nia.
Qed.

Lemma wok_wpost k post v : wf_kind k -> wpost k post v -> wok (wreader k) post v.
Proof.
  destruct k as [t|t|F]; cbn [wf_kind wpost wreader].
  - intros [Ht _] [Hp Hv]. apply wok_unsigned; assumption.
  - intros [Ht Hs] [Hp Hv]. apply wok_signed; assumption.
  - intros _ (f & Hp & ->). apply wok_float; exact Hp.
Qed.

Lemma wend_kind k : wf_kind k -> wend (wreader k).
Proof.
  destruct k as [t|t|F]; cbn [wf_kind wreader].
  - intros _. apply wend_unsigned.
  - intros [Ht _]. apply wend_signed; exact Ht.
  - intros _. apply wend_float.
Qed.

Section Any.
  Context {W : Type}.
  Variables L O : ity.
  Variable wr : option (wrd W).
  Variable fl : flags.
  Variable f : el_file.
  Variable ws : list W.
  Variable pg : nat.
  Let ps := combine (el_lines f) ws.
  Let m := mkMem (el_text f) pg.

  Hypothesis HL : is_ity L.
  Hypothesis HO : is_ity O.
  Hypothesis Hwf : wf_el f.
  Hypothesis Hlen : length ws = length (el_lines f).
  Hypothesis Hfit : labels_fit (imax L - 1) f.
  Hypothesis Hcnt : (Z.of_nat (length (stored fl (triples f ws))) <= imax O)%Z.
  Hypothesis Hpg : off_page pg (el_text f).
  Hypothesis Hwe : owend wr.
  Hypothesis Hwok : Forall2 (owok wr) (map l_post (el_lines f)) ws.

  Lemma ps_fst : map fst ps = el_lines f.
  Proof.
    unfold ps. clear - Hlen. revert Hlen. generalize (el_lines f) as l. induction ws as [|w v IH]; intros [|a l] H; cbn in *; try lia; [reflexivity|].
    f_equal. apply IH; lia.
  Qed.

  Lemma ps_ent : map ent ps = triples f ws.
  Proof.
    unfold ps, triples, el_pairs. clear. generalize (el_lines f) as l. induction ws as [|w v IH]; intros [|a l]; cbn; try reflexivity.
    f_equal. apply IH.
  Qed.

  Lemma ps_text : el_text f = el_head f ++ text (map fst ps).
  Proof. rewrite ps_fst. reflexivity. Qed.

  Lemma fit_ps : Forall (fun p => dval (l_x (fst p)) <= imax L - 1 /\ dval (l_y (fst p)) <= imax L - 1)%Z ps.
  Proof.
    unfold labels_fit, el_pairs in Hfit. rewrite <- ps_fst in Hfit. rewrite Forall_map, Forall_map in Hfit.
    exact Hfit.
  Qed.

  Lemma fit_ps' : Forall (fun p => dval (l_x (fst p)) <= imax L /\ dval (l_y (fst p)) <= imax L)%Z ps.
  Proof. eapply Forall_impl; [|exact fit_ps]. cbn; intros; lia. Qed.

  Lemma wok_ps : Forall (fun p => owok wr (l_post (fst p)) (snd p)) ps.
  Proof.
    unfold ps. clear - Hwok. revert Hwok. generalize (el_lines f) as l. induction ws as [|w v IH]; intros l H; inversion H; subst.
    - destruct l; [constructor|discriminate].
    - destruct l as [|a l]; [discriminate|]. cbn in *. inv H. constructor; [assumption|]. apply IH. assumption.
  Qed.

  Lemma kept_labels : Forall (fun e => 0 <= fst (fst e) <= imax L - 1 /\ 0 <= snd (fst e) <= imax L - 1)%Z (stored fl (map ent ps)).
  Proof.
    unfold stored. apply Forall_flat_map. apply Forall_map.
    assert (Hwf' : Forall (fun p => exists fin, wf_line fin (fst p)) ps).
    { clear - Hwf Hlen. destruct Hwf as [_ H]. rewrite <- ps_fst in H. induction ps as [|p q IH]; [constructor|].
      cbn [map] in H. apply wf_lines_cons in H as [H1 H2]. constructor; eauto. }
    pose proof fit_ps as Hf. rewrite Forall_forall in *. intros p Hin. specialize (Hf p Hin). specialize (Hwf' p Hin).
    destruct Hwf' as (fin & (_ & Hx) & _ & (_ & Hy) & _).
    pose proof (dval_nonneg _ Hx). pose proof (dval_nonneg _ Hy).
    unfold expand, ent. destruct fl as [[] [] []]; cbn [f_sym f_ut f_sl andb];
      repeat match goal with |- context [if ?b then _ else _] => destruct b end; repeat constructor; cbn; lia.
  Qed.

  Lemma counted_incl (l : list (Z * Z * W)) e : In e (counted fl l) -> In e (stored fl l).
  Proof.
    unfold counted, stored. rewrite !in_flat_map. intros (x & Hx & He). exists x; split; [exact Hx|].
    unfold kept in He. rewrite <- (firstn_skipn 1 (expand _ _ _ x)). apply in_or_app; left; exact He.
  Qed.

  Lemma dims_ok : (nr fl ps <= imax L /\ nc fl ps <= imax L)%Z.
  Proof.
    pose proof (ity_facts L HL) as (_ & _ & H127). pose proof kept_labels as Hk. rewrite Forall_forall in Hk.
    unfold nr, nc, kents.
    assert (H1 : (max_of (map (fun e => fst (fst e)) (counted fl (map ent ps))) <= imax L - 1)%Z).
    { apply max_of_le; [lia|]. apply Forall_map, Forall_forall. intros e He. apply counted_incl, Hk in He. lia. }
    assert (H2 : (max_of (map (fun e => snd (fst e)) (counted fl (map ent ps))) <= imax L - 1)%Z).
    { apply max_of_le; [lia|]. apply Forall_map, Forall_forall. intros e He. apply counted_incl, Hk in He. lia. }
    unfold counted in *. lia.
  Qed.

  Definition el_result : coo W :=
    let es := stored fl (triples f ws) in
    let ks := counted fl (triples f ws) in
    let nr := (1 + max_of (map (fun e => fst (fst e)) ks))%Z in
    let nc := (1 + max_of (map (fun e => snd (fst e)) ks))%Z in
    mkCoo (map (fun e => Some (fst (fst e))) es) (map (fun e => Some (snd (fst e))) es)
          (match wr with None => [] | Some _ => map (fun e => Some (snd e)) es end)
          (Some (Z.max nr nc)) (Some nr) (Some nc) (Z.of_nat (length es)).

  Variable T : nat.
  Hypothesis HT : 1 <= T.

  Lemma el_has : has m 0 (el_head f ++ text (map fst ps)).
  Proof. rewrite <- ps_text. apply (has_all m). Qed.

  Lemma el_gap : gap (isnil (map fst ps)) (el_head f).
  Proof. rewrite ps_fst. apply Hwf. Qed.

  Lemma el_wfl : wf_lines (map fst ps).
  Proof. rewrite ps_fst. apply Hwf. Qed.

  Lemma el_end : 0 + length (el_head f ++ text (map fst ps)) = flen m.
  Proof. rewrite <- ps_text. reflexivity. Qed.

  Hypothesis Hdrop : wr = None \/ Forall (keeps fl) (triples f ws) \/
     (T = 1 /\ forall e, last (map Some (triples f ws)) None = Some e -> keeps fl e).

  Lemma drop_keeps (p : line * W) : keeps fl (ent p) -> drop fl p = false.
  Proof.
    unfold keeps. intros H. destruct (drop fl p) eqn:E; [|reflexivity]. apply drop_expand in E. congruence.
  Qed.

  Lemma lastdrop_all (qs : list (line * W)) : Forall (fun p => drop fl p = false) qs -> lastdrop fl qs = false.
  Proof.
    induction qs as [|p qs IH]; intros H; [reflexivity|]. inversion H; subst. cbn [lastdrop].
    destruct qs; [assumption|]. apply IH; assumption.
  Qed.

  Lemma lastdrop_last (qs : list (line * W)) :
    (forall e, last (map Some (map ent qs)) None = Some e -> keeps fl e) -> lastdrop fl qs = false.
  Proof.
    induction qs as [|p qs IH]; intros H; [reflexivity|]. cbn [lastdrop]. destruct qs as [|q qs].
    - apply drop_keeps. apply H. reflexivity.
    - apply IH. exact H.
  Qed.

  Lemma hdrop_chunks : wr = None \/ forall t, t < T -> lastdrop fl (chunk (el_head f) ps T t) = false.
  Proof.
    destruct Hdrop as [H|[H|[H1 H2]]]; [left; exact H|right|right]; intros t Ht.
    - apply lastdrop_all. rewrite <- ps_ent in H. rewrite Forall_map in H.
      unfold chunk, slice. rewrite Forall_forall in *. intros p Hin. apply drop_keeps, H.
      rewrite <- (firstn_skipn (K (el_head f) ps T t) ps). apply in_or_app; right.
      rewrite <- (firstn_skipn (K (el_head f) ps T (S t) - K (el_head f) ps T t) (skipn _ ps)). apply in_or_app; left; exact Hin.
    - subst T. assert (t = 0) by lia. subst t. unfold chunk.
      rewrite (K_T m 0 (el_head f) ps el_end 1) by lia. unfold slice. rewrite K_0, Nat.sub_0_r. cbn [skipn].
      rewrite firstn_all. apply lastdrop_last. rewrite ps_ent. exact H2.
  Qed.

  Definition el_prog (t : nat) : list (cinstr W) := prog wr fl m 0 (el_head f) ps T t.

  Lemma el_pass1_ok : exists chunks counts,
    el_pass1 L wr fl m 0 (flen m) T = Ok (chunks, counts) /\
    sum_nat counts = length (stored fl (triples f ws)) /\
    exists p2, el_pass2 L wr fl m chunks counts = Ok p2 /\
      map (fun r => fst (fst r)) p2 = map el_prog (seq 0 T).
  Proof.
    rewrite (pass1_ok L HL wr Hwe fl m (slack_off_page _ _ Hpg) 0 (el_head f) ps
               el_has el_end el_gap el_wfl fit_ps' wok_ps T HT).
    eexists; eexists; split; [reflexivity|]. split.
    - rewrite (counts_sum fl m 0 (el_head f) ps el_end T HT).
      unfold total, stored. rewrite ps_ent. reflexivity.
    - rewrite (pass2_ok L HL wr Hwe fl m (slack_off_page _ _ Hpg) 0 (el_head f) ps
               el_has el_end el_wfl fit_ps' wok_ps T HT).
      eexists; split; [reflexivity|]. rewrite map_map. reflexivity.
  Qed.

  Lemma el_progs_concat : concat (map el_prog (seq 0 T)) = codes wr fl 0 ps.
  Proof.
    change (map el_prog (seq 0 T)) with (map (prog wr fl m 0 (el_head f) ps T) (seq 0 T)).
    rewrite (progs_concat wr fl m 0 (el_head f) ps el_end T HT hdrop_chunks T) by lia.
    rewrite (K_T m 0 (el_head f) ps el_end T HT), firstn_all. reflexivity.
  Qed.

  Lemma el_prog_in t : t < T ->
    Forall (wr_in (P fl (el_head f) ps T t) (P fl (el_head f) ps T (S t))) (el_prog t).
  Proof. apply (prog_in wr fl m 0 (el_head f) ps el_end T HT hdrop_chunks). Qed.

  Lemma el_P_mono i j : i <= j -> j <= T -> P fl (el_head f) ps T i <= P fl (el_head f) ps T j.
  Proof. apply (P_mono2 fl m 0 (el_head f) ps el_end T HT). Qed.

  Theorem el_main sched :
    read_el L O wr fl m 0 (flen m) T sched = Ok el_result.
  Proof.
    rewrite (read_el_main L O HL HO wr Hwe fl m (slack_off_page _ _ Hpg) 0 (el_head f) ps
               el_has el_end el_gap el_wfl fit_ps' wok_ps T HT hdrop_chunks).
    - unfold el_result, out, st_of, nr, nc, kents. rewrite ps_ent. cbn [cx cy cw].
      fold (stored fl (triples f ws)). fold (counted fl (triples f ws)).
      rewrite !(Z.add_comm 1). reflexivity.
    - unfold out. rewrite ps_ent. exact Hcnt.
    - exact dims_ok.
  Qed.
End Any.

(** ** Which cells are written *)
Definition cidx (c : cell) : nat := match c with CX i | CY i | CW i => i end.

Section Cells.
  Context {W : Type}.
  Variable wr : option (wrd W).
  Variable fl : flags.

  Lemma line_writes_range pos p c : drop fl p = false ->
    In c (flat_map writes (line_code wr fl pos p)) <->
    (pos <= cidx c < pos + length (expand (f_sym fl) (f_ut fl) (f_sl fl) (ent p)) /\
     match c with CW _ => is_some wr = true | _ => True end).
  Proof.
    intros Ed. rewrite (doubled_expand fl p Ed). unfold line_code. rewrite Ed, doubled_swap.
    destruct (doubled fl _ _); unfold wcode; destruct wr; cbn [app flat_map writes In is_some];
      split; intros H;
      repeat match goal with
      | H : _ \/ _ |- _ => destruct H as [H|H]; [subst c; cbn; split; [lia|try exact I; reflexivity]|]
      end; try contradiction;
      destruct c as [i|i|i]; cbn [cidx] in H; destruct H as [H1 H2]; try discriminate H2.
    all: try (assert (E : i = pos \/ i = pos + 1) by lia; destruct E; subst i; tauto).
    all: assert (E : i = pos) by lia; subst i; tauto.
  Qed.

  Lemma line_writes_nodup pos p : drop fl p = false -> NoDup (flat_map writes (line_code wr fl pos p)).
  Proof.
    intros Ed. unfold line_code. rewrite Ed, doubled_swap.
    destruct (doubled fl _ _); unfold wcode; destruct wr; cbn [app flat_map writes];
      repeat constructor; cbn [In]; intros H;
      repeat match goal with H : _ \/ _ |- _ => destruct H as [H|H] end; try contradiction;
      try discriminate H; injection H; lia.
  Qed.

  Lemma codes_writes ps : (wr = None \/ Forall (fun p => drop fl p = false) ps) -> forall pos,
    NoDup (flat_map writes (codes wr fl pos ps)) /\
    (forall c, In c (flat_map writes (codes wr fl pos ps)) <->
       (pos <= cidx c < pos + total fl ps /\ match c with CW _ => is_some wr = true | _ => True end)).
  Proof.
    induction ps as [|p ps IH]; intros Hd pos.
    - cbn. split; [constructor|]. intros c; split; [contradiction|]. intros [H _]. unfold total in H; cbn in H. lia.
    - assert (Hd' : wr = None \/ Forall (fun p => drop fl p = false) ps)
        by (destruct Hd as [H|H]; [left; exact H|right; inversion H; assumption]).
      specialize (IH Hd'). cbn [codes]. rewrite flat_map_app, total_cons.
      destruct (drop fl p) eqn:Ed.
      + destruct Hd as [Hn|Hall]; [|inversion Hall; congruence].
        unfold line_code at 1 2. rewrite Ed. unfold wcode. rewrite Hn.
        pose proof (proj1 (drop_expand fl p) Ed) as Ee. rewrite Ee. cbn [length flat_map app plus].
        rewrite Nat.add_0_r. specialize (IH pos). rewrite Hn in IH. exact IH.
      + destruct (IH (pos + length (expand (f_sym fl) (f_ut fl) (f_sl fl) (ent p)))) as [IH1 IH2].
        pose proof (line_writes_range pos p) as LR. split.
        * assert (ND : forall (a b : list cell), NoDup a -> NoDup b -> (forall x, In x a -> ~ In x b) -> NoDup (a ++ b)).
          { clear. induction a as [|x a IHa]; intros b Ha Hb Hx; [exact Hb|]. inversion Ha; subst. cbn [app]. constructor.
            - intros Hin. apply in_app_or in Hin as [Hin|Hin]; [contradiction|]. apply (Hx x); [left; reflexivity|exact Hin].
            - apply IHa; auto. intros y Hy; apply Hx; right; exact Hy. }
          apply ND; [apply line_writes_nodup; exact Ed|exact IH1|].
          intros x Hx1 Hx2. apply (LR x Ed) in Hx1. apply IH2 in Hx2. lia.
        * intros c. rewrite in_app_iff, (LR c Ed), IH2.
          set (k := length _). split; [intros [[H1 H2]|[H1 H2]]; split; auto; lia|].
          intros [H1 H2]. destruct (Nat.lt_ge_cases (cidx c) (pos + k)); [left|right]; split; auto; lia.
  Qed.

  Lemma wr_in_cells lo hi (i : cinstr W) c : wr_in lo hi i -> In c (writes i) \/ In c (reads i) -> lo <= cidx c < hi.
  Proof.
    destruct i; cbn [wr_in writes reads In]; intros H Hc;
      repeat match goal with H : _ \/ _ |- _ => destruct H as [H|H] end; try contradiction; subst c; cbn; tauto.
  Qed.
End Cells.
