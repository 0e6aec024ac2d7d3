(** * FragFinal: edge lists whose last line has no newline, in terms of the specification *)

From Verif Require Import Base Reader Sched SchedLemmas Spec SpecFp ReaderLemmas Coo CooLemmas CooExec CooSplit
  WeightLemmas CooMain ElSpec ElFinal ElThms Safe Frag FragEl SpecFrag ElBad FragMain.

(** ** Cells outside the written range *)
Lemma skipn_upd {V} (l : list V) : forall i h v, i < h -> skipn h (upd i v l) = skipn h l.
Proof.
  induction l as [|a l IH]; intros i h v Hi; [destruct i; reflexivity|]. destruct h as [|h]; [lia|].
  destruct i as [|i]; cbn [upd skipn]; [reflexivity|]. apply IH; lia.
Qed.

Lemma exec_frame {W} hi (is : list (cinstr W)) : forall s s', Forall (wr_in 0 hi) is -> exec_all cexec is s = Ok s' ->
  skipn hi (cx s') = skipn hi (cx s) /\ skipn hi (cy s') = skipn hi (cy s) /\ skipn hi (cw s') = skipn hi (cw s).
Proof.
  induction is as [|i is IH]; intros s s' Hf E; cbn [exec_all] in E; [injection E as <-; auto|].
  inversion Hf as [|? ? Hi Hf']; subst. destruct (cexec i s) as [s1| | |] eqn:E1; try discriminate. cbn [bind] in E.
  specialize (IH s1 s' Hf' E). destruct IH as (H1 & H2 & H3). rewrite H1, H2, H3. clear - Hi E1.
  destruct i as [i v|i v|i v|a b]; cbn [cexec wr_in] in *; unfold aset, aget in E1.
  - destruct (_ <? _); [|discriminate]. cbn [bind] in E1. injection E1 as <-. cbn [cx cy cw]. rewrite skipn_upd by lia. auto.
  - destruct (_ <? _); [|discriminate]. cbn [bind] in E1. injection E1 as <-. cbn [cx cy cw]. rewrite skipn_upd by lia. auto.
  - destruct (_ <? _); [|discriminate]. cbn [bind] in E1. injection E1 as <-. cbn [cx cy cw]. rewrite skipn_upd by lia. auto.
  - destruct (nth_error _ _); [|discriminate]. cbn [bind] in E1. destruct (_ <? _); [|discriminate]. cbn [bind] in E1. injection E1 as <-.
    cbn [cx cy cw]. rewrite skipn_upd by lia. auto.
Qed.

Lemma skipn_repeat {V} (v : V) : forall k n, skipn k (repeat v n) = repeat v (n - k).
Proof.
  induction k as [|k IH]; intros n; [rewrite Nat.sub_0_r; reflexivity|]. destruct n as [|n]; [reflexivity|]. cbn [repeat skipn Nat.sub]. apply IH.
Qed.

Lemma gap_fin g : gap false g -> gap true g.
Proof. induction 1; [constructor|constructor 2; assumption|constructor 3; assumption|discriminate]. Qed.

Section Final.
  Context {W : Type}.
  Variables L O : ity.
  Variable wr : option (wrd W).
  Variable ints : bool.
  Variable fl : flags.
  Variable f : el_file.
  Variable z : line.
  Variable ws : list W.
  Variable v : W.
  Variable tg : tag.
  Variable pg : nat.
  Let ps := combine (el_lines f) ws.
  Let its : list (item W) := map (fun p => (Full, p)) ps ++ [(tg, (z, v))].
  Let m := mkMem (cut_text f z) pg.

  Hypothesis HL : is_ity L.
  Hypothesis HO : is_ity O.
  Hypothesis Hwf : wf_cut f z.
  Hypothesis Hgz : gap true (l_gap z).
  Hypothesis Htg : tg <> Full.
  Hypothesis Hlen : length ws = length (el_lines f).
  Hypothesis Hfit : labels_fit (imax L - 1) f.
  Hypothesis Hfz : (dval (l_x z) <= imax L - 1 /\ dval (l_y z) <= imax L - 1)%Z.
  Hypothesis Hpg : off_page pg (cut_text f z).
  Hypothesis Hwe : owend wr.
  Hypothesis Hwok : Forall2 (owok wr) (map l_post (el_lines f)) ws.
  Hypothesis Hzok : match tg with Full => True | Cut => owcut wr ints (l_post z) v | Tail => wr = None /\ l_post z <> [] end.

  Lemma lines_ps : map fst ps = el_lines f.
  Proof. exact (ps_fst f ws Hlen). Qed.

  Lemma its_text : el_head f ++ bstext (map itblk its) = cut_text f z.
  Proof.
    unfold its, cut_text, el_text. rewrite map_app, bstext_app, <- app_assoc. f_equal. f_equal.
    - rewrite <- lines_ps. unfold bstext. rewrite !map_map. f_equal. apply map_ext. intros p. apply itblk_full.
    - unfold bstext. cbn [map concat]. rewrite app_nil_r, itblk_cut by exact Htg. reflexivity.
  Qed.

  Lemma its_isnil : isnil (map itblk its) = false.
  Proof. unfold its. destruct ps; reflexivity. Qed.

  Lemma its_wf : wf_blks (map itblk its).
  Proof.
    destruct Hwf as (_ & Hl & Hx & Hs & Hy & Hp). unfold its. rewrite <- lines_ps, Forall_map in Hl. clear - Hl Hx Hs Hy Hp Htg Hgz.
    induction ps as [|p q IH].
    - cbn [map app wf_blks]. split; [|exact Logic.I]. unfold wf_blk, itblk; cbn [b_head b_term b_gap fst snd isnil].
      split; [|split; [|split; [|tauto]]].
      + destruct (l_x z) as [|c xs] eqn:E; [destruct Hx; congruence|]. exists c. unfold lhead. rewrite E. eexists. split; [reflexivity|].
        destruct Hx as [_ Hx]. apply forall_hd in Hx. exact Hx.
      + unfold lhead. repeat (apply Forall_app; split); auto using digits_nl, sep_nl. apply Hp.
      + exact Hgz.
    - inversion Hl as [|? ? H1 H2]; subst. cbn [map app wf_blks]. split; [|apply IH; exact H2].
      destruct H1 as (A & B & C & D & G). unfold wf_blk, itblk; cbn [b_head b_term b_gap fst snd].
      split; [|split; [|split; [|discriminate]]].
      + destruct (l_x (fst p)) as [|c xs] eqn:E; [destruct A; congruence|]. exists c. unfold lhead. rewrite E. eexists. split; [reflexivity|].
        destruct A as [_ A]. apply forall_hd in A. exact A.
      + unfold lhead. repeat (apply Forall_app; split); auto using digits_nl, sep_nl. apply D.
      + destruct q; exact G.
  Qed.

  Lemma its_ok : Forall (line_ok L wr ints) its.
  Proof.
    destruct Hwf as (_ & Hl & Hx & Hs & Hy & Hp). unfold its. apply Forall_app; split.
    - rewrite Forall_map. rewrite <- lines_ps, Forall_map in Hl.
      pose proof (fit_ps' L fl f ws Hlen Hfit) as Hf. pose proof (wok_ps wr f ws Hwok) as Ho. fold ps in Hf, Ho.
      rewrite Forall_forall in *. intros p Hin. destruct (Hl p Hin) as (A & B & C & D & _). unfold line_ok; cbn [fst snd].
      destruct (Hf p Hin). repeat (split; [assumption|]). apply Ho; exact Hin.
    - constructor; [|constructor]. unfold line_ok; cbn [fst snd]. repeat (split; [first [assumption|lia]|]).
      destruct tg; [congruence|exact Hzok..].
  Qed.

  Lemma its_gap : gap (isnil (map itblk its)) (el_head f).
  Proof. rewrite its_isnil. apply Hwf. Qed.
  Lemma its_has : has m 0 (el_head f ++ bstext (map itblk its)).
  Proof. rewrite its_text. apply (has_all m). Qed.
  Lemma its_end : 0 + length (el_head f ++ bstext (map itblk its)) = flen m.
  Proof. rewrite its_text. reflexivity. Qed.

  Lemma itt_cons (it : tag * (line * W)) (B : list (tag * (line * W))) :
    ittotal ints fl (@cons (tag * (line * W)) it B) = itcount ints fl it + ittotal ints fl B.
  Proof using Type. clear. exact (ittotal_cons ints fl it B). Qed.

  Lemma itot_full : forall (q : list (line * W)), ittotal ints fl (map (fun p => (Full, p)) q) = length (stored fl (map ent q)).
  Proof using Type.
    clear. induction q as [|p q IH]; [reflexivity|]. cbn [map]. first [rewrite ittotal_cons|rewrite itt_cons]. unfold itcount; cbn [fst snd]. rewrite IH.
    unfold stored. cbn [flat_map]. rewrite app_length. reflexivity.
  Qed.
  Lemma codes0_full : forall (q : list (line * W)) pos, icodes0 wr ints fl pos (map (fun p => (Full, p)) q) = codes wr fl pos q.
  Proof using Type. clear. induction q as [|p q IH]; intros pos; [reflexivity|]. cbn [map icodes0 codes]. rewrite IH. reflexivity. Qed.
  Lemma total_stored (q : list (line * W)) : total fl q = length (stored fl (map ent q)).
  Proof using Type. clear. reflexivity. Qed.
  Lemma full_full : forall (q : list (line * W)), full (map (fun p => (Full, p)) q) = q.
  Proof using Type. clear. induction q as [|p q IH]; [reflexivity|]. cbn. f_equal. exact IH. Qed.

  Variable T : nat.
  Hypothesis HT : 1 <= T.
  Variable sched : list nat.
  Let es := stored fl (triples f ws).
  Let c := cutcount ints fl (z, v).

  (** What the reader returns when the last line is cut off right after what is
      read. *)
  Definition cut_result (c : nat) : coo W :=
    let r := el_result wr fl f ws in
    mkCoo (co_x r ++ repeat None c) (co_y r ++ repeat None c)
      (match wr with None => [] | Some _ => map (fun e => Some (snd e)) es ++ Some v :: repeat None (c - 1) end)
      (co_n r) (co_nrows r) (co_ncols r) (Z.of_nat (length es + c)).

  Lemma ents_ps : stored fl (map ent ps) = es.
  Proof. unfold es. rewrite <- (ps_ent f ws). reflexivity. Qed.

  Lemma el_wf_f : wf_el f.
  Proof.
    destruct Hwf as (Hg & Hl & _). split.
    - destruct (el_lines f); [|exact Hg]. apply gap_fin; exact Hg.
    - clear - Hl. induction Hl as [|l ls H1 H2 IH]; [exact Logic.I|]. destruct ls; [|split; assumption].
      destruct H1 as (A & B & C & D & G). repeat (split; [assumption|]). apply gap_fin; exact G.
  Qed.


  Hypothesis Hcnt : (Z.of_nat (length es + itcount ints fl (tg, (z, v))) <= imax O)%Z.

  Lemma dims_f : (CooMain.nr fl ps <= imax L /\ CooMain.nc fl ps <= imax L)%Z.
  Proof. refine (dims_ok L O fl f ws HL el_wf_f Hlen Hfit _). fold es. lia. Qed.

  Lemma itot_its : ittotal ints fl its = length es + itcount ints fl (tg, (z, v)).
  Proof.
    unfold its. etransitivity; [apply ittotal_app|]. rewrite itot_full, ents_ps. first [rewrite ittotal_cons|rewrite itt_cons]. cbn [fst snd].
    unfold ittotal; cbn [map sum_nat fold_right]. lia.
  Qed.

  Lemma its_codes : icodes0 wr ints fl 0 its = codes wr fl 0 ps ++ icodes0 wr ints fl (length es) [(tg, (z, v))].
  Proof.
    unfold its. etransitivity; [apply icodes0_app|]. rewrite codes0_full, itot_full, ents_ps. reflexivity.
  Qed.

  Section IsCut.
    Hypothesis Ecut : tg = Cut.

    Lemma full_cut : full its = ps.
    Proof. unfold its. etransitivity; [apply full_app|]. rewrite full_full, Ecut. cbn. apply app_nil_r. Qed.
    Lemma itot_cut : ittotal ints fl its = length es + c.
    Proof. rewrite itot_its, Ecut. reflexivity. Qed.

    Lemma read_cut : read_el L O wr fl m 0 (flen m) T sched =
      (st <- run cexec sched (map (iprog wr ints fl m (el_head f) its T) (seq 0 T))
               (mkCst (fresh (length es + c)) (fresh (length es + c)) (if is_some wr then fresh (length es + c) else [])) ;;
       Ok (mkCoo (cx st) (cy st) (cw st) (Some (Z.max (CooMain.nr fl ps) (CooMain.nc fl ps))) (Some (CooMain.nr fl ps))
             (Some (CooMain.nc fl ps)) (Z.of_nat (length es + c)))).
    Proof.
      destruct dims_f as [Hnr Hnc].
      rewrite (read_items L O HL HO wr ints Hwe fl m (slack_off_page pg _ Hpg) (el_head f) its its_has its_end its_gap its_wf its_ok T HT).
      - rewrite itot_cut, full_cut. reflexivity.
      - rewrite itot_its. exact Hcnt.
      - rewrite full_cut. exact Hnr.
      - rewrite full_cut. exact Hnc.
    Qed.

    Lemma cut_ok : wr = None \/ (Forall (keeps fl) (triples f ws) /\ 0 < c) ->
      read_el L O wr fl m 0 (flen m) T sched = Ok (cut_result c).
    Proof.
      intros Hk. rewrite read_cut. rewrite <- itot_cut.
      assert (HkF : wr = None \/ Forall (fun p => drop fl p = false) ps).
      { destruct Hk as [H|[H _]]; [left; exact H|right]. rewrite <- (ps_ent f ws), Forall_map in H. eapply Forall_impl; [|exact H].
        cbn; intros p. apply drop_keeps. }
      rewrite (run_items L wr ints Hwe fl m (el_head f) its its_end its_wf its_ok T HT).
      2:{ destruct HkF as [H|H]; [left; exact H|right]. unfold its. apply Forall_app; split.
          - rewrite Forall_map. eapply Forall_impl; [|exact H]. cbn; auto.
          - constructor; [left; exact Ecut|constructor]. }
      2:{ destruct Hk as [H|[_ H]]; [left; exact H|right]. unfold its. apply Forall_app; split.
          - rewrite Forall_map. rewrite Forall_forall. cbn; discriminate.
          - constructor; [intros _; exact H|constructor]. }
      rewrite itot_cut. rewrite its_codes, exec_all_app, Ecut. cbn [plus icodes0 snd].
      rewrite app_nil_r.
      set (st0 := mkCst _ _ _).
      assert (Hld : wr = None \/ lastdrop fl ps = false).
      { destruct HkF as [H|H]; [left; exact H|right]. apply lastdrop_all; exact H. }
      destruct (exec_codes wr fl (length es + c) ps [] st0) as (s1 & E1 & Hf).
      { exists (fresh (length es + c)), (fresh (length es + c)), (fresh (length es + c)). unfold st0; cbn [cx cy cw map app length].
        rewrite !fresh_length. destruct wr; cbn [is_some]; auto 10. }
      { cbn [length plus]. rewrite total_stored, ents_ps. lia. }
      { exact Hld. }
      cbn [length app] in E1, Hf. rewrite E1. cbn [bind]. change (flat_map (expand (f_sym fl) (f_ut fl) (f_sl fl)) (map ent ps)) with (stored fl (map ent ps)) in Hf.
      rewrite ents_ps in Hf.
      assert (Hfr : Forall (wr_in 0 (length es)) (codes wr fl 0 ps)).
      { apply codes_in; [lia| |exact Hld]. rewrite total_stored, ents_ps. lia. }
      pose proof (exec_frame (length es) _ _ _ Hfr E1) as (F1 & F2 & F3).
      unfold st0 in F1, F2, F3; cbn [cx cy cw] in F1, F2, F3. unfold fresh in F1, F2. rewrite skipn_repeat in F1, F2.
      replace (length es + c - length es) with c in * by lia.
      destruct Hf as (rx & ry & rw & Hx & Hy & Hlx & Hly & Hwt).
      assert (Srx : forall (g : Z * Z * W -> option Z) r, skipn (length es) (map g es ++ r) = r).
      { intros g r. rewrite <- (map_length g es) at 1. rewrite skipn_app, skipn_all, Nat.sub_diag. reflexivity. }
      rewrite Hx, Srx in F1. rewrite Hy, Srx in F2. rewrite F1 in Hx. rewrite F2 in Hy. clear F1 F2.
      unfold cut_result. fold es. unfold el_result. cbn [co_x co_y co_n co_nrows co_ncols]. fold es.
      assert (Enr : CooMain.nr fl ps = (1 + max_of (map (fun e => fst (fst e)) (counted fl (triples f ws))))%Z).
      { unfold CooMain.nr, kents. rewrite <- (ps_ent f ws). unfold counted. fold ps. lia. }
      assert (Enc : CooMain.nc fl ps = (1 + max_of (map (fun e => snd (fst e)) (counted fl (triples f ws))))%Z).
      { unfold CooMain.nc, kents. rewrite <- (ps_ent f ws). unfold counted. fold ps. lia. }
      rewrite Enr, Enc.
      unfold wcode. destruct wr as [w|] eqn:Ew.
      - cbn [is_some] in F3. unfold fresh in F3. rewrite skipn_repeat in F3. replace (length es + c - length es) with c in * by lia.
        destruct Hwt as [Hwt Hlw].
        assert (Ss : skipn (length es) (map (fun e : Z * Z * W => Some (snd e)) es ++ rw) = rw).
        { rewrite <- (map_length (fun e : Z * Z * W => Some (snd e)) es) at 1. rewrite skipn_app, skipn_all, Nat.sub_diag. reflexivity. }
        rewrite Hwt, Ss in F3. subst rw. destruct Hk as [H|[_ Hc]]; [congruence|].
        destruct c as [|c'] eqn:Ec; [lia|]. cbn [exec_all cexec]. rewrite Hwt. cbn [repeat].
        rewrite aset_mapped by reflexivity. cbn [bind cx cy cw]. rewrite Hx, Hy. cbn [Nat.sub]. rewrite Nat.sub_0_r. reflexivity.
      - cbn [exec_all bind]. rewrite Hx, Hy, Hwt. reflexivity.
    Qed.

    Lemma cut_ub w : wr = Some w -> c = 0 -> read_el L O wr fl m 0 (flen m) T sched = UB.
    Proof.
      intros Ew Ec. rewrite read_cut. rewrite Ec, Nat.add_0_r.
      assert (Hin : In (Cut, (z, v)) (concat (map (bchunk itblk (el_head f) its T) (seq 0 T)))).
      { rewrite (bchunks_concat itblk m 0 (el_head f) its its_end T HT T (le_n _)).
        rewrite (bK_T itblk m 0 (el_head f) its its_end its_wf T HT), firstn_all. unfold its. rewrite Ecut. apply in_or_app; right; left; reflexivity. }
      apply in_concat in Hin as (B & HB & Hin). apply in_map_iff in HB as (t & <- & Ht). apply in_seq in Ht.
      apply in_split in Hin as (B1 & B2 & EB).
      pose proof (slice_split (bK itblk (el_head f) its T t) (bK itblk (el_head f) its T (S t)) its
        (bK_mono itblk m 0 (el_head f) its its_end T HT t ltac:(lia))) as Esp. unfold bchunk in EB. rewrite EB in Esp.
      assert (E2 : its = (firstn (bK itblk (el_head f) its T t) its ++ B1) ++ (Cut, (z, v)) :: (B2 ++ skipn (bK itblk (el_head f) its T (S t)) its)).
      { rewrite Esp at 1. rewrite <- !app_assoc. reflexivity. }
      pose proof (cut_only its its_wf _ _ _ E2) as En. apply app_eq_nil in En as [-> En]. rewrite En in E2. cbn [app] in E2.
      assert (Epos : iP ints fl (el_head f) its T t + ittotal ints fl B1 = length es).
      { unfold iP. rewrite <- ittotal_app. pose proof itot_cut as Et. rewrite E2 in Et. rewrite ittotal_app in Et. first [rewrite ittotal_cons in Et|rewrite itt_cons in Et].
        unfold itcount in Et; cbn [fst snd] in Et. fold c in Et. unfold ittotal at 2 in Et. cbn [map sum_nat fold_right] in Et. lia. }
      rewrite (run_ub cexec (fun s => length (cw s) = length es) (SetW (length es) v)); [reflexivity| | | |].
      - intros i s Hs. destruct i as [i q|i q|i q|a b]; cbn [cexec]; unfold aset.
        + destruct (_ <? _); [right; eexists; split; [reflexivity|exact Hs]|left; reflexivity].
        + destruct (_ <? _); [right; eexists; split; [reflexivity|exact Hs]|left; reflexivity].
        + destruct (_ <? _); [right; eexists; split; [reflexivity|cbn [cw]; rewrite upd_length; exact Hs]|left; reflexivity].
        + unfold aget. destruct (nth_error _ _); [|left; reflexivity]. cbn [bind].
          destruct (_ <? _); [right; eexists; split; [reflexivity|cbn [cw]; rewrite upd_length; exact Hs]|left; reflexivity].
      - intros s Hs. cbn [cexec]. unfold aset. rewrite Hs, Nat.ltb_irrefl. reflexivity.
      - apply in_concat. exists (iprog wr ints fl m (el_head f) its T t). split.
        + apply in_map_iff. exists t. split; [reflexivity|]. apply in_seq; lia.
        + unfold iprog, bchunk. rewrite EB, <- Epos. rewrite Ew. generalize (iP ints fl (el_head f) its T t) as pos.
          generalize (boffs itblk 0 (el_head f) its (bK itblk (el_head f) its T (S t))) as e'.
          assert (HB1 : Forall (fun it => fst it = Full) B1).
          { unfold its in E2. apply app_inj_tail in E2 as [E2 _].
            assert (HF : Forall (fun it : item W => fst it = Full) (map (fun p => (Full, p)) ps)) by (rewrite Forall_map, Forall_forall; cbn; auto).
            rewrite E2 in HF. apply Forall_app in HF. apply HF. }
          clear - HB1. intros e'. induction B1 as [|[tg p] B1 IH]; intros pos.
          * cbn [app icodes]. unfold ittotal; cbn [map sum_nat fold_right]. rewrite Nat.add_0_r. left. reflexivity.
          * inversion HB1 as [|? ? H1 H2]; subst. cbn [fst] in H1. subst tg. cbn [app icodes]. first [rewrite ittotal_cons|rewrite itt_cons]. unfold itcount; cbn [fst snd].
            apply in_or_app; right. apply in_or_app; right. rewrite Nat.add_assoc. apply IH. exact H2.
      - cbn [cw]. rewrite Ew. apply fresh_length.
    Qed.
  End IsCut.

  Section IsTail.
    Hypothesis Etail : tg = Tail.
    Let f' := mkEl (el_head f) (el_lines f ++ [z]).
    Let ws' := ws ++ [v].

    Lemma ps_tail : combine (el_lines f') ws' = ps ++ [(z, v)].
    Proof using Hlen.
      unfold f', ws', ps. cbn [el_lines]. clear - Hlen. revert Hlen. generalize (el_lines f) as l.
      induction ws as [|a w IH]; intros [|b l] H; cbn in *; try lia; [reflexivity|]. f_equal. apply IH; lia.
    Qed.
    Lemma full_tail : full its = ps ++ [(z, v)].
    Proof. unfold its. etransitivity; [apply full_app|]. rewrite full_full, Etail. reflexivity. Qed.
    Lemma out_tail : stored fl (triples f' ws') = es ++ stored fl [ent (z, v)].
    Proof. rewrite <- (ps_ent f' ws'), ps_tail, map_app. unfold stored. rewrite flat_map_app. f_equal. apply ents_ps. Qed.
    Lemma itot_tail : ittotal ints fl its = length (stored fl (triples f' ws')).
    Proof. rewrite itot_its, out_tail, Etail, app_length. unfold itcount, stored; cbn [fst snd flat_map]. rewrite app_nil_r. reflexivity. Qed.

    Lemma tail_wf : wf_el f'.
    Proof using Hwf Hgz.
      clear - Hwf Hgz. destruct Hwf as (Hg & Hl & Hx & Hs & Hy & Hp). unfold f'. split; cbn [el_head el_lines].
      - destruct (el_lines f); exact Hg.
      - clear - Hl Hx Hs Hy Hp Hgz. induction Hl as [|l ls H1 H2 IH]; cbn [app]; [repeat (split; [assumption|]); assumption|].
        destruct (ls ++ [z]) eqn:E; [destruct ls; discriminate|]. split; assumption.
    Qed.
    Lemma tail_fit : labels_fit (imax L - 1) f'.
    Proof using Hfit Hfz. unfold labels_fit, el_pairs, f'. cbn [el_lines]. rewrite map_app. apply Forall_app; split; [exact Hfit|]. constructor; [exact Hfz|constructor]. Qed.
    Lemma tail_len : length ws' = length (el_lines f').
    Proof. unfold ws', f'. cbn [el_lines]. rewrite !app_length, Hlen. reflexivity. Qed.

    Lemma tail_ok : read_el L O wr fl m 0 (flen m) T sched = Ok (el_result wr fl f' ws').
    Proof.
      assert (Ewr : wr = None) by (rewrite Etail in Hzok; apply Hzok).
      assert (Hc : (Z.of_nat (length (stored fl (triples f' ws'))) <= imax O)%Z).
      { rewrite <- itot_tail, itot_its. exact Hcnt. }
      destruct (dims_ok L O fl f' ws' HL tail_wf tail_len tail_fit Hc) as [Hnr Hnc].
      rewrite ps_tail in Hnr, Hnc. unfold CooMain.nr, CooMain.nc in Hnr, Hnc.
      rewrite (read_items L O HL HO wr ints Hwe fl m (slack_off_page pg _ Hpg) (el_head f) its its_has its_end its_gap its_wf its_ok T HT).
      2:{ rewrite itot_its. exact Hcnt. }
      2:{ rewrite full_tail. exact Hnr. }
      2:{ rewrite full_tail. exact Hnc. }
      rewrite (run_items L wr ints Hwe fl m (el_head f) its its_end its_wf its_ok T HT (or_introl Ewr) (or_introl Ewr)).
      rewrite its_codes, Etail. cbn [icodes0].
      assert (Ec : codes wr fl 0 ps ++ line_code wr fl (length es) (z, v) ++ [] = codes wr fl 0 (ps ++ [(z, v)])).
      { rewrite codes_app, total_stored, ents_ps. reflexivity. }
      rewrite Ec. rewrite itot_tail. set (out := stored fl (triples f' ws')).
      set (st0 := mkCst _ _ _).
      destruct (exec_codes wr fl (length out) (ps ++ [(z, v)]) [] st0) as (s1 & E1 & Hf).
      { exists (fresh (length out)), (fresh (length out)), (fresh (length out)). unfold st0; cbn [cx cy cw map app length].
        rewrite !fresh_length. rewrite Ewr. cbn [is_some]; auto 10. }
      { cbn [length plus]. rewrite <- ps_tail. rewrite total_stored, (ps_ent f' ws'). apply le_n. }
      { left; exact Ewr. }
      cbn [length app] in E1, Hf. rewrite E1. cbn [bind].
      change (flat_map (expand (f_sym fl) (f_ut fl) (f_sl fl)) (map ent (ps ++ [(z, v)]))) with (stored fl (map ent (ps ++ [(z, v)]))) in Hf.
      rewrite <- ps_tail, (ps_ent f' ws') in Hf. fold out in Hf.
      destruct Hf as (rx & ry & rw & Hx & Hy & Hlx & Hly & Hwt).
      assert (rx = []) by (apply length_zero_iff_nil; lia).
      assert (ry = []) by (apply length_zero_iff_nil; lia). subst rx ry. rewrite app_nil_r in *.
      rewrite Ewr in Hwt |- *. rewrite full_tail, <- ps_tail, Hx, Hy, Hwt. unfold el_result. fold out.
      unfold kents, counted. rewrite (ps_ent f' ws'). repeat (rewrite (Z.add_comm 1)). reflexivity.
    Qed.
  End IsTail.
End Final.
