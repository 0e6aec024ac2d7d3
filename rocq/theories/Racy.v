(** * Racy: weighted edge lists read with flags that drop entries (C02) *)

From Verif Require Import Base Reader Sched SchedLemmas Spec SpecFp ReaderLemmas Coo CooLemmas CooExec
  CooSplit WeightLemmas CooMain ElSpec ElFinal ElThms ElBad SpecBare Bare.

(** ** Letting one thread wait for all others *)
Section Last.
  Context {S I : Type}.
  Variable exec : I -> S -> res S.

  Lemma pop_mid (A : list (list I)) i q B : pop (length A) (A ++ (i :: q) :: B) = Some (i, A ++ q :: B).
  Proof. induction A as [|a A IH]; [reflexivity|]. cbn [length app pop]. rewrite IH. reflexivity. Qed.

  Lemma run_thread q : forall A B sched s,
    run exec (repeat (length A) (length q) ++ sched) (A ++ q :: B) s =
    bind (exec_all exec q s) (fun s' => run exec sched (A ++ [] :: B) s').
  Proof.
    induction q as [|i q IH]; intros A B sched s; [reflexivity|].
    cbn [length repeat app run exec_all]. rewrite pop_mid. destruct (exec i s); cbn [bind]; auto.
  Qed.

  Fixpoint drain (a : nat) (B : list (list I)) : list nat :=
    match B with [] => [] | q :: B' => repeat a (length q) ++ drain (Datatypes.S a) B' end.
  Definition nils (B : list (list I)) : list (list I) := map (fun _ => []) B.

  Lemma run_drain B : forall A C sched s,
    run exec (drain (length A) B ++ sched) (A ++ B ++ C) s =
    bind (exec_all exec (concat B) s) (fun s' => run exec sched (A ++ nils B ++ C) s').
  Proof.
    induction B as [|q B IH]; intros A C sched s; [reflexivity|].
    cbn [drain app concat nils map]. rewrite <- app_assoc, run_thread, exec_all_app.
    destruct (exec_all exec q s) as [s1| | |]; cbn [bind]; try reflexivity.
    specialize (IH (A ++ [[]]) C sched s1). rewrite app_length in IH. cbn [length] in IH. rewrite Nat.add_1_r in IH.
    rewrite <- !app_assoc in IH. cbn [app] in IH. exact IH.
  Qed.

  Lemma nils_concat B : concat (nils B) = [].
  Proof. induction B; [reflexivity|exact IHB]. Qed.

  (** The schedule that runs thread [length A] after all others. *)
  Lemma run_waits A p B s :
    run exec (drain 0 A ++ drain (Datatypes.S (length A)) B) (A ++ p :: B) s =
    bind (exec_all exec (concat A ++ concat B) s) (exec_all exec p).
  Proof.
    pose proof (run_drain A [] (p :: B) (drain (Datatypes.S (length A)) B) s) as E1. cbn [length app] in E1. rewrite E1.
    rewrite exec_all_app. destruct (exec_all exec (concat A) s) as [s1| | |]; cbn [bind]; try reflexivity.
    pose proof (run_drain B (nils A ++ [p]) [] [] s1) as E2. rewrite app_length in E2. unfold nils in E2 at 1.
    rewrite map_length in E2. cbn [length] in E2. rewrite Nat.add_1_r, !app_nil_r in E2. rewrite <- !app_assoc in E2. cbn [app] in E2.
    rewrite E2. destruct (exec_all exec (concat B) s1) as [s2| | |]; cbn [bind]; try reflexivity.
    cbn [run]. rewrite concat_app. cbn [concat]. rewrite !nils_concat. cbn [app]. rewrite app_nil_r. reflexivity.
  Qed.
End Last.

(** ** The weight read at the end of a thread's part *)
Lemma end_weight k m e c : wf_kind k -> load m e = Ok c -> (c = 0%Z \/ is_digit c = true) ->
  w_read (wreader k) m e e = Ok (wzero k, e).
Proof.
  intros Hk Hl Hc. pose proof (ce_not_cmt c Hc) as Hcmt.
  destruct k as [t|t|F]; cbn [wreader wzero wtype wf_kind] in *.
  - cbn [w_read wr_unsigned]. unfold move_to_next_int, move_to_non_int. rewrite scan_end by lia. cbn [bind].
    unfold move_to_first_int, skip_comments_here. rewrite Hl. cbn [bind]. rewrite Hcmt. cbn [bind]. rewrite Nat.sub_diag.
    cbn [seek_]. rewrite Nat.ltb_irrefl. cbn [bind]. apply read_int_end. lia.
  - cbn [w_read wr_signed]. unfold move_to_next_signed_int, move_to_non_int. rewrite Hl. cbn [bind].
    assert (Hq : ((c =? ch_plus) || (c =? ch_minus))%Z = false).
    { destruct Hc as [->|Hc]; [auto|]. unfold is_digit, ch_0, ch_9, ch_plus, ch_minus in *. lia. }
    rewrite Hq. rewrite scan_end by lia. cbn [bind]. unfold skip_comments_here. rewrite Hl. cbn [bind]. rewrite Hcmt. cbn [bind]. rewrite Nat.sub_diag.
    cbn [seek_]. rewrite Nat.ltb_irrefl. cbn [bind]. unfold read_sign. rewrite Hl. cbn [bind].
    rewrite read_int_end by lia. cbn [bind]. rewrite Z.mul_0_l.
    pose proof (ity_facts t (proj1 Hk)). rewrite arith_in by (try apply Hk; lia). reflexivity.
  - cbn [w_read wr_float]. unfold move_to_fp. rewrite scan_end by lia. cbn [bind].
    assert (E : read_fp F m e e = Ok (fp_zero F, e)).
    { unfold read_fp. cbn [read_fp_]. rewrite scan_end by lia. cbn [bind]. rewrite Hl. cbn [bind].
      assert (Hq : (c =? ch_minus)%Z = false /\ (c =? ch_plus)%Z = false /\ (c =? ch_dot)%Z = false /\ ((c =? ch_e) || (c =? ch_E))%Z = false).
      { destruct Hc as [->|Hc]; [auto|]. unfold is_digit, ch_0, ch_9, ch_plus, ch_minus, ch_dot, ch_e, ch_E in *. lia. }
      destruct Hq as (-> & -> & Hdot & Hexp). cbn [orb]. rewrite Nat.sub_diag. cbn [fp_digits_ bind].
      rewrite Hl. cbn [bind]. rewrite Hdot. cbn [bind]. rewrite Hl. cbn [bind]. rewrite Hexp. reflexivity. }
    rewrite E. cbn [bind]. unfold move_to_non_fp. rewrite scan_end by lia. reflexivity.
Qed.

(** ** Sequential execution of a part whose last entries are dropped *)
Section Fill2.
  Context {W : Type}.
  Variable w : wrd W.
  Let wr := Some w.
  Variable fl : flags.
  Let sym := f_sym fl.
  Let ut := f_ut fl.
  Let sl := f_sl fl.

  Lemma exec_codes_room N ps : forall out s, filled wr N out s ->
    length out + total fl ps <= N -> (lastdrop fl ps = true -> length out + total fl ps < N) ->
    exists s', exec_all cexec (codes wr fl (length out) ps) s = Ok s' /\
               filled wr N (out ++ flat_map (expand sym ut sl) (map ent ps)) s'.
  Proof.
    induction ps as [|p ps IH]; intros out s Hf Hn Hw.
    - exists s. cbn. rewrite app_nil_r. auto.
    - cbn [codes]. rewrite exec_all_app. rewrite total_cons in Hn, Hw.
      destruct (exec_line wr fl N out s p Hf) as (s1 & E1 & Hf1).
      { lia. }
      { right. destruct (lastdrop fl (p :: ps)) eqn:Ed; [specialize (Hw eq_refl); lia|].
        pose proof (lastdrop_total fl p ps Ed) as H. rewrite total_cons in H. lia. }
      rewrite E1. cbn [bind].
      replace (length out + length (expand (f_sym fl) (f_ut fl) (f_sl fl) (ent p)))
        with (length (out ++ expand sym ut sl (ent p))) by (rewrite app_length; reflexivity).
      destruct (IH _ s1 Hf1) as (s2 & E2 & Hf2).
      + rewrite app_length. unfold sym, ut, sl. lia.
      + rewrite app_length. unfold sym, ut, sl. destruct ps as [|q ps]; [discriminate|]. intros H. specialize (Hw H). lia.
      + exists s2. split; [exact E2|]. cbn [map flat_map]. rewrite app_assoc. exact Hf2.
  Qed.

  Lemma exec_codesT_room N m e ps out s : filled wr N out s ->
    length out + total fl ps <= N -> (lastdrop fl ps = true -> length out + total fl ps < N) ->
    exists s', exec_all cexec (codesT wr fl m e (length out) ps) s = Ok s' /\
               filled wr N (out ++ flat_map (expand sym ut sl) (map ent ps)) s'.
  Proof.
    intros Hf Hn Hw. unfold codesT. rewrite exec_all_app.
    destruct (exec_codes_room N ps out s Hf Hn Hw) as (s1 & E1 & Hf1). rewrite E1. cbn [bind].
    destruct (lastdrop fl ps) eqn:Ed; [|exists s1; split; [reflexivity|exact Hf1]].
    assert (El : length out + total fl ps = length (out ++ flat_map (expand sym ut sl) (map ent ps))) by (rewrite app_length; reflexivity).
    unfold etail. cbn [wr]. destruct (w_read w m e e) as [[v d]| | |]; try (exists s1; split; [reflexivity|exact Hf1]).
    destruct (exec_wcode wr N _ s1 v Hf1) as (s2 & E2 & Hf2 & _); [specialize (Hw eq_refl); lia|].
    rewrite <- El in E2. exists s2. split; [exact E2|exact Hf2].
  Qed.
End Fill2.

(** ** The whole file *)
Section Whole.
  Variable k : wkind.
  Hypothesis Hk : wf_kind k.
  Let w := wreader k.
  Let wr := Some w.
  Variables L O : ity.
  Hypothesis HL : is_ity L.
  Hypothesis HO : is_ity O.
  Variable fl : flags.
  Variable f : el_file.
  Variable ws : list (wtype k).
  Variable pg : nat.
  Let ps := combine (el_lines f) ws.
  Let m := mkMem (el_text f) pg.
  Hypothesis Hwf : wf_el f.
  Hypothesis Hws : weights_are k f ws.
  Hypothesis Hfit : labels_fit (imax L - 1) f.
  Hypothesis Hcnt : (Z.of_nat (length (stored fl (triples f ws))) <= imax O)%Z.
  Hypothesis Hpg : off_page pg (el_text f).
  Hypothesis Hlast : lastdrop fl ps = false.

  Let Hlen : length ws = length (el_lines f) := weights_len _ _ _ Hws.
  Let Hwe : owend wr := wend_kind k Hk.
  Let Hwok := wok_ps wr f ws (owok_some k f ws Hk Hws).
  Let Hh := el_has f ws pg Hlen.
  Let He := el_end f ws pg Hlen.
  Let Hg := el_gap f ws Hwf Hlen.
  Let Hwl := el_wfl f ws Hwf Hlen.
  Let Hfp := fit_ps' L fl f ws Hlen Hfit.
  Let Hsl : slack m := slack_off_page _ _ Hpg.

  Variable T : nat.
  Hypothesis HT : 1 <= T.
  Let Kt := K (el_head f) ps T.
  Let ch := chunk (el_head f) ps T.
  Let Pt := P fl (el_head f) ps T.
  Let pr := prog wr fl m 0 (el_head f) ps T.
  Let N := total fl ps.
  Let outs (t : nat) := flat_map (expand (f_sym fl) (f_ut fl) (f_sl fl)) (map ent (firstn (Kt t) ps)).

  Lemma outs_len t : length (outs t) = Pt t.
  Proof. reflexivity. Qed.

  Lemma outs_S t : t < T -> outs (S t) = outs t ++ flat_map (expand (f_sym fl) (f_ut fl) (f_sl fl)) (map ent (ch t)).
  Proof.
    intros Ht. unfold outs. rewrite <- flat_map_app, <- map_app. unfold ch, chunk. fold Kt. rewrite firstn_slice; [reflexivity|].
    apply (K_mono m 0 (el_head f) ps He T HT t Ht).
  Qed.

  Lemma room t : t < T -> Pt t + total fl (ch t) <= N /\ (lastdrop fl (ch t) = true -> Pt t + total fl (ch t) < N).
  Proof.
    intros Ht. pose proof (P_S fl m 0 (el_head f) ps He T HT t Ht) as E. fold Pt ch in E. rewrite <- E.
    assert (E2 : N = Pt (S t) + total fl (skipn (Kt (S t)) ps)).
    { unfold Pt, P, N. fold Kt. rewrite <- total_app, firstn_skipn. reflexivity. }
    split; [lia|]. intros Hd.
    destruct (skipn (Kt (S t)) ps) as [|p r] eqn:Es.
    - exfalso.
      assert (Hlt : Kt t < length ps).
      { destruct (Nat.lt_ge_cases (Kt t) (length ps)); [assumption|]. unfold ch, chunk, slice in Hd. fold Kt in Hd.
        rewrite skipn_all2 in Hd by lia. rewrite firstn_nil in Hd. discriminate. }
      assert (Ec : ch t = skipn (Kt t) ps).
      { unfold ch, chunk, slice. fold Kt. apply firstn_all2. rewrite skipn_length.
        assert (length (skipn (Kt (S t)) ps) = 0) by (rewrite Es; reflexivity). rewrite skipn_length in H. lia. }
      rewrite Ec, ElBad.lastdrop_skipn in Hd by exact Hlt. congruence.
    - assert (Hr : lastdrop fl (p :: r) = false).
      { rewrite <- Es, ElBad.lastdrop_skipn; [exact Hlast|].
        destruct (Nat.lt_ge_cases (Kt (S t)) (length ps)); [assumption|]. rewrite skipn_all2 in Es by lia. discriminate. }
      pose proof (lastdrop_total fl p r Hr). lia.
  Qed.

  (** Running the threads [a .. a+n-1] one after the other. *)
  Lemma exec_range n : forall a s, a + n <= T -> filled wr N (outs a) s ->
    exists s', exec_all cexec (concat (map pr (seq a n))) s = Ok s' /\ filled wr N (outs (a + n)) s'.
  Proof.
    induction n as [|n IH]; intros a s Ha Hf.
    - exists s. rewrite Nat.add_0_r. split; [reflexivity|exact Hf].
    - cbn [seq map concat]. rewrite exec_all_app. change (pr a) with (codesT wr fl m (offs 0 (el_head f) ps (Kt (S a))) (length (outs a)) (ch a)).
      destruct (room a ltac:(lia)) as [R1 R2]. rewrite <- (outs_len a) in R1, R2.
      destruct (exec_codesT_room w fl N m (offs 0 (el_head f) ps (Kt (S a))) (ch a) (outs a) s Hf R1 R2) as (s1 & E1 & Hf1).
      match goal with |- exists _, bind ?r _ = _ /\ _ => assert (Er : r = Ok s1) by exact E1; rewrite Er; clear Er end. cbn [bind]. change (filled wr N (outs a ++ flat_map (expand (f_sym fl) (f_ut fl) (f_sl fl)) (map ent (ch a))) s1) in Hf1. rewrite <- outs_S in Hf1 by lia.
      destruct (IH (S a) s1 ltac:(lia) Hf1) as (s2 & E2 & Hf2). exists s2. split; [exact E2|].
      replace (a + S n) with (S a + n) by lia. exact Hf2.
  Qed.

  Definition wst0 : cst (wtype k) := mkCst (fresh N) (fresh N) (fresh N).

  Lemma filled0 : filled wr N (outs 0) wst0.
  Proof.
    unfold outs. change (Kt 0) with 0. cbn [firstn map flat_map].
    exists (fresh N), (fresh N), (fresh N). unfold wst0; cbn [cx cy cw map app length wr]. rewrite !fresh_length. auto 10.
  Qed.

  Lemma outs_T : outs T = out fl ps.
  Proof. unfold outs. unfold Kt. rewrite (K_T m 0 (el_head f) ps He T HT), firstn_all. reflexivity. Qed.

  Lemma filled_all s : filled wr N (outs T) s -> s = st_of wr (out fl ps).
  Proof.
    rewrite outs_T. intros (rx & ry & rw & Hx & Hy & Hlx & Hly & Hwt). cbn [wr] in Hwt. destruct Hwt as [Hwt Hlw].
    change (N + length rx = N) in Hlx. change (N + length ry = N) in Hly. change (N + length rw = N) in Hlw.
    assert (rx = []) by (apply length_zero_iff_nil; lia).
    assert (ry = []) by (apply length_zero_iff_nil; lia).
    assert (rw = []) by (apply length_zero_iff_nil; lia). subst rx ry rw. rewrite app_nil_r in *.
    destruct s as [sx sy sw]; cbn [cx cy cw] in *. unfold st_of. cbn [wr]. congruence.
  Qed.

  Definition fin (s : cst (wtype k)) : coo (wtype k) :=
    let r := el_result wr fl f ws in mkCoo (cx s) (cy s) (cw s) (co_n r) (co_nrows r) (co_ncols r) (co_m r).

  Lemma read_weighted sched s : run cexec sched (map pr (seq 0 T)) wst0 = Ok s ->
    read_el L O wr fl m 0 (flen m) T sched = Ok (fin s).
  Proof.
    intros Hr. unfold read_el.
    rewrite (pass1_ok L HL wr Hwe fl m Hsl 0 (el_head f) ps Hh He Hg Hwl Hfp Hwok T HT). cbn [bind].
    rewrite (counts_sum fl m 0 (el_head f) ps He T HT).
    assert (Et : total fl ps = length (stored fl (triples f ws))) by (unfold total, stored; rewrite <- (ps_ent f ws); reflexivity).
    pose proof (ity_facts O HO) as (F1 & F2 & _). pose proof (ity_facts L HL) as (F3 & F4 & F5).
    rewrite wrap_in by (auto; lia). unfold coo_alloc. destruct (Z.ltb_spec (Z.of_nat (total fl ps)) 0); [lia|].
    cbn [bind is_some wr]. rewrite Nat2Z.id. fold wr.
    rewrite (pass2_ok L HL wr Hwe fl m Hsl 0 (el_head f) ps Hh He Hwl Hfp Hwok T HT). cbn [bind].
    rewrite !map_map. cbn [fst snd]. fold N. change (mkCst (fresh N) (fresh N) (fresh N)) with wst0.
    change (map (fun x => prog wr fl m 0 (el_head f) ps T x) (seq 0 T)) with (map pr (seq 0 T)).
    rewrite Hr. cbn [bind].
    rewrite (max_row_ok L HL fl m 0 (el_head f) ps He T HT), (max_col_ok L HL fl m 0 (el_head f) ps He T HT).
    pose proof (dims_ok L O fl f ws HL Hwf Hlen Hfit Hcnt) as [D1 D2]. fold ps in D1, D2. unfold nr, nc in D1, D2.
    pose proof (max_of_nonneg (map (fun e => fst (fst e)) (kents fl ps))). pose proof (max_of_nonneg (map (fun e => snd (fst e)) (kents fl ps))).
    rewrite !arith_in by (auto; lia). cbn [bind]. unfold fin, el_result. cbn [co_n co_nrows co_ncols co_m].
    assert (EK : kents fl ps = counted fl (triples f ws)) by (unfold kents, counted; unfold ps; rewrite ps_ent; reflexivity).
    rewrite EK, !(Z.add_comm 1), <- Et. f_equal. f_equal. f_equal.
    destruct (Z.ltb_spec (max_of (map (fun e => snd (fst e)) (counted fl (triples f ws))) + 1) (max_of (map (fun e => fst (fst e)) (counted fl (triples f ws))) + 1)); lia.
  Qed.

  (** The threads one after the other, in order: the right result. *)
  Lemma in_order : read_el L O wr fl m 0 (flen m) T [] = Ok (el_result wr fl f ws).
  Proof.
    destruct (exec_range T 0 wst0 (le_n _) filled0) as (s & E & Hs). apply filled_all in Hs. subst s.
    rewrite (read_weighted [] (st_of wr (out fl ps))) by exact E. unfold fin, st_of, el_result. cbn [wr cx cy cw co_n co_nrows co_ncols co_m].
    unfold out, stored. rewrite <- (ps_ent f ws). reflexivity.
  Qed.

  (** Thread [t], whose only line is dropped, waits for all others. *)
  Lemma waits t p : t < T -> ch t = [p] -> drop fl p = true -> exists sched,
    read_el L O wr fl m 0 (flen m) T sched =
    Ok (let r := el_result wr fl f ws in
        mkCoo (co_x r) (co_y r) (upd (Pt t) (Some (wzero k)) (co_w r)) (co_n r) (co_nrows r) (co_ncols r) (co_m r)).
  Proof.
    intros Ht Hc Hd.
    assert (Es : seq 0 T = seq 0 t ++ t :: seq (S t) (T - S t)).
    { replace T with (t + S (T - S t)) at 1 by lia. rewrite seq_app. reflexivity. }
    set (A := map pr (seq 0 t)). set (B := map pr (seq (S t) (T - S t))).
    assert (Em : map pr (seq 0 T) = A ++ pr t :: B) by (rewrite Es, map_app; reflexivity).
    exists (drain 0 A ++ drain (S (length A)) B).
    destruct (exec_range t 0 wst0 ltac:(lia) filled0) as (s1 & E1 & Hs1). fold A in E1. cbn [plus] in Hs1.
    assert (Hsk : outs (S t) = outs t).
    { rewrite outs_S by exact Ht. rewrite Hc. cbn [map flat_map]. apply drop_expand in Hd. rewrite Hd. apply app_nil_r. }
    rewrite <- Hsk in Hs1.
    destruct (exec_range (T - S t) (S t) s1 ltac:(lia) Hs1) as (s2 & E2 & Hs2). fold B in E2.
    replace (S t + (T - S t)) with T in Hs2 by lia. apply filled_all in Hs2. subst s2.
    destruct (room t Ht) as [R1 R2]. rewrite Hc in R1, R2. cbn [lastdrop] in R2. specialize (R2 Hd).
    assert (Htot : total fl [p] = 0). { unfold total. cbn [map flat_map]. apply drop_expand in Hd. rewrite Hd. reflexivity. }
    rewrite Htot, Nat.add_0_r in R2.
    destruct (load_boundary m Hsl 0 (el_head f) ps Hh He Hwl T HT t Ht) as (ce & Hce & Hce').
    assert (Ep : pr t = [SetW (Pt t) (snd p); SetW (Pt t) (wzero k)]).
    { unfold pr, prog. fold ch Pt. rewrite Hc. unfold codesT. cbn [codes lastdrop]. rewrite Hd, Htot, Nat.add_0_r.
      unfold line_code, etail. rewrite Hd. cbn [wr wcode]. rewrite app_nil_r. unfold w. rewrite (end_weight k m _ ce Hk Hce Hce'). reflexivity. }
    set (st := st_of wr (out fl ps)) in *.
    assert (Hlw : length (cw st) = N) by (unfold st, st_of; cbn [wr cw]; rewrite map_length; reflexivity).
    rewrite (read_weighted _ (mkCst (cx st) (cy st) (upd (Pt t) (Some (wzero k)) (cw st)))).
    - unfold fin, st, st_of, el_result. cbn [wr cx cy cw co_x co_y co_w co_n co_nrows co_ncols co_m].
      unfold out, stored. rewrite <- (ps_ent f ws). reflexivity.
    - rewrite Em, run_waits, exec_all_app, E1. cbn [bind]. rewrite E2. cbn [bind]. rewrite Ep.
      cbn [exec_all cexec]. unfold aset. rewrite Hlw. destruct (Nat.ltb_spec (Pt t) N); [|lia]. cbn [bind cx cy cw].
      rewrite upd_length, Hlw. destruct (Nat.ltb_spec (Pt t) N); [|lia]. cbn [bind cx cy cw].
      f_equal. f_equal. clear. generalize (cw st) as l. generalize (Pt t) as i. induction i as [|i IH]; intros [|c l]; cbn [upd]; try reflexivity. f_equal. apply IH.
  Qed.

  (** With a thread for every byte each line has a thread of its own. *)
  Lemma K_step t : length (el_text f) <= T -> t < T -> Kt (S t) <= S (Kt t).
  Proof.
    intros HsT Ht. assert (Hsz : length (el_head f ++ text (map fst ps)) <= T) by (unfold ps; rewrite <- (ps_text f ws Hlen); exact HsT).
    unfold Kt, K. cbn [Nat.eqb]. set (sz := length (el_head f ++ text (map fst ps))) in *.
    assert (Hq : S t * sz / T <= S (t * sz / T)).
    { replace (S (t * sz / T)) with ((t * sz + 1 * T) / T) by (rewrite Nat.div_add; lia).
      apply Nat.div_le_mono; [lia|]. cbn [Nat.mul]. lia. }
    destruct (Nat.eqb_spec t 0) as [->|Hne].
    - rewrite Nat.mul_0_l, Nat.div_0_l in Hq by lia.
      assert (Hc : kf (el_head f) (map fst ps) (1 * sz / T) <= kf (el_head f) (map fst ps) 1) by (apply kf_mono; exact Hq).
      assert (H1 : kf (el_head f) (map fst ps) 1 <= 1); [|lia].
      pose proof Hwl as Hl. fold ps in Hl. clear -Hl. destruct (map fst ps) as [|l ls]; cbn [kf]; [lia|]. destruct (nl_from 1 (el_head f)) eqn:E; [lia|].
      destruct (Nat.leb_spec 1 (length (el_head f) + length (lhead l))) as [H|H]; [lia|].
      apply wf_lines_cons in Hl as [((Hx & _) & _) _]. rewrite lhead_len in H. destruct (l_x l); [congruence|cbn [length] in H; lia].
    - etransitivity; [|apply (kf_step f T HT)]. apply kf_mono. exact Hq.
  Qed.

  Lemma own_thread i p : length (el_text f) <= T -> nth_error ps i = Some p ->
    exists t, t < T /\ Kt t = i /\ ch t = [p].
  Proof.
    intros HsT Hi. assert (Hlt : i < length ps) by (apply nth_error_Some; congruence).
    assert (G : forall n, n <= T -> i < Kt n -> exists t, t < n /\ Kt t = i /\ Kt (S t) = S i).
    { induction n as [|n IH]; intros Hn H; [change (Kt 0) with 0 in H; lia|].
      destruct (Nat.lt_ge_cases i (Kt n)) as [Hl|Hge].
      - destruct (IH ltac:(lia) Hl) as (t & Ht & E). exists t. split; [lia|exact E].
      - pose proof (K_step n HsT ltac:(lia)). exists n. split; [lia|]. split; lia. }
    destruct (G T (le_n _)) as (t & Ht & E1 & E2).
    { unfold Kt. rewrite (K_T m 0 (el_head f) ps He T HT). exact Hlt. }
    exists t. split; [exact Ht|]. split; [exact E1|]. unfold ch, chunk, slice. fold Kt. rewrite E1, E2.
    replace (S i - i) with 1 by lia. clear - Hi. revert i Hi. induction ps as [|q qs IH]; intros [|i] Hi; cbn in Hi; try discriminate.
    - injection Hi as <-. reflexivity.
    - cbn [skipn]. apply IH. exact Hi.
  Qed.
End Whole.

(** A dropped entry with anything kept after it. *)
Lemma racy_main k L O fl f ws pg T pre e1 post :
  wf_kind k -> weights_are k f ws -> is_ity L -> is_ity O -> wf_el f -> labels_fit (imax L - 1) f ->
  (Z.of_nat (length (stored fl (triples f ws))) <= imax O)%Z -> off_page pg (el_text f) ->
  1 <= T -> length (el_text f) <= T ->
  triples f ws = pre ++ e1 :: post -> ~ keeps fl e1 ->
  (forall e, last (map Some (triples f ws)) None = Some e -> keeps fl e) ->
  exists sched,
    read_el L O (Some (wreader k)) fl (mkMem (el_text f) pg) 0 (length (el_text f)) T sched =
    Ok (let r := el_result (Some (wreader k)) fl f ws in
        mkCoo (co_x r) (co_y r) (upd (length (stored fl pre)) (Some (wzero k)) (co_w r)) (co_n r) (co_nrows r) (co_ncols r) (co_m r)).
Proof.
  intros Hk Hws HL HO Hwf Hfit Hcnt Hpg HT HsT He Hd Hl.
  pose proof (weights_len _ _ _ Hws) as Hlen. pose proof (ps_ent f ws) as Epe.
  assert (Hlast : lastdrop fl (combine (el_lines f) ws) = false) by (apply lastdrop_last; rewrite Epe; exact Hl).
  rewrite <- Epe in He.
  assert (Hp : exists p, nth_error (combine (el_lines f) ws) (length pre) = Some p /\ ent p = e1).
  { assert (E : nth_error (map ent (combine (el_lines f) ws)) (length pre) = Some e1) by (rewrite He, nth_error_app2, Nat.sub_diag by lia; reflexivity).
    rewrite nth_error_map in E. destruct (nth_error (combine (el_lines f) ws) (length pre)) as [p|]; [|discriminate]. injection E as E. eauto. }
  destruct Hp as (p & Hp & Ep).
  destruct (own_thread k fl f ws pg Hwf Hws T HT (length pre) p HsT Hp) as (t & Ht & Ek & Ec).
  assert (Hdp : drop fl p = true).
  { destruct (drop fl p) eqn:E; [reflexivity|]. exfalso. apply Hd. unfold keeps. rewrite <- Ep. intros E'. apply drop_expand in E'. congruence. }
  destruct (waits k Hk L O HL HO fl f ws pg Hwf Hws Hfit Hcnt Hpg Hlast T HT t p Ht Ec Hdp) as (sched & E).
  exists sched. 
  assert (EP : P fl (el_head f) (combine (el_lines f) ws) T t = length (stored fl pre)).
  { unfold P, total, stored. rewrite Ek. f_equal. f_equal. rewrite <- firstn_map, He, firstn_app, Nat.sub_diag, firstn_all. cbn [firstn]. apply app_nil_r. }
  rewrite EP in E. exact E.
Qed.

Lemma in_order_main k L O fl f ws pg T :
  wf_kind k -> weights_are k f ws -> is_ity L -> is_ity O -> wf_el f -> labels_fit (imax L - 1) f ->
  (Z.of_nat (length (stored fl (triples f ws))) <= imax O)%Z -> off_page pg (el_text f) -> 1 <= T ->
  (forall e, last (map Some (triples f ws)) None = Some e -> keeps fl e) ->
  read_el L O (Some (wreader k)) fl (mkMem (el_text f) pg) 0 (length (el_text f)) T [] = Ok (el_result (Some (wreader k)) fl f ws).
Proof.
  intros Hk Hws HL HO Hwf Hfit Hcnt Hpg HT Hl.
  apply (in_order k Hk L O HL HO fl f ws pg Hwf Hws Hfit Hcnt Hpg); [|exact HT].
  apply lastdrop_last. rewrite ps_ent. exact Hl.
Qed.
