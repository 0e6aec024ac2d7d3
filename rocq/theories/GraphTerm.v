(** * GraphTerm: the adjacency reader on arbitrary bytes: where it ends *)

From Verif Require Import Base Reader Sched SchedLemmas Spec ReaderLemmas Coo Safe Term Csr Graph.

(** The byte before [e] does not start a comment. *)
Definition noc (m : mem) (e : nat) : Prop := forall c, 0 < e -> load m (e - 1) = Ok c -> is_cmt c = false.

Lemma bnd_cmt m e c : bnd m e -> load m e = Ok c -> is_cmt c = false.
Proof.
  intros [->|(c' & H & Hd)] Hc.
  - unfold load, flen in Hc. rewrite (proj2 (nth_error_None (bytes m) (length (bytes m)))) in Hc by lia.
    destruct (_ <? _); [|discriminate]. injection Hc as <-. reflexivity.
  - rewrite H in Hc. injection Hc as <-. unfold is_digit, is_cmt, ch_pct, ch_hash in *. apply Bool.andb_true_iff in Hd as [H1 H2]. unfold ch_0, ch_9 in *. lia.
Qed.

Section End.
  Variable m : mem.
  Let G := slack m.
  Variable e : nat.
  Hypothesis He : e <= flen m.

  (** Skipping a comment goes on to the newline that ends it, or to the end. *)
  Lemma skip_line_nl n : forall d, d + n <= flen m -> 0 < n ->
    safe G (skip_line_ m n d) (fun d' => d < d' <= d + n /\ (d' < d + n -> exists c, load m (d' - 1) = Ok c /\ is_nl c = true) /\
      (forall c, load m d = Ok c -> is_nl c = false -> 1 < n -> S d < d')).
  Proof using.
    clear. induction n as [|n IH]; intros d Hd Hn; [lia|]. cbn [skip_line_].
    eapply safe_bind; [apply load_keep; lia|]. cbn beta. intros c Hc. destruct (is_nl c) eqn:Ec.
    - cbn. split; [lia|]. split; [intros _; exists c; rewrite Nat.sub_0_r; auto|]. intros c' Hc' Hn'. congruence.
    - destruct n as [|n]; [cbn; split; [lia|]; split; [lia|intros; lia]|]. eapply safe_imp; [apply IH; lia|]. cbn beta. intros d' (H1 & H2 & H3).
      split; [lia|]. split; [intros; apply H2; lia|]. intros; lia.
  Qed.

  Lemma skip_comments_nl_ fuel : forall d, d <= e -> e - d < fuel ->
    safe G (skip_comments_ m e fuel d) (fun d' => d <= d' <= e /\ (d' < e -> exists c, load m d' = Ok c /\ is_cmt c = false) /\
      (d' < e -> d' = d \/ exists c, load m (d' - 1) = Ok c /\ is_nl c = true) /\
      (forall c, load m d = Ok c -> is_cmt c = true -> d < e -> d < d' /\ (S d < e -> S d < d'))).
  Proof using He.
    induction fuel as [|fuel IH]; intros d Hd Hf; [lia|]. cbn [skip_comments_].
    destruct (Nat.ltb_spec d e) as [Hlt|Hge]; [|cbn; repeat split; intros; lia].
    eapply safe_bind; [apply load_keep; lia|]. intros c Hc. destruct (is_cmt c) eqn:Ec.
    - eapply safe_bind; [apply skip_line_nl; lia|]. cbn beta. intros d1 (H1 & H2 & H3).
      eapply safe_imp; [apply IH; lia|]. cbn beta. intros d' (A1 & A2 & A3 & A4). split; [lia|]. split; [exact A2|]. split.
      + intros Hd'. right. destruct (A3 Hd') as [->|H]; [apply H2; lia|exact H].
      + intros c' _ _ _. split; [lia|]. intros HS. enough (S d < d1) by lia. apply (H3 c); [exact Hc| |lia].
        unfold is_cmt, is_nl, ch_pct, ch_hash, ch_nl in *. lia.
    - cbn. split; [lia|]. split; [intros _; exists c; auto|]. split; [left; reflexivity|]. intros c' Hc' Hf'. congruence.
  Qed.

  Lemma skip_comments_nl d : d <= e ->
    safe G (skip_comments m e d) (fun d' => d <= d' <= e /\ (d' < e -> exists c, load m d' = Ok c /\ is_cmt c = false) /\
      (d' < e -> d' = d \/ exists c, load m (d' - 1) = Ok c /\ is_nl c = true) /\
      (forall c, load m d = Ok c -> is_cmt c = true -> d < e -> d < d' /\ (S d < e -> S d < d'))).
  Proof using He. intros Hd. apply skip_comments_nl_; lia. Qed.

  Lemma skip_here_nl d : d <= e ->
    safe G (skip_comments_here m e d) (fun d' => d <= d' <= e /\ (d' < e -> exists c, load m d' = Ok c /\ is_cmt c = false) /\
      (d' < e -> d' = d \/ exists c, load m (d' - 1) = Ok c /\ is_nl c = true)).
  Proof using He.
    intros Hd. unfold skip_comments_here. eapply safe_bind; [apply load_keep; lia|]. intros c Hc. destruct (is_cmt c) eqn:Ec.
    - eapply safe_imp; [apply skip_comments_nl; exact Hd|]. cbn beta. tauto.
    - cbn. split; [lia|]. split; [intros _; exists c; auto|left; reflexivity].
  Qed.

  (** The byte before a number found by the search does not start a comment. *)
  Lemma seek_noc fuel : forall d, d <= e -> e - d < fuel -> (d < e -> exists c, load m d = Ok c /\ is_cmt c = false) ->
    safe G (seek_ m is_digit e fuel d) (fun d' => d <= d' <= e /\ (d' < e -> exists c, load m d' = Ok c /\ is_digit c = true) /\ (d' < e -> d' = d \/ noc m d')).
  Proof using He.
    induction fuel as [|fuel IH]; intros d Hd Hf Hc0; [lia|]. cbn [seek_].
    destruct (Nat.ltb_spec d e) as [Hlt|Hge]; [|cbn; repeat split; lia].
    eapply safe_bind; [apply load_keep; lia|]. intros c Hc. destruct (is_digit c) eqn:Es.
    - cbn. split; [lia|]. split; [intros _; exists c; auto|left; reflexivity].
    - eapply safe_bind; [apply skip_here_nl; lia|]. cbn beta. intros d1 (A1 & A2 & A3).
      eapply safe_imp; [apply IH; [lia|lia|exact A2]|]. cbn beta. intros d' (B1 & B2 & B3). split; [lia|]. split; [exact B2|].
      intros Hd'. right. destruct (B3 Hd') as [->|H]; [|exact H]. destruct (A3 Hd') as [->|(c' & Hc' & Hn)].
      + intros c' _ Hc'. cbn in Hc'. rewrite Nat.sub_0_r in Hc'. destruct (Hc0 Hlt) as (c0 & H1 & H2). congruence.
      + intros c1 _ H1. assert (c1 = c') by congruence. subst c1. unfold is_cmt, is_nl, ch_pct, ch_hash, ch_nl in *. lia.
  Qed.

  Lemma move_to_next_int_noc d : d <= e ->
    safe G (move_to_next_int m e d) (fun d' => d <= d' <= e /\ (d' < e -> (exists c, load m d' = Ok c /\ is_digit c = true) /\ noc m d')).
  Proof using He.
    intros Hd. unfold move_to_next_int, move_to_non_int, move_to_first_int. eapply safe_bind; [apply (scan_safe m e He); exact Hd|]. cbn beta.
    intros d1 (H1 & H2 & _). eapply safe_bind; [apply skip_here_nl; lia|]. cbn beta. intros d2 (A1 & A2 & A3).
    eapply safe_imp; [apply seek_noc; [lia|lia|exact A2]|]. cbn beta. intros d' (B1 & B2 & B3). split; [lia|]. intros Hd'. split; [apply B2; exact Hd'|].
    destruct (B3 Hd') as [->|H]; [|exact H]. destruct (A3 Hd') as [->|(c' & Hc' & Hn)].
    - exfalso. destruct (H2 Hd') as (c & Hc & Hn). destruct (B2 Hd') as (c' & Hc' & Hn'). congruence.
    - intros c1 _ C1. assert (c1 = c') by congruence. subst c1. unfold is_cmt, is_nl, ch_pct, ch_hash, ch_nl in *. lia.
  Qed.

  (** One step of a pass goes forward unless a comment starts at the last byte. *)
  Hypothesis Hb : bnd m e.
  Hypothesis Hn : noc m e.

  Lemma cmt_skip_noc d c : d < e -> load m d = Ok c -> is_cmt c = true ->
    safe G (d' <- skip_comments m e d ;; Ok (d' - 1)) (fun d' => d < d' <= e).
  Proof using He Hn.
    intros Hd Hc Ec. eapply safe_bind; [apply skip_comments_nl; lia|]. cbn beta. intros d' (A1 & _ & _ & A4).
    destruct (A4 c Hc Ec Hd) as [_ H]. cbn. destruct (Nat.eq_dec (S d) e) as [E|]; [|specialize (H ltac:(lia)); lia].
    exfalso. assert (is_cmt c = false); [|congruence]. apply (Hn c); [lia|]. rewrite <- E. cbn. rewrite Nat.sub_0_r. exact Hc.
  Qed.

  Lemma loop_noc fuel : forall d, d <= e -> e - d < fuel ->
    safe G (int_or_nl_loop m e fuel d) (fun d' => d <= d' <= e /\ (d < e -> (exists c, load m d = Ok c /\ is_digit c = false /\ is_nl c = false) -> d < d')).
  Proof using He Hb Hn.
    induction fuel as [|fuel IH]; intros d Hd Hf; [lia|]. cbn [int_or_nl_loop].
    destruct (Nat.ltb_spec d e) as [Hlt|Hge]; [|cbn; split; [lia|intros; lia]].
    eapply safe_bind; [apply load_keep; lia|]. intros c Hc. destruct (is_digit c || is_nl c) eqn:Es.
    - cbn. split; [lia|]. intros _ (c' & Hc' & E1 & E2). assert (c' = c) by congruence. subst c'. rewrite E1, E2 in Es. discriminate.
    - eapply safe_bind; [apply load_keep; lia|]. intros c2 Hc2. destruct (is_cmt c2) eqn:E2.
      + assert (S d < e).
        { destruct (Nat.eq_dec (S d) e) as [E|]; [|lia]. rewrite E in Hc2. rewrite (bnd_cmt m e c2 Hb Hc2) in E2. discriminate. }
        eapply safe_imp; [apply (cmt_skip_noc (S d) c2); assumption|]. cbn beta. intros d' H'. split; [lia|intros; lia].
      + eapply safe_imp; [apply IH; lia|]. cbn beta. intros d' (H' & _). split; [lia|intros; lia].
  Qed.

  Lemma next_safe d : d < e -> safe G (move_to_next_int_or_nl m e d) (fun d' => d < d' <= e).
  Proof using He Hb Hn.
    intros Hd. unfold move_to_next_int_or_nl. destruct (Nat.ltb_spec d e) as [_|]; [|lia]. cbn [bind].
    eapply safe_bind with (Q := fun a => exists c, load m d = Ok c /\ a = is_digit c).
    { eapply safe_bind; [apply load_keep; lia|]. intros c Hc. exists c; split; [exact Hc|reflexivity]. }
    cbn beta. intros a (c & Hc & ->). unfold move_to_non_int. eapply safe_bind; [apply (scan_safe m e He); lia|]. cbn beta. intros d1 (H1 & H2 & H3).
    assert (P : is_digit c = true -> d < d1).
    { intros E. destruct (Nat.eq_dec d1 d) as [->|]; [|lia]. destruct (H2 Hd) as (c' & Hc' & E'). congruence. }
    assert (P' : is_digit c = false -> d1 = d).
    { intros E. destruct (Nat.eq_dec d1 d) as [->|]; [reflexivity|]. destruct (H3 d ltac:(lia)) as (c' & Hc' & E'). congruence. }
    eapply safe_bind with (Q := fun nl => (nl = true -> d1 < e) /\ (nl = false -> d1 < e -> exists c1, load m d1 = Ok c1 /\ is_nl c1 = false)).
    { destruct (Nat.ltb_spec d1 e); [|cbn; split; [discriminate|intros; lia]]. eapply safe_bind; [apply load_keep; lia|]. intros c1 Hc1. split; [auto|]. intros E _. exists c1; auto. }
    cbn beta. intros nl [N1 N2]. destruct (nl && is_digit c) eqn:En.
    - cbn. apply andb_prop in En as [_ En]. specialize (P En). lia.
    - cbn zeta. set (d2 := if nl then S d1 else d1).
      assert (D2 : d <= d2 <= e) by (unfold d2; destruct nl; [specialize (N1 eq_refl)|]; lia).
      assert (D2' : nl = true -> d < d2) by (unfold d2; intros ->; lia).
      assert (D2'' : is_digit c = true -> d < d2) by (intros E; specialize (P E); unfold d2; destruct nl; lia).
      assert (D3 : nl = false -> d2 = d1) by (unfold d2; intros ->; reflexivity).
      clearbody d2. eapply safe_bind; [apply load_keep; lia|]. intros c2 Hc2. destruct (is_cmt c2) eqn:E2.
      + assert (d2 < e). { destruct (Nat.eq_dec d2 e) as [->|]; [|lia]. rewrite (bnd_cmt m e c2 Hb Hc2) in E2. discriminate. }
        eapply safe_imp; [apply (cmt_skip_noc d2 c2); assumption|]. cbn beta. lia.
      + eapply safe_imp; [apply loop_noc; lia|]. cbn beta. intros d' (L1 & L2). split; [|lia].
        destruct (Nat.eq_dec d2 d) as [->|]; [|lia]. apply L2; [exact Hd|]. exists c. split; [exact Hc|]. destruct (is_digit c); [specialize (D2'' eq_refl); lia|]. split; [reflexivity|].
        destruct nl; [specialize (D2' eq_refl); lia|]. specialize (P' eq_refl). destruct (N2 eq_refl ltac:(lia)) as (c1 & Hc1 & E1). rewrite P' in Hc1. congruence.
  Qed.

  Lemma at_nl_safe d : d <= e -> safe G (at_nl_or_eol m e d) (fun b => (d = e -> b = true) /\ (d < e -> exists c, load m d = Ok c /\ b = (is_nl c || is_cmt c))).
  Proof using He.
    intros Hd. unfold at_nl_or_eol. destruct (Nat.eqb_spec d e); [cbn; split; [auto|lia]|]. eapply safe_bind; [apply load_keep; lia|]. intros c Hc. split; [lia|]. intros _. exists c; auto.
  Qed.
  Lemma at_zero_safe d : d < e -> safe G (at_zero m e d) (fun _ => True).
  Proof using He.
    intros Hd. unfold at_zero. dif; [exact Logic.I|]. eapply safe_bind; [apply load_keep; lia|]. intros c _. dif; [exact Logic.I|].
    eapply safe_bind; [apply load_keep; lia|]. intros; exact Logic.I.
  Qed.

  Lemma gr_count_safe fuel : forall d a b h, e - d < fuel -> safe G (gr_count m e fuel d a b h) (fun _ => True).
  Proof using He Hb Hn.
    induction fuel as [|fuel IH]; intros d a b h Hf; [lia|]. cbn [gr_count]. destruct (Nat.ltb_spec d e) as [Hd|]; [|exact Logic.I].
    eapply safe_bind; [apply at_nl_safe; lia|]. intros nl _. eapply safe_bind; [apply at_zero_safe; lia|]. intros z _.
    eapply safe_bind; [apply next_safe; lia|]. cbn beta. intros d' H'. apply IH. lia.
  Qed.

  Lemma gr_set_false L O n fuel : forall d opos epos mx, e - d < fuel -> safe False (gr_set L O n m e fuel d opos epos mx) (fun _ => True).
  Proof using He Hb Hn.
    induction fuel as [|fuel IH]; intros d opos epos mx Hf; [lia|]. cbn [gr_set]. destruct (Nat.ltb_spec d e) as [Hd|]; [|exact Logic.I].
    dif; [exact Logic.I|]. eapply safe_bind; [eapply safe_false; apply at_nl_safe; lia|]. intros nl _. destruct nl.
    - eapply safe_bind; [apply arith_false|]. intros o' _. eapply safe_bind; [eapply safe_false; apply next_safe; lia|]. cbn beta. intros d' H'.
      eapply safe_bind; [apply IH; lia|]. intros [c mx'] _. exact Logic.I.
    - eapply safe_bind; [apply read_int_safe_false; [exact He|lia]|]. cbn beta. intros [v d1] [H1 H1']. cbn [snd] in *. specialize (H1' Hd).
      eapply safe_bind; [apply arith_false|]. intros e' _. eapply safe_bind; [eapply safe_false; apply at_nl_safe; lia|]. cbn beta. intros nl2 [N2 _].
      eapply safe_bind with (Q := fun d' => d1 <= d' <= e).
      { destruct nl2; [cbn; lia|]. assert (d1 <> e) by (intros E; specialize (N2 E); discriminate).
        eapply safe_imp; [eapply safe_false; apply next_safe; lia|]. cbn beta. lia. }
      cbn beta. intros d' H'. eapply safe_bind; [apply IH; lia|]. intros [c mx'] _. exact Logic.I.
  Qed.
End End.

Lemma gr_chunk_safe m d0 T t : noc m (flen m) ->
  safe (slack m) (gr_chunk m d0 (flen m) T t) (fun c => snd c <= flen m /\ bnd m (snd c) /\ noc m (snd c)).
Proof.
  intros Hn. unfold gr_chunk.
  assert (Ha : forall p, advance (flen m) d0 p <= flen m) by (intros; unfold advance; lia).
  eapply safe_bind; [apply (move_to_next_int_noc m (flen m)); [lia|apply Ha]|]. cbn beta. intros re (Hre & Hb).
  eapply safe_bind with (Q := fun _ => True).
  { destruct (t =? 0).
    - eapply safe_imp; [apply (move_to_first_int_safe m (flen m)); [lia|apply Ha]|]. auto.
    - eapply safe_imp; [apply (move_to_next_int_safe m (flen m)); [lia|apply Ha]|]. auto. }
  intros rs _. cbn [safe snd]. unfold smaller_end. destruct (Nat.ltb_spec re (flen m)) as [H|]; [|split; [lia|]; split; [left; reflexivity|exact Hn]].
  destruct (Hb H) as [H1 H2]. split; [lia|]. split; [right; exact H1|exact H2].
Qed.

Lemma zset_fin i v l : zset i v l <> Stuck.
Proof. unfold zset, aset. repeat dif; discriminate. Qed.
Lemma run_fin {I S} (exec : I -> S -> res S) sched : (forall i s, exec i s <> Stuck) -> forall ps s, run exec sched ps s <> Stuck.
Proof.
  intros H.
  assert (E : forall l s, exec_all exec l s <> Stuck) by (induction l as [|i l IH]; intros s; cbn [exec_all]; [discriminate|apply fin_bind'; auto]).
  induction sched as [|t sched IH]; intros ps s; cbn [run]; [apply E|]. destruct (pop t ps) as [[i ps']|]; [|apply IH]. apply fin_bind'; auto.
Qed.

Lemma csr_alloc_fin {W} L b n mm : csr_alloc (W:=W) L b n mm <> Stuck.
Proof.
  unfold csr_alloc, plus1, alloc, arith. repeat first [discriminate|dif|apply fin_bind'; [|intros ? _]].
Qed.

(** *** Also from a position after the end *)
Section Any.
  Variable m : mem.
  Let e := flen m.
  Lemma load_false d : safe False (load m d) (fun _ => True).
  Proof. unfold load. destruct (nth_error _ _); [exact Logic.I|]. dif; cbn; tauto. Qed.
  Lemma first_any d : safe False (move_to_first_int m e d) (fun _ => True).
  Proof.
    destruct (Nat.le_gt_cases d e).
    - eapply safe_imp; [eapply safe_false; apply (move_to_first_int_safe m e); [unfold e; lia|exact H]|]. auto.
    - unfold move_to_first_int, skip_comments_here, skip_comments. replace (e - d) with 0 by lia. eapply safe_bind with (Q := fun d' => d' = d).
      + eapply safe_bind; [apply load_false|]. intros c _. dif; [|reflexivity]. cbn [skip_comments_]. destruct (Nat.ltb_spec d e); [lia|reflexivity].
      + intros d' ->. replace (e - d) with 0 by lia. cbn [seek_]. destruct (Nat.ltb_spec d e); [lia|exact Logic.I].
  Qed.
  Lemma scan_any p d : safe False (scan m p e d) (fun _ => True).
  Proof.
    unfold scan. generalize (e - d). intros n. revert d. induction n as [|n IH]; intros d; cbn [scan_]; [exact Logic.I|].
    eapply safe_bind; [apply load_false|]. intros c _. dif; [apply IH|exact Logic.I].
  Qed.
  Lemma next_any d : safe False (move_to_next_int m e d) (fun _ => True).
  Proof. unfold move_to_next_int, move_to_non_int. eapply safe_bind; [apply scan_any|]. intros d1 _. apply first_any. Qed.
  Lemma read_any t d : safe False (read_int m t e d) (fun _ => True).
  Proof.
    unfold read_int. eapply safe_bind; [apply scan_any|]. intros d1 _. generalize (e - d1), 0%Z. intros n. revert d1.
    induction n as [|n IH]; intros d1 acc; cbn [read_digits_]; [exact Logic.I|]. eapply safe_bind; [apply load_false|]. intros c _.
    dif; [|exact Logic.I]. eapply safe_bind; [apply arith_false|]. intros a _. apply IH.
  Qed.
End Any.

(** ** The reader ends on every file whose last byte does not start a comment *)
Lemma read_graph_fin {W} L O OS m d0 ch : noc m (flen m) -> read_graph (W:=W) L O OS m d0 (flen m) ch <> Stuck.
Proof.
  intros Hn. unfold read_graph. cbn zeta.
  eapply fin_bind; [apply first_any|]. intros d1 _. eapply fin_bind; [apply read_any|]. intros [rn d2] _.
  eapply fin_bind; [apply next_any|]. intros d3 _. eapply fin_bind; [apply read_any|]. intros [rm d4] _.
  eapply fin_bind; [apply scan_any|]. intros d5 _. eapply fin_bind; [apply next_any|]. intros d6 _.
  eapply fin_bind with (Q := Forall (fun c => snd c <= flen m /\ bnd m (snd c) /\ noc m (snd c))).
  { apply (mapM_term _ (fun _ => True)); [intros t _; eapply safe_false; apply gr_chunk_safe; exact Hn|]. apply Forall_forall; auto. }
  intros chunks Hc.
  eapply fin_bind with (Q := Forall (fun _ => True)).
  { apply (mapM_term _ (fun c => snd c <= flen m /\ bnd m (snd c) /\ noc m (snd c))); [|exact Hc]. intros c (C1 & C2 & C3).
    eapply safe_false. apply gr_count_safe; auto; lia. }
  intros p1 _. apply fin_bind'.
  { unfold found_zero. apply fin_bind'; [|discriminate]. apply run_fin. intros [t|t] s; discriminate. }
  intros hz _. apply fin_bind'; [apply csr_alloc_fin|]. intros [[en w] off] _.
  apply fin_bind'; [apply zset_fin|]. intros off1 _. apply fin_bind'; [destruct hz; [discriminate|apply zset_fin]|]. intros off2 _.
  apply fin_bind'; [apply zset_fin|]. intros off3 _.
  eapply fin_bind with (Q := Forall (fun _ => True)).
  { apply (mapM_term _ (fun q => snd (fst q) <= flen m /\ bnd m (snd (fst q)) /\ noc m (snd (fst q)))).
    - intros [c [o i]] (C1 & C2 & C3). cbn [fst] in *. apply gr_set_false; auto; lia.
    - apply Forall_forall. intros [c q] Hq. apply in_combine_l in Hq. cbn [fst]. revert c Hq. apply Forall_forall. exact Hc. }
  intros p2 _. apply fin_bind'.
  { apply run_fin. intros [k v|k v] s; cbn [gexec]; (apply fin_bind'; [apply zset_fin|discriminate]). }
  intros s _. apply fin_bind'; [unfold twice; dif; [discriminate|apply arith_fin]|]. intros m2 _. repeat dif; try discriminate.
  all: (apply fin_bind'; [apply arith_fin|]). all: intros; discriminate.
Qed.

(** ** It does not end if the last byte starts a comment *)
Section Hang.
  Variable m : mem.
  Hypothesis Hsl : slack m.
  Let e := flen m.
  Variable x : byte.
  Hypothesis Hx : load m (e - 1) = Ok x.
  Hypothesis Ex : is_cmt x = true.

  Let He : e <= flen m. Proof. unfold e. lia. Qed.
  Let last_kind : is_digit x = false /\ is_nl x = false.
  Proof. unfold is_cmt, is_digit, is_nl, ch_pct, ch_hash, ch_0, ch_9, ch_nl in *. lia. Qed.

  Lemma hang_cmt d : d < e -> safe (slack m) (d' <- skip_comments m e d ;; Ok (d' - 1)) (fun d' => d' < e).
  Proof.
    intros Hd. eapply safe_bind; [apply (skip_comments_safe m e He); lia|]. cbn beta. intros d' H'. cbn. lia.
  Qed.

  Lemma hang_loop fuel : forall d, d < e -> e - d < fuel -> (d = e - 1 -> False) -> safe (slack m) (int_or_nl_loop m e fuel d) (fun d' => d' < e).
  Proof.
    induction fuel as [|fuel IH]; intros d Hd Hf Hne; [lia|]. cbn [int_or_nl_loop]. destruct (Nat.ltb_spec d e) as [_|]; [|lia].
    eapply safe_bind; [apply load_keep; lia|]. intros c Hc. destruct (is_digit c || is_nl c); [cbn; lia|].
    eapply safe_bind; [apply load_keep; lia|]. intros c2 Hc2. destruct (is_cmt c2) eqn:E2; [apply hang_cmt; lia|].
    apply IH; [lia|lia|]. intros E. rewrite E in Hc2. rewrite Hx in Hc2. injection Hc2 as <-. congruence.
  Qed.

  Lemma hang_next d : d < e -> safe (slack m) (move_to_next_int_or_nl m e d) (fun d' => d' < e).
  Proof.
    intros Hd. destruct last_kind as [L1 L2]. unfold move_to_next_int_or_nl. destruct (Nat.ltb_spec d e) as [_|]; [|lia]. cbn [bind].
    eapply safe_bind with (Q := fun _ => True).
    { eapply safe_bind; [apply load_keep; lia|]. intros c Hc. exact Logic.I. }
    intros a _. unfold move_to_non_int. eapply safe_bind; [apply (scan_safe m e He); lia|]. cbn beta. intros d1 (H1 & H2 & H3).
    assert (D1 : d1 < e).
    { destruct (Nat.eq_dec d1 e) as [->|]; [|lia]. destruct (H3 (e - 1) ltac:(lia)) as (c & Hc & E). rewrite Hx in Hc. injection Hc as <-. congruence. }
    destruct (Nat.ltb_spec d1 e) as [_|]; [|lia]. cbn [bind].
    eapply safe_bind with (Q := fun nl => nl = true -> S d1 < e).
    { eapply safe_bind; [apply load_keep; lia|]. intros c1 Hc1. cbn. intros E. destruct (Nat.eq_dec (S d1) e) as [E1|]; [|lia].
      replace d1 with (e - 1) in Hc1 by lia. rewrite Hx in Hc1. injection Hc1 as <-. congruence. }
    cbn beta. intros nl N. destruct (nl && a) eqn:En; [cbn; lia|]. cbn zeta.
    assert (D2 : (if nl then S d1 else d1) < e) by (destruct nl; [specialize (N eq_refl)|]; lia).
    set (d2 := if nl then S d1 else d1) in *. clearbody d2. eapply safe_bind; [apply load_keep; lia|]. intros c2 Hc2.
    destruct (is_cmt c2) eqn:E2; [apply hang_cmt; lia|]. apply hang_loop; [lia|lia|]. intros E. rewrite E, Hx in Hc2. injection Hc2 as <-. congruence.
  Qed.

  (** Whatever the number of steps. *)
  Lemma gr_count_hang fuel : forall d a b h, d < e -> gr_count m e fuel d a b h = Stuck.
  Proof.
    induction fuel as [|fuel IH]; intros d a b h Hd; [reflexivity|]. cbn [gr_count]. destruct (Nat.ltb_spec d e) as [_|]; [|lia].
    destruct (safe_ok _ _ _ Hsl (at_nl_safe m e He d ltac:(lia))) as (nl & -> & _). cbn [bind].
    destruct (safe_ok _ _ _ Hsl (at_zero_safe m e He d Hd)) as (z & -> & _). cbn [bind].
    destruct (safe_ok _ _ _ Hsl (hang_next d Hd)) as (d' & -> & Hd'). cbn [bind]. apply IH. exact Hd'.
  Qed.

  Lemma mapM_stuck {A B} (f : A -> res B) : forall l, (forall a, In a l -> f a = Stuck \/ exists b, f a = Ok b) -> (exists a, In a l /\ f a = Stuck) -> mapM f l = Stuck.
  Proof.
    clear. induction l as [|a l IH]; intros H [a0 [Hin Hs]]; [contradiction|]. cbn [mapM].
    destruct (H a (or_introl eq_refl)) as [-> |[b Hb]]; [reflexivity|]. rewrite Hb. cbn [bind].
    destruct Hin as [->|Hin]; [congruence|]. rewrite IH; [reflexivity|intros; apply H; right; assumption|eauto].
  Qed.

  (** The cut of the file among [T] threads: start [t+1] is end [t]. *)
  Lemma chunks_hang d6 T c6 : d6 < e -> load m d6 = Ok c6 -> is_digit c6 = true -> 0 < T ->
    exists chunks, mapM (gr_chunk m d6 e T) (seq 0 T) = Ok chunks /\
      (forall c, In c chunks -> snd c = e \/ snd c < e /\ bnd m (snd c) /\ noc m (snd c)) /\
      exists c, In c chunks /\ fst c < e /\ snd c = e.
  Proof.
    intros Hd Hc6 Ed HT.
    set (p := fun t => advance e d6 ((t * (e - d6)) / T)).
    assert (Hp : forall t, p t <= e) by (intros; unfold p, advance; lia).
    assert (N : forall t, exists d', move_to_next_int m e (p t) = Ok d' /\ d' <= e /\ (d' < e -> bnd m d' /\ noc m d')).
    { intros t. destruct (safe_ok _ _ _ Hsl (move_to_next_int_noc m e He (p t) (Hp t))) as (d' & E & H1 & H2). exists d'. split; [exact E|]. split; [lia|].
      intros H. destruct (H2 H) as [H3 H4]. split; [right; exact H3|exact H4]. }
    assert (F0 : move_to_first_int m e (p 0) = Ok d6).
    { assert (E0 : p 0 = d6) by (unfold p, advance; cbn; rewrite Nat.div_0_l by lia; lia). rewrite E0.
      unfold move_to_first_int, skip_comments_here. rewrite Hc6. cbn [bind]. rewrite (digit_not_cmt _ Ed). cbn [bind seek_].
      destruct (Nat.ltb_spec d6 e); [|lia]. rewrite Hc6. cbn [bind]. rewrite Ed. reflexivity. }
    assert (NT : move_to_next_int m e (p T) = Ok e).
    { assert (E0 : p T = e) by (unfold p, advance; rewrite (Nat.mul_comm T), Nat.div_mul by lia; lia).
      destruct (N T) as (d' & E & H1 & _). destruct (safe_ok _ _ _ Hsl (move_to_next_int_noc m e He (p T) (Hp T))) as (d'' & E' & H1' & _). rewrite E'. f_equal. lia. }
    set (st := fun t => match t with 0 => d6 | _ => match move_to_next_int m e (p t) with Ok d => d | _ => 0 end end).
    assert (C : forall t, gr_chunk m d6 e T t = Ok (st t, st (S t))).
    { intros t. unfold gr_chunk. cbn zeta. fold (p t). replace (t + 1) with (S t) by lia. fold (p (S t)). unfold st at 2.
      destruct (N (S t)) as (d1 & E1 & H1 & _). rewrite E1. cbn [bind]. unfold smaller_end. replace (if d1 <? e then d1 else e) with d1 by (destruct (Nat.ltb_spec d1 e); lia).
      destruct t as [|t]; cbn [Nat.eqb].
      - rewrite F0. reflexivity.
      - unfold st. destruct (N (S t)) as (d2 & E2 & _). rewrite E2. reflexivity. }
    assert (Hst : forall t, snd (st t, st (S t)) = e \/ snd (st t, st (S t)) < e /\ bnd m (snd (st t, st (S t))) /\ noc m (snd (st t, st (S t)))).
    { intros t. cbn [snd]. unfold st. destruct (N (S t)) as (d1 & E1 & H1 & H2). rewrite E1. destruct (Nat.eq_dec d1 e); [left; assumption|]. right. split; [lia|]. apply H2. lia. }
    exists (map (fun t => (st t, st (S t))) (seq 0 T)). split; [|split].
    - clear - C. induction (seq 0 T) as [|t l IH]; cbn [mapM map]; [reflexivity|]. rewrite C, IH. reflexivity.
    - intros c Hin. apply in_map_iff in Hin as (t & <- & _). apply Hst.
    - assert (X : forall k, k <= T -> (forall t, t <= k -> st t < e) \/ exists t, t < k /\ st t < e /\ st (S t) = e).
      { induction k as [|k IH]; intros Hk.
        - left. intros t Ht. replace t with 0 by lia. exact Hd.
        - destruct (IH ltac:(lia)) as [H|(t & H1 & H2)]; [|right; exists t; split; [lia|exact H2]].
          destruct (Hst k) as [E|(E & _)]; cbn [snd] in E.
          + right. exists k. split; [lia|]. split; [apply H; lia|exact E].
          + left. intros t Ht. destruct (Nat.eq_dec t (S k)) as [->|]; [exact E|apply H; lia]. }
      destruct (X T ltac:(lia)) as [H|(t & H1 & H2 & H3)].
      + specialize (H T ltac:(lia)). unfold st in H. destruct T as [|T']; [lia|]. rewrite NT in H. lia.
      + exists (st t, st (S t)). split; [|auto]. apply in_map_iff. exists t. split; [reflexivity|]. apply in_seq. lia.
  Qed.

  Lemma counts_hang d6 T c6 : d6 < e -> load m d6 = Ok c6 -> is_digit c6 = true -> 0 < T ->
    exists chunks, mapM (gr_chunk m d6 e T) (seq 0 T) = Ok chunks /\ (exists c, In c chunks /\ fst c < e /\ snd c = e) /\
      mapM (fun c => gr_count m (snd c) (S (snd c - fst c)) (fst c) 0 0 false) chunks = Stuck.
  Proof.
    intros H1 H2 H3 H4. destruct (chunks_hang d6 T c6 H1 H2 H3 H4) as (chunks & E & Hc & Hs). exists chunks. split; [exact E|]. split; [exact Hs|].
    apply mapM_stuck.
    - intros c Hin. destruct (Hc c Hin) as [E1|(E1 & E2 & E3)].
      + rewrite E1. destruct (Nat.ltb_spec (fst c) e); [left; apply gr_count_hang; assumption|]. right. cbn [gr_count]. destruct (Nat.ltb_spec (fst c) e); [lia|eauto].
      + right. destruct (safe_ok _ _ _ Hsl (gr_count_safe m (snd c) ltac:(lia) E2 E3 (S (snd c - fst c)) (fst c) 0 0 false ltac:(lia))) as (r & Er & _). exists r; exact Er.
    - destruct Hs as (c & Hin & F1 & F2). exists c. split; [exact Hin|]. rewrite F2. apply gr_count_hang. exact F1.
  Qed.
End Hang.
