(** * TensorSafe: the tensor reader on arbitrary bytes *)

From Verif Require Import Base Reader Sched SchedLemmas Spec ReaderLemmas Coo Csr Codec Bin Load Tensor Safe Term.


Section Bytes.
  Variable m : mem.
  Hypothesis Hpg : 0 < page m.
  Let G := slack m.
  Let e := flen m.

  Lemma flen_map : flen m <= map_len m.
  Proof.
    unfold map_len. pose proof (Nat.div_mod (flen m + (page m - 1)) (page m) ltac:(lia)).
    pose proof (Nat.mod_upper_bound (flen m + (page m - 1)) (page m) ltac:(lia)). nia.
  Qed.

  Lemma load_end_safe : safe G (load m e) (fun c => c = 0%Z).
  Proof using Type.
    clear. unfold load, e, G, slack, flen. destruct (nth_error (bytes m) (length (bytes m))) eqn:E.
    - exfalso. assert (length (bytes m) < length (bytes m)) by (apply nth_error_Some; congruence). lia.
    - fold (flen m). destruct (Nat.ltb_spec (flen m) (map_len m)); cbn; [reflexivity|lia].
  Qed.

  Lemma skip_spaces_safe fuel : forall d, d <= e -> e - d < fuel -> safe G (skip_spaces_ m fuel d) (fun d' => d <= d' <= e).
  Proof using Type.
    clear Hpg. induction fuel as [|fuel IH]; intros d Hd Hf; [lia|]. cbn [skip_spaces_].
    destruct (Nat.eq_dec d e) as [->|Hne].
    - eapply safe_bind; [apply load_end_safe|]. cbn beta. intros c ->. cbn. lia.
    - eapply safe_bind; [apply load_safe; fold e; lia|]. intros c _. destruct (c =? ch_sp)%Z; [|cbn; lia].
      eapply safe_imp; [apply IH; lia|]. cbn beta. lia.
  Qed.

  Lemma count_spaces_safe fuel : forall d ct, d <= e -> e - d < fuel -> safe G (count_spaces_ m e fuel d ct) (fun r => d <= snd r <= e).
  Proof.
    induction fuel as [|fuel IH]; intros d ct Hd Hf; [lia|]. cbn [count_spaces_].
    destruct (Nat.ltb_spec d e) as [Hlt|Hge]; [|cbn; lia].
    eapply safe_bind; [apply load_safe; fold e; lia|]. intros c0 _. destruct (is_nl c0); [cbn; lia|].
    eapply safe_bind; [apply scan_safe; [apply le_n|exact Hd]|]. cbn beta. intros d1 (H1 & H1' & _).
    assert (HL1 : safe G (load m d1) (fun c => load m d1 = Ok c)) by (apply load_keep; fold e; lia).
    eapply safe_bind; [exact HL1|]. cbn beta. intros c1 Hc1.
    destruct (is_digit c1) eqn:Ec1; cbn [negb].
    2:{ eapply safe_bind; [unfold move_to_eol; apply scan_safe; [apply le_n|lia]|]. cbn beta. intros d' (H & _). cbn. lia. }
    assert (Hd1e : d1 < e).
    { destruct (Nat.eq_dec d1 e) as [->|]; [|lia]. pose proof load_end_safe as H. rewrite Hc1 in H. cbn in H. subst c1. discriminate. }
    eapply safe_bind; [apply scan_safe; [apply le_n|lia]|]. cbn beta. intros d2 (H2 & H2' & _).
    assert (d1 < d2).
    { destruct (Nat.eq_dec d2 d1) as [->|]; [|lia]. destruct (H2' Hd1e) as (c & Hc & Hp). rewrite Hc1 in Hc. injection Hc as <-. rewrite Ec1 in Hp. discriminate. }
    eapply safe_bind; [apply load_safe; fold e; lia|]. intros c2 _. destruct (is_nl c2); [cbn; lia|].
    destruct (is_cmt c2).
    { eapply safe_bind; [unfold move_to_eol; apply scan_safe; [apply le_n|lia]|]. cbn beta. intros d' (H' & _). cbn. lia. }
    eapply safe_bind; [apply skip_spaces_safe; [lia|pose proof flen_map; unfold e in *; lia]|]. cbn beta. intros d3 H3.
    eapply safe_bind; [apply load_safe; fold e; lia|]. intros c3 _. destruct (is_nl c3); [cbn; lia|].
    destruct (is_cmt c3).
    { eapply safe_bind; [unfold move_to_eol; apply scan_safe; [apply le_n|lia]|]. cbn beta. intros d' (H' & _). cbn. lia. }
    eapply safe_imp; [apply IH; lia|]. cbn beta. lia.
  Qed.

  Lemma tensor_order_safe O w d0 : d0 <= e -> safe False (tensor_order O w m d0 e) (fun _ => True).
  Proof.
    intros Hd. unfold tensor_order.
    eapply safe_bind; [eapply safe_false; apply (move_to_first_int_safe m e (le_n _)); exact Hd|]. cbn beta. intros d1 (H1 & _).
    eapply safe_bind; [eapply safe_false; unfold count_spaces_to_eol; apply count_spaces_safe; lia|]. cbn beta. intros [ct d2] _.
    destruct w; [exact Logic.I|]. unfold arith.
    repeat match goal with |- context [if ?x then _ else _] => destruct x; cbn; try tauto end.
  Qed.
End Bytes.

Section Loops.
  Context {W : Type}.
  Variable L : ity.
  Variable wr : option (wrd W).
  Hypothesis Hwr : owterm wr.
  Variable k : nat.
  Variable m : mem.
  Variable e : nat.
  Hypothesis He : e <= flen m.
  Hypothesis Hb : bnd m e.

  Lemma tcount_labels_term : forall j d, d <= e -> safe False (tcount_labels L wr m e j d) (fun r => d <= fst r <= e).
  Proof using He.
    induction j as [|j IH]; intros d Hd; cbn [tcount_labels]; [cbn; lia|].
    eapply safe_bind with (Q := fun d' => d <= d' <= e).
    - destruct (is_some wr).
      + eapply safe_imp; [eapply safe_false; apply (move_to_next_int_safe m e He); exact Hd|]. cbn beta. tauto.
      + eapply safe_bind; [apply read_int_safe_false; assumption|]. cbn beta. intros [v d'] [H _]. cbn in *. lia.
    - cbn beta. intros d1 H1. destruct (e <=? d1); [cbn; lia|]. eapply safe_imp; [apply IH; lia|]. cbn beta. lia.
  Qed.

  Lemma tset_labels_term : forall j d i, d <= e -> safe False (tset_labels (W:=W) L m e j d i) (fun r => d <= fst (fst r) <= e /\ (snd r = false -> fst (fst r) = e)).
  Proof using He.
    induction j as [|j IH]; intros d i Hd; cbn [tset_labels]; [cbn; split; [lia|discriminate]|].
    eapply safe_bind; [apply read_int_safe_false; assumption|]. cbn beta. intros [v d'] [H _]. cbn [snd] in H.
    destruct (Nat.leb_spec e d'); [cbn; split; lia|]. eapply safe_bind; [apply IH; lia|]. cbn beta. intros [[d2 code] good] [H1 H2]. cbn in *. split; [lia|exact H2].
  Qed.

  Lemma tcount_labels_flag : forall j d r, tcount_labels L wr m e j d = Ok r -> snd r = false -> e <= fst r.
  Proof using Type.
    clear. induction j as [|j IH]; intros d r E Hr; cbn [tcount_labels] in E; [injection E as <-; discriminate|].
    match type of E with bind ?x _ = _ => destruct x as [d1| | |]; cbn [bind] in E; try discriminate end.
    destruct (Nat.leb_spec e d1); [injection E as <-; exact H|]. eapply IH; eassumption.
  Qed.

  Lemma tentry_count_term d : d < e -> safe False (tentry_count L wr k m e d) (fun r => d < fst r <= e).
  Proof using He.
    intros Hd. unfold tentry_count. pose proof (tcount_labels_term k d ltac:(lia)) as HS.
    destruct (tcount_labels L wr m e k d) as [[d1 good]| | |] eqn:E; cbn [bind]; try exact HS.
    cbn in HS. destruct good.
    - pose proof (next_line_safe m e He d1 ltac:(lia)) as HN. apply safe_false in HN. eapply safe_bind; [exact HN|]. cbn beta. intros d2 (H1 & H2 & _). cbn.
      destruct (Nat.eq_dec d1 e); [lia|]. specialize (H2 ltac:(lia)). lia.
    - apply tcount_labels_flag in E; [|reflexivity]. cbn in *. lia.
  Qed.

  Lemma tentry_set_term d pos : d < e -> safe False (tentry_set L wr k m e d pos) (fun r => d < fst (fst r) <= e).
  Proof using He Hwr Hb.
    intros Hd. unfold tentry_set. eapply safe_bind; [apply tset_labels_term; lia|]. cbn beta. intros [[d1 code] good] [H1 H1']. cbn [fst snd] in *.
    destruct good; [|cbn; specialize (H1' eq_refl); lia].
    eapply safe_bind with (Q := fun r => d1 <= fst r <= e).
    - unfold owterm in Hwr. destruct wr as [w|]; [|cbn; lia]. eapply safe_bind; [apply (Hwr m e d1 Hb He); lia|]. cbn beta. intros [v d'] H. cbn in *. lia.
    - cbn beta. intros [d2 wc] H2. cbn [fst] in H2. pose proof (next_line_safe m e He d2 ltac:(lia)) as HN. apply safe_false in HN.
      eapply safe_bind; [exact HN|]. cbn beta. intros d3 (H3 & H3' & _). cbn. destruct (Nat.eq_dec d2 e); [lia|]. specialize (H3' ltac:(lia)). lia.
  Qed.

  Lemma tcount_loop_term : forall fuel d ct, e - d < fuel -> safe False (tcount_loop L wr k m e fuel d ct) (fun _ => True).
  Proof using He.
    induction fuel as [|fuel IH]; intros d ct Hf; [lia|]. cbn [tcount_loop]. destruct (Nat.ltb_spec d e); [|exact Logic.I].
    eapply safe_bind; [apply tentry_count_term; lia|]. cbn beta. intros [d' c] H'. cbn [fst] in H'. apply IH. lia.
  Qed.

  Lemma tset_loop_term : forall fuel d pos, e - d < fuel -> safe False (tset_loop L wr k m e fuel d pos) (fun _ => True).
  Proof using He Hwr Hb.
    induction fuel as [|fuel IH]; intros d pos Hf; [lia|]. cbn [tset_loop]. destruct (Nat.ltb_spec d e); [|exact Logic.I].
    eapply safe_bind; [apply tentry_set_term; lia|]. cbn beta. intros [[d' p'] c] H'. cbn [fst] in H'.
    eapply safe_bind; [apply IH; lia|]. intros; exact Logic.I.
  Qed.
End Loops.

Lemma texec_term {W} (i : tinstr W) s : safe False (texec i s) (fun _ => True).
Proof. destruct i; cbn [texec]; unfold aset; destruct (_ <? _); cbn; tauto. Qed.

Lemma tensor_alloc_fin {W} O w a b : tensor_alloc (W:=W) O w a b <> Stuck.
Proof.
  unfold tensor_alloc, omul, arith, alloc.
  repeat match goal with |- context [if ?x then _ else _] => destruct x; cbn [bind]; try discriminate end.
Qed.

(** The reader ends on every byte string. *)
Lemma tensor_read_term {W} L O (wr : option (wrd W)) m T sched : 0 < page m -> owterm wr ->
  tensor_read_el L O wr m 0 (flen m) T sched <> Stuck.
Proof.
  intros Hp Hw. unfold tensor_read_el.
  eapply fin_bind; [apply (tensor_order_safe m Hp O (is_some wr) 0); lia|]. intros order _.
  pose proof (chunks_false m 0 T) as HC.
  eapply fin_bind; [exact HC|]. clear HC. cbn beta. intros chunks Hc.
  match goal with |- bind ?x _ <> Stuck => assert (HC : safe False x (Forall (fun _ => True))) end.
  { eapply mapM_term; [|exact Hc]. cbn beta. intros c [H _]. apply tcount_loop_term; [exact H|lia]. }
  eapply fin_bind; [exact HC|]. clear HC.
  intros counts _. pose proof (tensor_alloc_fin (W:=W) O (is_some wr) order (wrap O (Z.of_nat (sum_nat counts)))) as Ha.
  destruct (tensor_alloc _ _ _ _) as [[c0 w0]| | |]; cbn [bind]; try discriminate; [|congruence].
  match goal with |- bind ?x _ <> Stuck => assert (HC : safe False x (Forall (fun _ => True))) end.
  { apply (mapM_term _ (fun cs => snd (fst cs) <= flen m /\ bnd m (snd (fst cs)))).
    - intros cs [H H']. apply tset_loop_term; [exact Hw|exact H|exact H'|lia].
    - rewrite Forall_forall in *. intros [c p] Hin. apply in_combine_l in Hin. apply Hc in Hin. exact Hin. }
  eapply fin_bind; [exact HC|].
  cbn beta. intros ps _. eapply fin_bind; [apply run_term; apply texec_term|]. discriminate.
Qed.

(** A size that is a multiple of the page size is read past the mapping. *)
Lemma tensor_page_multiple {W} L O (wr : option (wrd W)) s pg T sched : 0 < pg -> length s mod pg = 0 -> 1 <= T ->
  tensor_read_el L O wr (mkMem s pg) 0 (length s) T sched = UB.
Proof.
  intros Hp Hm HT. unfold tensor_read_el. pose proof (tensor_order_safe (mkMem s pg) Hp O (is_some wr) 0 ltac:(lia)) as Ho.
  change (flen (mkMem s pg)) with (length s) in Ho. destruct (tensor_order _ _ _ _ _) as [o| | |]; cbn in Ho; try contradiction; [|reflexivity]. cbn [bind].
  rewrite (mapM_ub _ False (seq 0 T) (T - 1)); [reflexivity| | |].
  - intros t Ht. apply in_seq in Ht. eapply safe_imp; [apply (el_chunk_false (mkMem s pg)); [reflexivity|lia]|]. auto.
  - apply in_seq; lia.
  - unfold el_chunk, line_boundary. rewrite (proj2 (Nat.ltb_ge (length s) 0)) by lia; cbn [andb]. replace (T - 1 + 1) with T by lia. rewrite Nat.sub_0_r.
    replace (T * length s / T) with (length s) by (rewrite Nat.mul_comm, Nat.div_mul; lia).
    assert (Ea : advance (length s) 0 (length s) = length s) by (unfold advance; lia). rewrite Ea.
    rewrite next_line_end_ub; [reflexivity|]. apply load_past; assumption.
Qed.
