(** * PageMul: sizes that are a multiple of the page size, for the other text readers *)

From Verif Require Import Base Reader Sched SchedLemmas Spec SpecFp SpecMm ReaderLemmas Coo WeightLemmas ElSpec ElFinal Safe Term Csr Graph Tensor MmLemmas.

(** [r] is undefined or an [Ok] value: neither an exception nor a loop. *)
Notation quiet r Q := (safe False r Q).

Lemma load_quiet m p : p <= flen m -> quiet (load m p) (fun c => load m p = Ok c).
Proof. intros H. eapply safe_false. apply (load_keep m); exact H. Qed.

Lemma quiet_ub {A B} (r : res A) Q (k : A -> res B) : quiet r Q -> (forall a, Q a -> k a = UB) -> bind r k = UB.
Proof. destruct r; cbn; intros H Hk; try contradiction; auto. Qed.

Lemma load_nothrow m d x : load m d <> Throw x.
Proof. unfold load. destruct (nth_error _ _); [discriminate|]. destruct (_ <? _); discriminate. Qed.
Lemma load_nostuck m d : load m d <> Stuck.
Proof. unfold load. destruct (nth_error _ _); [discriminate|]. destruct (_ <? _); discriminate. Qed.
Lemma load_any m d : quiet (load m d) (fun c => load m d = Ok c).
Proof.
  pose proof (load_nostuck m d). destruct (load m d) eqn:E; cbn; auto. exact (load_nothrow m d _ E).
Qed.

Section M.
  Variable m : mem.
  Let e := flen m.
  Hypothesis Hend : load m e = UB.
  Hypothesis Hmap : flen m <= map_len m.

  Let lee : e <= flen m. Proof. unfold e; lia. Qed.

  Lemma adv_le d0 p : advance e d0 p <= e. Proof. unfold advance; lia. Qed.

  Lemma adv_last d0 T : d0 <= e -> 1 <= T -> advance e d0 ((T - 1 + 1) * (e - d0) / T) = e.
  Proof.
    intros Hd HT. replace (T - 1 + 1) with T by lia. rewrite (Nat.mul_comm T), Nat.div_mul by lia. unfold advance. lia.
  Qed.

  Lemma el_chunk_quiet d0 T t : quiet (el_chunk m d0 e T t) (fun _ => True).
  Proof.
    unfold el_chunk, line_boundary. destruct ((e <? d0) && (1 <? T)); [intros []|].
    eapply safe_bind; [eapply safe_false; apply (next_line_safe m e lee); apply adv_le|]. cbn beta. intros re _.
    destruct (t =? 0).
    - eapply safe_bind; [eapply safe_false; apply (move_to_first_int_safe m e lee); apply adv_le|]. cbn; auto.
    - eapply safe_bind; [eapply safe_false; apply (next_line_safe m e lee); apply adv_le|]. cbn; auto.
  Qed.

  Lemma el_chunks_ub d0 T : d0 <= e -> 1 <= T -> mapM (el_chunk m d0 e T) (seq 0 T) = UB.
  Proof.
    intros Hd HT. apply (mapM_ub _ False (seq 0 T) (T - 1)).
    - intros t _. apply el_chunk_quiet.
    - apply in_seq; lia.
    - unfold el_chunk, line_boundary. rewrite (proj2 (Nat.ltb_ge e d0)) by lia; cbn [andb]. rewrite adv_last by assumption. rewrite next_line_end_ub by exact Hend. reflexivity.
  Qed.

  Lemma read_el_past {W} L O (wr : option (wrd W)) fl d0 T sched : d0 <= e -> 1 <= T ->
    read_el L O wr fl m d0 e T sched = UB.
  Proof. intros Hd HT. unfold read_el, el_pass1. rewrite el_chunks_ub by assumption. reflexivity. Qed.

  Lemma nextint_end : move_to_next_int m e e = UB.
  Proof.
    unfold move_to_next_int, move_to_non_int. rewrite scan_end by lia. cbn [bind].
    unfold move_to_first_int, skip_comments_here. rewrite Hend. reflexivity.
  Qed.

  Lemma gr_chunks_ub d0 T : d0 <= e -> 1 <= T -> mapM (gr_chunk m d0 e T) (seq 0 T) = UB.
  Proof.
    intros Hd HT. apply (mapM_ub _ False (seq 0 T) (T - 1)).
    - intros t _. unfold gr_chunk.
      eapply safe_bind; [eapply safe_false; apply (move_to_next_int_safe m e lee); apply adv_le|]. cbn beta. intros re _.
      destruct (t =? 0).
      + eapply safe_bind; [eapply safe_false; apply (move_to_first_int_safe m e lee); apply adv_le|]. cbn; auto.
      + eapply safe_bind; [eapply safe_false; apply (move_to_next_int_safe m e lee); apply adv_le|]. cbn; auto.
    - apply in_seq; lia.
    - unfold gr_chunk. rewrite adv_last by assumption. rewrite nextint_end. reflexivity.
  Qed.

  Lemma nextint_q d : d <= e -> quiet (move_to_next_int m e d) (fun d' => d' <= e).
  Proof. intros Hd. eapply safe_imp; [eapply safe_false; apply (move_to_next_int_safe m e lee); exact Hd|]. cbn beta. intros a [H _]. lia. Qed.
  Lemma firstint_q d : d <= e -> quiet (move_to_first_int m e d) (fun d' => d' <= e).
  Proof. intros Hd. eapply safe_imp; [eapply safe_false; apply (move_to_first_int_safe m e lee); exact Hd|]. cbn beta. intros a [H _]. lia. Qed.
  Lemma scan_q p d : d <= e -> quiet (scan m p e d) (fun d' => d <= d' <= e).
  Proof. intros Hd. eapply safe_imp; [eapply safe_false; apply (scan_safe m e lee); exact Hd|]. cbn beta. intros a [H _]. lia. Qed.
  Lemma readint_q t d : d <= e -> quiet (read_int m t e d) (fun r => snd r <= e).
  Proof. intros Hd. eapply safe_imp; [apply read_int_safe_false; [exact lee|exact Hd]|]. cbn beta. intros a [H _]. lia. Qed.

  Lemma load_past_end d : e <= d -> load m d = UB.
  Proof.
    intros Hd. unfold load in *. rewrite (proj2 (nth_error_None (bytes m) d)) by (unfold e, flen in Hd; exact Hd).
    rewrite (proj2 (nth_error_None (bytes m) e)) in Hend by (unfold e, flen; lia).
    destruct (Nat.ltb_spec e (map_len m)); [discriminate|]. destruct (Nat.ltb_spec d (map_len m)); [lia|reflexivity].
  Qed.

  Lemma scan_past p d c : d < e -> load m d = Ok c -> p c = true -> quiet (scan m p e d) (fun d' => d < d' <= e).
  Proof.
    intros Hd Hc Hp. eapply safe_imp; [eapply safe_false; apply (scan_safe m e lee p d); lia|]. cbn beta. intros a (H1 & H2 & _).
    destruct (Nat.eq_dec a d) as [->|]; [|lia]. destruct (H2 Hd) as (c' & Hc' & Hn). congruence.
  Qed.

  Lemma read_graph_past {W} L O OS d0 ch : d0 <= e -> 1 <= gc_T ch ->
    read_graph (W:=W) L O OS m d0 e ch = UB.
  Proof.
    intros Hd HT. unfold read_graph.
    eapply quiet_ub; [apply firstint_q; exact Hd|]. cbn beta. intros d1 H1.
    eapply quiet_ub; [apply readint_q; exact H1|]. cbn beta. intros [n d2] H2; cbn [snd] in H2.
    eapply quiet_ub; [apply nextint_q; exact H2|]. cbn beta. intros d3 H3.
    eapply quiet_ub; [apply readint_q; exact H3|]. cbn beta. intros [k d4] H4; cbn [snd] in H4.
    eapply quiet_ub; [unfold move_to_eol; apply scan_q; exact H4|]. cbn beta. intros d5 [_ H5].
    eapply quiet_ub; [apply nextint_q; exact H5|]. cbn beta. intros d6 H6.
    rewrite gr_chunks_ub by assumption. reflexivity.
  Qed.

  Lemma read_mm_past {W} L O (wr : option (wrd W)) fl T sched d0 : d0 <= e -> 1 <= T ->
    at_str m e d0 mm_header = Ok true -> read_mm L O wr fl m d0 e T sched = UB.
  Proof.
    intros Hd HT Hs. unfold read_mm. rewrite Hs. cbn [bind negb].
    eapply quiet_ub; [apply nextint_q; exact Hd|]. cbn beta. intros d1 H1.
    eapply quiet_ub; [apply readint_q; exact H1|]. cbn beta. intros [n d2] H2; cbn [snd] in H2.
    eapply quiet_ub; [apply arith_false|]. intros nrows _.
    eapply quiet_ub; [apply nextint_q; exact H2|]. cbn beta. intros d3 H3.
    eapply quiet_ub; [apply readint_q; exact H3|]. cbn beta. intros [k d4] H4; cbn [snd] in H4.
    eapply quiet_ub; [apply arith_false|]. intros ncols _.
    eapply quiet_ub; [apply nextint_q; exact H4|]. cbn beta. intros d5 H5.
    eapply quiet_ub; [apply readint_q; exact H5|]. cbn beta. intros [z d6] H6; cbn [snd] in H6.
    eapply quiet_ub; [eapply safe_false; apply (next_line_safe m e lee); exact H6|]. cbn beta. intros d7 [H7 _].
    rewrite read_el_past by lia. reflexivity.
  Qed.

  (** The order of a tensor is determined without an exception and without a loop. *)
  Lemma skip_spaces_q fuel : forall d, map_len m - d < fuel -> quiet (skip_spaces_ m fuel d) (fun d' => d <= d').
  Proof.
    induction fuel as [|fuel IH]; intros d Hf; [lia|]. cbn [skip_spaces_].
    eapply safe_bind; [apply load_any|]. cbn beta. intros c El.
    destruct (c =? ch_sp)%Z; [|cbn; lia].
      eapply safe_imp; [apply IH|cbn beta; intros; lia].
      assert (d < map_len m); [|lia].
      unfold load in El. destruct (nth_error (bytes m) d) eqn:E.
      + assert (d < length (bytes m)) by (apply nth_error_Some; congruence). unfold flen in Hmap. lia.
      + destruct (Nat.ltb_spec d (map_len m)); [assumption|discriminate].
  Qed.

  Lemma count_spaces_q fuel : forall d ct, e - d < fuel -> quiet (count_spaces_ m e fuel d ct) (fun _ => True).
  Proof.
    induction fuel as [|fuel IH]; intros d ct Hf; [lia|]. cbn [count_spaces_].
    destruct (Nat.ltb_spec d e) as [Hlt|]; [|exact I].
    eapply safe_bind; [apply load_quiet; exact (Nat.le_trans _ _ _ (Nat.lt_le_incl _ _ Hlt) lee)|]. cbn beta. intros c0 _. destruct (is_nl c0); [exact I|].
    eapply safe_bind; [apply scan_q; lia|]. cbn beta. intros d1 H1.
    eapply safe_bind; [apply load_quiet; exact (proj2 H1)|]. cbn beta. intros c1 Hc1.
    destruct (is_digit c1) eqn:E1; cbn [negb].
    2:{ eapply safe_bind; [unfold move_to_eol; apply scan_q; lia|]. cbn; auto. }
    assert (Hd1 : d1 < e) by (destruct (Nat.eq_dec d1 e) as [->|]; [congruence|lia]).
    eapply safe_bind; [apply (scan_past _ d1 c1); [exact Hd1|exact Hc1|rewrite E1; reflexivity]|]. cbn beta. intros d2 H2.
    eapply safe_bind; [apply load_quiet; exact (proj2 H2)|]. cbn beta. intros c2 Hc2.
    destruct (is_nl c2); [exact I|].
    destruct (is_cmt c2).
    { eapply safe_bind; [unfold move_to_eol; apply scan_q; lia|]. cbn; auto. }
    eapply safe_bind; [apply skip_spaces_q; lia|]. cbn beta. intros d3 H3.
    eapply safe_bind; [apply load_any|]. cbn beta. intros c3 Hc3.
    assert (Hd3 : d3 <= e).
    { destruct (Nat.le_gt_cases d3 e); [assumption|]. exfalso. rewrite load_past_end in Hc3 by lia. discriminate. }
    destruct (is_nl c3); [exact I|].
    destruct (is_cmt c3).
    { eapply safe_bind; [unfold move_to_eol; apply scan_q; lia|]. cbn; auto. }
    apply IH. lia.
  Qed.

  Lemma tensor_past {W} L O (wr : option (wrd W)) T sched d0 : d0 <= e -> 1 <= T ->
    tensor_read_el L O wr m d0 e T sched = UB.
  Proof.
    intros Hd HT. unfold tensor_read_el.
    apply quiet_ub with (Q := fun _ => True).
    - unfold tensor_order. eapply safe_bind; [apply firstint_q; exact Hd|]. cbn beta. intros d1 H1.
      eapply safe_bind; [unfold count_spaces_to_eol; apply count_spaces_q; lia|]. cbn beta. intros [ct d2] _.
      destruct (is_some wr); [exact I|apply arith_false].
    - intros order _. rewrite el_chunks_ub by assumption. reflexivity.
  Qed.
End M.
