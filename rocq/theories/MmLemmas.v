(** * MmLemmas: the Matrix Market reader *)

From Verif Require Import Base Reader Sched Spec SpecMm ReaderLemmas Coo CooLemmas CooSplit CooMain ElSpec ElFinal SpecBin.

Lemma load_n_has m s : forall d, has m d s -> load_n m (length s) d = Ok s.
Proof.
  induction s as [|c s IH]; intros d H; cbn [length load_n]; [reflexivity|].
  rewrite (load_has _ _ _ _ H). cbn [bind]. destruct H as [_ H]. rewrite (IH _ H). reflexivity.
Qed.
Lemma str_eq_refl s : str_eq s s = true.
Proof. induction s as [|c s IH]; cbn [str_eq]; [reflexivity|]. rewrite Z.eqb_refl, IH. reflexivity. Qed.
Lemma str_eq_true a : forall b, str_eq a b = true -> a = b.
Proof.
  induction a as [|x a IH]; intros [|y b] H; cbn [str_eq] in H; try discriminate; [reflexivity|].
  apply andb_prop in H as [H1 H2]. apply Z.eqb_eq in H1. f_equal; auto.
Qed.

Lemma banner_eq : mm_banner = mm_header.
Proof. reflexivity. Qed.

Section Mm.
  Context {W : Type}.
  Variables L O : ity.
  Variable wr : option (wrd W).
  Variable fl : flags.
  Variable f : mm_file.
  Variable ws : list W.
  Variable pg : nat.
  Let b := mm_body f.
  Let m := mkMem (mm_text f) pg.
  Let e := flen m.
  Let b0 := mkEl [] (el_lines b).

  Hypothesis HL : is_ity L.
  Hypothesis HO : is_ity O.
  Hypothesis Hwf : wf_mm f.
  Hypothesis Hlen : length ws = length (el_lines b).
  Hypothesis Hfit : labels_fit (imax L - 1) b.
  Hypothesis Hhdr : (dval (mm_r f) <= imax L /\ dval (mm_c f) <= imax L /\ dval (mm_z f) <= imax O)%Z.
  Hypothesis Hcnt : (Z.of_nat (length (stored fl (triples b ws))) <= imax O)%Z.
  Hypothesis Hpg : off_page pg (mm_text f).
  Hypothesis Hwe : owend wr.
  Hypothesis Hwok : Forall2 (owok wr) (map l_post (el_lines b)) ws.
  Variable T : nat.
  Hypothesis HT : 1 <= T.
  Hypothesis Hdrop : wr = None \/ Forall (keeps fl) (triples b ws) \/
     (T = 1 /\ forall e, last (map Some (triples b ws)) None = Some e -> keeps fl e).

  Lemma b0_wf : wf_el b0.
  Proof. destruct Hwf as (_ & _ & _ & _ & _ & _ & _ & _ & [_ H]). split; [cbn [el_head b0]; apply gap_nil|exact H]. Qed.

  (** Positions. *)
  Let p1 := length (mm_banner ++ mm_kind f) + 1 + length (mm_pre f).
  Let p2 := p1 + length (mm_r f) + length (mm_s1 f).
  Let p3 := p2 + length (mm_c f) + length (mm_s2 f).
  Let p4 := p3 + length (mm_z f).
  Let p5 := p4 + length (mm_rest f) + 1 + length (el_head b).

  Lemma mm_gap : gap false (mm_banner ++ mm_kind f ++ ch_nl :: mm_pre f).
  Proof.
    change mm_banner with (37%Z :: tl mm_banner). cbn [app]. rewrite app_assoc.
    apply gap_cmt; [reflexivity| |apply Hwf]. apply Forall_app; split; [|apply Hwf]. repeat constructor.
  Qed.

  Definition mm_check_with (nrows ncols : Z) (c : coo W) : res (coo W) :=
    let nnz := dval (mm_z f) in
    match co_nrows c, co_ncols c with
    | Some nrows_, Some ncols_ =>
        if (nrows <? nrows_)%Z then Throw EError
        else if (ncols <? ncols_)%Z then Throw EError
        else
          bad <- (if f_sym fl then m2 <- twice O (co_m c) ;; Ok (m2 <? nnz)%Z
                  else if f_sl fl then Ok (co_m c <? nnz)%Z
                  else Ok (negb (nnz =? co_m c)%Z)) ;;
          if (bad : bool) then Throw EError
          else Ok (mkCoo (co_x c) (co_y c) (co_w c)
                     (Some (if (ncols <? nrows)%Z then nrows else ncols))
                     (Some nrows) (Some ncols) (co_m c))
    | _, _ => UB
    end.

  Definition mm_check (c : coo W) : res (coo W) := mm_check_with (dval (mm_r f) + 1) (dval (mm_c f) + 1) c.

  Lemma mm_main_gen sched : read_mm L O wr fl m 0 e T sched =
    (nr <- arith L (dval (mm_r f) + 1) ;; nc <- arith L (dval (mm_c f) + 1) ;; mm_check_with nr nc (el_result wr fl b ws)).
  Proof.
    pose proof (slack_off_page _ _ Hpg) as Hslack. fold m in Hslack.
    destruct Hhdr as (F1 & F2 & F3). destruct Hwf as (W1 & W2 & W3 & W4 & W5 & W6 & W7 & W8 & W9).
    pose proof (has_all m) as Hh. cbn [m bytes] in Hh.
    assert (He : e = p5 + length (concat (map line_text (el_lines b)))).
    { unfold e, flen. cbn [m bytes]. unfold mm_text, p5, p4, p3, p2, p1. fold b. unfold el_text. repeat rewrite app_length. cbn [length]. repeat rewrite app_length. cbn [length]. repeat rewrite app_length. lia. }
    assert (Hmap : e <= map_len m) by (unfold e; unfold slack in Hslack; lia).
    unfold mm_text in Hh. fold b in Hh.
    unfold read_mm.
    assert (Hbl : length mm_header <= length (mm_banner ++ mm_kind f)) by (rewrite <- banner_eq, app_length; lia).
    assert (N1 : 1 <= length (mm_r f) /\ 1 <= length (mm_c f) /\ 1 <= length (mm_z f)).
    { destruct W3 as [N3 _], W5 as [N5 _], W7 as [N7 _]. destruct (mm_r f), (mm_c f), (mm_z f); try congruence; cbn [length]; lia. }
    unfold at_str. destruct (Nat.leb_spec e (0 + length mm_header)) as [Hx|_]; [exfalso; revert Hx; rewrite He; unfold p5, p4, p3, p2, p1; lia|].
    rewrite <- banner_eq. rewrite (load_n_has m mm_banner 0) by (apply has_app in Hh; apply Hh). cbn [bind]. rewrite str_eq_refl. cbn [negb].
    rewrite (app_assoc mm_banner) in Hh.
    assert (Hh' : has m 0 ((mm_banner ++ mm_kind f ++ ch_nl :: mm_pre f) ++ mm_r f ++ mm_s1 f ++ mm_c f ++ mm_s2 f ++ mm_z f ++ mm_rest f ++ ch_nl :: el_text b)).
    { repeat rewrite <- app_assoc in Hh. repeat rewrite <- app_assoc. cbn [app] in Hh |- *. exact Hh. }
    clear Hh. rename Hh' into Hh.
    assert (E1 : length (mm_banner ++ mm_kind f ++ ch_nl :: mm_pre f) = p1) by (unfold p1; repeat rewrite app_length; cbn [length]; lia).
    apply has_app in Hh as [Hg Hh]. rewrite E1 in Hh. cbn [plus] in Hh.
    assert (Dhd : forall d s t, digits s -> has m d (s ++ t) -> exists c, load m d = Ok c /\ is_digit c = true).
    { intros d s t [N D] H. destruct s as [|c s]; [congruence|]. exists c. split; [eapply load_has; exact H|]. apply forall_hd in D. exact D. }
    assert (Sn : forall d s t, separator s -> has m d (s ++ t) -> exists c, load m d = Ok c /\ is_digit c = false).
    { intros d s t [N D] H. destruct s as [|c s]; [congruence|]. exists c. split; [eapply load_has; exact H|]. apply forall_hd in D. apply D. }
    destruct (Dhd _ _ _ W3 Hh) as (c1 & L1 & D1).
    pose proof (move_to_next_int_gap m false e 0 [] _ ltac:(constructor) mm_gap Hg) as M1. rewrite E1 in M1. cbn [length plus] in M1.
    rewrite M1; [| |left; discriminate|discriminate].
    2:{ exists c1. split; [exact L1|]. split; [apply digit_not_cmt; exact D1|]. split; [rewrite He; unfold p5, p4, p3, p2; lia|intros _; exact D1]. }
    clear M1. cbn [bind].
    assert (Rd : forall t d s rs, is_ity t -> digits s -> (dval s <= imax t)%Z -> has m d (s ++ rs) -> (exists c, load m (d + length s) = Ok c /\ is_digit c = false) -> d + length s < e ->
      read_int m t e d = Ok (dval s, d + length s)).
    { intros t d s rs Ht Hs Hv H (c & Lc & Dc) Hlt. apply has_app in H as [H _]. rewrite (read_int_digits m t e d s c H Hs Hlt Lc Dc).
      rewrite (read_val_fit t s Ht (proj2 Hs) Hv). reflexivity. }
    pose proof Hh as H0. apply has_app in H0 as [_ H1]. destruct (Sn _ _ _ W4 H1) as (c2 & L2 & D2).
    rewrite (Rd L p1 (mm_r f) _ HL W3 ltac:(lia) Hh ltac:(eauto)) by (rewrite He; unfold p5, p4, p3, p2; lia). cbn [bind].
    pose proof (ity_facts L HL) as (HL1 & HL2 & _). pose proof (dval_nonneg _ (proj2 W3)). pose proof (dval_nonneg _ (proj2 W5)).
    destruct (arith L (dval (mm_r f) + 1)) as [nrows|x| |]; [|reflexivity..]. cbn [bind].
    pose proof H1 as H2. apply has_app in H2 as [H1s H2]. fold p2 in H2. destruct (Dhd _ _ _ W5 H2) as (c3 & L3 & D3).
    rewrite (move_to_next_int_sep m e _ _ c3 W4 H1s L3 D3) by (rewrite He; unfold p5, p4, p3, p2; lia). fold p2. cbn [bind].
    pose proof H2 as H2'. apply has_app in H2' as [_ H3]. destruct (Sn _ _ _ W6 H3) as (c4 & L4 & D4).
    rewrite (Rd L p2 (mm_c f) _ HL W5 ltac:(lia) H2 ltac:(eauto)) by (rewrite He; unfold p5, p4, p3; lia). cbn [bind].
    destruct (arith L (dval (mm_c f) + 1)) as [ncols|x| |]; [|reflexivity..]. cbn [bind].
    pose proof H3 as H4. apply has_app in H4 as [H3s H4]. fold p3 in H4. destruct (Dhd _ _ _ W7 H4) as (c5 & L5 & D5).
    rewrite (move_to_next_int_sep m e _ _ c5 W6 H3s L5 D5) by (rewrite He; unfold p5, p4, p3; lia). fold p3. cbn [bind].
    pose proof H4 as H5. apply has_app in H5 as [_ H5]. fold p4 in H5.
    destruct W8 as [W8a W8b].
    assert (C6 : exists c6, load m p4 = Ok c6 /\ is_digit c6 = false).
    { destruct (mm_rest f) as [|x q]; cbn [app] in H5; eexists; (split; [eapply load_has; exact H5|]); [reflexivity|exact W8b]. }
    rewrite (Rd O p3 (mm_z f) _ HO W7 F3 H4 C6) by (rewrite He; unfold p5, p4; lia). fold p4. cbn [bind].
    assert (H6 : has m p5 (concat (map line_text (el_lines b)))).
    { apply has_app in H5 as [_ [_ H5]]. unfold el_text in H5. apply has_app in H5 as [_ H5]. unfold p5.
      replace (p4 + length (mm_rest f) + 1 + length (el_head b)) with (S (p4 + length (mm_rest f)) + length (el_head b)) by lia. exact H5. }
    fold b in W9. destruct W9 as [W9a W9b].
    assert (Ends : ends m is_digit e p5).
    { destruct (el_lines b) as [|l ls] eqn:El.
      - exists 0%Z. cbn [map concat length] in He. rewrite Nat.add_0_r in He. rewrite <- He. split; [apply load_eof; exact Hslack|]. split; [reflexivity|]. split; [lia|lia].
      - apply wf_lines_cons in W9b as [Wl _]. destruct Wl as (Hx & _). cbn [map concat] in H6. unfold line_text in H6. repeat rewrite <- app_assoc in H6.
        destruct (Dhd _ _ _ Hx H6) as (c7 & L7 & D7). exists c7. split; [exact L7|]. split; [apply digit_not_cmt; exact D7|]. split; [lia|intros _; exact D7]. }
    assert (Eg : p4 + length (mm_rest f) + 1 + length (el_head b) = p5) by reflexivity.
    rewrite (next_line_from m (match el_lines b with [] => true | _ => false end) e p4 (mm_rest f) (el_head b) W8a W9a).
    2:{ unfold el_text in H5. change (ch_nl :: el_head b ++ concat (map line_text (el_lines b))) with ((ch_nl :: el_head b) ++ concat (map line_text (el_lines b))) in H5.
        rewrite app_assoc in H5. apply has_app in H5. apply H5. }
    2:{ exact Ends. }
    2:{ rewrite Eg, He. destruct (el_lines b); [cbn [map concat length]; lia|discriminate]. }
    rewrite Eg. cbn [bind].
    (* the body *)
    pose proof b0_wf as Hb0.
    assert (Hl0 : length ws = length (el_lines b0)) by exact Hlen.
    assert (Epf : map fst (combine (el_lines b0) ws) = el_lines b0) by (apply (ps_fst b0 ws Hl0)).
    assert (Epe : map ent (combine (el_lines b0) ws) = triples b ws) by (apply (ps_ent b0 ws)).
    rewrite (read_el_main L O HL HO wr Hwe fl m Hslack p5 [] (combine (el_lines b0) ws)).
    - unfold mm_check_with, el_result, out, st_of, nr, nc, kents. rewrite Epe. cbn [co_nrows co_ncols co_m co_x co_y co_w cx cy cw].
      fold (stored fl (triples b ws)). fold (counted fl (triples b ws)). rewrite !(Z.add_comm 1). reflexivity.
    - rewrite Epf. exact H6.
    - rewrite Epf. fold e. rewrite He. reflexivity.
    - apply gap_nil.
    - rewrite Epf. exact W9b.
    - apply (fit_ps' L fl b0 ws Hl0 Hfit).
    - apply (wok_ps wr b0 ws Hwok).
    - exact HT.
    - apply (hdrop_chunks wr fl b0 ws 0 Hl0 T HT Hdrop).
    - unfold out, kents. rewrite Epe. exact Hcnt.
    - apply (dims_ok L O fl b0 ws HL Hb0 Hl0 Hfit Hcnt).
  Qed.

  Lemma mm_main sched : (dval (mm_r f) < imax L)%Z -> (dval (mm_c f) < imax L)%Z ->
    read_mm L O wr fl m 0 e T sched = mm_check (el_result wr fl b ws).
  Proof.
    intros H1 H2. rewrite mm_main_gen. pose proof (ity_facts L HL) as (HL1 & HL2 & _).
    destruct Hwf as (_ & _ & W3 & _ & W5 & _). pose proof (dval_nonneg _ (proj2 W3)). pose proof (dval_nonneg _ (proj2 W5)).
    rewrite !arith_in by (auto; lia). reflexivity.
  Qed.
End Mm.
