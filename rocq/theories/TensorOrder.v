(** * TensorOrder: the order of a tensor is taken from the first data line *)

From Verif Require Import Base Reader Sched SchedLemmas Spec SpecTensor SpecOrder ReaderLemmas Coo CooLemmas CooSplit CooMain CooExec Csr Codec Bin Load Tensor TensorLemmas TensorMain.

(** One number and what follows it, which is neither the end of the line nor a
    comment. *)
Lemma count_step m e d ct fuel j c run sp y s :
  has m d (j ++ (c :: run) ++ sp ++ y :: s) -> Forall sep_char j -> is_digit c = true ->
  Forall (fun b => is_digit b = true \/ b = ch_dot) run -> Forall (fun b => b = ch_space) sp ->
  y <> ch_space -> is_nl y = false -> is_cmt y = false -> (sp = [] -> is_digit y = false /\ y <> ch_dot) ->
  d + length j + length (c :: run) + length sp < e -> e <= map_len m ->
  count_spaces_ m e (S fuel) d ct = count_spaces_ m e fuel (d + length j + length (c :: run) + length sp) (S ct).
Proof.
  intros Hh Hj Hc Hrun Hsp Hy Hyn Hyc Hy0 He Hlen. cbn [length] in *.
  cbn [count_spaces_]. destruct (Nat.ltb_spec d e); [|lia].
  pose proof Hh as Hh0. apply has_app in Hh0 as [Hhj Hh1].
  assert (Hd0 : exists c0, load m d = Ok c0 /\ is_nl c0 = false).
  { destruct j as [|c0 j].
    - exists c. cbn [app] in Hh. split; [eapply load_has; exact Hh|apply digit_not_nl; exact Hc].
    - exists c0. split; [eapply load_has; exact Hhj|]. apply forall_hd in Hj. apply Hj. }
  destruct Hd0 as (c0 & El0 & Hnl0). rewrite El0. cbn [bind]. rewrite Hnl0.
  rewrite (scan_to m _ e d j Hhj).
  2:{ eapply Forall_impl; [|exact Hj]. intros b (B1 & B2 & B3). rewrite B1, B2, B3. reflexivity. }
  2:{ lia. }
  2:{ right. exists c. split; [cbn [app] in Hh1; eapply load_has; exact Hh1|]. rewrite Hc, !andb_false_r. reflexivity. }
  cbn [bind]. pose proof Hh1 as Hh1'. cbn [app] in Hh1'. rewrite (load_has _ _ _ _ Hh1'). cbn [bind]. rewrite Hc. cbn [negb].
  apply has_app in Hh1 as [Hhr Hh2]. cbn [length] in Hh2.
  assert (Hc2 : exists c2, load m (d + length j + S (length run)) = Ok c2 /\ is_digit c2 = false /\ c2 <> ch_dot /\ is_nl c2 = false /\ is_cmt c2 = false).
  { destruct sp as [|x sp].
    - exists y. cbn [app] in Hh2. split; [eapply load_has; exact Hh2|]. destruct (Hy0 eq_refl). auto.
    - exists x. cbn [app] in Hh2. split; [eapply load_has; exact Hh2|]. apply forall_hd in Hsp. apply space_facts in Hsp. tauto. }
  destruct Hc2 as (c2 & El2 & Hc2d & Hc2p & Hc2n & Hc2c).
  rewrite (scan_to m _ e (d + length j) (c :: run) Hhr).
  2:{ constructor; [rewrite Hc; reflexivity|]. eapply Forall_impl; [|exact Hrun]. intros b [B|B]; [rewrite B; reflexivity|subst b; reflexivity]. }
  2:{ cbn [length]; lia. }
  2:{ right. exists c2. cbn [length]. split; [exact El2|]. rewrite Hc2d. destruct (Z.eqb_spec c2 ch_dot); [congruence|reflexivity]. }
  cbn [bind length]. rewrite El2. cbn [bind]. rewrite Hc2n, Hc2c.
  pose proof Hh2 as Hh3. apply has_app in Hh3 as [Hhsp Hh3].
  rewrite (skip_spaces_to m sp _ _ y Hhsp Hsp).
  - cbn [bind]. rewrite (load_has _ _ _ _ Hh3). cbn [bind]. rewrite Hyn, Hyc. reflexivity.
  - eapply load_has; exact Hh3.
  - exact Hy.
  - lia.
Qed.

(** The rest of the line, without digits. *)
Lemma count_rest m e d ct fuel j t s : has m d (j ++ t ++ ch_nl :: s) -> Forall sep_char j ->
  Forall (fun c => is_nl c = false) t -> match t with [] => True | b :: _ => is_cmt b = true end ->
  j <> [] -> d + length j + length t < e ->
  exists d', count_spaces_ m e (S fuel) d ct = Ok (ct, d').
Proof.
  intros Hh Hj Htn Ht Hne He. cbn [count_spaces_]. destruct (Nat.ltb_spec d e); [|lia].
  destruct j as [|c j]; [congruence|]. pose proof Hh as Hh0. cbn [app] in Hh0. rewrite (load_has _ _ _ _ Hh0). cbn [bind].
  pose proof (forall_hd _ _ _ Hj) as (_ & Hn & _). rewrite Hn.
  pose proof Hh as Hh1. apply has_app in Hh1 as [Hhj Hh1].
  assert (Hx : exists x, load m (d + length (c :: j)) = Ok x /\ is_digit x = false /\ (is_nl x = true \/ is_cmt x = true)).
  { destruct t as [|x t]; cbn [app] in Hh1.
    - exists ch_nl. split; [eapply load_has; exact Hh1|]. split; [reflexivity|left; reflexivity].
    - exists x. split; [eapply load_has; exact Hh1|]. split; [|right; exact Ht]. unfold is_cmt, is_digit, ch_pct, ch_hash, ch_0, ch_9 in *. lia. }
  destruct Hx as (x & El & Hxd & Hx).
  rewrite (scan_to m _ e d (c :: j) Hhj).
  2:{ eapply Forall_impl; [|exact Hj]. intros b (B1 & B2 & B3). rewrite B1, B2, B3. reflexivity. }
  2:{ lia. }
  2:{ right. exists x. split; [exact El|]. destruct Hx as [-> | ->]; rewrite ?andb_false_r; reflexivity. }
  cbn [bind]. rewrite El. cbn [bind]. rewrite Hxd. cbn [negb].
  pose proof Hh1 as Hh2. apply has_app in Hh2 as [Hht Hh2].
  rewrite (move_to_eol_to m e _ t Htn Hht); [cbn [bind]; eexists; reflexivity|eapply load_has; exact Hh2|lia].
Qed.

Lemma words_len its : Forall (fun p : list byte * list byte => number (snd p)) its -> length its <= length (its_text its).
Proof.
  induction 1 as [|p its (c & r & E & _) _ IH]; [cbn; lia|]. rewrite its_text_cons, E, !app_length. cbn [length]. lia.
Qed.

(** A line that does not end after its last number has one number more. *)
Lemma count_leftover m e : forall n its, length its = n -> its <> [] -> forall d ct fuel sp c j t s,
  has m d (its_text its ++ sp ++ (c :: j) ++ t ++ ch_nl :: s) ->
  Forall witem its -> Forall (fun p => spacing (fst p)) (tl its) ->
  Forall (fun c => c = ch_space) sp -> c <> ch_space -> (sp = [] -> c <> ch_dot) -> Forall sep_char (c :: j) ->
  Forall (fun c => is_nl c = false) t -> match t with [] => True | c :: _ => is_cmt c = true end ->
  d + length (its_text its) + length sp + length (c :: j) + length t < e -> e <= map_len m -> length its < fuel ->
  exists d', count_spaces_ m e fuel d ct = Ok (ct + length its, d').
Proof.
  induction n as [|n IH]; intros its0 Hn Hne d ct fuel sp c j t s Hh Hw Hspc Hsp Hc Hc0 Hj Htn Ht He Hlen Hf; [destruct its0; [congruence|discriminate]|].
  destruct its0 as [|[j1 ds] its]; [congruence|]. cbn [length] in Hn. injection Hn as Hn.
  destruct fuel as [|fuel]; [cbn [length] in Hf; lia|].
  inversion Hw as [|? ? [Hj1 (c1 & run & Eds & Hc1 & Hrun)] Hw']; subst. cbn [fst snd] in *. subst ds. cbn [tl] in Hspc.
  rewrite its_text_cons in Hh, He. cbn [fst snd] in Hh, He. rewrite !app_length in He. cbn [length] in He. repeat rewrite <- app_assoc in Hh.
  destruct its as [|[j2 ds2] its].
  - cbn [its_text map concat length] in *. cbn [app] in Hh.
    pose proof (forall_hd _ _ _ Hj) as (Q1 & Q2 & Q3).
    rewrite (count_step m e d ct fuel j1 c1 run sp c (j ++ t ++ ch_nl :: s) Hh Hj1 Hc1 Hrun Hsp Hc Q2 Q3); [|intros E; split; [exact Q1|apply Hc0; exact E]|cbn [length]; lia|exact Hlen].
    destruct fuel as [|fuel]; [lia|].
    destruct (count_rest m e (d + length j1 + length (c1 :: run) + length sp) (S ct) fuel (c :: j) t s) as [d' E]; auto.
    + apply has_app in Hh as [_ Hh]. change (c1 :: run ++ sp ++ c :: j ++ t ++ ch_nl :: s) with ((c1 :: run) ++ sp ++ (c :: j) ++ t ++ ch_nl :: s) in Hh.
      apply has_app in Hh as [_ Hh]. apply has_app in Hh as [_ Hh]. exact Hh.
    + discriminate.
    + cbn [length]. lia.
    + exists d'. rewrite E. do 2 f_equal. lia.
  - pose proof (forall_hd _ _ _ Hspc) as [[Nj2 Fj2] Dj2]. cbn [fst] in Nj2, Fj2, Dj2.
    destruct (split_spaces j2) as (sp2 & r2 & Ej2 & Hsp2 & Hr2). subst j2.
    inversion Hw' as [|? ? [Hj2 Hn2] Hw2]; subst. cbn [fst snd] in Hj2, Hn2. destruct Hn2 as (c' & run' & -> & Hc' & Hrun').
    rewrite its_text_cons in Hh, He. cbn [fst snd] in Hh, He. rewrite !app_length in He. cbn [length] in He. repeat rewrite <- app_assoc in Hh.
    assert (Hy : exists y s', r2 ++ (c' :: run') ++ its_text its ++ sp ++ (c :: j) ++ t ++ ch_nl :: s = y :: s' /\ y <> ch_space /\ is_nl y = false /\ is_cmt y = false /\ (sp2 = [] -> is_digit y = false /\ y <> ch_dot)).
    { destruct r2 as [|x r2].
      - exists c'. eexists. split; [reflexivity|]. split; [intros ->; discriminate Hc'|]. split; [apply digit_not_nl; exact Hc'|]. split; [apply digit_not_cmt; exact Hc'|].
        intros ->. cbn [app] in Nj2. congruence.
      - exists x. eexists. split; [reflexivity|]. apply Forall_app in Fj2 as [_ F]. apply forall_hd in F. destruct F as (F1 & F2 & F3).
        split; [exact Hr2|]. split; [exact F2|]. split; [exact F3|]. intros ->. cbn [app] in Dj2. auto. }
    destruct Hy as (y & s' & Ey & Hy & Hyn & Hyc & Hy0). rewrite Ey in Hh.
    rewrite (count_step m e d ct fuel j1 c1 run sp2 y s' Hh Hj1 Hc1 Hrun Hsp2 Hy Hyn Hyc Hy0); [|cbn [length]; lia|exact Hlen].
    destruct (IH ((r2, c' :: run') :: its) eq_refl ltac:(discriminate)) with (d := d + length j1 + length (c1 :: run) + length sp2) (ct := S ct) (fuel := fuel) (sp := sp) (c := c) (j := j) (t := t) (s := s) as [d' E]; auto.
    + rewrite its_text_cons. cbn [fst snd]. repeat rewrite <- app_assoc. rewrite Ey.
      apply has_app in Hh as [_ Hh]. apply has_app in Hh as [_ Hh]. apply has_app in Hh as [_ Hh]. exact Hh.
    + constructor; [|exact Hw2]. split; [cbn [fst]; apply Forall_app in Fj2; apply Fj2|]. cbn [snd]. exists c', run'. auto.
    + cbn [tl]. inversion Hspc; assumption.
    + rewrite its_text_cons. cbn [fst snd]. rewrite !app_length. cbn [length] in *. lia.
    + cbn [length] in *. lia.
    + exists d'. rewrite E. do 2 f_equal. cbn [length]. lia.
Qed.

Lemma words_witem ws : words ws -> Forall witem ws /\ Forall (fun p => spacing (fst p)) (tl ws) /\ ws <> [].
Proof.
  intros [H1 H2]. destruct ws as [|w ws]; [contradiction|]. destruct H1 as [H0 H1]. split; [|split; [exact H1|discriminate]].
  inversion H2 as [|? ? N1 N2]; subst. constructor; [split; [rewrite H0; constructor|exact N1]|].
  rewrite Forall_forall in *. intros p Hp. split; [apply H1; exact Hp|apply N2; exact Hp].
Qed.

Lemma order_first O weighted s pg head ws tail rst n : is_ity O -> 0 < pg ->
  s = head ++ words_text ws ++ tail ++ ch_nl :: rst -> gap false head -> words ws ->
  Forall (fun c => is_nl c = false) tail ->
  (plain_tail tail /\ n = length ws \/ leftover tail /\ n = length ws + 1) -> (Z.of_nat n <= imax O)%Z ->
  tensor_order O weighted (mkMem s pg) 0 (length s) = Ok (Z.of_nat (n - if weighted then 1 else 0)).
Proof.
  intros HO Hpg Hs Hg Hw Htn Hor Hn. pose proof Hw as [Hw1 Hw2]. destruct (words_witem ws Hw) as (W1 & W2 & W3).
  assert (Hh : has (mkMem s pg) 0 s) by apply has_all. rewrite Hs in Hh at 2.
  assert (Hls : length s = length head + (length (words_text ws) + (length tail + S (length rst)))).
  { rewrite Hs, !app_length. reflexivity. }
  assert (Hmap : length s <= map_len (mkMem s pg)).
  { unfold map_len, flen; cbn [bytes page]. pose proof (Nat.div_mod (length s + (pg - 1)) pg ltac:(lia)). pose proof (Nat.mod_upper_bound (length s + (pg - 1)) pg ltac:(lia)). nia. }
  apply has_app in Hh as [Hhg Hh].
  assert (Hc : exists c r, words_text ws = c :: r /\ is_digit c = true).
  { destruct ws as [|[a b] ws]; [contradiction|]. cbn [fst snd] in Hw1. destruct Hw1 as [-> _]. inversion Hw2 as [|? ? (c & r & Eb & Hc & _) _]; subst. cbn [snd] in Eb. subst b.
    exists c. eexists. split; [reflexivity|exact Hc]. }
  destruct Hc as (c & r & Ec & Hc).
  unfold tensor_order. set (e := length s) in *. set (m := mkMem s pg) in *.
  rewrite (move_to_first_int_gap m false e 0 head Hg Hhg).
  2:{ exists c. split; [|split; [apply digit_not_cmt; exact Hc|split; [lia|intros _; exact Hc]]]. rewrite Ec in Hh. cbn [app] in Hh. eapply load_has; exact Hh. }
  2:{ discriminate. }
  cbn [plus bind]. cbn [plus] in Hh.
  assert (E : exists d', count_spaces_to_eol m e (length head) = Ok (n - 1, d')).
  { unfold count_spaces_to_eol. pose proof (words_len ws Hw2) as Hwl. change (its_text ws) with (words_text ws) in Hwl.
    destruct Hor as [[(sp & t & Et & T1 & T2) En]|[(sp & c1 & j & t & Et & T1 & T2 & T3 & T4 & T5) En]]; subst tail; rewrite app_length in Hls.
    - apply Forall_app in Htn as [_ Htn]. repeat rewrite <- app_assoc in Hh.
      destruct (count_spaces_at m e (length ws) ws eq_refl W3 (length head) 0 (S (e - length head)) sp t rst) as [d' E]; auto.
      + change (its_text ws) with (words_text ws). lia.
      + lia.
      + exists d'. rewrite E. do 2 f_equal. lia.
    - apply Forall_app in Htn as [_ Htn]. cbn [app] in Hh. repeat rewrite <- app_assoc in Hh.
      assert (Htn' : Forall (fun c => is_nl c = false) t) by (inversion Htn as [|? ? ? H']; subst; apply Forall_app in H'; apply H').
      cbn [length] in Hls. rewrite app_length in Hls.
      destruct (count_leftover m e (length ws) ws eq_refl W3 (length head) 0 (S (e - length head)) sp c1 j t rst) as [d' E]; auto.
      + cbn [app] in Hh |- *. repeat rewrite <- app_assoc in Hh. exact Hh.
      + change (its_text ws) with (words_text ws). cbn [length]. lia.
      + lia.
      + exists d'. rewrite E. do 2 f_equal. lia. }
  destruct E as [d' E]. rewrite E. cbn [bind]. pose proof (ity_facts O HO) as (HO1 & HO2 & _).
  assert (1 <= length ws) by (destruct ws; [congruence|cbn [length]; lia]).
  destruct weighted.
  - rewrite wrap_in by (auto; lia). reflexivity.
  - rewrite wrap_in by (auto; lia). rewrite arith_in by (auto; lia). f_equal. lia.
Qed.

Lemma tensor_read_order {W} L O (wr : option (wrd W)) m d0 e T sched t :
  tensor_read_el L O wr m d0 e T sched = Ok t -> tensor_order O (is_some wr) m d0 e = Ok (te_order t).
Proof.
  unfold tensor_read_el. destruct (tensor_order O (is_some wr) m d0 e) as [o| | |]; cbn [bind]; try discriminate.
  repeat match goal with
  | |- bind ?r _ = _ -> _ => destruct r as [?| | |]; cbn [bind]; try discriminate
  | |- (let '(_, _) := ?p in _) = _ -> _ => destruct p
  end.
  intros H. injection H as <-. reflexivity.
Qed.
