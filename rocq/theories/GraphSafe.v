(** * GraphSafe: the adjacency reader on arbitrary bytes stays in its arrays (C43) *)

From Verif Require Import Base Reader Sched SchedLemmas Spec ReaderLemmas Coo Safe Term Csr CsrLemmas SpecCsr Graph GraphTerm RacyAny.

Section Tok.
  Variable m : mem.
  Hypothesis Hs : slack m.
  Variable e : nat.
  Hypothesis He : e <= flen m.
  Hypothesis Hb : bnd m e.
  Hypothesis Hn : noc m e.
  Let next := move_to_next_int_or_nl m e.

  (** Where the tokens of the two passes start. *)
  Definition tok (d : nat) : Prop :=
    d < e -> (exists c, load m d = Ok c /\ (is_digit c = true \/ is_nl c = true)) \/ d = e - 1.

  Lemma cmt_tok d c : d < e -> load m d = Ok c -> is_cmt c = true -> safe (slack m) (d' <- skip_comments m e d ;; Ok (d' - 1)) tok.
  Proof.
    intros Hd Hc Ec. eapply safe_bind; [apply (skip_comments_nl m e He); lia|]. cbn beta. intros d' (A1 & _ & A3 & A4). cbn [safe].
    destruct (A4 c Hc Ec Hd) as [Hlt _]. intros _. destruct (Nat.eq_dec d' e) as [->|Hne]; [right; reflexivity|]. left.
    destruct (A3 ltac:(lia)) as [->|(c' & Hc' & Hn')]; [lia|]. exists c'. auto.
  Qed.

  Lemma loop_tok fuel : forall d, d <= e -> e - d < fuel -> safe (slack m) (int_or_nl_loop m e fuel d) tok.
  Proof.
    induction fuel as [|fuel IH]; intros d Hd Hf; [lia|]. cbn [int_or_nl_loop].
    destruct (Nat.ltb_spec d e) as [Hlt|Hge]; [|cbn [safe]; intros X; lia].
    eapply safe_bind; [apply load_keep; lia|]. intros c Hc. destruct (is_digit c || is_nl c) eqn:Es.
    - cbn. intros _. left. exists c. split; [exact Hc|]. apply Bool.orb_true_iff. exact Es.
    - eapply safe_bind; [apply load_keep; lia|]. intros c2 Hc2. destruct (is_cmt c2) eqn:E2.
      + destruct (Nat.eq_dec (S d) e) as [E|]; [rewrite E in Hc2; rewrite (bnd_cmt m e c2 Hb Hc2) in E2; discriminate|].
        apply (cmt_tok (S d) c2); [lia|assumption|assumption].
      + apply IH; lia.
  Qed.

  Lemma next_tok_ d : d < e -> safe (slack m) (next d) tok.
  Proof.
    intros Hd. unfold next, move_to_next_int_or_nl. destruct (Nat.ltb_spec d e) as [_|]; [|lia]. cbn [bind].
    eapply safe_bind with (Q := fun a => exists c, load m d = Ok c /\ a = is_digit c).
    { eapply safe_bind; [apply load_keep; lia|]. intros c Hc. exists c; split; [exact Hc|reflexivity]. }
    cbn beta. intros a (c & Hc & ->). unfold move_to_non_int. eapply safe_bind; [apply (scan_safe m e He); lia|]. cbn beta. intros d1 (H1 & H2 & H3).
    eapply safe_bind with (Q := fun nl => nl = true -> d1 < e /\ exists c1, load m d1 = Ok c1 /\ is_nl c1 = true).
    { destruct (Nat.ltb_spec d1 e); [|cbn; discriminate]. eapply safe_bind; [apply load_keep; lia|]. intros c1 Hc1. cbn. intros E. split; [assumption|exists c1; auto]. }
    cbn beta. intros nl Hnl. destruct (nl && is_digit c) eqn:En.
    - cbn. apply andb_prop in En as [En _]. destruct (Hnl En) as [_ (c1 & C1 & C2)]. intros _. left. exists c1. auto.
    - cbn zeta. set (d2 := if nl then S d1 else d1).
      assert (D2 : d2 <= e) by (unfold d2; destruct nl; [destruct (Hnl eq_refl)|]; lia). clearbody d2.
      eapply safe_bind; [apply load_keep; lia|]. intros c2 Hc2. destruct (is_cmt c2) eqn:E2.
      + assert (d2 < e). { destruct (Nat.eq_dec d2 e) as [->|]; [|lia]. rewrite (bnd_cmt m e c2 Hb Hc2) in E2. discriminate. }
        apply (cmt_tok d2 c2); assumption.
      + apply loop_tok; lia.
  Qed.

  Lemma next_ok d : d < e -> exists d', next d = Ok d' /\ d < d' <= e /\ tok d'.
  Proof.
    intros Hd. destruct (safe_ok _ _ _ Hs (next_safe m e He Hb Hn d Hd)) as (d' & E & H').
    destruct (safe_ok _ _ _ Hs (next_tok_ d Hd)) as (d'' & E' & H''). unfold next in E'. rewrite E in E'. injection E' as <-. eauto.
  Qed.

  Lemma load_ok d : d <= flen m -> exists c, load m d = Ok c.
  Proof. intros Hd. destruct (safe_ok _ _ _ Hs (load_keep m d Hd)) as (c & E & _). eauto. Qed.

  Lemma digits_scan t n : forall d acc v d1, read_digits_ m t n d acc = Ok (v, d1) -> scan_ m is_digit n d = Ok d1.
  Proof.
    induction n as [|n IH]; intros d acc v d1 E; cbn [read_digits_ scan_] in *; [congruence|].
    destruct (load m d) as [c| | |]; cbn [bind] in *; try discriminate. destruct (is_digit c); [|congruence].
    destruct (arith t _) as [z| | |]; cbn [bind] in E; try discriminate. eauto.
  Qed.

  (** Reading the number at a token and going on from there. *)
  Lemma number t d c : modular t -> d < e -> load m d = Ok c -> is_digit c = true ->
    exists v d1 d', read_int m t e d = Ok (v, d1) /\ d < d1 <= e /\ next d = Ok d' /\ d1 <= d' /\
      (d1 = e -> d' = e) /\
      (d1 < e -> exists c1, load m d1 = Ok c1 /\ is_digit c1 = false /\ (is_nl c1 = true -> d' = d1) /\ (is_nl c1 = false -> next d1 = Ok d')).
  Proof.
    intros Ht Hd Hc Ec.
    destruct (safe_ok _ _ _ Hs (read_int_safe m e He t d Ht ltac:(lia))) as ([v d1] & E & H1 & H2). cbn [snd] in *. specialize (H2 Hd).
    destruct (next_ok d Hd) as (d' & En & Hd' & _).
    assert (Es : scan m is_digit e d = Ok d1).
    { unfold read_int in E. assert (E0 : scan m (fun c => negb (is_digit c)) e d = Ok d).
      { unfold scan. destruct (e - d) eqn:Ed; [lia|]. cbn [scan_]. rewrite Hc. cbn [bind]. rewrite Ec. reflexivity. }
      rewrite E0 in E. cbn [bind] in E. apply digits_scan in E. exact E. }
    exists v, d1, d'. split; [exact E|]. split; [lia|]. split; [exact En|].
    destruct (safe_ok _ _ _ Hs (scan_safe m e He is_digit d ltac:(lia))) as (dd & Edd & _ & S2 & _). rewrite Es in Edd. injection Edd as <-.
    unfold next, move_to_next_int_or_nl in En. destruct (Nat.ltb_spec d e) as [_|]; [|lia]. rewrite Hc in En. cbn [bind] in En. rewrite Ec in En.
    unfold move_to_non_int in En. rewrite Es in En. cbn [bind] in En.
    destruct (Nat.ltb_spec d1 e) as [Hlt|Hge].
    - destruct (S2 Hlt) as (c1 & Hc1 & Hnd). rewrite Hc1 in En. cbn [bind] in En.
      assert (X : d1 <= d' /\ (is_nl c1 = true -> d' = d1) /\ (is_nl c1 = false -> next d1 = Ok d')).
      { destruct (is_nl c1) eqn:Enl; cbn [andb] in En.
        - injection En as <-. split; [lia|]. split; [reflexivity|discriminate].
        - assert (E1 : next d1 = Ok d').
          { unfold next, move_to_next_int_or_nl. destruct (Nat.ltb_spec d1 e) as [_|]; [|lia]. rewrite Hc1. cbn [bind]. rewrite Hnd.
            assert (Em : move_to_non_int m e d1 = Ok d1).
            { unfold move_to_non_int, scan. destruct (e - d1) eqn:Ed; [lia|]. cbn [scan_]. rewrite Hc1. cbn [bind]. rewrite Hnd. reflexivity. }
            rewrite Em. cbn [bind]. destruct (Nat.ltb_spec d1 e) as [_|]; [|lia]. rewrite Hc1. cbn [bind]. rewrite Enl. cbn [andb]. rewrite Hc1. cbn [bind]. rewrite Hc1 in En. exact En. }
          destruct (next_ok d1 Hlt) as (d2 & E2 & H2' & _). assert (d2 = d') by congruence. subst d2. split; [lia|]. split; [discriminate|]. intros _. exact E1. }
      destruct X as (X1 & X2 & X3). split; [exact X1|]. split; [lia|]. intros _. exists c1. auto.
    - assert (d1 = e) by lia. subst d1. cbn [bind andb] in En.
      destruct (load_ok e He) as (c1 & Hc1). rewrite Hc1 in En. cbn [bind] in En. rewrite (bnd_cmt m e c1 Hb Hc1) in En.
      cbn [int_or_nl_loop] in En. destruct (Nat.ltb_spec e e); [lia|]. injection En as <-. split; [lia|]. split; [reflexivity|lia].
  Qed.

  (** A token that is neither a number nor a newline is the last byte. *)
  Lemma stray t d c : modular t -> d < e -> tok d -> load m d = Ok c -> is_digit c = false -> is_nl c = false ->
    next d = Ok e /\ read_int m t e d = Ok (0%Z, e).
  Proof.
    intros Ht Hd Hk Hc Hnd Hnn. destruct (Hk Hd) as [(c' & Hc' & [X|X])|X]; [congruence|congruence|].
    destruct (next_ok d Hd) as (d' & En & Hd' & _). split; [rewrite En; f_equal; lia|].
    unfold read_int, scan. replace (e - d) with 1 by lia. cbn [scan_]. rewrite Hc. cbn [bind]. rewrite Hnd. cbn [negb bind].
    replace (S d) with e by lia. rewrite Nat.sub_diag. reflexivity.
  Qed.

  Lemma at_nl_val d c : d < e -> load m d = Ok c -> at_nl_or_eol m e d = Ok (is_nl c || is_cmt c).
  Proof. intros Hd Hc. unfold at_nl_or_eol. destruct (Nat.eqb_spec d e); [lia|]. rewrite Hc. reflexivity. Qed.

  Lemma gr_count_bound fuel : forall d a b h, e - d < fuel ->
    exists a' b' h', gr_count m e fuel d a b h = Ok (a', b', h') /\ a <= a' /\ b <= b' /\ a' + b' <= a + b + (e - d).
  Proof.
    induction fuel as [|fuel IH]; intros d a b h Hf; [lia|]. cbn [gr_count].
    destruct (Nat.ltb_spec d e) as [Hd|]; [|exists a, b, h; split; [reflexivity|lia]].
    destruct (safe_ok _ _ _ Hs (at_nl_safe m e He d ltac:(lia))) as (nl & -> & _). cbn [bind].
    destruct (safe_ok _ _ _ Hs (at_zero_safe m e He d Hd)) as (z & -> & _). cbn [bind].
    destruct (next_ok d Hd) as (d' & En & Hd' & _). unfold next in En. rewrite En. cbn [bind].
    destruct (IH d' (if nl then S a else a) (if nl then b else S b) (h || z) ltac:(lia)) as (a' & b' & h' & E & A & B & C).
    exists a', b', h'. split; [exact E|]. destruct nl; lia.
  Qed.

  (** ** Pass 2 stores no more numbers than pass 1 counted *)
  Variables (L O : ity) (n : Z).
  Hypothesis HL : is_ity L.
  Hypothesis HO : is_ity O.
  Hypothesis Lm : modular L.
  Hypothesis Hn1 : (n <= imax L)%Z.

  Definition inb (lo hi : Z) (i : ginstr) : Prop :=
    match i with SetOff k _ => (0 <= k <= n)%Z | SetEnd k _ => (lo <= k < hi)%Z end.

  Lemma inb_mono lo hi lo' hi' l : (lo' <= lo)%Z -> (hi <= hi')%Z -> Forall (inb lo hi) l -> Forall (inb lo' hi') l.
  Proof. intros H1 H2. apply Forall_impl. intros [k v|k v]; cbn [inb]; lia. Qed.

  Lemma set_bounded k : forall d fuel1 fuel2 a b h a' b' h' opos epos mx,
    e - d < k -> e - d < fuel1 -> e - d < fuel2 -> tok d ->
    gr_count m e fuel1 d a b h = Ok (a', b', h') ->
    (0 <= opos)%Z -> (0 <= epos)%Z -> (epos + Z.of_nat (b' - b) <= imax O)%Z ->
    exists r, gr_set L O n m e fuel2 d opos epos mx = Ok r /\ Forall (inb epos (epos + Z.of_nat (b' - b))) (fst r).
  Proof.
    pose proof (ity_facts L HL) as (FL1 & FL2 & _). pose proof (ity_facts O HO) as (FO1 & FO2 & _).
    induction k as [|k IH]; intros d fuel1 fuel2 a b h a' b' h' opos epos mx Hk Hf1 Hf2 Htok Hc Ho Hep Hmax; [lia|].
    destruct fuel1 as [|fuel1]; [lia|]. destruct fuel2 as [|fuel2]; [lia|]. cbn [gr_count] in Hc. cbn [gr_set].
    destruct (Nat.ltb_spec d e) as [Hd|]; [|eexists; split; [reflexivity|constructor]].
    destruct (Z.leb_spec n opos) as [_|Hlt]; [eexists; split; [reflexivity|constructor]|].
    destruct (load_ok d ltac:(lia)) as (c & Hcd). rewrite (at_nl_val d c Hd Hcd) in Hc |- *. cbn [bind] in Hc |- *.
    destruct (safe_ok _ _ _ Hs (at_zero_safe m e He d Hd)) as (z & Ez & _). rewrite Ez in Hc. cbn [bind] in Hc.
    destruct (next_ok d Hd) as (d' & En & Hd' & Htok'). unfold next in En. rewrite En in Hc. cbn [bind] in Hc.
    assert (Hmono : (if is_nl c || is_cmt c then b else S b) <= b').
    { destruct (gr_count_bound fuel1 d' (if is_nl c || is_cmt c then S a else a) (if is_nl c || is_cmt c then b else S b) (h || z) ltac:(lia)) as (x & y & w & E & _ & B & _).
      rewrite Hc in E. injection E as -> -> ->. exact B. }
    destruct (is_nl c || is_cmt c) eqn:Enc.
    - rewrite arith_in by (auto; lia). cbn [bind]. rewrite En. cbn [bind].
      destruct (IH d' fuel1 fuel2 _ _ _ _ _ _ (opos + 1)%Z epos mx ltac:(lia) ltac:(lia) ltac:(lia) Htok' Hc ltac:(lia) ltac:(lia) ltac:(lia)) as ([code mx'] & E & HF).
      rewrite E. cbn [bind]. eexists. split; [reflexivity|]. cbn [fst] in *. constructor; [cbn [inb]; lia|exact HF].
    - apply Bool.orb_false_iff in Enc as [Enl Ecmt].
      assert (Hfin : forall v d1, d < d1 <= e -> read_int m L e d = Ok (v, d1) ->
        (d1 = e -> d' = e) ->
        (d1 < e -> exists c1, load m d1 = Ok c1 /\ (is_nl c1 = true -> d' = d1) /\ (is_nl c1 = false -> next d1 = Ok d')) ->
        exists r, ('(v, d1) <- read_int m L e d ;; epos' <- arith O (epos + 1)%Z ;; nl2 <- at_nl_or_eol m e d1 ;;
             d' <- (if (nl2 : bool) then Ok d1 else move_to_next_int_or_nl m e d1) ;;
             '(c, mx') <- gr_set L O n m e fuel2 d' opos epos' (if (mx <? v)%Z then v else mx) ;;
             Ok (SetEnd epos v :: c, mx')) = Ok r /\ Forall (inb epos (epos + Z.of_nat (b' - b))) (fst r)).
      { intros v d1 H1 Er Hend Hmid. rewrite Er. cbn [bind]. rewrite arith_in by (auto; lia). cbn [bind].
        destruct (Nat.eq_dec d1 e) as [->|Hne].
        - unfold at_nl_or_eol. rewrite Nat.eqb_refl. cbn [bind].
          destruct fuel2 as [|fuel2']; [lia|]. cbn [gr_set]. destruct (Nat.ltb_spec e e); [lia|]. cbn [bind].
          eexists. split; [reflexivity|]. cbn [fst]. constructor; [cbn [inb]; lia|constructor].
        - destruct (Hmid ltac:(lia)) as (c1 & Hc1 & X1 & X2). rewrite (at_nl_val d1 c1 ltac:(lia) Hc1). cbn [bind].
          assert (K : forall f2 op mx0, e - d' < f2 -> (0 <= op)%Z -> exists r, gr_set L O n m e f2 d' op (epos + 1) mx0 = Ok r /\ Forall (inb (epos + 1) (epos + Z.of_nat (b' - b))) (fst r)).
          { intros f2 op mx0 Hf2' Hop. destruct (IH d' fuel1 f2 _ _ _ _ _ _ op (epos + 1)%Z mx0 ltac:(lia) ltac:(lia) Hf2' Htok' Hc Hop ltac:(lia) ltac:(lia)) as (r & E & HF).
            exists r. split; [exact E|]. eapply inb_mono; [| |exact HF]; lia. }
          destruct (is_nl c1) eqn:En1; cbn [orb].
          + rewrite (X1 eq_refl) in *. cbn [bind]. destruct (K fuel2 opos (if (mx <? v)%Z then v else mx) ltac:(lia) Ho) as ([code mx'] & E & HF). rewrite E. cbn [bind].
            eexists. split; [reflexivity|]. cbn [fst] in *. constructor; [cbn [inb]; lia|]. eapply inb_mono; [| |exact HF]; lia.
          + specialize (X2 eq_refl). unfold next in X2. destruct (next_ok d1 ltac:(lia)) as (d2 & Ed2 & Hd2 & _). unfold next in Ed2. assert (d2 = d') by congruence. subst d2.
            destruct (is_cmt c1) eqn:Ec1; cbn [bind].
            * destruct fuel2 as [|fuel2']; [lia|]. cbn [gr_set]. destruct (Nat.ltb_spec d1 e) as [_|]; [|lia].
              destruct (Z.leb_spec n opos); [lia|]. rewrite (at_nl_val d1 c1 ltac:(lia) Hc1). cbn [bind]. rewrite En1, Ec1. cbn [orb].
              rewrite arith_in by (auto; lia). cbn [bind]. rewrite X2. cbn [bind].
              destruct (K fuel2' (opos + 1)%Z (if (mx <? v)%Z then v else mx) ltac:(lia) ltac:(lia)) as ([code mx'] & E & HF). rewrite E. cbn [bind].
              eexists. split; [reflexivity|]. cbn [fst] in *. constructor; [cbn [inb]; lia|]. constructor; [cbn [inb]; lia|]. eapply inb_mono; [| |exact HF]; lia.
            * rewrite X2. cbn [bind]. destruct (K fuel2 opos (if (mx <? v)%Z then v else mx) ltac:(lia) Ho) as ([code mx'] & E & HF). rewrite E. cbn [bind].
              eexists. split; [reflexivity|]. cbn [fst] in *. constructor; [cbn [inb]; lia|]. eapply inb_mono; [| |exact HF]; lia. }
      destruct (is_digit c) eqn:Edig.
      + destruct (number L d c Lm Hd Hcd Edig) as (v & d1 & d'' & Er & H1 & En' & H2 & H3 & H4). unfold next in En'. assert (d'' = d') by congruence. subst d''.
        apply (Hfin v d1 ltac:(lia) Er H3). intros Hlt1. destruct (H4 Hlt1) as (c1 & C1 & _ & C2 & C3). exists c1. auto.
      + destruct (stray L d c Lm Hd Htok Hcd Edig Enl) as [En' Er]. apply (Hfin 0%Z e ltac:(lia) Er); [|lia].
        intros _. unfold next in En'. congruence.
  Qed.
End Tok.

(** ** The chunks *)
Definition good (m : mem) (c : nat * nat) : Prop :=
  snd c <= flen m /\ bnd m (snd c) /\ noc m (snd c) /\ tok m (snd c) (fst c).

Lemma chunk_good m d0 T t : slack m -> noc m (flen m) -> exists c, gr_chunk m d0 (flen m) T t = Ok c /\ good m c.
Proof.
  intros Hs Hn. destruct (safe_ok _ _ _ Hs (gr_chunk_safe m d0 T t Hn)) as (c & E & H1 & H2 & H3). exists c. split; [exact E|].
  split; [exact H1|]. split; [exact H2|]. split; [exact H3|].
  assert (Ha : forall p, advance (flen m) d0 p <= flen m) by (intros; unfold advance; lia).
  unfold gr_chunk in E. cbn zeta in E.
  destruct (move_to_next_int m (flen m) _) as [re| | |]; cbn [bind] in E; try discriminate.
  assert (X : safe (slack m) (if t =? 0 then move_to_first_int m (flen m) (advance (flen m) d0 (t * (flen m - d0) / T))
     else move_to_next_int m (flen m) (advance (flen m) d0 (t * (flen m - d0) / T)))
     (fun d' => d' < flen m -> exists c, load m d' = Ok c /\ is_digit c = true)).
  { destruct (t =? 0).
    - eapply safe_imp; [apply (move_to_first_int_safe m (flen m)); [lia|apply Ha]|]. cbn beta. tauto.
    - eapply safe_imp; [apply (move_to_next_int_safe m (flen m)); [lia|apply Ha]|]. cbn beta. tauto. }
  apply (safe_ok _ _ _ Hs) in X as (rs & Er & X). rewrite Er in E. cbn [bind] in E. injection E as <-. cbn [fst snd] in *.
  intros Hlt. left. destruct (X ltac:(lia)) as (c & C1 & C2). exists c. auto.
Qed.

Definition counted (m : mem) (c : nat * nat) (r : nat * nat * bool) : Prop :=
  good m c /\ gr_count m (snd c) (S (snd c - fst c)) (fst c) 0 0 false = Ok r.

Lemma counts_bound m chunks p1 : slack m -> Forall2 (counted m) chunks p1 ->
  sum_nat (map (fun r => fst (fst r)) p1) + sum_nat (map (fun r => snd (fst r)) p1) <= length chunks * flen m.
Proof.
  intros Hs. induction 1 as [|c [[a b] h] chunks p1 [(G1 & G2 & G3 & G4) E] H IH]; [cbn; lia|].
  destruct (gr_count_bound m Hs (snd c) G1 G2 G3 (S (snd c - fst c)) (fst c) 0 0 false ltac:(lia)) as (a' & b' & h' & E' & A & B & C).
  rewrite E in E'. injection E' as <- <- <-. cbn [map fst snd sum_nat fold_right length] in *. fold (sum_nat (map (fun r : nat * nat * bool => fst (fst r)) p1)) in *.
  fold (sum_nat (map (fun r : nat * nat * bool => snd (fst r)) p1)) in *. lia.
Qed.

Lemma pass2_good m L O n M : slack m -> is_ity L -> is_ity O -> modular L -> (n <= imax L)%Z -> (M <= imax O)%Z ->
  forall chunks p1 o i, Forall2 (counted m) chunks p1 ->
  (Z.of_nat (o + sum_nat (map (fun r => fst (fst r)) p1)) <= imax L)%Z ->
  (Z.of_nat (i + sum_nat (map (fun r => snd (fst r)) p1)) <= M)%Z ->
  exists p2, mapM (fun q => let '(c, (o, i)) := q in
                gr_set L O n m (snd c) (S (snd c - fst c)) (fst c) (wrap L (Z.of_nat o)) (wrap O (Z.of_nat i)) 0)
          (combine chunks (combine (prefix_sums o (map (fun r => fst (fst r)) p1)) (prefix_sums i (map (fun r => snd (fst r)) p1)))) = Ok p2 /\
    Forall (Forall (inb n 0 M)) (map fst p2).
Proof.
  intros Hs HL HO Lm Hn HM chunks p1 o i H. revert o i.
  induction H as [|c [[a b] h] chunks p1 [(G1 & G2 & G3 & G4) E] H IH]; intros o i Ho Hi; [exists []; split; [reflexivity|constructor]|].
  cbn [map fst snd prefix_sums combine mapM sum_nat fold_right] in *.
  fold (sum_nat (map (fun r : nat * nat * bool => fst (fst r)) p1)) in *. fold (sum_nat (map (fun r : nat * nat * bool => snd (fst r)) p1)) in *.
  rewrite !wrap_small by (try assumption; lia).
  destruct (set_bounded m Hs (snd c) G1 G2 G3 L O n HL HO Lm Hn (S (snd c - fst c)) (fst c) (S (snd c - fst c)) (S (snd c - fst c)) 0 0 false a b h (Z.of_nat o) (Z.of_nat i) 0%Z
    ltac:(lia) ltac:(lia) ltac:(lia) G4 E ltac:(lia) ltac:(lia) ltac:(lia)) as (r & Er & Hr).
  rewrite Er. cbn [bind]. destruct (IH (o + a) (i + b) ltac:(lia) ltac:(lia)) as (p2 & E2 & H2). rewrite E2. cbn [bind].
  exists (r :: p2). split; [reflexivity|]. cbn [map]. constructor; [|exact H2]. eapply Forall_impl; [|exact Hr]. intros [k v|k v]; cbn [inb]; lia.
Qed.

Lemma found_zero_ok hzs sched : exists b, found_zero hzs sched = Ok b.
Proof.
  unfold found_zero.
  destruct (run_inv hzexec (fun _ _ => True)) with (sched := sched) (ps := map hz_prog (combine (seq 0 (length hzs)) hzs)) (s := mkHz (repeat [] (S (length hzs / 64))) (repeat [] (length hzs))) as (ps' & s' & E & _); [|exact Logic.I|].
  - intros _ i _ _ s _. destruct i; eexists; split; [reflexivity|exact Logic.I|reflexivity|exact Logic.I].
  - rewrite E. cbn [bind]. eauto.
Qed.

Lemma zset_ok i v l : (0 <= i)%Z -> Z.to_nat i < length l -> exists l', zset i v l = Ok l' /\ length l' = length l.
Proof.
  intros H1 H2. unfold zset, aset. destruct (Z.ltb_spec i 0); [lia|]. destruct (Nat.ltb_spec (Z.to_nat i) (length l)); [|lia].
  eexists. split; [reflexivity|]. apply upd_length.
Qed.

Lemma run_good OS n M sched ps off en : Forall (Forall (inb n 0 M)) ps -> length off = Z.to_nat (n + 1) -> length en = Z.to_nat M -> (0 <= n)%Z ->
  exists s, run (gexec OS) sched ps (mkGst off en) = Ok s /\ length (g_off s) = length off /\ length (g_end s) = length en.
Proof.
  intros Hps Hoff Hen Hn.
  destruct (run_inv (gexec OS) (fun ps s => Forall (Forall (inb n 0 M)) ps /\ length (g_off s) = length off /\ length (g_end s) = length en)) with (sched := sched) (ps := ps) (s := mkGst off en) as (ps' & s' & E & _ & H); [|auto|eauto].
  intros A i q B s (HF & H1 & H2). apply Forall_app in HF as [HA HB]. inversion HB as [|? ? Hiq HB']; subst. inversion Hiq as [|? ? Hi Hq]; subst.
  assert (HF' : Forall (Forall (inb n 0 M)) (A ++ q :: B)) by (apply Forall_app; split; [assumption|constructor; assumption]).
  destruct i as [k v|k v]; cbn [inb gexec] in *.
  - destruct (zset_ok k (wrap OS v) (g_off s)) as (l' & E & Hl); [lia|lia|]. rewrite E. cbn [bind]. eexists. split; [reflexivity|]. cbn [g_off g_end]. rewrite Hl. auto.
  - destruct (zset_ok k v (g_end s)) as (l' & E & Hl); [lia|lia|]. rewrite E. cbn [bind]. eexists. split; [reflexivity|]. cbn [g_off g_end]. rewrite Hl. auto.
Qed.

(** ** The whole reader *)
Theorem read_graph_good {W : Type} L O OS m ch : slack m -> noc m (flen m) -> is_ity L -> is_ity O -> modular L -> modular O ->
  1 <= gc_T ch -> (Z.of_nat (gc_T ch * flen m) + 1 < imax L)%Z -> (Z.of_nat (gc_T ch * flen m) <= imax O)%Z ->
  read_graph (W:=W) L O OS m 0 (flen m) ch = Throw EError \/
  exists c k, read_graph (W:=W) L O OS m 0 (flen m) ch = Ok c /\ cs_nrows c = Some (Z.of_nat k) /\ (cs_n c <= Z.of_nat k)%Z /\
    length (cs_off c) = S k /\ cs_m c = Z.of_nat (length (cs_end c)).
Proof.
  intros Hs Hn HL HO Lm Om HT HfL HfO. set (e := flen m) in *. assert (He : e <= flen m) by (unfold e; lia).
  unfold read_graph. cbn zeta.
  destruct (safe_ok _ _ _ Hs (move_to_first_int_safe m e He 0 ltac:(lia))) as (d1 & -> & H1 & _). cbn [bind].
  destruct (safe_ok _ _ _ Hs (read_int_safe m e He L d1 Lm ltac:(lia))) as ([rn d2] & -> & H2 & _). cbn [bind snd] in *.
  destruct (safe_ok _ _ _ Hs (move_to_next_int_safe m e He d2 ltac:(lia))) as (d3 & -> & H3 & _). cbn [bind].
  destruct (safe_ok _ _ _ Hs (read_int_safe m e He O d3 Om ltac:(lia))) as ([rm d4] & -> & H4 & _). cbn [bind snd] in *.
  unfold move_to_eol. destruct (safe_ok _ _ _ Hs (scan_safe m e He (fun c => negb (is_nl c)) d4 ltac:(lia))) as (d5 & -> & H5 & _). cbn [bind].
  destruct (safe_ok _ _ _ Hs (move_to_next_int_safe m e He d5 ltac:(lia))) as (d6 & -> & H6 & _). cbn [bind].
  assert (C : forall l, exists chunks, mapM (gr_chunk m d6 e (gc_T ch)) l = Ok chunks /\ Forall (good m) chunks /\ length chunks = length l).
  { induction l as [|t l (cs & E & HF & HL')]; cbn [mapM]; [exists []; split; [reflexivity|split; [constructor|reflexivity]]|].
    destruct (chunk_good m d6 (gc_T ch) t Hs Hn) as (c & Ec & Hc). fold e in Ec. rewrite Ec, E. cbn [bind]. exists (c :: cs). split; [reflexivity|]. split; [constructor; assumption|cbn; lia]. }
  destruct (C (seq 0 (gc_T ch))) as (chunks & -> & HF & Hlen). cbn [bind]. rewrite seq_length in Hlen.
  assert (P : exists p1, mapM (fun c => gr_count m (snd c) (S (snd c - fst c)) (fst c) 0 0 false) chunks = Ok p1 /\ Forall2 (counted m) chunks p1).
  { clear Hlen. induction HF as [|c cs Hc HF (p & E & HP)]; cbn [mapM]; [exists []; split; [reflexivity|constructor]|].
    pose proof Hc as (G1 & G2 & G3 & _).
    destruct (gr_count_bound m Hs (snd c) G1 G2 G3 (S (snd c - fst c)) (fst c) 0 0 false ltac:(lia)) as (a & b & h & Ec & _).
    rewrite Ec, E. cbn [bind]. eexists. split; [reflexivity|]. constructor; [split; assumption|exact HP]. }
  destruct P as (p1 & -> & HP). cbn [bind].
  destruct (found_zero_ok (map snd p1) (gc_hz ch)) as (hz & ->). cbn [bind].
  pose proof (counts_bound m chunks p1 Hs HP) as HB. rewrite Hlen in HB. fold e in HB.
  set (NL := sum_nat (map (fun r => fst (fst r)) p1)) in *. set (NI := sum_nat (map (fun r => snd (fst r)) p1)) in *.
  set (base := if hz then 0 else 1). assert (Hbase : base <= 1) by (unfold base; destruct hz; lia).
  rewrite (wrap_small O (Z.of_nat NI)) by (try assumption; lia). rewrite (wrap_small L (Z.of_nat (base + NL))) by (try assumption; lia).
  unfold csr_alloc. rewrite alloc_ok by lia. cbn [bind].
  rewrite plus1_ok; [|assumption|lia|unfold room; lia]. cbn [bind]. rewrite alloc_ok by lia. cbn [bind].
  assert (Hfresh : forall k, length (@fresh Z k) = k) by (intros; unfold fresh; apply repeat_length).
  destruct (zset_ok 0 0 (@fresh Z (Z.to_nat (Z.of_nat (base + NL) + 1)))) as (o1 & -> & Ho1); [lia|rewrite Hfresh; lia|]. cbn [bind]. rewrite Hfresh in Ho1.
  assert (X : exists o2, (if hz then Ok o1 else zset 1 0 o1) = Ok o2 /\ length o2 = length o1).
  { destruct hz; [exists o1; auto|]. apply zset_ok; [lia|]. rewrite Ho1. unfold base. lia. }
  destruct X as (o2 & -> & Ho2). cbn [bind].
  destruct (zset_ok (Z.of_nat (base + NL)) (wrap OS (Z.of_nat NI)) o2) as (o3 & -> & Ho3); [lia|rewrite Ho2, Ho1; lia|]. cbn [bind].
  destruct (pass2_good m L O (Z.of_nat (base + NL)) (Z.of_nat NI) Hs HL HO Lm ltac:(lia) ltac:(lia) chunks p1 base 0 HP) as (p2 & -> & HP2); [unfold NL in *; lia|unfold NI in *; lia|]. cbn [bind].
  destruct (run_good OS (Z.of_nat (base + NL)) (Z.of_nat NI) (gc_set ch) (map fst p2) o3 (@fresh Z (Z.to_nat (Z.of_nat NI))) HP2) as (s & -> & Hso & Hse); [lia|apply Hfresh|lia|]. cbn [bind].
  assert (Y : exists m2, twice O rm = Ok m2). { unfold twice. destruct (ibits O <? 32)%Z; [eauto|]. rewrite arith_modular by assumption. eauto. }
  destruct Y as (m2 & ->). cbn [bind].
  destruct (negb (Z.of_nat NI =? m2)%Z && negb (Z.of_nat NI =? rm)%Z); [left; reflexivity|].
  destruct (Z.ltb_spec (Z.of_nat (base + NL)) rn); [left; reflexivity|]. rewrite arith_modular by assumption. cbn [bind].
  right. eexists _, (base + NL). split; [reflexivity|]. cbn [cs_nrows cs_n cs_off cs_m cs_end]. split; [reflexivity|]. split; [lia|]. split; [rewrite Hso, Ho3, Ho2, Ho1; lia|]. rewrite Hse, Hfresh. lia.
Qed.
