(** * Safe: the reader on arbitrary bytes

    Outcomes of the cursor functions without any assumption on the text: they
    terminate, they stay within [d, e], and they leave the mapping only if the
    file has no mapped byte after its end. *)

From Verif Require Import Base Reader Sched SchedLemmas Spec ReaderLemmas Coo.

(** [r] returns a value satisfying [Q], or is undefined while [G] fails. *)
Definition safe {A} (G : Prop) (r : res A) (Q : A -> Prop) : Prop :=
  match r with
  | Ok a => Q a
  | UB => ~ G
  | Throw _ | Stuck => False
  end.

Lemma safe_bind {A B} G (r : res A) (k : A -> res B) (Q : A -> Prop) (Q' : B -> Prop) :
  safe G r Q -> (forall a, Q a -> safe G (k a) Q') -> safe G (bind r k) Q'.
Proof. destruct r; cbn; auto; contradiction. Qed.

Lemma safe_imp {A} G (r : res A) (Q Q' : A -> Prop) : safe G r Q -> (forall a, Q a -> Q' a) -> safe G r Q'.
Proof. destruct r; cbn; auto. Qed.

Lemma safe_ok {A} (G : Prop) (r : res A) (Q : A -> Prop) : G -> safe G r Q -> exists a, r = Ok a /\ Q a.
Proof. destruct r; cbn; intros HG H; try contradiction; eauto. Qed.

  (** Integer types in which parsing never overflows with undefined behaviour:
      unsigned ones and those narrower than [int]. *)
  Definition modular (t : ity) : Prop := isigned t = false \/ (ibits t < 32)%Z.

  Lemma arith_modular t z : modular t -> arith t z = Ok (wrap t z).
  Proof.
    intros [H|H]; unfold arith.
    - rewrite H. destruct (ibits t <? 32)%Z; reflexivity.
    - destruct (Z.ltb_spec (ibits t) 32); [reflexivity|lia].
  Qed.

Section Bytes.
  Variable m : mem.
  Let G := slack m.

  Lemma load_safe p : p <= flen m -> safe G (load m p) (fun _ => True).
  Proof.
    intros Hp. unfold load. destruct (nth_error (bytes m) p) eqn:E; [exact Logic.I|].
    apply nth_error_None in E. unfold G, slack.
    assert (p = flen m) by (unfold flen in *; lia). subst p.
    destruct (Nat.ltb_spec (flen m) (map_len m)); cbn; [exact Logic.I|lia].
  Qed.

  Lemma load_keep p : p <= flen m -> safe G (load m p) (fun c => load m p = Ok c).
  Proof. intros Hp. pose proof (load_safe p Hp) as H. destruct (load m p); cbn in *; auto. Qed.

  Variable e : nat.
  Hypothesis He : e <= flen m.

  Lemma scan_n_safe p n : forall d, d + n <= flen m ->
    safe G (scan_ m p n d) (fun d' => d <= d' <= d + n /\ (d' < d + n -> exists c, load m d' = Ok c /\ p c = false) /\
                                      (forall i, d <= i < d' -> exists c, load m i = Ok c /\ p c = true)).
  Proof.
    induction n as [|n IH]; intros d Hd; cbn [scan_].
    - cbn. split; [lia|]. split; [lia|]. intros; lia.
    - eapply safe_bind; [apply load_keep; lia|]. intros c Hc. destruct (p c) eqn:Ep.
      + eapply safe_imp; [apply IH; lia|]. cbn beta. intros d' (H1 & H2 & H3). split; [lia|]. split; [intros; apply H2; lia|].
        intros i Hi. destruct (Nat.eq_dec i d) as [->|]; [exists c; split; [exact Hc|exact Ep]|]. apply H3; lia.
      + cbn. split; [lia|]. split; [intros _; exists c; split; [exact Hc|exact Ep]|]. intros; lia.
  Qed.

  Lemma scan_safe p d : d <= e ->
    safe G (scan m p e d) (fun d' => d <= d' <= e /\ (d' < e -> exists c, load m d' = Ok c /\ p c = false) /\
                                     (forall i, d <= i < d' -> exists c, load m i = Ok c /\ p c = true)).
  Proof.
    intros Hd. unfold scan. eapply safe_imp; [apply scan_n_safe; lia|]. cbn beta.
    intros d' (H1 & H2 & H3). split; [lia|]. split; [|exact H3]. intros H; apply H2; lia.
  Qed.

  Lemma skip_line_safe n : forall d, d + n <= flen m -> 0 < n ->
    safe G (skip_line_ m n d) (fun d' => d < d' <= d + n).
  Proof.
    induction n as [|n IH]; intros d Hd Hn; [lia|]. cbn [skip_line_].
    eapply safe_bind; [apply load_keep; lia|]. intros c _. destruct (is_nl c); [cbn; lia|].
    destruct n as [|n]; [cbn; lia|]. eapply safe_imp; [apply IH; lia|]. cbn beta; lia.
  Qed.

  Lemma skip_comments_safe_ fuel : forall d, d <= e -> e - d < fuel ->
    safe G (skip_comments_ m e fuel d) (fun d' => d <= d' <= e).
  Proof.
    induction fuel as [|fuel IH]; intros d Hd Hf; [lia|]. cbn [skip_comments_].
    destruct (Nat.ltb_spec d e) as [Hlt|Hge]; [|cbn; lia].
    eapply safe_bind; [apply load_keep; lia|]. intros c _. destruct (is_cmt c); [|cbn; lia].
    eapply safe_bind; [apply skip_line_safe; lia|]. cbn beta. intros d' H.
    eapply safe_imp; [apply IH; lia|]. cbn beta; lia.
  Qed.

  Lemma skip_comments_safe d : d <= e -> safe G (skip_comments m e d) (fun d' => d <= d' <= e).
  Proof. intros Hd. apply skip_comments_safe_; lia. Qed.

  Lemma skip_comments_here_safe d : d <= e ->
    safe G (skip_comments_here m e d) (fun d' => d <= d' <= e /\ (forall c, load m d = Ok c -> is_cmt c = false -> d' = d)).
  Proof.
    intros Hd. unfold skip_comments_here. eapply safe_bind; [apply load_keep; lia|]. intros c Hc.
    destruct (is_cmt c) eqn:Ec.
    - eapply safe_imp; [apply skip_comments_safe; exact Hd|]. cbn beta. intros d' H. split; [exact H|].
      intros c' Hc' Hf. congruence.
    - cbn. split; [lia|auto].
  Qed.

  Lemma seek_safe stop fuel : forall d, d <= e -> e - d < fuel ->
    safe G (seek_ m stop e fuel d) (fun d' => d <= d' <= e /\
      (d' < e -> exists c, load m d' = Ok c /\ stop c = true)).
  Proof.
    induction fuel as [|fuel IH]; intros d Hd Hf; [lia|]. cbn [seek_].
    destruct (Nat.ltb_spec d e) as [Hlt|Hge]; [|cbn; split; lia].
    eapply safe_bind; [apply load_keep; lia|]. intros c Hc. destruct (stop c) eqn:Es.
    - cbn. split; [lia|intros _; exists c; split; [exact Hc|exact Es]].
    - eapply safe_bind; [apply skip_comments_here_safe; lia|]. cbn beta. intros d' (H & _).
      eapply safe_imp; [apply IH; lia|]. cbn beta. intros d'' (H1 & H2). split; [lia|exact H2].
  Qed.

  Lemma move_to_first_int_safe d : d <= e ->
    safe G (move_to_first_int m e d) (fun d' => d <= d' <= e /\ (d' < e -> exists c, load m d' = Ok c /\ is_digit c = true)).
  Proof.
    intros Hd. unfold move_to_first_int. eapply safe_bind; [apply skip_comments_here_safe; exact Hd|]. cbn beta.
    intros d1 (H1 & _). eapply safe_imp; [apply seek_safe; lia|]. cbn beta. intros d2 (H2 & H3). split; [lia|exact H3].
  Qed.

  Lemma move_to_next_int_safe d : d <= e ->
    safe G (move_to_next_int m e d) (fun d' => d <= d' <= e /\ (d' < e -> exists c, load m d' = Ok c /\ is_digit c = true)).
  Proof.
    intros Hd. unfold move_to_next_int, move_to_non_int. eapply safe_bind; [apply scan_safe; exact Hd|]. cbn beta.
    intros d1 (H1 & _). eapply safe_imp; [apply move_to_first_int_safe; lia|]. cbn beta. intros d2 (H2 & H3). split; [lia|exact H3].
  Qed.

  (** [next_line] makes progress. *)
  Lemma next_line_safe d : d <= e ->
    safe G (next_line m e d) (fun d' => d <= d' <= e /\ (d < e -> d < d') /\
       (d' < e -> exists c, load m d' = Ok c /\ is_digit c = true)).
  Proof.
    intros Hd. unfold next_line, move_to_eol. eapply safe_bind; [apply scan_safe; exact Hd|]. cbn beta.
    intros d1 (H1 & H2 & _).
    pose proof (move_to_next_int_safe d1 ltac:(lia)) as Hs.
    destruct (move_to_next_int m e d1) as [d2| | |] eqn:E2; cbn in *; auto.
    destruct Hs as [Hs1 Hs2]. split; [lia|]. split; [|exact Hs2]. intros Hlt.
    destruct (Nat.lt_ge_cases d1 e) as [Hl|Hg]; [|lia].
    destruct (H2 Hl) as (c & Hc & Hn).
    destruct (Nat.lt_ge_cases d2 e) as [Hl2|Hg2]; [|lia].
    destruct (Hs2 Hl2) as (c2 & Hc2 & Hd2).
    assert (d2 <> d1).
    { intros ->. rewrite Hc in Hc2. injection Hc2 as <-. destruct (is_nl c) eqn:En; [|discriminate].
      unfold is_nl, is_digit, ch_nl, ch_0, ch_9 in *. lia. }
    lia.
  Qed.

  Lemma read_digits_safe t n : modular t -> forall d acc, d + n <= flen m ->
    safe G (read_digits_ m t n d acc) (fun r => d <= snd r <= d + n /\
      (forall c, 0 < n -> load m d = Ok c -> is_digit c = true -> d < snd r)).
  Proof.
    intros Ht. induction n as [|n IH]; intros d acc Hd; cbn [read_digits_].
    - cbn. split; [lia|]. intros; lia.
    - eapply safe_bind; [apply load_keep; lia|]. intros c Hc. destruct (is_digit c) eqn:Ec.
      + rewrite arith_modular by exact Ht. cbn [bind]. eapply safe_imp; [apply IH; lia|]. cbn beta.
        intros [v d'] (H1 & _); cbn in *. split; [lia|]. intros; lia.
      + cbn. split; [lia|]. intros c' _ Hc' Hd'. congruence.
  Qed.

  Lemma read_int_safe t d : modular t -> d <= e ->
    safe G (read_int m t e d) (fun r => d <= snd r <= e /\ (d < e -> d < snd r)).
  Proof.
    intros Ht Hd. unfold read_int. eapply safe_bind; [apply scan_safe; exact Hd|]. cbn beta.
    intros d1 (H1 & H2 & _). eapply safe_imp; [apply read_digits_safe; [exact Ht|lia]|]. cbn beta.
    intros [v d'] (H3 & H4); cbn in *. split; [lia|]. intros Hlt.
    destruct (Nat.eq_dec d1 d) as [->|]; [|lia].
    destruct (H2 Hlt) as (c & Hc & Hn). apply (H4 c); [lia|exact Hc|]. destruct (is_digit c); [reflexivity|discriminate].
  Qed.

  Lemma read_xy_safe t d : modular t -> d <= e ->
    safe G (read_xy t m e d) (fun r => d <= snd r <= e /\ (d < e -> d < snd r)).
  Proof.
    intros Ht Hd. unfold read_xy. eapply safe_bind; [apply read_int_safe; [exact Ht|exact Hd]|]. cbn beta.
    intros [x d1] (H1 & H1'); cbn in *. eapply safe_bind; [apply move_to_next_int_safe; lia|]. cbn beta. intros d2 (H2 & _).
    eapply safe_bind; [apply read_int_safe; [exact Ht|lia]|]. cbn beta. intros [y d3] (H3 & _); cbn in *. split; lia.
  Qed.
End Bytes.

(** Any file whose size is a positive multiple of the page size. *)
Lemma load_past pg s : 0 < pg -> length s mod pg = 0 -> load (mkMem s pg) (length s) = UB.
Proof.
  intros Hp Hm. unfold load. cbn [bytes]. rewrite (proj2 (nth_error_None s (length s))) by lia.
  unfold map_len, flen; cbn [bytes page]. set (n := length s) in *.
  pose proof (Nat.div_mod n pg ltac:(lia)) as E.
  assert (E2 : (n + (pg - 1)) / pg = n / pg).
  { symmetry. apply Nat.div_unique with (r := pg - 1); nia. }
  rewrite E2. destruct (Nat.ltb_spec n (n / pg * pg)); [nia|reflexivity].
Qed.

Lemma next_line_end_ub m e : load m e = UB -> next_line m e e = UB.
Proof.
  intros H. unfold next_line, move_to_eol. rewrite scan_end by lia. cbn [bind].
  unfold move_to_next_int, move_to_non_int. rewrite scan_end by lia. cbn [bind].
  unfold move_to_first_int, skip_comments_here. rewrite H. reflexivity.
Qed.

Lemma mapM_ub {A B} (f : A -> res B) (G : Prop) l a :
  (forall x, In x l -> safe G (f x) (fun _ => True)) -> In a l -> f a = UB -> mapM f l = UB.
Proof.
  induction l as [|x l IH]; intros Hs Hin Ha; [contradiction|]. cbn [mapM].
  pose proof (Hs x (or_introl eq_refl)) as Hx.
  destruct Hin as [->|Hin].
  - rewrite Ha. reflexivity.
  - assert (IH' : mapM f l = UB) by (apply IH; [intros y Hy; apply Hs; right; exact Hy|exact Hin|exact Ha]).
    destruct (f x); cbn in *; try contradiction; [rewrite IH'; reflexivity|reflexivity].
Qed.

Lemma el_chunk_safe m T t : t < T ->
  safe (slack m) (el_chunk m 0 (flen m) T t) (fun c => fst c <= flen m /\ snd c <= flen m).
Proof.
  intros Ht. unfold el_chunk, line_boundary. rewrite (proj2 (Nat.ltb_ge (flen m) 0)) by lia; cbn [andb].
  assert (Ha : forall p, advance (flen m) 0 p <= flen m) by (intros; unfold advance; lia).
  eapply safe_bind; [apply next_line_safe; [lia|apply Ha]|]. cbn beta. intros re (Hre & _).
  assert (Hs : safe (slack m) (if t =? 0 then move_to_first_int m (flen m) (advance (flen m) 0 (t * (flen m - 0) / T))
       else next_line m (flen m) (advance (flen m) 0 (t * (flen m - 0) / T))) (fun d => d <= flen m)).
  { destruct (t =? 0).
    - eapply safe_imp; [apply move_to_first_int_safe; [lia|apply Ha]|]. cbn beta; lia.
    - eapply safe_imp; [apply next_line_safe; [lia|apply Ha]|]. cbn beta; lia. }
  eapply safe_bind; [exact Hs|]. cbn beta. intros rs Hrs. cbn [safe fst snd]. split; [exact Hrs|]. unfold smaller_end. destruct (_ <? _); lia.
Qed.

Lemma page_multiple_ub {W} L O (wr : option (wrd W)) fl s pg T sched :
  0 < pg -> length s mod pg = 0 -> 1 <= T ->
  read_el L O wr fl (mkMem s pg) 0 (length s) T sched = UB.
Proof.
  intros Hp Hm HT. unfold read_el, el_pass1. change (length s) with (flen (mkMem s pg)) at 1.
  rewrite (mapM_ub _ (slack (mkMem s pg)) (seq 0 T) (T - 1)); [reflexivity| | |].
  - intros t Ht. apply in_seq in Ht. eapply safe_imp; [apply el_chunk_safe; lia|]. cbn; auto.
  - apply in_seq; lia.
  - unfold el_chunk, line_boundary. assert (Eq0 : forall x, (x <? 0) = false) by (intros x; apply Nat.ltb_ge; lia). rewrite Eq0. cbn [andb]. unfold flen; cbn [bytes]. rewrite Nat.sub_0_r.
    replace (T - 1 + 1) with T by lia. rewrite (Nat.mul_comm T), Nat.div_mul by lia.
    unfold advance at 1. rewrite Nat.add_0_l, Nat.min_id. rewrite next_line_end_ub by (apply load_past; assumption).
    reflexivity.
Qed.
