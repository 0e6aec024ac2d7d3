(** * GraphLemmas: the adjacency reader on text whose comments have no digits *)

From Verif Require Import Base Reader Sched SchedLemmas Spec SpecGraph ReaderLemmas Coo CooSplit CooMain Csr Graph.

(** ** Tokens *)
Inductive tok := TInt (ds : list byte) | TNl.

Definition flush (cur : list byte) (r : list tok) : list tok :=
  match cur with [] => r | _ => TInt cur :: r end.
Fixpoint toks_from (cur s : list byte) : list tok :=
  match s with
  | [] => flush cur []
  | c :: s' =>
      if is_digit c then toks_from (cur ++ [c]) s'
      else flush cur (if is_nl c then TNl :: toks_from [] s' else toks_from [] s')
  end.
Definition rtoks (s : list byte) : list tok := toks_from [] s.
Definition toks (s : list byte) : list tok := rtoks (strip s).

Fixpoint n_nl (l : list tok) : nat := match l with [] => 0 | TNl :: l' => S (n_nl l') | _ :: l' => n_nl l' end.
Fixpoint n_int (l : list tok) : nat := match l with [] => 0 | TInt _ :: l' => S (n_int l') | _ :: l' => n_int l' end.
Definition is_zero (ds : list byte) : bool := str_eq ds [ch_0].
Fixpoint has_z (l : list tok) : bool := match l with [] => false | TInt ds :: l' => is_zero ds || has_z l' | _ :: l' => has_z l' end.

Fixpoint dropw (p : byte -> bool) (s : list byte) : list byte :=
  match s with [] => [] | c :: s' => if p c then dropw p s' else s end.
Fixpoint takew (p : byte -> bool) (s : list byte) : list byte :=
  match s with [] => [] | c :: s' => if p c then c :: takew p s' else [] end.
Lemma takew_dropw p s : takew p s ++ dropw p s = s.
Proof. induction s as [|c s IH]; cbn; [reflexivity|]. destruct (p c); cbn; [rewrite IH|]; reflexivity. Qed.
Lemma takew_all p s : Forall (fun c => p c = true) (takew p s).
Proof. induction s as [|c s IH]; cbn; [constructor|]. destruct (p c) eqn:E; constructor; auto. Qed.
Lemma dropw_hd p s : match dropw p s with [] => True | c :: _ => p c = false end.
Proof. induction s as [|c s IH]; cbn; [exact I|]. destruct (p c) eqn:E; [exact IH|exact E]. Qed.
Lemma dropw_len p s : length (dropw p s) <= length s.
Proof. induction s as [|c s IH]; cbn; [lia|]. destruct (p c); cbn; lia. Qed.
Lemma dropw_forall p (P : byte -> Prop) s : Forall P s -> Forall P (dropw p s).
Proof. induction 1 as [|c s Hc Hs IH]; cbn; [constructor|]. destruct (p c); [exact IH|constructor; auto]. Qed.

Definition junk (c : byte) : bool := negb (is_digit c || is_nl c).

(** Behind a comment, and the comment lines right after it. *)
Fixpoint cmts (inc : bool) (s : list byte) : list byte :=
  match s with
  | [] => []
  | c :: s' =>
      if inc then (if is_nl c then cmts false s' else cmts true s')
      else if is_cmt c then cmts true s' else s
  end.

(** Behind what is neither a number nor a newline; a comment is left at the
    newline that ends it. *)
Fixpoint skipj (s : list byte) : list byte :=
  match s with
  | [] => []
  | c :: s' => if is_digit c || is_nl c then s else if is_cmt c then ch_nl :: cmts true s' else skipj s'
  end.

Lemma cmt_junk c : is_cmt c = true -> is_digit c = false /\ is_nl c = false.
Proof. unfold is_cmt, is_digit, is_nl, ch_pct, ch_hash, ch_0, ch_9, ch_nl. lia. Qed.

(** ** Quiet text *)
Lemma quiet_weak p s : quiet p s -> quiet false s.
Proof. destruct s as [|c s]; cbn [quiet]; [auto|]. intros [H1 H2]. split; [|exact H2]. intros Hc. destruct (H1 Hc). auto. Qed.
Lemma quiet_suffix a : forall p b, quiet p (a ++ b) -> quiet false b.
Proof. induction a as [|c a IH]; intros p b H; [eapply quiet_weak; exact H|]. cbn [app quiet] in H. eapply IH. apply H. Qed.
Lemma quiet_cons p c s : quiet p (c :: s) -> quiet false s.
Proof. apply (quiet_suffix [c]). Qed.
Lemma quiet_after ds : ds <> [] -> Forall (fun c => is_digit c = true) ds -> forall p r, quiet p (ds ++ r) -> quiet true r.
Proof.
  intros Hn Hd. induction Hd as [|c ds Hc Hd IH]; [congruence|]. intros p r H. cbn [app quiet] in H. destruct H as [_ H]. rewrite Hc in H.
  destruct ds as [|x ds]; [exact H|]. apply (IH ltac:(discriminate) true). exact H.
Qed.
Lemma quiet_true_hd c r : quiet true (c :: r) -> is_cmt c = false.
Proof. cbn [quiet]. intros [H _]. destruct (is_cmt c); [destruct (H eq_refl); discriminate|reflexivity]. Qed.

Definition dig_hd (r : list byte) : Prop := match r with [] => True | c :: _ => is_digit c = true end.
Lemma quiet_line_prefix a r : dig_hd r -> quiet_line (a ++ r) -> quiet_line a.
Proof.
  intros Hr. induction a as [|c a IH]; cbn [app quiet_line].
  - destruct r as [|c r]; [auto|]. cbn [dig_hd] in Hr. cbn [quiet_line]. destruct (is_nl c) eqn:En; [|intros [H _]; congruence].
    exfalso. unfold is_nl, is_digit, ch_nl, ch_0, ch_9 in *. lia.
  - destruct (is_nl c); [auto|]. intros [H1 H2]. auto.
Qed.
Lemma quiet_prefix a r : dig_hd r -> forall p, quiet p (a ++ r) -> quiet p a.
Proof.
  intros Hr. induction a as [|c a IH]; intros p; cbn [app quiet]; [auto|]. intros [H1 H2]. split; [|apply IH; exact H2].
  intros Hc. destruct (H1 Hc) as [H3 H4]. split; [exact H3|]. eapply quiet_line_prefix; eassumption.
Qed.
Lemma nocmt_quiet s : Forall (fun c => is_cmt c = false) s -> forall p, quiet p s.
Proof. induction 1 as [|c s Hc _ IH]; intros p; cbn [quiet]; [exact I|]. split; [congruence|apply IH]. Qed.

(** The comments at [s] end with a newline. *)
Lemma cmts_split : forall n s p, length s <= n ->
  (quiet_line s -> quiet p s -> exists pre, s = pre ++ ch_nl :: cmts true s) /\
  (quiet p s -> match s with c :: s' => is_cmt c = true -> exists pre, s = pre ++ ch_nl :: cmts false s | [] => True end).
Proof.
  induction n as [|n IH]; intros s p Hn.
  - destruct s; [|cbn in Hn; lia]. split; [intros []|auto].
  - destruct s as [|c s]; [split; [intros []|auto]|]. cbn [length] in Hn. split.
    + cbn [quiet_line cmts]. destruct (is_nl c) eqn:En.
      * intros _ Hq. apply quiet_cons in Hq. destruct (IH s false ltac:(lia)) as [_ H]. specialize (H Hq).
        assert (c = ch_nl) by (unfold is_nl in En; lia). subst c.
        destruct s as [|c s]; [exists []; reflexivity|]. cbn [cmts]. destruct (is_cmt c) eqn:Ec; [|exists []; reflexivity].
        destruct (H eq_refl) as [pre E]. cbn [cmts] in E. rewrite Ec in E. exists (ch_nl :: pre). cbn [app]. rewrite <- E. reflexivity.
      * intros [Hd Hl] Hq. apply quiet_cons in Hq. destruct (IH s false ltac:(lia)) as [H _]. destruct (H Hl Hq) as [pre E].
        exists (c :: pre). cbn [app]. rewrite <- E. reflexivity.
    + intros Hq Hc. cbn [cmts]. rewrite Hc. pose proof (quiet_cons _ _ _ Hq) as Hq'. cbn [quiet] in Hq. destruct Hq as [H1 _]. destruct (H1 Hc) as [_ Hl].
      destruct (IH s false ltac:(lia)) as [H _]. destruct (H Hl Hq') as [pre E]. exists (c :: pre). cbn [app]. rewrite <- E. reflexivity.
Qed.

Lemma skipj_suffix s p : quiet p s -> exists a, s = a ++ skipj s.
Proof.
  revert p; induction s as [|c s IH]; intros p Hq; cbn [skipj]; [exists []; reflexivity|].
  destruct (is_digit c || is_nl c); [exists []; reflexivity|]. destruct (is_cmt c) eqn:Ec.
  - destruct (cmts_split (length (c :: s)) (c :: s) p (le_n _)) as [_ H]. destruct (H Hq Ec) as [pre E]. cbn [cmts] in E. rewrite Ec in E. exists pre. exact E.
  - destruct (IH _ (quiet_cons _ _ _ Hq)) as [a E]. exists (c :: a). cbn [app]. rewrite <- E. reflexivity.
Qed.
Lemma skipj_quiet s p : quiet p s -> quiet false (skipj s).
Proof. intros H. destruct (skipj_suffix s p H) as [a E]. rewrite E in H. eapply quiet_suffix; exact H. Qed.
Lemma skipj_len s p : quiet p s -> length (skipj s) <= length s.
Proof. intros H. destruct (skipj_suffix s p H) as [a E]. rewrite E at 2. rewrite app_length. lia. Qed.

(** ** Tokens of commented text *)
Lemma strip_cmts : forall n s p, length s <= n ->
  (quiet_line s -> quiet p s -> strip_from InComment s = ch_nl :: strip (cmts true s)) /\
  (quiet p s -> strip_from AfterComment s = ch_nl :: strip (cmts false s)).
Proof.
  induction n as [|n IH]; intros s p Hn.
  - destruct s; [|cbn in Hn; lia]. split; [intros []|reflexivity].
  - destruct s as [|c s]; [split; [intros []|reflexivity]|]. cbn [length] in Hn. destruct (IH s false ltac:(lia)) as [H1 H2]. split.
    + cbn [quiet_line strip_from cmts]. destruct (is_nl c).
      * intros _ Hq. apply H2. eapply quiet_cons; exact Hq.
      * intros [_ Hl] Hq. apply H1; [exact Hl|eapply quiet_cons; exact Hq].
    + intros Hq. pose proof (quiet_cons _ _ _ Hq) as Hq'. cbn [strip_from cmts]. destruct (is_cmt c) eqn:Ec.
      * apply H1; [|exact Hq']. cbn [quiet] in Hq. destruct Hq as [Hq _]. apply Hq. exact Ec.
      * unfold strip. cbn [strip_from]. rewrite Ec. reflexivity.
Qed.

Lemma strip_nl s : strip (ch_nl :: s) = ch_nl :: strip s.
Proof. reflexivity. Qed.

Lemma rtoks_junk c s : is_digit c = false -> is_nl c = false -> rtoks (c :: s) = rtoks s.
Proof. intros Ed En. unfold rtoks. cbn [toks_from]. rewrite Ed, En. reflexivity. Qed.

Lemma toks_skipj s p : quiet p s -> toks (skipj s) = toks s.
Proof.
  revert p; induction s as [|c s IH]; intros p Hq; cbn [skipj]; [reflexivity|].
  destruct (is_digit c || is_nl c) eqn:Ej; [reflexivity|]. apply orb_false_iff in Ej as [Ed En]. pose proof (quiet_cons _ _ _ Hq) as Hq'.
  destruct (is_cmt c) eqn:Ec.
  - unfold toks. unfold strip at 2. cbn [strip_from]. rewrite Ec. destruct (strip_cmts (length s) s false (le_n _)) as [H _]. rewrite H; [rewrite strip_nl; reflexivity| |exact Hq'].
    cbn [quiet] in Hq. destruct Hq as [Hq _]. apply Hq. exact Ec.
  - rewrite (IH _ Hq'). unfold toks, strip. cbn [strip_from]. rewrite Ec. rewrite rtoks_junk by assumption. reflexivity.
Qed.

Lemma toks_from_run ds : Forall (fun c => is_digit c = true) ds -> forall cur r, toks_from cur (ds ++ r) = toks_from (cur ++ ds) r.
Proof.
  induction 1 as [|c ds Hc Hd IH]; intros cur r; [rewrite app_nil_r; reflexivity|].
  cbn [app toks_from]. rewrite Hc, IH, <- app_assoc. reflexivity.
Qed.

Lemma rtoks_run ds r : ds <> [] -> Forall (fun c => is_digit c = true) ds ->
  match r with [] => True | c :: _ => is_digit c = false end -> rtoks (ds ++ r) = TInt ds :: rtoks r.
Proof.
  intros Hn Hd Hr. unfold rtoks. rewrite (toks_from_run ds Hd). cbn [app].
  assert (F : forall l, flush ds l = TInt ds :: l) by (intros; destruct ds; [congruence|reflexivity]).
  destruct r as [|c r]; cbn [toks_from]; [apply F|]. rewrite Hr, F. destruct (is_nl c); reflexivity.
Qed.

Lemma strip_run ds r : Forall (fun c => is_digit c = true) ds -> strip (ds ++ r) = ds ++ strip r.
Proof.
  induction 1 as [|c ds Hc Hd IH]; [reflexivity|]. unfold strip in *. cbn [app strip_from]. rewrite IH.
  destruct (is_cmt c) eqn:Ec; [|reflexivity]. apply cmt_junk in Ec as [Ec _]. congruence.
Qed.
Lemma toks_run ds r : ds <> [] -> Forall (fun c => is_digit c = true) ds -> quiet true r ->
  match r with [] => True | c :: _ => is_digit c = false end -> toks (ds ++ r) = TInt ds :: toks r.
Proof.
  intros Hn Hd Hq Hr. unfold toks. rewrite strip_run by exact Hd. apply rtoks_run; [exact Hn|exact Hd|].
  destruct r as [|c r]; [exact I|]. unfold strip. cbn [strip_from]. rewrite (quiet_true_hd _ _ Hq). exact Hr.
Qed.

Lemma toks_nl s : toks (ch_nl :: s) = TNl :: toks s.
Proof. reflexivity. Qed.

(** ** Moving inside a region *)
Section Region.
  Variable m : mem.
  Variable e : nat.
  Variable ce : byte.
  Hypothesis Hce : load m e = Ok ce.
  Hypothesis Hce' : is_cmt ce = false.

  Definition at_ (d : nat) (s : list byte) : Prop := has m d s /\ d + length s = e /\ quiet false s.

  Lemma at_load d s : at_ d s -> exists c, load m d = Ok c /\ match s with [] => c = ce | c' :: _ => c = c' end.
  Proof.
    intros (Hh & He & Hc). destruct s as [|c s].
    - cbn in He. rewrite Nat.add_0_r in He. subst d. eauto.
    - exists c. split; [eapply load_has; exact Hh|]. auto.
  Qed.

  Lemma at_app d a b : at_ d (a ++ b) -> at_ (d + length a) b.
  Proof.
    intros (Hh & He & Hc). rewrite app_length in He. apply has_app in Hh as [_ Hh]. apply quiet_suffix in Hc.
    split; [exact Hh|]. split; [lia|exact Hc].
  Qed.
  Lemma at_cons d c s : at_ d (c :: s) -> at_ (S d) s.
  Proof. intros H. replace (S d) with (d + length [c]) by (cbn; lia). apply (at_app d [c] s H). Qed.

  Lemma at_suffix d a s b : at_ d s -> s = a ++ b -> at_ (e - length b) b.
  Proof.
    intros Ha ->. pose proof (at_app _ _ _ Ha) as Hb. destruct Ha as (_ & He & _). rewrite app_length in He.
    replace (e - length b) with (d + length a) by lia. exact Hb.
  Qed.
  Lemma at_skipj d s : at_ d s -> at_ (e - length (skipj s)) (skipj s).
  Proof. intros Ha. destruct (skipj_suffix s false) as [a E]; [apply Ha|]. eapply at_suffix; [exact Ha|exact E]. Qed.

  (** Comments *)
  Lemma skip_line_at : forall s d, at_ d s -> quiet_line s -> exists a b, s = a ++ ch_nl :: b /\ Forall (fun c => is_nl c = false) a /\ cmts true s = cmts false b /\
    skip_line_ m (e - d) d = Ok (e - length b).
  Proof.
    induction s as [|c s IH]; intros d Ha Hl; [destruct Hl|]. pose proof Ha as (Hh & He & Hq). cbn [length] in He. cbn [quiet_line] in Hl.
    replace (e - d) with (S (e - S d)) by lia. cbn [skip_line_]. rewrite (load_has _ _ _ _ Hh). cbn [bind]. destruct (is_nl c) eqn:En.
    - exists [], s. assert (c = ch_nl) by (unfold is_nl in En; lia). subst c. split; [reflexivity|]. split; [constructor|]. split; [reflexivity|]. f_equal. lia.
    - destruct (IH (S d) (at_cons _ _ _ Ha)) as (a & b & E & H1 & H2 & H3); [apply Hl|]. exists (c :: a), b. split; [cbn [app]; rewrite <- E; reflexivity|].
      split; [constructor; assumption|]. split; [cbn [cmts]; rewrite En; exact H2|exact H3].
  Qed.

  Lemma skip_comments_at : forall n s d, length s <= n -> at_ d s -> skip_comments m e d = Ok (e - length (cmts false s)).
  Proof.
    induction n as [|n IH]; intros s d Hn Ha.
    - destruct s; [|cbn in Hn; lia]. destruct Ha as (_ & He & _). cbn [length] in He. unfold skip_comments. cbn [skip_comments_ cmts length].
      destruct (Nat.ltb_spec d e); [lia|]. f_equal. lia.
    - pose proof Ha as (Hh & He & Hq). destruct s as [|c s].
      { cbn [length] in He. unfold skip_comments. cbn [skip_comments_ cmts length]. destruct (Nat.ltb_spec d e); [lia|]. f_equal. lia. }
      cbn [length] in He, Hn. pose proof (load_has _ _ _ _ Hh) as El. cbn [cmts]. destruct (is_cmt c) eqn:Ec.
      + pose proof (cmt_junk c Ec) as [_ Enl].
        assert (Hl : quiet_line s) by (cbn [quiet] in Hq; apply Hq; exact Ec).
        assert (Hl2 : quiet_line (c :: s)) by (cbn [quiet_line]; rewrite Enl; split; [apply cmt_junk; exact Ec|exact Hl]).
        destruct (skip_line_at _ _ Ha Hl2) as (a & b & E & H1 & H2 & H3).
        rewrite (skip_comments_step m e d c (e - length b)); [|lia|exact El|exact Ec|exact H3].
        cbn [cmts] in H2. rewrite Enl in H2. rewrite H2.
        assert (Lb : length b < S (length s)).
        { assert (HH : length (a ++ ch_nl :: b) = S (length s)) by (rewrite <- E; reflexivity). rewrite app_length in HH. cbn [length] in HH. lia. }
        apply IH; [lia|]. apply (at_suffix d (a ++ [ch_nl]) (c :: s)); [exact Ha|]. rewrite <- app_assoc. exact E.
      + unfold skip_comments. cbn [skip_comments_]. destruct (Nat.ltb_spec d e); [|lia]. rewrite El. cbn [bind]. rewrite Ec. f_equal. cbn [length]. lia.
  Qed.

  (** At a comment: back to the newline that ends it. *)
  Lemma at_comment d c s : at_ d (c :: s) -> is_cmt c = true ->
    bind (skip_comments m e d) (fun d' => Ok (d' - 1)) = Ok (e - length (skipj (c :: s))).
  Proof.
    intros Ha Ec. rewrite (skip_comments_at _ _ _ (le_n _) Ha). cbn [bind]. f_equal. cbn [skipj cmts]. rewrite Ec.
    destruct (cmt_junk c Ec) as [-> ->]. cbn [orb length]. lia.
  Qed.

  Lemma loop_skipj : forall s d fuel, at_ d s -> length s < fuel -> match s with [] => True | c :: _ => is_cmt c = false end ->
    int_or_nl_loop m e fuel d = Ok (e - length (skipj s)).
  Proof.
    induction s as [|c s IH]; intros d fuel Ha Hf Hc; (destruct fuel as [|fuel]; [lia|]); cbn [int_or_nl_loop skipj length].
    - destruct Ha as (Hh & He & _). cbn in He. destruct (Nat.ltb_spec d e); [lia|]. f_equal. lia.
    - pose proof Ha as (Hh & He & Hq). cbn [length] in He, Hf. destruct (Nat.ltb_spec d e); [|lia].
      rewrite (load_has _ _ _ _ Hh). cbn [bind]. rewrite Hc.
      destruct (is_digit c || is_nl c) eqn:Ej.
      + cbn [length]. f_equal. lia.
      + pose proof (at_cons _ _ _ Ha) as Ha'. destruct (at_load _ _ Ha') as (c2 & El & Hc2). rewrite El. cbn [bind].
        destruct (is_cmt c2) eqn:Ec2.
        * destruct s as [|c3 s]; [subst c2; congruence|]. subst c3. apply (at_comment (S d) c2 s Ha' Ec2).
        * apply IH; [exact Ha'|lia|]. destruct s as [|c3 s]; [exact I|]. subst c3. exact Ec2.
  Qed.

  Lemma from_here d s c : at_ d s -> load m d = Ok c ->
    (if is_cmt c then bind (skip_comments m e d) (fun d' => Ok (d' - 1)) else int_or_nl_loop m e (S (e - d)) d) = Ok (e - length (skipj s)) /\
    at_ (e - length (skipj s)) (skipj s).
  Proof.
    intros Ha El. split; [|eapply at_skipj; exact Ha]. destruct (at_load _ _ Ha) as (c2 & El2 & Hc2). assert (c2 = c) by congruence. subst c2.
    pose proof Ha as (_ & He & _).
    destruct s as [|c3 s].
    - subst c. rewrite Hce'. apply loop_skipj; [exact Ha|cbn; lia|exact I].
    - subst c3. destruct (is_cmt c) eqn:Ec; [apply at_comment; assumption|]. apply loop_skipj; [exact Ha|lia|exact Ec].
  Qed.

  (** On a newline, a junk character or at the end of a numeral. *)
  Lemma next_tok_nl d s : at_ d (ch_nl :: s) ->
    move_to_next_int_or_nl m e d = Ok (e - length (skipj s)) /\ at_ (e - length (skipj s)) (skipj s).
  Proof.
    intros Ha. pose proof Ha as (Hh & He & Hc). cbn [length] in He. pose proof (load_has _ _ _ _ Hh) as El.
    unfold move_to_next_int_or_nl. destruct (Nat.ltb_spec d e); [|lia]. rewrite El. cbn [bind].
    unfold move_to_non_int. rewrite (scan_stop m is_digit e d ch_nl El eq_refl). cbn [bind].
    destruct (Nat.ltb_spec d e); [|lia]. rewrite El. cbn [bind]. change (is_nl ch_nl) with true. change (is_digit ch_nl) with false. cbn [andb].
    pose proof (at_cons _ _ _ Ha) as Ha'. destruct (at_load _ _ Ha') as (c2 & El2 & Hc2). rewrite El2. cbn [bind].
    apply from_here; assumption.
  Qed.

  Lemma next_tok_junk d c s : at_ d (c :: s) -> junk c = true -> is_cmt c = false ->
    move_to_next_int_or_nl m e d = Ok (e - length (skipj s)) /\ at_ (e - length (skipj s)) (skipj s).
  Proof.
    intros Ha Hj Hcc. pose proof Ha as (Hh & He & Hc). cbn [length] in He. pose proof (load_has _ _ _ _ Hh) as El.
    unfold junk in Hj. destruct (is_digit c) eqn:Ed; [discriminate|]. destruct (is_nl c) eqn:En; [discriminate|].
    unfold move_to_next_int_or_nl. destruct (Nat.ltb_spec d e); [|lia]. rewrite El. cbn [bind].
    unfold move_to_non_int. rewrite (scan_stop m is_digit e d c El Ed). cbn [bind].
    destruct (Nat.ltb_spec d e); [|lia]. rewrite El. cbn [bind]. rewrite En. cbn [andb]. rewrite El. cbn [bind].
    pose proof (from_here d (c :: s) c Ha El) as G. cbn [skipj] in G. rewrite Ed, En, Hcc in G. cbn [orb] in G. rewrite Hcc. exact G.
  Qed.

  Lemma scan_digits d ds r : at_ d (ds ++ r) -> Forall (fun c => is_digit c = true) ds ->
    match r with [] => True | c :: _ => is_digit c = false end -> scan m is_digit e d = Ok (d + length ds).
  Proof.
    intros Ha Hd Hr. pose proof Ha as (Hh & He & Hc). rewrite app_length in He. apply has_app in Hh as [Hh1 Hh2].
    apply scan_to; [exact Hh1|exact Hd|lia|]. destruct r as [|c r].
    - left. cbn in He. lia.
    - right. exists c. split; [eapply load_has; exact Hh2|exact Hr].
  Qed.

  (** The reader after a numeral: it stops on a newline. *)
  Definition after (r : list byte) : list byte := match r with c :: _ => if is_nl c then r else skipj r | [] => [] end.
  Lemma toks_after r p : quiet p r -> toks (after r) = toks r.
  Proof. intros Hq. destruct r as [|c r]; [reflexivity|]. cbn [after]. destruct (is_nl c); [reflexivity|eapply toks_skipj; exact Hq]. Qed.
  Lemma after_len r p : quiet p r -> length (after r) <= length r.
  Proof. intros Hq. destruct r as [|c r]; [reflexivity|]. cbn [after]. destruct (is_nl c); [lia|eapply skipj_len; exact Hq]. Qed.

  Lemma next_tok_int d ds r : at_ d (ds ++ r) -> ds <> [] -> Forall (fun c => is_digit c = true) ds ->
    match r with [] => True | c :: _ => is_digit c = false end ->
    move_to_next_int_or_nl m e d = Ok (e - length (after r)) /\ at_ (e - length (after r)) (after r).
  Proof.
    intros Ha Hn Hd Hr. pose proof Ha as (Hh & He & Hc). rewrite app_length in He.
    destruct ds as [|c0 ds0]; [congruence|]. pose proof (load_has _ _ _ _ Hh) as El. cbn [length] in He.
    unfold move_to_next_int_or_nl. destruct (Nat.ltb_spec d e); [|lia]. rewrite El. cbn [bind].
    unfold move_to_non_int. rewrite (scan_digits d (c0 :: ds0) r Ha Hd Hr). cbn [bind].
    pose proof (at_app _ _ _ Ha) as Ha'. set (d1 := d + length (c0 :: ds0)) in *.
    assert (Ed1 : d1 + length r = e) by apply Ha'.
    destruct (at_load _ _ Ha') as (c2 & El2 & Hr2).
    assert (Hdig : is_digit c0 = true) by (inv Hd; assumption). rewrite Hdig.
    pose proof (from_here d1 r c2 Ha' El2) as G.
    destruct r as [|c r].
    - cbn [length] in Ed1. destruct (Nat.ltb_spec d1 e); [lia|]. cbn [andb bind]. rewrite El2. cbn [bind]. exact G.
    - cbn [length] in Ed1. subst c2. destruct (Nat.ltb_spec d1 e); [|lia]. rewrite El2. cbn [bind after]. destruct (is_nl c) eqn:En; cbn [andb].
      + replace (e - length (c :: r)) with d1 by (cbn; lia). split; [reflexivity|exact Ha'].
      + rewrite El2. cbn [bind]. exact G.
  Qed.

  (** ** Pass 1 *)

  (** The reader is on a token. *)
  Definition ready (s : list byte) : Prop := match s with [] => True | c :: _ => junk c = false end.
  Lemma ready_skipj s : ready (skipj s).
  Proof.
    induction s as [|c s IH]; cbn [skipj]; [exact I|]. destruct (is_digit c || is_nl c) eqn:Ej; [cbn [ready]; unfold junk; rewrite Ej; reflexivity|].
    destruct (is_cmt c); [reflexivity|exact IH].
  Qed.
  Lemma ready_after r : ready (after r).
  Proof. destruct r as [|c r]; [exact I|]. cbn [after]. destruct (is_nl c) eqn:E; [unfold ready, junk; rewrite E, orb_true_r; reflexivity|apply ready_skipj]. Qed.

  (** The region ends where the next one begins: a numeral does not cross. *)
  Definition ended (s : list byte) : Prop := is_digit ce = true -> s = [] \/ exists a c, s = a ++ [c] /\ is_digit c = false.
  Lemma ended_suffix a b : ended (a ++ b) -> ended b.
  Proof.
    intros H Hd. destruct (H Hd) as [E|(x & c & E & Hc)].
    - apply app_eq_nil in E as [_ ->]. left; reflexivity.
    - destruct b as [|b0 b]; [left; reflexivity|]. right. destruct (@exists_last _ (b0 :: b)) as (y & z & Eb); [discriminate|].
      rewrite Eb in *. rewrite app_assoc in E. apply app_inj_tail in E as [_ ->]. eauto.
  Qed.
  Lemma suffix_dropw p s : exists a, s = a ++ dropw p s.
  Proof. exists (takew p s). symmetry. apply takew_dropw. Qed.
  Lemma ended_skipj s p : quiet p s -> ended s -> ended (skipj s).
  Proof. intros Hq H. destruct (skipj_suffix s p Hq) as [a E]. rewrite E in H. apply ended_suffix in H. exact H. Qed.
  Lemma ended_after r p : quiet p r -> ended r -> ended (after r).
  Proof. intros Hq H. destruct r as [|c r]; [exact H|]. cbn [after]. destruct (is_nl c); [exact H|eapply ended_skipj; eassumption]. Qed.
  Lemma ready_nocmt c s : ready (c :: s) -> is_cmt c = false.
  Proof. cbn [ready]. unfold junk. destruct (is_cmt c) eqn:Ec; [|reflexivity]. destruct (cmt_junk c Ec) as [-> ->]. discriminate. Qed.

  Lemma at_zero_nl d s : at_ d (ch_nl :: s) -> at_zero m e d = Ok false.
  Proof.
    intros (Hh & He & _). cbn [length] in He. unfold at_zero. destruct (Nat.leb_spec (e + 1) d); [lia|].
    rewrite (load_has _ _ _ _ Hh). reflexivity.
  Qed.

  Lemma at_zero_int d ds r : at_ d (ds ++ r) -> ds <> [] -> Forall (fun c => is_digit c = true) ds ->
    match r with [] => True | c :: _ => is_digit c = false end -> ended (ds ++ r) ->
    at_zero m e d = Ok (is_zero ds).
  Proof.
    intros Ha Hn Hd Hr Hend. pose proof Ha as (Hh & He & Hc). rewrite app_length in He. destruct ds as [|c0 ds]; [congruence|].
    cbn [length] in He. unfold at_zero. destruct (Nat.leb_spec (e + 1) d); [lia|].
    rewrite (load_has _ _ _ _ Hh). cbn [bind]. unfold is_zero. cbn [str_eq].
    destruct (c0 =? ch_0)%Z; cbn [negb andb]; [|reflexivity].
    inv Hd. destruct ds as [|c1 ds].
    - pose proof (at_app d [c0] r Ha) as Ha'. cbn [length] in Ha'. rewrite Nat.add_1_r in Ha'.
      destruct (at_load _ _ Ha') as (c2 & El2 & Hr2). rewrite El2. cbn [bind str_eq].
      destruct r as [|c r].
      + subst c2. destruct (is_digit ce) eqn:Ec; [|reflexivity].
        destruct (Hend Ec) as [E|(a & c & E & Hc3)]; [discriminate|]. cbn [app] in E.
        destruct a as [|? a]; [injection E as E; subst c; congruence|]. injection E as _ E. destruct a; discriminate.
      + subst c2. rewrite Hr. reflexivity.
    - destruct Hh as [_ Hh]. rewrite (load_has m (S d) c1 (ds ++ r)) by exact Hh. cbn [bind str_eq]. inv H3. rewrite H4. reflexivity.
  Qed.

  Lemma gr_count_ok : forall n s d fuel nls ints hz, length s <= n -> at_ d s -> ready s -> ended s -> length s < fuel ->
    gr_count m e fuel d nls ints hz = Ok (nls + n_nl (toks s), ints + n_int (toks s), hz || has_z (toks s)).
  Proof.
    induction n as [|n IH]; intros s d fuel nls ints hz Hn Ha Hr Hend Hf; (destruct fuel as [|fuel]; [lia|]); cbn [gr_count].
    - destruct s as [|c s]; [|cbn in Hn; lia]. destruct Ha as (_ & He & _). cbn in He. destruct (Nat.ltb_spec d e); [lia|].
      cbn. rewrite !Nat.add_0_r, orb_false_r. reflexivity.
    - destruct s as [|c s].
      { destruct Ha as (_ & He & _). cbn in He. destruct (Nat.ltb_spec d e); [lia|]. cbn. rewrite !Nat.add_0_r, orb_false_r. reflexivity. }
      pose proof Ha as (Hh & He & Hc). cbn [length] in He, Hn, Hf. destruct (Nat.ltb_spec d e); [|lia].
      pose proof (load_has _ _ _ _ Hh) as El. unfold at_nl_or_eol. destruct (Nat.eqb_spec d e); [lia|]. rewrite El. cbn [bind].
      rewrite (ready_nocmt c s Hr), orb_false_r.
      cbn [ready] in Hr. unfold junk in Hr. destruct (is_nl c) eqn:En.
      + assert (c = ch_nl) by (unfold is_nl in En; lia). subst c. rewrite (at_zero_nl d s Ha). cbn [bind].
        destruct (next_tok_nl d s Ha) as [E1 Ha']. rewrite E1. cbn [bind].
        pose proof (quiet_cons _ _ _ Hc) as Hq. pose proof (skipj_len s _ Hq) as Hl.
        rewrite (IH (skipj s)); [|lia|exact Ha'|apply ready_skipj|eapply ended_skipj; [exact Hq|exact (ended_suffix [ch_nl] s Hend)]|lia].
        rewrite (toks_skipj s _ Hq), toks_nl. cbn [n_nl n_int has_z]. rewrite orb_false_r. f_equal. f_equal. f_equal. lia.
      + rewrite orb_false_r in Hr. apply negb_false_iff in Hr.
        pose proof (takew_dropw is_digit (c :: s)) as E. cbn [takew] in E. rewrite Hr in E.
        set (ds := c :: takew is_digit s) in *. set (r := dropw is_digit (c :: s)) in *.
        assert (Hds : Forall (fun c => is_digit c = true) ds) by (constructor; [exact Hr|apply takew_all]).
        assert (Hrd : match r with [] => True | c :: _ => is_digit c = false end) by apply (dropw_hd is_digit (c :: s)).
        assert (Hdn : ds <> []) by discriminate.
        assert (Hlr : length r < S (length s)).
        { assert (length (ds ++ r) = S (length s)) by (rewrite E; reflexivity). rewrite app_length in H0. cbn [ds length] in H0. lia. }
        rewrite <- E in Ha, Hend, Hc |- *. rewrite (at_zero_int d ds r Ha Hdn Hds Hrd Hend). cbn [bind].
        pose proof (quiet_after ds Hdn Hds _ _ Hc) as Hq.
        destruct (next_tok_int d ds r Ha Hdn Hds Hrd) as [E1 Ha']. rewrite E1. cbn [bind].
        pose proof (after_len r _ Hq).
        rewrite (IH (after r)); [|lia|exact Ha'|apply ready_after|eapply ended_after; [exact Hq|exact (ended_suffix ds r Hend)]|lia].
        rewrite (toks_after r _ Hq), (toks_run ds r Hdn Hds Hq Hrd). cbn [n_nl n_int has_z]. rewrite orb_assoc. f_equal. f_equal. f_equal. lia.
  Qed.

  (** ** Pass 2 *)
  Fixpoint gprog (opos epos : Z) (l : list tok) : list ginstr :=
    match l with
    | [] => []
    | TNl :: l' => SetOff (opos + 1) epos :: gprog (opos + 1) epos l'
    | TInt ds :: l' => SetEnd epos (dval ds) :: gprog opos (epos + 1) l'
    end.
  Fixpoint ints (l : list tok) : list Z := match l with [] => [] | TInt ds :: l' => dval ds :: ints l' | _ :: l' => ints l' end.

  (** The tokens up to the last newline of [l ++ R]: pass 2 stops there. *)
  Fixpoint live (l R : list tok) : list tok :=
    match l with [] => [] | t :: l' => if n_nl (l ++ R) =? 0 then [] else t :: live l' R end.

  Lemma gr_set_ok L O : is_ity L -> is_ity O -> forall n s d fuel opos epos mx R,
    length s <= n -> at_ d s -> ready s -> ended s -> length s < fuel ->
    (0 <= opos)%Z -> (opos + Z.of_nat (n_nl (toks s ++ R)) <= imax L)%Z ->
    (0 <= epos)%Z -> (epos + Z.of_nat (n_int (live (toks s) R)) <= imax O)%Z ->
    (0 <= mx)%Z -> Forall (fun v => v <= imax L)%Z (ints (live (toks s) R)) ->
    gr_set L O (opos + Z.of_nat (n_nl (toks s ++ R))) m e fuel d opos epos mx = Ok (gprog opos epos (live (toks s) R), Z.max mx (max_of (ints (live (toks s) R)))).
  Proof.
    intros HL HO. pose proof (ity_facts L HL) as FL. pose proof (ity_facts O HO) as FO.
    induction n as [|n IH]; intros s d fuel opos epos mx R Hn Ha Hr Hend Hf Ho1 Ho2 He1 He2 Hmx Hfit; (destruct fuel as [|fuel]; [lia|]); cbn [gr_set].
    - destruct s as [|c s]; [|cbn in Hn; lia]. destruct Ha as (_ & He & _). cbn in He. destruct (Nat.ltb_spec d e); [lia|].
      cbn. rewrite Z.max_l by lia. reflexivity.
    - destruct s as [|c s].
      { destruct Ha as (_ & He & _). cbn in He. destruct (Nat.ltb_spec d e); [lia|]. cbn. rewrite Z.max_l by lia. reflexivity. }
      pose proof Ha as (Hh & He & Hc). cbn [length] in He, Hn, Hf. destruct (Nat.ltb_spec d e); [|lia].
      pose proof (load_has _ _ _ _ Hh) as El. unfold at_nl_or_eol at 1. destruct (Nat.eqb_spec d e); [lia|]. rewrite El. cbn [bind].
      rewrite (ready_nocmt c s Hr), orb_false_r.
      cbn [ready] in Hr. unfold junk in Hr. destruct (is_nl c) eqn:En.
      + assert (c = ch_nl) by (unfold is_nl in En; lia). subst c. rewrite toks_nl in *. cbn [live app n_nl n_int ints Nat.eqb] in *.
        destruct (Z.leb_spec (opos + Z.of_nat (S (n_nl (toks s ++ R)))) opos); [lia|].
        rewrite (arith_in L) by (try assumption; lia). cbn [bind].
        destruct (next_tok_nl d s Ha) as [E1 Ha']. rewrite E1. cbn [bind].
        pose proof (quiet_cons _ _ _ Hc) as Hq. pose proof (skipj_len s _ Hq) as Hl. pose proof (toks_skipj s _ Hq) as Et.
        replace (opos + Z.of_nat (S (n_nl (toks s ++ R))))%Z with ((opos + 1) + Z.of_nat (n_nl (toks (skipj s) ++ R)))%Z by (rewrite Et; lia).
        rewrite (IH (skipj s) _ _ _ _ _ R); [|lia|exact Ha'|apply ready_skipj|eapply ended_skipj; [exact Hq|exact (ended_suffix [ch_nl] s Hend)]|lia|lia|rewrite Et; lia|lia|rewrite Et; lia|lia|rewrite Et; exact Hfit].
        cbn [bind gprog]. rewrite Et. reflexivity.
      + rewrite orb_false_r in Hr. apply negb_false_iff in Hr.
        pose proof (takew_dropw is_digit (c :: s)) as E. cbn [takew] in E. rewrite Hr in E.
        set (ds := c :: takew is_digit s) in *. set (r := dropw is_digit (c :: s)) in *.
        assert (Hds : Forall (fun c => is_digit c = true) ds) by (constructor; [exact Hr|apply takew_all]).
        assert (Hrd : match r with [] => True | c :: _ => is_digit c = false end) by apply (dropw_hd is_digit (c :: s)).
        assert (Hdn : ds <> []) by discriminate.
        assert (Hlr : length r < S (length s)).
        { assert (HH : length (ds ++ r) = S (length s)) by (rewrite E; reflexivity). rewrite app_length in HH. cbn [ds length] in HH. lia. }
        clearbody ds r.
        rewrite <- E in Ha, Hend, Hc, Ho2, He2, Hfit, Hh |- *.
        pose proof (quiet_after ds Hdn Hds _ _ Hc) as Hq.
        rewrite (toks_run ds r Hdn Hds Hq Hrd) in *. cbn [live app n_nl n_int ints] in *.
        destruct (Nat.eqb_spec (n_nl (toks r ++ R)) 0) as [Ez|Ez].
        { rewrite Ez. destruct (Z.leb_spec (opos + Z.of_nat 0) opos); [|lia]. cbn. rewrite Z.max_l by lia. reflexivity. }
        cbn [app n_nl n_int ints] in *.
        destruct (Z.leb_spec (opos + Z.of_nat (n_nl (toks r ++ R))) opos); [lia|].
        assert (Erd : read_int m L e d = Ok (dval ds, d + length ds)).
        { pose proof Ha as (Hh2 & He2' & _). rewrite app_length in He2'.
          rewrite (read_int_gen m L e d [] ds).
          - rewrite read_val_fit; [cbn [bind length]; rewrite Nat.add_0_r; reflexivity|exact HL|exact Hds|inv Hfit; assumption].
          - cbn [app]. apply has_app in Hh2 as [Hh2 _]. exact Hh2.
          - constructor.
          - exact Hds.
          - cbn [length]; lia.
          - cbn [length]. destruct r as [|c1 r1]; [left; cbn [length] in He2'; lia|]. right. split; [|exact Hdn].
            exists c1. split; [|exact Hrd]. rewrite Nat.add_0_r. apply has_app in Hh2 as [_ Hh2]. eapply load_has; exact Hh2. }
        rewrite Erd. cbn [bind]. rewrite (arith_in O) by (try assumption; lia). cbn [bind].
        pose proof (at_app _ _ _ Ha) as Ha'. set (d1 := d + length ds) in *.
        assert (Ed1 : d1 + length r = e) by apply Ha'.
        assert (Hstep : exists d', (nl2 <- at_nl_or_eol m e d1 ;; (if (nl2 : bool) then Ok d1 else move_to_next_int_or_nl m e d1)) = Ok d' /\ d' = e - length (after r) /\ at_ d' (after r)).
        { unfold at_nl_or_eol. destruct r as [|c1 r1].
          - cbn [length] in Ed1. destruct (Nat.eqb_spec d1 e); [|lia]. cbn [bind]. eexists. split; [reflexivity|]. cbn [after length]. split; [lia|exact Ha'].
          - cbn [length] in Ed1. destruct (Nat.eqb_spec d1 e); [lia|]. destruct (at_load _ _ Ha') as (c2 & El2 & ->). rewrite El2. cbn [bind].
            pose proof (quiet_true_hd _ _ Hq) as Hc2. rewrite Hc2, orb_false_r. cbn [after]. destruct (is_nl c1) eqn:En1.
            + eexists. split; [reflexivity|]. split; [cbn [length]; lia|exact Ha'].
            + assert (Hj : junk c1 = true) by (unfold junk; rewrite Hrd, En1; reflexivity).
              destruct (next_tok_junk d1 c1 r1 Ha' Hj Hc2) as [E2 Ha2]. rewrite E2. eexists. split; [reflexivity|].
              cbn [skipj]. rewrite Hrd, En1, Hc2. cbn [orb]. split; [reflexivity|exact Ha2]. }
        destruct Hstep as (d' & Es & -> & Ha2).
        destruct (at_nl_or_eol m e d1) as [nl2| | |]; cbn [bind] in Es |- *; try discriminate. rewrite Es. cbn [bind].
        pose proof (after_len r _ Hq). pose proof (toks_after r _ Hq) as Et.
        replace (opos + Z.of_nat (n_nl (toks r ++ R)))%Z with (opos + Z.of_nat (n_nl (toks (after r) ++ R)))%Z by (rewrite Et; lia).
        assert (Hv : (0 <= dval ds)%Z) by (apply dval_nonneg; exact Hds).
        rewrite (IH (after r) _ _ _ _ _ R); [|lia|exact Ha2|apply ready_after|eapply ended_after; [exact Hq|exact (ended_suffix ds r Hend)]|lia|lia|rewrite Et; lia|lia|rewrite Et; lia| |rewrite Et; inv Hfit; assumption].
        * cbn [bind gprog]. rewrite Et. f_equal. f_equal. cbn [max_of fold_right]. fold (max_of (ints (live (toks r) R))).
          pose proof (max_of_nonneg (ints (live (toks r) R))). destruct (Z.ltb_spec mx (dval ds)); lia.
        * destruct (Z.ltb_spec mx (dval ds)); lia.
  Qed.
End Region.
