(** * GraphMain: the parallel adjacency reader *)

From Verif Require Import Base Reader Sched SchedLemmas Spec SpecGraph ReaderLemmas Coo CooLemmas CooSplit CooMain Csr Graph GraphLemmas.

(** ** The flags of the threads that have seen a zero *)
Section Zero.
  Variable hzs : list bool.
  Let T := length hzs.
  Definition okbit (w x : nat) : Prop := x / 64 = w /\ nth_error hzs x = Some true.
  Definition hinv (s : hzst) : Prop :=
    length (hz_words s) = S (T / 64) /\ length (hz_regs s) = T /\
    (forall w x, In x (nth w (hz_words s) []) -> okbit w x) /\
    (forall t x, In x (nth t (hz_regs s) []) -> okbit (t / 64) x).
  Definition okinstr (i : hzinstr) : Prop :=
    match i with HzLoad t => t < T | HzStore t => t < T /\ nth_error hzs t = Some true end.

  Lemma nth_upd {V} i (v : V) l j d : nth j (upd i v l) d = if (i =? j) && (i <? length l) then v else nth j l d.
  Proof.
    revert i j; induction l as [|a l IH]; intros [|i] [|j]; cbn [upd nth length]; try reflexivity.
    - rewrite andb_false_r. reflexivity.
    - rewrite IH. reflexivity.
  Qed.

  Lemma hexec_inv i s : okinstr i -> hinv s -> exists s', hzexec i s = Ok s' /\ hinv s' /\
    (forall w, nth w (hz_words s) [] <> [] -> nth w (hz_words s') [] <> []) /\
    match i with HzStore t => nth (t / 64) (hz_words s') [] <> [] | _ => True end.
  Proof.
    intros Hi (H1 & H2 & H3 & H4). destruct i as [t|t]; cbn [hzexec okinstr] in *.
    - eexists; split; [reflexivity|]. split; [|split; [auto|exact I]]. split; [exact H1|]. split; [cbn; rewrite upd_length; exact H2|].
      split; [exact H3|]. cbn [hz_regs]. intros u x Hx. rewrite nth_upd in Hx.
      destruct (Nat.eqb_spec t u); cbn [andb] in Hx; [|apply H4; exact Hx]. subst u.
      destruct (t <? length (hz_regs s)); [apply H3; exact Hx|apply H4; exact Hx].
    - destruct Hi as [Ht Hz].
      assert (Hw : t / 64 < length (hz_words s)).
      { rewrite H1. apply Nat.lt_succ_r. apply Nat.div_le_mono; lia. }
      eexists; split; [reflexivity|]. split; [|split].
      + split; [cbn; rewrite upd_length; exact H1|]. split; [exact H2|]. split; [|exact H4]. cbn [hz_words]. intros w x Hx. rewrite nth_upd in Hx.
        destruct (Nat.eqb_spec (t / 64) w); cbn [andb] in Hx; [|apply H3; exact Hx]. subst w.
        destruct (Nat.ltb_spec (t / 64) (length (hz_words s))); [|lia]. destruct Hx as [<-|Hx]; [split; [reflexivity|exact Hz]|].
        apply H4. exact Hx.
      + cbn [hz_words]. intros w Hn. rewrite nth_upd. destruct ((t / 64 =? w) && _); [discriminate|exact Hn].
      + cbn [hz_words]. rewrite nth_upd, Nat.eqb_refl. destruct (Nat.ltb_spec (t / 64) (length (hz_words s))); [discriminate|lia].
  Qed.

  Definition stored_in (l : list hzinstr) (w : nat) : Prop := exists t, In (HzStore t) l /\ t / 64 = w.

  Lemma hexec_all_inv l : Forall okinstr l -> forall s, hinv s -> exists s', exec_all hzexec l s = Ok s' /\ hinv s' /\
    (forall w, nth w (hz_words s) [] <> [] \/ stored_in l w -> nth w (hz_words s') [] <> []).
  Proof.
    induction 1 as [|i l Hi Hl IH]; intros s Hs.
    - exists s. split; [reflexivity|]. split; [exact Hs|]. intros w [Hw|(t & [] & _)]. exact Hw.
    - destruct (hexec_inv i s Hi Hs) as (s1 & E1 & Hs1 & Hk & Hd). destruct (IH s1 Hs1) as (s2 & E2 & Hs2 & Hk2).
      exists s2. cbn [exec_all]. rewrite E1. cbn [bind]. split; [exact E2|]. split; [exact Hs2|].
      intros w [Hw|(t & [Et|Hin] & Hw)].
      + apply Hk2. left. apply Hk. exact Hw.
      + subst i w. apply Hk2. left. exact Hd.
      + apply Hk2. right. exists t. auto.
  Qed.

  Lemma hrun_inv sched : forall ps s, Forall (Forall okinstr) ps -> hinv s -> exists s', run hzexec sched ps s = Ok s' /\ hinv s' /\
    (forall w, nth w (hz_words s) [] <> [] \/ stored_in (concat ps) w -> nth w (hz_words s') [] <> []).
  Proof.
    induction sched as [|u sched IH]; intros ps s Hp Hs; cbn [run].
    - apply hexec_all_inv; [|exact Hs]. apply Forall_concat. exact Hp.
    - destruct (pop u ps) as [[i ps']|] eqn:E; [|apply IH; assumption].
      destruct (pop_split _ _ _ _ E) as (A & p & B & -> & ->).
      apply Forall_app in Hp as [HA HB]. inversion HB as [|? ? Hip HB']; subst. inversion Hip as [|? ? Hi Hp']; subst.
      destruct (hexec_inv i s Hi Hs) as (s1 & E1 & Hs1 & Hk & Hd). rewrite E1. cbn [bind].
      destruct (IH (A ++ p :: B) s1) as (s2 & E2 & Hs2 & Hk2); [apply Forall_app; split; [exact HA|constructor; assumption]|exact Hs1|].
      exists s2. split; [exact E2|]. split; [exact Hs2|]. intros w [Hw|(t & Hin & Hw)].
      + apply Hk2. left. apply Hk. exact Hw.
      + rewrite concat_app in Hin. cbn [concat] in Hin. apply in_app_or in Hin as [Hin|[Hin|Hin]].
        * apply Hk2. right. exists t. split; [|exact Hw]. rewrite concat_app. apply in_or_app. left; exact Hin.
        * subst i w. apply Hk2. left. exact Hd.
        * apply Hk2. right. exists t. split; [|exact Hw]. rewrite concat_app. cbn [concat]. apply in_or_app. right; exact Hin.
  Qed.

  Lemma in_combine_seq : forall (l : list bool) a t b, In (t, b) (combine (seq a (length l)) l) <-> a <= t /\ nth_error l (t - a) = Some b.
  Proof.
    induction l as [|x l IH]; intros a t b; cbn [length seq combine In].
    - split; [tauto|]. intros [_ H]. destruct (t - a); discriminate.
    - rewrite IH. split.
      + intros [E|[H1 H2]]; [injection E as -> ->; rewrite Nat.sub_diag; auto|]. split; [lia|]. replace (t - a) with (S (t - S a)) by lia. exact H2.
      + intros [H1 H2]. destruct (Nat.eq_dec a t) as [->|Hne]; [left; rewrite Nat.sub_diag in H2; injection H2 as ->; reflexivity|].
        right. split; [lia|]. replace (t - a) with (S (t - S a)) in H2 by lia. exact H2.
  Qed.

  Lemma found_zero_ok sched : found_zero hzs sched = Ok (existsb (fun b => b) hzs).
  Proof.
    unfold found_zero. fold T.
    set (ps := map hz_prog (combine (seq 0 T) hzs)).
    assert (Hps : Forall (Forall okinstr) ps).
    { unfold ps. apply Forall_forall. intros p Hp. apply in_map_iff in Hp as ([t b] & <- & Hin). apply in_combine_seq in Hin as [_ Hin].
      rewrite Nat.sub_0_r in Hin. assert (t < T) by (apply nth_error_Some; rewrite Hin; discriminate).
      unfold hz_prog. cbn [snd fst]. destruct b; constructor; [exact H|]. constructor; [|constructor]. split; [exact H|exact Hin]. }
    assert (Hs : hinv (mkHz (repeat [] (S (T / 64))) (repeat [] T))).
    { assert (G : forall k i (x : nat), In x (nth i (repeat (@nil nat) k) []) -> False).
      { induction k as [|k IHk]; intros [|i] x H; cbn in H; try contradiction. eapply IHk; exact H. }
      split; [apply repeat_length|]. split; [apply repeat_length|]. split; intros ? ? H; exfalso; eapply G; exact H. }
    destruct (hrun_inv sched ps _ Hps Hs) as (s' & E & (_ & _ & H3 & _) & Hk). rewrite E. cbn [bind]. f_equal.
    apply eq_true_iff_eq. rewrite !existsb_exists. split.
    - intros (t & Ht & Hb). unfold hz_bit in Hb. apply existsb_exists in Hb as (x & Hx & Et). apply Nat.eqb_eq in Et. subst x.
      destruct (H3 _ _ Hx) as [_ Hn]. exists true. split; [|reflexivity]. eapply nth_error_In; exact Hn.
    - intros (b & Hb & ->). apply In_nth_error in Hb as (t & Ht).
      assert (Hn : nth (t / 64) (hz_words s') [] <> []).
      { apply Hk. right. exists t. split; [|reflexivity]. apply in_concat. exists [HzLoad t; HzStore t]. split; [|right; left; reflexivity].
        unfold ps. apply in_map_iff. exists (t, true). split; [reflexivity|]. apply in_combine_seq. rewrite Nat.sub_0_r. split; [lia|exact Ht]. }
      destruct (nth (t / 64) (hz_words s') []) as [|x l] eqn:Ew; [congruence|].
      destruct (H3 (t / 64) x) as [Hx1 Hx2]; [rewrite Ew; left; reflexivity|].
      exists x. split; [apply in_seq; split; [lia|]; apply nth_error_Some; rewrite Hx2; discriminate|].
      unfold hz_bit. rewrite Hx1, Ew. cbn [existsb]. rewrite Nat.eqb_refl. reflexivity.
  Qed.
End Zero.

(** ** Boundaries *)
Definition nd (c : byte) : bool := negb (is_digit c).
Definition nx (s : list byte) : list byte := dropw nd (dropw is_digit s).

Lemma quiet_gap r : dig_hd r -> forall n g p, length g <= n -> Forall (fun c => nd c = true) g -> quiet p (g ++ r) -> gap false g.
Proof.
  intros Hr. induction n as [|n IH]; intros g p Hn Hg Hq; (destruct g as [|c g]; [constructor|]); [cbn in Hn; lia|]. cbn [length] in Hn. inv Hg. cbn [app quiet] in Hq. destruct Hq as [Q1 Q2].
  assert (Hd : is_digit c = false) by (unfold nd in *; destruct (is_digit c); [discriminate|reflexivity]).
  destruct (is_cmt c) eqn:Ec; [|apply gap_junk; [exact Hd|exact Ec|apply (IH g (is_digit c)); [lia|assumption|exact Q2]]].
  destruct (Q1 eq_refl) as [_ Ql]. apply (quiet_line_prefix g r Hr) in Ql.
  assert (G : exists x y, g = x ++ ch_nl :: y /\ Forall (fun b => is_nl b = false) x).
  { clear - Ql. induction g as [|c g IH]; [destruct Ql|]. cbn [quiet_line] in Ql. destruct (is_nl c) eqn:En.
    - exists [], g. assert (c = ch_nl) by (unfold is_nl in En; lia). subst c. split; [reflexivity|constructor].
    - destruct (IH (proj2 Ql)) as (x & y & -> & Hx). exists (c :: x), y. split; [reflexivity|constructor; assumption]. }
  destruct G as (x & y & -> & Hx). apply gap_cmt; [exact Ec|exact Hx|]. rewrite <- app_assoc in Q2. cbn [app] in Q2.
  apply quiet_suffix in Q2. apply quiet_cons in Q2. apply (IH y false); [rewrite app_length in Hn; cbn [length] in Hn; lia| |exact Q2].
  apply Forall_app in H2 as [_ H2]. inv H2. assumption.
Qed.

Lemma next_int_nx m e ce d s : load m e = Ok ce -> is_cmt ce = false -> at_ m e d s -> move_to_next_int m e d = Ok (e - length (nx s)).
Proof.
  intros Hce Hce' (Hh & He & Hc).
  pose proof (takew_dropw is_digit s) as E1. pose proof (takew_dropw nd (dropw is_digit s)) as E2. fold (nx s) in E2.
  set (ds := takew is_digit s) in *. set (g := takew nd (dropw is_digit s)) in *.
  assert (Hr : match nx s with [] => True | c :: _ => nd c = false end) by apply dropw_hd.
  assert (Hr1 : match dropw is_digit s with [] => True | c :: _ => is_digit c = false end) by apply dropw_hd.
  assert (Hds : Forall (fun c => is_digit c = true) ds) by apply takew_all.
  assert (Hg : Forall (fun c => nd c = true) g) by apply takew_all.
  clearbody ds g. rewrite <- E2 in E1, Hr1. set (r := nx s) in *. clearbody r.
  clear E2. subst s. rewrite !app_length in He.
  assert (Hrd : dig_hd r) by (destruct r as [|c r]; [exact I|]; unfold nd in Hr; cbn [dig_hd]; destruct (is_digit c); [reflexivity|discriminate]).
  assert (Hgap : gap false g) by (apply (quiet_gap r Hrd (length g) g false); [lia|exact Hg|eapply quiet_suffix; exact Hc]).
  rewrite app_assoc in Hh. apply has_app in Hh as [Hh1 Hh2]. rewrite app_length in Hh2.
  rewrite (move_to_next_int_gap m false e d ds g); [f_equal; lia|exact Hds|exact Hgap|exact Hh1| | |discriminate].
  - destruct r as [|c r].
    + exists ce. replace (d + length ds + length g) with e by (cbn in He; lia). split; [exact Hce|]. split; [exact Hce'|]. split; [lia|lia].
    + exists c. replace (d + length ds + length g) with (d + (length ds + length g)) by lia. split; [eapply load_has; exact Hh2|].
      cbn [dig_hd] in Hrd. split; [apply digit_not_cmt; exact Hrd|]. split; [cbn [length] in He; lia|]. intros _. exact Hrd.
  - destruct g as [|x g]; [|left; discriminate]. right. cbn [app] in Hr1. destruct r as [|c r]; [cbn in He; lia|]. unfold nd in Hr. rewrite Hr1 in Hr. discriminate.
Qed.

Lemma nx_len s : length (nx s) <= length s.
Proof. unfold nx. etransitivity; apply dropw_len. Qed.
Lemma nx_cons c s : length (nx s) <= length (nx (c :: s)).
Proof.
  unfold nx. cbn [dropw]. destruct (is_digit c) eqn:E; [lia|]. cbn [dropw]. unfold nd at 2. rewrite E. cbn [negb].
  destruct s as [|x s]; [cbn; lia|]. cbn [dropw]. unfold nd at 2. destruct (is_digit x) eqn:Ex; cbn [negb].
  - etransitivity; [apply nx_len|]. cbn; lia.
  - cbn [dropw]. unfold nd at 1. rewrite Ex. cbn [negb]. lia.
Qed.
Lemma nx_skipn k s : length (nx (skipn k s)) <= length (nx s).
Proof.
  revert s; induction k as [|k IH]; intros s; [reflexivity|]. destruct s as [|c s]; [reflexivity|]. cbn [skipn].
  etransitivity; [apply IH|apply nx_cons].
Qed.

Definition cut (s : list byte) : Prop := s = [] \/ exists a c, s = a ++ [c] /\ is_digit c = false.

Lemma cut_nonempty_app a b : b <> [] -> cut (a ++ b) -> cut b.
Proof.
  intros Hn [E|(x & c & E & Hc)].
  - apply app_eq_nil in E as [_ E]. congruence.
  - right. destruct (exists_last Hn) as (y & z & Eb). subst b. rewrite app_assoc in E. apply app_inj_tail in E as [_ ->]. eauto.
Qed.

Lemma rtoks_from_cut s : forall cur r c, is_digit c = false -> toks_from cur ((s ++ [c]) ++ r) = toks_from cur (s ++ [c]) ++ rtoks r.
Proof.
  induction s as [|x s IH]; intros cur r c Hc; cbn [app toks_from].
  - rewrite Hc. unfold rtoks. destruct (is_nl c), cur; reflexivity.
  - rewrite !IH by (try reflexivity; assumption). destruct (is_digit x); [reflexivity|]. destruct (is_nl x), cur; reflexivity.
Qed.
Lemma rtoks_cut a r : cut a -> rtoks (a ++ r) = rtoks a ++ rtoks r.
Proof. intros [->|(x & c & -> & Hc)]; [reflexivity|]. apply rtoks_from_cut; exact Hc. Qed.

(** Comments are closed in quiet text. *)
Definition closed (w : where_) (a : list byte) : Prop := match w with InComment => quiet_line a | _ => True end.
Lemma strip_app r : match r with [] => True | c :: _ => is_cmt c = false end -> forall a w p, closed w a -> quiet p a ->
  strip_from w (a ++ r) = strip_from w a ++ strip r.
Proof.
  intros Hr. induction a as [|c a IH]; intros w p Hw Hq.
  - destruct w; [reflexivity|destruct Hw|]. cbn [app]. destruct r as [|c r]; [reflexivity|]. unfold strip. cbn [strip_from]. rewrite Hr. reflexivity.
  - cbn [app quiet] in *. destruct Hq as [Q1 Q2]. destruct w; cbn [strip_from closed] in *.
    + destruct (is_cmt c); [apply (IH InComment (is_digit c)); [apply Q1; reflexivity|exact Q2]|]. rewrite (IH InText (is_digit c) I Q2). reflexivity.
    + cbn [quiet_line] in Hw. destruct (is_nl c); [apply (IH AfterComment (is_digit c) I Q2)|]. apply (IH InComment (is_digit c) (proj2 Hw) Q2).
    + destruct (is_cmt c); [apply (IH InComment (is_digit c)); [apply Q1; reflexivity|exact Q2]|]. rewrite (IH InText (is_digit c) I Q2). reflexivity.
Qed.
Lemma strip_last c : is_digit c = false -> forall a w p, closed w (a ++ [c]) -> quiet p (a ++ [c]) -> exists x z, strip_from w (a ++ [c]) = x ++ [z] /\ is_digit z = false.
Proof.
  intros Hc. induction a as [|y a IH]; intros w p Hw Hq; cbn [app quiet] in *; destruct Hq as [Q1 Q2].
  - destruct w; cbn [strip_from closed quiet_line] in *.
    + destruct (is_cmt c); [destruct (Q1 eq_refl) as [_ []]|]. exists [], c. auto.
    + destruct (is_nl c); [|destruct Hw as [_ []]]. exists [], ch_nl. auto.
    + destruct (is_cmt c); [destruct (Q1 eq_refl) as [_ []]|]. exists [ch_nl], c. auto.
  - destruct w; cbn [strip_from closed quiet_line] in *.
    + destruct (is_cmt y); [apply (IH InComment (is_digit y)); [apply Q1; reflexivity|exact Q2]|].
      destruct (IH InText (is_digit y) I Q2) as (x & z & -> & Hz). exists (y :: x), z. auto.
    + destruct (is_nl y); [apply (IH AfterComment (is_digit y) I Q2)|]. apply (IH InComment (is_digit y) (proj2 Hw) Q2).
    + destruct (is_cmt y); [apply (IH InComment (is_digit y)); [apply Q1; reflexivity|exact Q2]|].
      destruct (IH InText (is_digit y) I Q2) as (x & z & -> & Hz). exists (ch_nl :: y :: x), z. auto.
Qed.
Lemma toks_cut a r p : cut a -> quiet p a -> match r with [] => True | c :: _ => is_cmt c = false end -> toks (a ++ r) = toks a ++ toks r.
Proof.
  intros Hcut Hq Hr. unfold toks. unfold strip at 1 2. rewrite (strip_app r Hr a InText p I Hq). apply rtoks_cut.
  destruct Hcut as [->|(x & c & -> & Hc)]; [left; reflexivity|]. right. apply (strip_last c Hc x InText p I Hq).
Qed.
Lemma dig_hd_nocmt r : dig_hd r -> match r with [] => True | c :: _ => is_cmt c = false end.
Proof. destruct r as [|c r]; [auto|]. apply digit_not_cmt. Qed.

Lemma n_nl_app x y : n_nl (x ++ y) = n_nl x + n_nl y.
Proof. induction x as [|[|] x IH]; cbn [app n_nl]; lia. Qed.
Lemma n_int_app x y : n_int (x ++ y) = n_int x + n_int y.
Proof. induction x as [|[|] x IH]; cbn [app n_int]; lia. Qed.
Lemma has_z_app x y : has_z (x ++ y) = has_z x || has_z y.
Proof. induction x as [|[|] x IH]; cbn [app has_z]; [reflexivity|rewrite IH, orb_assoc; reflexivity|exact IH]. Qed.
Lemma ints_app x y : ints (x ++ y) = ints x ++ ints y.
Proof. induction x as [|[|] x IH]; cbn [app ints]; [reflexivity|rewrite IH; reflexivity|exact IH]. Qed.

(** What pass 2 sees. *)
Lemma live_app x y R : live (x ++ y) R = live x (y ++ R) ++ live y R.
Proof.
  induction x as [|t x IH]; [reflexivity|]. cbn [app live]. change (t :: x ++ y ++ R) with ((t :: x) ++ y ++ R).
  rewrite <- app_assoc. cbn [app]. destruct (Nat.eqb_spec (n_nl (t :: x ++ y ++ R)) 0) as [E|E]; [|rewrite IH; reflexivity].
  assert (Ey : n_nl (y ++ R) = 0) by (change (t :: x ++ y ++ R) with ((t :: x) ++ y ++ R) in E; rewrite n_nl_app in E; lia).
  destruct y as [|u y]; [reflexivity|]. cbn [live app] in *. rewrite Ey. reflexivity.
Qed.
Lemma n_int_live x R : n_int (live x R) <= n_int x.
Proof. induction x as [|t x IH]; [cbn; lia|]. cbn [live]. destruct (_ =? 0); [cbn; lia|]. destruct t; cbn [n_int]; lia. Qed.
Lemma n_nl_live x R : n_nl (live x R) = n_nl x.
Proof.
  induction x as [|t x IH]; [reflexivity|]. cbn [live]. destruct (Nat.eqb_spec (n_nl ((t :: x) ++ R)) 0) as [E|E]; [rewrite n_nl_app in E; change (n_nl []) with 0; lia|].
  destruct t; cbn [n_nl]; lia.
Qed.
Lemma live_none x R : n_nl (x ++ R) = 0 -> live x R = [].
Proof. destruct x as [|t x]; [reflexivity|]. cbn [live]. intros ->. reflexivity. Qed.
Lemma live_full x R : n_nl R <> 0 -> live x R = x.
Proof.
  intros H. induction x as [|t x IH]; [reflexivity|]. cbn [live]. rewrite IH.
  destruct (Nat.eqb_spec (n_nl ((t :: x) ++ R)) 0) as [E|E]; [|reflexivity]. rewrite n_nl_app in E. lia.
Qed.
Lemma live_last x R : live (x ++ [TNl]) R = x ++ [TNl].
Proof.
  rewrite live_app. cbn [live app n_nl]. f_equal. induction x as [|t x IH]; [reflexivity|]. cbn [live app]. rewrite IH.
  destruct (Nat.eqb_spec (n_nl (t :: x ++ TNl :: R)) 0) as [E|E]; [|reflexivity]. change (t :: x ++ TNl :: R) with ((t :: x) ++ TNl :: R) in E. rewrite n_nl_app in E. cbn [n_nl] in E. lia.
Qed.

Definition quiet_body (b : list byte) : Prop := quiet false b /\ exists c b', b = c :: b' /\ is_digit c = true.

Section Body.
  Variable b : list byte.
  Hypothesis Hb : quiet_body b.
  Variable T : nat.
  Hypothesis HT : 0 < T.

  Definition bnd (t : nat) : nat := if t =? 0 then 0 else length b - length (nx (skipn ((t * length b) / T) b)).

  Lemma pos_le t : t <= T -> (t * length b) / T <= length b.
  Proof. intros H. apply Nat.div_le_upper_bound; [lia|]. nia. Qed.
  Lemma pos_mono t u : t <= u -> (t * length b) / T <= (u * length b) / T.
  Proof. intros H. apply Nat.div_le_mono; nia. Qed.

  Lemma bnd_le t : bnd t <= length b.
  Proof. unfold bnd. destruct (t =? 0); lia. Qed.
  Lemma bnd_mono t u : t <= u -> bnd t <= bnd u.
  Proof.
    intros H. unfold bnd. destruct (Nat.eqb_spec t 0); [lia|]. destruct (Nat.eqb_spec u 0); [lia|].
    pose proof (pos_mono t u H) as Hp.
    replace ((u * length b) / T) with (((u * length b) / T - (t * length b) / T) + (t * length b) / T) by lia.
    rewrite <- skipn_skipn_. pose proof (nx_skipn ((u * length b) / T - (t * length b) / T) (skipn ((t * length b) / T) b)). lia.
  Qed.
  Lemma bnd_T : bnd T = length b.
  Proof.
    unfold bnd. destruct (Nat.eqb_spec T 0); [lia|]. rewrite Nat.mul_comm, Nat.div_mul by lia. rewrite skipn_all. cbn. lia.
  Qed.

  Lemma skipn_len_suffix {A} (a r : list A) : skipn (length (a ++ r) - length r) (a ++ r) = r.
  Proof. rewrite app_length. replace (length a + length r - length r) with (length a) by lia. rewrite skipn_app, skipn_all, Nat.sub_diag. reflexivity. Qed.
  Lemma firstn_len_suffix {A} (a r : list A) : firstn (length (a ++ r) - length r) (a ++ r) = a.
  Proof. rewrite app_length. replace (length a + length r - length r) with (length a) by lia. rewrite firstn_app, firstn_all, Nat.sub_diag. cbn. apply app_nil_r. Qed.

  Lemma bnd_ready t : dig_hd (skipn (bnd t) b).
  Proof.
    unfold bnd. destruct (Nat.eqb_spec t 0).
    - destruct Hb as (_ & (c & b' & E & Hc)). rewrite E. cbn. exact Hc.
    - set (s := skipn (t * length b / T) b). assert (E : b = (firstn ((t * length b) / T) b ++ takew is_digit s ++ takew nd (dropw is_digit s)) ++ nx s).
      { unfold nx. rewrite <- !app_assoc, takew_dropw, takew_dropw. unfold s. symmetry. apply firstn_skipn. }
      set (a := firstn _ b ++ _) in E. pose proof (skipn_len_suffix a (nx s)) as F. rewrite <- E in F. rewrite F.
      pose proof (dropw_hd nd (dropw is_digit s)) as Hh. fold (nx s) in Hh. destruct (nx s) as [|c r]; [exact I|]. unfold nd in Hh. apply negb_false_iff in Hh. exact Hh.
  Qed.

  Lemma bnd_cut t : cut (firstn (bnd t) b) \/ bnd t = length b.
  Proof.
    unfold bnd. destruct (Nat.eqb_spec t 0); [left; left; reflexivity|].
    set (s := skipn (t * length b / T) b). assert (E : b = (firstn ((t * length b) / T) b ++ takew is_digit s ++ takew nd (dropw is_digit s)) ++ nx s).
    { unfold nx. rewrite <- !app_assoc, takew_dropw, takew_dropw. unfold s. symmetry. apply firstn_skipn. }
    set (a := firstn _ b ++ _) in E. pose proof (firstn_len_suffix a (nx s)) as F. rewrite <- E in F. rewrite F.
    assert (Ea : a = firstn (t * length b / T) b ++ takew is_digit s ++ takew nd (dropw is_digit s)) by reflexivity. clearbody a s.
    pose proof (dropw_hd nd (dropw is_digit s)) as Hh. fold (nx s) in Hh. pose proof (dropw_hd is_digit s) as Hh2.
    pose proof (takew_all nd (dropw is_digit s)) as Hg. pose proof (takew_dropw nd (dropw is_digit s)) as Eg. fold (nx s) in Eg.
    destruct (takew nd (dropw is_digit s)) as [|x g] eqn:Et.
    - cbn [app] in Eg. rewrite <- Eg in Hh2. destruct (nx s) as [|c r]; [|unfold nd in Hh; rewrite Hh2 in Hh; discriminate].
      right. cbn [length]. lia.
    - left. right. assert (Hx : x :: g <> []) by discriminate. destruct (exists_last Hx) as (y & z & Ey). rewrite Ea. rewrite Ey in *. exists (firstn ((t * length b) / T) b ++ takew is_digit s ++ y), z.
      split; [rewrite <- !app_assoc; reflexivity|]. apply Forall_app in Hg as [_ Hg]. inv Hg. unfold nd in *. destruct (is_digit z); [discriminate|reflexivity].
  Qed.

  Definition reg (t : nat) : list byte := slice (bnd t) (bnd (S t)) b.
  Lemma bnd_quiet t : quiet false (firstn (bnd t) b).
  Proof. destruct Hb as [Hq _]. rewrite <- (firstn_skipn (bnd t) b) in Hq. eapply quiet_prefix; [apply bnd_ready|exact Hq]. Qed.
  Lemma reg_cut t : cut (reg t) \/ bnd (S t) = length b.
  Proof.
    destruct (bnd_cut (S t)) as [Hcut|Hcut]; [left|right; exact Hcut].
    unfold reg. pose proof (firstn_slice (bnd t) (bnd (S t)) b (bnd_mono _ _ (Nat.le_succ_diag_r t))) as E.
    destruct (slice (bnd t) (bnd (S t)) b) as [|c s] eqn:Es; [left; reflexivity|]. rewrite <- Es in *.
    apply (cut_nonempty_app (firstn (bnd t) b)); [rewrite Es; discriminate|]. rewrite E. exact Hcut.
  Qed.
  Lemma reg_ready t : dig_hd (reg t).
  Proof.
    unfold reg, slice. pose proof (bnd_ready t) as H. destruct (skipn (bnd t) b) as [|c s]; [destruct (bnd (S t) - bnd t); exact I|].
    destruct (bnd (S t) - bnd t); [exact I|]. cbn. exact H.
  Qed.
  Lemma reg_len t : length (reg t) = bnd (S t) - bnd t.
  Proof. unfold reg, slice. rewrite firstn_length, skipn_length. pose proof (bnd_le (S t)). lia. Qed.

  Definition NL (t : nat) : nat := n_nl (toks (firstn (bnd t) b)).
  Definition NI (t : nat) : nat := n_int (toks (firstn (bnd t) b)).
  Lemma toks_step t : toks (firstn (bnd (S t)) b) = toks (firstn (bnd t) b) ++ toks (reg t).
  Proof.
    rewrite <- (firstn_slice (bnd t) (bnd (S t)) b) by (apply bnd_mono; lia). destruct (bnd_cut t) as [Hcut|Hcut].
    - eapply toks_cut; [exact Hcut|apply bnd_quiet|]. apply dig_hd_nocmt, reg_ready.
    - pose proof (bnd_mono t (S t) ltac:(lia)). pose proof (bnd_le (S t)). assert (E : reg t = []) by (apply length_zero_iff_nil; rewrite reg_len; lia).
      fold (reg t). rewrite E, !app_nil_r. reflexivity.
  Qed.
  Lemma NL_S t : NL (S t) = NL t + n_nl (toks (reg t)).
  Proof. unfold NL. rewrite toks_step. apply n_nl_app. Qed.
  Lemma NI_S t : NI (S t) = NI t + n_int (toks (reg t)).
  Proof. unfold NI. rewrite toks_step. apply n_int_app. Qed.

  Lemma toks_concat k : concat (map (fun t => toks (reg t)) (seq 0 k)) = toks (firstn (bnd k) b).
  Proof.
    induction k as [|k IH]; [reflexivity|]. rewrite seq_S, map_app, concat_app, IH. cbn [map concat plus]. rewrite app_nil_r. symmetry. apply toks_step.
  Qed.
  Lemma toks_all : concat (map (fun t => toks (reg t)) (seq 0 T)) = toks b.
  Proof. rewrite toks_concat, bnd_T, firstn_all. reflexivity. Qed.

  Lemma existsb_has_z (f : nat -> list tok) k : existsb (fun x => x) (map (fun t => has_z (f t)) (seq 0 k)) = has_z (concat (map f (seq 0 k))).
  Proof.
    induction (seq 0 k) as [|t l IH]; [reflexivity|]. cbn [map existsb concat]. rewrite IH, has_z_app. reflexivity.
  Qed.

  Lemma toks_rest t : toks b = toks (firstn (bnd t) b) ++ toks (skipn (bnd t) b).
  Proof.
    destruct (bnd_cut t) as [Hcut|Hcut].
    - rewrite <- (toks_cut _ _ false); [rewrite firstn_skipn; reflexivity|exact Hcut|apply bnd_quiet|]. apply dig_hd_nocmt, bnd_ready.
    - rewrite Hcut, firstn_all, skipn_all, app_nil_r. reflexivity.
  Qed.
  Lemma toks_rest2 t : toks (skipn (bnd t) b) = toks (reg t) ++ toks (skipn (bnd (S t)) b).
  Proof.
    pose proof (toks_rest t) as E1. pose proof (toks_rest (S t)) as E2. rewrite toks_step, <- app_assoc in E2. rewrite E1 in E2. apply app_inv_head in E2. exact E2.
  Qed.
  (** *** The threads *)
  Variable m : mem.
  Variable d6 : nat.
  Hypothesis Hat : has m d6 b.
  Hypothesis Hend : d6 + length b = flen m.
  Hypothesis Hsl : slack m.
  Let e := flen m.

  Lemma at_pos p : p <= length b -> at_ m e (d6 + p) (skipn p b).
  Proof.
    intros Hp. rewrite <- (firstn_skipn p b) in Hat. apply has_app in Hat as [_ H]. rewrite firstn_length_le in H by lia.
    split; [exact H|]. split; [rewrite skipn_length; unfold e; lia|]. destruct Hb as [Hc _].
    rewrite <- (firstn_skipn p b) in Hc. eapply quiet_suffix; exact Hc.
  Qed.

  Lemma chunk_ok t : t < T -> gr_chunk m d6 e T t = Ok (d6 + bnd t, d6 + bnd (S t)).
  Proof.
    intros Ht. unfold gr_chunk. replace (e - d6) with (length b) by (unfold e; lia).
    pose proof (pos_le t ltac:(lia)) as P1. pose proof (pos_le (S t) ltac:(lia)) as P2. replace (t + 1) with (S t) by lia.
    unfold advance. rewrite !Nat.min_l by (unfold e; lia).
    rewrite (next_int_nx m e 0%Z (d6 + (S t * length b) / T) (skipn ((S t * length b) / T) b)); [|apply load_eof; exact Hsl|reflexivity|apply at_pos; lia].
    cbn [bind].
    assert (Es : (if t =? 0 then move_to_first_int m e (d6 + (t * length b) / T) else move_to_next_int m e (d6 + (t * length b) / T)) = Ok (d6 + bnd t)).
    { unfold bnd. destruct (Nat.eqb_spec t 0).
      - subst t. change (0 * length b) with 0. rewrite Nat.div_0_l by lia. pose proof (move_to_first_int_gap m false e d6 []) as G. cbn [length] in G. rewrite !Nat.add_0_r in G |- *.
        apply G; [constructor|exact Logic.I| |discriminate]. destruct Hb as (Hc & (c & b' & E & Hd)). exists c.
        pose proof Hat as Hat0. rewrite E in Hat0. split; [eapply load_has; exact Hat0|]. split; [apply digit_not_cmt; exact Hd|]. unfold e; split; [lia|intros _; exact Hd].
      - rewrite (next_int_nx m e 0%Z (d6 + (t * length b) / T) (skipn ((t * length b) / T) b)); [|apply load_eof; exact Hsl|reflexivity|apply at_pos; lia].
        f_equal. pose proof (nx_len (skipn ((t * length b) / T) b)). rewrite skipn_length in H. unfold e; lia. }
    rewrite Es. cbn [bind]. f_equal. f_equal. unfold smaller_end. pose proof (nx_len (skipn ((S t * length b) / T) b)) as Hn. rewrite skipn_length in Hn.
    unfold bnd. cbn [Nat.eqb]. destruct (Nat.ltb_spec (e - length (nx (skipn ((S t * length b) / T) b))) e); unfold e in *; lia.
  Qed.

  Lemma reg_at t : at_ m (d6 + bnd (S t)) (d6 + bnd t) (reg t).
  Proof.
    pose proof (bnd_le (S t)) as B1. pose proof (bnd_mono t (S t) ltac:(lia)) as B2.
    destruct (at_pos (bnd t) ltac:(lia)) as (H1 & H2 & H3).
    rewrite <- (firstn_skipn (bnd (S t) - bnd t) (skipn (bnd t) b)) in H1. fold (slice (bnd t) (bnd (S t)) b) in H1. fold (reg t) in H1.
    apply has_app in H1 as [H1 _]. split; [exact H1|]. split; [rewrite reg_len; lia|].
    pose proof (bnd_quiet (S t)) as Hq. rewrite <- (firstn_slice (bnd t) (bnd (S t)) b B2) in Hq. eapply quiet_suffix; exact Hq.
  Qed.

  Lemma reg_end t : exists ce, load m (d6 + bnd (S t)) = Ok ce /\ is_cmt ce = false /\ (bnd (S t) = length b -> is_digit ce = false).
  Proof.
    pose proof (bnd_le (S t)) as B1. destruct (at_load m e 0%Z (load_eof m Hsl) _ _ (at_pos (bnd (S t)) B1)) as (c & H1 & H2). exists c. split; [exact H1|].
    pose proof (bnd_ready (S t)) as R. destruct (skipn (bnd (S t)) b) as [|x r] eqn:Er.
    - subst c. split; [reflexivity|]. intros _. reflexivity.
    - subst x. split; [apply digit_not_cmt; exact R|]. intros E. rewrite E, skipn_all in Er. discriminate.
  Qed.

  Lemma ready_of s : dig_hd s -> ready s.
  Proof. destruct s as [|c s]; [auto|]. intros H. unfold ready, junk. rewrite H. reflexivity. Qed.

  Lemma count_ok t : gr_count m (d6 + bnd (S t)) (S (d6 + bnd (S t) - (d6 + bnd t))) (d6 + bnd t) 0 0 false =
    Ok (n_nl (toks (reg t)), n_int (toks (reg t)), has_z (toks (reg t))).
  Proof.
    destruct (reg_end t) as (ce & Hce & Hce' & Hcd).
    rewrite (gr_count_ok m (d6 + bnd (S t)) ce Hce Hce' (length (reg t)) (reg t)); [reflexivity|lia|apply reg_at|apply ready_of, reg_ready| |rewrite reg_len; lia].
    intros Hx. destruct (reg_cut t) as [Hcut|Hcut]; [exact Hcut|rewrite (Hcd Hcut) in Hx; discriminate].
  Qed.

  Variable L O : ity.
  Hypothesis HL : is_ity L.
  Hypothesis HO : is_ity O.
  Variable base : nat.
  Hypothesis HnL : (Z.of_nat (base + n_nl (toks b)) <= imax L)%Z.
  Let lv (t : nat) : list tok := live (toks (reg t)) (toks (skipn (bnd (S t)) b)).
  Hypothesis HmO : (Z.of_nat (n_int (toks b)) <= imax O)%Z.
  Hypothesis Hfit : Forall (fun v => v <= imax L)%Z (ints (live (toks b) [])).

  Lemma live_all t : live (toks (skipn (bnd t) b)) [] = lv t ++ live (toks (skipn (bnd (S t)) b)) [].
  Proof. unfold lv. rewrite (toks_rest2 t), live_app, app_nil_r. reflexivity. Qed.
  Lemma live_fit t : Forall (fun v => v <= imax L)%Z (ints (live (toks (skipn (bnd t) b)) [])).
  Proof.
    induction t as [|t IH]; [exact Hfit|]. rewrite live_all, ints_app in IH. apply Forall_app in IH. apply IH.
  Qed.

  Lemma set_ok t :
    gr_set L O (Z.of_nat (base + n_nl (toks b))) m (d6 + bnd (S t)) (S (d6 + bnd (S t) - (d6 + bnd t))) (d6 + bnd t)
      (Z.of_nat (base + NL t)) (Z.of_nat (NI t)) 0 =
    Ok (gprog (Z.of_nat (base + NL t)) (Z.of_nat (NI t)) (lv t), max_of (ints (lv t))).
  Proof.
    destruct (reg_end t) as (ce & Hce & Hce' & Hcd).
    assert (En : Z.of_nat (base + n_nl (toks b)) = (Z.of_nat (base + NL t) + Z.of_nat (n_nl (toks (reg t) ++ toks (skipn (bnd (S t)) b))))%Z).
    { rewrite <- toks_rest2. unfold NL. rewrite (toks_rest t), n_nl_app. lia. }
    assert (Em : Z.of_nat (n_int (toks b)) = (Z.of_nat (NI t) + Z.of_nat (n_int (toks (reg t) ++ toks (skipn (bnd (S t)) b))))%Z).
    { rewrite <- toks_rest2. unfold NI. rewrite (toks_rest t), n_int_app. lia. }
    rewrite En at 1.
    rewrite (gr_set_ok m (d6 + bnd (S t)) ce Hce Hce' L O HL HO (length (reg t)) (reg t)).
    - rewrite Z.max_r; [reflexivity|apply max_of_nonneg].
    - lia.
    - apply reg_at.
    - apply ready_of, reg_ready.
    - intros Hx. destruct (reg_cut t) as [Hcut|Hcut]; [exact Hcut|rewrite (Hcd Hcut) in Hx; discriminate].
    - rewrite reg_len. lia.
    - lia.
    - rewrite <- En. exact HnL.
    - lia.
    - rewrite n_int_app in Em. pose proof (n_int_live (toks (reg t)) (toks (skipn (bnd (S t)) b))). lia.
    - lia.
    - pose proof (live_fit t) as Hf. rewrite live_all, ints_app in Hf. apply Forall_app in Hf. apply Hf.
  Qed.
End Body.

(** ** The stores of pass 2 *)
Lemma gprog_app : forall x o i y, gprog o i (x ++ y) = gprog o i x ++ gprog (o + Z.of_nat (n_nl x)) (i + Z.of_nat (n_int x)) y.
Proof.
  induction x as [|[ds|] x IH]; intros o i y; cbn [app gprog n_nl n_int].
  - rewrite !Z.add_0_r. reflexivity.
  - rewrite IH. f_equal. f_equal. f_equal. lia.
  - rewrite IH. f_equal. f_equal. f_equal. lia.
Qed.

Definition in_off (lo hi : Z) (i : ginstr) : Prop := match i with SetOff k _ => (lo < k <= hi)%Z | SetEnd _ _ => True end.
Definition in_end (lo hi : Z) (i : ginstr) : Prop := match i with SetEnd k _ => (lo <= k < hi)%Z | SetOff _ _ => True end.
Lemma gprog_in : forall x o i, Forall (fun g => in_off o (o + Z.of_nat (n_nl x)) g /\ in_end i (i + Z.of_nat (n_int x)) g) (gprog o i x).
Proof.
  induction x as [|[ds|] x IH]; intros o i; cbn [gprog n_nl n_int]; constructor; cbn [in_off in_end]; try lia; (eapply Forall_impl; [|apply IH]); intros g [H1 H2].
  - destruct g; cbn [in_off in_end] in *; lia.
  - destruct g; cbn [in_off in_end] in *; lia.
Qed.

Lemma zset_ok_or i v l : zset i v l = UB \/ (0 <= i < Z.of_nat (length l))%Z /\ zset i v l = Ok (upd (Z.to_nat i) (Some v) l).
Proof.
  unfold zset, aset. destruct (Z.ltb_spec i 0); [left; reflexivity|]. destruct (Nat.ltb_spec (Z.to_nat i) (length l)); [right|left; reflexivity].
  split; [lia|reflexivity].
Qed.
Lemma zset_len i v l l' : zset i v l = Ok l' -> length l' = length l.
Proof. intros H. destruct (zset_ok_or i v l) as [E|[_ E]]; rewrite E in H; [discriminate|]. injection H as <-. apply upd_length. Qed.
Lemma zset_ub_len i v l v' l' : length l = length l' -> zset i v l = UB -> zset i v' l' = UB.
Proof. intros E. unfold zset, aset. rewrite E. destruct (i <? 0)%Z; [reflexivity|]. destruct (Z.to_nat i <? length l'); [discriminate|reflexivity]. Qed.

Lemma zset_comm i v j w l : i <> j -> bind (zset i v l) (zset j w) = bind (zset j w l) (zset i v).
Proof.
  intros Hne. destruct (zset_ok_or i v l) as [Ei|[Hi Ei]]; destruct (zset_ok_or j w l) as [Ej|[Hj Ej]]; rewrite Ei, Ej; cbn [bind].
  - reflexivity.
  - symmetry. apply (zset_ub_len i v l); [symmetry; apply upd_length|exact Ei].
  - apply (zset_ub_len j w l); [symmetry; apply upd_length|exact Ej].
  - unfold zset, aset. rewrite !upd_length. destruct (Z.ltb_spec i 0); [lia|]. destruct (Z.ltb_spec j 0); [lia|].
    destruct (Nat.ltb_spec (Z.to_nat j) (length l)); [|lia]. destruct (Nat.ltb_spec (Z.to_nat i) (length l)); [|lia]. rewrite upd_comm by lia. reflexivity.
Qed.

Lemma gexec_comm OS i j : match i, j with SetOff a _, SetOff c _ => a <> c | SetEnd a _, SetEnd c _ => a <> c | _, _ => True end -> comm (gexec OS) i j.
Proof.
  intros H s. destruct s as [o en]. destruct i as [a va|a va], j as [c vc|c vc]; cbn [gexec g_off g_end].
  - pose proof (zset_comm a (wrap OS va) c (wrap OS vc) o H) as E.
    destruct (zset_ok_or a (wrap OS va) o) as [E1|[_ E1]], (zset_ok_or c (wrap OS vc) o) as [E2|[_ E2]]; rewrite E1, E2 in E |- *; cbn [bind gexec g_off g_end] in E |- *; first [reflexivity|rewrite E; reflexivity|rewrite <- E; reflexivity].
  - destruct (zset_ok_or a (wrap OS va) o) as [E1|[_ E1]], (zset_ok_or c vc en) as [E2|[_ E2]]; rewrite E1, E2; cbn [bind gexec g_off g_end]; rewrite ?E1, ?E2; reflexivity.
  - destruct (zset_ok_or c (wrap OS vc) o) as [E1|[_ E1]], (zset_ok_or a va en) as [E2|[_ E2]]; rewrite E1, E2; cbn [bind gexec g_off g_end]; rewrite ?E1, ?E2; reflexivity.
  - pose proof (zset_comm a va c vc en H) as E.
    destruct (zset_ok_or a va en) as [E1|[_ E1]], (zset_ok_or c vc en) as [E2|[_ E2]]; rewrite E1, E2 in E |- *; cbn [bind gexec g_off g_end] in E |- *; first [reflexivity|rewrite E; reflexivity|rewrite <- E; reflexivity].
Qed.

(** What the stores leave: the values of the offsets at the newlines. *)
Fixpoint nlpos (i : Z) (l : list tok) : list Z :=
  match l with [] => [] | TNl :: l' => i :: nlpos i l' | TInt _ :: l' => nlpos (i + 1) l' end.

Lemma nlpos_len i l : length (nlpos i l) = n_nl l.
Proof. revert i; induction l as [|[|] l IH]; intros i; cbn; auto. Qed.
Lemma ints_len l : length (ints l) = n_int l.
Proof. induction l as [|[|] l IH]; cbn; auto. Qed.

Lemma gprog_exec OS : is_ity OS -> forall l o i A B C A' B' C',
  Z.of_nat (length A) = (o + 1)%Z -> (0 <= o)%Z -> length B = n_nl l -> Z.of_nat (length A') = i -> length B' = n_int l -> (i + Z.of_nat (n_int l) <= imax OS)%Z ->
  exec_all (gexec OS) (gprog o i l) (mkGst (A ++ B ++ C) (A' ++ B' ++ C')) =
    Ok (mkGst (A ++ map Some (nlpos i l) ++ C) (A' ++ map Some (ints l) ++ C')).
Proof.
  intros HOS. pose proof (ity_facts OS HOS) as FO.
  induction l as [|[ds|] l IH]; intros o i A B C A' B' C' HA Ho HB HA' HB' Hi; cbn [gprog exec_all nlpos ints map n_nl n_int] in *.
  - destruct B; [|discriminate]. destruct B'; [|discriminate]. reflexivity.
  - destruct B' as [|x B']; [discriminate|]. cbn [gexec g_off g_end app]. unfold zset. destruct (Z.ltb_spec i 0); [lia|].
    unfold aset. replace (Z.to_nat i) with (length A') by lia. rewrite upd_mid. destruct (Nat.ltb_spec (length A') (length (A' ++ x :: B' ++ C'))) as [_|Hx]; [|rewrite app_length in Hx; cbn [length] in Hx; lia].
    cbn [bind]. change (A' ++ Some (dval ds) :: B' ++ C') with (A' ++ [Some (dval ds)] ++ B' ++ C'). rewrite (app_assoc A').
    rewrite (IH o (i + 1)%Z A B C (A' ++ [Some (dval ds)]) B' C'); [|exact HA|exact Ho|exact HB|rewrite app_length; cbn [length]; lia|cbn [length] in HB'; lia|lia].
    f_equal. f_equal. rewrite <- app_assoc. reflexivity.
  - destruct B as [|x B]; [discriminate|]. cbn [gexec g_off g_end app]. unfold zset. destruct (Z.ltb_spec (o + 1) 0); [lia|].
    rewrite wrap_in by (try assumption; lia).
    unfold aset. replace (Z.to_nat (o + 1)) with (length A) by lia. rewrite upd_mid. destruct (Nat.ltb_spec (length A) (length (A ++ x :: B ++ C))) as [_|Hx]; [|rewrite app_length in Hx; cbn [length] in Hx; lia].
    cbn [bind]. change (A ++ Some i :: B ++ C) with (A ++ [Some i] ++ B ++ C). rewrite (app_assoc A).
    rewrite (IH (o + 1)%Z i (A ++ [Some i]) B C A' B' C'); [|rewrite app_length; cbn [length]; lia|lia|cbn [length] in HB; lia|exact HA'|exact HB'|lia].
    f_equal. f_equal. rewrite <- app_assoc. reflexivity.
Qed.
