(** * ReaderLemmas: what the cursor functions do on known text *)

From Verif Require Import Base Reader SchedLemmas Spec.

Ltac inv H := inversion H; subst; clear H.

(** ** Text at a position *)
Fixpoint has (m : mem) (d : nat) (s : list byte) : Prop :=
  match s with
  | [] => True
  | c :: s' => nth_error (bytes m) d = Some c /\ has m (S d) s'
  end.

Lemma has_app m d a b : has m d (a ++ b) <-> has m d a /\ has m (d + length a) b.
Proof.
  revert d; induction a as [|c a IH]; intros d; cbn [app has length].
  - rewrite Nat.add_0_r; tauto.
  - rewrite IH. rewrite Nat.add_succ_r; cbn. tauto.
Qed.

Lemma has_cons m d c s : has m d (c :: s) <-> nth_error (bytes m) d = Some c /\ has m (S d) s.
Proof. reflexivity. Qed.

Lemma has_suffix m p s : bytes m = p ++ s -> has m (length p) s.
Proof.
  revert p; induction s as [|c s IH]; intros p H; cbn; [trivial|]. split.
  - rewrite H, nth_error_app2, Nat.sub_diag by lia; reflexivity.
  - specialize (IH (p ++ [c])). rewrite app_length, Nat.add_1_r in IH.
    apply IH. rewrite H, <- app_assoc; reflexivity.
Qed.

Lemma has_all m : has m 0 (bytes m).
Proof. apply (has_suffix m []); reflexivity. Qed.

Lemma has_len m d s : has m d s -> s <> [] -> d + length s <= flen m.
Proof.
  revert d; induction s as [|c s IH]; intros d H Hn; [congruence|].
  destruct H as [H1 H2]. cbn [length].
  destruct s as [|c' s].
  - assert (d < flen m) by (apply nth_error_Some; rewrite H1; discriminate). cbn; lia.
  - specialize (IH _ H2 ltac:(discriminate)). lia.
Qed.

Lemma load_has m d c s : has m d (c :: s) -> load m d = Ok c.
Proof. intros [H _]; unfold load; rewrite H; reflexivity. Qed.

(** ** End of file *)

(** There is at least one mapped byte after the end of the file. *)
Definition slack (m : mem) : Prop := flen m < map_len m.

Lemma load_eof m : slack m -> load m (flen m) = Ok 0%Z.
Proof.
  intros H; unfold load.
  destruct (nth_error (bytes m) (flen m)) eqn:E.
  - exfalso. assert (flen m < length (bytes m)) by (apply nth_error_Some; congruence).
    unfold flen in *; lia.
  - destruct (Nat.ltb_spec (flen m) (map_len m)); [reflexivity|].
    unfold slack in H; lia.
Qed.

(** The byte at [d] can be loaded and does not start a comment; if it is below
    the end it satisfies [stop]. *)
Definition ends (m : mem) (stop : byte -> bool) (e d : nat) : Prop :=
  exists c, load m d = Ok c /\ is_cmt c = false /\ d <= e /\ (d < e -> stop c = true).

(** ** Scanning *)
Lemma scan_n m p n d s :
  has m d s -> Forall (fun c => p c = true) s ->
  length s <= n ->
  (length s = n \/ exists c, load m (d + length s) = Ok c /\ p c = false) ->
  scan_ m p n d = Ok (d + length s).
Proof.
  revert d n; induction s as [|c s IH]; intros d n Hh Hp Hn Hs; cbn [length] in *.
  - rewrite Nat.add_0_r in *. destruct n as [|n]; [reflexivity|].
    destruct Hs as [|(c & Hl & Hc)]; [lia|]. cbn. rewrite Hl; cbn. rewrite Hc; reflexivity.
  - destruct n as [|n]; [lia|]. inv Hp. cbn [scan_].
    rewrite (load_has _ _ _ _ Hh). cbn [bind]. rewrite H1.
    rewrite IH.
    + f_equal; lia.
    + apply Hh.
    + assumption.
    + lia.
    + destruct Hs as [Hs|(c' & Hl & Hc)]; [left; lia|right].
      exists c'; split; [|assumption]. rewrite <- Hl; f_equal; lia.
Qed.

Lemma scan_to m p e d s :
  has m d s -> Forall (fun c => p c = true) s -> d + length s <= e ->
  (d + length s = e \/ exists c, load m (d + length s) = Ok c /\ p c = false) ->
  scan m p e d = Ok (d + length s).
Proof.
  intros Hh Hp He Hs. unfold scan. apply scan_n; [assumption..|lia|].
  destruct Hs as [Hs|Hs]; [left; lia|right; assumption].
Qed.

Lemma scan_end m p e d : e <= d -> scan m p e d = Ok d.
Proof. intros H; unfold scan. replace (e - d) with 0 by lia. reflexivity. Qed.

Lemma scan_stop m p e d c : load m d = Ok c -> p c = false -> scan m p e d = Ok d.
Proof.
  intros Hl Hc; unfold scan. destruct (e - d); [reflexivity|]. cbn. rewrite Hl; cbn. rewrite Hc; reflexivity.
Qed.

(** ** Comments *)
Lemma skip_line_nl m n d body s :
  has m d (body ++ ch_nl :: s) -> Forall (fun b => is_nl b = false) body ->
  length body < n -> skip_line_ m n d = Ok (d + length body + 1).
Proof.
  revert d n; induction body as [|c body IH]; intros d n Hh Hb Hn.
  - destruct n as [|n]; [cbn in Hn; lia|]. cbn in *. unfold load. rewrite (proj1 Hh). cbn. f_equal; lia.
  - destruct n as [|n]; [cbn in Hn; lia|]. cbn [skip_line_ length app] in *. inv Hb.
    rewrite (load_has _ _ _ _ Hh). cbn [bind]. rewrite H1. rewrite IH.
    + f_equal; lia.
    + apply Hh.
    + assumption.
    + lia.
Qed.

Lemma skip_line_eof m n d body :
  has m d body -> Forall (fun b => is_nl b = false) body ->
  length body = n -> skip_line_ m n d = Ok (d + n).
Proof.
  revert d n; induction body as [|c body IH]; intros d n Hh Hb Hn; cbn [length] in Hn; subst n.
  - cbn; f_equal; lia.
  - cbn [skip_line_]. inv Hb. rewrite (load_has _ _ _ _ Hh). cbn [bind]. rewrite H1.
    erewrite IH; [|apply Hh|assumption|reflexivity]. f_equal; lia.
Qed.

Lemma skip_line_prog m n d d' c :
  0 < n -> load m d = Ok c -> skip_line_ m n d = Ok d' -> d < d' <= d + n.
Proof.
  assert (G : forall n d d', skip_line_ m n d = Ok d' -> d <= d' <= d + n).
  { clear. induction n as [|n IH]; intros d d' H; cbn in H.
    - inv H; lia.
    - destruct (load m d) as [c| | |]; cbn in H; try discriminate.
      destruct (is_nl c); [inv H; lia|]. apply IH in H; lia. }
  intros Hn Hl H. destruct n as [|n]; [lia|]. cbn in H. rewrite Hl in H; cbn in H.
  destruct (is_nl c); [inv H; lia|]. apply G in H; lia.
Qed.

Lemma cmt_not_nl c : is_cmt c = true -> is_nl c = false.
Proof.
  unfold is_cmt, is_nl, ch_pct, ch_hash, ch_nl. destruct (c =? 37)%Z eqn:E1; destruct (c =? 35)%Z eqn:E2; cbn; try discriminate; intros _; lia.
Qed.

Lemma digit_not_cmt c : is_digit c = true -> is_cmt c = false.
Proof. unfold is_digit, is_cmt, ch_0, ch_9, ch_pct, ch_hash. lia. Qed.
Lemma digit_not_nl c : is_digit c = true -> is_nl c = false.
Proof. unfold is_digit, is_nl, ch_0, ch_9, ch_nl. lia. Qed.

Lemma skip_comments_fuel m e f1 f2 d :
  e - d < f1 -> e - d < f2 -> skip_comments_ m e f1 d = skip_comments_ m e f2 d.
Proof.
  revert f2 d; induction f1 as [|f1 IH]; intros f2 d H1 H2; [lia|].
  destruct f2 as [|f2]; [lia|]. cbn [skip_comments_].
  destruct (Nat.ltb_spec d e) as [Hd|Hd]; [|reflexivity].
  destruct (load m d) as [c| | |] eqn:El; cbn [bind]; try reflexivity.
  destruct (is_cmt c); [|reflexivity].
  destruct (skip_line_ m (e - d) d) as [d'| | |] eqn:Es; cbn [bind]; try reflexivity.
  eapply skip_line_prog in Es; [|lia|exact El]. apply IH; lia.
Qed.

Lemma skip_comments_step m e d c d' :
  d < e -> load m d = Ok c -> is_cmt c = true -> skip_line_ m (e - d) d = Ok d' ->
  skip_comments m e d = skip_comments m e d'.
Proof.
  intros Hd Hl Hc Hs. unfold skip_comments at 1. cbn [skip_comments_].
  destruct (Nat.ltb_spec d e); [|lia]. rewrite Hl; cbn [bind]. rewrite Hc, Hs; cbn [bind].
  assert (Hn : 0 < e - d) by lia. pose proof (skip_line_prog _ _ _ _ _ Hn Hl Hs).
  unfold skip_comments. apply skip_comments_fuel; lia.
Qed.

Lemma skip_comments_here_eq m e d c :
  load m d = Ok c -> (d < e \/ is_cmt c = false) ->
  skip_comments_here m e d = skip_comments m e d.
Proof.
  intros Hl Hor. unfold skip_comments_here. rewrite Hl; cbn [bind].
  destruct (is_cmt c) eqn:Ec; [reflexivity|].
  unfold skip_comments. cbn [skip_comments_].
  destruct (Nat.ltb_spec d e); [|reflexivity]. rewrite Hl; cbn [bind]. rewrite Ec; reflexivity.
Qed.

(** Loading from within, or right after, a stretch of known text. *)
Lemma load_front m stop e d g :
  has m d g -> ends m stop e (d + length g) -> exists c, load m d = Ok c.
Proof.
  destruct g as [|c g]; intros Hh (c' & Hl & _); cbn [length] in *.
  - rewrite Nat.add_0_r in Hl; eauto.
  - exists c; eapply load_has; exact Hh.
Qed.

(** A gap for an arbitrary stopping test. *)
Inductive gapS (stop : byte -> bool) (fin : bool) : list byte -> Prop :=
| gapS_nil : gapS stop fin []
| gapS_junk c s : stop c = false -> is_cmt c = false -> gapS stop fin s -> gapS stop fin (c :: s)
| gapS_cmt c body s : is_cmt c = true -> Forall (fun b => is_nl b = false) body ->
    gapS stop fin s -> gapS stop fin (c :: body ++ ch_nl :: s)
| gapS_eof c body : fin = true -> is_cmt c = true -> Forall (fun b => is_nl b = false) body ->
    gapS stop fin (c :: body).

Lemma gap_gapS fin s : gap fin s -> gapS is_digit fin s.
Proof. induction 1; [apply gapS_nil|apply gapS_junk|apply gapS_cmt|apply gapS_eof]; assumption. Qed.

Lemma gapS_app stop fin a b : gapS stop false a -> gapS stop fin b -> gapS stop fin (a ++ b).
Proof.
  induction 1; intros Hb; cbn [app]; [assumption| | |discriminate].
  - apply gapS_junk; auto.
  - rewrite <- app_assoc; cbn [app]. apply gapS_cmt; auto.
Qed.

Lemma seek_gap m stop fin e g : gapS stop fin g -> forall d fuel,
  has m d g -> ends m stop e (d + length g) -> (fin = true -> d + length g = e) ->
  d + length g - d < fuel ->
  bind (skip_comments_here m e d) (seek_ m stop e fuel) = Ok (d + length g).
Proof.
  induction 1 as [|c s Hst Hc Hg IH|c body s Hc Hb Hg IH|c body Hfin Hc Hb];
    intros d fuel Hh He Hf Hfu.
  - cbn [length] in *. rewrite Nat.add_0_r in *. destruct He as (c & Hl & Hc & Hle & Hst).
    unfold skip_comments_here. rewrite Hl; cbn [bind]. rewrite Hc. cbn [bind].
    destruct fuel as [|fuel]; [lia|]. cbn [seek_].
    destruct (Nat.ltb_spec d e) as [Hd|Hd]; [|reflexivity].
    rewrite Hl; cbn [bind]. rewrite (Hst Hd). reflexivity.
  - pose proof (load_has _ _ _ _ Hh) as Hl. cbn [length] in *.
    unfold skip_comments_here at 1. rewrite Hl; cbn [bind]. rewrite Hc. cbn [bind].
    destruct fuel as [|fuel]; [lia|]. cbn [seek_].
    assert (Hd : d < e) by (destruct He as (? & _ & _ & ? & _); lia).
    destruct (Nat.ltb_spec d e); [|lia].
    rewrite Hl; cbn [bind]. rewrite Hst.
    replace (d + S (length s)) with (S d + length s) in * by lia.
    apply IH; [apply Hh|exact He|exact Hf|lia].
  - pose proof (load_has _ _ _ _ Hh) as Hl.
    replace (d + length (c :: body ++ ch_nl :: s)) with
      (d + length (c :: body) + 1 + length s) in *
      by (cbn [length]; rewrite app_length; cbn [length]; lia).
    assert (Hle : d + length (c :: body) + 1 + length s <= e) by (destruct He as (? & _ & _ & ? & _); lia).
    cbn [length] in Hle.
    assert (Hh2 : has m (d + length (c :: body) + 1) s).
    { change (c :: body ++ ch_nl :: s) with ((c :: body) ++ ch_nl :: s) in Hh.
      apply has_app in Hh as [_ [_ Hh]]. replace (d + length (c :: body) + 1) with (S (d + length (c :: body))) by lia. exact Hh. }
    assert (Hs : skip_line_ m (e - d) d = Ok (d + length (c :: body) + 1)).
    { eapply skip_line_nl with (s := s); [exact Hh| |cbn [length]; lia].
      constructor; [apply cmt_not_nl; exact Hc|exact Hb]. }
    rewrite (skip_comments_here_eq _ _ _ _ Hl) by (left; cbn [length] in *; lia).
    assert (Hd : d < e) by lia.
    rewrite (skip_comments_step _ _ _ _ _ Hd Hl Hc Hs).
    destruct (load_front _ _ _ _ _ Hh2 He) as [c2 Hl2].
    rewrite <- (skip_comments_here_eq _ _ _ _ Hl2).
    + apply IH; [exact Hh2|exact He|exact Hf|cbn [length] in *; lia].
    + destruct s as [|c3 s]; [|left; cbn [length] in *; lia].
      cbn [length] in He, Hl2. rewrite Nat.add_0_r in He. destruct He as (c4 & Hl4 & Hc4 & _).
      right. congruence.
  - pose proof (load_has _ _ _ _ Hh) as Hl. specialize (Hf Hfin).
    assert (Hd : d < e) by (cbn [length] in Hf; lia).
    assert (Hs : skip_line_ m (e - d) d = Ok (d + (e - d))).
    { eapply skip_line_eof; [exact Hh| |lia]. constructor; [apply cmt_not_nl; exact Hc|exact Hb]. }
    rewrite (skip_comments_here_eq _ _ _ _ Hl) by (left; lia).
    rewrite (skip_comments_step _ _ _ _ _ Hd Hl Hc Hs).
    replace (d + (e - d)) with e by lia. rewrite Hf.
    unfold skip_comments. replace (e - e) with 0 by lia. cbn [skip_comments_].
    rewrite Nat.ltb_irrefl. cbn [bind].
    destruct fuel as [|fuel]; [lia|]. cbn [seek_]. rewrite Nat.ltb_irrefl. reflexivity.
Qed.

Lemma seek_fuel m stop e f1 f2 d :
  e - d < f1 -> e - d < f2 -> seek_ m stop e f1 d = seek_ m stop e f2 d.
Proof.
  assert (SC : forall f d d', e - d < f -> skip_comments_ m e f d = Ok d' -> d <= d').
  { clear. induction f as [|f IH]; intros d d' Hf H; cbn [skip_comments_] in H; [discriminate|].
    destruct (Nat.ltb_spec d e) as [Hd|Hd]; [|inv H; lia].
    destruct (load m d) as [c| | |] eqn:El; cbn [bind] in H; try discriminate.
    destruct (is_cmt c); [|inv H; lia].
    destruct (skip_line_ m (e - d) d) as [d2| | |] eqn:Es; cbn [bind] in H; try discriminate.
    eapply skip_line_prog in Es; [|lia|exact El]. apply IH in H; lia. }
  revert f2 d; induction f1 as [|f1 IH]; intros f2 d H1 H2; [lia|].
  destruct f2 as [|f2]; [lia|]. cbn [seek_].
  destruct (Nat.ltb_spec d e) as [Hd|Hd]; [|reflexivity].
  destruct (load m d) as [c| | |] eqn:El; cbn [bind]; try reflexivity.
  destruct (stop c); [reflexivity|].
  destruct (skip_comments_here m e (S d)) as [d'| | |] eqn:Es; cbn [bind]; try reflexivity.
  assert (S d <= d').
  { unfold skip_comments_here in Es. destruct (load m (S d)) as [c'| | |]; cbn [bind] in Es; try discriminate.
    destruct (is_cmt c'); [|inv Es; lia]. eapply SC; [|exact Es]. lia. }
  apply IH; lia.
Qed.

Lemma skip_comments_ge m e d d' : skip_comments m e d = Ok d' -> d <= d'.
Proof.
  unfold skip_comments. intros H.
  assert (SC : forall f d d', e - d < f -> skip_comments_ m e f d = Ok d' -> d <= d').
  { clear. induction f as [|f IH]; intros d d' Hf H; cbn [skip_comments_] in H; [discriminate|].
    destruct (Nat.ltb_spec d e) as [Hd|Hd]; [|inv H; lia].
    destruct (load m d) as [c| | |] eqn:El; cbn [bind] in H; try discriminate.
    destruct (is_cmt c); [|inv H; lia].
    destruct (skip_line_ m (e - d) d) as [d2| | |] eqn:Es; cbn [bind] in H; try discriminate.
    eapply skip_line_prog in Es; [|lia|exact El]. apply IH in H; lia. }
  eapply SC; [|exact H]. lia.
Qed.

Lemma skip_comments_here_ge m e d d' : skip_comments_here m e d = Ok d' -> d <= d'.
Proof.
  unfold skip_comments_here. destruct (load m d) as [c| | |]; cbn [bind]; try discriminate.
  destruct (is_cmt c); intros H; [eapply skip_comments_ge; exact H|inv H; lia].
Qed.

(** ** The cursor functions on a gap *)
Lemma seek_from m stop fin e d g :
  gapS stop fin g -> has m d g -> ends m stop e (d + length g) ->
  (fin = true -> d + length g = e) ->
  bind (skip_comments_here m e d) (fun d1 => seek_ m stop e (S (e - d1)) d1) = Ok (d + length g).
Proof.
  intros Hg Hh He Hf.
  assert (Hle : d + length g <= e) by (destruct He as (? & _ & _ & ? & _); lia).
  rewrite <- (seek_gap m stop fin e g Hg d (S (e - d)) Hh He Hf) by lia.
  destruct (skip_comments_here m e d) as [d1| | |] eqn:E; cbn [bind]; try reflexivity.
  apply skip_comments_here_ge in E. apply seek_fuel; lia.
Qed.

Lemma move_to_first_int_gap m fin e d g :
  gap fin g -> has m d g -> ends m is_digit e (d + length g) ->
  (fin = true -> d + length g = e) ->
  move_to_first_int m e d = Ok (d + length g).
Proof. intros Hg. apply seek_from with (fin := fin). apply gap_gapS; exact Hg. Qed.


Lemma cmt_not_digit c : is_cmt c = true -> is_digit c = false.
Proof. unfold is_digit, is_cmt, ch_0, ch_9, ch_pct, ch_hash. lia. Qed.

Lemma gap_head fin c g : gap fin (c :: g) -> is_digit c = false.
Proof. intros H; inv H; auto using cmt_not_digit. Qed.

(** After a possibly empty run of digits, a gap. *)
Lemma move_to_next_int_gap m fin e d ds g :
  Forall (fun c => is_digit c = true) ds -> gap fin g ->
  has m d (ds ++ g) -> ends m is_digit e (d + length ds + length g) ->
  (g <> [] \/ d + length ds = e) ->
  (fin = true -> d + length ds + length g = e) ->
  move_to_next_int m e d = Ok (d + length ds + length g).
Proof.
  intros Hd Hg Hh He Hne Hf. unfold move_to_next_int, move_to_non_int.
  apply has_app in Hh as [Hh1 Hh2].
  assert (Hle : d + length ds + length g <= e) by (destruct He as (? & _ & _ & ? & _); lia).
  rewrite (scan_to m is_digit e d ds Hh1 Hd ltac:(lia)).
  - cbn [bind]. apply move_to_first_int_gap with (fin := fin); assumption.
  - destruct Hne as [Hne|Hne]; [right|left; exact Hne].
    destruct g as [|c g]; [congruence|]. exists c; split.
    + eapply load_has; exact Hh2.
    + eapply gap_head; exact Hg.
Qed.

Lemma move_to_next_int_end m e c :
  load m e = Ok c -> is_cmt c = false -> move_to_next_int m e e = Ok e.
Proof.
  intros Hl Hc. pose proof (move_to_next_int_gap m false e e [] []) as H.
  cbn [length app] in H. rewrite !Nat.add_0_r in H. apply H; [constructor|apply gap_nil|exact Logic.I| |right; reflexivity|discriminate].
  exists c; repeat split; auto; lia.
Qed.

(** ** Separators *)
Lemma separator_gap fin s : separator s -> gap fin s.
Proof.
  intros [_ H]. induction H as [|c s (H1 & H2 & H3) Hs IH]; [constructor|].
  apply gap_junk; assumption.
Qed.

Lemma move_to_next_int_sep m e d s c :
  separator s -> has m d s -> load m (d + length s) = Ok c -> is_digit c = true ->
  d + length s < e -> move_to_next_int m e d = Ok (d + length s).
Proof.
  intros Hs Hh Hl Hc He.
  pose proof (move_to_next_int_gap m false e d [] s) as H.
  cbn [length app] in H. rewrite !Nat.add_0_r in H. apply H; [constructor|apply separator_gap; exact Hs|exact Hh| |left; apply Hs|discriminate].
  exists c; repeat split; auto using digit_not_cmt; lia.
Qed.

Lemma move_to_next_int_dsep m e d ds s c :
  Forall (fun c => is_digit c = true) ds ->
  separator s -> has m d (ds ++ s) -> load m (d + length ds + length s) = Ok c -> is_digit c = true ->
  d + length ds + length s < e -> move_to_next_int m e d = Ok (d + length ds + length s).
Proof.
  intros Hds Hs Hh Hl Hc He.
  apply (move_to_next_int_gap m false e d ds s); [exact Hds|apply separator_gap; exact Hs|exact Hh| |left; apply Hs|discriminate].
  exists c; repeat split; auto using digit_not_cmt; lia.
Qed.

(** ** Reading an integer *)

(** What [read_int] returns on the digit string [ds], starting from [acc]. *)
Fixpoint read_val (t : ity) (acc : Z) (ds : list byte) : res Z :=
  match ds with
  | [] => Ok acc
  | c :: ds' => acc' <- arith t (acc * 10 + (c - ch_0))%Z ;; read_val t acc' ds'
  end.

Lemma read_digits_val m t n d acc ds :
  has m d ds -> Forall (fun c => is_digit c = true) ds -> length ds <= n ->
  (length ds = n \/ exists c, load m (d + length ds) = Ok c /\ is_digit c = false) ->
  read_digits_ m t n d acc = (v <- read_val t acc ds ;; Ok (v, d + length ds)).
Proof.
  revert d n acc; induction ds as [|c ds IH]; intros d n acc Hh Hp Hn Hs; cbn [length] in *.
  - rewrite Nat.add_0_r in *. destruct n as [|n]; [reflexivity|].
    destruct Hs as [|(c & Hl & Hc)]; [lia|]. cbn. rewrite Hl; cbn. rewrite Hc; reflexivity.
  - destruct n as [|n]; [lia|]. inv Hp. cbn [read_digits_ read_val].
    rewrite (load_has _ _ _ _ Hh). cbn [bind]. rewrite H1, bind_assoc.
    apply bind_ext; intros acc'. rewrite IH.
    + apply bind_ext; intros v. f_equal; f_equal; lia.
    + apply Hh.
    + assumption.
    + lia.
    + destruct Hs as [Hs|(c' & Hl & Hc)]; [left; lia|right].
      exists c'; split; [|assumption]. rewrite <- Hl; f_equal; lia.
Qed.

Lemma read_int_gen m t e d junk ds :
  has m d (junk ++ ds) -> Forall (fun c => is_digit c = false) junk ->
  Forall (fun c => is_digit c = true) ds ->
  d + length junk + length ds <= e ->
  (d + length junk + length ds = e \/ (exists c, load m (d + length junk + length ds) = Ok c /\
     is_digit c = false) /\ ds <> []) ->
  read_int m t e d = (v <- read_val t 0 ds ;; Ok (v, d + length junk + length ds)).
Proof.
  intros Hh Hj Hd He Hs. apply has_app in Hh as [Hh1 Hh2]. unfold read_int.
  rewrite (scan_to m _ e d junk Hh1).
  - cbn [bind]. rewrite (read_digits_val m t _ _ _ ds Hh2 Hd); [reflexivity|lia|].
    destruct Hs as [Hs|[Hs _]]; [left; lia|right; exact Hs].
  - eapply Forall_impl; [|exact Hj]. cbn; intros c Hc; rewrite Hc; reflexivity.
  - lia.
  - destruct ds as [|c ds].
    + left. cbn [length] in *. destruct Hs as [Hs|[_ Hs]]; [lia|congruence].
    + right. exists c; split; [eapply load_has; exact Hh2|]. inv Hd. rewrite H1; reflexivity.
Qed.

Lemma read_int_digits m t e d ds c :
  has m d ds -> digits ds -> d + length ds < e ->
  load m (d + length ds) = Ok c -> is_digit c = false ->
  read_int m t e d = (v <- read_val t 0 ds ;; Ok (v, d + length ds)).
Proof.
  intros Hh [Hn Hd] He Hl Hc. rewrite (read_int_gen m t e d [] ds); cbn [length app].
  - rewrite Nat.add_0_r. reflexivity.
  - exact Hh.
  - constructor.
  - exact Hd.
  - lia.
  - right; split; [|exact Hn]. rewrite Nat.add_0_r. eauto.
Qed.

Lemma read_int_end m t e d : e <= d -> read_int m t e d = Ok (0%Z, d).
Proof.
  intros H; unfold read_int. rewrite scan_end by lia. cbn [bind].
  replace (e - d) with 0 by lia. reflexivity.
Qed.

(** ** Machine arithmetic *)
Lemma ity_facts t : is_ity t -> (0 <= imax t)%Z /\ (imin t <= 0)%Z /\ (127 <= imax t)%Z.
Proof. unfold is_ity; cbn [In]; intuition; subst; cbn; lia. Qed.

Lemma wrap_in t z : is_ity t -> (imin t <= z <= imax t)%Z -> wrap t z = z.
Proof.
  unfold is_ity; cbn [In]; intros Ht Hz.
  repeat (destruct Ht as [<-|Ht]);
    [..|contradiction]; unfold wrap, imin, imax in *; cbn in Hz |- *;
    rewrite Z.mod_small; lia.
Qed.

Lemma arith_in t z : is_ity t -> (imin t <= z <= imax t)%Z -> arith t z = Ok z.
Proof.
  intros Ht Hz. unfold arith. rewrite (wrap_in t z Ht Hz).
  assert (inrange t z = true) by (unfold inrange; lia).
  rewrite H. destruct (ibits t <? 32)%Z; [reflexivity|]. destruct (isigned t); reflexivity.
Qed.

Definition dval_from (acc : Z) (ds : list byte) : Z :=
  fold_left (fun a c => a * 10 + (c - ch_0))%Z ds acc.

Lemma digit_range c : is_digit c = true -> (0 <= c - ch_0 <= 9)%Z.
Proof. unfold is_digit, ch_0, ch_9; lia. Qed.

Lemma dval_from_ge acc ds :
  Forall (fun c => is_digit c = true) ds -> (0 <= acc)%Z -> (acc <= dval_from acc ds)%Z.
Proof.
  intros H; revert acc; induction H as [|c ds Hc Hd IH]; intros acc Ha; unfold dval_from in *; cbn [fold_left].
  - lia.
  - pose proof (digit_range _ Hc). specialize (IH (acc * 10 + (c - ch_0))%Z ltac:(lia)). lia.
Qed.

Lemma dval_nonneg ds : Forall (fun c => is_digit c = true) ds -> (0 <= dval ds)%Z.
Proof. intros H. apply (dval_from_ge 0 ds H). lia. Qed.

Lemma read_val_fit_from t acc ds :
  is_ity t -> Forall (fun c => is_digit c = true) ds -> (0 <= acc)%Z ->
  (dval_from acc ds <= imax t)%Z -> read_val t acc ds = Ok (dval_from acc ds).
Proof.
  intros Ht H; revert acc; induction H as [|c ds Hc Hd IH]; intros acc Ha Hm; [reflexivity|].
  cbn [read_val]. unfold dval_from in Hm; cbn [fold_left] in Hm.
  pose proof (digit_range _ Hc). pose proof (ity_facts t Ht).
  pose proof (dval_from_ge (acc * 10 + (c - ch_0)) ds Hd ltac:(lia)) as Hge.
  unfold dval_from in Hge.
  rewrite arith_in by (try assumption; lia). cbn [bind].
  rewrite IH; [reflexivity|lia|exact Hm].
Qed.

Lemma read_val_fit t ds :
  is_ity t -> Forall (fun c => is_digit c = true) ds ->
  (dval ds <= imax t)%Z -> read_val t 0 ds = Ok (dval ds).
Proof. intros Ht Hd Hm. apply (read_val_fit_from t 0 ds Ht Hd); [lia|exact Hm]. Qed.

(** Without signed overflow, the result is the value modulo [2^bits]. *)
Lemma arith_unsigned t z : isigned t = false -> arith t z = Ok (z mod 2 ^ ibits t)%Z.
Proof. intros H; unfold arith, wrap; rewrite H. destruct (ibits t <? 32)%Z; reflexivity. Qed.

(** ** End of line *)
Lemma move_to_eol_to m e d s :
  Forall (fun c => is_nl c = false) s -> has m d s -> load m (d + length s) = Ok ch_nl ->
  d + length s <= e -> move_to_eol m e d = Ok (d + length s).
Proof.
  intros Hs Hh Hl He. unfold move_to_eol. apply scan_to; [exact Hh| |exact He|right; eauto].
  eapply Forall_impl; [|exact Hs]. cbn; intros c Hc; rewrite Hc; reflexivity.
Qed.
