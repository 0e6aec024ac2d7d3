(** * CooLemmas: the edge-list reader on well-formed text *)

From Verif Require Import Base Reader Sched SchedLemmas Spec ReaderLemmas Coo.

(** The part of a line before its newline. *)
Definition lhead (l : line) : list byte := l_x l ++ l_sep l ++ l_y l ++ l_post l.

Lemma line_text_eq l : line_text l = lhead l ++ ch_nl :: l_gap l.
Proof. unfold line_text, lhead. rewrite <- !app_assoc. reflexivity. Qed.

Lemma line_text_len l : length (line_text l) = length (lhead l) + 1 + length (l_gap l).
Proof. rewrite line_text_eq, app_length; cbn [length]; lia. Qed.

Lemma lhead_len l :
  length (lhead l) = length (l_x l) + length (l_sep l) + length (l_y l) + length (l_post l).
Proof. unfold lhead. rewrite !app_length; lia. Qed.

Lemma digits_nl ds : digits ds -> Forall (fun c => is_nl c = false) ds.
Proof. intros [_ H]. eapply Forall_impl; [|exact H]. intros c; apply digit_not_nl. Qed.

Lemma sep_nl s : separator s -> Forall (fun c => is_nl c = false) s.
Proof. intros [_ H]. eapply Forall_impl; [|exact H]. intros c (_ & H1 & _); exact H1. Qed.

Lemma lhead_nl fin l : wf_line fin l -> Forall (fun c => is_nl c = false) (lhead l).
Proof.
  intros (H1 & H2 & H3 & [H4 _] & _). unfold lhead.
  repeat (apply Forall_app; split); auto using digits_nl, sep_nl.
Qed.

Lemma gap_nl_cons fin g : gap fin g -> gap fin (ch_nl :: g).
Proof. intros H; apply gap_junk; [reflexivity|reflexivity|exact H]. Qed.

(** [next_line] from anywhere before the newline that ends a line. *)
Lemma next_line_from m fin e d s g :
  Forall (fun c => is_nl c = false) s -> gap fin g ->
  has m d (s ++ ch_nl :: g) -> ends m is_digit e (d + length s + 1 + length g) ->
  (fin = true -> d + length s + 1 + length g = e) ->
  next_line m e d = Ok (d + length s + 1 + length g).
Proof.
  intros Hs Hg Hh He Hf. apply has_app in Hh as [Hh1 Hh2].
  assert (Hle : d + length s + 1 + length g <= e) by (destruct He as (? & _ & _ & ? & _); lia).
  unfold next_line. rewrite (move_to_eol_to m e d s Hs Hh1) by (try lia; eapply load_has; exact Hh2).
  cbn [bind].
  replace (d + length s + 1 + length g) with (d + length s + length (@nil byte) + length (ch_nl :: g)) in *
    by (cbn [length]; lia).
  apply move_to_next_int_gap with (fin := fin).
  - constructor.
  - apply gap_nl_cons; exact Hg.
  - exact Hh2.
  - exact He.
  - left; discriminate.
  - exact Hf.
Qed.

Lemma skipn_forall {A} (P : A -> Prop) k l : Forall P l -> Forall P (skipn k l).
Proof.
  intros H. rewrite <- (firstn_skipn k l) in H. apply Forall_app in H as [_ H]; exact H.
Qed.

Lemma has_skipn m d k s t : k <= length s -> has m d (s ++ t) -> has m (d + k) (skipn k s ++ t).
Proof.
  intros Hk H. rewrite <- (firstn_skipn k s), <- app_assoc in H. apply has_app in H as [_ H].
  rewrite firstn_length_le in H by lia. exact H.
Qed.

Lemma next_line_in m fin e d l k :
  wf_line fin l -> has m d (line_text l) -> ends m is_digit e (d + length (line_text l)) ->
  (fin = true -> d + length (line_text l) = e) -> k <= length (lhead l) ->
  next_line m e (d + k) = Ok (d + length (line_text l)).
Proof.
  intros Hw Hh He Hf Hk. rewrite line_text_len in *. rewrite line_text_eq in Hh.
  apply (has_skipn _ _ k) in Hh; [|exact Hk].
  replace (d + (length (lhead l) + 1 + length (l_gap l))) with
    (d + k + length (skipn k (lhead l)) + 1 + length (l_gap l)) in *
    by (rewrite skipn_length; lia).
  apply next_line_from with (fin := fin).
  - apply skipn_forall. eapply lhead_nl; exact Hw.
  - apply Hw.
  - exact Hh.
  - exact He.
  - exact Hf.
Qed.

(** ** Weights *)

(** The weight reader [w] finds the value [v] in the rest of a line [post]. *)
Definition wok {W} (w : wrd W) (post : list byte) (v : W) : Prop :=
  forall m e d, has m d post -> load m (d + length post) = Ok ch_nl -> d + length post < e ->
    (exists d', w_read w m e d = Ok (v, d') /\ d <= d' <= d + length post) /\
    (exists d', w_count w m e d = Ok d' /\ d <= d' <= d + length post).

(** At the end of its range it stays there. *)
Definition wend {W} (w : wrd W) : Prop :=
  forall m e c, load m e = Ok c -> (c = 0%Z \/ is_digit c = true) ->
    (exists v, w_read w m e e = Ok (v, e)) /\ w_count w m e e = Ok e.

Definition owok {W} (wr : option (wrd W)) (post : list byte) (v : W) : Prop :=
  match wr with None => True | Some w => wok w post v end.
Definition owend {W} (wr : option (wrd W)) : Prop :=
  match wr with None => True | Some w => wend w end.

Lemma load_in m d a c b : has m d (a ++ c :: b) -> load m (d + length a) = Ok c.
Proof. intros H; apply has_app in H as [_ H]; eapply load_has; exact H. Qed.

Lemma forall_hd {A} (P : A -> Prop) c l : Forall P (c :: l) -> P c.
Proof. intros H; inversion H; assumption. Qed.

Section Line.
  Context {W : Type}.
  Variable L : ity.
  Hypothesis HL : is_ity L.
  Variable wr : option (wrd W).
  Variable fl : flags.
  Variable m : mem.
  Variable e : nat.

  Let sym := f_sym fl.
  Let ut := f_ut fl.
  Let sl := f_sl fl.

  (** A data line with its weight. *)
  Definition ent (p : line * W) : Z * Z * W := (dval (l_x (fst p)), dval (l_y (fst p)), snd p).

  Record at_line (fin : bool) (d : nat) (p : line * W) : Prop := {
    al_wf : wf_line fin (fst p);
    al_x : (dval (l_x (fst p)) <= imax L)%Z;
    al_y : (dval (l_y (fst p)) <= imax L)%Z;
    al_w : owok wr (l_post (fst p)) (snd p);
    al_has : has m d (line_text (fst p));
    al_ends : ends m is_digit e (d + length (line_text (fst p)));
    al_fin : fin = true -> d + length (line_text (fst p)) = e
  }.

  Lemma read_xy_at fin d p : at_line fin d p ->
    read_xy L m e d = Ok (dval (l_x (fst p)), dval (l_y (fst p)),
                          d + length (l_x (fst p)) + length (l_sep (fst p)) + length (l_y (fst p))).
  Proof.
    intros [Hw Hx Hy _ Hh He _]. destruct p as [l w]; cbn [fst snd] in *.
    rewrite line_text_len, lhead_len in He.
    assert (Hle : d + (length (l_x l) + length (l_sep l) + length (l_y l) + length (l_post l) + 1 + length (l_gap l)) <= e)
      by (destruct He as (? & _ & _ & ? & _); lia).
    destruct Hw as (H1 & H2 & H3 & [H4 H4'] & H5).
    unfold line_text in Hh. unfold read_xy.
    (* x *)
    destruct (l_sep l) as [|cs sp] eqn:Es; [destruct H2; congruence|].
    pose proof Hh as Hh0. apply has_app in Hh0 as [Hx0 Hh1].
    rewrite (read_int_digits m L e d (l_x l) cs Hx0 H1).
    2:{ cbn [length] in *; lia. }
    2:{ cbn [app] in Hh1. eapply load_has; exact Hh1. }
    2:{ destruct H2 as [_ H2]. apply forall_hd in H2. apply H2. }
    rewrite (read_val_fit L _ HL (proj2 H1) Hx). cbn [bind].
    (* separator *)
    destruct (l_y l) as [|cy ys] eqn:Ey; [destruct H3; congruence|].
    assert (Hh2 : has m (d + length (l_x l)) (cs :: sp) /\ has m (d + length (l_x l) + length (cs :: sp)) ((cy :: ys) ++ l_post l ++ ch_nl :: l_gap l)).
    { apply has_app in Hh1. exact Hh1. }
    destruct Hh2 as [Hsp Hh2].
    rewrite (move_to_next_int_sep m e _ (cs :: sp) cy H2 Hsp).
    2:{ cbn [app] in Hh2. eapply load_has; exact Hh2. }
    2:{ destruct H3 as [_ H3]. apply forall_hd in H3. exact H3. }
    2:{ cbn [length] in *; lia. }
    cbn [bind].
    (* y *)
    assert (Hc : exists c, load m (d + length (l_x l) + length (cs :: sp) + length (cy :: ys)) = Ok c /\ is_digit c = false).
    { apply has_app in Hh2 as [_ Hh3]. destruct (l_post l) as [|cp ps]; cbn [app] in Hh3.
      - exists ch_nl; split; [eapply load_has; exact Hh3|reflexivity].
      - exists cp; split; [eapply load_has; exact Hh3|exact H4']. }
    destruct Hc as (c & Hl & Hc).
    assert (Hy0 : has m (d + length (l_x l) + length (cs :: sp)) (cy :: ys)) by (apply has_app in Hh2; apply Hh2).
    rewrite (read_int_digits m L e _ (cy :: ys) c Hy0 H3).
    2:{ cbn [length] in *; lia. }
    2:{ exact Hl. }
    2:{ exact Hc. }
    rewrite (read_val_fit L _ HL (proj2 H3) Hy). cbn [bind]. reflexivity.
  Qed.

  (** Where the rest of the line starts. *)
  Definition post_at (d : nat) (l : line) : nat :=
    d + length (l_x l) + length (l_sep l) + length (l_y l).

  Lemma post_has fin d p : at_line fin d p ->
    has m (post_at d (fst p)) (l_post (fst p)) /\
    load m (post_at d (fst p) + length (l_post (fst p))) = Ok ch_nl /\
    post_at d (fst p) + length (l_post (fst p)) < e.
  Proof.
    intros [Hw _ _ _ Hh He _]. destruct p as [l w]; cbn [fst snd] in *.
    rewrite line_text_len, lhead_len in He.
    assert (Hle : d + (length (l_x l) + length (l_sep l) + length (l_y l) + length (l_post l) + 1 + length (l_gap l)) <= e)
      by (destruct He as (? & _ & _ & ? & _); lia).
    unfold line_text in Hh. do 3 (apply has_app in Hh as [_ Hh]). unfold post_at.
    split; [|split].
    - apply has_app in Hh; apply Hh.
    - eapply load_in; exact Hh.
    - lia.
  Qed.

  Lemma next_line_at fin d p k : at_line fin d p ->
    d <= k -> k <= d + length (lhead (fst p)) ->
    next_line m e k = Ok (d + length (line_text (fst p))).
  Proof.
    intros [Hw _ _ _ Hh He Hf] H1 H2. replace k with (d + (k - d)) by lia.
    apply next_line_in with (fin := fin); auto; lia.
  Qed.

  Lemma post_at_len d l : post_at d l + length (l_post l) = d + length (lhead l).
  Proof. unfold post_at; rewrite lhead_len; lia. Qed.

  Lemma count_weight_at fin d p : at_line fin d p ->
    exists d2, match wr with None => Ok (post_at d (fst p)) | Some w => w_count w m e (post_at d (fst p)) end = Ok d2 /\
      d <= d2 <= d + length (lhead (fst p)) /\ d2 < e.
  Proof.
    intros Hal. destruct (post_has _ _ _ Hal) as (Hh & Hl & He).
    pose proof (post_at_len d (fst p)) as Hpl.
    pose proof (al_w _ _ _ Hal) as Hw. unfold owok in Hw.
    destruct wr as [w|].
    - destruct (Hw m e _ Hh Hl He) as [_ (d' & Hc & Hd)]. exists d'. split; [exact Hc|].
      unfold post_at in *; lia.
    - eexists; split; [reflexivity|]. unfold post_at in *; lia.
  Qed.

  Definition wcode (pos : nat) (v : W) : list (cinstr W) :=
    match wr with None => [] | Some _ => [SetW pos v] end.

  Lemma set_weight_at fin d p pos : at_line fin d p ->
    exists d2, set_weight wr m e pos (post_at d (fst p)) = Ok (d2, wcode pos (snd p)) /\
      d <= d2 <= d + length (lhead (fst p)) /\ d2 < e.
  Proof.
    intros Hal. destruct (post_has _ _ _ Hal) as (Hh & Hl & He).
    pose proof (post_at_len d (fst p)) as Hpl.
    pose proof (al_w _ _ _ Hal) as Hw. unfold owok, set_weight, wcode in *.
    destruct wr as [w|].
    - destruct (Hw m e _ Hh Hl He) as [(d' & Hc & Hd) _]. exists d'. rewrite Hc; cbn [bind].
      split; [reflexivity|]. unfold post_at in *; lia.
    - eexists; split; [reflexivity|]. unfold post_at in *; lia.
  Qed.

  Definition drop (p : line * W) : bool := dropped fl (dval (l_x (fst p))) (dval (l_y (fst p))).

  Lemma drop_expand p : drop p = true <-> expand sym ut sl (ent p) = [].
  Proof.
    unfold drop, dropped, expand, ent, sym, ut, sl.
    destruct fl as [[] [] []]; cbn [f_sym f_ut f_sl fst snd andb orb negb];
    repeat match goal with |- context[if ?b then _ else _] => destruct b end;
    cbn; split; intros H; try discriminate; reflexivity.
  Qed.

  Lemma doubled_expand p : drop p = false ->
    length (expand sym ut sl (ent p)) = if doubled fl (dval (l_x (fst p))) (dval (l_y (fst p))) then 2 else 1.
  Proof.
    unfold drop, dropped, doubled, expand, ent, sym, ut, sl.
    destruct fl as [[] [] []]; cbn [f_sym f_ut f_sl fst snd andb orb negb];
    destruct (dval (l_x (fst p)) =? dval (l_y (fst p)))%Z; cbn;
    destruct (dval (l_y (fst p)) <? dval (l_x (fst p)))%Z; cbn;
    intros H; try discriminate; reflexivity.
  Qed.

  (** ** Counting *)
  Lemma count_plain_at fin d p : at_line fin d p ->
    entry_count_plain m e d = Ok (d + length (line_text (fst p)), 1).
  Proof.
    intros Hal. unfold entry_count_plain.
    pose proof Hal as [Hw _ _ _ Hh He _]. destruct p as [l w]; cbn [fst snd] in *.
    pose proof (next_line_at fin d (l, w)) as NL; cbn [fst] in NL.
    rewrite line_text_len, lhead_len in He.
    assert (Hle : d + (length (l_x l) + length (l_sep l) + length (l_y l) + length (l_post l) + 1 + length (l_gap l)) <= e)
      by (destruct He as (? & _ & _ & ? & _); lia).
    destruct Hw as (H1 & H2 & H3 & [H4 H4'] & H5).
    unfold line_text in Hh. rewrite app_assoc in Hh.
    destruct (l_y l) as [|cy ys] eqn:Ey; [destruct H3; congruence|].
    cbn [length] in Hle.
    rewrite (move_to_next_int_dsep m e d (l_x l) (l_sep l) cy (proj2 H1) H2).
    2:{ apply has_app in Hh; apply Hh. }
    2:{ cbn [app] in Hh. rewrite <- Nat.add_assoc, <- app_length. eapply load_in; exact Hh. }
    2:{ destruct H3 as [_ H3]. apply forall_hd in H3. exact H3. }
    2:{ cbn [length] in *; lia. }
    cbn [bind]. destruct (Nat.leb_spec e (d + length (l_x l) + length (l_sep l))); [lia|].
    rewrite (NL _ Hal) by (rewrite ?lhead_len, ?Ey; cbn [length]; lia).
    cbn [bind]. reflexivity.
  Qed.

  Lemma count_flags_step fin d p fuel : at_line fin d p ->
    entry_count_flags L wr fl m e (S fuel) d =
      if drop p then entry_count_flags L wr fl m e fuel (d + length (line_text (fst p)))
      else Ok (d + length (line_text (fst p)), length (expand sym ut sl (ent p))).
  Proof.
    intros Hal. cbn [entry_count_flags].
    rewrite (read_xy_at _ _ _ Hal). cbn [bind].
    destruct (count_weight_at _ _ _ Hal) as (d2 & Hc & Hd & Hlt). unfold post_at in Hc. rewrite Hc.
    cbn [bind]. destruct (Nat.leb_spec e d2); [lia|].
    rewrite (next_line_at _ _ _ d2 Hal) by lia. cbn [bind]. fold (drop p).
    destruct (drop p) eqn:Ed; [reflexivity|]. rewrite (doubled_expand p Ed). reflexivity.
  Qed.

  (** A list of lines at [d] that ends at [e]. *)
  Fixpoint at_lines (d : nat) (ps : list (line * W)) : Prop :=
    match ps with
    | [] => d = e
    | p :: ps' => (exists fin, at_line fin d p) /\ at_lines (d + length (line_text (fst p))) ps'
    end.

  Variable ce : byte.
  Hypothesis Hce : load m e = Ok ce.
  Hypothesis Hce' : ce = 0%Z \/ is_digit ce = true.

  Lemma ce_cmt : is_cmt ce = false.
  Proof. destruct Hce' as [->|H]; [reflexivity|apply digit_not_cmt; exact H]. Qed.

  Lemma at_lines_le d ps : at_lines d ps -> d <= e.
  Proof. revert d; induction ps as [|p ps IH]; cbn; intros d H; [lia|]. destruct H as [_ H]. apply IH in H; lia. Qed.

  Lemma line_text_pos l : 0 < length (line_text l).
  Proof. rewrite line_text_len; lia. Qed.

  Lemma at_lines_lt d p ps : at_lines d (p :: ps) -> d < e.
  Proof. intros [_ H]. apply at_lines_le in H. pose proof (line_text_pos (fst p)). lia. Qed.

  Lemma read_xy_end : read_xy L m e e = Ok (0%Z, 0%Z, e).
  Proof.
    unfold read_xy. rewrite (read_int_end m L e e) by lia. cbn [bind].
    rewrite (move_to_next_int_end m e ce Hce ce_cmt). cbn [bind].
    rewrite (read_int_end m L e e) by lia. reflexivity.
  Qed.

  Lemma count_flags_end fuel : owend wr -> entry_count_flags L wr fl m e (S fuel) e = Ok (e, 0).
  Proof.
    intros Hwe. cbn [entry_count_flags]. rewrite read_xy_end. cbn [bind].
    assert (E : match wr with None => Ok e | Some w => w_count w m e e end = Ok e).
    { unfold owend in Hwe. destruct wr as [w|]; [|reflexivity]. apply (Hwe m e ce Hce Hce'). }
    rewrite E. cbn [bind]. rewrite Nat.leb_refl. reflexivity.
  Qed.

  (** The number of entries the lines produce. *)
  Definition total (ps : list (line * W)) : nat := length (flat_map (expand sym ut sl) (map ent ps)).

  Lemma total_cons p ps : total (p :: ps) = length (expand sym ut sl (ent p)) + total ps.
  Proof. unfold total; cbn [map flat_map]; rewrite app_length; reflexivity. Qed.

  (** With flags, one call reads up to and including the next kept line. *)
  Lemma count_flags_run ps : owend wr -> forall d fuel, at_lines d ps -> e - d < fuel ->
    exists d' c ps', entry_count_flags L wr fl m e fuel d = Ok (d', c) /\
      at_lines d' ps' /\ length ps' < S (length ps) /\ (ps <> [] -> length ps' < length ps) /\
      c + total ps' = total ps.
  Proof.
    intros Hwe. induction ps as [|p ps IH]; intros d fuel Ha Hf.
    - cbn in Ha; subst d. destruct fuel as [|fuel]; [lia|].
      exists e, 0, []. rewrite count_flags_end by exact Hwe. cbn; repeat split; auto; congruence.
    - pose proof (at_lines_lt _ _ _ Ha) as Hlt.
      destruct Ha as [[fin Hal] Ha]. destruct fuel as [|fuel]; [lia|].
      rewrite (count_flags_step _ _ _ _ Hal). destruct (drop p) eqn:Ed.
      + pose proof (line_text_pos (fst p)). pose proof (at_lines_le _ _ Ha).
        destruct (IH _ fuel Ha ltac:(lia)) as (d' & c & ps' & E & Ha' & Hlen & _ & Ht).
        exists d', c, ps'. cbn [length]. repeat split; auto; try lia.
        rewrite total_cons. apply drop_expand in Ed. unfold sym, ut, sl in *. rewrite Ed. cbn; lia.
      + eexists _, _, ps. split; [reflexivity|]. cbn [length]. repeat split; auto; try lia.
        rewrite total_cons; reflexivity.
  Qed.

  Lemma expand_noflags (x : Z * Z * W) : has_flags fl = false -> expand sym ut sl x = [x].
  Proof.
    unfold has_flags, sym, ut, sl. destruct fl as [[] [] []]; cbn; try discriminate.
    destruct x as [[x y] w]; reflexivity.
  Qed.

  Lemma count_run p ps d : owend wr -> at_lines d (p :: ps) ->
    exists d' c ps', entry_count L wr fl m e d = Ok (d', c) /\
      at_lines d' ps' /\ length ps' < length (p :: ps) /\ c + total ps' = total (p :: ps).
  Proof.
    intros Hwe Ha. unfold entry_count. destruct (has_flags fl) eqn:Ef.
    - destruct (count_flags_run (p :: ps) Hwe d (S (e - d)) Ha ltac:(lia))
        as (d' & c & ps' & E & Ha' & _ & Hlen & Ht).
      exists d', c, ps'. repeat split; auto. apply Hlen; discriminate.
    - destruct Ha as [[fin Hal] Ha]. eexists _, 1, ps.
      split; [apply (count_plain_at _ _ _ Hal)|]. split; [exact Ha|]. split; [cbn; lia|].
      rewrite total_cons. unfold sym, ut, sl. rewrite (expand_noflags _ Ef). reflexivity.
  Qed.

  Lemma count_loop_run n : owend wr -> forall ps d fuel ct,
    length ps <= n -> at_lines d ps -> length ps < fuel ->
    count_loop L wr fl m e fuel d ct = Ok (ct + total ps).
  Proof.
    intros Hwe. induction n as [|n IH]; intros ps d fuel ct Hn Ha Hf; (destruct fuel as [|fuel]; [lia|]).
    - destruct ps as [|p ps]; [|cbn in Hn; lia]. cbn in Ha; subst d. cbn [count_loop].
      rewrite Nat.ltb_irrefl. f_equal; cbn; lia.
    - destruct ps as [|p ps].
      + cbn in Ha; subst d. cbn [count_loop]. rewrite Nat.ltb_irrefl. f_equal; cbn; lia.
      + cbn [count_loop]. pose proof (at_lines_lt _ _ _ Ha).
        destruct (Nat.ltb_spec d e); [|lia].
        destruct (count_run _ _ _ Hwe Ha) as (d' & c & ps' & E & Ha' & Hlen & Ht).
        rewrite E; cbn [bind]. rewrite (IH ps' d' fuel (ct + c)) by (auto; lia).
        f_equal; lia.
  Qed.

  (** ** Setting *)
  Definition line_code (pos : nat) (p : line * W) : list (cinstr W) :=
    let x0 := dval (l_x (fst p)) in
    let y0 := dval (l_y (fst p)) in
    if drop p then wcode pos (snd p)
    else
      let swap := f_sym fl && f_ut fl && (y0 <? x0)%Z in
      let x := if swap then y0 else x0 in
      let y := if swap then x0 else y0 in
      let base := wcode pos (snd p) ++ [SetX pos x; SetY pos y] in
      if doubled fl x y
      then base ++ (match wr with None => [] | Some _ => [CopyW pos (pos + 1)] end)
                ++ [SetY (pos + 1) x; SetX (pos + 1) y]
      else base.

  Fixpoint codes (pos : nat) (ps : list (line * W)) : list (cinstr W) :=
    match ps with
    | [] => []
    | p :: ps' => line_code pos p ++ codes (pos + length (expand sym ut sl (ent p))) ps'
    end.

  (** The store performed at the end of the range when the last line is
      dropped. *)
  Definition etail (pos : nat) : list (cinstr W) :=
    match wr with
    | None => []
    | Some w => match w_read w m e e with Ok (v, _) => [SetW pos v] | _ => [] end
    end.

  Fixpoint lastdrop (ps : list (line * W)) : bool :=
    match ps with
    | [] => false
    | [p] => drop p
    | _ :: ps' => lastdrop ps'
    end.

  Definition codesT (pos : nat) (ps : list (line * W)) : list (cinstr W) :=
    codes pos ps ++ (if lastdrop ps then etail (pos + total ps) else []).

  Definition kents (ps : list (line * W)) : list (Z * Z * W) :=
    flat_map (kept sym ut sl) (map ent ps).
  Definition mxr (mr : Z) (ps : list (line * W)) : Z :=
    fold_left Z.max (map (fun e => fst (fst e)) (kents ps)) mr.
  Definition mxc (mc : Z) (ps : list (line * W)) : Z :=
    fold_left Z.max (map (fun e => snd (fst e)) (kents ps)) mc.

  Lemma kents_cons p ps : kents (p :: ps) = kept sym ut sl (ent p) ++ kents ps.
  Proof. reflexivity. Qed.

  Lemma doubled_swap x y :
    doubled fl (if f_sym fl && f_ut fl && (y <? x)%Z then y else x)
               (if f_sym fl && f_ut fl && (y <? x)%Z then x else y) = doubled fl x y.
  Proof.
    unfold doubled. destruct fl as [[] [] ?]; cbn; reflexivity.
  Qed.

  Lemma kept_drop p : drop p = true -> kept sym ut sl (ent p) = [].
  Proof. intros H. unfold kept. apply drop_expand in H. rewrite H. reflexivity. Qed.

  Lemma kept_keep p : drop p = false ->
    let x0 := dval (l_x (fst p)) in
    let y0 := dval (l_y (fst p)) in
    let swap := f_sym fl && f_ut fl && (y0 <? x0)%Z in
    kept sym ut sl (ent p) = [(if swap then y0 else x0, if swap then x0 else y0, snd p)].
  Proof.
    unfold kept, drop, dropped, expand, ent, sym, ut, sl.
    destruct fl as [[] [] []]; cbn [f_sym f_ut f_sl fst snd andb orb negb firstn];
    destruct (dval (l_x (fst p)) =? dval (l_y (fst p)))%Z; cbn;
    destruct (dval (l_y (fst p)) <? dval (l_x (fst p)))%Z; cbn;
    intros H; try discriminate; reflexivity.
  Qed.

  Lemma mxr_cons mr p ps : mxr mr (p :: ps) =
    mxr (fold_left Z.max (map (fun e => fst (fst e)) (kept sym ut sl (ent p))) mr) ps.
  Proof. unfold mxr. rewrite kents_cons, map_app, fold_left_app. reflexivity. Qed.
  Lemma mxc_cons mc p ps : mxc mc (p :: ps) =
    mxc (fold_left Z.max (map (fun e => snd (fst e)) (kept sym ut sl (ent p))) mc) ps.
  Proof. unfold mxc. rewrite kents_cons, map_app, fold_left_app. reflexivity. Qed.

  Lemma set_flags_step fin d p fuel pos mr mc : at_line fin d p ->
    entry_set_flags L wr fl m e (S fuel) d pos mr mc =
      if drop p then
        r <- entry_set_flags L wr fl m e fuel (d + length (line_text (fst p))) pos mr mc ;;
        Ok (mkEset (es_d r) (es_pos r) (line_code pos p ++ es_code r) (es_mr r) (es_mc r))
      else Ok (mkEset (d + length (line_text (fst p))) (pos + length (expand sym ut sl (ent p)))
                 (line_code pos p) (mxr mr [p]) (mxc mc [p])).
  Proof.
    intros Hal. cbn [entry_set_flags].
    rewrite (read_xy_at _ _ _ Hal). cbn [bind].
    destruct (set_weight_at _ _ _ pos Hal) as (d2 & Hc & Hd & Hlt). unfold post_at in Hc. rewrite Hc.
    cbn [bind]. destruct (Nat.leb_spec e d2); [lia|].
    rewrite (next_line_at _ _ _ d2 Hal) by lia. cbn [bind]. fold (drop p).
    unfold line_code. destruct (drop p) eqn:Ed; [reflexivity|].
    rewrite (doubled_expand p Ed). rewrite doubled_swap.
    rewrite mxr_cons, mxc_cons. pose proof (kept_keep p Ed) as Hk. cbn zeta in Hk. rewrite Hk.
    cbn [map fold_left fst snd]. unfold mxr, mxc, kents. cbn [map flat_map fold_left]. reflexivity.
  Qed.

  Lemma set_flags_end fuel pos mr mc : owend wr ->
    entry_set_flags L wr fl m e (S fuel) e pos mr mc = Ok (mkEset e pos (etail pos) mr mc).
  Proof.
    intros Hwe. cbn [entry_set_flags]. rewrite read_xy_end. cbn [bind].
    unfold set_weight, etail, owend in *.
    destruct wr as [w|].
    - destruct (Hwe m e ce Hce Hce') as [(v & Ev) _]. rewrite Ev. cbn [bind].
      rewrite Nat.leb_refl. reflexivity.
    - cbn [bind]. rewrite Nat.leb_refl. reflexivity.
  Qed.

  Lemma set_plain_at fin d p pos mr mc : has_flags fl = false -> at_line fin d p ->
    entry_set_plain L wr m e d pos mr mc =
      Ok (mkEset (d + length (line_text (fst p))) (pos + length (expand sym ut sl (ent p)))
             (line_code pos p) (mxr mr [p]) (mxc mc [p])).
  Proof.
    intros Hf Hal. unfold entry_set_plain.
    rewrite (read_xy_at _ _ _ Hal). cbn [bind].
    destruct (set_weight_at _ _ _ pos Hal) as (d2 & Hc & Hd & Hlt). unfold post_at in Hc. rewrite Hc.
    cbn [bind]. destruct (Nat.leb_spec e d2); [lia|].
    rewrite (next_line_at _ _ _ d2 Hal) by lia. cbn [bind].
    rewrite mxr_cons, mxc_cons. unfold kept. rewrite (expand_noflags _ Hf).
    assert (Hs : f_sym fl = false) by (unfold has_flags in Hf; destruct (f_sym fl); [discriminate|reflexivity]).
    assert (Ed : drop p = false).
    { unfold drop, dropped. unfold has_flags in Hf. destruct (f_sl fl), (f_ut fl); rewrite ?Hs in Hf; try discriminate Hf.
      cbn. rewrite andb_false_r. reflexivity. }
    unfold line_code, doubled. rewrite Ed, Hs.
    cbn [andb orb negb length firstn map fold_left ent fst snd]. unfold mxr, mxc, kents. cbn [map flat_map fold_left]. reflexivity.
  Qed.

  Lemma lastdrop_cons p q ps : lastdrop (p :: q :: ps) = lastdrop (q :: ps).
  Proof. reflexivity. Qed.

  Lemma codesT_cons pos p ps : drop p = false \/ ps <> [] ->
    codesT pos (p :: ps) = line_code pos p ++ codesT (pos + length (expand sym ut sl (ent p))) ps.
  Proof.
    intros H. unfold codesT. cbn [codes]. rewrite <- app_assoc. f_equal. f_equal.
    rewrite total_cons, Nat.add_assoc.
    destruct ps as [|q ps]; [|reflexivity].
    cbn [lastdrop]. destruct H as [->|H]; [reflexivity|congruence].
  Qed.

  Lemma set_flags_run ps : owend wr -> forall d fuel pos mr mc, at_lines d ps -> ps <> [] -> e - d < fuel ->
    exists r ps', entry_set_flags L wr fl m e fuel d pos mr mc = Ok r /\
      at_lines (es_d r) ps' /\ length ps' < length ps /\
      es_code r ++ codesT (es_pos r) ps' = codesT pos ps /\
      mxr (es_mr r) ps' = mxr mr ps /\ mxc (es_mc r) ps' = mxc mc ps.
  Proof.
    intros Hwe. induction ps as [|p ps IH]; intros d fuel pos mr mc Ha Hne Hf; [congruence|].
    pose proof (at_lines_lt _ _ _ Ha) as Hlt.
    destruct Ha as [[fin Hal] Ha]. destruct fuel as [|fuel]; [lia|].
    rewrite (set_flags_step _ _ _ _ _ _ _ Hal).
    pose proof (line_text_pos (fst p)) as Hpos. pose proof (at_lines_le _ _ Ha) as Hle.
    destruct (drop p) eqn:Ed.
    - assert (Ex : expand sym ut sl (ent p) = []) by (apply drop_expand; exact Ed).
      destruct ps as [|q ps].
      + cbn in Ha. destruct fuel as [|fuel]; [lia|]. rewrite Ha.
        rewrite (set_flags_end fuel pos mr mc Hwe). cbn [bind].
        eexists; exists []. split; [reflexivity|]. cbn [es_d es_pos es_code es_mr es_mc].
        split; [reflexivity|]. split; [cbn; lia|]. split.
        * unfold codesT. cbn [codes lastdrop app]. rewrite Ed, total_cons, Ex. unfold total.
          cbn [length map flat_map]. rewrite !app_nil_r, Nat.add_0_r. reflexivity.
        * rewrite mxr_cons, mxc_cons, (kept_drop p Ed). split; reflexivity.
      + destruct (IH _ fuel pos mr mc Ha ltac:(discriminate) ltac:(lia))
          as (r & ps' & E & Ha' & Hlen & Hcode & Hmr & Hmc).
        rewrite E. cbn [bind]. eexists; exists ps'. split; [reflexivity|]. cbn [es_d es_pos es_code es_mr es_mc].
        split; [exact Ha'|]. split; [cbn [length] in *; lia|]. split.
        * rewrite codesT_cons by (right; discriminate). rewrite <- app_assoc, Hcode, Ex. cbn [length].
          rewrite Nat.add_0_r. reflexivity.
        * rewrite (mxr_cons mr p), (mxc_cons mc p), (kept_drop p Ed). split; assumption.
    - eexists; exists ps. split; [reflexivity|]. cbn [es_d es_pos es_code es_mr es_mc].
      split; [exact Ha|]. split; [cbn; lia|]. split.
      + rewrite codesT_cons by (left; exact Ed). reflexivity.
      + rewrite (mxr_cons mr p ps), (mxc_cons mc p ps), (mxr_cons mr p []), (mxc_cons mc p []).
        split; reflexivity.
  Qed.

  Lemma nodrop_noflags p : has_flags fl = false -> drop p = false.
  Proof.
    unfold has_flags, drop, dropped. destruct fl as [[] [] []]; cbn; try discriminate; reflexivity.
  Qed.

  Lemma set_run p ps d pos mr mc : owend wr -> at_lines d (p :: ps) ->
    exists r ps', entry_set L wr fl m e d pos mr mc = Ok r /\
      at_lines (es_d r) ps' /\ length ps' < length (p :: ps) /\
      es_code r ++ codesT (es_pos r) ps' = codesT pos (p :: ps) /\
      mxr (es_mr r) ps' = mxr mr (p :: ps) /\ mxc (es_mc r) ps' = mxc mc (p :: ps).
  Proof.
    intros Hwe Ha. unfold entry_set. destruct (has_flags fl) eqn:Ef.
    - apply set_flags_run; [exact Hwe|exact Ha|discriminate|lia].
    - destruct Ha as [[fin Hal] Ha]. eexists; exists ps.
      split; [apply (set_plain_at _ _ _ _ _ _ Ef Hal)|]. cbn [es_d es_pos es_code es_mr es_mc].
      split; [exact Ha|]. split; [cbn; lia|]. split.
      + rewrite codesT_cons by (left; apply nodrop_noflags; exact Ef). reflexivity.
      + rewrite (mxr_cons mr p ps), (mxc_cons mc p ps), (mxr_cons mr p []), (mxc_cons mc p []).
        split; reflexivity.
  Qed.

  Lemma set_loop_run n : owend wr -> forall ps d fuel pos mr mc,
    length ps <= n -> at_lines d ps -> length ps < fuel ->
    set_loop L wr fl m e fuel d pos mr mc = Ok (codesT pos ps, mxr mr ps, mxc mc ps).
  Proof.
    intros Hwe. induction n as [|n IH]; intros ps d fuel pos mr mc Hn Ha Hf; (destruct fuel as [|fuel]; [lia|]).
    - destruct ps as [|p ps]; [|cbn in Hn; lia]. cbn in Ha; subst d. cbn [set_loop].
      rewrite Nat.ltb_irrefl. reflexivity.
    - destruct ps as [|p ps].
      + cbn in Ha; subst d. cbn [set_loop]. rewrite Nat.ltb_irrefl. reflexivity.
      + cbn [set_loop]. pose proof (at_lines_lt _ _ _ Ha).
        destruct (Nat.ltb_spec d e); [|lia].
        destruct (set_run _ _ _ pos mr mc Hwe Ha) as (r & ps' & E & Ha' & Hlen & Hcode & Hmr & Hmc).
        rewrite E; cbn [bind].
        rewrite (IH ps' (es_d r) fuel (es_pos r) (es_mr r) (es_mc r)) by (auto; lia).
        cbn [bind]. rewrite Hcode, Hmr, Hmc. reflexivity.
  Qed.
End Line.
