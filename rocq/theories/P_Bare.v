(** * P_Bare: C60, a weighted read of an edge list that has no weights *)

From Coq Require Import String.
From Verif Require Import Base Reader Sched SchedLemmas Spec SpecFp ReaderLemmas Coo ElSpec CooMain ElFinal SpecBare Bare ElExamples.

Notation length := List.length.
Open Scope list_scope.

(** The dimensions are those of the pairs that were stored. *)
Definition stored_pairs (gs : list (list line)) : list (Z * Z) := map fst (concat (map paired gs)).

(** ** C60

    The lines of the file fall into one group per thread.  Within a group every
    second line is taken for the weight of the line before it, so only half of
    the cells reserved for the group are assigned. *)
Theorem C60_lines_are_paired : forall k L O f pg T,
  wf_kind k -> is_ity L -> is_ity O -> bare_el f -> labels_fit (imax L - 1) f ->
  Forall (fun l => wholds k (l_x l)) (el_lines f) ->
  (Z.of_nat (length (el_lines f)) <= imax O)%Z -> off_page pg (el_text f) -> 1 <= T ->
  exists gs, length gs = T /\ concat gs = el_lines f /\
    (length (el_text f) <= T -> Forall (fun g => length g <= 1) gs) /\
    forall sched, exists c : coo (wtype k),
      read_el L O (Some (wreader k)) no_flags (mkMem (el_text f) pg) 0 (length (el_text f)) T sched = Ok c /\
      co_m c = Z.of_nat (length (el_lines f)) /\
      co_x c = concat (map bare_x gs) /\ co_y c = concat (map bare_y gs) /\ co_w c = concat (map (bare_w k) gs) /\
      dims c (1 + max_of (map fst (stored_pairs gs))) (1 + max_of (map snd (stored_pairs gs))).
Proof.
  intros k L O f pg T Hk HL HO Hb Hf Hw Hm Hpg HT.
  exists (groups k f T). split; [apply groups_len|]. split; [apply (groups_concat k f pg T HT)|].
  split; [apply (groups_small k f Hb T HT)|].
  intros sched. exists (bare_result k f T).
  split; [exact (bare_main k Hk L O HL HO f pg Hb Hf Hw Hm Hpg T HT sched)|]. repeat split.
Qed.
Print Assumptions C60_lines_are_paired.

Lemma nth_paired : forall i ls l l', nth_error ls (2 * i) = Some l -> nth_error ls (2 * i + 1) = Some l' ->
  nth_error (paired ls) i = Some (dval (l_x l), dval (l_y l), l_x l').
Proof.
  induction i as [|i IH]; intros ls l l' H1 H2.
  - destruct ls as [|a [|b ls]]; cbn [Nat.mul Nat.add nth_error] in H1, H2; try discriminate.
    assert (a = l) by congruence. assert (b = l') by congruence. subst. reflexivity.
  - replace (2 * S i) with (S (S (2 * i))) in H1 by lia. replace (2 * S i + 1) with (S (S (2 * i + 1))) in H2 by lia.
    destruct ls as [|a [|b ls]]; cbn [nth_error] in H1, H2; try discriminate.
    cbn [nth_error paired]. apply IH; assumption.
Qed.

Lemma nth_cells_some {A} n (l : list A) i v : nth_error l i = Some v -> nth_error (cells n l) i = Some (Some v).
Proof.
  intros H. unfold cells. assert (i < length l) by (apply nth_error_Some; congruence).
  rewrite nth_error_app1 by (rewrite map_length; lia). rewrite nth_error_map, H. reflexivity.
Qed.

Lemma nth_cells_none {A} n (l : list A) i : length l <= i -> i < n -> nth_error (cells n l) i = Some None.
Proof.
  intros H1 H2. unfold cells. rewrite nth_error_app2 by (rewrite map_length; lia). rewrite map_length.
  assert (Hr : forall r j, j < r -> nth_error (repeat (@None A) r) j = Some None).
  { induction r as [|r IHr]; intros j Hj; [lia|]. destruct j; [reflexivity|]. cbn. apply IHr. lia. }
  apply Hr. lia.
Qed.

Lemma paired_half ls : length (paired ls) = length ls / 2.
Proof.
  pose proof (paired_len (length ls) ls (le_n _)) as H.
  destruct (Nat.odd (length ls)); (apply Nat.div_unique with (r := length ls - 2 * length (paired ls)); lia).
Qed.

Lemma paired_half_up ls : length (paired ls) + (if Nat.odd (length ls) then 1 else 0) = (length ls + 1) / 2.
Proof.
  pose proof (paired_len (length ls) ls (le_n _)) as H.
  destruct (Nat.odd (length ls)).
  - apply Nat.div_unique with (r := 0); lia.
  - apply Nat.div_unique with (r := 1); lia.
Qed.

(** One thread: the first half of the arrays is assigned, the rest is not. *)
Theorem C60_one_thread : forall k L O f pg sched,
  wf_kind k -> is_ity L -> is_ity O -> bare_el f -> labels_fit (imax L - 1) f ->
  Forall (fun l => wholds k (l_x l)) (el_lines f) ->
  (Z.of_nat (length (el_lines f)) <= imax O)%Z -> off_page pg (el_text f) ->
  let n := length (el_lines f) in
  exists c : coo (wtype k),
    read_el L O (Some (wreader k)) no_flags (mkMem (el_text f) pg) 0 (length (el_text f)) 1 sched = Ok c /\
    co_m c = Z.of_nat n /\ length (co_x c) = n /\ length (co_y c) = n /\ length (co_w c) = n /\
    (* line 2i+1 is entry i, with the first label of line 2i+2 as its weight *)
    (forall i l l', nth_error (el_lines f) (2 * i) = Some l -> nth_error (el_lines f) (2 * i + 1) = Some l' ->
       nth_error (co_x c) i = Some (Some (dval (l_x l))) /\ nth_error (co_y c) i = Some (Some (dval (l_y l))) /\
       nth_error (co_w c) i = Some (Some (wnum k (l_x l')))) /\
    (* the cells of the second half are never assigned *)
    (forall i, n / 2 <= i -> i < n -> nth_error (co_x c) i = Some None /\ nth_error (co_y c) i = Some None) /\
    (forall i, (n + 1) / 2 <= i -> i < n -> nth_error (co_w c) i = Some None).
Proof.
  intros k L O f pg sched Hk HL HO Hb Hf Hw Hm Hpg n.
  destruct (C60_lines_are_paired k L O f pg 1 Hk HL HO Hb Hf Hw Hm Hpg (le_n 1)) as (gs & Hl & Hc & _ & H).
  destruct gs as [|g [|]]; try discriminate Hl. cbn [concat] in Hc. rewrite app_nil_r in Hc. subst g.
  destruct (H sched) as (c & E & Em & Ex & Ey & Ew & _). cbn [map concat] in Ex, Ey, Ew. rewrite app_nil_r in Ex, Ey, Ew.
  pose proof (paired_half (el_lines f)) as P1. pose proof (paired_half_up (el_lines f)) as P2.
  pose proof (paired_len n (el_lines f) (le_n _)) as P3. fold n in P1, P2, P3.
  exists c. split; [exact E|]. split; [exact Em|]. rewrite Ex, Ey, Ew. unfold bare_x, bare_y, bare_w. fold n.
  split; [apply cells_len; rewrite map_length; lia|]. split; [apply cells_len; rewrite map_length; lia|].
  split; [apply cells_len; rewrite app_length, map_length; destruct (Nat.odd n); cbn [length]; lia|].
  split; [|split].
  - intros i l l' H1 H2. pose proof (nth_paired i _ _ _ H1 H2) as Hp.
    repeat split; apply nth_cells_some; [| |rewrite nth_error_app1 by (rewrite map_length; apply nth_error_Some; congruence)];
      rewrite nth_error_map, Hp; reflexivity.
  - intros i Hi Hn. split; apply nth_cells_none; rewrite ?map_length; lia.
  - intros i Hi Hn. apply nth_cells_none; [|exact Hn]. rewrite app_length, map_length. destruct (Nat.odd n); cbn [length]; lia.
Qed.
Print Assumptions C60_one_thread.

Lemma small_groups {A} (h : list line -> list A) a (gs : list (list line)) : h [] = [] -> (forall l, h [l] = [a]) ->
  Forall (fun g => length g <= 1) gs -> concat (map h gs) = repeat a (length (concat gs)).
Proof.
  intros H0 H1. induction 1 as [|g gs Hg Hgs IH]; [reflexivity|]. cbn [map concat]. rewrite IH, app_length, repeat_app. f_equal.
  destruct g as [|l [|]]; [rewrite H0; reflexivity|rewrite H1; reflexivity|cbn in Hg; lia].
Qed.

(** As many threads as bytes: not a single label is stored. *)
Theorem C60_many_threads : forall k L O f pg T sched,
  wf_kind k -> is_ity L -> is_ity O -> bare_el f -> labels_fit (imax L - 1) f ->
  Forall (fun l => wholds k (l_x l)) (el_lines f) ->
  (Z.of_nat (length (el_lines f)) <= imax O)%Z -> off_page pg (el_text f) -> length (el_text f) <= T ->
  let n := length (el_lines f) in
  exists c : coo (wtype k),
    read_el L O (Some (wreader k)) no_flags (mkMem (el_text f) pg) 0 (length (el_text f)) T sched = Ok c /\
    co_m c = Z.of_nat n /\ co_x c = repeat None n /\ co_y c = repeat None n /\ co_w c = repeat (Some (wzero k)) n /\ dims c 1 1.
Proof.
  intros k L O f pg T sched Hk HL HO Hb Hf Hw Hm Hpg HT n.
  assert (H1 : 1 <= T).
  { destruct Hpg as [Hp Hq]. destruct (length (el_text f)); [rewrite Nat.mod_0_l in Hq by lia; congruence|lia]. }
  destruct (C60_lines_are_paired k L O f pg T Hk HL HO Hb Hf Hw Hm Hpg H1) as (gs & Hl & Hc & Hs & H).
  specialize (Hs HT). destruct (H sched) as (c & E & Em & Ex & Ey & Ew & Hd).
  exists c. split; [exact E|]. split; [exact Em|].
  rewrite (small_groups bare_x None gs) in Ex by (auto; reflexivity).
  rewrite (small_groups bare_y None gs) in Ey by (auto; reflexivity).
  rewrite (small_groups (bare_w k) (Some (wzero k)) gs) in Ew by (auto; reflexivity).
  rewrite Hc in Ex, Ey, Ew. repeat (split; [assumption|]).
  assert (Ep : stored_pairs gs = []).
  { unfold stored_pairs. clear -Hs. induction Hs as [|g gs Hg Hgs IH]; [reflexivity|]. cbn [map concat].
    rewrite map_app, IH. destruct g as [|l [|]]; [reflexivity|reflexivity|cbn in Hg; lia]. }
  rewrite Ep in Hd. exact Hd.
Qed.
Print Assumptions C60_many_threads.

(** Hence the result depends on the size of the team as soon as there are two
    lines. *)
Theorem C60_team_dependent : forall k L O f pg T sched sched' c c',
  wf_kind k -> is_ity L -> is_ity O -> bare_el f -> labels_fit (imax L - 1) f ->
  Forall (fun l => wholds k (l_x l)) (el_lines f) ->
  (Z.of_nat (length (el_lines f)) <= imax O)%Z -> off_page pg (el_text f) ->
  2 <= length (el_lines f) -> length (el_text f) <= T ->
  read_el L O (Some (wreader k)) no_flags (mkMem (el_text f) pg) 0 (length (el_text f)) 1 sched = Ok c ->
  read_el L O (Some (wreader k)) no_flags (mkMem (el_text f) pg) 0 (length (el_text f)) T sched' = Ok c' ->
  co_x c <> co_x c'.
Proof.
  intros k L O f pg T sched sched' c c' Hk HL HO Hb Hf Hw Hm Hpg H2 HT E E'.
  destruct (C60_one_thread k L O f pg sched Hk HL HO Hb Hf Hw Hm Hpg) as (c1 & E1 & _ & _ & _ & _ & H1 & _).
  destruct (C60_many_threads k L O f pg T sched' Hk HL HO Hb Hf Hw Hm Hpg HT) as (c2 & E2 & _ & Hx & _).
  rewrite E in E1. injection E1 as <-. rewrite E' in E2. injection E2 as <-.
  destruct (el_lines f) as [|l [|l' ls]] eqn:El; cbn [length] in H2; [lia|lia|].
  destruct (H1 0 l l' eq_refl eq_refl) as (Hc & _). intros Eq. rewrite Eq, Hx in Hc. cbn in Hc. congruence.
Qed.
Print Assumptions C60_team_dependent.

(** *** The hypotheses are met *)
Open Scope string_scope.
Open Scope list_scope.
Definition ex_bare : el_file := mkEl (bs "# three edges" ++ [ch_nl])
  [mkLine (bs "1") (bs " ") (bs "2") [] []; mkLine (bs "3") (bs " ") (bs "4") (bs " ") [ch_nl]; mkLine (bs "5") (bs "  ") (bs "60") [ch_cr] []].

Example C60_applies : bare_el ex_bare /\ labels_fit (imax u32 - 1) ex_bare /\
  Forall (fun l => wholds (WSigned i32) (l_x l)) (el_lines ex_bare) /\ off_page 4096 (el_text ex_bare) /\
  (exists c, read_el u32 u32 (Some (wreader (WSigned i32))) no_flags (mkMem (el_text ex_bare) 4096) 0 (length (el_text ex_bare)) 1 [] = Ok c /\
     co_m c = 3%Z /\ co_x c = [Some 1%Z; None; None] /\ co_y c = [Some 2%Z; None; None] /\ co_w c = [Some 3%Z; Some 0%Z; None]).
Proof.
  split.
  { split; [|].
    - cbn [ex_bare el_lines el_head]. change (bs "# three edges" ++ [ch_nl]) with (ch_hash :: bs " three edges" ++ ch_nl :: []).
      apply gap_cmt; [reflexivity|repeat constructor|apply gap_nil].
    - unfold blank. repeat constructor; try discriminate; try (left; tauto); tauto. }
  split; [repeat constructor; vm_compute; discriminate|].
  split; [repeat constructor; vm_compute; discriminate|].
  split; [split; [lia|vm_compute; discriminate]|].
  eexists. split; [vm_compute; reflexivity|]. repeat split.
Qed.
