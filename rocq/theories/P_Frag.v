(** * Property C08: edge lists whose last line has no newline *)

From Coq Require Import String.
From Verif Require Import Base Reader Sched Spec SpecFp Coo CooLemmas WeightLemmas ElSpec ElFinal ElThms ElExamples
  FragEl SpecFrag FragMain FragFinal.

Open Scope string_scope.
Open Scope list_scope.
Notation length := List.length.

Definition nogap (z : line) : line := mkLine (l_x z) (l_sep z) (l_y z) (l_post z) [].

Lemma cutcount_kind k fl (z : line) (v : wtype k) : cutcount (is_int_kind k) fl (z, v) = reserved k fl z.
Proof.
  unfold cutcount, reserved, any_flag, has_flags, stored, is_int_kind, ent. cbn [flat_map fst snd]. rewrite app_nil_r.
  assert (E : forall W (w : W), length (expand (f_sym fl) (f_ut fl) (f_sl fl) (dval (l_x z), dval (l_y z), w)) =
    length (expand (f_sym fl) (f_ut fl) (f_sl fl) (dval (l_x z), dval (l_y z), tt))).
  { intros W w. unfold expand. destruct fl as [[] [] []]; cbn [f_sym f_ut f_sl andb];
      repeat match goal with |- context [if ?b then _ else _] => destruct b end; reflexivity. }
  destruct k; rewrite ?E; reflexivity.
Qed.

(** The last line is two labels that end the file; no weights, no flags: the
    line is counted and space is reserved for it, but its labels are never
    stored, and the dimensions ignore it. *)
Theorem C08_counted_but_not_stored : forall L O f z pg T sched,
  is_ity L -> is_ity O -> wf_cut f z -> l_post z = [] ->
  labels_fit (imax L - 1) f -> (dval (l_x z) <= imax L - 1)%Z -> (dval (l_y z) <= imax L - 1)%Z ->
  (Z.of_nat (length (el_pairs f) + 1) <= imax O)%Z -> off_page pg (cut_text f z) -> 1 <= T ->
  exists c : coo unit,
    read_el L O None no_flags (mkMem (cut_text f z) pg) 0 (length (cut_text f z)) T sched = Ok c /\
    co_m c = Z.of_nat (length (el_pairs f) + 1) /\
    co_x c = map (fun p => Some (fst p)) (el_pairs f) ++ [None] /\
    co_y c = map (fun p => Some (snd p)) (el_pairs f) ++ [None] /\
    dims c (1 + max_of (map fst (el_pairs f))) (1 + max_of (map snd (el_pairs f))).
Proof.
  intros L O f z pg T sched HL HO Hwf Hz Hf Hfx Hfy Hc Hpg HT.
  assert (Es : stored no_flags (triples f (no_weights f)) = map (fun p => (fst p, snd p, tt)) (el_pairs f))
    by (rewrite stored_no_flags; apply triples_no_weights).
  exists (cut_result None no_flags f (no_weights f) tt 1). split; [|split; [|split; [|split]]].
  - refine (cut_ok L O None false no_flags f (nogap z) (no_weights f) tt Cut pg HL HO Hwf _ _ (no_weights_len f) Hf (conj Hfx Hfy) Hpg
      Logic.I (owok_none f _ (no_weights_len f)) _ T HT sched _ eq_refl (or_introl eq_refl)).
    + constructor.
    + discriminate.
    + split; [reflexivity|exact Hz].
    + rewrite Es, map_length. exact Hc.
  - unfold cut_result. cbn [co_m]. rewrite Es, map_length. reflexivity.
  - unfold cut_result, el_result. cbn [co_x]. rewrite Es, map_map. reflexivity.
  - unfold cut_result, el_result. cbn [co_y]. rewrite Es, map_map. reflexivity.
  - unfold cut_result, el_result, dims. cbn [co_n co_nrows co_ncols].
    assert (Ek : counted no_flags (triples f (no_weights f)) = map (fun p => (fst p, snd p, tt)) (el_pairs f)).
    { rewrite <- Es. unfold counted, stored, kept. apply flat_map_ext. intros [[a b] w]. reflexivity. }
    rewrite Ek, !map_map. cbn [fst snd]. repeat split.
Qed.
Print Assumptions C08_counted_but_not_stored.

(** With any flag the line is dropped without a trace: the result is the one of
    the file without that line. *)
Theorem C08_dropped_with_flags : forall L O fl f z pg T sched,
  is_ity L -> is_ity O -> wf_cut f z -> l_post z = [] -> any_flag fl = true ->
  labels_fit (imax L - 1) f -> (dval (l_x z) <= imax L - 1)%Z -> (dval (l_y z) <= imax L - 1)%Z ->
  (Z.of_nat (length (stored fl (triples f (no_weights f)))) <= imax O)%Z -> off_page pg (cut_text f z) -> 1 <= T ->
  exists c : coo unit,
    read_el L O None fl (mkMem (cut_text f z) pg) 0 (length (cut_text f z)) T sched = Ok c /\
    holds c (stored fl (triples f (no_weights f))) /\
    forall pg' T' sched', off_page pg' (el_text f) -> 1 <= T' ->
      read_el L O None fl (mkMem (el_text f) pg') 0 (length (el_text f)) T' sched' = Ok c.
Proof.
  intros L O fl f z pg T sched HL HO Hwf Hz Hfl Hf Hfx Hfy Hc Hpg HT.
  assert (E0 : cutcount false fl (nogap z, tt) = 0) by (unfold cutcount, has_flags; unfold any_flag in Hfl; rewrite Hfl; reflexivity).
  exists (el_result None fl f (no_weights f)). split; [|split].
  - replace (el_result None fl f (no_weights f)) with (cut_result None fl f (no_weights f) tt 0).
    2:{ unfold cut_result, el_result. cbn [co_x co_y co_n co_nrows co_ncols repeat]. rewrite !app_nil_r, Nat.add_0_r. reflexivity. }
    replace (cut_result None fl f (no_weights f) tt 0) with (cut_result None fl f (no_weights f) tt (cutcount false fl (nogap z, tt)))
      by (rewrite E0; reflexivity).
    refine (cut_ok L O None false fl f (nogap z) (no_weights f) tt Cut pg HL HO Hwf _ _ (no_weights_len f) Hf (conj Hfx Hfy) Hpg
      Logic.I (owok_none f _ (no_weights_len f)) _ T HT sched _ eq_refl (or_introl eq_refl)).
    + constructor.
    + discriminate.
    + split; [reflexivity|exact Hz].
    + unfold itcount; cbn [fst snd]. rewrite E0, Nat.add_0_r. exact Hc.
  - unfold holds, el_result. cbn [co_m co_x co_y]. auto.
  - intros pg' T' sched' Hpg' HT'. apply el_unweighted; auto.
    destruct Hwf as (Hg & Hl & _). split.
    + destruct (el_lines f); [apply gap_fin|]; exact Hg.
    + clear - Hl. induction Hl as [|l ls H1 H2 IH]; [exact Logic.I|]. destruct ls; [|split; assumption].
      destruct H1 as (A & B & C & D & G). repeat (split; [assumption|]). apply gap_fin; exact G.
Qed.
Print Assumptions C08_dropped_with_flags.

(** Weights: the weight of the line is stored, its labels are not. *)
Theorem C08_weight_without_labels : forall k L O fl f z ws v pg T sched,
  wf_kind k -> weights_are k f ws -> ends_in_weight k (l_post z) v -> Forall (keeps fl) (triples f ws) ->
  is_ity L -> is_ity O -> wf_cut f z -> 0 < reserved k fl z ->
  labels_fit (imax L - 1) f -> (dval (l_x z) <= imax L - 1)%Z -> (dval (l_y z) <= imax L - 1)%Z ->
  (Z.of_nat (length (stored fl (triples f ws)) + reserved k fl z) <= imax O)%Z -> off_page pg (cut_text f z) -> 1 <= T ->
  let es := stored fl (triples f ws) in
  exists c : coo (wtype k),
    read_el L O (Some (wreader k)) fl (mkMem (cut_text f z) pg) 0 (length (cut_text f z)) T sched = Ok c /\
    co_m c = Z.of_nat (length es + reserved k fl z) /\
    co_x c = map (fun e => Some (fst (fst e))) es ++ repeat None (reserved k fl z) /\
    co_y c = map (fun e => Some (snd (fst e))) es ++ repeat None (reserved k fl z) /\
    co_w c = map (fun e => Some (snd e)) es ++ Some v :: repeat None (reserved k fl z - 1).
Proof.
  intros k L O fl f z ws v pg T sched Hk Hw Hv Hkp HL HO Hwf Hr Hf Hfx Hfy Hc Hpg HT es.
  pose proof (cutcount_kind k fl (nogap z) v) as Ec. change (reserved k fl (nogap z)) with (reserved k fl z) in Ec.
  exists (cut_result (Some (wreader k)) fl f ws v (reserved k fl z)). split; [|repeat split].
  rewrite <- Ec.
  refine (cut_ok L O (Some (wreader k)) (is_int_kind k) fl f (nogap z) ws v Cut pg HL HO Hwf _ _ (weights_len _ _ _ Hw) Hf (conj Hfx Hfy) Hpg
      (wend_kind k Hk) (owok_some k f ws Hk Hw) _ T HT sched _ eq_refl (or_intror (conj Hkp _))).
  - constructor.
  - discriminate.
  - apply wcut_kind; assumption.
  - unfold itcount; cbn [fst snd]. rewrite Ec. exact Hc.
  - rewrite Ec. exact Hr.
Qed.
Print Assumptions C08_weight_without_labels.

(** When no cell is reserved for it, the weight is stored past the end of the
    weight array. *)
Theorem C08_weight_overrun : forall k L O fl f z ws v pg T sched,
  wf_kind k -> weights_are k f ws -> ends_in_weight k (l_post z) v ->
  is_ity L -> is_ity O -> wf_cut f z -> reserved k fl z = 0 ->
  labels_fit (imax L - 1) f -> (dval (l_x z) <= imax L - 1)%Z -> (dval (l_y z) <= imax L - 1)%Z ->
  (Z.of_nat (length (stored fl (triples f ws))) <= imax O)%Z -> off_page pg (cut_text f z) -> 1 <= T ->
  read_el L O (Some (wreader k)) fl (mkMem (cut_text f z) pg) 0 (length (cut_text f z)) T sched = UB.
Proof.
  intros k L O fl f z ws v pg T sched Hk Hw Hv HL HO Hwf Hr Hf Hfx Hfy Hc Hpg HT.
  pose proof (cutcount_kind k fl (nogap z) v) as Ec. change (reserved k fl (nogap z)) with (reserved k fl z) in Ec.
  refine (cut_ub L O (Some (wreader k)) (is_int_kind k) fl f (nogap z) ws v Cut pg HL HO Hwf _ _ (weights_len _ _ _ Hw) Hf (conj Hfx Hfy) Hpg
      (wend_kind k Hk) (owok_some k f ws Hk Hw) _ T HT sched _ eq_refl (wreader k) eq_refl _).
  - constructor.
  - discriminate.
  - apply wcut_kind; assumption.
  - unfold itcount; cbn [fst snd]. rewrite Ec, Hr, Nat.add_0_r. exact Hc.
  - rewrite Ec. exact Hr.
Qed.
Print Assumptions C08_weight_overrun.

(** Anything after the second label, even a space, makes the line count: the
    result is the one of the file with the newline. *)
Theorem C08_trailing_text_is_enough : forall L O fl f z pg T sched,
  is_ity L -> is_ity O -> wf_cut f z -> l_post z <> [] ->
  labels_fit (imax L - 1) f -> (dval (l_x z) <= imax L - 1)%Z -> (dval (l_y z) <= imax L - 1)%Z ->
  let f' := mkEl (el_head f) (el_lines f ++ [mkLine (l_x z) (l_sep z) (l_y z) (l_post z) []]) in
  (Z.of_nat (length (stored fl (triples f' (no_weights f')))) <= imax O)%Z -> off_page pg (cut_text f z) -> 1 <= T ->
  exists c : coo unit,
    read_el L O None fl (mkMem (cut_text f z) pg) 0 (length (cut_text f z)) T sched = Ok c /\
    holds c (stored fl (triples f' (no_weights f'))) /\
    forall pg' T' sched', off_page pg' (el_text f') -> 1 <= T' ->
      read_el L O None fl (mkMem (el_text f') pg') 0 (length (el_text f')) T' sched' = Ok c.
Proof.
  intros L O fl f z pg T sched HL HO Hwf Hz Hf Hfx Hfy f' Hc Hpg HT.
  assert (Ew : no_weights f' = no_weights f ++ [tt]) by (unfold no_weights, el_pairs, f'; cbn [el_lines]; rewrite !map_app; reflexivity).
  exists (el_result None fl f' (no_weights f')). split; [|split].
  - rewrite Ew.
    refine (tail_ok L O None false fl f (nogap z) (no_weights f) tt Tail pg HL HO Hwf _ _ (no_weights_len f) Hf (conj Hfx Hfy) Hpg
      Logic.I (owok_none f _ (no_weights_len f)) _ T HT sched _ eq_refl).
    + constructor.
    + discriminate.
    + split; [reflexivity|exact Hz].
    + rewrite Ew in Hc. unfold f' in Hc. fold (nogap z) in Hc. rewrite (out_tail fl f (nogap z) (no_weights f) tt (no_weights_len f)) in Hc.
      rewrite app_length in Hc. unfold itcount; cbn [fst snd]. unfold stored at 2 in Hc. cbn [flat_map] in Hc. rewrite app_nil_r in Hc. exact Hc.
  - unfold holds, el_result. cbn [co_m co_x co_y]. auto.
  - intros pg' T' sched' Hpg' HT'. apply el_unweighted; auto.
    + apply (tail_wf f (nogap z) Hwf). constructor.
    + apply (tail_fit L f (nogap z) Hf (conj Hfx Hfy)).
Qed.
Print Assumptions C08_trailing_text_is_enough.

(** ** Cases that meet the hypotheses *)

(** "# c", then "1 2", then the last line without its newline. *)
Definition ex_cut : el_file :=
  mkEl (bs "# c" ++ [ch_nl]) [mkLine (bs "1") (bs " ") (bs "2") (bs " 7") []].
Lemma ex_cut_wf post : rest post -> wf_cut ex_cut (mkLine (bs "3") (bs " ") (bs "4") post []).
Proof.
  intros Hp. split; [|split].
  - apply (gap_cmt _ ch_hash (bs " c") []); [reflexivity|repeat constructor|apply gap_nil].
  - constructor; [|constructor]. repeat split; try digits_t; try discriminate; repeat constructor.
  - repeat split; try digits_t; try discriminate; try apply Hp; repeat constructor.
Qed.
Lemma ex_cut_fit : labels_fit (imax u8 - 1) ex_cut.
Proof. apply Forall_cons; [split; vm_compute; discriminate|apply Forall_nil]. Qed.

Example C08_no_flags_applies : exists c : coo unit,
  read_el u8 u32 None no_flags (mkMem (cut_text ex_cut (mkLine (bs "3") (bs " ") (bs "4") [] [])) 32) 0 13 3 [2;0;1] = Ok c /\
  co_m c = 2%Z /\ co_x c = [Some 1%Z; None] /\ co_y c = [Some 2%Z; None] /\ dims c 2 3.
Proof.
  exact (C08_counted_but_not_stored u8 u32 ex_cut (mkLine (bs "3") (bs " ") (bs "4") [] []) 32 3 [2;0;1]
    ltac:(cbn; auto) ltac:(cbn; auto) (ex_cut_wf [] (conj (Forall_nil _) Logic.I)) eq_refl ex_cut_fit ltac:(vm_compute; discriminate) ltac:(vm_compute; discriminate)
    ltac:(vm_compute; discriminate) ltac:(split; [lia|vm_compute; discriminate]) ltac:(lia)).
Qed.

Example C08_flags_applies : exists c : coo unit,
  read_el u8 u32 None (mkFlags true false false) (mkMem (cut_text ex_cut (mkLine (bs "3") (bs " ") (bs "4") [] [])) 32) 0 13 2 [] = Ok c /\
  co_m c = 2%Z /\ co_x c = [Some 1; Some 2]%Z /\ co_y c = [Some 2; Some 1]%Z.
Proof.
  destruct (C08_dropped_with_flags u8 u32 (mkFlags true false false) ex_cut (mkLine (bs "3") (bs " ") (bs "4") [] []) 32 2 []
    ltac:(cbn; auto) ltac:(cbn; auto) (ex_cut_wf [] (conj (Forall_nil _) Logic.I)) eq_refl eq_refl ex_cut_fit ltac:(vm_compute; discriminate) ltac:(vm_compute; discriminate)
    ltac:(vm_compute; discriminate) ltac:(split; [lia|vm_compute; discriminate]) ltac:(lia)) as (c & E & (H1 & H2 & H3) & _).
  exists c. split; [exact E|]. split; [exact H1|]. split; [exact H2|exact H3].
Qed.

Lemma ex_post7 : rest (bs " -5").
Proof. split; [repeat constructor|reflexivity]. Qed.
Lemma ex_cut_w : weights_are (WSigned i32) ex_cut [7%Z].
Proof.
  constructor; [|constructor]. cbn [wpost]. split; [|split; vm_compute; discriminate].
  apply (post_signed_pos (bs " ") (bs "7") []); [repeat split; try discriminate; repeat constructor|digits_t|split; [constructor|exact Logic.I]].
Qed.
Lemma ex_end5 : ends_in_weight (WSigned i32) (bs " -5") (-5)%Z.
Proof.
  exists (bs " "), [ch_minus], (bs "5"). split; [reflexivity|]. split; [repeat split; try discriminate; repeat constructor|]. split; [digits_t|]. split; [|split; vm_compute; discriminate].
  right; right. split; reflexivity.
Qed.

Example C08_weight_applies : exists c : coo Z,
  read_el u8 u32 (Some (wreader (WSigned i32))) (mkFlags true false false)
    (mkMem (cut_text ex_cut (mkLine (bs "3") (bs " ") (bs "4") (bs " -5") [])) 32) 0 16 2 [1;1;0] = Ok c /\
  co_m c = 4%Z /\ co_x c = [Some 1; Some 2; None; None]%Z /\ co_w c = [Some 7; Some 7; Some (-5); None]%Z.
Proof.
  destruct (C08_weight_without_labels (WSigned i32) u8 u32 (mkFlags true false false) ex_cut (mkLine (bs "3") (bs " ") (bs "4") (bs " -5") []) [7%Z] (-5)%Z 32 2 [1;1;0])
    as (c & E & H1 & H2 & _ & H3).
  - cbn; unfold is_ity; cbn; tauto.
  - exact ex_cut_w.
  - exact ex_end5.
  - constructor; [discriminate|constructor].
  - cbn; unfold is_ity; cbn; tauto.
  - cbn; unfold is_ity; cbn; tauto.
  - apply ex_cut_wf, ex_post7.
  - vm_compute; lia.
  - exact ex_cut_fit.
  - vm_compute; discriminate.
  - vm_compute; discriminate.
  - vm_compute; discriminate.
  - split; [lia|vm_compute; discriminate].
  - lia.
  - exists c. split; [exact E|]. split; [exact H1|]. split; [exact H2|exact H3].
Qed.

(** Here the flags drop the last line ("3 3" is a self loop). *)
Example C08_overrun_applies :
  read_el u8 u32 (Some (wreader (WSigned i32))) (mkFlags false false true)
    (mkMem (cut_text ex_cut (mkLine (bs "3") (bs " ") (bs "3") (bs " -5") [])) 32) 0 16 2 [1;1;0] = UB.
Proof.
  refine (C08_weight_overrun (WSigned i32) u8 u32 (mkFlags false false true) ex_cut (mkLine (bs "3") (bs " ") (bs "3") (bs " -5") []) [7%Z] (-5)%Z 32 2 [1;1;0]
    _ ex_cut_w ex_end5 _ _ _ eq_refl ex_cut_fit _ _ _ _ _); try (cbn; tauto); try (vm_compute; discriminate).
  - destruct (ex_cut_wf _ ex_post7) as (A & B & C & D & _ & F). repeat (split; [first [assumption|digits_t]|]). exact F.
  - split; [lia|vm_compute; discriminate].
  - lia.
Qed.

Example C08_space_applies : exists c : coo unit,
  read_el u8 u32 None no_flags (mkMem (cut_text ex_cut (mkLine (bs "3") (bs " ") (bs "4") (bs " ") [])) 32) 0 14 3 [2;0;1] = Ok c /\
  co_m c = 2%Z /\ co_x c = [Some 1; Some 3]%Z /\ co_y c = [Some 2; Some 4]%Z.
Proof.
  destruct (C08_trailing_text_is_enough u8 u32 no_flags ex_cut (mkLine (bs "3") (bs " ") (bs "4") (bs " ") []) 32 3 [2;0;1]
    ltac:(cbn; auto) ltac:(cbn; auto) (ex_cut_wf (bs " ") ltac:(split; [repeat constructor|reflexivity])) ltac:(discriminate) ex_cut_fit ltac:(vm_compute; discriminate) ltac:(vm_compute; discriminate)
    ltac:(vm_compute; discriminate) ltac:(split; [lia|vm_compute; discriminate]) ltac:(lia)) as (c & E & (H1 & H2 & H3) & _).
  exists c. split; [exact E|]. split; [exact H1|]. split; [exact H2|exact H3].
Qed.
