(** * TextRound: a written COO is a well-formed edge list *)

From Verif Require Import Base Reader ReaderLemmas Sched SchedLemmas Spec SpecDec SpecFp SpecText Coo WeightLemmas ElSpec ElFinal ElThms Ascii AsciiLemmas StbLemmas WriteLemmas.

Definition post_of {W} (tw : option (W -> list byte)) (w : W) : list byte :=
  match tw with None => [] | Some f => ch_sp :: f w end.
Definition line_of {W} (tw : option (W -> list byte)) (e : Z * Z * W) : line :=
  mkLine (dec (fst (fst e))) [ch_sp] (dec (snd (fst e))) (post_of tw (snd e)) [].
Definition file_of {W} (tw : option (W -> list byte)) (es : list (Z * Z * W)) : el_file :=
  mkEl [] (map (line_of tw) es).

Lemma dec_digits z : (0 <= z)%Z -> digits (dec z) /\ dval (dec z) = z.
Proof.
  intros Hz. unfold dec. destruct (Z.ltb_spec z 0); [lia|].
  destruct (dec_abs_canonical z Hz) as (H1 & H2 & _). auto.
Qed.

Lemma file_of_text {W} tw (es : list (Z * Z * W)) : el_text (file_of tw es) = coo_text dec tw es.
Proof.
  unfold el_text, file_of, coo_text. cbn [el_head el_lines app]. rewrite map_map. f_equal. apply map_ext.
  intros [[x y] w]. unfold line_text, line_of, post_of. cbn [l_x l_sep l_y l_post l_gap coo_line fst snd].
  destruct tw; reflexivity.
Qed.

Definition label_ok {W} (L : ity) (e : Z * Z * W) : Prop :=
  (0 <= fst (fst e) < imax L)%Z /\ (0 <= snd (fst e) < imax L)%Z.

Lemma file_of_pairs {W} L tw (es : list (Z * Z * W)) : Forall (label_ok L) es -> el_pairs (file_of tw es) = map fst es.
Proof.
  intros HF. unfold el_pairs, file_of. cbn [el_lines]. rewrite map_map. apply map_ext_in.
  intros [[x y] w] Hi. rewrite Forall_forall in HF. destruct (HF _ Hi) as [H1 H2]. cbn [fst snd] in *.
  unfold l_pair, line_of. cbn [l_x l_y fst snd]. rewrite (proj2 (dec_digits x ltac:(lia))), (proj2 (dec_digits y ltac:(lia))). reflexivity.
Qed.

Lemma wf_lines_all ls : Forall (wf_line false) ls -> wf_lines ls.
Proof.
  assert (G : forall s, gap false s -> gap true s).
  { induction 1; [constructor|constructor; assumption|constructor; assumption|discriminate]. }
  assert (H : forall l, wf_line false l -> wf_line true l).
  { intros l (H1 & H2 & H3 & H4 & H5). repeat split; try apply H1; try apply H2; try apply H3; try apply H4. apply G, H5. }
  induction 1 as [|l ls Hl HF IH]; cbn [wf_lines]; [exact I|]. destruct ls as [|l' ls]; [apply H; exact Hl|].
  split; [exact Hl|exact IH].
Qed.

Lemma file_of_wf {W} L tw (es : list (Z * Z * W)) :
  Forall (label_ok L) es -> Forall (fun e => rest (post_of tw (snd e))) es -> wf_el (file_of tw es).
Proof.
  intros HF HR. split; cbn [file_of el_lines el_head]; [apply gap_nil|]. apply wf_lines_all.
  apply Forall_map. rewrite Forall_forall in *. intros [[x y] w] Hi. destruct (HF _ Hi) as [H1 H2]. specialize (HR _ Hi).
  cbn [fst snd] in *. repeat split; cbn [line_of l_x l_sep l_y l_post l_gap fst snd]; try (apply dec_digits; lia); try apply HR;
    try discriminate; try (repeat constructor; fail).
Qed.

Lemma file_of_fit {W} L tw (es : list (Z * Z * W)) : Forall (label_ok L) es -> labels_fit (imax L - 1) (file_of tw es).
Proof.
  intros HF. unfold labels_fit. rewrite (file_of_pairs L) by exact HF. apply Forall_map.
  eapply Forall_impl; [|exact HF]. intros [[x y] w] [H1 H2]. cbn [fst snd] in *. lia.
Qed.

Lemma file_of_triples {W} L tw (es : list (Z * Z * W)) : Forall (label_ok L) es ->
  triples (file_of tw es) (map snd es) = es.
Proof.
  intros HF. unfold triples. rewrite (file_of_pairs L) by exact HF. clear HF.
  induction es as [|[[x y] w] es IH]; [reflexivity|]. cbn [map combine fst snd]. rewrite IH. reflexivity.
Qed.

Lemma formats_labels {W} L (es : list (Z * Z * W)) : is_ity L -> Forall (label_ok L) es ->
  forall e, In e es -> formats (fmt_int L) (fst (fst e)) (dec (fst (fst e))) /\
                       formats (fmt_int L) (snd (fst e)) (dec (snd (fst e))).
Proof.
  intros HL HF e Hi. rewrite Forall_forall in HF. destruct (HF e Hi) as [H1 H2].
  pose proof (ity_imin L HL) as Ei.
  assert (H : forall z, (0 <= z < imax L)%Z -> formats (fmt_int L) z (dec z)).
  { intros z Hz. apply formats_int; [exact HL| |].
    - unfold inrange. apply andb_true_intro; split; apply Z.leb_le; [destruct (isigned L); lia|lia].
    - intros Es. rewrite Es in Ei. lia. }
  split; apply H; assumption.
Qed.

Lemma perm_bounds {A} (es : list A) parts : concat parts = seq 0 (length es) -> Forall (Forall (fun i => i < length es)) parts.
Proof.
  intros E. apply Forall_forall. intros p Hp. apply Forall_forall. intros i Hi.
  assert (H : In i (concat parts)) by (apply in_concat; eauto). rewrite E in H. apply in_seq in H. lia.
Qed.

Lemma pick_ordered {A} (es : list A) parts : concat parts = seq 0 (length es) -> pick es (concat parts) = es.
Proof. intros ->. apply pick_seq. Qed.

(** Unweighted round trip. *)
Lemma round_unweighted L O (es : list (Z * Z * unit)) c parts sched T sched' pg :
  is_ity L -> is_ity O -> holds c es -> Forall (label_ok L) es -> es <> [] ->
  (Z.of_nat (length es) <= imax O)%Z -> concat parts = seq 0 (length es) ->
  off_page pg (coo_text dec None es) -> 1 <= T ->
  exists s c', coo_write (fmt_int L) None c parts sched = Ok s /\
    read_el L O None no_flags (mkMem s pg) 0 (length s) T sched' = Ok c' /\ holds c' es.
Proof.
  intros HL HO Hc HF Hne Hm Hp Hpg HT.
  destruct (coo_write_ok (fmt_int L) None c es dec (fun _ => []) Hc ltac:(discriminate)
    (formats_labels L es HL HF) ltac:(discriminate) parts sched (perm_bounds es parts Hp)) as (f & ps & _ & _ & _ & _ & E).
  { rewrite Hp. destruct es; [congruence|discriminate]. }
  rewrite (pick_ordered es parts Hp) in E. cbv zeta in E.
  destruct (edge_list_exact L O (file_of None es) pg T sched') as (c' & Er & H1 & H2 & H3); auto.
  - apply (file_of_wf L); [exact HF|]. apply Forall_forall. intros e _. split; [constructor|exact I].
  - apply file_of_fit; exact HF.
  - rewrite (file_of_pairs L) by exact HF. rewrite map_length. exact Hm.
  - rewrite file_of_text. exact Hpg.
  - rewrite file_of_text in Er. rewrite (file_of_pairs L) in H1, H2, H3 by exact HF. rewrite map_length in H1. rewrite map_map in H2, H3.
    exists (coo_text dec None es), c'. split; [exact E|]. split; [exact Er|]. split; [exact H1|]. split; [exact H2|exact H3].
Qed.

Lemma round_weighted k (fm : fmt (wtype k)) (tw : wtype k -> list byte) (rw : wtype k -> wtype k) L O (es : list (Z * Z * wtype k)) c parts sched T sched' pg :
  wf_kind k -> (forall e, In e es -> formats fm (snd e) (tw (snd e))) ->
  (forall e, In e es -> rest (ch_sp :: tw (snd e)) /\ wpost k (ch_sp :: tw (snd e)) (rw (snd e))) ->
  is_ity L -> is_ity O -> holds c es -> holds_weights c es -> Forall (label_ok L) es -> es <> [] ->
  (Z.of_nat (length es) <= imax O)%Z -> concat parts = seq 0 (length es) ->
  off_page pg (coo_text dec (Some tw) es) -> 1 <= T ->
  exists s c', coo_write (fmt_int L) (Some fm) c parts sched = Ok s /\
    s = coo_text dec (Some tw) es /\
    read_el L O (Some (wreader k)) no_flags (mkMem s pg) 0 (length s) T sched' = Ok c' /\
    holds c' es /\ co_w c' = map (fun e => Some (rw (snd e))) es.
Proof.
  intros Hk Hfm Hpost HL HO Hc Hcw HF Hne Hm Hp Hpg HT.
  destruct (coo_write_ok (fmt_int L) (Some fm) c es dec tw Hc (fun _ => Hcw)
    (formats_labels L es HL HF) ltac:(intros f e Ef; injection Ef as <-; apply Hfm) parts sched (perm_bounds es parts Hp)) as (f & ps & _ & _ & _ & _ & E).
  { rewrite Hp. destruct es; [congruence|discriminate]. }
  rewrite (pick_ordered es parts Hp) in E. cbv zeta in E.
  set (es' := map (fun e => (fst e, rw (snd e))) es : list (Z * Z * wtype k)).
  assert (Htr : triples (file_of (Some tw) es) (map snd es') = es').
  { unfold triples. rewrite (file_of_pairs L) by exact HF. unfold es'. rewrite !map_map. cbn [snd]. clear.
    induction es as [|[[x y] w] es IH]; [reflexivity|]. cbn [map combine fst snd]. rewrite IH. reflexivity. }
  assert (Hst : stored no_flags es' = es') by apply stored_no_flags.
  destruct (edge_list_weights k L O no_flags (file_of (Some tw) es) (map snd es') pg T sched') as (c' & Er & H1 & H2); auto.
  - unfold weights_are, file_of, es'. cbn [el_lines]. rewrite !map_map. cbn [snd line_of l_post post_of].
    rewrite <- Forall_forall in Hpost. clear - Hpost. induction Hpost as [|e es He HF IH]; cbn [map]; constructor; [apply He|exact IH].
  - left. apply Forall_forall. intros [[x y] w] _. unfold keeps. cbn. discriminate.
  - apply (file_of_wf L); [exact HF|]. apply Forall_forall. intros e He. apply Hpost; exact He.
  - apply file_of_fit; exact HF.
  - rewrite Htr, Hst. unfold es'. rewrite map_length. exact Hm.
  - rewrite file_of_text. exact Hpg.
  - rewrite file_of_text in Er. rewrite Htr, Hst in H1, H2.
    exists (coo_text dec (Some tw) es), c'. split; [exact E|]. split; [reflexivity|]. split; [exact Er|].
    unfold holds, holds_weights, es' in *. rewrite map_length, !map_map in H1. rewrite map_map in H2. cbn [fst snd] in *. split; assumption.
Qed.

(** Integer weights. *)
Lemma int_post t z : is_ity t -> inrange t z = true -> (isigned t = true -> z <> imin t) ->
  rest (ch_sp :: dec z) /\
  wpost (if isigned t then WSigned t else WUnsigned t) (ch_sp :: dec z)
    (match isigned t as b return wtype (if b then WSigned t else WUnsigned t) with true => z | false => z end).
Proof.
  intros Ht Hr Hm. unfold inrange in Hr. apply andb_prop in Hr as [H1 H2]. apply Z.leb_le in H1, H2.
  pose proof (ity_imin t Ht) as Ei.
  assert (Hd : forall ds, digits ds -> Forall (fun c => is_nl c = false) ds).
  { intros ds [_ Hds]. eapply Forall_impl; [|exact Hds]. intros c Hc. unfold is_digit, is_nl, ch_0, ch_9, ch_nl in *. lia. }
  assert (Hnil : rest []) by (split; [constructor|exact I]).
  assert (Hsp : separator [ch_sp]) by (split; [discriminate|constructor; [repeat split|constructor]]).
  assert (Hsg : sgn_sep [ch_sp]) by (split; [exact Hsp|constructor; [split; reflexivity|constructor]]).
  unfold dec. destruct (Z.ltb_spec z 0) as [Hz|Hz].
  - destruct (isigned t) eqn:Es; [|lia]. specialize (Hm eq_refl).
    destruct (dec_abs_canonical (- z) ltac:(lia)) as (D1 & D2 & _). split.
    + split; [constructor; [reflexivity|constructor; [reflexivity|apply Hd; exact D1]]|reflexivity].
    + cbn [wpost]. split; [|lia]. pose proof (post_signed_minus [ch_sp] (dec_abs (- z)) [] Hsg D1 Hnil) as P.
      rewrite app_nil_r, D2, Z.opp_involutive in P. exact P.
  - destruct (dec_abs_canonical z Hz) as (D1 & D2 & _). split.
    + split; [constructor; [reflexivity|apply Hd; exact D1]|reflexivity].
    + destruct (isigned t) eqn:Es; cbn [wpost].
      * specialize (Hm eq_refl). split; [|lia]. pose proof (post_signed_pos [ch_sp] (dec_abs z) [] Hsg D1 Hnil) as P.
        rewrite app_nil_r, D2 in P. exact P.
      * split; [|lia]. pose proof (post_unsigned_intro [ch_sp] (dec_abs z) [] Hsp D1 Hnil) as P.
        rewrite app_nil_r, D2 in P. exact P.
Qed.

(** Floating-point weights. *)
Definition real_lit (r : realstr) : fplit :=
  match r with
  | RSpecial _ _ => mkFplit SNone [] None None
  | RFinite neg sn dp =>
      let n := length (stb_chars 0 0 r) in
      let body := if neg then skipn 1 (stb_chars 0 0 r) else stb_chars 0 0 r in
      mkFplit (if neg then SMinus else SNone) (firstn (length body - 7) body) (Some (skipn (length body - 6) body)) None
  end.

Lemma fp_post F r : wf_real r ->
  rest (ch_sp :: stb_chars 0 0 r) /\ fplit_text (real_lit r) = stb_chars 0 0 r /\ wf_fplit (real_lit r) /\
  post_float (ch_sp :: stb_chars 0 0 r) (real_lit r) /\
  wpost (WFloat F) (ch_sp :: stb_chars 0 0 r) (fp_value F (real_lit r)).
Proof.
  intros Hwf. destruct r as [|neg sn dp]; [destruct Hwf|]. destruct Hwf as [Hd Hne].
  destruct (stb_layout 0 0 neg sn dp Hd Hne) as (ip & fp & E & [Hi1 Hi2] & Hf & Hl & Hv & _).
  assert (Elit : real_lit (RFinite neg sn dp) = mkFplit (if neg then SMinus else SNone) ip (Some fp) None).
  { unfold real_lit. rewrite E.
    assert (Eb : (if neg then skipn 1 ((if neg then [ch_minus] else []) ++ ip ++ ch_dot :: fp) else (if neg then [ch_minus] else []) ++ ip ++ ch_dot :: fp) = ip ++ ch_dot :: fp) by (destruct neg; reflexivity).
    rewrite Eb. rewrite app_length. cbn [length]. rewrite Hl.
    replace (length ip + 7 - 7) with (length ip + 0) by lia. replace (length ip + 7 - 6) with (length ip + 1) by lia.
    rewrite firstn_app_2. cbn [firstn]. rewrite app_nil_r. rewrite skipn_app, skipn_all2 by lia.
    replace (length ip + 1 - length ip) with 1 by lia. reflexivity. }
  rewrite Elit. assert (Hnl : forall ds, Forall (fun c => is_digit c = true) ds -> Forall (fun c => is_nl c = false) ds).
  { intros ds Hds. eapply Forall_impl; [|exact Hds]. intros c Hc. unfold is_digit, is_nl, ch_0, ch_9, ch_nl in *. lia. }
  assert (Et : fplit_text (mkFplit (if neg then SMinus else SNone) ip (Some fp) None) = stb_chars 0 0 (RFinite neg sn dp)).
  { rewrite E. unfold fplit_text. cbn [fl_sign fl_int fl_frac fl_exp frac_text exp_text]. rewrite app_nil_r. destruct neg; reflexivity. }
  assert (Hw : wf_fplit (mkFplit (if neg then SMinus else SNone) ip (Some fp) None)).
  { repeat split; cbn [fl_int fl_frac fl_exp]; auto. }
  assert (Hp : post_float (ch_sp :: stb_chars 0 0 (RFinite neg sn dp)) (mkFplit (if neg then SMinus else SNone) ip (Some fp) None)).
  { pose proof (post_float_intro [ch_sp] _ [] ltac:(constructor; [split; reflexivity|constructor]) Hw ltac:(constructor) I) as P.
    rewrite Et, app_nil_r in P. exact P. }
  split; [|split; [exact Et|split; [exact Hw|split; [exact Hp|]]]].
  - split; [|reflexivity]. constructor; [reflexivity|]. rewrite E. apply Forall_app; split; [destruct neg; repeat constructor|].
    apply Forall_app; split; [apply Hnl; exact Hi2|]. constructor; [reflexivity|apply Hnl; exact Hf].
  - exists (mkFplit (if neg then SMinus else SNone) ip (Some fp) None). split; [exact Hp|reflexivity].
Qed.

Lemma static_concat n T : 1 <= T -> concat (static_parts n T) = seq 0 n.
Proof.
  intros HT. unfold static_parts.
  assert (Hmono : forall t, static_start n T t <= static_start n T (S t)) by (intros t; unfold static_start; lia).
  assert (H : forall k, concat (map (fun t => seq (static_start n T t) (static_start n T (S t) - static_start n T t)) (seq 0 k)) = seq 0 (static_start n T k)).
  { induction k as [|k IH]; [unfold static_start; reflexivity|].
    rewrite seq_S, map_app, concat_app, IH. cbn [map concat plus]. rewrite app_nil_r.
    assert (Hl : static_start n T (S k) = static_start n T k + (static_start n T (S k) - static_start n T k)) by (specialize (Hmono k); lia).
    rewrite Hl at 2. rewrite seq_app. reflexivity. }
  rewrite H. f_equal. unfold static_start. pose proof (Nat.mod_upper_bound n T ltac:(lia)). pose proof (Nat.div_mod n T ltac:(lia)). lia.
Qed.
