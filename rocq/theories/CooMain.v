(** * CooMain: the parallel edge-list reader on well-formed text *)

From Verif Require Import Base Reader Sched SchedLemmas Spec ReaderLemmas Coo CooLemmas CooExec CooSplit.

(** ** Generic list facts *)
Lemma mapM_ok {A B} (f : A -> res B) (g : A -> B) l :
  (forall a, In a l -> f a = Ok (g a)) -> mapM f l = Ok (map g l).
Proof.
  induction l as [|a l IH]; intros H; [reflexivity|]. cbn [mapM map].
  rewrite (H a (or_introl eq_refl)). cbn [bind]. rewrite IH; [reflexivity|].
  intros b Hb; apply H; right; exact Hb.
Qed.

Lemma mapM_map {A B C} (f : B -> res C) (h : A -> B) l : mapM f (map h l) = mapM (fun a => f (h a)) l.
Proof. induction l as [|a l IH]; [reflexivity|]. cbn [mapM map]. rewrite IH. reflexivity. Qed.

Lemma combine_map {A B C} (f : A -> B) (g : A -> C) l :
  combine (map f l) (map g l) = map (fun a => (f a, g a)) l.
Proof. induction l as [|a l IH]; [reflexivity|]. cbn. rewrite IH. reflexivity. Qed.

Lemma prefix_sums_seq (P : nat -> nat) (c : nat -> nat) n : forall a,
  (forall t, a <= t < a + n -> P (S t) = P t + c t) ->
  prefix_sums (P a) (map c (seq a n)) = map P (seq a n).
Proof.
  induction n as [|n IH]; intros a H; [reflexivity|]. cbn [seq map prefix_sums].
  f_equal. rewrite <- (H a) by lia. apply IH. intros t Ht; apply H; lia.
Qed.

Lemma sum_nat_seq (P : nat -> nat) (c : nat -> nat) n : forall a,
  (forall t, a <= t < a + n -> P (S t) = P t + c t) ->
  P a + sum_nat (map c (seq a n)) = P (a + n).
Proof.
  induction n as [|n IH]; intros a H; [cbn; rewrite !Nat.add_0_r; reflexivity|]. cbn [seq map].
  unfold sum_nat; cbn [fold_right]; fold (sum_nat (map c (seq (S a) n))).
  rewrite Nat.add_assoc, <- (H a) by lia. rewrite IH; [f_equal; lia|]. intros t Ht; apply H; lia.
Qed.

Definition slice {A} (a b : nat) (l : list A) : list A := firstn (b - a) (skipn a l).

Lemma firstn_slice {A} a b (l : list A) : a <= b -> firstn a l ++ slice a b l = firstn b l.
Proof.
  intros H. unfold slice. revert b l H; induction a as [|a IH]; intros b l H; [cbn; f_equal; lia|].
  destruct b as [|b]; [lia|]. destruct l as [|c l]; [destruct (S b - S a); reflexivity|].
  cbn [firstn skipn app Nat.sub]. f_equal. apply IH. lia.
Qed.

Lemma slice_split {A} a b (l : list A) : a <= b -> l = firstn a l ++ slice a b l ++ skipn b l.
Proof. intros H. rewrite app_assoc, firstn_slice by exact H. symmetry; apply firstn_skipn. Qed.

Lemma concat_slices {A} (K : nat -> nat) (l : list A) n :
  (forall t, t < n -> K t <= K (S t)) ->
  firstn (K 0) l ++ concat (map (fun t => slice (K t) (K (S t)) l) (seq 0 n)) = firstn (K n) l.
Proof.
  induction n as [|n IH]; intros H; [cbn; apply app_nil_r|].
  rewrite seq_S, map_app, concat_app, app_assoc, IH by (intros; apply H; lia). cbn [map concat plus].
  rewrite app_nil_r. apply firstn_slice. apply H; lia.
Qed.

Lemma fop_seq (R : nat -> nat -> Prop) n : forall a,
  (forall i j, a <= i < j -> j < a + n -> R i j) -> ForallOrdPairs R (seq a n).
Proof.
  induction n as [|n IH]; intros a H; [constructor|]. cbn [seq]. constructor.
  - apply Forall_forall. intros j Hj. apply in_seq in Hj. apply H; lia.
  - apply IH. intros i j Hi Hj. apply H; lia.
Qed.

Lemma fop_map {A B} (R : B -> B -> Prop) (f : A -> B) l :
  ForallOrdPairs (fun a b => R (f a) (f b)) l -> ForallOrdPairs R (map f l).
Proof.
  induction 1 as [|a l Ha Hl IH]; [constructor|]. cbn [map]. constructor; [|exact IH].
  apply Forall_map. exact Ha.
Qed.

(** ** Maxima *)
Lemma fold_max_ge l a : (a <= fold_left Z.max l a)%Z.
Proof. revert a; induction l as [|b l IH]; intros a; cbn; [lia|]. specialize (IH (Z.max a b)). lia. Qed.

Lemma fold_max_from l a b : fold_left Z.max l (Z.max a b) = Z.max a (fold_left Z.max l b).
Proof. revert a b; induction l as [|c l IH]; intros a b; cbn; [reflexivity|]. rewrite <- IH. f_equal. lia. Qed.

Lemma fold_max_max_of l a : (0 <= a)%Z -> fold_left Z.max l a = Z.max a (max_of l).
Proof.
  unfold max_of. revert a; induction l as [|b l IH]; intros a Ha; cbn; [lia|].
  rewrite IH by lia. lia.
Qed.

Lemma max_of_nonneg l : (0 <= max_of l)%Z.
Proof. unfold max_of; induction l; cbn; lia. Qed.

Lemma max_of_app a b : max_of (a ++ b) = Z.max (max_of a) (max_of b).
Proof. pose proof (max_of_nonneg b). unfold max_of in *. induction a as [|x a IH]; cbn; [lia|]. rewrite IH. lia. Qed.

Lemma max_of_le l b : (0 <= b)%Z -> Forall (fun x => x <= b)%Z l -> (max_of l <= b)%Z.
Proof. intros Hb; unfold max_of; induction 1; cbn; lia. Qed.

(** Combining the private maxima with 0 gives the maximum of everything. *)
Lemma reduce_max lo (ls : list (list Z)) : (lo <= 0)%Z ->
  fold_left Z.max (map (fun l => fold_left Z.max l lo) ls) 0%Z = max_of (concat ls).
Proof.
  intros Hlo.
  assert (G : forall a, (0 <= a)%Z ->
    fold_left Z.max (map (fun l => fold_left Z.max l lo) ls) a = Z.max a (max_of (concat ls))).
  { induction ls as [|l ls IH]; intros a Ha; cbn [map fold_left concat].
    - cbn; lia.
    - rewrite IH by lia. rewrite max_of_app.
      assert (E : Z.max a (fold_left Z.max l lo) = Z.max a (max_of l)).
      { rewrite <- fold_max_from. rewrite Z.max_l by lia. apply fold_max_max_of; exact Ha. }
      lia. }
  rewrite G by lia. pose proof (max_of_nonneg (concat ls)). lia.
Qed.

(** ** The reader *)
Section Main.
  Context {W : Type}.
  Variables L O : ity.
  Hypothesis HL : is_ity L.
  Hypothesis HO : is_ity O.
  Variable wr : option (wrd W).
  Hypothesis Hwe : owend wr.
  Variable fl : flags.
  Let sym := f_sym fl.
  Let ut := f_ut fl.
  Let sl := f_sl fl.
  Variable m : mem.
  Hypothesis Hslack : slack m.
  Variable d0 : nat.
  Variable g : list byte.
  Variable ps : list (line * W).
  Let ls := map fst ps.
  Let e := flen m.
  Hypothesis Hh : has m d0 (g ++ text ls).
  Hypothesis He : d0 + length (g ++ text ls) = e.
  Hypothesis Hg : gap (isnil ls) g.
  Hypothesis Hw : wf_lines ls.
  Hypothesis Hfit : Forall (fun p => dval (l_x (fst p)) <= imax L /\ dval (l_y (fst p)) <= imax L)%Z ps.
  Hypothesis Hwok : Forall (fun p => owok wr (l_post (fst p)) (snd p)) ps.
  Variable T : nat.
  Hypothesis HT : 1 <= T.

  Let size := length (g ++ text ls).

  Lemma load_e : load m e = Ok 0%Z.
  Proof. apply load_eof; exact Hslack. Qed.

  (** The index of the first line of thread [t]. *)
  Definition K (t : nat) : nat := if t =? 0 then 0 else kf g ls (t * size / T).

  Lemma pos_le t : t <= T -> t * size / T <= size.
  Proof.
    intros Ht. apply Nat.div_le_upper_bound; [lia|]. apply Nat.mul_le_mono_r. exact Ht.
  Qed.

  Lemma K_mono t : t < T -> K t <= K (S t).
  Proof.
    intros Ht. unfold K. destruct t as [|t]; [apply Nat.le_0_l|]. cbn [Nat.eqb].
    apply kf_mono. apply Nat.div_le_mono; [lia|]. apply Nat.mul_le_mono_r. lia.
  Qed.

  Lemma K_0 : K 0 = 0.
  Proof. reflexivity. Qed.

  Lemma K_T : K T = length ps.
  Proof.
    unfold K. destruct (Nat.eqb_spec T 0) as [E0|E0]; [lia|].
    rewrite Nat.mul_comm, Nat.div_mul by exact E0. rewrite kf_end by apply le_n.
    unfold ls. apply map_length.
  Qed.

  Lemma K_le t : t <= T -> K t <= length ps.
  Proof. intros _. unfold K. destruct (t =? 0); [lia|]. rewrite <- (map_length fst ps). apply kf_le. Qed.

  Lemma K_mono2 i j : i <= j -> j <= T -> K i <= K j.
  Proof.
    intros Hij Hj. induction Hij as [|j Hij IH]; [lia|]. pose proof (K_mono j ltac:(lia)). specialize (IH ltac:(lia)). lia.
  Qed.

  Definition offs (k : nat) : nat := off d0 g ls k.

  Lemma offs_le k : offs k <= e.
  Proof.
    unfold offs, off. rewrite <- He, app_length. 
    rewrite <- (firstn_skipn k ls) at 2. rewrite text_app, app_length. lia.
  Qed.

  Lemma chunk_at t : t < T -> el_chunk m d0 e T t = Ok (offs (K t), offs (K (S t))).
  Proof.
    intros Ht. unfold el_chunk. rewrite (proj2 (Nat.ltb_ge e d0)) by (clear - He; lia); cbn [andb].
    assert (Esz : e - d0 = size) by (unfold size; lia). rewrite Esz.
    pose proof (pos_le t ltac:(lia)) as Hp1. pose proof (pos_le (t + 1) ltac:(lia)) as Hp2.
    assert (Eadv : forall p, p <= size -> advance e d0 p = d0 + p) by (intros p Hp; unfold advance, size in *; lia).
    rewrite !Eadv by assumption. unfold line_boundary.
    pose proof (next_line_kf m e 0%Z load_e eq_refl ls d0 g) as NL.
    rewrite NL by assumption. cbn [bind].
    assert (Es : (if t =? 0 then move_to_first_int m e (d0 + t * size / T) else next_line m e (d0 + t * size / T))
                 = Ok (offs (K t))).
    { unfold K. destruct (Nat.eqb_spec t 0) as [->|Hne].
      - rewrite Nat.mul_0_l, Nat.div_0_l, Nat.add_0_r by lia.
        rewrite (move_to_first_int_gap m (isnil ls) e d0 g).
        + unfold offs, off; cbn. f_equal; lia.
        + exact Hg.
        + apply has_app in Hh; apply Hh.
        + apply ends_text with (ce := 0%Z) (ls := ls); auto using load_e.
          * apply has_app in Hh; apply Hh.
          * rewrite app_length in He; lia.
        + intros Hn. rewrite app_length in He. destruct ls; [cbn in He; lia|discriminate].
      - apply NL; assumption. }
    rewrite Es. cbn [bind]. f_equal. f_equal.
    assert (EK : kf g ls ((t + 1) * size / T) = K (S t)).
    { unfold K. rewrite Nat.add_1_r. reflexivity. }
    rewrite EK. fold (offs (K (S t))). unfold smaller_end. pose proof (offs_le (K (S t))).
    destruct (Nat.ltb_spec (offs (K (S t))) e); lia.
  Qed.

  (** Lines [B] followed by [C] to the end of the file. *)
  Lemma at_lines_text : forall (B C : list (line * W)) d,
    has m d (text (map fst (B ++ C))) -> d + length (text (map fst (B ++ C))) = e ->
    wf_lines (map fst (B ++ C)) ->
    Forall (fun p => dval (l_x (fst p)) <= imax L /\ dval (l_y (fst p)) <= imax L)%Z (B ++ C) ->
    Forall (fun p => owok wr (l_post (fst p)) (snd p)) (B ++ C) ->
    at_lines L wr m (d + length (text (map fst B))) d B.
  Proof.
    induction B as [|p B IH]; intros C d H1 H2 H3 H4 H5.
    - cbn. lia.
    - cbn [app map] in H1, H2, H3. apply wf_lines_cons in H3 as [Hwl H3].
      inversion H4 as [|? ? Hf4 H4']; subst. inversion H5 as [|? ? Hf5 H5']; subst.
      unfold text in H1, H2. cbn [map concat] in H1, H2.
      fold (text (map fst (B ++ C))) in H1, H2. rewrite app_length in H2.
      apply has_app in H1 as [H1a H1b].
      cbn [at_lines].
      assert (Elen : length (text (map fst (p :: B))) = length (line_text (fst p)) + length (text (map fst B))).
      { unfold text; cbn [map concat]. rewrite app_length. reflexivity. }
      rewrite Elen. split.
      + exists (isnil (map fst (B ++ C))). split.
        * exact Hwl.
        * apply Hf4.
        * apply Hf4.
        * exact Hf5.
        * exact H1a.
        * destruct (ends_text m e 0%Z load_e eq_refl (d + length (line_text (fst p))) (map fst (B ++ C)) H3 H1b ltac:(lia))
            as (c & Hl & Hc & Hle & Hst).
          exists c. split; [exact Hl|]. split; [exact Hc|]. split; [lia|].
          intros Hlt. apply Hst. rewrite map_app, text_app, app_length in H2. lia.
        * intros Hn. destruct B; [cbn; lia|discriminate].
      + replace (d + (length (line_text (fst p)) + length (text (map fst B))))
          with (d + length (line_text (fst p)) + length (text (map fst B))) by lia.
        apply IH with (C := C); auto. lia.
  Qed.

  Definition chunk (t : nat) : list (line * W) := slice (K t) (K (S t)) ps.

  Lemma offs_slice a b : a <= b -> offs b = offs a + length (text (map fst (slice a b ps))).
  Proof.
    intros Hab. unfold offs, off, ls. rewrite !firstn_map.
    rewrite <- (firstn_slice a b ps Hab), map_app, text_app, app_length. lia.
  Qed.

  Lemma at_chunk t : t < T -> at_lines L wr m (offs (K (S t))) (offs (K t)) (chunk t).
  Proof.
    intros Ht. pose proof (K_mono t Ht) as Hm. rewrite (offs_slice _ _ Hm).
    unfold chunk.
    pose proof (slice_split (K t) (K (S t)) ps Hm) as Esp.
    assert (Els : text ls = text (map fst (firstn (K t) ps)) ++ text (map fst (slice (K t) (K (S t)) ps ++ skipn (K (S t)) ps))).
    { unfold ls. rewrite Esp at 1. rewrite map_app, text_app. reflexivity. }
    apply at_lines_text with (C := skipn (K (S t)) ps).
    - apply has_app in Hh as [_ Hh']. rewrite Els in Hh'. apply has_app in Hh' as [_ Hh'].
      unfold offs, off, ls. rewrite firstn_map.
      replace (d0 + length g + length (text (map fst (firstn (K t) ps)))) with
        (d0 + length g + length (text (map fst (firstn (K t) ps)))) by lia. exact Hh'.
    - rewrite <- He, app_length, Els, app_length. unfold offs, off, ls. rewrite firstn_map. lia.
    - assert (Hsuf : forall a b, wf_lines (a ++ b) -> wf_lines b).
      { clear. induction a as [|x a IH]; intros b H; [exact H|]. cbn [app] in H. apply wf_lines_cons in H as [_ H]. auto. }
      apply (Hsuf (map fst (firstn (K t) ps))). rewrite <- map_app. rewrite <- Esp. exact Hw.
    - assert (Hs : Forall (fun p => dval (l_x (fst p)) <= imax L /\ dval (l_y (fst p)) <= imax L)%Z
        (firstn (K t) ps ++ slice (K t) (K (S t)) ps ++ skipn (K (S t)) ps)) by (rewrite <- Esp; exact Hfit).
      apply Forall_app in Hs; apply Hs.
    - assert (Hs : Forall (fun p => owok wr (l_post (fst p)) (snd p))
        (firstn (K t) ps ++ slice (K t) (K (S t)) ps ++ skipn (K (S t)) ps)) by (rewrite <- Esp; exact Hwok).
      apply Forall_app in Hs; apply Hs.
  Qed.

  Lemma load_boundary t : t < T -> exists ce, load m (offs (K (S t))) = Ok ce /\ (ce = 0%Z \/ is_digit ce = true).
  Proof.
    intros Ht. pose proof (K_le (S t) ltac:(lia)) as Hk.
    destruct (skipn (K (S t)) ps) as [|p rest] eqn:Es.
    - exists 0%Z. split; [|left; reflexivity].
      assert (offs (K (S t)) = e).
      { unfold offs, off, ls. rewrite firstn_map.
        rewrite <- (app_nil_r (firstn (K (S t)) ps)), <- Es, firstn_skipn. fold ls. rewrite app_length in He. lia. }
      rewrite H. apply load_e.
    - assert (Els : text ls = text (map fst (firstn (K (S t)) ps)) ++ line_text (fst p) ++ text (map fst rest)).
      { unfold ls. rewrite <- (firstn_skipn (K (S t)) ps) at 1. rewrite Es, map_app, text_app. reflexivity. }
      assert (Hwp : exists fin, wf_line fin (fst p)).
      { clear - Hw Es. unfold ls in Hw. rewrite <- (firstn_skipn (K (S t)) ps), Es in Hw.
        induction (firstn (K (S t)) ps) as [|q l IH].
        - cbn [app map] in Hw. apply wf_lines_cons in Hw as [H _]. eauto.
        - cbn [app map] in Hw. apply wf_lines_cons in Hw as [_ H]. auto. }
      destruct Hwp as (fin & (Hne & Hd) & _).
      apply has_app in Hh as [_ Hh']. rewrite Els in Hh'. apply has_app in Hh' as [_ Hh'].
      unfold line_text in Hh'. rewrite <- !app_assoc in Hh'.
      destruct (l_x (fst p)) as [|c x]; [congruence|]. cbn [app] in Hh'.
      exists c. split; [|right; apply forall_hd in Hd; exact Hd].
      unfold offs, off, ls. rewrite firstn_map. eapply load_has; exact Hh'.
  Qed.

  Lemma at_lines_len e' d qs : at_lines L wr m e' d qs -> length qs <= e' - d.
  Proof.
    revert d; induction qs as [|p qs IH]; intros d H; [cbn; lia|].
    pose proof (at_lines_le _ _ _ _ _ _ H) as Hle. destruct H as [_ H].
    specialize (IH _ H). pose proof (at_lines_le _ _ _ _ _ _ H). pose proof (line_text_pos (fst p)). cbn [length]. lia.
  Qed.

  Lemma pass1_ok : el_pass1 L wr fl m d0 e T =
    Ok (map (fun t => (offs (K t), offs (K (S t)))) (seq 0 T), map (fun t => total fl (chunk t)) (seq 0 T)).
  Proof.
    unfold el_pass1.
    rewrite (mapM_ok _ (fun t => (offs (K t), offs (K (S t))))) by (intros t Ht; apply in_seq in Ht; apply chunk_at; lia).
    cbn [bind]. rewrite mapM_map. cbn [fst snd].
    rewrite (mapM_ok _ (fun t => total fl (chunk t))); [reflexivity|].
    intros t Ht. apply in_seq in Ht. pose proof (at_chunk t ltac:(lia)) as Hat.
    destruct (load_boundary t ltac:(lia)) as (ce & Hce & Hce').
    pose proof (at_lines_len _ _ _ Hat).
    rewrite (count_loop_run L HL wr fl m _ ce Hce Hce' (length (chunk t)) Hwe (chunk t)); auto; lia.
  Qed.

  Definition P (t : nat) : nat := total fl (firstn (K t) ps).

  Lemma P_S t : t < T -> P (S t) = P t + total fl (chunk t).
  Proof. intros Ht. unfold P, chunk. rewrite <- total_app, firstn_slice by (apply K_mono; exact Ht). reflexivity. Qed.

  Lemma P_0 : P 0 = 0.
  Proof. reflexivity. Qed.

  Lemma P_T : P T = total fl ps.
  Proof. unfold P. rewrite K_T, firstn_all. reflexivity. Qed.

  Lemma P_mono2 i j : i <= j -> j <= T -> P i <= P j.
  Proof.
    intros Hij Hj. induction Hij as [|j Hij IH]; [lia|]. rewrite P_S by lia. specialize (IH ltac:(lia)). lia.
  Qed.

  Lemma counts_sum : sum_nat (map (fun t => total fl (chunk t)) (seq 0 T)) = total fl ps.
  Proof.
    pose proof (sum_nat_seq P (fun t => total fl (chunk t)) T 0) as H. rewrite P_0 in H.
    cbn [plus] in H. rewrite H, P_T; [reflexivity|]. intros t Ht; apply P_S; lia.
  Qed.

  Definition prog (t : nat) : list (cinstr W) := codesT wr fl m (offs (K (S t))) (P t) (chunk t).

  Lemma pass2_ok :
    el_pass2 L wr fl m (map (fun t => (offs (K t), offs (K (S t)))) (seq 0 T)) (map (fun t => total fl (chunk t)) (seq 0 T)) =
    Ok (map (fun t => (prog t, mxr fl (imin L) (chunk t), mxc fl (imin L) (chunk t))) (seq 0 T)).
  Proof.
    unfold el_pass2.
    pose proof (prefix_sums_seq P (fun t => total fl (chunk t)) T 0) as Hps. rewrite P_0 in Hps.
    rewrite Hps by (intros t Ht; apply P_S; lia).
    rewrite combine_map, mapM_map. cbn [fst snd]. apply mapM_ok.
    intros t Ht. apply in_seq in Ht. pose proof (at_chunk t ltac:(lia)) as Hat.
    destruct (load_boundary t ltac:(lia)) as (ce & Hce & Hce').
    pose proof (at_lines_len _ _ _ Hat).
    rewrite (set_loop_run L HL wr fl m _ ce Hce Hce' (length (chunk t)) Hwe (chunk t)); auto; lia.
  Qed.

  Lemma chunks_concat : concat (map chunk (seq 0 T)) = ps.
  Proof.
    pose proof (concat_slices K ps T K_mono) as H. rewrite K_0, K_T, firstn_all in H. exact H.
  Qed.

  Lemma kents_concat : concat (map (fun t => kents fl (chunk t)) (seq 0 T)) = kents fl ps.
  Proof.
    rewrite <- chunks_concat at 1. induction (seq 0 T) as [|t l IH]; [reflexivity|].
    cbn [map concat]. rewrite IH. unfold kents. rewrite map_app, flat_map_app. reflexivity.
  Qed.

  Lemma max_row_ok : fold_left Z.max (map (fun t => mxr fl (imin L) (chunk t)) (seq 0 T)) 0%Z
    = max_of (map (fun e => fst (fst e)) (kents fl ps)).
  Proof.
    rewrite <- kents_concat, concat_map, map_map.
    pose proof (reduce_max (imin L) (map (fun t => map (fun e => fst (fst e)) (kents fl (chunk t))) (seq 0 T))) as H.
    rewrite map_map in H. unfold mxr. rewrite H; [reflexivity|]. apply ity_facts; exact HL.
  Qed.

  Lemma max_col_ok : fold_left Z.max (map (fun t => mxc fl (imin L) (chunk t)) (seq 0 T)) 0%Z
    = max_of (map (fun e => snd (fst e)) (kents fl ps)).
  Proof.
    rewrite <- kents_concat, concat_map, map_map.
    pose proof (reduce_max (imin L) (map (fun t => map (fun e => snd (fst e)) (kents fl (chunk t))) (seq 0 T))) as H.
    rewrite map_map in H. unfold mxc. rewrite H; [reflexivity|]. apply ity_facts; exact HL.
  Qed.

  (** No thread's weights spill over the end of its range. *)
  Hypothesis Hdrop : wr = None \/ forall t, t < T -> lastdrop fl (chunk t) = false.

  Lemma Hdrop_t t : t < T -> wr = None \/ lastdrop fl (chunk t) = false.
  Proof. intros Ht. destruct Hdrop as [H|H]; [left|right]; auto. Qed.

  Lemma prog_codes t : t < T -> prog t = codes wr fl (P t) (chunk t).
  Proof. intros Ht. apply codesT_codes. apply Hdrop_t; exact Ht. Qed.

  Lemma prog_in t : t < T -> Forall (wr_in (P t) (P (S t))) (prog t).
  Proof.
    intros Ht. rewrite prog_codes by exact Ht. apply codes_in; [lia| |apply Hdrop_t; exact Ht].
    rewrite P_S by exact Ht. lia.
  Qed.

  Lemma progs_indep : ForallOrdPairs (indep cexec) (map prog (seq 0 T)).
  Proof.
    apply fop_map, fop_seq. intros i j Hij Hj. cbn [plus] in Hj.
    intros a b Ha Hb.
    pose proof (prog_in i ltac:(lia)) as Hi. rewrite Forall_forall in Hi. specialize (Hi a Ha).
    pose proof (prog_in j ltac:(lia)) as Hjj. rewrite Forall_forall in Hjj. specialize (Hjj b Hb).
    eapply comm_cinstr; [exact Hi|exact Hjj|]. left. apply P_mono2; lia.
  Qed.

  Lemma progs_concat n : n <= T -> concat (map prog (seq 0 n)) = codes wr fl 0 (firstn (K n) ps).
  Proof.
    induction n as [|n IH]; intros Hn; [reflexivity|].
    rewrite seq_S, map_app, concat_app, IH by lia. cbn [map concat plus]. rewrite app_nil_r.
    rewrite prog_codes by lia. rewrite <- (firstn_slice (K n) (K (S n))) by (apply K_mono; lia).
    rewrite codes_app. reflexivity.
  Qed.

  Definition out : list (Z * Z * W) := flat_map (expand sym ut sl) (map ent ps).

  Definition st_of (o : list (Z * Z * W)) : cst W :=
    mkCst (map (fun e => Some (fst (fst e))) o) (map (fun e => Some (snd (fst e))) o)
          (match wr with None => [] | Some _ => map (fun e => Some (snd e)) o end).

  Lemma run_progs sched :
    run cexec sched (map prog (seq 0 T))
      (mkCst (fresh (length out)) (fresh (length out)) (if is_some wr then fresh (length out) else [])) = Ok (st_of out).
  Proof.
    rewrite run_indep by exact progs_indep. rewrite progs_concat by lia. rewrite K_T, firstn_all.
    set (st0 := mkCst _ _ _).
    assert (Hd : wr = None \/ lastdrop fl ps = false).
    { destruct Hdrop as [H|H]; [left; exact H|right].
      destruct (lastdrop fl ps) eqn:Ed; [|reflexivity]. exfalso.
      assert (Hex : exists t, t < T /\ lastdrop fl (chunk t) = true).
      { assert (G : forall l, lastdrop fl (concat (map chunk l)) = true -> exists t, In t l /\ lastdrop fl (chunk t) = true).
        { clear. induction l as [|t l IH]; cbn [map concat]; [discriminate|]. intros H.
          destruct (concat (map chunk l)) as [|q r] eqn:Ec.
          - rewrite app_nil_r in H. exists t; split; [left; reflexivity|exact H].
          - assert (Ht : lastdrop fl (chunk t ++ q :: r) = lastdrop fl (q :: r)).
            { clear H. induction (chunk t) as [|a c IHc]; [reflexivity|]. cbn [app]. destruct c as [|b c]; [reflexivity|exact IHc]. }
            rewrite Ht in H. destruct (IH H) as (t' & Hin & Hd). exists t'; split; [right; exact Hin|exact Hd]. }
        rewrite <- chunks_concat in Ed. destruct (G _ Ed) as (t & Hin & Hd). apply in_seq in Hin. exists t; split; [lia|exact Hd]. }
      destruct Hex as (t & Ht & Hl). rewrite H in Hl by exact Ht. discriminate. }
    destruct (exec_codes wr fl (length out) ps [] st0) as (s' & E & Hf).
    - exists (fresh (length out)), (fresh (length out)), (fresh (length out)). unfold st0; cbn [cx cy cw map app length].
      rewrite !fresh_length. destruct wr; cbn [is_some]; auto 10.
    - cbn [length plus]. unfold total, out. unfold sym, ut, sl. lia.
    - exact Hd.
    - cbn [length app] in E. rewrite E. f_equal. destruct Hf as (rx & ry & rw & Hx & Hy & Hlx & Hly & Hwt).
      cbn [app] in *. fold sym ut sl in Hx, Hy, Hlx, Hly, Hwt. fold out in Hx, Hy, Hlx, Hly, Hwt.
      assert (rx = []) by (apply length_zero_iff_nil; lia).
      assert (ry = []) by (apply length_zero_iff_nil; lia). subst rx ry. rewrite app_nil_r in *.
      destruct s' as [sx sy sw]; cbn [cx cy cw] in *. unfold st_of. subst sx sy. f_equal.
      destruct wr; [|exact Hwt]. destruct Hwt as [Hwt Hlw].
      assert (rw = []) by (apply length_zero_iff_nil; lia). subst rw. rewrite app_nil_r in Hwt. exact Hwt.
  Qed.

  Hypothesis Hcount : (Z.of_nat (length out) <= imax O)%Z.

  Definition nr : Z := (max_of (map (fun e => fst (fst e)) (kents fl ps)) + 1)%Z.
  Definition nc : Z := (max_of (map (fun e => snd (fst e)) (kents fl ps)) + 1)%Z.
  Hypothesis Hdims : (nr <= imax L /\ nc <= imax L)%Z.

  Lemma read_el_main sched :
    read_el L O wr fl m d0 e T sched =
    Ok (mkCoo (cx (st_of out)) (cy (st_of out)) (cw (st_of out))
          (Some (Z.max nr nc)) (Some nr) (Some nc) (Z.of_nat (length out))).
  Proof.
    unfold read_el. rewrite pass1_ok. cbn [bind]. rewrite counts_sum.
    assert (Et : total fl ps = length out) by reflexivity. rewrite Et.
    pose proof (ity_facts O HO) as (HO1 & HO2 & _). pose proof (ity_facts L HL) as (HL1 & HL2 & _).
    rewrite wrap_in by (auto; lia).
    unfold coo_alloc. destruct (Z.ltb_spec (Z.of_nat (length out)) 0) as [Hlt|_]; [lia|].
    cbn [bind]. rewrite Nat2Z.id. rewrite pass2_ok. cbn [bind].
    rewrite !map_map. cbn [fst snd].
    change (map (fun x => prog x) (seq 0 T)) with (map prog (seq 0 T)).
    rewrite run_progs. cbn [bind].
    rewrite max_row_ok, max_col_ok.
    fold nr nc.
    assert (Hn : (0 < nr /\ 0 < nc)%Z).
    { unfold nr, nc. pose proof (max_of_nonneg (map (fun e => fst (fst e)) (kents fl ps))).
      pose proof (max_of_nonneg (map (fun e => snd (fst e)) (kents fl ps))). lia. }
    rewrite !arith_in by (auto; lia). cbn [bind]. f_equal. f_equal. f_equal.
    destruct (Z.ltb_spec nc nr); lia.
  Qed.
End Main.
