(** * CrashTextLemmas: interrupted text writes *)

From Coq Require Import Permutation.
From Verif Require Import Base Sched SchedLemmas SchedMore Spec SpecDec SpecText SpecTensorOut SpecCrashText Coo ElSpec Ascii AsciiLemmas WriteLemmas Codec Bin Race RaceLemmas TensorOut WriteGen TensorOutLemmas CrashText.

(** ** Prefixes of interleavings are interleavings of prefixes *)
Section Prefix.
  Context {S I : Type}.
  Variable exec : I -> S -> res S.

  Fixpoint greedy (k : nat) (ps : list (list I)) : list nat :=
    match ps with
    | [] => []
    | p :: ps' => k :: greedy (k - length p) ps'
    end.
  Lemma greedy_length ps : forall k, length (greedy k ps) = length ps.
  Proof using Type. induction ps as [|p ps IH]; intros k; cbn [greedy length]; auto. Qed.
  Lemma firsts_greedy ps : forall k, concat (firsts (greedy k ps) ps) = firstn k (concat ps).
  Proof using Type.
    induction ps as [|p ps IH]; intros k; cbn [greedy concat]; [rewrite firstn_nil; reflexivity|].
    unfold firsts in *. cbn [combine map concat fst snd]. rewrite firstn_app, IH. reflexivity.
  Qed.
  Lemma firsts_length ns (ps : list (list I)) : length ns = length ps -> length (firsts ns ps) = length ps.
  Proof using Type. intros H. unfold firsts. rewrite map_length, combine_length. lia. Qed.
  Lemma firsts_zero (ps : list (list I)) : concat (firsts (map (fun _ => 0) ps) ps) = [].
  Proof using Type. unfold firsts. induction ps as [|p ps IH]; [reflexivity|]. cbn [map combine concat fst snd firstn app]. exact IH. Qed.

  Lemma pop_firsts t : forall (ps : list (list I)) i ps' ns, pop t ps = Some (i, ps') -> length ns = length ps' ->
    exists ns', length ns' = length ps /\ pop t (firsts ns' ps) = Some (i, firsts ns ps').
  Proof using Type.
    induction t as [|t IH]; intros [|p ps] i ps' ns H Hl; cbn [pop] in H; try discriminate.
    - destruct p as [|j p]; [discriminate|]. injection H as <- <-. destruct ns as [|n ns]; [discriminate|].
      exists (Datatypes.S n :: ns). split; [exact Hl|]. unfold firsts. cbn [combine map fst snd firstn pop]. reflexivity.
    - destruct (pop t ps) as [[j qs]|] eqn:E; [|discriminate]. injection H as <- <-. destruct ns as [|n ns]; [discriminate|].
      destruct (IH ps j qs ns E ltac:(cbn in Hl; lia)) as (ns' & Hl' & E'). exists (n :: ns'). split; [cbn; lia|].
      unfold firsts in *. cbn [combine map fst snd pop]. rewrite E'. reflexivity.
  Qed.

  Lemma pop_length t : forall (ps : list (list I)) i ps', pop t ps = Some (i, ps') -> length ps' = length ps.
  Proof using Type.
    induction t as [|t IH]; intros [|p ps] i ps' H; cbn [pop] in H; try discriminate.
    - destruct p; [discriminate|]. injection H as <- <-. reflexivity.
    - destruct (pop t ps) as [[j qs]|] eqn:E; [|discriminate]. injection H as <- <-. cbn [length]. f_equal. eapply IH; exact E.
  Qed.

  Lemma tag_snd_ n (ps : list (list I)) : map snd (tag n ps) = concat ps.
  Proof using Type. apply tag_snd. Qed.

  Lemma prefix_run sched : forall (ps : list (list I)) k, exists ns sched', length ns = length ps /\
    forall s, exec_all exec (firstn k (map snd (trace sched ps))) s = run exec sched' (firsts ns ps) s.
  Proof using Type.
    induction sched as [|t sched IH]; intros ps k; cbn [trace].
    - exists (greedy k ps), []. split; [apply greedy_length|]. intros s. cbn [run]. rewrite firsts_greedy, tag_snd_. reflexivity.
    - destruct (pop t ps) as [[i ps']|] eqn:E; [|apply IH]. cbn [map snd]. destruct k as [|k].
      + exists (map (fun _ => 0) ps), []. split; [apply map_length|]. intros s. cbn [run firstn]. rewrite firsts_zero. reflexivity.
      + destruct (IH ps' k) as (ns & sc & Hl & H). destruct (pop_firsts t ps i ps' ns E Hl) as (ns' & Hl' & E').
        exists ns', (t :: sc). split; [exact Hl'|]. intros s. cbn [firstn exec_all run]. rewrite E'. apply bind_ext. intros a. apply H.
  Qed.

  Lemma firsts_all : forall ns (ps : list (list I)), Forall2 (fun n p => length p <= n) ns ps -> firsts ns ps = ps.
  Proof using Type.
    unfold firsts. induction 1 as [|n p ns ps H HF IH]; [reflexivity|]. cbn [combine map fst snd]. rewrite IH, firstn_all2 by exact H. reflexivity.
  Qed.
End Prefix.

(** ** Values stored *)
Definition vals (a : nat) (txt : list byte) (ps : list put) : Prop :=
  forall p b, In (Put p b) ps -> b = 0%Z \/ exists k, p = Z.of_nat (a + k) /\ nth_error txt k = Some b.

Lemma vals_nil a t : vals a t [].
Proof. intros p b []. Qed.

Lemma vals_app a t1 p1 t2 p2 : vals a t1 p1 -> vals (a + length t1) t2 p2 -> vals a (t1 ++ t2) (p1 ++ p2).
Proof.
  intros H1 H2 p b Hi. apply in_app_or in Hi as [Hi|Hi].
  - destruct (H1 p b Hi) as [H|(k & -> & Hk)]; [left; exact H|]. right. exists k. split; [reflexivity|]. rewrite nth_error_app1; [exact Hk|]. apply nth_error_Some. congruence.
  - destruct (H2 p b Hi) as [H|(k & -> & Hk)]; [left; exact H|]. right. exists (length t1 + k). split; [f_equal; lia|].
    rewrite nth_error_app2 by lia. replace (length t1 + k - length t1) with k by lia. exact Hk.
Qed.

Lemma vals_puts_at txt : forall a, vals a txt (puts_at (Z.of_nat a) txt).
Proof.
  induction txt as [|c txt IH]; intros a; [apply vals_nil|]. cbn [puts_at]. change (c :: txt) with ([c] ++ txt).
  change (Put (Z.of_nat a) c :: puts_at (Z.of_nat a + 1) txt) with ([Put (Z.of_nat a) c] ++ puts_at (Z.of_nat a + 1) txt).
  apply vals_app.
  - intros p b [H|[]]. injection H as <- <-. right. exists 0. split; [f_equal; lia|reflexivity].
  - replace (Z.of_nat a + 1)%Z with (Z.of_nat (a + 1)) by lia. apply IH.
Qed.

Lemma vals_rev a t ps : vals a t ps -> vals a t (rev ps).
Proof. intros H p b Hi. apply H. apply in_rev. exact Hi. Qed.

Lemma puts_at_length l : forall a, length (puts_at a l) = length l.
Proof. induction l as [|b l IH]; intros a; cbn [puts_at length]; auto. Qed.

(** [fm] stores [txt], and [ex] zeros in addition. *)
Definition fvals {V} (fm : fmt V) (v : V) (txt : list byte) (ex : nat) : Prop :=
  forall a, exists ps x, f_put fm (Z.of_nat a) v = Ok (ps, x) /\ vals a txt ps /\ length ps = length txt + ex.

Lemma fvals_int t z : is_ity t -> inrange t z = true -> (isigned t = true -> z <> imin t) -> fvals (fmt_int t) z (dec z) 0.
Proof.
  intros Ht Hr Hm a. unfold inrange in Hr. apply andb_prop in Hr as [H1 H2].
  apply Z.leb_le in H1, H2. pose proof (ity_imin t Ht) as Ei. unfold fmt_int. cbn [f_put].
  assert (HW : forall z, (0 <= z <= imax t)%Z -> write_size t z = Ok (length (dec_abs z))).
  { intros y Hy. rewrite write_size_dec by lia. unfold dec. destruct (Z.ltb_spec y 0); [lia|reflexivity]. }
  unfold write_ascii, get_positive, dec. destruct (Z.ltb_spec z 0) as [H|H].
  - destruct (isigned t) eqn:Es; [|lia]. specialize (Hm eq_refl). cbn [andb].
    rewrite ReaderLemmas.arith_in by (auto; lia). cbn [bind]. rewrite HW by lia. cbn [bind].
    rewrite wdigits_pos; [|lia|apply dfuel_bound; lia|unfold dfuel; lia]. cbn [bind]. do 2 eexists. split; [reflexivity|].
    set (n := length (dec_abs (- z))).
    replace (Z.of_nat a + 1 + Z.of_nat n - 1 - Z.of_nat n + 1)%Z with (Z.of_nat (a + 1)) by lia. split.
    + apply (vals_app a [ch_minus] [Put (Z.of_nat a) ch_minus]); [apply (vals_puts_at [ch_minus] a)|]. cbn [length]. apply vals_rev, vals_puts_at.
    + rewrite app_length, rev_length, puts_at_length. cbn [length]. lia.
  - rewrite andb_false_r. cbn [bind]. rewrite HW by lia. cbn [bind].
    rewrite wdigits_pos; [|lia|apply dfuel_bound; lia|unfold dfuel; lia]. cbn [bind app]. do 2 eexists. split; [reflexivity|].
    set (n := length (dec_abs z)).
    replace (Z.of_nat a + Z.of_nat n - 1 - Z.of_nat n + 1)%Z with (Z.of_nat a) by lia. split; [apply vals_rev, vals_puts_at|].
    rewrite rev_length, puts_at_length. lia.
Qed.

Lemma fvals_fp {V} (rts : V -> realstr) base lb nb v : fvals (fmt_fp rts base lb nb) v (stb_chars 0 0 (rts v)) 1.
Proof.
  intros a. unfold fmt_fp. cbn [f_put]. do 2 eexists. split; [reflexivity|].
  rewrite (stb_chars_addr (base + Z.of_nat a) nb 0 0). set (cs := stb_chars 0 0 (rts v)). split.
  - intros p b Hi. destruct (vals_puts_at (cs ++ [0%Z]) a p b Hi) as [H|(k & -> & Hk)]; [left; exact H|].
    destruct (Nat.lt_ge_cases k (length cs)) as [Hl|Hl]; [right; exists k; split; [reflexivity|]; rewrite nth_error_app1 in Hk by exact Hl; exact Hk|].
    left. rewrite nth_error_app2 in Hk by exact Hl. destruct (k - length cs) as [|[|]]; cbn in Hk; congruence.
  - rewrite puts_at_length, app_length. reflexivity.
Qed.

(** ** Two passes *)
Section Gen.
  Context {A : Type}.
  Variable esize : nat -> res nat.
  Variable eputs : Z -> nat -> res (list put * Z).
  Variable es : list A.
  Variable line : A -> list byte.
  Variable ex : nat.
  Hypothesis Hsize : forall i e, nth_error es i = Some e -> esize i = Ok (length (line e)).
  Hypothesis Hputs : forall i e a, nth_error es i = Some e ->
    exists ps, eputs (Z.of_nat a) i = Ok (ps, Z.of_nat (a + length (line e))) /\ exact_ a (line e) ps.
  Hypothesis Hne : forall e, In e es -> line e <> [].
  Hypothesis Hval : forall i e a, nth_error es i = Some e ->
    exists ps x, eputs (Z.of_nat a) i = Ok (ps, x) /\ vals a (line e) ps /\ length ps = length (line e) + ex.

  Notation gtext := (gtext line).
  Notation part_len := (gpart_len es line).

  (** The stores of [p]. *)
  Definition line_stores (d : list nat) : nat := length (gtext (pick es d)) + ex * length d.

  Lemma gputs_vals p : forall a, Forall (fun i => i < length es) p ->
    exists ps, gputs eputs (Z.of_nat a) p = Ok ps /\ exact_ a (gtext (pick es p)) ps /\ vals a (gtext (pick es p)) ps /\ length ps = line_stores p.
  Proof.
    unfold line_stores. induction p as [|i p IH]; intros a HF; cbn [gputs pick flat_map].
    - exists []. split; [reflexivity|]. split; [apply exact_nil|]. split; [apply vals_nil|cbn; lia].
    - pose proof (Forall_inv HF) as Hi. pose proof (Forall_inv_tail HF) as HF'. cbn beta in Hi.
      destruct (nth_error es i) as [e|] eqn:E; [|apply nth_error_None in E; lia].
      destruct (Hputs i e a E) as (p1 & E1 & X1). destruct (Hval i e a E) as (p1' & x & E1' & V1 & L1).
      rewrite E1 in E1'. injection E1' as <- <-. rewrite E1. cbn [bind].
      destruct (IH (a + length (line e)) HF') as (p2 & E2 & X2 & V2 & L2). rewrite E2. cbn [bind].
      exists (p1 ++ p2). split; [reflexivity|]. unfold WriteGen.gtext in *. cbn [app map concat]. fold (pick es p).
      split; [apply exact_app; assumption|]. split; [apply vals_app; assumption|]. rewrite !app_length, L1, L2. cbn [length]. fold (pick es p). lia.
  Qed.

  Lemma gputs_app p1 : forall a p2, Forall (fun i => i < length es) p1 ->
    gputs eputs (Z.of_nat a) (p1 ++ p2) = (q1 <- gputs eputs (Z.of_nat a) p1 ;; q2 <- gputs eputs (Z.of_nat (a + length (gtext (pick es p1)))) p2 ;; Ok (q1 ++ q2)).
  Proof.
    induction p1 as [|i p IH]; intros a p2 HF; cbn [app gputs bind pick flat_map].
    - cbn [WriteGen.gtext map concat length]. rewrite Nat.add_0_r. destruct (gputs eputs _ p2); reflexivity.
    - pose proof (Forall_inv HF) as Hi. pose proof (Forall_inv_tail HF) as HF'. cbn beta in Hi.
      destruct (nth_error es i) as [e|] eqn:E; [|apply nth_error_None in E; lia].
      destruct (Hputs i e a E) as (q1 & E1 & _). rewrite E1. cbn [bind]. rewrite IH by exact HF'.
      unfold WriteGen.gtext. cbn [app map concat]. rewrite app_length. fold (pick es p). rewrite Nat.add_assoc.
      destruct (gputs eputs (Z.of_nat (a + length (line e))) p); cbn [bind]; try reflexivity.
      destruct (gputs eputs _ p2); cbn [bind]; try reflexivity. rewrite app_assoc. reflexivity.
  Qed.

  (** The plan. *)
  Inductive tregions : nat -> list (list nat) -> list (list put) -> Prop :=
  | tr_nil a : tregions a [] []
  | tr_cons a p ps q qs : Forall (fun i => i < length es) p -> gputs eputs (Z.of_nat a) p = Ok q -> exact_ a (gtext (pick es p)) q -> vals a (gtext (pick es p)) q ->
      tregions (a + part_len p) ps qs -> tregions a (p :: ps) (q :: qs).

  Lemma tmapM parts : forall a, Forall (Forall (fun i => i < length es)) parts ->
    exists qs, mapM (fun q => gputs eputs (Z.of_nat (fst q)) (snd q))
        (combine (prefix_sums a (map part_len parts)) parts) = Ok qs /\ tregions a parts qs.
  Proof.
    induction parts as [|p ps IH]; intros a HF; [exists []; split; [reflexivity|constructor]|].
    pose proof (Forall_inv HF) as Hp. pose proof (Forall_inv_tail HF) as HF'. cbn [map prefix_sums combine mapM fst snd].
    destruct (gputs_vals p a Hp) as (q & Eq & Xq & Vq & _). rewrite Eq. cbn [bind].
    destruct (IH (a + part_len p) HF') as (qs & Eqs & Xqs). rewrite Eqs. cbn [bind].
    exists (q :: qs). split; [reflexivity|constructor; assumption].
  Qed.

  Lemma tregions_len a parts qs : tregions a parts qs -> length qs = length parts.
  Proof using Type. clear. induction 1; cbn [length]; auto. Qed.

  Lemma tregions_in a parts qs : tregions a parts qs -> forall q p b, In q qs -> In (Put p b) q ->
    (Z.of_nat a <= p < Z.of_nat (a + length (gtext (pick es (concat parts)))))%Z /\
    (b = 0%Z \/ nth_error (gtext (pick es (concat parts))) (Z.to_nat p - a) = Some b).
  Proof using Type.
    induction 1 as [|a p ps q qs HF E X V R IH]; intros q' y b Hq Hi; [destruct Hq|].
    cbn [concat]. rewrite pick_app. unfold WriteGen.gtext in *. rewrite map_app, concat_app, app_length. fold (gtext (pick es p)) in *. fold (gtext (pick es (concat ps))) in *.
    destruct Hq as [<-|Hq].
    - pose proof (proj1 X _ Hi) as B. cbn [paddr] in B. split; [lia|]. destruct (V y b Hi) as [H|(k & -> & Hk)]; [left; exact H|]. right.
      replace (Z.to_nat (Z.of_nat (a + k)) - a) with k by lia. rewrite nth_error_app1; [exact Hk|]. apply nth_error_Some. congruence.
    - destruct (IH q' y b Hq Hi) as (B & H). unfold part_len in B, H. split; [lia|]. destruct H as [H|H]; [left; exact H|]. right.
      rewrite nth_error_app2 by lia. replace (Z.to_nat y - a - length (gtext (pick es p))) with (Z.to_nat y - (a + length (gtext (pick es p)))) by lia. exact H.
  Qed.

  Lemma plan_len parts : sum_nat (map part_len parts) = length (gtext (pick es (concat parts))).
  Proof using Type.
    rewrite <- (concat_gtext es line). clear. induction parts as [|p ps IH]; [reflexivity|].
    cbn [map concat sum_nat fold_right]. rewrite app_length. fold (sum_nat (map part_len ps)). rewrite IH. reflexivity.
  Qed.

  Lemma gplan_ok parts : Forall (Forall (fun i => i < length es)) parts -> concat parts <> [] ->
    exists k qs, length (gtext (pick es (concat parts))) = S k /\ gplan esize eputs parts = Ok (repeat 0%Z k ++ [1%Z], qs) /\ tregions 0 parts qs.
  Proof.
    intros HF Hnp. unfold gplan. rewrite (mapM_gsizes esize es line Hsize) by exact HF. cbn [bind].
    assert (Hpos : 0 < sum_nat (map part_len parts)).
    { rewrite plan_len. destruct (concat parts) as [|i is] eqn:Ec; [congruence|].
      assert (Hi : i < length es).
      { assert (Hin : In i (concat parts)) by (rewrite Ec; left; reflexivity).
        apply in_concat in Hin as (p & Hp & Hin). rewrite Forall_forall in HF. specialize (HF p Hp).
        rewrite Forall_forall in HF. apply HF; exact Hin. }
      cbn [pick flat_map]. destruct (nth_error es i) as [e|] eqn:E; [|apply nth_error_None in E; lia].
      unfold WriteGen.gtext. cbn [app map concat]. rewrite app_length. pose proof (Hne e (nth_error_In _ _ E)). destruct (line e); [congruence|cbn [length]; lia]. }
    pose proof (plan_len parts) as Hl.
    destruct (sum_nat (map part_len parts)) as [|k] eqn:Ek; [lia|]. cbn [new_file bind].
    destruct (tmapM parts 0 HF) as (qs & Eqs & R). rewrite Eqs. cbn [bind]. exists k, qs. auto.
  Qed.

  Lemma blank_new k i b : nth_error (repeat 0%Z k ++ [1%Z]) i = Some b -> blank (S k) i b.
  Proof using Type.
    clear. intros H. destruct (Nat.lt_ge_cases i k) as [Hi|Hi].
    - rewrite nth_error_app1 in H by (rewrite repeat_length; exact Hi). left. apply nth_error_In in H. apply repeat_spec in H. exact H.
    - rewrite nth_error_app2 in H by (rewrite repeat_length; exact Hi). rewrite repeat_length in H. destruct (i - k) as [|j] eqn:E.
      + right. split; [lia|]. cbn in H. congruence.
      + destruct j; discriminate H.
  Qed.

  Lemma exec_partly txt : forall l s, partly_written txt s ->
    (forall p b, In (Put p b) l -> (0 <= p < Z.of_nat (length txt))%Z /\ (b = 0%Z \/ nth_error txt (Z.to_nat p) = Some b)) ->
    exists s', exec_all pexec l s = Ok s' /\ partly_written txt s'.
  Proof using Type.
    clear. induction l as [|[p b] l IH]; intros s Hs Hl; [exists s; auto|]. cbn [exec_all pexec].
    destruct (Hl p b (or_introl eq_refl)) as (B & Hb). destruct Hs as (Hls & Hs).
    replace ((0 <=? p)%Z && (p <? Z.of_nat (length s))%Z) with true by (symmetry; apply andb_true_intro; split; [apply Z.leb_le|apply Z.ltb_lt]; lia).
    cbn [bind]. apply IH; [|intros q c Hq; apply Hl; right; exact Hq]. split; [rewrite upd_length; exact Hls|].
    intros i c Hc. destruct (Nat.eq_dec i (Z.to_nat p)) as [->|Hn].
    - rewrite nth_error_upd_eq in Hc by lia. injection Hc as <-. destruct Hb as [->|Hb]; [right; left; reflexivity|left; exact Hb].
    - rewrite nth_error_upd_ne in Hc by congruence. apply Hs. exact Hc.
  Qed.

  Lemma firsts_in {I} ns : forall (ps : list (list I)) q i, In q (firsts ns ps) -> In i q -> exists q', In q' ps /\ In i q'.
  Proof using Type.
    clear. unfold firsts. induction ns as [|n ns IH]; intros [|p ps] q i Hq Hi; try destruct Hq as [<-|Hq]; try (destruct Hq; fail).
    - cbn [fst snd] in Hi. exists p. split; [left; reflexivity|]. rewrite <- (firstn_skipn n p). apply in_or_app. left. exact Hi.
    - destruct (IH ps q i Hq Hi) as (q' & H1 & H2). exists q'. split; [right; exact H1|exact H2].
  Qed.

  Lemma gstopped_ok parts ns sched : Forall (Forall (fun i => i < length es)) parts -> concat parts <> [] ->
    exists s, gwrite_stopped esize eputs parts ns sched = Ok s /\ partly_written (gtext (pick es (concat parts))) s.
  Proof.
    intros HF Hnp. destruct (gplan_ok parts HF Hnp) as (k & qs & Hk & E & R). unfold gwrite_stopped. rewrite E. cbn [bind].
    destruct (run_merge pexec sched (firsts ns qs)) as (l & Hm & Hl). rewrite Hl. apply exec_partly.
    - split; [rewrite app_length, repeat_length; cbn [length]; lia|]. intros i b Hb. right. rewrite Hk. apply blank_new. exact Hb.
    - intros p b Hi. apply (Permutation_in _ (merge_perm _ _ Hm)) in Hi. apply in_concat in Hi as (q & Hq & Hi).
      destruct (firsts_in ns qs q _ Hq Hi) as (q' & Hq' & Hi'). pose proof (tregions_in 0 parts qs R q' p b Hq' Hi') as H. rewrite Nat.sub_0_r in H. exact H.
  Qed.

  (** Each thread between two entries. *)
  Lemma firsts_done a parts qs : tregions a parts qs -> forall dones, first_entries dones parts ->
    exists qs', firsts (map line_stores dones) qs = qs' /\ length qs' = length qs /\
      (forall pre mid post, length pre = a -> length mid = length (gtext (pick es (concat parts))) -> exists js,
         length js = length dones /\ (forall j, In j js -> forall b, In b j -> In b mid) /\
         exec_all pexec (concat qs') (pre ++ mid ++ post) = Ok (pre ++ concat (map (fun q => gtext (pick es (fst q)) ++ snd q) (combine dones js)) ++ post)) /\
      ForallOrdPairs (fun p q => forall i j, In i p -> In j q -> (paddr i < paddr j)%Z) qs' /\
      (forall q i, In q qs' -> In i q -> (Z.of_nat a <= paddr i)%Z).
  Proof.
    induction 1 as [a|a p ps q qs HF E X V R IH]; intros dones HD.
    - inversion HD; subst. exists []. split; [reflexivity|]. split; [reflexivity|]. split; [|split; [constructor|intros ? ? []]].
      intros pre mid post Hp Hm. exists []. split; [reflexivity|]. split; [intros j []|]. cbn [concat combine map exec_all app] in *.
      destruct mid; [reflexivity|discriminate].
    - inversion HD as [|d p' ds ps' (r & Er) HD']; subst p' ps' dones. destruct (IH ds HD') as (qs' & Eq & Lq & HE & HO & HB).
      assert (Hd : Forall (fun i => i < length es) d) by (rewrite Er in HF; apply Forall_app in HF; apply HF).
      destruct (gputs_vals d a Hd) as (qd & Ed & Xd & _ & Ld).
      assert (Hr : Forall (fun i => i < length es) r) by (rewrite Er in HF; apply Forall_app in HF; apply HF).
      destruct (gputs_vals r (a + length (gtext (pick es d))) Hr) as (qr & Err & _ & _ & _).
      assert (Eqd : q = qd ++ qr).
      { rewrite Er, gputs_app in E by exact Hd. rewrite Ed in E. cbn [bind] in E. rewrite Err in E. cbn [bind] in E. congruence. }
      assert (Lp : part_len p = length (gtext (pick es d)) + length (gtext (pick es r))).
      { unfold gpart_len. rewrite Er, pick_app. unfold WriteGen.gtext. rewrite map_app, concat_app, app_length. reflexivity. }
      exists (qd :: qs'). split; [|split; [cbn [length]; lia|split; [|split]]].
      + unfold firsts in *. cbn [map combine fst snd]. rewrite Eq, Eqd, <- Ld. rewrite firstn_app, Nat.sub_diag, firstn_all, firstn_O, app_nil_r. reflexivity.
      + intros pre mid post Hp Hm. cbn [concat] in Hm. rewrite pick_app in Hm. unfold WriteGen.gtext in Hm at 1. rewrite map_app, concat_app, app_length in Hm.
        fold (gtext (pick es p)) in Hm. fold (gtext (pick es (concat ps))) in Hm. change (length (gtext (pick es p))) with (part_len p) in Hm.
        set (n := part_len p) in *. set (nd := length (gtext (pick es d))) in *.
        set (mp := firstn n mid). set (mr := skipn n mid).
        assert (Lmp : length mp = n) by (unfold mp; rewrite firstn_length; lia).
        assert (Lmr : length mr = length (gtext (pick es (concat ps)))) by (unfold mr; rewrite skipn_length; lia).
        set (j := skipn nd mp).
        assert (Lmd : length (firstn nd mp) = nd) by (rewrite firstn_length; lia).
        destruct (HE (pre ++ gtext (pick es d) ++ j) mr post) as (js & Ljs & HJ & HX).
        { rewrite !app_length. unfold j. rewrite skipn_length. fold nd. lia. }
        { exact Lmr. }
        exists (j :: js). split; [cbn [length]; lia|]. split.
        * intros j' [<-|Hj] b Hb.
          -- unfold j, mp in Hb. rewrite <- (firstn_skipn n mid). apply in_or_app. left. rewrite <- (firstn_skipn nd (firstn n mid)). apply in_or_app. right. exact Hb.
          -- rewrite <- (firstn_skipn n mid). apply in_or_app. right. exact (HJ j' Hj b Hb).
        * cbn [concat combine map fst snd]. rewrite exec_all_app.
          assert (Em : pre ++ mid ++ post = pre ++ firstn nd mp ++ (j ++ mr ++ post)).
          { f_equal. rewrite <- (firstn_skipn n mid) at 1. fold mp mr. rewrite <- (firstn_skipn nd mp) at 1. fold j. rewrite <- !app_assoc. reflexivity. }
          rewrite Em, (proj2 Xd pre (firstn nd mp) (j ++ mr ++ post) Hp Lmd). cbn [bind].
          rewrite <- !app_assoc in HX. rewrite HX. rewrite <- !app_assoc. reflexivity.
      + constructor; [|exact HO]. apply Forall_forall. intros q' Hq' i i' Hi Hi'. pose proof (HB q' i' Hq' Hi') as B'. pose proof (proj1 Xd i Hi) as B. unfold gpart_len in *. lia.
      + intros q' i [<-|Hq'] Hi; [pose proof (proj1 Xd i Hi); lia|]. pose proof (HB q' i Hq' Hi). lia.
  Qed.

  Lemma gdone_ok parts dones sched : Forall (Forall (fun i => i < length es)) parts -> concat parts <> [] -> first_entries dones parts ->
    exists js : list (list byte), length js = length dones /\ Forall (Forall (fun b => b = 0 \/ b = 1)%Z) js /\
      length (concat (map (fun q => gtext (pick es (fst q)) ++ snd q) (combine dones js))) = length (gtext (pick es (concat parts))) /\
      gwrite_stopped esize eputs parts (map line_stores dones) sched = Ok (concat (map (fun q => gtext (pick es (fst q)) ++ snd q) (combine dones js))).
  Proof.
    intros HF Hnp HD. destruct (gstopped_ok parts (map line_stores dones) sched HF Hnp) as (s & Es & Ls & _).
    destruct (gplan_ok parts HF Hnp) as (k & qs & Hk & E & R). unfold gwrite_stopped in *. rewrite E in *. cbn [bind] in *.
    destruct (firsts_done 0 parts qs R dones HD) as (qs' & Eq & _ & HE & HO & _). rewrite Eq in *.
    destruct (HE [] (repeat 0%Z k ++ [1%Z]) [] eq_refl) as (js & Ljs & HJ & HX).
    { rewrite app_length, repeat_length, Hk. cbn [length]. lia. }
    cbn [app] in HX. rewrite !app_nil_r in HX. exists js. split; [exact Ljs|]. split.
    - apply Forall_forall. intros j Hj. apply Forall_forall. intros b Hb. pose proof (HJ j Hj b Hb) as H. apply in_app_or in H as [H|[H|[]]]; [left; apply repeat_spec in H; exact H|right; auto].
    - assert (Er : run pexec sched qs' (repeat 0%Z k ++ [1%Z]) = exec_all pexec (concat qs') (repeat 0%Z k ++ [1%Z])).
      { apply run_indep. eapply fop_impl; [|exact HO]. cbn beta. intros p q H i j Hi Hj. apply pcomm. specialize (H i j Hi Hj). lia. }
      split; [|rewrite Er; exact HX]. rewrite Er in Es. pose proof (eq_trans (eq_sym Es) HX) as E'. rewrite <- Ls. f_equal. congruence.
  Qed.
End Gen.
