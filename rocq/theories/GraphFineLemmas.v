(** * GraphFineLemmas: the stores of the adjacency reader do not race *)

From Verif Require Import Base Reader Sched SchedLemmas SchedMore Spec SpecGraph ReaderLemmas Coo CooLemmas CooSplit CooMain Csr SpecCsr Graph GraphLemmas GraphMain GraphFinal
  SpecRace Race RaceLemmas CsrFine GraphFine.

(** What the threads do, up to the stores. *)
Definition graph_stores (L O OS : ity) (m : mem) (d0 e : nat) (T : nat) (shz : list nat) : res (list bool * list (list ginstr * Z)) :=
  d1 <- move_to_first_int m e d0 ;;
  '(read_n, d2) <- read_int m L e d1 ;;
  d3 <- move_to_next_int m e d2 ;;
  '(read_m, d4) <- read_int m O e d3 ;;
  d5 <- move_to_eol m e d4 ;;
  d6 <- move_to_next_int m e d5 ;;
  chunks <- mapM (gr_chunk m d6 e T) (seq 0 T) ;;
  p1 <- mapM (fun c => gr_count m (snd c) (S (snd c - fst c)) (fst c) 0 0 false) chunks ;;
  hz <- found_zero (map snd p1) shz ;;
  let base := if (hz : bool) then 0 else 1 in
  let nls := map (fun r => fst (fst r)) p1 in
  let ints := map (fun r => snd (fst r)) p1 in
  let n_ := wrap L (Z.of_nat (base + sum_nat nls)) in
  p2 <- mapM (fun q => let '(c, (o, i)) := q in
                gr_set L O n_ m (snd c) (S (snd c - fst c)) (fst c) (wrap L (Z.of_nat o)) (wrap O (Z.of_nat i)) 0)
          (combine chunks (combine (prefix_sums base nls) (prefix_sums 0 ints))) ;;
  Ok (map snd p1, p2).

Lemma hz_interval_ok hzs sched hz : found_zero hzs sched = Ok hz ->
  exists hs l, hz_interval hzs sched = Ok (hs, l) /\ existsb (hz_bit hs) (seq 0 (length hzs)) = hz.
Proof.
  unfold found_zero. intros E. apply bind_ok_inv in E as (hs & E & Eh). injection Eh as <-. rewrite run_trace in E.
  destruct (exec_log_run hzexec hz_acc _ _ _ E) as (l & El & _). exists hs, l. split; [exact El|reflexivity].
Qed.

Ltac bindi E x := apply bind_ok_inv in E as (x & ? & E).

Lemma graph_fine_split {W} L O OS m d0 e ch (c : csr W) : read_graph L O OS m d0 e ch = Ok c ->
  exists hzs p2, graph_stores L O OS m d0 e (gc_T ch) (gc_hz ch) = Ok (hzs, p2) /\
    ((forall t u p q i j, t <> u -> nth_error (map fst p2) t = Some p -> nth_error (map fst p2) u = Some q -> In i p -> In j q ->
        forall si sj a b, In a (gacc t i si) -> In b (gacc u j sj) -> ~ conflict a b) ->
     exists hs l1 l2, hz_interval hzs (gc_hz ch) = Ok (hs, l1) /\ read_graph_fine L O OS m d0 e ch = Ok (c, l1, l2) /\ no_race l2).
Proof.
  unfold read_graph, graph_stores, read_graph_fine. intros E.
  bindi E d1. rewrite H. cbn [bind]. bindi E r1. rewrite H0. destruct r1 as [read_n d2]. cbn [bind].
  bindi E d3. rewrite H1. cbn [bind]. bindi E r2. rewrite H2. destruct r2 as [read_m d4]. cbn [bind].
  bindi E d5. rewrite H3. cbn [bind]. bindi E d6. rewrite H4. cbn [bind]. bindi E chunks. rewrite H5. cbn [bind].
  bindi E p1. rewrite H6. cbn [bind]. bindi E hz. rewrite H7. cbn [bind]. bindi E al. destruct al as [[en w] off0].
  bindi E off1. bindi E off2. bindi E off3. bindi E p2. rewrite H12. cbn [bind].
  exists (map snd p1), p2. split; [reflexivity|]. intros HC.
  destruct (hz_interval_ok _ _ _ H7) as (hs & l1 & Ehz & Ebit). exists hs, l1. rewrite Ehz. cbn [bind]. rewrite Ebit.
  rewrite H8. cbn [bind]. rewrite H9. cbn [bind]. rewrite H10. cbn [bind]. rewrite H11. cbn [bind]. rewrite H12. cbn [bind].
  bindi E s. destruct (interval_run _ gacc _ _ _ _ H13) as (l2 & El & HR).
  { intros t u p q i j si sj a b Hne Hp Hq Hi Hj. exact (HC t u p q i j Hne Hp Hq Hi Hj si sj a b). }
  rewrite El. cbn [bind]. exists l2. split; [reflexivity|]. split; [|exact HR].
  bindi E m2. rewrite H14. cbn [bind].
  destruct (negb _ && negb _); [discriminate|]. destruct (_ <? _)%Z; [discriminate|].
  bindi E ncl. rewrite H15. cbn [bind]. injection E as <-. reflexivity.
Qed.

Section Read.
  Variable f : adj_file.
  Hypothesis Hf : wf_head f.
  Variable m : mem.
  Hypothesis Hm : bytes m = adj_text f.
  Hypothesis Hsl : slack m.
  Let e := flen m.
  Let b := a_body f.
  Hypothesis Hq : quiet false b.
  Let rows := adj_rows (strip b).
  Variable L O OS : ity.
  Hypothesis HL : is_ity L.
  Hypothesis HO : is_ity O.
  Hypothesis HOS : is_ity OS.
  Let zb : bool := has_z (toks b).
  Let base : nat := if zb then 0 else 1.
  Let N := length rows.
  Let M := length (numerals (strip b)).
  Hypothesis Hn : (dval (a_n f) <= imax L)%Z.
  Hypothesis HmO : (dval (a_m f) <= imax O)%Z.
  Hypothesis Npos : 0 < N.
  Hypothesis HN : room L (Z.of_nat (base + N)).
  Hypothesis HM : (Z.of_nat M <= imax O)%Z.
  Hypothesis HMS : (Z.of_nat M <= imax OS)%Z.
  Hypothesis Hfit : Forall (fun v => v < imax L)%Z (concat rows).
  Hypothesis H2m : (2 * dval (a_m f) <= imax O)%Z.


  Lemma graph_stores_ok T shz : 0 < T ->
    graph_stores L O OS m 0 e T shz = Ok (map (fun t => has_z (toks (reg b T t))) (seq 0 T),
      map (fun t => (gprog (Z.of_nat (base + NL b T t)) (Z.of_nat (NI b T t)) (live (toks (reg b T t)) (toks (skipn (bnd b T (S t)) b))),
                     max_of (ints (live (toks (reg b T t)) (toks (skipn (bnd b T (S t)) b)))))) (seq 0 T)).
  Proof.
    intros HT. pose proof Hf as (Gh & Dn & Sne & Sg & Dm & Rp & Gg & Hb0).
    assert (Hb : quiet_body b) by (split; [exact Hq|exact Hb0]).
    assert (EN0 : n_nl (toks b) = N) by apply n_nl_rows.
    assert (EM0 : n_int (toks b) = M) by apply n_int_nums.
    assert (EI0 : ints (live (toks b) []) = concat rows) by apply ints_rows.
    pose proof (ity_facts L HL) as FL. pose proof (ity_facts O HO) as FO. pose proof (ity_facts OS HOS) as FOS.
    destruct (header_pos f Hf m Hm L O HL HO Hn HmO) as (d1 & d2 & d3 & d4 & d5 & d6 & X1 & X2 & X3 & X4 & X5 & X6 & K8 & Hd6 & Lb). fold e in X1, X2, X3, X4, X5, X6.
    unfold graph_stores. rewrite X1. cbn [bind]. rewrite X2. cbn [bind]. rewrite X3. cbn [bind]. rewrite X4. cbn [bind]. rewrite X5. cbn [bind]. rewrite X6. cbn [bind].
    (* the chunks and pass 1 *)
    rewrite (mapM_ok _ (fun t => (d6 + bnd b T t, d6 + bnd b T (S t)))).
    2:{ intros t Ht. apply in_seq in Ht. unfold e. apply chunk_ok; [exact Hb|exact HT|exact K8|exact Hd6|exact Hsl|lia]. }
    cbn [bind]. rewrite mapM_map. cbn [fst snd].
    rewrite (mapM_ok _ (fun t => (n_nl (toks (reg b T t)), n_int (toks (reg b T t)), has_z (toks (reg b T t))))).
    2:{ intros t Ht. apply count_ok; [exact Hb|exact HT|exact K8|exact Hd6|exact Hsl]. }
    cbn [bind]. rewrite found_zero_ok, !map_map. cbn [fst snd bind].
    rewrite existsb_has_z, toks_all by assumption. fold zb. fold base.
    assert (SNL : sum_nat (map (fun t => n_nl (toks (reg b T t))) (seq 0 T)) = N).
    { pose proof (sum_nat_seq (NL b T) (fun t => n_nl (toks (reg b T t))) T 0 (fun t _ => NL_S b Hb T HT t)) as G.
      cbn [plus] in G. unfold NL at 1 2 in G. rewrite bnd_T, firstn_all in G by assumption. cbn in G. rewrite <- EN0. exact G. }
    rewrite SNL.
    assert (HN' : (Z.of_nat (base + N) <= imax L)%Z) by apply HN.
    rewrite (wrap_in L) by (try assumption; lia).
    (* pass 2 *)
    assert (Pn : prefix_sums base (map (fun t => n_nl (toks (reg b T t))) (seq 0 T)) = map (fun t => base + NL b T t) (seq 0 T)).
    { pose proof (prefix_sums_seq (fun t => base + NL b T t) (fun t => n_nl (toks (reg b T t))) T 0) as G.
      cbn beta in G. assert (E0 : base + NL b T 0 = base) by (change (NL b T 0) with 0; lia). rewrite E0 in G. apply G. intros t _. rewrite (NL_S b Hb T HT). lia. }
    assert (Pi : prefix_sums 0 (map (fun t => n_int (toks (reg b T t))) (seq 0 T)) = map (NI b T) (seq 0 T)).
    { apply (prefix_sums_seq (NI b T) (fun t => n_int (toks (reg b T t))) T 0). intros t _. apply (NI_S b Hb T HT). }
    rewrite Pn, Pi, !combine_map, mapM_map.
    assert (NLle : forall t, NL b T t <= N).
    { intros t. rewrite <- EN0, (toks_rest b Hb T HT t), n_nl_app. unfold NL. lia. }
    assert (NIle : forall t, NI b T t <= M).
    { intros t. rewrite <- EM0, (toks_rest b Hb T HT t), n_int_app. unfold NI. lia. }
    set (lv := fun t => live (toks (reg b T t)) (toks (skipn (bnd b T (S t)) b))).
    rewrite (mapM_ok _ (fun t => (gprog (Z.of_nat (base + NL b T t)) (Z.of_nat (NI b T t)) (lv t), max_of (ints (lv t))))).
    2:{ intros t Ht. cbn [fst snd]. rewrite (wrap_in L) by (try assumption; specialize (NLle t); lia). rewrite (wrap_in O) by (try assumption; specialize (NIle t); lia).
        rewrite <- EN0. apply set_ok; try assumption.
        - rewrite EN0. exact HN'.
        - rewrite EM0. exact HM.
        - rewrite EI0. eapply Forall_impl; [|exact Hfit]. cbn. intros; lia. }
    cbn [bind]. try rewrite !map_map; reflexivity.
  Qed.

  Lemma graph_stores_apart T shz hzs p2 : 0 < T -> graph_stores L O OS m 0 e T shz = Ok (hzs, p2) ->
    length hzs = T /\ existsb (fun x => x) hzs = zb /\ hzs = map (fun t => has_z (toks (reg b T t))) (seq 0 T) /\
    forall t u p q i j, t <> u -> nth_error (map fst p2) t = Some p -> nth_error (map fst p2) u = Some q -> In i p -> In j q ->
        forall si sj a a', In a (gacc t i si) -> In a' (gacc u j sj) -> ~ conflict a a'.
  Proof.
    intros HT E. rewrite (graph_stores_ok T shz HT) in E. injection E as <- <-.
    pose proof Hf as (Gh & Dn & Sne & Sg & Dm & Rp & Gg & Hb0).
    assert (Hb : quiet_body b) by (split; [exact Hq|exact Hb0]).
    split; [rewrite map_length, seq_length; reflexivity|]. split; [rewrite existsb_has_z, toks_all by assumption; reflexivity|]. split; [reflexivity|].
    set (lv := fun t => live (toks (reg b T t)) (toks (skipn (bnd b T (S t)) b))).
    assert (ORD : forall i j x y s s' a a', i < j -> In x (gprog (Z.of_nat (base + NL b T i)) (Z.of_nat (NI b T i)) (lv i)) ->
       In y (gprog (Z.of_nat (base + NL b T j)) (Z.of_nat (NI b T j)) (lv j)) -> In a (gacc i x s) -> In a' (gacc j y s') -> fst a <> fst a').
    { intros i j x y s s' a a' Hij Hx Hy Ha Ha'.
      assert (M1 : NL b T (S i) <= NL b T j).
      { clear - Hij Hb HT. induction Hij as [|j Hij IH]; [lia|]. rewrite (NL_S b Hb T HT j). lia. }
      assert (M2 : NI b T (S i) <= NI b T j).
      { clear - Hij Hb HT. induction Hij as [|j Hij IH]; [lia|]. rewrite (NI_S b Hb T HT j). lia. }
      rewrite (NL_S b Hb T HT) in M1. rewrite (NI_S b Hb T HT) in M2.
      pose proof (n_int_live (toks (reg b T i)) (toks (skipn (bnd b T (S i)) b))) as I1. pose proof (n_nl_live (toks (reg b T i)) (toks (skipn (bnd b T (S i)) b))) as I2. fold (lv i) in I1, I2.
      pose proof (gprog_in (lv i) (Z.of_nat (base + NL b T i)) (Z.of_nat (NI b T i))) as G1. rewrite Forall_forall in G1. specialize (G1 x Hx).
      pose proof (gprog_in (lv j) (Z.of_nat (base + NL b T j)) (Z.of_nat (NI b T j))) as G2. rewrite Forall_forall in G2. specialize (G2 y Hy).
      destruct x, y; cbn [gacc] in Ha, Ha'; destruct Ha as [<-|[]]; destruct Ha' as [<-|[]]; cbn [in_off in_end fst] in *; unfold wr; cbn [fst]; intros EQ; first [discriminate EQ | injection EQ; lia]. }
    intros t u p q i j Hne Hp Hq0 Hi Hj si sj a a' Ha Ha' (C1 & _). rewrite map_map in Hp, Hq0. cbn [fst] in Hp, Hq0. rewrite nth_error_map in Hp, Hq0.
    destruct (Nat.lt_ge_cases t T) as [Ht|Ht]; [|rewrite (proj2 (nth_error_None _ _)) in Hp by (rewrite seq_length; exact Ht); discriminate].
    destruct (Nat.lt_ge_cases u T) as [Hu|Hu]; [|rewrite (proj2 (nth_error_None _ _)) in Hq0 by (rewrite seq_length; exact Hu); discriminate].
    rewrite nth_error_seq' in Hp, Hq0 by assumption. cbn [option_map plus] in Hp, Hq0. injection Hp as <-. injection Hq0 as <-.
    destruct (Nat.lt_trichotomy t u) as [H|[H|H]]; [|contradiction|].
    - exact (ORD t u i j si sj a a' H Hi Hj Ha Ha' C1).
    - exact (ORD u t j i sj si a' a H Hj Hi Ha' Ha (eq_sym C1)).
  Qed.

  Theorem read_graph_fine_ok {W} ch (c : csr W) : 0 < gc_T ch -> read_graph L O OS m 0 e ch = Ok c ->
    exists hzs hs l1 l2, read_graph_fine L O OS m 0 e ch = Ok (c, l1, l2) /\ no_race l2 /\
      length hzs = gc_T ch /\ existsb (fun b => b) hzs = zb /\ hzs = map (fun t => has_z (toks (reg b (gc_T ch) t))) (seq 0 (gc_T ch)) /\ hz_interval hzs (gc_hz ch) = Ok (hs, l1).
  Proof.
    intros HT E. destruct (graph_fine_split _ _ _ _ _ _ _ _ E) as (hzs & p2 & ES & HR).
    destruct (graph_stores_apart _ _ _ _ HT ES) as (H1 & H2 & H4 & H3). destruct (HR H3) as (hs & l1 & l2 & A1 & A2 & A3).
    exists hzs, hs, l1, l2. repeat (split; [assumption|]). exact A1.
  Qed.
End Read.

(** ** The flags *)
Lemma steps_all {I} (ps : list (list I)) l : steps ps l -> forall t p i, nth_error ps t = Some p -> In i p -> In (t, i) l.
Proof.
  induction 1 as [ps Hn|u ps i0 p0 l Hp Hs IH]; intros t p i Ht Hi.
  - rewrite (Hn _ _ Ht) in Hi. destruct Hi.
  - destruct (Nat.eq_dec u t) as [<-|Hne].
    + rewrite Hp in Ht. injection Ht as <-. destruct Hi as [<-|Hi]; [left; reflexivity|]. right.
      apply (IH u p0 i); [|exact Hi]. apply nth_error_upd_eq. apply nth_error_Some. congruence.
    + right. apply (IH t p i); [|exact Hi]. rewrite nth_error_upd_ne by exact Hne. exact Ht.
Qed.

Lemma exec_log_has {S I Loc} (exec : nat -> I -> S -> res S) (acc : nat -> I -> list (access Loc)) l : forall s s' lg,
  exec_log exec (fun t i _ => acc t i) l s = Ok (s', lg) -> forall t i a, In (t, i) l -> In a (acc t i) -> In (t, a) lg.
Proof.
  induction l as [|[u j] l IH]; intros s s' lg E t i a Hi Ha; cbn [exec_log] in E; [destruct Hi|].
  apply bind_ok_inv in E as (s1 & E1 & E). apply bind_ok_inv in E as ([s2 lg2] & E2 & E). injection E as <- <-.
  destruct Hi as [Hi|Hi].
  - injection Hi as -> ->. apply in_or_app; left. apply in_map; exact Ha.
  - apply in_or_app; right. exact (IH _ _ _ E2 t i a Hi Ha).
Qed.

Lemma hz_nth hzs t : nth_error (map hz_prog (combine (seq 0 (length hzs)) hzs)) t =
  match nth_error hzs t with Some b => Some (hz_prog (t, b)) | None => None end.
Proof.
  rewrite nth_error_map.
  assert (G : forall (l : list bool) k a t, length l <= k -> nth_error (combine (seq a k) l) t = match nth_error l t with Some b => Some (a + t, b) | None => None end).
  { clear. induction l as [|x l IH]; intros k a t Hk.
    - rewrite combine_nil. destruct t; reflexivity.
    - destruct k as [|k]; cbn [length] in Hk; [lia|]. cbn [seq combine]. destruct t as [|t]; cbn [nth_error].
      + f_equal. f_equal. lia.
      + rewrite IH by lia. destruct (nth_error l t); [|reflexivity]. do 2 f_equal. lia. }
  rewrite (G hzs (length hzs) 0 t (le_n _)). destruct (nth_error hzs t); reflexivity.
Qed.

(** The updates of the flags race exactly if two threads that share a word have
    seen a zero. *)
Theorem hz_race hzs sched hs l : hz_interval hzs sched = Ok (hs, l) ->
  (no_race l <-> forall i j, nth_error hzs i = Some true -> nth_error hzs j = Some true -> i / 64 = j / 64 -> i = j).
Proof.
  unfold hz_interval. intros E. set (ps := map hz_prog (combine (seq 0 (length hzs)) hzs)) in *. split.
  - intros HR i j Hi Hj Hw. destruct (Nat.eq_dec i j) as [H|H]; [exact H|]. exfalso.
    assert (G : forall t, nth_error hzs t = Some true -> In (t, ((t / 64), Write)) l).
    { intros t Ht. apply (exec_log_has (fun _ => hzexec) (fun t i => hz_acc t i hs) _ _ _ _ E t (HzStore t)); [|left; reflexivity].
      apply (steps_all _ _ (trace_steps sched ps) t [HzLoad t; HzStore t]); [unfold ps; rewrite hz_nth, Ht; reflexivity|right; left; reflexivity]. }
    apply (HR i j _ _ (G i Hi) (G j Hj) H). split; [exact Hw|]. split; intros [HX _]; discriminate HX.
  - intros HX t u a b Ha Hb Hne (C1 & _). apply Hne.
    assert (G : forall t a, In (t, a) l -> nth_error hzs t = Some true /\ fst a = t / 64).
    { clear t u a b Ha Hb Hne C1. intros t a Ha. unfold interval in E.
      assert (ER : exec_all hzexec (map snd (trace sched ps)) (mkHz (repeat [] (S (length hzs / 64))) (repeat [] (length hzs))) = Ok hs).
      { clear - E. revert E. generalize (mkHz (repeat [] (S (length hzs / 64))) (repeat [] (length hzs))). generalize (trace sched ps). intros tr. revert l.
        induction tr as [|[t i] tr IH]; intros l s E; cbn [exec_log map snd exec_all] in *; [congruence|].
        apply bind_ok_inv in E as (s1 & E1 & E). apply bind_ok_inv in E as ([s2 l2] & E2 & E). injection E as <- <-. rewrite E1. cbn [bind]. exact (IH _ _ E2). }
      destruct (exec_log_run hzexec hz_acc _ _ _ ER) as (l' & El & Hl). rewrite El in E. injection E as ->.
      destruct (Hl t a Ha) as (i & s0 & Hi & Hai). destruct (steps_in _ _ (trace_steps sched ps) _ _ Hi) as (p & Hp & Hip).
      unfold ps in Hp. rewrite hz_nth in Hp. destruct (nth_error hzs t) as [[|]|] eqn:Eh; [|injection Hp as <-; destruct Hip|discriminate].
      injection Hp as <-. split; [reflexivity|]. destruct Hip as [<-|[<-|[]]]; destruct Hai as [<-|[]]; reflexivity. }
    destruct (G t a Ha) as [T1 T2]. destruct (G u b Hb) as [U1 U2]. apply HX; [assumption|assumption|]. congruence.
Qed.
