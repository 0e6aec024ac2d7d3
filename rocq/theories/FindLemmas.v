(** * FindLemmas: the offsets found by [find_offsets] *)

From Verif Require Import Base Reader Sched SchedLemmas Spec ReaderLemmas Coo CooLemmas CooMain Codec Bin Load Tensor TensorLemmas FindOff RaceIO Safe SpecFind ElSpec ElFinal.

Lemma narrow_imax O : is_ity O -> (ibits O <? 32)%Z = true -> (imax O <= imax i32)%Z.
Proof. intros H Eb. repeat (destruct H as [<-|H]; [cbn in Eb |- *; try discriminate; lia|]). contradiction. Qed.

Lemma find_by_progs L O m c d0 e T sched : find_offsets L O m c d0 e T sched =
  ('(m_, s, ps) <- find_progs L O m c d0 e T ;; st <- run texec sched ps s ;; Ok (mkTensor (tc st) (tw st) 1 m_)).
Proof.
  unfold find_offsets, find_progs. destruct (mapM _ (seq 0 T)); cbn [bind]; try reflexivity. destruct (mapM _ _); cbn [bind]; try reflexivity.
  destruct (tensor_alloc _ _ _ _) as [[c0 w0]| | |]; cbn [bind]; try reflexivity. destruct (mapM _ _); reflexivity.
Qed.


Section Find.
  Variables L O : ity.
  Variable m : mem.
  Variable c : byte.
  Let n := flen m.

  Definition hitb (q : nat) : bool := match load m q with Ok x => (x =? c)%Z | _ => false end.
  Definition hits (a b : nat) : list nat := filter hitb (seq (S a) (b - a)).

  Lemma load_lt q : q < n -> exists x, load m q = Ok x.
  Proof.
    intros H. unfold load. destruct (nth_error (bytes m) q) eqn:E; [eauto|]. exfalso. apply nth_error_None in E. unfold n, flen in H. lia.
  Qed.

  Lemma scan_next e : e <= n -> forall k d, e - d <= k -> d <= e ->
    exists d', scan_ m (fun x => negb (x =? c)%Z) (e - d) d = Ok d' /\ d <= d' <= e /\
      (forall q, d <= q < d' -> hitb q = false) /\ (d' < e -> hitb d' = true).
  Proof.
    intros He. induction k as [|k IH]; intros d Hk Hd.
    - replace (e - d) with 0 by lia. exists d. repeat split; [lia|lia|intros; lia|lia].
    - destruct (e - d) as [|j] eqn:Ej; [exists d; repeat split; [lia|lia|intros; lia|lia]|].
      destruct (load_lt d ltac:(lia)) as (x & Hx). cbn [scan_]. rewrite Hx. cbn [bind].
      destruct (x =? c)%Z eqn:Exc; cbn [negb].
      + exists d. repeat split; [lia|lia|intros; lia|]. intros _. unfold hitb. rewrite Hx. exact Exc.
      + replace j with (e - S d) by lia. destruct (IH (S d) ltac:(lia) ltac:(lia)) as (d' & E & Hr & Hn & Hh).
        exists d'. split; [exact E|]. split; [lia|]. split; [|exact Hh]. intros q Hq. destruct (Nat.eq_dec q d) as [->|].
        * unfold hitb. rewrite Hx. exact Exc.
        * apply Hn; lia.
  Qed.

  (** The next occurrence after [d], or [e]. *)
  Definition isnext (e d d' : nat) : Prop :=
    d < d' <= e /\ (forall q, d < q < d' -> hitb q = false) /\ (d' < e -> hitb d' = true).

  Lemma move_to_next e d : e <= n -> d < e -> exists d', move_to m c e d = Ok d' /\ isnext e d d'.
  Proof.
    intros He Hd. unfold move_to. destruct (Nat.ltb_spec d e); [|lia]. destruct (load_lt d ltac:(lia)) as (x & Hx). rewrite Hx. cbn [bind].
    destruct (x =? c)%Z eqn:Exc; cbn [bind]; unfold scan.
    - destruct (scan_next e He (e - S d) (S d) (le_n _) ltac:(lia)) as (d' & E & Hr & Hn & Hh). exists d'. split; [exact E|].
      split; [lia|]. split; [|exact Hh]. intros q Hq. apply Hn; lia.
    - destruct (scan_next e He (e - d) d (le_n _) ltac:(lia)) as (d' & E & Hr & Hn & Hh). exists d'. split; [exact E|].
      assert (Hdd : d' <> d). { intros ->. specialize (Hh H). unfold hitb in Hh. rewrite Hx in Hh. congruence. }
      split; [lia|]. split; [|exact Hh]. intros q Hq. apply Hn; lia.
  Qed.

  Lemma move_to_end e d : e <= d -> move_to m c e d = Ok d.
  Proof. intros H. unfold move_to. destruct (Nat.ltb_spec d e); [lia|]. cbn [bind]. apply scan_end; exact H. Qed.

  Lemma hits_app a b e : a <= b -> b <= e -> hits a e = hits a b ++ hits b e.
  Proof.
    intros H1 H2. unfold hits. rewrite <- filter_app. f_equal. replace (e - a) with ((b - a) + (e - b)) by lia.
    rewrite seq_app. f_equal. f_equal; lia.
  Qed.

  Lemma hits_next e d d' : isnext e d d' -> hits d e = (if hitb d' then [d'] else []) ++ hits d' e.
  Proof.
    intros (Hr & Hn & Hh). rewrite (hits_app d d' e) by lia. f_equal. unfold hits.
    replace (d' - d) with ((d' - S d) + 1) by lia. rewrite seq_app, filter_app. replace (S d + (d' - S d)) with d' by lia.
    assert (E : filter hitb (seq (S d) (d' - S d)) = []).
    { assert (G : forall k a, (forall q, a <= q < a + k -> hitb q = false) -> filter hitb (seq a k) = []).
      { induction k as [|k IH]; intros a H; [reflexivity|]. cbn [seq filter]. rewrite (H a) by lia. apply IH. intros q Hq. apply H; lia. }
      apply G. intros q Hq. apply Hn; lia. }
    rewrite E. cbn [app seq filter]. reflexivity.
  Qed.

  Lemma hits_len a b : length (hits a b) <= b - a.
  Proof. unfold hits. rewrite <- (seq_length (b - a) (S a)) at 2. generalize (seq (S a) (b - a)). induction l as [|x l IH]; cbn; [lia|]. destruct (hitb x); cbn; lia. Qed.

  (** The loops, when the byte at the end of the thread's part can be read. *)
  Section Loops.
    Variable e : nat.
    Hypothesis He : e <= n.
    Variable x0 : byte.
    Hypothesis Hle : load m e = Ok x0.

    Lemma load_le q : q <= e -> exists x, load m q = Ok x.
    Proof. intros H. destruct (Nat.eq_dec q e) as [->|]; [eauto|]. apply load_lt; lia. Qed.

    Lemma fo_count_ok : forall fuel d ct, d <= e -> e - d < fuel -> fo_count m c e fuel d ct = Ok (ct + length (hits d e)).
    Proof.
      induction fuel as [|fuel IH]; intros d ct Hd Hf; [lia|]. cbn [fo_count]. destruct (Nat.ltb_spec d e).
      - destruct (move_to_next e d He H) as (d' & E & Hx). rewrite E. cbn [bind]. pose proof (hits_next e d d' Hx) as Eh. destruct Hx as (Hr & _).
        destruct (load_le d' ltac:(lia)) as (x & Hl). rewrite Hl. cbn [bind]. rewrite IH by lia. rewrite Eh, app_length. unfold hitb. rewrite Hl.
        destruct (x =? c)%Z; cbn [length]; f_equal; lia.
      - unfold hits. replace (e - d) with 0 by lia. cbn. rewrite Nat.add_0_r. reflexivity.
    Qed.

    Lemma fo_set_ok d0 : forall fuel d pos, d <= e -> e - d < fuel ->
      fo_set L m c d0 e fuel d pos = Ok (setCs pos (map (fun q => wrap L (Z.of_nat (q - d0))) (hits d e))).
    Proof.
      induction fuel as [|fuel IH]; intros d pos Hd Hf; [lia|]. cbn [fo_set]. destruct (Nat.ltb_spec d e).
      - destruct (move_to_next e d He H) as (d' & E & Hx). rewrite E. cbn [bind]. pose proof (hits_next e d d' Hx) as Eh. destruct Hx as (Hr & _).
        destruct (load_le d' ltac:(lia)) as (x & Hl). rewrite Hl. cbn [bind]. rewrite Eh. unfold hitb. rewrite Hl.
        destruct (x =? c)%Z; rewrite IH by lia; cbn [bind app map setCs]; [|reflexivity].
        rewrite Nat.add_1_r. reflexivity.
      - unfold hits. replace (e - d) with 0 by lia. reflexivity.
    Qed.
  End Loops.

  (** ** Dividing the file *)
  Variable d0 : nat.
  Hypothesis Hd0 : d0 <= n.
  Variable T : nat.
  Hypothesis HT : 1 <= T.
  Definition fpos (t : nat) : nat := d0 + t * (n - d0) / T.
  Definition fnx (p : nat) : nat := match move_to m c n p with Ok d => d | _ => p end.
  Definition fB (t : nat) : nat := if t =? 0 then d0 else fnx (fpos t).

  Lemma fpos_le t : t <= T -> fpos t <= n.
  Proof.
    intros Ht. unfold fpos. assert (t * (n - d0) / T <= n - d0); [|lia].
    apply Nat.div_le_upper_bound; [lia|]. apply Nat.mul_le_mono_r; exact Ht.
  Qed.
  Lemma fpos_mono t t' : t <= t' -> fpos t <= fpos t'.
  Proof. intros H. unfold fpos. apply Nat.add_le_mono_l, Nat.div_le_mono; [lia|]. apply Nat.mul_le_mono_r; exact H. Qed.
  Lemma fpos_T : fpos T = n.
  Proof. unfold fpos. rewrite Nat.mul_comm, Nat.div_mul by lia. lia. Qed.
  Lemma fpos_0 : fpos 0 = d0.
  Proof. unfold fpos. rewrite Nat.mul_0_l, Nat.div_0_l by lia. lia. Qed.

  Lemma fnx_ok p : p <= n -> move_to m c n p = Ok (fnx p) /\ p <= fnx p <= n.
  Proof.
    intros Hp. unfold fnx. destruct (Nat.eq_dec p n) as [->|].
    - rewrite move_to_end by lia. split; [reflexivity|lia].
    - destruct (move_to_next n p (le_n _) ltac:(lia)) as (d' & -> & Hr & _). split; [reflexivity|lia].
  Qed.
  Lemma fnx_mono p q : p <= q -> q <= n -> fnx p <= fnx q.
  Proof.
    intros Hpq Hq. destruct (fnx_ok q Hq) as [_ Hb]. destruct (Nat.eq_dec p q) as [->|]; [lia|].
    unfold fnx at 1. destruct (move_to_next n p (le_n _) ltac:(lia)) as (d' & -> & Hr & Hn & Hh).
    destruct (Nat.le_gt_cases d' (fnx q)) as [|Hgt]; [assumption|exfalso].
    unfold fnx in *. destruct (Nat.eq_dec q n) as [->|].
    - rewrite move_to_end in * by lia. lia.
    - destruct (move_to_next n q (le_n _) ltac:(lia)) as (q' & E & Hr' & Hn' & Hh'). rewrite E in *.
      rewrite Hn in Hh' by lia. specialize (Hh' ltac:(lia)). discriminate.
  Qed.
  Lemma fB_le t : t <= T -> fB t <= n.
  Proof. intros Ht. unfold fB. destruct (t =? 0); [exact Hd0|]. apply fnx_ok, fpos_le; exact Ht. Qed.
  Lemma fB_mono t t' : t <= t' -> t' <= T -> fB t <= fB t'.
  Proof.
    intros H H'. unfold fB. destruct (Nat.eqb_spec t 0), (Nat.eqb_spec t' 0); try lia.
    - pose proof (fnx_ok (fpos t') (fpos_le t' H')) as [_ Hb]. pose proof (fpos_mono 0 t' ltac:(lia)). rewrite fpos_0 in *. lia.
    - apply fnx_mono; [apply fpos_mono; exact H|apply fpos_le; exact H'].
  Qed.
  Lemma fB_0 : fB 0 = d0.
  Proof. reflexivity. Qed.
  Lemma fB_T : fB T = n.
  Proof. unfold fB. destruct (Nat.eqb_spec T 0); [lia|]. rewrite fpos_T. unfold fnx. rewrite move_to_end by lia. reflexivity. Qed.

  Lemma fo_chunk_ok t : t < T -> fo_chunk m c d0 n T t = Ok (fB t, fB (S t)).
  Proof.
    intros Ht. unfold fo_chunk.
    assert (Ea : forall k, k <= T -> advance n d0 (k * (n - d0) / T) = fpos k).
    { intros k Hk. unfold advance. fold (fpos k). pose proof (fpos_le k Hk). unfold fpos in *. lia. }
    rewrite !Ea by lia. rewrite Nat.add_1_r.
    destruct (fnx_ok (fpos (S t)) (fpos_le (S t) ltac:(lia))) as [E1 B1]. rewrite E1. cbn [bind].
    assert (E2 : (if t =? 0 then Ok (fpos t) else move_to m c n (fpos t)) = Ok (fB t)).
    { unfold fB. destruct (Nat.eqb_spec t 0) as [->|]; [rewrite fpos_0; reflexivity|]. apply fnx_ok, fpos_le; lia. }
    rewrite E2. cbn [bind]. f_equal. f_equal. unfold smaller_end. change (fB (S t)) with (fnx (fpos (S t))).
    destruct (Nat.ltb_spec (fnx (fpos (S t))) n); [reflexivity|]. lia.
  Qed.

  Definition fP (t : nat) : nat := length (hits d0 (fB t)).
  Let out := map (fun q => wrap L (Z.of_nat (q - d0))) (hits d0 n).
  Definition fprog (t : nat) : list (tinstr unit) := setCs (fP t) (map (fun q => wrap L (Z.of_nat (q - d0))) (hits (fB t) (fB (S t)))).

  Lemma fP_S t : t < T -> fP (S t) = fP t + length (hits (fB t) (fB (S t))).
  Proof.
    intros Ht. unfold fP. rewrite <- app_length, <- hits_app; [reflexivity| |].
    - rewrite <- fB_0. apply fB_mono; lia.
    - apply fB_mono; lia.
  Qed.
  Lemma fP_mono i j : i <= j -> j <= T -> fP i <= fP j.
  Proof. intros Hij Hj. induction Hij as [|j Hij IH]; [lia|]. rewrite fP_S by lia. specialize (IH ltac:(lia)). lia. Qed.
  Lemma fP_0 : fP 0 = 0.
  Proof. unfold fP, hits. rewrite fB_0, Nat.sub_diag. reflexivity. Qed.

  Lemma setCs_app {W} (a : list Z) : forall b pos, setCs (W := W) pos (a ++ b) = setCs pos a ++ setCs (pos + length a) b.
  Proof using Type.
    clear. induction a as [|x a IH]; intros b pos; cbn [app setCs length]; [rewrite Nat.add_0_r; reflexivity|].
    rewrite IH, Nat.add_succ_r. reflexivity.
  Qed.

  Hypothesis Hs : slack m.
  Hypothesis HO : is_ity O.
  Hypothesis Hcnt : (Z.of_nat (length (hits d0 n)) <= imax O)%Z.

  Lemma load_B t : t <= T -> exists x, load m (fB t) = Ok x.
  Proof.
    intros Ht. destruct (Nat.eq_dec (fB t) n) as [->|]; [exists 0%Z; apply load_eof; exact Hs|]. apply load_lt. pose proof (fB_le t Ht). lia.
  Qed.

  Lemma fprog_in t : t < T -> Forall (tin 1 (fP t) (fP (S t))) (fprog t).
  Proof. intros Ht. apply setCs_in; [lia|]. rewrite map_length, fP_S by exact Ht. lia. Qed.

  Lemma find_progs_ok : find_progs L O m c d0 n T = Ok (Z.of_nat (length out), mkTst (fresh (length out)) [], map fprog (seq 0 T)).
  Proof.
    unfold find_progs.
    rewrite (mapM_ok _ (fun t => (fB t, fB (S t)))) by (intros t Ht; apply in_seq in Ht; apply fo_chunk_ok; lia).
    cbn [bind]. rewrite mapM_map. cbn [fst snd].
    rewrite (mapM_ok _ (fun t => length (hits (fB t) (fB (S t))))).
    2:{ intros t Ht. apply in_seq in Ht. destruct (load_B (S t) ltac:(lia)) as (x & Hx).
        rewrite (fo_count_ok (fB (S t)) (fB_le (S t) ltac:(lia)) x Hx); [reflexivity|apply fB_mono; lia|lia]. }
    cbn [bind]. pose proof (sum_nat_seq fP (fun t => length (hits (fB t) (fB (S t)))) T 0) as Hsum. rewrite fP_0 in Hsum. cbn [plus] in Hsum.
    rewrite Hsum by (intros t Ht; apply fP_S; lia).
    assert (EP : fP T = length out) by (unfold fP, out; rewrite fB_T, map_length; reflexivity). rewrite EP.
    assert (Hlo : (Z.of_nat (length out) <= imax O)%Z) by (unfold out; rewrite map_length; exact Hcnt).
    pose proof (ity_facts O HO) as (HO1 & HO2 & HO3).
    rewrite wrap_in by (auto; lia).
    assert (Eal : tensor_alloc (W := unit) O false 1 (Z.of_nat (length out)) = Ok (fresh (length out), [])).
    { unfold tensor_alloc, omul. rewrite Z.mul_1_l.
      assert (Em : (if (ibits O <? 32)%Z then (if (Z.of_nat (length out) <=? imax i32)%Z then Ok (Z.of_nat (length out)) else UB)
                    else arith O (Z.of_nat (length out))) = Ok (Z.of_nat (length out))).
      { destruct (ibits O <? 32)%Z eqn:Eb; [|apply arith_in; auto; lia].
        assert (Hi : (imax O <= imax i32)%Z).
        { apply narrow_imax; assumption. }
        destruct (Z.leb_spec (Z.of_nat (length out)) (imax i32)); [reflexivity|lia]. }
      rewrite Em. cbn [bind]. unfold Csr.alloc. destruct (Z.ltb_spec (Z.of_nat (length out)) 0); [lia|]. cbn [bind]. rewrite Nat2Z.id. reflexivity. }
    rewrite Eal. cbn [bind].
    pose proof (prefix_sums_seq fP (fun t => length (hits (fB t) (fB (S t)))) T 0) as Hps. rewrite fP_0 in Hps.
    rewrite Hps by (intros t Ht; apply fP_S; lia). rewrite combine_map, mapM_map. cbn [fst snd].
    rewrite (mapM_ok _ fprog).
    2:{ intros t Ht. apply in_seq in Ht. destruct (load_B (S t) ltac:(lia)) as (x & Hx). unfold fprog.
        apply (fo_set_ok (fB (S t)) (fB_le (S t) ltac:(lia)) x Hx); [apply fB_mono; lia|lia]. }
    reflexivity.
  Qed.

  Lemma find_ok sched : find_offsets L O m c d0 n T sched = Ok (mkTensor (map Some out) [] 1 (Z.of_nat (length out))).
  Proof.
    rewrite find_by_progs, find_progs_ok.
    cbn [bind]. rewrite run_indep.
    2:{ apply fop_map, fop_seq. intros i j Hij Hj. cbn [plus] in Hj. intros a b Ha Hb.
        pose proof (fprog_in i ltac:(lia)) as Hi. rewrite Forall_forall in Hi. specialize (Hi a Ha).
        pose proof (fprog_in j ltac:(lia)) as Hjj. rewrite Forall_forall in Hjj. specialize (Hjj b Hb).
        eapply tcomm; [exact Hi|exact Hjj|]. apply fP_mono; lia. }
    assert (Ec : forall k, k <= T -> concat (map fprog (seq 0 k)) = setCs 0 (map (fun q => wrap L (Z.of_nat (q - d0))) (hits d0 (fB k)))).
    { induction k as [|k IH]; intros Hk; [unfold hits; rewrite fB_0, Nat.sub_diag; reflexivity|].
      rewrite seq_S, map_app, concat_app, IH by lia. cbn [map concat plus]. rewrite app_nil_r.
      rewrite (hits_app d0 (fB k) (fB (S k))); [|rewrite <- fB_0; apply fB_mono; lia|apply fB_mono; lia].
      rewrite map_app, setCs_app, map_length. reflexivity. }
    rewrite Ec by lia. rewrite fB_T. fold out.
    pose proof (exec_setCs (W := unit) [] out [] (fresh (length out))) as Ex. rewrite fresh_length in Ex. cbn [length map app] in Ex.
    rewrite Ex by lia. cbn [bind tc tw]. f_equal.
    assert (Esk : skipn (length out) (@fresh Z (length out)) = []) by (rewrite <- (@fresh_length Z (length out)) at 1; apply skipn_all).
    rewrite Esk, app_nil_r. reflexivity.
  Qed.
End Find.

(** ** In terms of the specification *)

Lemma offsets_from_filter c s : forall i (h : nat -> bool), (forall k b, nth_error s k = Some b -> h (i + k) = (b =? c)%Z) ->
  offsets_from i c s = filter h (seq i (length s)).
Proof.
  induction s as [|b s IH]; intros i h H; [reflexivity|]. cbn [offsets_from length seq filter].
  rewrite <- (Nat.add_0_r i) at 4. rewrite (H 0 b eq_refl). rewrite (IH (S i) h).
  - destruct (b =? c)%Z; reflexivity.
  - intros k b' Hk. rewrite <- (H (S k) b' Hk). f_equal. lia.
Qed.

Lemma offsets_shift c s : forall i j, offsets_from (i + j) c s = map (fun q => q + j) (offsets_from i c s).
Proof.
  induction s as [|b s IH]; intros i j; [reflexivity|]. cbn [offsets_from]. change (S (i + j)) with (S i + j). rewrite IH.
  destruct (b =? c)%Z; reflexivity.
Qed.

(** The occurrences after position [d0], and, for the null byte, the end. *)
Lemma hits_offsets s pg c d0 : slack (mkMem s pg) -> d0 < length s ->
  map (fun q => q - d0) (hits (mkMem s pg) c d0 (length s)) =
  offsets_from 1 c (skipn 1 (skipn d0 s)) ++ (if (c =? 0)%Z then [length s - d0] else []).
Proof.
  intros Hs Hd. unfold hits. replace (length s - d0) with ((length s - S d0) + 1) at 1 by lia.
  rewrite seq_app, filter_app, map_app. f_equal.
  - assert (E1 : skipn 1 (skipn d0 s) = skipn (S d0) s).
    { clear. revert s; induction d0 as [|k IH]; intros [|a s]; try reflexivity. apply (IH s). }
    rewrite E1.
    assert (E : offsets_from (1 + d0) c (skipn (S d0) s) = filter (hitb (mkMem s pg) c) (seq (S d0) (length s - S d0))).
    { rewrite (offsets_from_filter c (skipn (S d0) s) (1 + d0) (hitb (mkMem s pg) c)).
      - rewrite skipn_length. reflexivity.
      - intros k b Hk. unfold hitb, load. cbn [bytes]. replace (1 + d0 + k) with (S d0 + k) by lia.
        assert (En : nth_error s (S d0 + k) = Some b).
        { rewrite <- (firstn_skipn (S d0) s). rewrite nth_error_app2; rewrite firstn_length_le by lia; [|lia].
          replace (S d0 + k - S d0) with k by lia. exact Hk. }
        rewrite En. reflexivity. }
    rewrite <- E, offsets_shift, map_map. rewrite <- (map_id (offsets_from 1 c _)) at 2. apply map_ext. intros q. lia.
  - replace (S d0 + (length s - S d0)) with (length s) by lia. cbn [seq filter]. unfold hitb.
    pose proof (load_eof (mkMem s pg) Hs) as El. unfold flen in El; cbn [bytes] in El. rewrite El. rewrite Z.eqb_sym.
    destruct (c =? 0)%Z; reflexivity.
Qed.

Lemma load_past m : 0 < page m -> flen m mod page m = 0 -> load m (flen m) = UB.
Proof.
  intros Hp Hm. unfold load. assert (E : nth_error (bytes m) (flen m) = None) by (apply nth_error_None; reflexivity). rewrite E.
  unfold map_len. pose proof (Nat.div_mod (flen m) (page m) ltac:(lia)) as Ed.
  assert (E2 : (flen m + (page m - 1)) / page m = flen m / page m).
  { symmetry. apply Nat.div_unique with (r := page m - 1); nia. }
  rewrite E2. destruct (Nat.ltb_spec (flen m) (flen m / page m * page m)); [nia|reflexivity].
Qed.

(** A size that is a multiple of the page size. *)
Section Past.
  Variable m : mem.
  Variable c : byte.
  Let n := flen m.
  Hypothesis Hub : load m n = UB.

  Lemma count_past : forall fuel d ct, d < n -> n - d < fuel -> fo_count m c n fuel d ct = UB.
  Proof.
    induction fuel as [|fuel IH]; intros d ct Hd Hf; [lia|]. cbn [fo_count]. destruct (Nat.ltb_spec d n); [|lia].
    destruct (move_to_next m c n d (le_n _) H) as (d' & E & Hr & _). rewrite E. cbn [bind].
    destruct (Nat.eq_dec d' n) as [->|]; [rewrite Hub; reflexivity|].
    destruct (load_lt m d' ltac:(unfold n in *; lia)) as (x & ->). cbn [bind]. apply IH; lia.
  Qed.

  Lemma count_any e : e <= n -> forall fuel d ct, d <= e -> e - d < fuel -> fo_count m c e fuel d ct = UB \/ exists k, fo_count m c e fuel d ct = Ok k.
  Proof.
    intros He. induction fuel as [|fuel IH]; intros d ct Hd Hf; [lia|]. cbn [fo_count]. destruct (Nat.ltb_spec d e); [|eauto].
    destruct (move_to_next m c e d He H) as (d' & E & Hr & _). rewrite E. cbn [bind].
    destruct (Nat.eq_dec d' n) as [->|]; [rewrite Hub; auto|].
    destruct (load_lt m d' ltac:(unfold n in *; lia)) as (x & ->). cbn [bind]. apply IH; lia.
  Qed.

  Lemma find_past L O d0 T sched : d0 < n -> 1 <= T -> find_offsets L O m c d0 n T sched = UB.
  Proof.
    intros Hd HT. unfold find_offsets.
    rewrite (mapM_ok _ (fun t => (fB m c d0 T t, fB m c d0 T (S t)))).
    2:{ intros t Ht. apply in_seq in Ht. apply fo_chunk_ok; unfold n in *; lia. }
    cbn [bind]. rewrite mapM_map. cbn [fst snd].
    assert (Hex : exists t, t < T /\ fB m c d0 T t < n /\ fB m c d0 T (S t) = n).
    { assert (G : forall k, k <= T -> fB m c d0 T k < n -> exists t, t < T /\ fB m c d0 T t < n /\ fB m c d0 T (S t) = n).
      { intros k. remember (T - k) as j eqn:Ej. revert k Ej. induction j as [|j IH]; intros k Ej Hk Hlt.
        - assert (k = T) by lia. subst k. rewrite (fB_T m c d0 ltac:(unfold n in *; lia) T HT) in Hlt. unfold n in *; lia.
        - destruct (Nat.eq_dec (fB m c d0 T (S k)) n) as [E|]; [exists k; repeat split; [lia|exact Hlt|exact E]|].
          apply (IH (S k)); [lia|lia|].
          pose proof (fB_le m c d0 ltac:(unfold n in *; lia) T HT (S k) ltac:(lia)). unfold n in *; lia. }
      apply (G 0); [lia|]. exact Hd. }
    destruct Hex as (t & Ht & H1 & H2).
    rewrite (mapM_ub _ (slack m) (seq 0 T) t); [reflexivity| |apply in_seq; lia|].
    - intros t' Ht'. apply in_seq in Ht'.
      destruct (count_any (fB m c d0 T (S t')) ltac:(apply fB_le; unfold n in *; lia) (S (fB m c d0 T (S t') - fB m c d0 T t')) (fB m c d0 T t') 0) as [E|(k & E)];
        [apply fB_mono; unfold n in *; lia|lia| |]; rewrite E; cbn [safe].
      2:{ exact Logic.I. }
      intros Hsl. apply load_eof in Hsl. fold n in Hsl. congruence.
    - rewrite H2. apply count_past; lia.
  Qed.
End Past.
