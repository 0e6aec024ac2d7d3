(** * Arb: the edge-list reader on arbitrary bytes

    For labels of a type whose arithmetic wraps, the unweighted reader ends
    normally on every byte string: pass 1 and pass 2 terminate, and every store
    of pass 2 is inside the range that pass 1 reserved for its thread. *)

From Verif Require Import Base Reader Sched SchedLemmas Spec ReaderLemmas Coo Safe.

Section RunInv.
  Context {S I : Type}.
  Variable exec : I -> S -> res S.
  Variable Inv : S -> Prop.
  Variable good : I -> Prop.
  Hypothesis Hstep : forall i s, good i -> Inv s -> exists s', exec i s = Ok s' /\ Inv s'.

  Lemma exec_all_inv l : Forall good l -> forall s, Inv s -> exists s', exec_all exec l s = Ok s' /\ Inv s'.
  Proof.
    induction l as [|i l IH]; intros Hg s Hs; cbn [exec_all]; [eauto|]. inversion Hg; subst.
    destruct (Hstep i s) as (s' & E & Hs'); auto. rewrite E. cbn [bind]. apply IH; auto.
  Qed.

  Lemma pop_good t : forall ps i ps', pop t ps = Some (i, ps') -> Forall (Forall good) ps -> good i /\ Forall (Forall good) ps'.
  Proof.
    induction t as [|t IH]; intros [|p ps] i ps' E Hg; cbn [pop] in E; try discriminate; inversion Hg; subst.
    - destruct p as [|j p]; [discriminate|]. injection E as <- <-. inversion H1; subst. split; auto.
    - destruct (pop t ps) as [[j qs]|] eqn:Ep; [|discriminate]. injection E as <- <-.
      destruct (IH _ _ _ Ep H2). split; auto.
  Qed.

  Lemma run_inv sched : forall ps s, Forall (Forall good) ps -> Inv s -> exists s', run exec sched ps s = Ok s' /\ Inv s'.
  Proof.
    induction sched as [|t sched IH]; intros ps s Hg Hs; cbn [run].
    - apply exec_all_inv; [|exact Hs]. apply Forall_concat. exact Hg.
    - destruct (pop t ps) as [[i ps']|] eqn:Ep; [|apply IH; assumption].
      destruct (pop_good _ _ _ _ Ep Hg) as [Hi Hg']. destruct (Hstep i s Hi Hs) as (s' & E & Hs').
      rewrite E. cbn [bind]. apply IH; assumption.
  Qed.
End RunInv.

Lemma safe_Ok {A} (G : Prop) (r : res A) (Q : A -> Prop) : G -> safe G r Q -> exists a, r = Ok a /\ Q a.
Proof. apply safe_ok. Qed.

Definition in_rng (lo hi : nat) (i : cinstr unit) : Prop :=
    match i with SetX k _ | SetY k _ => lo <= k < hi | _ => False end.

Lemma in_rng_mono lo hi lo' hi' i : lo' <= lo -> hi <= hi' -> in_rng lo hi i -> in_rng lo' hi' i.
Proof. destruct i; cbn; lia. Qed.

Section Arb.
  Variable L : ity.
  Hypothesis HL : modular L.
  Variable fl : flags.
  Variable m : mem.
  Hypothesis Hs : slack m.
  Variable e : nat.
  Hypothesis He : e <= flen m.

  Definition none : option (wrd unit) := None.

  Lemma scan_ok p d : d <= e -> exists d', scan m p e d = Ok d' /\ d <= d' <= e /\
     (d' < e -> exists c, load m d' = Ok c /\ p c = false) /\
     (forall i, d <= i < d' -> exists c, load m i = Ok c /\ p c = true).
  Proof. intros H. exact (safe_ok _ _ _ Hs (scan_safe m e He p d H)). Qed.

  Lemma next_line_ok d : d <= e -> exists d', next_line m e d = Ok d' /\ d <= d' <= e /\ (d < e -> d < d') /\
       (d' < e -> exists c, load m d' = Ok c /\ is_digit c = true).
  Proof. intros H. exact (safe_ok _ _ _ Hs (next_line_safe m e He d H)). Qed.

  Lemma next_int_ok d : d <= e -> exists d', move_to_next_int m e d = Ok d' /\ d <= d' <= e /\
       (d' < e -> exists c, load m d' = Ok c /\ is_digit c = true).
  Proof. intros H. exact (safe_ok _ _ _ Hs (move_to_next_int_safe m e He d H)). Qed.

  (** A scan may start anywhere in its run. *)
  Lemma scan_mid p d d1 : d <= d1 <= e -> (forall i, d <= i < d1 -> exists c, load m i = Ok c /\ p c = true) ->
    scan m p e d = scan m p e d1.
  Proof.
    unfold scan. intros H. remember (d1 - d) as k eqn:Ek. revert d H Ek.
    induction k as [|k IH]; intros d H Ek Hp.
    - assert (d = d1) by lia. subst; reflexivity.
    - destruct (e - d) as [|n] eqn:En; [lia|]. cbn [scan_].
      destruct (Hp d ltac:(lia)) as (c & Hc & Hpc). rewrite Hc. cbn [bind]. rewrite Hpc.
      replace n with (e - S d) by lia. apply IH; [lia|lia|]. intros; apply Hp; lia.
  Qed.

  (** The digit run at [d]: [read_int] stops where [move_to_non_int] stops. *)
  Lemma read_digits_end n : forall d acc, d + n <= flen m ->
    exists v d1, read_digits_ m L n d acc = Ok (v, d1) /\ scan_ m is_digit n d = Ok d1.
  Proof.
    induction n as [|n IH]; intros d acc Hd; cbn [read_digits_ scan_]; [eauto|].
    destruct (safe_ok _ _ _ Hs (load_safe m d ltac:(lia))) as (c & Hc & _). rewrite Hc. cbn [bind].
    destruct (is_digit c); [|eauto]. rewrite arith_modular by exact HL. cbn [bind]. apply IH; lia.
  Qed.

  Lemma read_int_at d c : d < e -> load m d = Ok c -> is_digit c = true ->
    exists v d1, read_int m L e d = Ok (v, d1) /\ scan m is_digit e d = Ok d1.
  Proof.
    intros Hd Hc Ec. unfold read_int. rewrite (scan_stop m _ e d c Hc) by (rewrite Ec; reflexivity). cbn [bind].
    apply read_digits_end. lia.
  Qed.

  Lemma next_int_after d d1 : d <= e -> scan m is_digit e d = Ok d1 ->
    move_to_next_int m e d = move_to_next_int m e d1.
  Proof.
    intros Hd E. unfold move_to_next_int, move_to_non_int. rewrite E.
    destruct (scan_ok is_digit d Hd) as (d' & E' & H1 & H2 & _). rewrite E in E'. injection E' as <-.
    destruct (Nat.lt_ge_cases d1 e) as [Hl|Hg].
    - destruct (H2 Hl) as (c & Hc & Hf). rewrite (scan_stop m is_digit e d1 c Hc Hf). reflexivity.
    - rewrite scan_end by lia. reflexivity.
  Qed.

  Lemma next_line_mid d d1 : d <= e -> scan m is_digit e d = Ok d1 -> next_line m e d = next_line m e d1.
  Proof.
    intros Hd E. unfold next_line, move_to_eol.
    destruct (scan_ok is_digit d Hd) as (d' & E' & H1 & H2 & H3). rewrite E in E'. injection E' as <-.
    rewrite (scan_mid _ d d1); [reflexivity|lia|]. intros i Hi. destruct (H3 i Hi) as (c & Hc & Hd').
    exists c; split; [exact Hc|]. rewrite (digit_not_nl c Hd'). reflexivity.
  Qed.

  (** [read_xy] at a digit: where [y] starts and where it ends. *)
  Lemma read_xy_trace d c : d < e -> load m d = Ok c -> is_digit c = true ->
    exists x y dy d3, read_xy L m e d = Ok (x, y, d3) /\ move_to_next_int m e d = Ok dy /\
      d < dy <= e /\ dy <= d3 <= e /\ (dy < e -> scan m is_digit e dy = Ok d3).
  Proof.
    intros Hd Hc Ec. unfold read_xy.
    destruct (read_int_at d c Hd Hc Ec) as (x & d1 & E1 & S1). rewrite E1. cbn [bind].
    destruct (scan_ok is_digit d ltac:(lia)) as (d' & S1' & B1 & N1 & _).
    rewrite S1 in S1'. injection S1' as <-.
    assert (d1 <> d).
    { intros ->. destruct (N1 Hd) as (c' & Hc' & Hf). rewrite Hc in Hc'. injection Hc' as <-. congruence. }
    destruct (next_int_ok d1 ltac:(lia)) as (dy & E2 & B2 & D2). rewrite E2. cbn [bind].
    rewrite <- (next_int_after d d1 ltac:(lia) S1) in E2.
    destruct (Nat.lt_ge_cases dy e) as [Hl|Hg].
    - destruct (D2 Hl) as (cy & Hcy & Dcy). destruct (read_int_at dy cy Hl Hcy Dcy) as (y & d3 & E3 & S3).
      rewrite E3. cbn [bind]. destruct (scan_ok is_digit dy ltac:(lia)) as (d3' & S3' & B3 & _).
      rewrite S3 in S3'. injection S3' as <-. exists x, y, dy, d3. repeat split; auto; lia.
    - rewrite read_int_end by lia. cbn [bind]. exists x, 0%Z, dy, dy. repeat split; auto; lia.
  Qed.

  Definition at_digit (d : nat) : Prop := d < e -> exists c, load m d = Ok c /\ is_digit c = true.

  (** One entry: the two passes move to the same place and the second stores
      inside the range counted by the first. *)
  Definition agree (d pos : nat) (mr mc : Z) (rc : res (nat * nat)) (rs : res (@eset unit)) : Prop :=
    exists d' k r, rc = Ok (d', k) /\ rs = Ok r /\ d < d' <= e /\ at_digit d' /\ es_d r = d' /\
      k <= 2 * (d' - d) /\ pos <= es_pos r <= pos + k /\ Forall (in_rng pos (pos + k)) (es_code r).

  Lemma at_digit_end : at_digit e.
  Proof. intros H; lia. Qed.

  Lemma plain_agree d pos mr mc : d < e -> at_digit d ->
    agree d pos mr mc (entry_count_plain m e d) (entry_set_plain L none m e d pos mr mc).
  Proof.
    intros Hd Ha. destruct (Ha Hd) as (c & Hc & Ec). unfold entry_count_plain, entry_set_plain, agree.
    destruct (read_xy_trace d c Hd Hc Ec) as (x & y & dy & d3 & E & Ey & B1 & B2 & Sy).
    rewrite E, Ey. cbn [bind set_weight none app].
    destruct (Nat.leb_spec e dy) as [Hg|Hl].
    - assert (dy = e) by lia. assert (d3 = e) by lia. subst dy d3. rewrite Nat.leb_refl.
      exists e, 0. eexists. split; [reflexivity|]. split; [reflexivity|]. cbn [es_d es_pos es_code].
      split; [lia|]. split; [exact at_digit_end|]. split; [reflexivity|]. split; [lia|]. split; [lia|constructor].
    - specialize (Sy Hl). pose proof (next_line_mid dy d3 ltac:(lia) Sy) as En.
      destruct (next_line_ok dy ltac:(lia)) as (d4 & E4 & B4 & P4 & D4). rewrite E4. cbn [bind].
      destruct (Nat.leb_spec e d3) as [Hg3|Hl3].
      + assert (d3 = e) by lia. subst d3. rewrite E4 in En.
        destruct (next_line_ok e ltac:(lia)) as (d5 & E5 & B5 & _). rewrite E5 in En. injection En as ->.
        exists d5, 1. eexists. split; [reflexivity|]. split; [reflexivity|]. cbn [es_d es_pos es_code].
        split; [lia|]. split; [exact D4|]. split; [lia|]. split; [lia|]. split; [lia|constructor].
      + rewrite <- En, E4. cbn [bind]. exists d4, 1. eexists. split; [reflexivity|]. split; [reflexivity|].
        cbn [es_d es_pos es_code].
        split; [lia|]. split; [exact D4|]. split; [reflexivity|]. split; [lia|]. split; [lia|].
        repeat constructor; cbn; lia.
  Qed.

  Lemma swap_doubled x y : doubled fl (if f_sym fl && f_ut fl && (y <? x)%Z then y else x)
                                      (if f_sym fl && f_ut fl && (y <? x)%Z then x else y) = doubled fl x y.
  Proof. unfold doubled. destruct fl as [[] [] []]; cbn; try reflexivity. Qed.

  Lemma flags_agree fuel : forall d pos mr mc, d <= e -> at_digit d -> e - d < fuel ->
    exists d' k r, entry_count_flags L none fl m e fuel d = Ok (d', k) /\
      entry_set_flags L none fl m e fuel d pos mr mc = Ok r /\ (d < e -> d < d') /\ d <= d' <= e /\ at_digit d' /\ es_d r = d' /\
      k <= 2 * (d' - d) /\ pos <= es_pos r <= pos + k /\ Forall (in_rng pos (pos + k)) (es_code r).
  Proof.
    induction fuel as [|fuel IH]; intros d pos mr mc Hd Ha Hf; [lia|]. cbn [entry_count_flags entry_set_flags].
    destruct (Nat.lt_ge_cases d e) as [Hlt|Hge].
    2:{ assert (d = e) by lia. subst d.
        assert (E : exists x y, read_xy L m e e = Ok (x, y, e)).
        { unfold read_xy. rewrite read_int_end by lia. cbn [bind].
          destruct (next_int_ok e ltac:(lia)) as (d2 & E2 & B2 & _). assert (d2 = e) by lia. subst d2. rewrite E2. cbn [bind].
          rewrite read_int_end by lia. cbn [bind]. eauto. }
        destruct E as (x & y & E). rewrite E. cbn [bind set_weight none app]. rewrite Nat.leb_refl.
        exists e, 0. eexists. split; [reflexivity|]. split; [reflexivity|]. cbn [es_d es_pos es_code].
        split; [lia|]. split; [lia|]. split; [exact Ha|]. split; [reflexivity|]. split; [lia|]. split; [lia|constructor]. }
    destruct (Ha Hlt) as (c & Hc & Ec).
    destruct (read_xy_trace d c Hlt Hc Ec) as (x & y & dy & d3 & E & Ey & B1 & B2 & Sy).
    rewrite E. cbn [bind set_weight none app].
    destruct (Nat.leb_spec e d3) as [Hg|Hl].
    - assert (d3 = e) by lia. subst d3. exists e, 0. eexists. split; [reflexivity|]. split; [reflexivity|].
      cbn [es_d es_pos es_code].
      split; [lia|]. split; [lia|]. split; [exact at_digit_end|]. split; [reflexivity|]. split; [lia|]. split; [lia|constructor].
    - destruct (next_line_ok d3 ltac:(lia)) as (d4 & E4 & B4 & P4 & D4). rewrite E4. cbn [bind].
      destruct (dropped fl x y).
      + destruct (IH d4 pos mr mc ltac:(lia) D4 ltac:(lia)) as (d' & k & r & C1 & C2 & C3 & C4 & C5 & C6 & C7 & C8 & C9).
        rewrite C1, C2. cbn [bind]. exists d', k. eexists. split; [reflexivity|]. split; [reflexivity|].
        cbn [es_d es_pos es_code].
        split; [lia|]. split; [lia|]. split; [exact C5|]. split; [exact C6|]. split; [lia|]. split; [lia|]. exact C9.
      + rewrite swap_doubled. eexists d4, _, _. split; [reflexivity|]. split; [reflexivity|].
        cbn [es_d es_pos es_code].
        split; [lia|]. split; [lia|]. split; [exact D4|]. split; [reflexivity|].
        destruct (doubled fl x y); (split; [lia|]); (split; [lia|]); repeat constructor; cbn; lia.
  Qed.

  Lemma entry_agree d pos mr mc : d < e -> at_digit d ->
    agree d pos mr mc (entry_count L none fl m e d) (entry_set L none fl m e d pos mr mc).
  Proof.
    intros Hd Ha. unfold entry_count, entry_set. destruct (has_flags fl); [|apply plain_agree; assumption].
    destruct (flags_agree (S (e - d)) d pos mr mc ltac:(lia) Ha ltac:(lia))
      as (d' & k & r & C1 & C2 & C3 & C4 & C5 & C6 & C7 & C8 & C9).
    exists d', k, r. specialize (C3 Hd). repeat split; auto; try lia.
  Qed.

  Lemma loops_agree fuel : forall d ct, at_digit d -> d <= e -> e - d < fuel ->
    exists k, count_loop L none fl m e fuel d ct = Ok (ct + k) /\ k <= 2 * (e - d) /\
    forall pos mr mc, exists code mr' mc', set_loop L none fl m e fuel d pos mr mc = Ok (code, mr', mc') /\
      Forall (in_rng pos (pos + k)) code.
  Proof.
    induction fuel as [|fuel IH]; intros d ct Ha Hd Hf; [lia|]. cbn [count_loop set_loop].
    destruct (Nat.ltb_spec d e) as [Hlt|Hge].
    2:{ exists 0. rewrite Nat.add_0_r. split; [reflexivity|]. split; [lia|]. intros. exists [], mr, mc. split; [reflexivity|constructor]. }
    destruct (entry_agree d 0 0%Z 0%Z Hlt Ha) as (d' & k & r0 & C1 & _ & C3 & C4 & _ & C6 & _).
    rewrite C1. cbn [bind].
    destruct (IH d' (ct + k) C4 ltac:(lia) ltac:(lia)) as (k' & K1 & K2 & K3). exists (k + k').
    split; [rewrite K1; f_equal; lia|]. split; [lia|]. intros pos mr mc.
    destruct (entry_agree d pos mr mc Hlt Ha) as (d'' & k2 & r & D1 & D2 & _ & _ & D5 & _ & D7 & D8).
    rewrite C1 in D1. injection D1 as <- <-. rewrite D2. cbn [bind]. rewrite D5.
    destruct (K3 (es_pos r) (es_mr r) (es_mc r)) as (code & mr' & mc' & E' & F'). rewrite E'. cbn [bind].
    eexists _, _, _. split; [reflexivity|]. apply Forall_app; split.
    - eapply Forall_impl; [|exact D8]. intros i; apply in_rng_mono; lia.
    - eapply Forall_impl; [|exact F']. intros i; apply in_rng_mono; lia.
  Qed.
End Arb.

Lemma mapM_all {A B} (f : A -> res B) l : (forall a, In a l -> exists b, f a = Ok b) -> exists bs, mapM f l = Ok bs.
Proof.
  induction l as [|a l IH]; intros H; cbn [mapM]; [eauto|].
  destruct (H a (or_introl eq_refl)) as (b & E). destruct IH as (bs & E'); [intros; apply H; right; assumption|].
  rewrite E, E'. cbn. eauto.
Qed.

Lemma mapM_forall2 {A B} (f : A -> res B) l : forall bs, mapM f l = Ok bs -> Forall2 (fun a b => f a = Ok b) l bs.
Proof.
  induction l as [|a l IH]; intros bs E; cbn [mapM] in E.
  - injection E as <-. constructor.
  - destruct (f a) as [b| | |] eqn:Ea; try discriminate. destruct (mapM f l) as [bs'| | |] eqn:El; try discriminate.
    cbn in E. injection E as <-. constructor; auto.
Qed.

Section Whole.
  Variable L O : ity.
  Hypothesis HL : modular L.
  Hypothesis HO : is_ity O.
  Variable fl : flags.
  Variable m : mem.
  Hypothesis Hs : slack m.
  Variable T : nat.
  Hypothesis HT : 1 <= T.
  Variable d0 : nat.
  Let e := flen m.
  Hypothesis Hd0 : d0 <= e.

  Lemma chunk_ok t : t < T -> exists d1 e1, el_chunk m d0 e T t = Ok (d1, e1) /\ e1 <= e /\
     (d1 < e1 -> exists c, load m d1 = Ok c /\ is_digit c = true).
  Proof.
    intros Ht. unfold el_chunk, line_boundary. rewrite (proj2 (Nat.ltb_ge e d0)) by lia; cbn [andb]. 
    assert (Ha : forall p, advance e d0 p <= e) by (intros; unfold advance; lia).
    destruct (next_line_ok m Hs e (le_n _) (advance e d0 ((t + 1) * (e - d0) / T)) (Ha _)) as (re & E1 & B1 & _).
    rewrite E1. cbn [bind]. set (ps := advance e d0 (t * (e - d0) / T)).
    assert (E2 : exists rs, (if t =? 0 then move_to_first_int m e ps else next_line m e ps) = Ok rs /\ rs <= e /\
       (rs < e -> exists c, load m rs = Ok c /\ is_digit c = true)).
    { destruct (t =? 0).
      - destruct (safe_ok _ _ _ Hs (move_to_first_int_safe m e (le_n _) ps (Ha _))) as (rs & E & B & D).
        exists rs. split; [exact E|]. split; [lia|exact D].
      - destruct (next_line_ok m Hs e (le_n _) ps (Ha _)) as (rs & E & B & _ & D).
        exists rs. split; [exact E|]. split; [lia|exact D]. }
    destruct E2 as (rs & E2 & B2 & D2). rewrite E2. cbn [bind].
    assert (smaller_end e re <= e) by (unfold smaller_end; destruct (_ <? _); lia).
    eexists _, _. split; [reflexivity|]. split; [assumption|]. intros; apply D2; lia.
  Qed.

  Definition chunk_fine (c : nat * nat) : Prop :=
    snd c <= e /\ (fst c < snd c -> exists ch, load m (fst c) = Ok ch /\ is_digit ch = true).

  Lemma chunk_count c : chunk_fine c -> exists k,
    count_loop L none fl m (snd c) (S (snd c - fst c)) (fst c) 0 = Ok k /\ k <= 2 * e /\
    forall pos mr mc, exists code mr' mc',
      set_loop L none fl m (snd c) (S (snd c - fst c)) (fst c) pos mr mc = Ok (code, mr', mc') /\
      Forall (in_rng pos (pos + k)) code.
  Proof.
    intros [H1 H2]. destruct (Nat.le_gt_cases (fst c) (snd c)) as [Hle|Hgt].
    - destruct (loops_agree L HL fl m Hs (snd c) H1 (S (snd c - fst c)) (fst c) 0 H2 Hle ltac:(lia)) as (k & K1 & K2 & K3).
      exists k. split; [exact K1|]. split; [lia|exact K3].
    - exists 0. cbn [count_loop set_loop]. destruct (Nat.ltb_spec (fst c) (snd c)); [lia|].
      split; [reflexivity|]. split; [lia|]. intros. exists [], mr, mc. split; [reflexivity|constructor].
  Qed.

  Lemma pass1_total : exists chunks counts, el_pass1 L none fl m d0 e T = Ok (chunks, counts) /\
    sum_nat counts <= 2 * T * e /\
    exists p2, el_pass2 L none fl m chunks counts = Ok p2 /\
      Forall (Forall (in_rng 0 (sum_nat counts))) (map (fun r => fst (fst r)) p2).
  Proof.
    unfold el_pass1, el_pass2.
    destruct (mapM_all (el_chunk m d0 e T) (seq 0 T)) as (chunks & E1).
    { intros t Ht. apply in_seq in Ht. destruct (chunk_ok t ltac:(lia)) as (d1 & e1 & E & _). eauto. }
    rewrite E1. cbn [bind].
    assert (Hc : Forall chunk_fine chunks /\ length chunks = T).
    { apply mapM_forall2 in E1. split.
      - assert (Hin : forall t, In t (seq 0 T) -> t < T) by (intros t H; apply in_seq in H; lia).
        induction E1 as [|t c ts cs E HF IH]; [constructor|]. constructor.
        + destruct (chunk_ok t (Hin t (or_introl eq_refl))) as (d1 & e1 & E' & B & D). rewrite E' in E. injection E as <-.
          split; assumption.
        + apply IH. intros; apply Hin; right; assumption.
      - clear - E1. transitivity (length (seq 0 T)); [|apply seq_length]. induction E1; cbn; congruence. }
    destruct Hc as [Hc Hlen].
    assert (Hsum : forall cs acc, Forall chunk_fine cs ->
      exists counts, mapM (fun c => count_loop L none fl m (snd c) (S (snd c - fst c)) (fst c) 0) cs = Ok counts /\
        sum_nat counts <= 2 * length cs * e /\
        exists p2, mapM (fun cs => set_loop L none fl m (snd (fst cs)) (S (snd (fst cs) - fst (fst cs)))
                    (fst (fst cs)) (snd cs) (imin L) (imin L)) (combine cs (prefix_sums acc counts)) = Ok p2 /\
          Forall (Forall (in_rng acc (acc + sum_nat counts))) (map (fun r => fst (fst r)) p2)).
    { clear - HL Hs HT Hd0. induction cs as [|c cs IH]; intros acc H.
      - exists []. split; [reflexivity|]. split; [cbn; lia|]. exists []. split; [reflexivity|constructor].
      - inversion H; subst. destruct (chunk_count c H2) as (k & K1 & K2 & K3).
        destruct (IH (acc + k) H3) as (counts & C1 & C2 & p2 & C3 & C4).
        exists (k :: counts). cbn [mapM]. rewrite K1, C1. cbn [bind]. split; [reflexivity|].
        split; [cbn [sum_nat fold_right length]; fold (sum_nat counts); lia|].
        cbn [prefix_sums combine mapM fst snd].
        destruct (K3 acc (imin L) (imin L)) as (code & mr' & mc' & S1 & S2). rewrite S1. cbn [bind]. rewrite C3. cbn [bind].
        eexists. split; [reflexivity|]. cbn [map fst]. cbn [sum_nat fold_right]. fold (sum_nat counts). constructor.
        + eapply Forall_impl; [|exact S2]. intros i; apply in_rng_mono; lia.
        + eapply Forall_impl; [|exact C4]. intros l Hl. eapply Forall_impl; [|exact Hl]. intros i; apply in_rng_mono; lia. }
    destruct (Hsum chunks 0 Hc) as (counts & C1 & C2 & p2 & C3 & C4). rewrite C1. cbn [bind].
    exists chunks, counts. split; [reflexivity|]. split; [rewrite <- Hlen; exact C2|]. exists p2. split; [exact C3|exact C4].
  Qed.

  Theorem read_el_total : exists k, k <= 2 * T * e /\
    ((Z.of_nat k <= imax O)%Z -> forall sched, exists c,
       read_el L O none fl m d0 e T sched = Ok c /\ co_m c = Z.of_nat k /\
       length (co_x c) = k /\ length (co_y c) = k).
  Proof.
    destruct pass1_total as (chunks & counts & E1 & B & p2 & E2 & F).
    exists (sum_nat counts). split; [exact B|]. intros Hk sched. unfold read_el. rewrite E1. cbn [bind].
    pose proof (ity_facts O HO) as (F1 & F2 & _).
    rewrite wrap_in by (auto; lia). unfold coo_alloc.
    destruct (Z.ltb_spec (Z.of_nat (sum_nat counts)) 0); [lia|]. cbn [bind]. rewrite E2. cbn [bind]. rewrite Nat2Z.id.
    cbn [is_some none]. set (n := sum_nat counts) in *.
    destruct (run_inv (@cexec unit) (fun s => length (cx s) = n /\ length (cy s) = n) (in_rng 0 n)) with
      (sched := sched) (ps := map (fun r => fst (fst r)) p2) (s := mkCst (fresh n) (fresh n) (@nil (option unit)))
      as (st & Er & I1 & I2).
    - intros i s Hi [H1 H2]. destruct i; cbn [in_rng] in Hi; try contradiction; cbn [cexec]; unfold aset.
      + destruct (Nat.ltb_spec i (length (cx s))); [|lia]. eexists; split; [reflexivity|]. cbn [cx cy]. rewrite upd_length. auto.
      + destruct (Nat.ltb_spec i (length (cy s))); [|lia]. eexists; split; [reflexivity|]. cbn [cx cy]. rewrite upd_length. auto.
    - exact F.
    - cbn [cx cy]. rewrite !fresh_length. auto.
    - rewrite Er. cbn [bind]. rewrite !arith_modular by exact HL. cbn [bind]. eexists. split; [reflexivity|].
      cbn [co_m co_x co_y]. auto.
  Qed.
End Whole.
