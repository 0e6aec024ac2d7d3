(** * ElBad: proofs about edge lists that are not read correctly (C10) and
    about integer parsing (C11) *)

From Verif Require Import Base Reader Sched SchedLemmas Spec SpecFp ReaderLemmas Coo CooLemmas CooExec
  CooSplit WeightLemmas CooMain ElSpec ElFinal ElThms Safe.

(** ** A store that is out of bounds in every reachable state *)
Section RunUB.
  Context {S I : Type}.
  Variable exec : I -> S -> res S.
  Variable Inv : S -> Prop.
  Variable bad : I.
  Hypothesis Hstep : forall i s, Inv s -> exec i s = UB \/ exists s', exec i s = Ok s' /\ Inv s'.
  Hypothesis Hbad : forall s, Inv s -> exec bad s = UB.

  Lemma exec_all_ub l : In bad l -> forall s, Inv s -> exec_all exec l s = UB.
  Proof.
    induction l as [|i l IH]; intros Hin s Hs; [contradiction|]. cbn [exec_all].
    destruct (Hstep i s Hs) as [E|(s' & E & Hs')]; [rewrite E; reflexivity|].
    destruct Hin as [->|Hin]; [rewrite (Hbad s Hs) in E; discriminate|].
    rewrite E. cbn [bind]. apply IH; assumption.
  Qed.

  Lemma run_ub sched : forall ps s, In bad (concat ps) -> Inv s -> run exec sched ps s = UB.
  Proof.
    induction sched as [|t sched IH]; intros ps s Hin Hs; cbn [run]; [apply exec_all_ub; assumption|].
    destruct (pop t ps) as [[i ps']|] eqn:E; [|apply IH; assumption].
    destruct (Hstep i s Hs) as [Eu|(s' & Es & Hs')]; [rewrite Eu; reflexivity|]. rewrite Es. cbn [bind].
    apply IH; [|exact Hs']. destruct (pop_split _ _ _ _ E) as (A & p & B & -> & ->).
    rewrite concat_app in *. cbn [concat] in *. apply in_app_or in Hin as [Hin|Hin]; apply in_or_app; [left; exact Hin|right].
    cbn [app In] in Hin. destruct Hin as [->|Hin]; [|exact Hin]. rewrite (Hbad s Hs) in Es. discriminate.
  Qed.
End RunUB.

Lemma lastdrop_code {W} (w : wrd W) fl (qs : list (line * W)) : forall pos, lastdrop fl qs = true ->
  exists v, In (SetW (pos + total fl qs) v) (codes (Some w) fl pos qs).
Proof.
  induction qs as [|p qs IH]; intros pos H; [discriminate|]. destruct qs as [|q qs].
  - cbn [lastdrop] in H. exists (snd p). cbn [codes]. apply in_or_app; left. unfold line_code. rewrite H.
    rewrite total_cons. apply drop_expand in H. rewrite H. unfold total; cbn. left. f_equal; lia.
  - change (lastdrop fl (q :: qs) = true) in H.
    destruct (IH (pos + length (expand (f_sym fl) (f_ut fl) (f_sl fl) (ent p))) H) as (v & Hv).
    exists v. rewrite total_cons. rewrite Nat.add_assoc. cbn [codes] in *. apply in_or_app; right. exact Hv.
Qed.

Lemma lastdrop_skipn {W} fl (qs : list (line * W)) : forall k, k < length qs -> lastdrop fl (skipn k qs) = lastdrop fl qs.
Proof.
  induction qs as [|p qs IH]; intros k Hk; [cbn in Hk; lia|]. destruct k as [|k]; [reflexivity|]. cbn [skipn length] in *.
  rewrite IH by lia. destruct qs; [cbn in Hk; lia|reflexivity].
Qed.

Lemma lastdrop_true {W} fl (qs : list (line * W)) :
  (exists e, last (map Some (map ent qs)) None = Some e /\ expand (f_sym fl) (f_ut fl) (f_sl fl) e = []) -> lastdrop fl qs = true.
Proof.
  induction qs as [|p qs IH]; intros (e & He & Hx); [discriminate|]. cbn [lastdrop]. destruct qs as [|q qs].
  - cbn in He. injection He as <-. apply drop_expand. exact Hx.
  - apply IH. exists e. split; [exact He|exact Hx].
Qed.

Section Drop.
  Context {W : Type}.
  Variables L O : ity.
  Variable w : wrd W.
  Variable fl : flags.
  Variable f : el_file.
  Variable ws : list W.
  Variable pg : nat.
  Let wr := Some w.
  Let ps := combine (el_lines f) ws.
  Let m := mkMem (el_text f) pg.

  Hypothesis HL : is_ity L.
  Hypothesis HO : is_ity O.
  Hypothesis Hwf : wf_el f.
  Hypothesis Hlen : length ws = length (el_lines f).
  Hypothesis Hfit : labels_fit (imax L - 1) f.
  Hypothesis Hcnt : (Z.of_nat (length (stored fl (triples f ws))) <= imax O)%Z.
  Hypothesis Hpg : off_page pg (el_text f).
  Hypothesis Hwe : owend wr.
  Hypothesis Hwok : Forall2 (owok wr) (map l_post (el_lines f)) ws.
  Variable T : nat.
  Hypothesis HT : 1 <= T.
  Hypothesis Hlast : exists e, last (map Some (triples f ws)) None = Some e /\ expand (f_sym fl) (f_ut fl) (f_sl fl) e = [].

  Lemma drop_last_ub sched : read_el L O wr fl m 0 (flen m) T sched = UB.
  Proof.
    pose proof (ps_ent f ws) as Epe. fold ps in Epe. rewrite <- Epe in Hlast.
    pose proof (lastdrop_true fl ps Hlast) as Hd.
    assert (Hne : ps <> []) by (intros E; rewrite E in Hd; discriminate).
    unfold read_el.
    rewrite (pass1_ok L HL wr Hwe fl m (slack_off_page _ _ Hpg) 0 (el_head f) ps
               (el_has f ws pg Hlen) (el_end f ws pg Hlen) (el_gap f ws Hwf Hlen) (el_wfl f ws Hwf Hlen)
               (fit_ps' L fl f ws Hlen Hfit) (wok_ps wr f ws Hwok) T HT). cbn [bind].
    rewrite (counts_sum fl m 0 (el_head f) ps (el_end f ws pg Hlen) T HT).
    assert (Et : total fl ps = length (stored fl (triples f ws))) by (unfold total, stored; rewrite Epe; reflexivity).
    rewrite <- Et in Hcnt. pose proof (ity_facts O HO) as (F1 & F2 & _).
    rewrite wrap_in by (auto; lia). unfold coo_alloc. destruct (Z.ltb_spec (Z.of_nat (total fl ps)) 0); [lia|].
    cbn [bind is_some wr]. rewrite Nat2Z.id.
    rewrite (pass2_ok L HL wr Hwe fl m (slack_off_page _ _ Hpg) 0 (el_head f) ps
               (el_has f ws pg Hlen) (el_end f ws pg Hlen) (el_wfl f ws Hwf Hlen)
               (fit_ps' L fl f ws Hlen Hfit) (wok_ps wr f ws Hwok) T HT). cbn [bind].
    rewrite map_map. cbn [fst].
    set (K' := K (el_head f) ps T).
    assert (HK : forall n, n <= T -> K' n = length ps -> exists t, t < n /\ K' t < length ps /\ K' (S t) = length ps).
    { induction n as [|n IH]; intros Hn E.
      - change (K' 0) with 0 in E. destruct ps; [congruence|discriminate].
      - destruct (Nat.eq_dec (K' n) (length ps)) as [En|En].
        + destruct (IH ltac:(lia) En) as (t & Ht & Hr). exists t; split; [lia|exact Hr].
        + exists n. split; [lia|]. split; [|exact E].
          pose proof (K_le m 0 (el_head f) ps (el_end f ws pg Hlen) T HT n ltac:(lia)) as H'. fold K' in H'. lia. }
    destruct (HK T (le_n _) (K_T m 0 (el_head f) ps (el_end f ws pg Hlen) T HT)) as (t & Ht & Hk1 & Hk2).
    assert (Ech : chunk (el_head f) ps T t = skipn (K' t) ps).
    { unfold chunk, slice. fold K'. rewrite Hk2. rewrite firstn_all2; [reflexivity|]. rewrite skipn_length. lia. }
    assert (EP : P fl (el_head f) ps T t + total fl (chunk (el_head f) ps T t) = total fl ps).
    { unfold P. fold K'. rewrite Ech, <- total_app, firstn_skipn. reflexivity. }
    destruct (lastdrop_code w fl (chunk (el_head f) ps T t) (P fl (el_head f) ps T t)) as (v & Hv).
    { rewrite Ech, lastdrop_skipn by exact Hk1. exact Hd. }
    rewrite EP in Hv.
    rewrite (run_ub cexec (fun s => length (cw s) = total fl ps) (SetW (total fl ps) v)); [reflexivity| | | |].
    - intros i s Hs. destruct i as [i z|i z|i z|a b]; cbn [cexec]; unfold aset.
      + destruct (_ <? _); [right; eexists; split; [reflexivity|exact Hs]|left; reflexivity].
      + destruct (_ <? _); [right; eexists; split; [reflexivity|exact Hs]|left; reflexivity].
      + destruct (_ <? _); [right; eexists; split; [reflexivity|cbn [cw]; rewrite upd_length; exact Hs]|left; reflexivity].
      + unfold aget. destruct (nth_error _ _); [|left; reflexivity]. cbn [bind].
        destruct (_ <? _); [right; eexists; split; [reflexivity|cbn [cw]; rewrite upd_length; exact Hs]|left; reflexivity].
    - intros s Hs. cbn [cexec]. unfold aset. rewrite Hs, Nat.ltb_irrefl. reflexivity.
    - apply in_concat. exists (prog wr fl m 0 (el_head f) ps T t). split.
      + apply in_map_iff. exists t. split; [reflexivity|]. apply in_seq; lia.
      + unfold prog, codesT. apply in_or_app; left. exact Hv.
    - cbn [cw]. apply fresh_length.
  Qed.
End Drop.

(** ** Integer parsing *)
Lemma wrap_congr t a b : (0 < ibits t)%Z -> (a mod 2 ^ ibits t = b mod 2 ^ ibits t)%Z -> wrap t a = wrap t b.
Proof.
  intros Hb H. unfold wrap. destruct (isigned t); [|exact H]. f_equal.
  rewrite Zplus_mod, H, <- Zplus_mod. reflexivity.
Qed.

Lemma wrap_mod t a : (0 < ibits t)%Z -> (wrap t a mod 2 ^ ibits t = a mod 2 ^ ibits t)%Z.
Proof.
  intros Hb. unfold wrap. assert (Hp : (0 < 2 ^ ibits t)%Z) by (apply Z.pow_pos_nonneg; lia).
  destruct (isigned t); [|apply Z.mod_mod; lia].
  rewrite Zminus_mod, Z.mod_mod, <- Zminus_mod by lia. f_equal. lia.
Qed.

Lemma read_val_modular t ds : (0 < ibits t)%Z -> modular t -> forall a, read_val t (wrap t a) ds =
  Ok (wrap t (fold_left (fun a c => a * 10 + (c - ch_0))%Z ds a)).
Proof.
  intros Hb Ht. induction ds as [|c ds IH]; intros a; cbn [read_val fold_left]; [reflexivity|].
  rewrite arith_modular by exact Ht. cbn [bind].
  assert (E : wrap t (wrap t a * 10 + (c - ch_0))%Z = wrap t (a * 10 + (c - ch_0))%Z).
  { apply wrap_congr; [exact Hb|]. rewrite Zplus_mod, Zmult_mod, wrap_mod, <- Zmult_mod, <- Zplus_mod by exact Hb. reflexivity. }
  rewrite E. apply IH.
Qed.

Lemma ity_bits t : is_ity t -> (8 <= ibits t)%Z.
Proof. unfold is_ity; cbn [In]. intros H. repeat (destruct H as [<-|H]; [cbn; lia|]). contradiction. Qed.

Lemma wrap_0 t : is_ity t -> wrap t 0%Z = 0%Z.
Proof. intros H. apply wrap_in; [exact H|]. pose proof (ity_facts t H). lia. Qed.

Lemma read_val_over t ds : is_ity t -> isigned t = true -> (32 <= ibits t)%Z ->
  Forall (fun c => is_digit c = true) ds -> forall a, (0 <= a <= imax t)%Z ->
  (imax t < fold_left (fun a c => a * 10 + (c - ch_0)) ds a)%Z -> read_val t a ds = UB.
Proof.
  intros Hi Hs Hb Hd. pose proof (ity_facts t Hi) as (F1 & F2 & _).
  induction ds as [|c ds IH]; intros a Ha Hv; cbn [fold_left read_val] in *; [lia|].
  inversion Hd as [|? ? Hc Hd']; subst. pose proof (digit_range c Hc).
  unfold arith at 1. rewrite Hs. destruct (Z.ltb_spec (ibits t) 32); [lia|]. unfold inrange.
  destruct (Z.leb_spec (imin t) (a * 10 + (c - ch_0))); [|lia].
  destruct (Z.leb_spec (a * 10 + (c - ch_0)) (imax t)); cbn [andb bind]; [|reflexivity]. apply IH; auto; lia.
Qed.

(** The text at the cursor [d] of a reader with end [e]: some non-digits, a
    maximal run of digits, and then the end or something that is not a digit. *)
Definition numeral_at (m : mem) (e d : nat) (junk ds : list byte) : Prop :=
  exists pre tail beyond, bytes m = pre ++ junk ++ ds ++ tail ++ beyond /\ length pre = d /\
    e = d + length (junk ++ ds ++ tail) /\
    Forall (fun c => is_digit c = false) junk /\ Forall (fun c => is_digit c = true) ds /\
    (tail = [] \/ ds <> [] /\ exists c tl, tail = c :: tl /\ is_digit c = false).

Lemma read_int_numeral m t e d junk ds : numeral_at m e d junk ds ->
  read_int m t e d = (v <- read_val t 0 ds ;; Ok (v, d + length junk + length ds)).
Proof.
  intros (pre & tail & beyond & Eb & Ed & Ee & Hj & Hd & Ht). subst d e.
  assert (Hh : has m (length pre) (junk ++ ds ++ tail ++ beyond)) by (apply has_suffix; exact Eb).
  rewrite app_assoc in Hh. apply has_app in Hh as [H1 H2].
  rewrite !app_length. apply read_int_gen; auto; [lia|].
  destruct Ht as [->|(Hne & c & tl & -> & Hc)]; [left; cbn; lia|right]. split; [|exact Hne].
  exists c; split; [|exact Hc]. rewrite app_length in H2.
  replace (length pre + length junk + length ds) with (length pre + (length junk + length ds)) by lia.
  eapply load_has. exact H2.
Qed.

Lemma numeral_value m t e d junk ds : is_ity t -> numeral_at m e d junk ds ->
  read_int m t e d =
    if isigned t && (32 <=? ibits t)%Z
    then (if (dval ds <=? imax t)%Z then Ok (dval ds, d + length junk + length ds) else UB)
    else Ok (wrap t (dval ds), d + length junk + length ds).
Proof.
  intros Hi Hn. rewrite (read_int_numeral _ _ _ _ _ _ Hn).
  destruct Hn as (_ & _ & _ & _ & _ & _ & _ & Hd & _).
  pose proof (ity_facts t Hi) as (F1 & F2 & _). pose proof (ity_bits t Hi).
  destruct (isigned t) eqn:Es; cbn [andb].
  - destruct (Z.leb_spec 32 (ibits t)).
    + destruct (Z.leb_spec (dval ds) (imax t)).
      * rewrite read_val_fit by auto. reflexivity.
      * rewrite (read_val_over t ds Hi Es H0 Hd 0%Z); [reflexivity|lia|exact H1].
    + rewrite <- (wrap_0 t Hi) at 1. rewrite read_val_modular by (try (right; lia); lia). reflexivity.
  - rewrite <- (wrap_0 t Hi) at 1. rewrite read_val_modular by (try (left; exact Es); lia). reflexivity.
Qed.
