(** * P_Racy: C02, weighted edge lists read with flags that drop entries *)

From Verif Require Import Base Reader Sched Spec SpecFp Coo WeightLemmas CooLemmas ElSpec ElFinal ElThms ElExamples SpecBare Racy RacyAny
  SpecRace Race RaceLemmas GraphFineLemmas P_Race.

(** If the last entry of the file is dropped the read is undefined
    ([C10_weighted_drop_overrun]).  Otherwise every team and every interleaving
    of its stores gives the right sizes and labels; a weight can be wrong only
    if its entry follows a dropped one ([follows_dropped]), and is then zero or
    the weight of a dropped entry. *)
Theorem C02_weighted_drop_any_order : forall k L O fl f ws pg T sched,
  wf_kind k -> weights_are k f ws -> is_ity L -> is_ity O -> wf_el f -> labels_fit (imax L - 1) f ->
  (Z.of_nat (length (stored fl (triples f ws))) <= imax O)%Z -> off_page pg (el_text f) -> 1 <= T ->
  (forall e, last (map Some (triples f ws)) None = Some e -> keeps fl e) ->
  exists c : coo (wtype k),
    read_el L O (Some (wreader k)) fl (mkMem (el_text f) pg) 0 (length (el_text f)) T sched = Ok c /\
    holds c (stored fl (triples f ws)) /\
    dims c (1 + max_of (map (fun e => fst (fst e)) (counted fl (triples f ws))))
           (1 + max_of (map (fun e => snd (fst e)) (counted fl (triples f ws)))) /\
    length (co_w c) = length (stored fl (triples f ws)) /\
    forall i e, nth_error (stored fl (triples f ws)) i = Some e -> exists v, nth_error (co_w c) i = Some (Some v) /\
      (v = snd e \/
       follows_dropped fl (triples f ws) i /\
         (v = wzero k \/ exists d, In d (triples f ws) /\ ~ keeps fl d /\ v = snd d)).
Proof.
  intros k L O fl f ws pg T sched Hk Hws HL HO Hwf Hfit Hcnt Hpg HT Hl.
  destruct (any_interleaving k Hk L O HL HO fl f ws pg Hwf Hws Hfit Hcnt Hpg) with (T := T) (sched := sched) as (wts & E & H1 & H2);
    [apply lastdrop_last; rewrite ps_ent; exact Hl|exact HT|].
  eexists. split; [exact E|]. unfold holds, dims, el_result. cbn [co_x co_y co_w co_n co_nrows co_ncols co_m].
  repeat split; auto.
Qed.
Print Assumptions C02_weighted_drop_any_order.

(** The threads one after the other: the right result. *)
Theorem C02_weighted_drop_in_order : forall k L O fl f ws pg T,
  wf_kind k -> weights_are k f ws -> is_ity L -> is_ity O -> wf_el f -> labels_fit (imax L - 1) f ->
  (Z.of_nat (length (stored fl (triples f ws))) <= imax O)%Z -> off_page pg (el_text f) -> 1 <= T ->
  (forall e, last (map Some (triples f ws)) None = Some e -> keeps fl e) ->
  exists c : coo (wtype k),
    read_el L O (Some (wreader k)) fl (mkMem (el_text f) pg) 0 (length (el_text f)) T [] = Ok c /\
    holds c (stored fl (triples f ws)) /\ holds_weights c (stored fl (triples f ws)).
Proof.
  intros k L O fl f ws pg T Hk Hws HL HO Hwf Hfit Hcnt Hpg HT Hl.
  eexists. split; [apply (in_order_main k L O fl f ws pg T); assumption|].
  unfold holds, holds_weights, el_result. cbn [co_x co_y co_w co_n co_nrows co_ncols co_m]. repeat split; auto.
Qed.
Print Assumptions C02_weighted_drop_in_order.

(** And with a thread for every byte of the file each dropped entry does have an
    interleaving in which the weight that follows it is replaced by zero. *)
Theorem C02_weighted_drop_racy : forall k L O fl f ws pg T pre e1 post,
  wf_kind k -> weights_are k f ws -> is_ity L -> is_ity O -> wf_el f -> labels_fit (imax L - 1) f ->
  (Z.of_nat (length (stored fl (triples f ws))) <= imax O)%Z -> off_page pg (el_text f) ->
  1 <= T -> length (el_text f) <= T ->
  (forall e, last (map Some (triples f ws)) None = Some e -> keeps fl e) ->
  triples f ws = pre ++ e1 :: post -> ~ keeps fl e1 ->
  exists e (c c' : coo (wtype k)) sched,
    hd_error (stored fl post) = Some e /\
    read_el L O (Some (wreader k)) fl (mkMem (el_text f) pg) 0 (length (el_text f)) T [] = Ok c /\
    nth_error (co_w c) (length (stored fl pre)) = Some (Some (snd e)) /\
    read_el L O (Some (wreader k)) fl (mkMem (el_text f) pg) 0 (length (el_text f)) T sched = Ok c' /\
    nth_error (co_w c') (length (stored fl pre)) = Some (Some (wzero k)).
Proof.
  intros k L O fl f ws pg T pre e1 post Hk Hws HL HO Hwf Hfit Hcnt Hpg HT HsT Hl He Hd.
  destruct (racy_main k L O fl f ws pg T pre e1 post Hk Hws HL HO Hwf Hfit Hcnt Hpg HT HsT He Hd Hl) as (sched & E).
  assert (Hx : expand (f_sym fl) (f_ut fl) (f_sl fl) e1 = []).
  { unfold keeps in Hd. destruct (expand _ _ _ e1); [reflexivity|]. exfalso. apply Hd. discriminate. }
  assert (Es : stored fl (triples f ws) = stored fl pre ++ stored fl post).
  { rewrite He. unfold stored. rewrite flat_map_app. cbn [flat_map]. rewrite Hx. reflexivity. }
  assert (Hp : exists e r, stored fl post = e :: r).
  { rewrite He in Hl. rewrite map_app in Hl. cbn [map] in Hl. clear - Hl Hd.
    destruct (exists_last (l := e1 :: post)) as (q & e & Eq); [discriminate|].
    assert (Hk : keeps fl e). { apply Hl. change (Some e1 :: map Some post) with (map Some (e1 :: post)). rewrite Eq, map_app, app_assoc. cbn [map]. apply last_last. }
    destruct q as [|q0 q]; cbn [app] in Eq; injection Eq as E1 E2; [subst; contradiction|].
    rewrite E2. unfold stored. rewrite flat_map_app. cbn [flat_map]. rewrite app_nil_r. unfold keeps in Hk.
    destruct (flat_map (expand (f_sym fl) (f_ut fl) (f_sl fl)) q) as [|a b]; cbn [app]; [|eauto].
    destruct (expand _ _ _ e) as [|a b]; [contradiction|eauto]. }
  destruct Hp as (e & r & Er). rewrite Er in Es.
  exists e, (el_result (Some (wreader k)) fl f ws). eexists. exists sched.
  split; [rewrite Er; reflexivity|]. split; [apply in_order_main; assumption|]. split; [|split; [exact E|]].
  - unfold el_result. cbn [co_w]. rewrite Es, map_app, nth_error_app2; rewrite map_length; [|lia]. rewrite Nat.sub_diag. reflexivity.
  - cbn [co_w]. apply SchedLemmas.nth_error_upd_eq. unfold el_result. cbn [co_w]. rewrite Es, map_length, app_length. cbn [length]. lia.
Qed.
Print Assumptions C02_weighted_drop_racy.

(** "1 2 -12", "3 0 7", "2 2 +4" with only the upper triangle kept: the second
    entry is dropped and the weight 4 can be replaced by 0 or by 7. *)
Example C02_drop_applies :
  wf_kind (WSigned i32) /\ weights_are (WSigned i32) ex_elw [-12; 7; 4]%Z /\ wf_el ex_elw /\
  labels_fit (imax u32 - 1) ex_elw /\ off_page 4096 (el_text ex_elw) /\
  (Z.of_nat (length (stored (mkFlags false true false) (triples ex_elw [-12; 7; 4]%Z))) <= imax u32)%Z /\
  (forall e, last (map Some (triples ex_elw [-12; 7; 4]%Z)) None = Some e -> keeps (mkFlags false true false) e) /\
  triples ex_elw [-12; 7; 4]%Z = [(1, 2, -12)%Z] ++ (3, 0, 7)%Z :: [(2, 2, 4)%Z] /\
  ~ keeps (mkFlags false true false) (3, 0, 7)%Z /\
  follows_dropped (mkFlags false true false) (triples ex_elw [-12; 7; 4]%Z) 1.
Proof.
  split; [split; [cbn; tauto|reflexivity]|]. split; [exact ex_elw_weights|]. split; [apply ex_elw_wf|]. split; [exact ex_elw_fit|].
  split; [exact ex_elw_off|]. split; [vm_compute; discriminate|].
  split. { assert (E : last (map Some (triples ex_elw [-12; 7; 4]%Z)) None = Some (2, 2, 4)%Z) by reflexivity. rewrite E.
    intros e He. assert (e = (2, 2, 4)%Z) by congruence. subst. discriminate. }
  split; [reflexivity|]. split; [intros H; apply H; reflexivity|].
  exists [(1, 2, -12)%Z], (3, 0, 7)%Z, (2, 2, 4)%Z, []. split; [reflexivity|]. split; [intros H; apply H; reflexivity|]. cbn. lia.
Qed.

(** The stores that make this possible are data races: with a thread for every
    byte, each interleaving has two threads that write the same weight between
    the same two barriers. *)
Theorem C57_weighted_drop_races : forall k L fl f ws pg T,
  wf_kind k -> weights_are k f ws -> is_ity L -> wf_el f -> labels_fit (imax L - 1) f -> off_page pg (el_text f) ->
  1 <= T -> length (el_text f) <= T ->
  (forall e, last (map Some (triples f ws)) None = Some e -> keeps fl e) ->
  (exists d, In d (triples f ws) /\ ~ keeps fl d) ->
  exists chunks counts p2,
    el_pass1 L (Some (wreader k)) fl (mkMem (el_text f) pg) 0 (length (el_text f)) T = Ok (chunks, counts) /\
    el_pass2 L (Some (wreader k)) fl (mkMem (el_text f) pg) chunks counts = Ok p2 /\
    let n := sum_nat counts in
    forall sched, exists s l,
      interval (fun _ => cexec) cacc sched (map (fun r => fst (fst r)) p2) (mkCst (fresh n) (fresh n) (fresh n)) = Ok (s, l) /\ ~ no_race l.
Proof.
  intros k L fl f ws pg T Hk Hws HL Hwf Hfit Hpg HT HsT Hl (d & Hin & Hd).
  assert (Hlast : lastdrop fl (combine (el_lines f) ws) = false) by (apply lastdrop_last; rewrite ps_ent; exact Hl).
  do 3 eexists. split; [exact (pass1_racy k Hk L HL fl f ws pg Hwf Hws Hfit Hpg T HT)|].
  split; [exact (pass2_racy k Hk L HL fl f ws pg Hwf Hws Hfit Hpg T HT)|].
  cbn zeta. intros sched.
  rewrite (CooMain.counts_sum fl (mkMem (el_text f) pg) 0 (el_head f) (combine (el_lines f) ws) (el_end f ws pg (weights_len _ _ _ Hws)) T HT).
  rewrite map_map. cbn [fst].
  destruct (any_state k Hk fl f ws pg Hwf Hws Hpg Hlast T HT sched) as (s & E & _).
  rewrite run_trace in E. destruct (exec_log_run cexec (@cacc (wtype k)) _ _ _ E) as (lg & El & _).
  exists s, lg. split; [exact El|]. intros HR.
  assert (Hp : exists j p, nth_error (combine (el_lines f) ws) j = Some p /\ drop fl p = true).
  { rewrite <- (ps_ent f ws) in Hin. apply in_map_iff in Hin as (p & <- & Hin). apply In_nth_error in Hin as (j & Hj). exists j, p. split; [exact Hj|].
    destruct (drop fl p) eqn:Ed; [reflexivity|]. exfalso. apply Hd. unfold keeps. intros X. apply drop_expand in X. congruence. }
  destruct Hp as (j & p & Hj & Hdp).
  destruct (stores_meet k fl f ws pg Hwf Hws Hlast T HT j p HsT Hj Hdp) as (t & u & q & r & a & b & c & Hne & Ht & Hu & Ha & Hb & Wa & Wb).
  assert (G : forall t q a, nth_error (map (CooMain.prog (Some (wreader k)) fl (mkMem (el_text f) pg) 0 (el_head f) (combine (el_lines f) ws) T) (seq 0 T)) t = Some q ->
     In a q -> In (CW c) (writes a) -> In (t, (CW c, Write)) lg).
  { intros t0 q0 a0 H1 H2 H3. refine (exec_log_has (fun _ => cexec) (fun t i => map (fun c => (c, Read)) (reads i) ++ map (fun c => (c, Write)) (writes i)) _ _ _ _ El t0 a0 (CW c, Write) _ _).
    - apply (steps_all _ _ (trace_steps sched _) t0 q0); assumption.
    - apply in_or_app. right. apply in_map_iff. exists (CW c). auto. }
  apply (HR t u _ _ (G t q a Ht Ha Wa) (G u r b Hu Hb Wb) Hne). split; [reflexivity|]. split; intros [X _]; discriminate X.
Qed.
Print Assumptions C57_weighted_drop_races.
