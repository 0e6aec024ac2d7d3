(** * Property C57, continued: the tensor reader, [find_offsets], the parallel copies of binary files *)

From Coq Require Import String Permutation.
From Verif Require Import Base Reader ReaderLemmas Sched SchedLemmas Spec SpecRace Race RaceLemmas SpecLog Log SpecTensor Coo CooLemmas CooMain ElSpec ElFinal WeightLemmas
  Csr Codec Bin SpecBin BinLemmas BinSave BinLoad Load Tensor TensorLemmas TensorMain SpecFind FindOff FindLemmas CsrScatter P_Tensor RaceIO P_TensorEx P_Find.
Open Scope list_scope.
Notation length := List.length.

(** Threads whose stores are in consecutive ranges. *)
Lemma ranges_no_race {W} k (K : nat -> nat) (prog : nat -> list (tinstr W)) T sched s s' :
  (forall t, t < T -> Forall (tin k (K t) (K (S t))) (prog t)) -> (forall i j, i < j -> j < T -> K (S i) <= K j) ->
  run texec sched (map prog (seq 0 T)) s = Ok s' ->
  exists l, interval (fun _ => texec) tacc sched (map prog (seq 0 T)) s = Ok (s', l) /\ no_race l.
Proof.
  intros HI HK E. refine (interval_run texec tacc sched _ s s' E _).
  assert (G : forall t p i, nth_error (map prog (seq 0 T)) t = Some p -> In i p -> t < T /\ tin k (K t) (K (S t)) i).
  { intros t p i Hp Hi. assert (Ht : t < T).
    { assert (H : nth_error (map prog (seq 0 T)) t <> None) by congruence. apply nth_error_Some in H. rewrite map_length, seq_length in H. exact H. }
    split; [exact Ht|]. rewrite (map_nth_error prog t (seq 0 T) (d := t)) in Hp.
    - injection Hp as <-. pose proof (HI t Ht) as H. rewrite Forall_forall in H. exact (H i Hi).
    - rewrite nth_error_nth' with (d := 0) by (rewrite seq_length; exact Ht). rewrite seq_nth by exact Ht. reflexivity. }
  intros t u p q i j si sj a b Hne Hp Hq Hi Hj Ha Hb (C1 & _).
  destruct (G t p i Hp Hi) as (Ht & Ti). destruct (G u q j Hq Hj) as (Hu & Tj).
  assert (D : K (S t) <= K u \/ K (S u) <= K t).
  { destruct (Nat.lt_trichotomy t u) as [H|[H|H]]; [left; apply HK; lia|congruence|right; apply HK; lia]. }
  destruct i as [x v|x v], j as [y w|y w]; cbn [tacc In] in Ha, Hb; destruct Ha as [<-|[]], Hb as [<-|[]]; cbn [fst] in C1; try discriminate; injection C1 as <-;
    cbn [tin] in Ti, Tj; destruct D; nia.
Qed.

(** ** The tensor reader *)
Lemma tensor_no_race {W} L O (wr : option (wrd W)) k f ws pg T sched :
  is_ity L -> is_ity O -> wf_tns (is_some wr) k f -> plain_first (is_some wr) f -> off_page pg (tns_text f) -> tensor_fits L O k f -> 1 <= T ->
  length ws = length (tn_lines f) -> Forall2 (owok wr) (map t_post (tn_lines f)) ws ->
  exists t l,
    tensor_read_el_fine L O wr (mkMem (tns_text f) pg) 0 (length (tns_text f)) T sched = Ok (t, l) /\ no_race l /\
    te_c t = map Some (concat (map t_labels (tn_lines f))) /\ te_w t = (if is_some wr then map Some ws else []) /\
    tensor_read_el L O wr (mkMem (tns_text f) pg) 0 (length (tns_text f)) T sched = Ok t.
Proof.
  intros HL HO Hf Hp Hpg (F1 & F2 & F3 & F4) HT Hl Hw.
  pose proof (slack_off_page pg (tns_text f) Hpg) as Hs. set (m := mkMem (tns_text f) pg) in *. change (length (tns_text f)) with (flen m).
  assert (Hmul : omul O (Z.of_nat k) (Z.of_nat (length (tn_lines f))) = Ok (Z.of_nat (k * length (tn_lines f)))).
  { rewrite Nat2Z.inj_mul. apply omul_ok; [exact HO|lia|lia|]. rewrite <- Nat2Z.inj_mul. exact F4. }
  assert (Hm : bytes m = tns_text f) by reflexivity.
  pose proof (tensor_read_main L O HL HO wr k f ws m Hm Hs Hf Hl F1 Hw T HT Hp F2 F3 Hmul sched) as E.
  pose proof (tensor_progs_ok L O HL HO wr k f ws m Hm Hs Hf Hl F1 Hw T HT Hp F2 F3 Hmul) as EP.
  pose proof E as E'. rewrite read_el_progs, EP in E'. cbn [bind] in E'. unfold tprogs in E'.
  apply bind_ok_inv in E' as (st & ER & E').
  destruct (ranges_no_race k _ _ T sched _ st (tprogs_in L wr k f ws m Hm Hf Hl F1 Hw T HT) (tprogs_apart k f ws m Hm Hl T HT) ER) as (l & EI & HN).
  eexists. exists l. split; [|split; [exact HN|split; [|split; [|exact E]]]].
  - unfold tensor_read_el_fine. rewrite EP. cbn [bind]. unfold tprogs. rewrite EI. cbn [bind]. injection E' as E1 E2. rewrite E1, E2. reflexivity.
  - reflexivity.
  - reflexivity.
Qed.

Theorem C57_tensor : forall L O order f pg T sched,
  is_ity L -> is_ity O -> wf_tns false order f -> plain_first false f -> off_page pg (tns_text f) -> tensor_fits L O order f -> 1 <= T ->
  exists (t : tensor unit) l,
    tensor_read_el_fine L O None (mkMem (tns_text f) pg) 0 (length (tns_text f)) T sched = Ok (t, l) /\ no_race l /\
    te_c t = map Some (concat (map t_labels (tn_lines f))) /\
    (* the model without logs agrees *)
    tensor_read_el L O None (mkMem (tns_text f) pg) 0 (length (tns_text f)) T sched = Ok t.
Proof.
  intros L O k f pg T sched HL HO Hf Hp Hpg HF HT.
  destruct (tensor_no_race (W:=unit) L O None k f (repeat tt (length (tn_lines f))) pg T sched HL HO Hf Hp Hpg HF HT) as (t & l & E & HN & EC & _ & E').
  - apply repeat_length.
  - induction (tn_lines f); cbn [map repeat List.length]; constructor; [exact Logic.I|assumption].
  - exists t, l. auto.
Qed.
Print Assumptions C57_tensor.

Theorem C57_tensor_weighted : forall kd L O order f ws pg T sched,
  wf_kind kd -> Forall2 (wpost kd) (map t_post (tn_lines f)) ws ->
  is_ity L -> is_ity O -> wf_tns true order f -> plain_first true f -> off_page pg (tns_text f) -> tensor_fits L O order f -> 1 <= T ->
  exists t l,
    tensor_read_el_fine L O (Some (wreader kd)) (mkMem (tns_text f) pg) 0 (length (tns_text f)) T sched = Ok (t, l) /\ no_race l /\
    te_c t = map Some (concat (map t_labels (tn_lines f))) /\ te_w t = map Some ws /\
    tensor_read_el L O (Some (wreader kd)) (mkMem (tns_text f) pg) 0 (length (tns_text f)) T sched = Ok t.
Proof.
  intros kd L O k f ws pg T sched Hk Hws HL HO Hf Hp Hpg HF HT.
  apply (tensor_no_race L O (Some (wreader kd)) k f ws pg T sched HL HO Hf Hp Hpg HF HT).
  - rewrite <- (map_length t_post). clear - Hws. induction Hws; cbn [List.length]; [reflexivity|f_equal; assumption].
  - cbn [owok]. clear - Hws Hk. induction Hws; constructor; [apply wok_wpost; assumption|assumption].
Qed.
Print Assumptions C57_tensor_weighted.

(** ** The search for a byte *)
Lemma offsets_tail c s : forall i, length (offsets_from i c (skipn 1 s)) <= length (offsets_from 0 c s).
Proof.
  assert (G : forall s i j, length (offsets_from i c s) = length (offsets_from j c s)).
  { clear. induction s as [|b s IH]; intros i j; [reflexivity|]. cbn [offsets_from]. destruct (b =? c)%Z; cbn [List.length]; rewrite (IH (S i) (S j)); reflexivity. }
  intros i. destruct s as [|b s]; [cbn; lia|]. cbn [skipn offsets_from]. destruct (b =? c)%Z; cbn [List.length]; rewrite (G s i 1); lia.
Qed.

Theorem C57_find_offsets : forall L O s c d0 pg T sched,
  is_ity L -> is_ity O -> off_page pg s -> d0 < length s -> 1 <= T ->
  (Z.of_nat (length (offsets_of c (skipn d0 s)) + (if (c =? 0)%Z then 1 else 0)) <= imax O)%Z ->
  exists t l, find_offsets_fine L O (mkMem s pg) c d0 (length s) T sched = Ok (t, l) /\ no_race l /\
    find_offsets L O (mkMem s pg) c d0 (length s) T sched = Ok t.
Proof.
  intros L O s c d0 pg T sched HL HO Hpg Hd HT Hc. pose proof (slack_off_page pg s Hpg) as Hs.
  pose proof (hits_offsets s pg c d0 Hs Hd) as EH. set (m := mkMem s pg) in *. change (length s) with (flen m) in *.
  assert (Hcnt : (Z.of_nat (length (hits m c d0 (flen m))) <= imax O)%Z).
  { rewrite <- (map_length (fun q => q - d0)), EH, app_length. pose proof (offsets_tail c (skipn d0 s) 1) as HT1. unfold offsets_of in Hc.
    destruct (c =? 0)%Z; cbn [List.length] in *; lia. }
  pose proof (find_ok L O m c d0 ltac:(lia) T HT Hs HO Hcnt sched) as E. pose proof (find_progs_ok L O m c d0 ltac:(lia) T HT Hs HO Hcnt) as EP.
  pose proof E as E'. rewrite find_by_progs, EP in E'. cbn [bind] in E'. apply bind_ok_inv in E' as (st & ER & E').
  destruct (ranges_no_race 1 _ _ T sched _ st (fprog_in L m c d0 ltac:(lia) T HT) (fun i j Hi Hj => fP_mono m c d0 ltac:(lia) T HT (S i) j Hi (Nat.lt_le_incl _ _ Hj)) ER) as (l & EI & HN).
  eexists. exists l. split; [|split; [exact HN|exact E]].
  unfold find_offsets_fine. rewrite EP. cbn [bind]. rewrite EI. cbn [bind]. injection E' as E1 E2. rewrite E1, E2. reflexivity.
Qed.
Print Assumptions C57_find_offsets.

(** ** The parallel copies of binary files

    Whatever is copied, if it does not leave the arrays (or the mapping). *)
Lemma shares_disjoint v T t u p q x : 1 <= T -> t <> u -> nth_error (shares v T) t = Some p -> nth_error (shares v T) u = Some q -> In x p -> In x q -> False.
Proof.
  intros HT Hne Hp Hq Hxp Hxq. assert (HN : NoDup (concat (shares v T))) by (rewrite concat_shares by exact HT; apply seq_NoDup).
  revert t u Hne Hp Hq HN. generalize (shares v T) as l. induction l as [|a l IH]; intros t u Hne Hp Hq HN; [destruct t; discriminate|].
  cbn [concat] in HN. destruct t as [|t], u as [|u]; cbn [nth_error] in Hp, Hq.
  - congruence.
  - injection Hp as ->. assert (In x (concat l)) by (apply in_concat; exists q; split; [eapply nth_error_In; exact Hq|exact Hxq]).
    destruct (CsrScatter.NoDup_app_inv _ _ HN) as (_ & _ & HD). exact (HD x Hxp H).
  - injection Hq as ->. assert (In x (concat l)) by (apply in_concat; exists p; split; [eapply nth_error_In; exact Hp|exact Hxp]).
    destruct (CsrScatter.NoDup_app_inv _ _ HN) as (_ & _ & HD). exact (HD x Hxq H).
  - apply (IH t u); try assumption; [congruence|]. destruct (CsrScatter.NoDup_app_inv _ _ HN) as (_ & H & _). exact H.
Qed.

Theorem C57_parallel_write : forall src v_size T sched w w', 1 <= T -> par_write src v_size (T, sched) w = Ok w' ->
  exists l, par_write_fine src v_size (T, sched) w = Ok (w', l) /\ no_race l.
Proof.
  intros src v T sched w w' HT E. unfold par_write in E. cbn [fst snd] in E. apply bind_ok_inv in E as (f & ER & E).
  destruct (interval_run (wcopy src (wf_fp w)) (wcopy_acc (wf_fp w)) sched (shares v T) _ _ ER) as (l & EI & HN).
  - intros t u p q i j si sj a b Hne Hp Hq Hi Hj Ha Hb (C1 & C2 & _). unfold wcopy_acc in Ha, Hb. cbn [In] in Ha, Hb.
    destruct Ha as [<-|[<-|[]]], Hb as [<-|[<-|[]]]; cbn [fst snd] in *; try discriminate; [tauto|].
    injection C1 as C1. assert (i = j) by lia. subst j. exact (shares_disjoint v T t u p q i HT Hne Hp Hq Hi Hj).
  - exists l. split; [|exact HN]. unfold par_write_fine. cbn [fst snd]. rewrite EI. cbn [bind]. injection E as <-. reflexivity.
Qed.
Print Assumptions C57_parallel_write.

Theorem C57_parallel_read : forall cap v_size T sched f a f', 1 <= T -> par_read cap v_size (T, sched) f = Ok (a, f') ->
  exists l, par_read_fine cap v_size (T, sched) f = Ok (a, f', l) /\ no_race l.
Proof.
  intros cap v T sched f a f' HT E. unfold par_read in E. cbn [fst snd] in E. apply bind_ok_inv in E as (r & ER & E).
  destruct (interval_run (rcopy (rf_mem f) (rf_fp f)) (rcopy_acc (rf_fp f)) sched (shares v T) _ _ ER) as (l & EI & HN).
  - intros t u p q i j si sj a' b Hne Hp Hq Hi Hj Ha Hb (C1 & C2 & _). unfold rcopy_acc in Ha, Hb. cbn [In] in Ha, Hb.
    destruct Ha as [<-|[<-|[]]], Hb as [<-|[<-|[]]]; cbn [fst snd] in *; try discriminate; [tauto|].
    injection C1 as C1. assert (i = j) by lia. subst j. exact (shares_disjoint v T t u p q i HT Hne Hp Hq Hi Hj).
  - exists l. split; [|exact HN]. unfold par_read_fine. cbn [fst snd]. rewrite EI. cbn [bind]. injection E as <- <-. reflexivity.
Qed.
Print Assumptions C57_parallel_read.

(** ** The logs are complete *)
Definition tview {W} (_ : unit) (s : tst W) (l : tloc) : option (option (Z + W)) :=
  match l with CoordCell i => zcell (tc s) i | WeightCell i => wcell (tw s) i end.
(** The bytes of the array and of the file; the number of times a byte was
    stored, which the model also keeps, is not part of the memory. *)
Definition pwview (src : list (option byte)) (f : list fcell) (l : ioloc) : option (option byte) :=
  match l with ArrayByte i => nth_error src i | FileByte i => option_map fst (nth_error f i) end.
Definition prview (m : mem) (a : list (option byte)) (l : ioloc) : option (option byte) :=
  match l with ArrayByte i => nth_error a i | FileByte i => match load m i with Ok b => Some (Some b) | _ => None end end.

Theorem C57_log_io : forall {W} fp,
  log_complete (fun (_ : unit) (_ : nat) => @texec W) (fun _ => tacc) tview (fun _ _ => tt) /\
  log_complete (fun src (_ : nat) k => wcopy src fp k) (fun _ => wcopy_acc fp) pwview (fun _ _ => tt) /\
  log_complete (fun m (_ : nat) k => rcopy m fp k) (fun _ => rcopy_acc fp) prview (fun _ _ => tt).
Proof.
  intros W fp. split; [|split].
  - split.
    + intros [] t i s s' E. split; [|reflexivity]. intros l Hl. destruct i as [i v|i v]; cbn [texec] in E; apply bind_ok_inv in E as (a & Ha & E); injection E as <-;
        destruct l as [j|j]; cbn [tview tc tw]; try reflexivity; apply aset_inv in Ha as (_ & _ & Ha);
        [apply zcell_eq|apply wcell_eq]; apply Ha; intros ->; discriminate (Hl Write (or_introl eq_refl)).
    + intros [] [] t i s1 s2 s1' E _ HD _. destruct i as [i v|i v]; cbn [texec] in E; apply bind_ok_inv in E as (a & Ha & E); injection E as <-.
      * pose proof (HD (CoordCell i)) as X. cbn [tview] in X. rewrite !zcell_none in X. destruct (aset_inv _ _ _ _ Ha) as (A1 & A2 & _).
        destruct (aset_def i v (tc s2)) as (b & Hb); [intros Y; apply A1, X, Y|]. exists (mkTst b (tw s2)). cbn [texec]. rewrite Hb. split; [reflexivity|].
        split; [reflexivity|]. split; [reflexivity|]. intros l k [Hk|[]] _. injection Hk as <- <-. cbn [tview tc]. apply zcell_eq.
        destruct (aset_inv _ _ _ _ Hb) as (_ & B2 & _). congruence.
      * pose proof (HD (WeightCell i)) as X. cbn [tview] in X. rewrite !wcell_none in X. destruct (aset_inv _ _ _ _ Ha) as (A1 & A2 & _).
        destruct (aset_def i v (tw s2)) as (b & Hb); [intros Y; apply A1, X, Y|]. exists (mkTst (tc s2) b). cbn [texec]. rewrite Hb. split; [reflexivity|].
        split; [reflexivity|]. split; [reflexivity|]. intros l k [Hk|[]] _. injection Hk as <- <-. cbn [tview tw]. apply wcell_eq.
        destruct (aset_inv _ _ _ _ Hb) as (_ & B2 & _). congruence.
  - assert (FS : forall i c f f', fstore i c f = Ok f' -> nth_error f i <> None /\ option_map fst (nth_error f' i) = Some c /\ forall j, i <> j -> nth_error f' j = nth_error f j).
    { intros i c f f' E. unfold fstore in E. destruct (nth_error f i) as [[x k]|] eqn:Ei; [|discriminate]. injection E as <-. split; [discriminate|].
      split; [rewrite nth_error_upd_eq by (apply nth_error_Some; congruence); reflexivity|]. intros j Hj. now apply nth_error_upd_ne. }
    split.
    + intros src t k f f' E. split; [|reflexivity]. intros l Hl. unfold wcopy in E. apply bind_ok_inv in E as (c & _ & E). destruct (FS _ _ _ _ E) as (_ & _ & HF).
      destruct l as [j|j]; cbn [pwview]; [reflexivity|]. f_equal. apply HF. intros <-. discriminate (Hl Write (or_intror (or_introl eq_refl))).
    + intros src1 src2 t k f1 f2 f1' E _ HD HR. unfold wcopy in E. apply bind_ok_inv in E as (c & Hc & E). destruct (FS _ _ _ _ E) as (F1 & F2 & _).
      pose proof (HR (ArrayByte k) Read (or_introl eq_refl) ltac:(discriminate)) as X. cbn [pwview] in X. unfold aget in Hc.
      destruct (nth_error src1 k) as [c1|] eqn:E1; [|discriminate]. injection Hc as ->.
      pose proof (HD (FileByte (fp + k))) as Y. cbn [pwview] in Y. destruct (nth_error f2 (fp + k)) as [[x n2]|] eqn:E2.
      2:{ exfalso. destruct (nth_error f1 (fp + k)); [|congruence]. cbn [option_map] in Y. destruct Y as [_ Y]. specialize (Y eq_refl). discriminate. }
      eexists. split; [unfold wcopy, aget; rewrite <- X; cbn [bind]; unfold fstore; rewrite E2; reflexivity|]. split; [reflexivity|]. split; [reflexivity|].
      intros l kk [Hk|[Hk|[]]] Hne; injection Hk as <- <-; [congruence|]. cbn [pwview]. rewrite F2.
      rewrite nth_error_upd_eq by (apply nth_error_Some; congruence). reflexivity.
  - split.
    + intros m t k a a' E. split; [|reflexivity]. intros l Hl. unfold rcopy in E. apply bind_ok_inv in E as (b & _ & E). destruct (aset_inv _ _ _ _ E) as (_ & _ & HF).
      destruct l as [j|j]; cbn [prview]; [|reflexivity]. apply HF. intros <-. discriminate (Hl Write (or_intror (or_introl eq_refl))).
    + intros m1 m2 t k a1 a2 a1' E _ HD HR. unfold rcopy in E. apply bind_ok_inv in E as (b & Hb & E). destruct (aset_inv _ _ _ _ E) as (A1 & A2 & _).
      pose proof (HR (FileByte (fp + k)) Read (or_introl eq_refl) ltac:(discriminate)) as X. cbn [prview] in X. rewrite Hb in X.
      destruct (load m2 (fp + k)) as [b2| | |] eqn:E2; try discriminate. injection X as <-.
      pose proof (HD (ArrayByte k)) as Y. cbn [prview] in Y. destruct (aset_def k b a2) as (r & Hr); [intros Z0; apply A1, Y, Z0|].
      exists r. split; [unfold rcopy; rewrite E2; exact Hr|]. split; [reflexivity|]. split; [reflexivity|].
      intros l kk [Hk|[Hk|[]]] Hne; injection Hk as <- <-; [congruence|]. cbn [prview]. destruct (aset_inv _ _ _ _ Hr) as (_ & B2 & _). congruence.
Qed.
Print Assumptions C57_log_io.

(** ** Cases that meet the hypotheses *)
Example C57_tensor_applies : exists (t : tensor unit) l,
  tensor_read_el_fine u8 u8 None (mkMem (tns_text ex_tns) 64) 0 (length (tns_text ex_tns)) 3 [2; 0; 2; 1] = Ok (t, l) /\ no_race l /\
  (* each thread stores one entry *)
  In (1, (CoordCell 3, Write)) l /\ In (0, (CoordCell 2, Write)) l.
Proof.
  destruct (C57_tensor u8 u8 3 ex_tns 64 3 [2; 0; 2; 1]) as (t & l & E & HN & _).
  - cbn; auto.
  - cbn; auto.
  - exact ex_tns_wf.
  - exact ex_tns_plain.
  - split; [lia|vm_compute; discriminate].
  - split; [vm_compute; repeat constructor; discriminate|]. split; [vm_compute; discriminate|]. split; vm_compute; discriminate.
  - lia.
  - exists t, l. split; [exact E|]. split; [exact HN|]. vm_compute in E. injection E as <- <-. cbn [In]. tauto.
Qed.
Example C57_find_applies : exists t l, find_offsets_fine u8 u64 (mkMem ex_nls 4) ch_nl 0 7 3 [2;0;1;1] = Ok (t, l) /\ no_race l /\
  te_c t = [Some 3; Some 4; Some 6]%Z.
Proof.
  destruct (C57_find_offsets u8 u64 ex_nls ch_nl 0 4 3 [2;0;1;1] ltac:(cbn; tauto) ltac:(cbn; tauto)
    ltac:(split; [lia|vm_compute; discriminate]) ltac:(vm_compute; lia) ltac:(lia) ltac:(vm_compute; discriminate)) as (t & l & E & HN & E').
  exists t, l. split; [exact E|]. split; [exact HN|]. vm_compute in E'. injection E' as <-. reflexivity.
Qed.
Example C57_copies_apply :
  (exists w' l, par_write (map Some [10; 20; 30; 40; 50]%Z) 5 (2, [1; 0]) (mkWfile (repeat (None, 0) 7) 1) = Ok w' /\
     par_write_fine (map Some [10; 20; 30; 40; 50]%Z) 5 (2, [1; 0]) (mkWfile (repeat (None, 0) 7) 1) = Ok (w', l) /\
     In (1, (FileByte 3, Write)) l /\ In (0, (FileByte 2, Write)) l) /\
  (exists a f' l, par_read 5 5 (2, [1; 0]) (mkRfile (mkMem [1; 10; 20; 30; 40; 50; 2]%Z 64) 1 []) = Ok (a, f') /\
     par_read_fine 5 5 (2, [1; 0]) (mkRfile (mkMem [1; 10; 20; 30; 40; 50; 2]%Z 64) 1 []) = Ok (a, f', l) /\
     a = map Some [10; 20; 30; 40; 50]%Z /\ In (1, (FileByte 3, Read)) l).
Proof.
  split.
  - do 2 eexists. split; [vm_compute; reflexivity|]. split; [vm_compute; reflexivity|]. cbn [In]. tauto.
  - do 3 eexists. split; [vm_compute; reflexivity|]. split; [vm_compute; reflexivity|]. split; [reflexivity|]. cbn [In]. tauto.
Qed.
