(** * Property C39: the parallel search for a byte *)

From Coq Require Import String.
From Verif Require Import Base Reader Sched ElSpec ElFinal ElExamples Codec Bin Tensor FindOff FindLemmas SpecFind ReaderLemmas.
Open Scope list_scope.
Notation length := List.length.

(** A reader at [d0] in the file [s] reports the positions of [c], relative to
    [d0], in ascending order, except position 0; the team size and the
    interleaving do not matter. *)
Theorem C39_all_but_the_first_byte : forall L O s c d0 pg T sched,
  is_ity L -> is_ity O -> off_page pg s -> d0 < length s -> 1 <= T -> c <> 0%Z ->
  let ps := filter (fun q => negb (q =? 0)) (offsets_of c (skipn d0 s)) in
  (Z.of_nat (length ps) <= imax O)%Z -> Forall (fun q => (Z.of_nat q <= imax L)%Z) ps ->
  exists t, find_offsets L O (mkMem s pg) c d0 (length s) T sched = Ok t /\
    te_order t = 1%Z /\ te_m t = Z.of_nat (length ps) /\ te_c t = map (fun q => Some (Z.of_nat q)) ps.
Proof.
  intros L O s c d0 pg T sched HL HO Hpg Hd HT Hc ps Hn Hf. pose proof (slack_off_page pg s Hpg) as Hs.
  pose proof (hits_offsets s pg c d0 Hs Hd) as E.
  destruct (Z.eqb_spec c 0); [contradiction|]. rewrite app_nil_r in E.
  assert (Eps : ps = offsets_from 1 c (skipn 1 (skipn d0 s))).
  { unfold ps, offsets_of. assert (G : forall l i, filter (fun q => negb (q =? 0)) (offsets_from (S i) c l) = offsets_from (S i) c l).
    { induction l as [|b l IH]; intros i; [reflexivity|]. cbn [offsets_from]. destruct (b =? c)%Z; cbn [filter]; rewrite IH; reflexivity. }
    destruct (skipn d0 s) as [|b l]; [reflexivity|]. cbn [skipn offsets_from].
    destruct (b =? c)%Z; cbn [filter Nat.eqb negb]; apply G. }
  rewrite <- Eps in E.
  assert (El : length (hits (mkMem s pg) c d0 (length s)) = length ps) by (rewrite <- E, map_length; reflexivity).
  eexists. split; [apply (find_ok L O (mkMem s pg) c d0 ltac:(unfold flen; cbn; lia) T HT Hs HO)|].
  - change (flen (mkMem s pg)) with (length s). rewrite El. exact Hn.
  - change (flen (mkMem s pg)) with (length s). cbn [te_order te_m te_c]. rewrite map_length, El. repeat split.
    rewrite <- E in Hf |- *. rewrite !map_map. rewrite Forall_map in Hf. apply map_ext_in. intros q Hq. f_equal.
    rewrite Forall_forall in Hf. specialize (Hf q Hq). cbn beta in Hf. pose proof (ity_facts L HL) as (H1 & H2 & _).
    apply wrap_in; auto; lia.
Qed.
Print Assumptions C39_all_but_the_first_byte.

(** So it is exact precisely for files that do not begin with the byte. *)
Theorem C39_exact : forall L O s c b s' pg T sched,
  is_ity L -> is_ity O -> s = b :: s' -> b <> c -> off_page pg s -> 1 <= T -> c <> 0%Z ->
  (Z.of_nat (length (offsets_of c s)) <= imax O)%Z -> (Z.of_nat (length s) <= imax L)%Z ->
  exists t, find_offsets L O (mkMem s pg) c 0 (length s) T sched = Ok t /\
    te_order t = 1%Z /\ te_m t = Z.of_nat (length (offsets_of c s)) /\ te_c t = map (fun q => Some (Z.of_nat q)) (offsets_of c s).
Proof.
  intros L O s c b s' pg T sched HL HO Es Hb Hpg HT Hc Hn Hl.
  assert (Ef : filter (fun q => negb (q =? 0)) (offsets_of c s) = offsets_of c s).
  { subst s. unfold offsets_of. cbn [offsets_from]. destruct (Z.eqb_spec b c); [contradiction|].
    assert (G : forall l i, filter (fun q => negb (q =? 0)) (offsets_from (S i) c l) = offsets_from (S i) c l).
    { induction l as [|a l IH]; intros i; [reflexivity|]. cbn [offsets_from]. destruct (a =? c)%Z; cbn [filter]; rewrite IH; reflexivity. }
    apply G. }
  assert (Hlt : Forall (fun q => (Z.of_nat q <= imax L)%Z) (offsets_of c s)).
  { assert (G : forall l i, Forall (fun q => q < i + length l) (offsets_from i c l)).
    { induction l as [|a l IH]; intros i; [constructor|]. cbn [offsets_from length].
      assert (Hi : Forall (fun q => q < i + S (length l)) (offsets_from (S i) c l)).
      { eapply Forall_impl; [|apply IH]. cbn; intros; lia. }
      destruct (a =? c)%Z; [constructor; [lia|]|]; exact Hi. }
    eapply Forall_impl; [|apply (G s 0)]. cbn; intros; lia. }
  pose proof (C39_all_but_the_first_byte L O s c 0 pg T sched HL HO Hpg ltac:(subst s; cbn; lia) HT Hc) as H.
  cbn [skipn] in H. rewrite Ef in H. apply H; assumption.
Qed.
Print Assumptions C39_exact.

(** Searching for the null byte finds one at the end of the file, where there is
    none. *)
Theorem C39_null_byte : forall L O s d0 pg T sched,
  is_ity L -> is_ity O -> off_page pg s -> d0 < length s -> 1 <= T ->
  let ps := filter (fun q => negb (q =? 0)) (offsets_of 0%Z (skipn d0 s)) ++ [length s - d0] in
  (Z.of_nat (length ps) <= imax O)%Z -> Forall (fun q => (Z.of_nat q <= imax L)%Z) ps ->
  exists t, find_offsets L O (mkMem s pg) 0%Z d0 (length s) T sched = Ok t /\
    te_m t = Z.of_nat (length ps) /\ te_c t = map (fun q => Some (Z.of_nat q)) ps.
Proof.
  intros L O s d0 pg T sched HL HO Hpg Hd HT ps Hn Hf. pose proof (slack_off_page pg s Hpg) as Hs.
  pose proof (hits_offsets s pg 0%Z d0 Hs Hd) as E. cbn [Z.eqb] in E.
  assert (Eps : ps = offsets_from 1 0%Z (skipn 1 (skipn d0 s)) ++ [length s - d0]).
  { unfold ps, offsets_of. f_equal.
    assert (G : forall l i, filter (fun q => negb (q =? 0)) (offsets_from (S i) 0%Z l) = offsets_from (S i) 0%Z l).
    { induction l as [|b l IH]; intros i; [reflexivity|]. cbn [offsets_from]. destruct (b =? 0)%Z; cbn [filter]; rewrite IH; reflexivity. }
    destruct (skipn d0 s) as [|b l]; [reflexivity|]. cbn [skipn offsets_from].
    destruct (b =? 0)%Z; cbn [filter Nat.eqb negb]; apply G. }
  rewrite <- Eps in E.
  assert (El : length (hits (mkMem s pg) 0%Z d0 (length s)) = length ps) by (rewrite <- E, map_length; reflexivity).
  eexists. split; [apply (find_ok L O (mkMem s pg) 0%Z d0 ltac:(unfold flen; cbn; lia) T HT Hs HO)|].
  - change (flen (mkMem s pg)) with (length s). rewrite El. exact Hn.
  - change (flen (mkMem s pg)) with (length s). cbn [te_order te_m te_c]. rewrite map_length, El. split; [reflexivity|].
    rewrite <- E in Hf |- *. rewrite !map_map. rewrite Forall_map in Hf. apply map_ext_in. intros q Hq. f_equal.
    rewrite Forall_forall in Hf. specialize (Hf q Hq). cbn beta in Hf. pose proof (ity_facts L HL) as (H1 & H2 & _).
    apply wrap_in; auto; lia.
Qed.
Print Assumptions C39_null_byte.

(** When the size of the file is a multiple of the page size the byte after the
    mapping is read. *)
Theorem C39_page_multiple_overrun : forall L O s c d0 pg T sched,
  0 < pg -> length s mod pg = 0 -> d0 < length s -> 1 <= T ->
  find_offsets L O (mkMem s pg) c d0 (length s) T sched = UB.
Proof.
  intros L O s c d0 pg T sched Hp Hm Hd HT.
  exact (find_past (mkMem s pg) c (load_past (mkMem s pg) Hp Hm) L O d0 T sched Hd HT).
Qed.
Print Assumptions C39_page_multiple_overrun.

(** ** Cases that meet the hypotheses *)
Definition ex_nls : list byte := [ch_nl] ++ bs "ab" ++ [ch_nl; ch_nl] ++ bs "c" ++ [ch_nl].
Example ex_nls_offs : offsets_of ch_nl ex_nls = [0; 3; 4; 6].
Proof. reflexivity. Qed.
Example C39_misses_first : exists t, find_offsets u8 u64 (mkMem ex_nls 4) ch_nl 0 7 3 [2;0;1;1] = Ok t /\
  te_order t = 1%Z /\ te_m t = 3%Z /\ te_c t = [Some 3; Some 4; Some 6]%Z.
Proof.
  exact (C39_all_but_the_first_byte u8 u64 ex_nls ch_nl 0 4 3 [2;0;1;1] ltac:(cbn; tauto) ltac:(cbn; tauto)
    ltac:(split; [lia|vm_compute; discriminate]) ltac:(vm_compute; lia) ltac:(lia) ltac:(discriminate)
    ltac:(vm_compute; discriminate) ltac:(repeat (apply Forall_cons; [vm_compute; discriminate|]); apply Forall_nil)).
Qed.
Example C39_exact_applies : exists t, find_offsets u8 u64 (mkMem (skipn 1 ex_nls) 4) ch_nl 0 6 5 [4;0;3] = Ok t /\
  te_order t = 1%Z /\ te_m t = 3%Z /\ te_c t = [Some 2; Some 3; Some 5]%Z.
Proof.
  exact (C39_exact u8 u64 (skipn 1 ex_nls) ch_nl _ _ 4 5 [4;0;3] ltac:(cbn; tauto) ltac:(cbn; tauto) eq_refl ltac:(discriminate)
    ltac:(split; [lia|vm_compute; discriminate]) ltac:(lia) ltac:(discriminate)
    ltac:(vm_compute; discriminate) ltac:(vm_compute; discriminate)).
Qed.
Example C39_null_applies : exists t, find_offsets u8 u64 (mkMem ex_nls 4) 0%Z 0 7 2 [] = Ok t /\
  te_m t = 1%Z /\ te_c t = [Some 7]%Z.
Proof.
  exact (C39_null_byte u8 u64 ex_nls 0 4 2 [] ltac:(cbn; tauto) ltac:(cbn; tauto)
    ltac:(split; [lia|vm_compute; discriminate]) ltac:(vm_compute; lia) ltac:(lia)
    ltac:(vm_compute; discriminate) ltac:(repeat (apply Forall_cons; [vm_compute; discriminate|]); apply Forall_nil)).
Qed.
Example C39_overrun_applies : find_offsets u64 u64 (mkMem ex_nls 7) ch_nl 2 7 2 [1] = UB.
Proof. exact (C39_page_multiple_overrun u64 u64 ex_nls ch_nl 2 7 2 [1] ltac:(lia) eq_refl ltac:(vm_compute; lia) ltac:(lia)). Qed.
