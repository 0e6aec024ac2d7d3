(** * Property C43: the adjacency reader on arbitrary bytes *)

From Coq Require Import String.
From Verif Require Import Base Reader Sched SchedLemmas Spec SpecFp SpecGraph ReaderLemmas Coo WeightLemmas ElSpec ElFinal Safe Term Ascii Csr Codec Bin SpecBin BinLemmas BinOpen Graph GraphFinal GraphTerm Load LoadTerm P_Bin P_Graph P_GraphEx P_Term GraphSafe.
Notation length := List.length.
Open Scope list_scope.

(** Label and ordinal types in which reading digits cannot overflow with
    undefined behaviour: the unsigned ones and those narrower than [int].

    Any byte string, read as an adjacency file by any team: the constructor
    throws, or it returns an object whose arrays have the sizes it announces
    ([nrows()+1] offsets, [m()] endpoints, and [n() <= nrows()]); it touches no
    memory outside the mapping and its arrays. *)
Theorem C43_graph_arbitrary_bytes : forall L O s pg fn ft ch,
  is_ity L -> is_ity O -> modular L -> modular O -> off_page pg s -> no_comment_at_end s -> as_graph ft fn s ->
  1 <= gc_T (lc_graph ch) ->
  (Z.of_nat (gc_T (lc_graph ch) * length s) + 1 < imax L)%Z -> (Z.of_nat (gc_T (lc_graph ch) * length s) <= imax O)%Z ->
  csr_open (W:=unit) L O None pg fn (Some s) ft ch = Throw EError \/
  exists c k, csr_open (W:=unit) L O None pg fn (Some s) ft ch = Ok c /\
    cs_nrows c = Some (Z.of_nat k) /\ (cs_n c <= Z.of_nat k)%Z /\ length (cs_off c) = S k /\ cs_m c = Z.of_nat (length (cs_end c)).
Proof.
  intros L O s pg fn ft ch HL HO Lm Om Hpg Hc Hg HT HfL HfO.
  assert (Hne : s <> []) by (intros ->; destruct Hpg as [Hp Hm]; cbn in Hm; rewrite Nat.mod_0_l in Hm by lia; lia).
  assert (E : csr_open (W:=unit) L O None pg fn (Some s) ft ch = read_graph L O O (mkMem s pg) 0 (flen (mkMem s pg)) (lc_graph ch)).
  { unfold csr_open. rewrite open_reading by exact Hne. cbn [bind]. unfold csr_read.
    rewrite (graph_detect pg fn _ ft Hne Hg). cbn [bind csr_direct is_some]. unfold with_reader. cbn [reading rf_mem rf_fp length].
    destruct (read_graph L O O _ _ _ _); reflexivity. }
  rewrite E. apply read_graph_good; try assumption; [apply slack_off_page; exact Hpg|exact (noc_spec s pg Hc)].
Qed.
Print Assumptions C43_graph_arbitrary_bytes.

(** Garbage, read by three threads: the theorem applies to it, whatever the
    interleaving, and in one of them the result is an object with an endpoint
    that was never assigned. *)
Definition ex_garbage : list byte := chars ("x2? 6-" ++ nl ++ nl ++ "-1.5e2 9#9" ++ nl ++ "y" ++ nl ++ "%3" ++ nl ++ "12x!" ++ nl ++ "z 4 ").
Definition ex_garbage_ch (hz sched : list nat) : lchoice :=
  mkLchoice 1 [] (1, []) (1, []) (1, []) (mkGchoice 3 hz sched) (mkChoice 1 0 [] [] [] [] []) [] [].
Example C43_graph_garbage : forall hz sched,
  csr_open (W:=unit) u32 i16 None 4096 (chars "x.graph") (Some ex_garbage) AUTO (ex_garbage_ch hz sched) = Throw EError \/
  exists c k, csr_open (W:=unit) u32 i16 None 4096 (chars "x.graph") (Some ex_garbage) AUTO (ex_garbage_ch hz sched) = Ok c /\
    cs_nrows c = Some (Z.of_nat k) /\ (cs_n c <= Z.of_nat k)%Z /\ length (cs_off c) = S k /\ cs_m c = Z.of_nat (length (cs_end c)).
Proof.
  intros hz sched. apply C43_graph_arbitrary_bytes.
  - cbn; tauto.
  - cbn; tauto.
  - left; reflexivity.
  - right; reflexivity.
  - split; [lia|]. vm_compute. discriminate.
  - intros p c E. change ex_garbage with (removelast ex_garbage ++ [32%Z]) in E. apply app_inj_tail in E as [_ <-]. split; discriminate.
  - right. split; [reflexivity|]. split.
    + intros (b & r & E). vm_compute in E. discriminate.
    + exists [120%Z]. reflexivity.
  - cbn. lia.
  - vm_compute. reflexivity.
  - vm_compute. discriminate.
Qed.
Example C43_graph_garbage_result : exists c,
  csr_open (W:=unit) u32 i16 None 4096 (chars "x.graph") (Some ex_garbage) AUTO (ex_garbage_ch [] []) = Ok c /\
  cs_nrows c = Some 5%Z /\ cs_end c = [Some 1%Z; Some 5%Z; Some 2%Z; Some 9%Z; Some 12%Z; None].
Proof. eexists. split; [vm_compute; reflexivity|]. split; reflexivity. Qed.
