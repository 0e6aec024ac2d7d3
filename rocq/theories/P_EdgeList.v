(** * Properties C01-C07: reading edge lists

    [read_el L O wr fl (mkMem s pg) 0 (length s) T sched] is the construction of
    a COO with label type [L], ordinal type [O], weights [wr], flags [fl] from
    an edge list file with contents [s] on a machine with page size [pg], by a
    team of [T] threads whose stores interleave as in [sched]. *)

From Verif Require Import Base Reader Sched Spec SpecFp Coo WeightLemmas ElSpec ElFinal ElThms ElExamples.

(** C01: the entries are the label pairs of the data lines, in file order. *)
Theorem C01_edge_list_exact : forall L O f pg T sched,
  is_ity L -> is_ity O -> wf_el f -> labels_fit (imax L - 1) f ->
  (Z.of_nat (length (el_pairs f)) <= imax O)%Z -> off_page pg (el_text f) -> 1 <= T ->
  exists c : coo unit,
    read_el L O None no_flags (mkMem (el_text f) pg) 0 (length (el_text f)) T sched = Ok c /\
    co_m c = Z.of_nat (length (el_pairs f)) /\
    co_x c = map (fun p => Some (fst p)) (el_pairs f) /\
    co_y c = map (fun p => Some (snd p)) (el_pairs f).
Proof. exact edge_list_exact. Qed.
Print Assumptions C01_edge_list_exact.

Example C01_applies : exists c : coo unit,
  read_el u8 u32 None no_flags (mkMem (el_text ex_el) 16) 0 (length (el_text ex_el)) 3 [2;0;1;1;0] = Ok c /\
  co_m c = 3%Z /\ co_x c = [Some 1; Some 30; Some 5]%Z /\ co_y c = [Some 2; Some 4; Some 5]%Z.
Proof.
  apply (C01_edge_list_exact u8 u32 ex_el 16 3 [2;0;1;1;0]);
    [cbn; auto|cbn; auto|exact ex_el_wf|exact ex_el_fit|vm_compute; discriminate|exact ex_el_off|lia].
Qed.

(** C02: the result depends neither on the team size nor on the interleaving. *)
Theorem C02_edge_list_deterministic : forall L O fl f pg T T' sched sched',
  is_ity L -> is_ity O -> wf_el f -> labels_fit (imax L - 1) f ->
  (Z.of_nat (length (stored fl (triples f (no_weights f)))) <= imax O)%Z ->
  off_page pg (el_text f) -> 1 <= T -> 1 <= T' ->
  exists c : coo unit,
    read_el L O None fl (mkMem (el_text f) pg) 0 (length (el_text f)) T sched = Ok c /\
    read_el L O None fl (mkMem (el_text f) pg) 0 (length (el_text f)) T' sched' = Ok c.
Proof. exact edge_list_deterministic. Qed.
Print Assumptions C02_edge_list_deterministic.

Theorem C02_edge_list_weighted_deterministic : forall k L O fl f ws pg T T' sched sched',
  wf_kind k -> weights_are k f ws -> Forall (keeps fl) (triples f ws) ->
  is_ity L -> is_ity O -> wf_el f -> labels_fit (imax L - 1) f ->
  (Z.of_nat (length (stored fl (triples f ws))) <= imax O)%Z ->
  off_page pg (el_text f) -> 1 <= T -> 1 <= T' ->
  exists c,
    read_el L O (Some (wreader k)) fl (mkMem (el_text f) pg) 0 (length (el_text f)) T sched = Ok c /\
    read_el L O (Some (wreader k)) fl (mkMem (el_text f) pg) 0 (length (el_text f)) T' sched' = Ok c.
Proof. exact edge_list_weighted_deterministic. Qed.
Print Assumptions C02_edge_list_weighted_deterministic.

(** The hypothesis that no entry is dropped cannot be omitted: here the flag
    removes a self loop that is the last line of the first thread, and two
    interleavings of two threads give different weights.  (The weight of the
    dropped line, and then a zero, are stored in the first cell of the second
    thread.) *)
Definition racy : list byte :=
  [49;32;49;32;53;32;32;32;32;10;  50;32;51;32;55;10]%Z.   (* "1 1 5    \n2 3 7\n" *)
Theorem C02_weighted_drop_refuted : exists c c' : coo Z,
  read_el u32 u32 (Some (wr_unsigned u32)) (mkFlags false false true) (mkMem racy 4096) 0 (length racy) 2 [0;0;1;1;1] = Ok c /\
  read_el u32 u32 (Some (wr_unsigned u32)) (mkFlags false false true) (mkMem racy 4096) 0 (length racy) 2 [1;1;1;0;0] = Ok c' /\
  co_w c = [Some 7%Z] /\ co_w c' = [Some 0%Z].
Proof. eexists; eexists. split; [vm_compute; reflexivity|]. split; [vm_compute; reflexivity|]. split; reflexivity. Qed.
Print Assumptions C02_weighted_drop_refuted.

Example C02_applies : Forall (keeps (mkFlags true false false)) (triples ex_elw [-12; 7; 4]%Z) /\
  wf_kind (WSigned i32) /\ weights_are (WSigned i32) ex_elw [-12; 7; 4]%Z /\ wf_el ex_elw /\
  labels_fit (imax u32 - 1) ex_elw /\ off_page 4096 (el_text ex_elw) /\
  (Z.of_nat (length (stored (mkFlags true false false) (triples ex_elw [-12; 7; 4]%Z))) <= imax u32)%Z.
Proof.
  repeat split; try exact ex_elw_weights; try apply ex_elw_wf; try exact ex_elw_fit; try apply ex_elw_off;
    try (vm_compute; discriminate).
  - repeat constructor; discriminate.
  - cbn; auto 8.
Qed.

(** C03: the flags. *)
Theorem C03_edge_list_flags : forall L O fl f pg T sched,
  is_ity L -> is_ity O -> wf_el f -> labels_fit (imax L - 1) f ->
  (Z.of_nat (length (stored fl (triples f (no_weights f)))) <= imax O)%Z ->
  off_page pg (el_text f) -> 1 <= T ->
  exists c : coo unit,
    read_el L O None fl (mkMem (el_text f) pg) 0 (length (el_text f)) T sched = Ok c /\
    holds c (flat_map (expand (f_sym fl) (f_ut fl) (f_sl fl)) (map (fun p => (fst p, snd p, tt)) (el_pairs f))).
Proof. exact edge_list_flags. Qed.
Print Assumptions C03_edge_list_flags.

Example C03_applies : exists c : coo unit,
  read_el u8 u32 None (mkFlags true false true) (mkMem (el_text ex_el) 16) 0 (length (el_text ex_el)) 2 [1;0;1] = Ok c /\
  holds c [(1, 2, tt); (2, 1, tt); (30, 4, tt); (4, 30, tt)]%Z.
Proof.
  apply (C03_edge_list_flags u8 u32 (mkFlags true false true) ex_el 16 2 [1;0;1]);
    [cbn; auto|cbn; auto|exact ex_el_wf|exact ex_el_fit|vm_compute; discriminate|exact ex_el_off|lia].
Qed.

(** C04: weights stay attached to their entries. *)
Theorem C04_edge_list_weights : forall k L O fl f ws pg T sched,
  wf_kind k -> weights_are k f ws ->
  (Forall (keeps fl) (triples f ws) \/
   (T = 1 /\ forall e, last (map Some (triples f ws)) None = Some e -> keeps fl e)) ->
  is_ity L -> is_ity O -> wf_el f -> labels_fit (imax L - 1) f ->
  (Z.of_nat (length (stored fl (triples f ws))) <= imax O)%Z ->
  off_page pg (el_text f) -> 1 <= T ->
  exists c,
    read_el L O (Some (wreader k)) fl (mkMem (el_text f) pg) 0 (length (el_text f)) T sched = Ok c /\
    holds c (stored fl (triples f ws)) /\ holds_weights c (stored fl (triples f ws)).
Proof. exact edge_list_weights. Qed.
Print Assumptions C04_edge_list_weights.

Example C04_applies : exists c,
  read_el u32 u64 (Some (wr_signed i32)) (mkFlags true false false) (mkMem (el_text ex_elw) 4096) 0
    (length (el_text ex_elw)) 4 [3;2;1;0] = Ok c /\
  co_x c = [Some 1; Some 2; Some 3; Some 0; Some 2]%Z /\
  co_y c = [Some 2; Some 1; Some 0; Some 3; Some 2]%Z /\
  co_w c = [Some (-12); Some (-12); Some 7; Some 7; Some 4]%Z.
Proof.
  destruct C02_applies as (H1 & H2 & H3 & H4 & H5 & H6 & H7).
  destruct (C04_edge_list_weights (WSigned i32) u32 u64 (mkFlags true false false) ex_elw [-12; 7; 4]%Z 4096 4 [3;2;1;0]
    H2 H3 (or_introl H1)) as (c & E & (Hm & Hx & Hy) & Hw);
    [cbn; auto|cbn; auto|exact H4|exact H5|vm_compute; discriminate|exact H6|lia|].
  exists c. split; [exact E|]. split; [exact Hx|]. split; [exact Hy|exact Hw].
Qed.

(** C05: the dimensions. *)
Theorem C05_edge_list_dims : forall L O fl f pg T sched,
  is_ity L -> is_ity O -> wf_el f -> labels_fit (imax L - 1) f ->
  (Z.of_nat (length (stored fl (triples f (no_weights f)))) <= imax O)%Z ->
  off_page pg (el_text f) -> 1 <= T ->
  exists (c : coo unit) nr nc,
    read_el L O None fl (mkMem (el_text f) pg) 0 (length (el_text f)) T sched = Ok c /\
    dims c nr nc /\
    nr = (1 + max_of (map (fun e => fst (fst e)) (counted fl (triples f (no_weights f)))))%Z /\
    nc = (1 + max_of (map (fun e => snd (fst e)) (counted fl (triples f (no_weights f)))))%Z /\
    (f_sym fl && negb (f_ut fl) = false -> forall i x y,
       nth_error (co_x c) i = Some (Some x) -> nth_error (co_y c) i = Some (Some y) -> (x < nr /\ y < nc)%Z) /\
    (forall i x y, nth_error (co_x c) i = Some (Some x) -> nth_error (co_y c) i = Some (Some y) ->
       (x < Z.max nr nc /\ y < Z.max nr nc)%Z).
Proof. exact edge_list_dims. Qed.
Print Assumptions C05_edge_list_dims.

Example C05_applies : exists c : coo unit,
  read_el u8 u32 None no_flags (mkMem (el_text ex_el) 16) 0 (length (el_text ex_el)) 2 [1;0;1] = Ok c /\
  dims c 31 6.
Proof.
  destruct (C05_edge_list_dims u8 u32 no_flags ex_el 16 2 [1;0;1]) as (c & nr & nc & E & Hd & -> & -> & _);
    [cbn; auto|cbn; auto|exact ex_el_wf|exact ex_el_fit|vm_compute; discriminate|exact ex_el_off|lia|].
  exists c. split; [exact E|exact Hd].
Qed.

(** C06: no data race, no out-of-bounds access, every cell written once. *)
Theorem C06_edge_list_race_free : forall L fl f pg T,
  is_ity L -> wf_el f -> labels_fit (imax L - 1) f -> off_page pg (el_text f) -> 1 <= T ->
  exists chunks counts p2,
    el_pass1 (W := unit) L None fl (mkMem (el_text f) pg) 0 (length (el_text f)) T = Ok (chunks, counts) /\
    el_pass2 (W := unit) L None fl (mkMem (el_text f) pg) chunks counts = Ok p2 /\
    sum_nat counts = length (stored fl (triples f (no_weights f))) /\
    race_free false (sum_nat counts) (map (fun r => fst (fst r)) p2).
Proof. exact edge_list_race_free. Qed.
Print Assumptions C06_edge_list_race_free.

Theorem C06_edge_list_race_free_weighted : forall k L fl f ws pg T,
  wf_kind k -> weights_are k f ws -> Forall (keeps fl) (triples f ws) ->
  is_ity L -> wf_el f -> labels_fit (imax L - 1) f -> off_page pg (el_text f) -> 1 <= T ->
  exists chunks counts p2,
    el_pass1 L (Some (wreader k)) fl (mkMem (el_text f) pg) 0 (length (el_text f)) T = Ok (chunks, counts) /\
    el_pass2 L (Some (wreader k)) fl (mkMem (el_text f) pg) chunks counts = Ok p2 /\
    sum_nat counts = length (stored fl (triples f ws)) /\
    race_free true (sum_nat counts) (map (fun r => fst (fst r)) p2).
Proof. exact edge_list_race_free_weighted. Qed.
Print Assumptions C06_edge_list_race_free_weighted.

Example C06_applies : wf_el ex_el /\ labels_fit (imax u8 - 1) ex_el /\ off_page 16 (el_text ex_el) /\
  length (stored no_flags (triples ex_el (no_weights ex_el))) = 3.
Proof.
  split; [exact ex_el_wf|]. split; [exact ex_el_fit|]. split; [exact ex_el_off|]. reflexivity.
Qed.

(** C07: comments, blank lines, separators, carriage returns and trailing text
    do not matter. *)
Theorem C07_edge_list_layout : forall L O fl f f' pg T T' sched sched',
  is_ity L -> is_ity O -> wf_el f -> wf_el f' -> el_pairs f = el_pairs f' -> labels_fit (imax L - 1) f ->
  (Z.of_nat (length (stored fl (triples f (no_weights f)))) <= imax O)%Z ->
  off_page pg (el_text f) -> off_page pg (el_text f') -> 1 <= T -> 1 <= T' ->
  exists c : coo unit,
    read_el L O None fl (mkMem (el_text f) pg) 0 (length (el_text f)) T sched = Ok c /\
    read_el L O None fl (mkMem (el_text f') pg) 0 (length (el_text f')) T' sched' = Ok c.
Proof. exact edge_list_layout. Qed.
Print Assumptions C07_edge_list_layout.

Example C07_applies : exists c : coo unit,
  read_el u8 u32 None no_flags (mkMem (el_text ex_el) 16) 0 (length (el_text ex_el)) 2 [] = Ok c /\
  read_el u8 u32 None no_flags (mkMem (el_text ex_el2) 16) 0 (length (el_text ex_el2)) 5 [4;4;1] = Ok c.
Proof.
  apply (C07_edge_list_layout u8 u32 no_flags ex_el ex_el2 16 2 5 [] [4;4;1]);
    [cbn; auto|cbn; auto|exact ex_el_wf|exact ex_el2_wf|reflexivity|exact ex_el_fit|vm_compute; discriminate|
     exact ex_el_off|exact ex_el2_off|lia|lia].
Qed.
