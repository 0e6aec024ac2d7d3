(** * DupFine: [sort] and [new_csr_without_dups] with their memory accesses

    Like CsrFine.v, for csr.impl.hpp:530-718. *)

From Verif Require Import Base Sched Coo Ascii Csr SpecRace Race CsrFine.

Section Dup.
  Context {W : Type}.
  Variable srt : list (Z * W) -> list (Z * W).
  Variable srt1 : list Z -> list Z.
  Variable weighted : bool.

  (** The cells of row [v]. *)
  Definition row_cells (off : list (option Z)) (v : nat) : list nat :=
    match row_range off v with Ok (k, len) => seq k len | _ => [] end.
  Definition row_reads (off : list (option Z)) (v : nat) : list (access floc) :=
    [rd SrcOffsets v; rd SrcOffsets (S v)] ++ map (rd SrcEnds) (row_cells off v) ++
    if weighted then map (rd SrcWeights) (row_cells off v) else [].

  (** [sort], csr.impl.hpp:530-569: [std::sort] on the cells of the row, or on
      a vector of pairs copied from and to them. *)
  Definition sort_acc (off : list (option Z)) (_ : nat) (v : nat) (_ : list (option Z) * list (option W)) : list (access floc) :=
    row_reads off v ++ map (wr SrcEnds) (row_cells off v) ++
    if weighted then map (wr SrcWeights) (row_cells off v) else [].

  Definition sort_fine (c : csr W) (parts : list (list nat)) (sched : list nat) : res (csr W * log floc) :=
    '(st, l) <- interval (fun _ => sort_exec srt srt1 weighted (cs_off c)) (sort_acc (cs_off c)) sched parts (cs_end c, cs_w c) ;;
    Ok (mkCsr (cs_off c) (fst st) (snd st) (cs_n c) (cs_m c) (cs_nrows c) (cs_ncols c), l).

  (** The counting loop, csr.impl.hpp:584-606. *)
  Definition count_exec (L : ity) (c : csr W) (v : nat) (degs : list (option Z)) : res (list (option Z)) :=
    d <- row_deg L c v ;; aset v d degs.
  Definition count_acc (c : csr W) (_ : nat) (v : nat) (_ : list (option Z)) : list (access floc) :=
    [rd SrcOffsets v; rd SrcOffsets (S v)] ++ map (rd SrcEnds) (row_cells (cs_off c) v) ++ [wr AllDegs v].

  (** The copying loop, csr.impl.hpp:689-715: a row's loads, which are from
      arrays that are not written here, are logged by the action [DRead]. *)
  Inductive dinstr := DRead (v : nat) | DStore (i : @rinstr W).
  Definition copy_exec (i : dinstr) (s : list (option Z) * list (option W)) : res (list (option Z) * list (option W)) :=
    match i with DRead _ => Ok s | DStore r => rexec r s end.
  Definition copy_acc (c : csr W) (_ : nat) (i : dinstr) (_ : list (option Z) * list (option W)) : list (access floc) :=
    match i with
    | DRead v => rd Offsets v :: row_reads (cs_off c) v
    | DStore (REnd k _) => [wr Endpoints k]
    | DStore (RWgt k _) => [wr Weights k]
    end.
  Definition copy_prog (c : csr W) (off : list (option Z)) (v : nat) : res (list dinstr) :=
    code <- copy_row weighted c off v ;; Ok (DRead v :: map DStore code).

  (** The choices of the run time system: those of Csr.v and the distribution
      and interleaving of the counting loop, the thread that adds up the
      threads' counts, and the interleavings around it. *)
  Record dfchoice := mkDFch {
    df_c : dchoice;
    df_count : list (list nat); df_scount : list nat;
    df_sum : nat; df_s2 : list nat; df_s3 : list nat
  }.

  (** [new_csr_without_dups]: the sorted original, the new CSR and the logs of
      the barrier intervals.  [reduction(+ : new_m)] adds up private
      variables. *)
  Definition without_dups_fine (L O : ity) (c0 : csr W) (ch : dfchoice) : res (csr W * csr W * list (log floc)) :=
    let dc := df_c ch in
    '(c, l0) <- sort_fine c0 (dc_sort dc) (dc_ssort dc) ;;
    if (cs_n c <? 0)%Z then Throw EError
    else
      let n := Z.to_nat (cs_n c) in
      let T := dc_T dc in
      '(dg, l1) <- interval (fun _ => count_exec L c) (count_acc c) (df_scount ch) (df_count ch) (fresh n) ;;
      degs <- mapM (fun v => cell_of v dg) (seq 0 n) ;;
      new_m <- osum O 0 degs ;;
      '(ends, ws, offs) <- csr_alloc L weighted (cs_n c) new_m ;;
      let none := mkCoo (W:=W) [] [] [] None None None 0 in
      let go := interval (fexec O false none n new_m) (facc O false none n) in
      let s := mkF (map Some (map (wrap O) degs)) [] (fresh T) offs [] []
                   (fresh T) (fresh T) (fresh T) (fresh T) (fresh T) in
      '(s, l2) <- go (df_s2 ch) (map (label_prog n T) (seq 0 T)) s ;;
      '(s, l3) <- go (df_s3 ch) (map (fun t => if t =? df_sum ch then sum_prog T else []) (seq 0 T)) s ;;
      '(s, l4) <- go (dc_soff dc) (map (fun t => off_prog_f n T t ++ if t =? dc_single dc then [FLast] else []) (seq 0 T)) s ;;
      let off := f_off s in
      ps <- mapM (fun p => codes <- mapM (copy_prog c off) p ;; Ok (concat codes)) (dc_copy dc) ;;
      '(st, l5) <- interval (fun _ => copy_exec) (copy_acc c) (dc_scopy dc) ps (ends, ws) ;;
      Ok (c, mkCsr off (fst st) (snd st) (cs_n c) new_m (cs_nrows c) (cs_ncols c), [l0; l1; l2; l3; l4; l5]).
End Dup.
