(** * Load: constructors that read a file

    Model of [COO::read_], [CSR::read_], [DiGraph::read_], [Tensor::read_]: the
    choice of the reader by the file type. *)

From Verif Require Import Base Reader Sched Coo Ascii Csr Codec Bin Graph.

(** The scheduling choices of all parallel regions a constructor may run. *)
Record lchoice := mkLchoice {
  lc_T : nat; lc_el : list nat;                 (* edge list, Matrix Market *)
  lc_b1 : team; lc_b2 : team; lc_b3 : team;     (* binary *)
  lc_graph : gchoice;                           (* adjacency *)
  lc_conv : cchoice;                            (* COO to CSR *)
  lc_parts : list (list nat); lc_back : list nat (* CSR to COO *)
}.

(** How weights are represented: in text and in memory. *)
Record wmode (W : Type) := mkWmode { wm_text : wrd W; wm_bin : codec W }.
Arguments wm_text {W}.
Arguments wm_bin {W}.
Definition wtext {W : Type} (wm : option (wmode W)) : option (wrd W) := option_map wm_text wm.
Definition wbin {W : Type} (wm : option (wmode W)) : option (codec W) := option_map wm_bin wm.

(** [f.reader()] from the current position, pigo.hpp:395-397. *)
Definition with_reader {A : Type} (k : mem -> nat -> nat -> res A) (f : rfile) : res (A * rfile) :=
  a <- k (rf_mem f) (rf_fp f) (flen (rf_mem f)) ;; Ok (a, f).

(** The part of [CSR::read_] that reads without a COO, csr.impl.hpp:59-66;
    [OS] is the element type of the storage of the offsets. *)
Definition csr_direct {W : Type} (L O OS : ity) (wm : option (wmode W)) (f : rfile) (ft : ftype) (ch : lchoice)
  : res (csr W * rfile) :=
  match ft with
  | PIGO_CSR_BIN => csr_read_bin L O OS (wbin wm) f (lc_b1 ch) (lc_b2 ch) (lc_b3 ch)
  | GRAPH =>
      if is_some wm then Throw ENotYetImplemented
      else with_reader (fun m d e => read_graph L O OS m d e (lc_graph ch)) f
  | _ => Throw ENotYetImplemented
  end.

Definition used (f : rfile) (ft : ftype) : res ftype :=
  match ft with AUTO => guess f | _ => Ok ft end.

(** [COO::read_], coo.impl.hpp:31-57; the CSR is read with the type already
    detected, and with the offsets in storage for labels: the type is
    [CSR<L,O,S,S,...>] (line 50). *)
Definition coo_read {W : Type} (L O : ity) (wm : option (wmode W)) (fl : flags) (f : rfile) (ft : ftype) (ch : lchoice)
  : res (coo W * rfile) :=
  ftu <- used f ft ;;
  match ftu with
  | MATRIX_MARKET => with_reader (fun m d e => read_mm L O (wtext wm) fl m d e (lc_T ch) (lc_el ch)) f
  | EDGE_LIST => with_reader (fun m d e => read_el L O (wtext wm) fl m d e (lc_T ch) (lc_el ch)) f
  | PIGO_COO_BIN => coo_read_bin L O (wbin wm) f (lc_b1 ch) (lc_b2 ch) (lc_b3 ch)
  | PIGO_CSR_BIN | GRAPH =>
      '(c, f') <- csr_direct L O L wm f ftu ch ;;
      r <- convert_csr O fl (is_some wm) c (lc_parts ch) (lc_back ch) ;;
      Ok (r, f')
  | _ => Throw ENotYetImplemented
  end.

(** [CSR::read_], csr.impl.hpp:45-67. *)
Definition csr_read {W : Type} (L O : ity) (wm : option (wmode W)) (f : rfile) (ft : ftype) (ch : lchoice)
  : res (csr W * rfile) :=
  ftu <- used f ft ;;
  match ftu with
  | MATRIX_MARKET | EDGE_LIST | PIGO_COO_BIN =>
      '(c, f') <- coo_read L O wm no_flags f ftu ch ;;
      r <- convert_coo L O (is_some wm) c (lc_conv ch) ;;
      Ok (r, f')
  | _ => csr_direct L O O wm f ftu ch
  end.

(** [DiGraph::read_], graph.impl.hpp:22-61; otherwise a COO is built with the
    type given by the caller (line 57) and both directions from it. *)
Definition digraph_read {W : Type} (L O : ity) (wm : option (wmode W)) (f : rfile) (ft : ftype)
    (ch1 ch2 : lchoice) (c1 c2 : cchoice) : res (csr W * csr W * rfile) :=
  ftu <- used f ft ;;
  match ftu with
  | PIGO_DIGRAPH_BIN =>
      f1 <- rd_str digraph_magic f ;;
      '(i, f2) <- csr_read L O wm f1 AUTO ch1 ;;
      '(o, f3) <- csr_read L O wm f2 AUTO ch2 ;;
      Ok (i, o, f3)
  | _ =>
      '(c, f') <- coo_read L O wm no_flags f ft ch1 ;;
      '(i, o) <- digraph_of_coo L O (is_some wm) c c1 c2 ;;
      Ok (i, o, f')
  end.

(** The constructors that take a file name: open, read, close;
    coo.impl.hpp:15-24, csr.impl.hpp:15-23, graph.impl.hpp:7-15. *)
Definition coo_open {W : Type} (L O : ity) (wm : option (wmode W)) (fl : flags) (pg : nat) (fn : list byte) (d : disk)
    (ft : ftype) (ch : lchoice) : res (coo W) :=
  f <- open_read pg fn 0 d ;; '(c, _) <- coo_read L O wm fl f ft ch ;; Ok c.
Definition csr_open {W : Type} (L O : ity) (wm : option (wmode W)) (pg : nat) (fn : list byte) (d : disk)
    (ft : ftype) (ch : lchoice) : res (csr W) :=
  f <- open_read pg fn 0 d ;; '(c, _) <- csr_read L O wm f ft ch ;; Ok c.
Definition digraph_open {W : Type} (L O : ity) (wm : option (wmode W)) (pg : nat) (fn : list byte) (d : disk)
    (ft : ftype) (ch1 ch2 : lchoice) (c1 c2 : cchoice) : res (csr W * csr W) :=
  f <- open_read pg fn 0 d ;; '(i, o, _) <- digraph_read L O wm f ft ch1 ch2 c1 c2 ;; Ok (i, o).
