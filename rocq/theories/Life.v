(** * Life: what constructors do with memory, also when they throw

    The constructors from files of Load.v with the storage of Own.v: which
    arrays are allocated, which are given back, and which are still there when
    the constructor returns or throws.  An exception that leaves a constructor
    destroys the members constructed so far ([drop_all]) and the local
    variables; neither gives back a raw pointer, since no container has a
    destructor.

    Simplifications: the contents of the arrays are those of Load.v and are not
    repeated in the blocks; vectors and arrays local to one function and
    temporary copies of handles ([storage_offsets], coo.impl.hpp:81-88) are not
    counted; a vector or shared pointer is given back at once when its owner
    goes out of scope; an allocation that is refused because its length is
    negative (signed types) is an exception here too, but an array allocated
    just before it is not counted. *)

From Verif Require Import Base Reader Sched Coo Ascii Csr Codec Bin Graph GraphSplit Load Own.

(** What a constructor that began with heap [h] ends with: a heap, and an
    exception or a result. *)
Definition outcome (A : Type) : Type := res (heap * (exn + A)).

(** [allocate_()] of a new object. *)
Definition alloc_new (h : heap) (ks : list kind) (ns : list nat) : res (heap * list handle) :=
  alloc_all h ks ns (map (fun _ => None) ks).

(** COO::allocate_, coo.impl.hpp:131-136. *)
Definition coo_kinds (s ws : kind) (wgt : bool) : list kind := kinds (CCoo s ws wgt).
Definition coo_lens (wgt : bool) (m : Z) : list nat := sizes (CCoo Ptr Ptr wgt) [] (Z.to_nat m).
(** CSR::allocate_, csr.impl.hpp:69-74; the number of offsets is that of the
    value in Load.v, since [n_+1] may wrap and [read_graph_] changes [n_] after
    the allocation (csr.impl.hpp:416). *)
Definition csr_kinds (ls os ws : kind) (wgt : bool) : list kind := ls :: wkind ws wgt ++ [os].
Definition csr_lens (wgt : bool) (m : Z) (noff : nat) : list nat :=
  Z.to_nat m :: (if wgt then [Z.to_nat m] else []) ++ [noff].

(** COO::free(), coo.hpp:305-312 (guarded by [m_ > 0]), and the end of scope of
    the object. *)
Definition coo_dispose (h : heap) (s ws : kind) (wgt : bool) (m : Z) (az : list handle) : res heap :=
  h1 <- (if (0 <? m)%Z then free_all h (coo_kinds s ws wgt) az else Ok h) ;;
  drop_all h1 (coo_kinds s ws wgt) az.
(** CSR::free(), csr.hpp:246-250 (not guarded), and the end of scope. *)
Definition csr_dispose (h : heap) (ls os ws : kind) (wgt : bool) (az : list handle) : res heap :=
  h1 <- free_all h (csr_kinds ls os ws wgt) az ;; drop_all h1 (csr_kinds ls os ws wgt) az.

(** ** Matrix Market: coo.impl.hpp:326-381, before and after the body is read *)
Definition mm_body {W : Type} (L O : ity) (wr : option (wrd W)) (fl : flags)
    (m : mem) (d0 e : nat) (T : nat) (sched : list nat) : res (Z * Z * Z * coo W) :=
  hdr <- at_str m e d0 mm_header ;;
  if negb hdr then Throw ENotYetImplemented
  else
    d1 <- move_to_next_int m e d0 ;;
    '(nr, d2) <- read_int m L e d1 ;;
    nrows <- arith L (nr + 1)%Z ;;
    d3 <- move_to_next_int m e d2 ;;
    '(nc, d4) <- read_int m L e d3 ;;
    ncols <- arith L (nc + 1)%Z ;;
    d5 <- move_to_next_int m e d4 ;;
    '(nnz, d6) <- read_int m O e d5 ;;
    d7 <- next_line m e d6 ;;
    c <- read_el L O wr fl m d7 e T sched ;;
    Ok (nrows, ncols, nnz, c).
Definition mm_check {W : Type} (O : ity) (fl : flags) (b : Z * Z * Z * coo W) : res (coo W) :=
  let '(nrows, ncols, nnz, c) := b in
  match co_nrows c, co_ncols c with
  | Some nrows_, Some ncols_ =>
      if (nrows <? nrows_)%Z then Throw EError
      else if (ncols <? ncols_)%Z then Throw EError
      else
        bad <- (if f_sym fl then m2 <- twice O (co_m c) ;; Ok (m2 <? nnz)%Z
                else if f_sl fl then Ok (co_m c <? nnz)%Z
                else Ok (negb (nnz =? co_m c)%Z)) ;;
        if (bad : bool) then Throw EError
        else Ok (mkCoo (co_x c) (co_y c) (co_w c)
                   (Some (if (ncols <? nrows)%Z then nrows else ncols))
                   (Some nrows) (Some ncols) (co_m c))
  | _, _ => UB
  end.

(** ** Reading with storage *)

(** A step that allocates nothing that outlives it. *)
Definition pure {A B : Type} (h : heap) (r : res A) (k : A -> outcome B) : outcome B :=
  match r with Ok a => k a | Throw e => Ok (h, inl e) | UB => UB | Stuck => Stuck end.

(** An object with arrays of the given lengths is allocated, and [r] decides
    whether the constructor goes on; if it throws, [undo] runs before the
    members are destroyed. *)
Definition build {A : Type} (h : heap) (ks : list kind) (ns : list nat) (undo : heap -> list handle -> res heap) (r : res A)
  : outcome (A * list handle) :=
  '(h1, az) <- alloc_new h ks ns ;;
  match r with
  | Ok a => Ok (h1, inr (a, az))
  | Throw e => h2 <- undo h1 az ;; Ok (h2, inl e)
  | UB => UB
  | Stuck => Stuck
  end.

(** The direct part of CSR::read_, csr.impl.hpp:59-66.  [read_bin_]
    (csr.impl.hpp:491-528) throws only before [allocate_()]; [read_graph_]
    throws after it (lines 414 and 415) and gives nothing back. *)
Definition csr_direct_life {W : Type} (ls os ws : kind) (L O OS : ity) (wm : option (wmode W)) (f : rfile) (ft : ftype) (ch : lchoice)
    (h : heap) : outcome (csr W * rfile * list handle) :=
  let wgt := is_some wm in
  match ft with
  | PIGO_CSR_BIN =>
      pure h (csr_read_bin L O OS (wbin wm) f (lc_b1 ch) (lc_b2 ch) (lc_b3 ch)) (fun cf =>
      '(h1, az) <- alloc_new h (csr_kinds ls os ws wgt) (csr_lens wgt (cs_m (fst cf)) (length (cs_off (fst cf)))) ;;
      Ok (h1, inr (fst cf, snd cf, az)))
  | GRAPH =>
      if wgt then Ok (h, inl ENotYetImplemented)
      else pure h (graph_body L O OS (rf_mem f) (rf_fp f) (flen (rf_mem f)) (lc_graph ch)) (fun b =>
           '(h1, r) <- build h (csr_kinds ls os ws false) (csr_lens false (gb_m b) (length (g_off (gb_st b))))
                         (fun h1 az => drop_all h1 (csr_kinds ls os ws false) az) (graph_check (W:=W) L O b) ;;
           Ok (h1, match r with inl e => inl e | inr (c, az) => inr (c, f, az) end))
  | _ => Ok (h, inl ENotYetImplemented)
  end.

(** COO::read_, coo.impl.hpp:31-57.  The CSR of lines 50-52 is a local variable:
    [csr.free()] is not reached if [convert_csr_] throws (lines 75 and 77). *)
Definition coo_life {W : Type} (s ws : kind) (L O : ity) (wm : option (wmode W)) (fl : flags) (f : rfile) (ft : ftype) (ch : lchoice)
    (h : heap) : outcome (coo W * rfile * list handle) :=
  let wgt := is_some wm in
  pure h (used f ft) (fun ftu =>
  match ftu with
  | MATRIX_MARKET =>
      pure h (mm_body L O (wtext wm) fl (rf_mem f) (rf_fp f) (flen (rf_mem f)) (lc_T ch) (lc_el ch)) (fun b =>
      '(h1, r) <- build h (coo_kinds s ws wgt) (coo_lens wgt (co_m (snd b)))
                    (fun h1 az => coo_dispose h1 s ws wgt (co_m (snd b)) az) (mm_check O fl b) ;;
      Ok (h1, match r with inl e => inl e | inr (c, az) => inr (c, f, az) end))
  | EDGE_LIST =>
      pure h (read_el L O (wtext wm) fl (rf_mem f) (rf_fp f) (flen (rf_mem f)) (lc_T ch) (lc_el ch)) (fun c =>
      '(h1, az) <- alloc_new h (coo_kinds s ws wgt) (coo_lens wgt (co_m c)) ;;
      Ok (h1, inr (c, f, az)))
  | PIGO_COO_BIN =>
      pure h (coo_read_bin L O (wbin wm) f (lc_b1 ch) (lc_b2 ch) (lc_b3 ch)) (fun cf =>
      '(h1, az) <- alloc_new h (coo_kinds s ws wgt) (coo_lens wgt (co_m (fst cf))) ;;
      Ok (h1, inr (fst cf, snd cf, az)))
  | PIGO_CSR_BIN | GRAPH =>
      '(h1, r) <- csr_direct_life s s ws L O L wm f ftu ch h ;;
      match r with
      | inl e => Ok (h1, inl e)
      | inr (c, f', cz) =>
          match convert_csr O fl wgt c (lc_parts ch) (lc_back ch) with
          | Ok r =>
              '(h2, az) <- alloc_new h1 (coo_kinds s ws wgt) (coo_lens wgt (co_m r)) ;;
              h3 <- csr_dispose h2 s s ws wgt cz ;;
              Ok (h3, inr (r, f', az))
          | Throw e => h2 <- drop_all h1 (csr_kinds s s ws wgt) cz ;; Ok (h2, inl e)
          | UB => UB
          | Stuck => Stuck
          end
      end
  | _ => Ok (h, inl ENotYetImplemented)
  end).

(** CSR::read_, csr.impl.hpp:45-67.  The COO of lines 56-58 keeps its
    coordinates in raw pointers. *)
Definition csr_life {W : Type} (ls os ws : kind) (L O : ity) (wm : option (wmode W)) (f : rfile) (ft : ftype) (ch : lchoice)
    (h : heap) : outcome (csr W * rfile * list handle) :=
  let wgt := is_some wm in
  pure h (used f ft) (fun ftu =>
  match ftu with
  | MATRIX_MARKET | EDGE_LIST | PIGO_COO_BIN =>
      '(h1, r) <- coo_life Ptr ws L O wm no_flags f ftu ch h ;;
      match r with
      | inl e => Ok (h1, inl e)
      | inr (c, f', cz) =>
          match convert_coo L O wgt c (lc_conv ch) with
          | Ok r =>
              '(h2, az) <- alloc_new h1 (csr_kinds ls os ws wgt) (csr_lens wgt (cs_m r) (length (cs_off r))) ;;
              h3 <- coo_dispose h2 Ptr ws wgt (co_m c) cz ;;
              Ok (h3, inr (r, f', az))
          | Throw e => h2 <- drop_all h1 (coo_kinds Ptr ws wgt) cz ;; Ok (h2, inl e)
          | UB => UB
          | Stuck => Stuck
          end
      end
  | _ => csr_direct_life ls os ws L O O wm f ftu ch h
  end).

(** DiGraph::read_, graph.impl.hpp:22-61, for a binary file; the first graph is
    a member ([in_]) when the second is read. *)
Definition digraph_bin_life {W : Type} (ls os ws : kind) (L O : ity) (wm : option (wmode W)) (f : rfile) (ch1 ch2 : lchoice)
    (h : heap) : outcome (csr W * csr W * rfile * list handle * list handle) :=
  pure h (rd_str digraph_magic f) (fun f1 =>
  '(h1, r1) <- csr_life ls os ws L O wm f1 AUTO ch1 h ;;
  match r1 with
  | inl e => Ok (h1, inl e)
  | inr (i, f2, iz) =>
      '(h2, r2) <- csr_life ls os ws L O wm f2 AUTO ch2 h1 ;;
      match r2 with
      | inl e => h3 <- drop_all h2 (csr_kinds ls os ws (is_some wm)) iz ;; Ok (h3, inl e)
      | inr (o, f3, oz) => Ok (h2, inr (i, o, f3, iz, oz))
      end
  end).

(** The constructors that take a file name, coo.impl.hpp:15-24,
    csr.impl.hpp:15-23; the file is closed by the destructor of the local [f]. *)
Definition coo_open_life {W : Type} (s ws : kind) (L O : ity) (wm : option (wmode W)) (fl : flags) (pg : nat) (fn : list byte) (d : disk)
    (ft : ftype) (ch : lchoice) (h : heap) : outcome (coo W * list handle) :=
  pure h (open_read pg fn 0 d) (fun f =>
  '(h1, r) <- coo_life s ws L O wm fl f ft ch h ;;
  Ok (h1, match r with inl e => inl e | inr (c, _, az) => inr (c, az) end)).
Definition csr_open_life {W : Type} (ls os ws : kind) (L O : ity) (wm : option (wmode W)) (pg : nat) (fn : list byte) (d : disk)
    (ft : ftype) (ch : lchoice) (h : heap) : outcome (csr W * list handle) :=
  pure h (open_read pg fn 0 d) (fun f =>
  '(h1, r) <- csr_life ls os ws L O wm f ft ch h ;;
  Ok (h1, match r with inl e => inl e | inr (c, _, az) => inr (c, az) end)).
