(** * Bin: binary files

    Model of the [File] class (include/pigo.hpp:287-398,
    include/pigo/impl/pigo.impl.hpp:21-186), of the parallel transfers
    (pigo.impl.hpp:627-697) and of the binary [save]/[read_bin_] of COO, CSR,
    Tensor and DiGraph.

    Simplifications: [size_t] arithmetic does not overflow; a store outside a
    file being written is undefined behaviour here, also where the last page of
    the mapping would still be writable; alignment is ignored. *)

From Verif Require Import Base Reader Sched Coo Ascii Csr Codec.

(** ** Magic strings *)
(** "PIGO-COO-v1", coo.hpp:343 *)
Definition coo_magic : list byte := [80;73;71;79;45;67;79;79;45;118;49]%Z.
(** "PIGO-CSR-v2", csr.hpp:275 *)
Definition csr_magic : list byte := [80;73;71;79;45;67;83;82;45;118;50]%Z.
(** "PIGO-DiGraph-v1", graph.hpp:338 *)
Definition digraph_magic : list byte := [80;73;71;79;45;68;105;71;114;97;112;104;45;118;49]%Z.
(** "PIGO-Tensor-2", tensor.hpp:222 *)
Definition tensor_magic : list byte := [80;73;71;79;45;84;101;110;115;111;114;45;50]%Z.
(** "PIGO", pigo.impl.hpp:147 *)
Definition pigo_magic : list byte := [80;73;71;79]%Z.
(** ".mtx" and ".graph", pigo.impl.hpp:150 and 155 *)
Definition ext_mtx : list byte := [46;109;116;120]%Z.
Definition ext_graph : list byte := [46;103;114;97;112;104]%Z.

(** ** A file open for reading

    The mapping, the position and the name, pigo.hpp:288-296. *)
Record rfile := mkRfile { rf_mem : mem; rf_fp : nat; rf_name : list byte }.

(** What the file system holds under a name: nothing, or a byte string. *)
Definition disk := option (list byte).

(** [File(fn, READ)], pigo.impl.hpp:21-77.  A missing file cannot be opened
    (line 55); mapping zero bytes fails (lines 67-69); [seek(0)] (line 76).
    Simplification: the other system calls succeed. *)
Definition open_read (pg : nat) (fn : list byte) (max_size : nat) (d : disk) : res rfile :=
  if 0 <? max_size then Throw EError
  else match d with
       | None => Throw EError
       | Some [] => Throw EError
       | Some s => Ok (mkRfile (mkMem s pg) 0 fn)
       end.

(** [File::seek], pigo.impl.hpp:129-133: the file afterwards, and the outcome. *)
Definition seek_to (pos : nat) (f : rfile) : rfile * res unit :=
  if flen (rf_mem f) <=? pos then (f, Throw EError)
  else (mkRfile (rf_mem f) pos (rf_name f), Ok tt).

(** [File::read(const std::string&)], pigo.impl.hpp:105-111. *)
Definition rd_str (s : list byte) (f : rfile) : res rfile :=
  b <- at_str (rf_mem f) (flen (rf_mem f)) (rf_fp f) s ;;
  if (b : bool) then Ok (mkRfile (rf_mem f) (rf_fp f + length s) (rf_name f))
  else Throw EError.

(** [T read(FilePos&)], pigo.impl.hpp:165-171, through [File::read],
    pigo.impl.hpp:99-103. *)
Definition rd {V : Type} (c : codec V) (f : rfile) : res (V * rfile) :=
  bs <- load_n (rf_mem f) (cd_size c) (rf_fp f) ;;
  Ok (cd_dec c bs, mkRfile (rf_mem f) (rf_fp f + cd_size c) (rf_name f)).

(** ** File type detection *)
Inductive ftype := MATRIX_MARKET | EDGE_LIST | PIGO_COO_BIN | PIGO_CSR_BIN
  | PIGO_DIGRAPH_BIN | PIGO_TENSOR_BIN | GRAPH | AUTO.

(** [fn_.size() >= ext.size() && fn_.compare(fn_.size()-ext.size(), ext.size(), ext) == 0],
    pigo.impl.hpp:151-152 and 156-157. *)
Definition has_suffix (fn ext : list byte) : bool :=
  (length ext <=? length fn) && str_eq ext (skipn (length fn - length ext) fn).

(** [File::guess_file_type], pigo.impl.hpp:135-163. *)
Definition guess (f : rfile) : res ftype :=
  let at_ s := at_str (rf_mem f) (flen (rf_mem f)) (rf_fp f) s in
  b1 <- at_ coo_magic ;;
  if (b1 : bool) then Ok PIGO_COO_BIN else
  b2 <- at_ csr_magic ;;
  if (b2 : bool) then Ok PIGO_CSR_BIN else
  b3 <- at_ digraph_magic ;;
  if (b3 : bool) then Ok PIGO_DIGRAPH_BIN else
  b4 <- at_ tensor_magic ;;
  if (b4 : bool) then Ok PIGO_TENSOR_BIN else
  b5 <- at_ pigo_magic ;;
  if (b5 : bool) then Throw EError else
  if has_suffix (rf_name f) ext_mtx then Ok MATRIX_MARKET else
  if has_suffix (rf_name f) ext_graph then Ok GRAPH else
  Ok EDGE_LIST.

(** ** A file open for writing

    Each byte of the mapping with its value ([None]: indeterminate) and, as a
    ghost, the number of times it has been stored to. *)
Definition fcell : Type := option byte * nat.
Record wfile := mkWfile { wf_data : list fcell; wf_fp : nat }.

(** [WFile(fn, max_size)], pigo.impl.hpp:21-77: created with a byte 1 at its
    end, the bytes before it read as zero. *)
Definition open_write (n : nat) : res wfile :=
  f <- new_file n ;; Ok (mkWfile (map (fun b => (Some b, 0)) f) 0).

Definition fstore (i : nat) (c : option byte) (f : list fcell) : res (list fcell) :=
  match nth_error f i with
  | Some (_, k) => Ok (upd i (c, S k) f)
  | None => UB
  end.

(** Stores of consecutive bytes at the file position, which advances:
    [write(FilePos&, T)] and its [std::string] specialisation,
    pigo.impl.hpp:173-186. *)
Fixpoint put_bytes (bs : list (option byte)) (w : wfile) : res wfile :=
  match bs with
  | [] => Ok w
  | b :: bs' =>
      f <- fstore (wf_fp w) b (wf_data w) ;;
      put_bytes bs' (mkWfile f (S (wf_fp w)))
  end.

(** The bytes of a possibly indeterminate value. *)
Definition cell_bytes {V : Type} (c : codec V) (o : option V) : list (option byte) :=
  match o with
  | Some v => map Some (cd_enc c v)
  | None => repeat None (cd_size c)
  end.
(** [get_raw_data_], pigo.hpp:588-624: the memory image of an array. *)
Definition raw {V : Type} (c : codec V) (l : list (option V)) : list (option byte) :=
  flat_map (cell_bytes c) l.

(** ** Parallel transfers *)

(** The bytes moved by each thread, pigo.impl.hpp:640-645 and 668-673. *)
Definition share (v_size T t : nat) : list nat :=
  seq (t * (v_size / T)) (if t =? T - 1 then v_size - v_size / T * (T - 1) else v_size / T).
Definition shares (v_size T : nat) : list (list nat) := map (share v_size T) (seq 0 T).

(** A team size and an interleaving for one parallel region. *)
Definition team : Type := nat * list nat.

(** [parallel_write], pigo.impl.hpp:627-654.  The byte copies of the threads
    interleave; a load outside the source array is undefined behaviour. *)
Definition wcopy (src : list (option byte)) (fp k : nat) (f : list fcell) : res (list fcell) :=
  c <- aget k src ;; fstore (fp + k) c f.
Definition par_write (src : list (option byte)) (v_size : nat) (tm : team) (w : wfile) : res wfile :=
  f <- run (wcopy src (wf_fp w)) (snd tm) (shares v_size (fst tm)) (wf_data w) ;;
  Ok (mkWfile f (wf_fp w + v_size)).

(** [parallel_read], pigo.impl.hpp:656-682, into an array of [cap] bytes. *)
Definition rcopy (m : mem) (fp k : nat) (a : list (option byte)) : res (list (option byte)) :=
  b <- load m (fp + k) ;; aset k b a.
Definition par_read (cap v_size : nat) (tm : team) (f : rfile) : res (list (option byte) * rfile) :=
  a <- run (rcopy (rf_mem f) (rf_fp f)) (snd tm) (shares v_size (fst tm)) (fresh cap) ;;
  Ok (a, mkRfile (rf_mem f) (rf_fp f + v_size) (rf_name f)).

(** The values an array holds when its memory image is the given one. *)
Fixpoint all_some (l : list (option byte)) : option (list byte) :=
  match l with
  | [] => Some []
  | None :: _ => None
  | Some b :: l' => match all_some l' with Some r => Some (b :: r) | None => None end
  end.
Fixpoint unraw {V : Type} (c : codec V) (k : nat) (a : list (option byte)) : list (option V) :=
  match k with
  | O => []
  | S k' =>
      match all_some (firstn (cd_size c) a) with
      | Some bs => Some (cd_dec c bs)
      | None => None
      end :: unraw c k' (skipn (cd_size c) a)
  end.

(** Read [v_size] bytes into a freshly allocated array of [k] values. *)
Definition rd_array {V : Type} (c : codec V) (k : nat) (v_size : nat) (tm : team) (f : rfile)
  : res (list (option V) * rfile) :=
  '(a, f') <- par_read (cd_size c * k) v_size tm f ;;
  Ok (unraw c k a, f').

(** [weight_size_], pigo.impl.hpp:684-697. *)
Definition weight_size {W : Type} (wc : option (codec W)) (m_ : nat) : nat :=
  match wc with None => 0 | Some c => cd_size c * m_ end.

(** [if (w_size > 0) w.parallel_write(...)], e.g. coo.impl.hpp:525-528. *)
Definition put_weights {W : Type} (wc : option (codec W)) (l : list (option W)) (m_ : nat) (tm : team) (w : wfile)
  : res wfile :=
  match wc with
  | None => Ok w
  | Some c => if 0 <? cd_size c * m_ then par_write (raw c l) (cd_size c * m_) tm w else Ok w
  end.
(** [if (w_size > 0) f.parallel_read(...)], e.g. coo.impl.hpp:562-566; [l] is the
    freshly allocated array. *)
Definition get_weights {W : Type} (wc : option (codec W)) (l : list (option W)) (m_ : nat) (tm : team) (f : rfile)
  : res (list (option W) * rfile) :=
  match wc with
  | None => Ok (l, f)
  | Some c => if 0 <? cd_size c * m_ then rd_array c (length l) (cd_size c * m_) tm f else Ok (l, f)
  end.

Definition size_byte (t : ity) : Z := Z.of_nat (isize t).

(** ** COO *)

(** [COO::save], coo.impl.hpp:483-529; [m_] converts to [size_t].  The three
    teams are those of the parallel regions. *)
Definition coo_save_size {W : Type} (L O : ity) (wc : option (codec W)) (c : coo W) : nat :=
  let m_ := Z.to_nat (co_m c) in
  length coo_magic + 1 * 2 + (isize L * 3 + isize O) + isize L * m_ * 2 + weight_size wc m_.
Definition coo_save {W : Type} (L O : ity) (wc : option (codec W)) (c : coo W) (tx ty tw : team) : res wfile :=
  let m_ := Z.to_nat (co_m c) in
  w <- open_write (coo_save_size L O wc c) ;;
  w <- put_bytes (map Some coo_magic) w ;;
  w <- put_bytes (cell_bytes (cint u8) (Some (size_byte L))) w ;;
  w <- put_bytes (cell_bytes (cint u8) (Some (size_byte O))) w ;;
  w <- put_bytes (cell_bytes (cint L) (co_nrows c)) w ;;
  w <- put_bytes (cell_bytes (cint L) (co_ncols c)) w ;;
  w <- put_bytes (cell_bytes (cint L) (co_n c)) w ;;
  w <- put_bytes (cell_bytes (cint O) (Some (co_m c))) w ;;
  w <- par_write (raw (cint L) (co_x c)) (isize L * m_) tx w ;;
  w <- par_write (raw (cint L) (co_y c)) (isize L * m_) ty w ;;
  put_weights wc (co_w c) m_ tw w.

(** [COO::read_bin_], coo.impl.hpp:531-567: the COO and the file afterwards. *)
Definition coo_read_bin {W : Type} (L O : ity) (wc : option (codec W)) (f : rfile) (tx ty tw : team)
  : res (coo W * rfile) :=
  f <- rd_str coo_magic f ;;
  '(ls, f) <- rd (cint u8) f ;;
  '(os, f) <- rd (cint u8) f ;;
  if negb (ls =? size_byte L)%Z then Throw EError else
  if negb (os =? size_byte O)%Z then Throw EError else
  '(nrows, f) <- rd (cint L) f ;;
  '(ncols, f) <- rd (cint L) f ;;
  '(n, f) <- rd (cint L) f ;;
  '(m_, f) <- rd (cint O) f ;;
  st <- coo_alloc (W:=W) (is_some wc) m_ ;;
  let k := Z.to_nat m_ in
  '(x, f) <- rd_array (cint L) (length (cx st)) (isize L * k) tx f ;;
  '(y, f) <- rd_array (cint L) (length (cy st)) (isize L * k) ty f ;;
  '(w, f) <- get_weights wc (cw st) k tw f ;;
  Ok (mkCoo x y w (Some n) (Some nrows) (Some ncols) m_, f).

(** ** CSR *)

(** [CSR::save_size], csr.impl.hpp:426-442; [n_+1] is computed in the label
    type. *)
Definition csr_save_size {W : Type} (L O : ity) (wc : option (codec W)) (c : csr W) : res nat :=
  n1 <- plus1 L (cs_n c) ;;
  let m_ := Z.to_nat (cs_m c) in
  Ok (length csr_magic + 1 * 2 + (isize L * 3 + isize O) +
      (isize O * Z.to_nat n1 + isize L * m_ + weight_size wc m_)).

(** [CSR::save(File&)], csr.impl.hpp:456-489. *)
Definition csr_save_to {W : Type} (L O : ity) (wc : option (codec W)) (c : csr W) (t_o te tw : team) (w : wfile)
  : res wfile :=
  let m_ := Z.to_nat (cs_m c) in
  w <- put_bytes (map Some csr_magic) w ;;
  w <- put_bytes (cell_bytes (cint u8) (Some (size_byte L))) w ;;
  w <- put_bytes (cell_bytes (cint u8) (Some (size_byte O))) w ;;
  w <- put_bytes (cell_bytes (cint L) (Some (cs_n c))) w ;;
  w <- put_bytes (cell_bytes (cint O) (Some (cs_m c))) w ;;
  w <- put_bytes (cell_bytes (cint L) (cs_nrows c)) w ;;
  w <- put_bytes (cell_bytes (cint L) (cs_ncols c)) w ;;
  n1 <- plus1 L (cs_n c) ;;
  w <- par_write (raw (cint O) (cs_off c)) (isize O * Z.to_nat n1) t_o w ;;
  w <- par_write (raw (cint L) (cs_end c)) (isize L * m_) te w ;;
  put_weights wc (cs_w c) m_ tw w.

(** [CSR::save(std::string)], csr.impl.hpp:444-454. *)
Definition csr_save {W : Type} (L O : ity) (wc : option (codec W)) (c : csr W) (t_o te tw : team) : res wfile :=
  sz <- csr_save_size L O wc c ;;
  w <- open_write sz ;;
  csr_save_to L O wc c t_o te tw w.

(** [CSR::read_bin_], csr.impl.hpp:491-528.  [OS] is the element type of the
    storage of the offsets ([OrdinalStorage], csr.hpp): normally [O], but
    [COO::read_] builds a CSR whose offsets are kept in label storage
    (coo.impl.hpp:49).  The array has [n_+1] elements of type [OS]
    (pigo.hpp:499-506), the file [n_+1] values of type [O]. *)
Definition csr_read_bin {W : Type} (L O OS : ity) (wc : option (codec W)) (f : rfile) (t_o te tw : team)
  : res (csr W * rfile) :=
  f <- rd_str csr_magic f ;;
  '(ls, f) <- rd (cint u8) f ;;
  '(os, f) <- rd (cint u8) f ;;
  if negb (ls =? size_byte L)%Z then Throw EError else
  if negb (os =? size_byte O)%Z then Throw EError else
  '(n, f) <- rd (cint L) f ;;
  '(m_, f) <- rd (cint O) f ;;
  '(nrows, f) <- rd (cint L) f ;;
  '(ncols, f) <- rd (cint L) f ;;
  '(e, w, o) <- csr_alloc (W:=W) L (is_some wc) n m_ ;;
  n1 <- plus1 L n ;;
  let k := Z.to_nat m_ in
  '(o, f) <- rd_array (cint OS) (length o) (isize O * Z.to_nat n1) t_o f ;;
  '(e, f) <- rd_array (cint L) (length e) (isize L * k) te f ;;
  '(w, f) <- get_weights wc w k tw f ;;
  Ok (mkCsr o e w n m_ (Some nrows) (Some ncols), f).

(** ** DiGraph

    [DiGraph::save], graph.impl.hpp:63-81: the in-edges, then the out-edges. *)
Definition digraph_save {W : Type} (L O : ity) (wc : option (codec W)) (g : csr W * csr W)
    (t1 t2 t3 t4 t5 t6 : team) : res wfile :=
  let '(in_, out_) := g in
  s1 <- csr_save_size L O wc in_ ;;
  s2 <- csr_save_size L O wc out_ ;;
  w <- open_write (length digraph_magic + s1 + s2) ;;
  w <- put_bytes (map Some digraph_magic) w ;;
  w <- csr_save_to L O wc in_ t1 t2 t3 w ;;
  csr_save_to L O wc out_ t4 t5 t6 w.

(** ** Tensor *)

(** The observable contents of a Tensor, tensor.hpp:47-57. *)
Record tensor (W : Type) := mkTensor {
  te_c : list (option Z);
  te_w : list (option W);
  te_order : Z;
  te_m : Z
}.
Arguments mkTensor {W}.
Arguments te_c {W}.
Arguments te_w {W}.
Arguments te_order {W}.
Arguments te_m {W}.

(** [order_*m_], computed in the promoted ordinal type. *)
Definition omul (O : ity) (a b : Z) : res Z :=
  if (ibits O <? 32)%Z then (if (a * b <=? imax i32)%Z then Ok (a * b)%Z else UB)
  else arith O (a * b)%Z.

(** [allocate_()], tensor.impl.hpp:50-54. *)
Definition tensor_alloc {W : Type} (O : ity) (weighted : bool) (order m_ : Z)
  : res (list (option Z) * list (option W)) :=
  k <- omul O order m_ ;;
  c <- alloc k ;;
  w <- (if weighted then alloc m_ else Ok []) ;;
  Ok (c, w).

(** [Tensor::save], tensor.impl.hpp:200-247. *)
Definition tensor_save_size {W : Type} (L O : ity) (wc : option (codec W)) (t : tensor W) : nat :=
  let m_ := Z.to_nat (te_m t) in
  length tensor_magic + 1 * 2 + (if is_some wc then 1 else 0) + 2 * isize O +
  isize L * m_ * Z.to_nat (te_order t) + weight_size wc m_.
Definition tensor_save {W : Type} (L O : ity) (wc : option (codec W)) (t : tensor W) (tc tw : team) : res wfile :=
  let m_ := Z.to_nat (te_m t) in
  w <- open_write (tensor_save_size L O wc t) ;;
  w <- put_bytes (map Some tensor_magic) w ;;
  w <- put_bytes (cell_bytes (cint u8) (Some (size_byte L))) w ;;
  w <- put_bytes (cell_bytes (cint u8) (Some (size_byte O))) w ;;
  w <- match wc with
       | None => Ok w
       | Some c => put_bytes (cell_bytes (cint u8) (Some (Z.of_nat (cd_size c)))) w
       end ;;
  w <- put_bytes (cell_bytes (cint O) (Some (te_order t))) w ;;
  w <- put_bytes (cell_bytes (cint O) (Some (te_m t))) w ;;
  w <- par_write (raw (cint L) (te_c t)) (isize L * Z.to_nat (te_order t) * m_) tc w ;;
  put_weights wc (te_w t) m_ tw w.

(** [Tensor::read_bin_], tensor.impl.hpp:249-284. *)
Definition tensor_read_bin {W : Type} (L O : ity) (wc : option (codec W)) (f : rfile) (tc tw : team)
  : res (tensor W * rfile) :=
  f <- rd_str tensor_magic f ;;
  '(ls, f) <- rd (cint u8) f ;;
  '(os, f) <- rd (cint u8) f ;;
  if negb (ls =? size_byte L)%Z then Throw EError else
  if negb (os =? size_byte O)%Z then Throw EError else
  f <- match wc with
       | None => Ok f
       | Some c =>
           '(ws, f) <- rd (cint u8) f ;;
           if negb (ws =? Z.of_nat (cd_size c))%Z then Throw EError else Ok f
       end ;;
  '(order, f) <- rd (cint O) f ;;
  '(m_, f) <- rd (cint O) f ;;
  '(c, w) <- tensor_alloc (W:=W) O (is_some wc) order m_ ;;
  let k := Z.to_nat m_ in
  '(c, f) <- rd_array (cint L) (length c) (isize L * Z.to_nat order * k) tc f ;;
  '(w, f) <- get_weights wc w k tw f ;;
  Ok (mkTensor c w order m_, f).
