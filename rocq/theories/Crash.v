(** * Crash: a [save] that does not come to its end

    [File(fn, WRITE, size)] truncates the file, gives it its size
    (pigo.impl.hpp:36-43) and maps it shared (pigo.impl.hpp:67-69), so that every
    store of [save] is a store to the file.  When the process dies, the file
    holds what has been stored until then.  The stores of one thread happen in
    the order of the program; the parallel transfers interleave.

    A save is a sequence of phases, each of which stores bytes at the file
    position.  Simplification: the bytes of a value stored with one assignment
    (pigo.impl.hpp:173-178) are stored one after the other, so that there are
    more intermediate states than the hardware shows. *)

From Verif Require Import Base Reader Sched Coo Ascii Csr Codec Bin Race.

Inductive phase :=
| Seq (bs : list (option byte))                       (* File::write, pigo.impl.hpp:113-117 and 173-186 *)
| Par (src : list (option byte)) (v : nat) (tm : team). (* File::parallel_write, pigo.impl.hpp:119-122 and 627-654 *)

Definition run_phase (p : phase) (w : wfile) : res wfile :=
  match p with
  | Seq bs => put_bytes bs w
  | Par src v tm => par_write src v tm w
  end.
Fixpoint run_phases (ps : list phase) (w : wfile) : res wfile :=
  match ps with
  | [] => Ok w
  | p :: ps' => w' <- run_phase p w ;; run_phases ps' w'
  end.

(** The phases of the weights, e.g. coo.impl.hpp:524-528. *)
Definition weight_phases {W : Type} (wc : option (codec W)) (l : list (option W)) (m_ : nat) (tm : team) : list phase :=
  match wc with
  | None => []
  | Some c => if 0 <? cd_size c * m_ then [Par (raw c l) (cd_size c * m_) tm] else []
  end.

(** The phases of [COO::save], coo.impl.hpp:500-528. *)
Definition coo_start (L O : ity) : list phase :=
  [Seq (map Some coo_magic); Seq (cell_bytes (cint u8) (Some (size_byte L))); Seq (cell_bytes (cint u8) (Some (size_byte O)))].
Definition coo_fields {W : Type} (L O : ity) (c : coo W) : list phase :=
  [Seq (cell_bytes (cint L) (co_nrows c)); Seq (cell_bytes (cint L) (co_ncols c)); Seq (cell_bytes (cint L) (co_n c));
   Seq (cell_bytes (cint O) (Some (co_m c)))].
Definition coo_arrays {W : Type} (L : ity) (wc : option (codec W)) (c : coo W) (tx ty tw : team) : list phase :=
  let m_ := Z.to_nat (co_m c) in
  Par (raw (cint L) (co_x c)) (isize L * m_) tx :: Par (raw (cint L) (co_y c)) (isize L * m_) ty :: weight_phases wc (co_w c) m_ tw.
Definition coo_phases {W : Type} (L O : ity) (wc : option (codec W)) (c : coo W) (tx ty tw : team) : list phase :=
  coo_start L O ++ coo_fields L O c ++ coo_arrays L wc c tx ty tw.

(** The phases of [CSR::save(File&)], csr.impl.hpp:456-489; [n1] is [n_+1]. *)
Definition csr_start (L O : ity) : list phase :=
  [Seq (map Some csr_magic); Seq (cell_bytes (cint u8) (Some (size_byte L))); Seq (cell_bytes (cint u8) (Some (size_byte O)))].
Definition csr_fields {W : Type} (L O : ity) (c : csr W) : list phase :=
  [Seq (cell_bytes (cint L) (Some (cs_n c))); Seq (cell_bytes (cint O) (Some (cs_m c)));
   Seq (cell_bytes (cint L) (cs_nrows c)); Seq (cell_bytes (cint L) (cs_ncols c))].
Definition csr_arrays {W : Type} (L O : ity) (wc : option (codec W)) (c : csr W) (n1 : Z) (t_o te tw : team) : list phase :=
  let m_ := Z.to_nat (cs_m c) in
  Par (raw (cint O) (cs_off c)) (isize O * Z.to_nat n1) t_o :: Par (raw (cint L) (cs_end c)) (isize L * m_) te :: weight_phases wc (cs_w c) m_ tw.
Definition csr_phases {W : Type} (L O : ity) (wc : option (codec W)) (c : csr W) (n1 : Z) (t_o te tw : team) : list phase :=
  csr_start L O ++ csr_fields L O c ++ csr_arrays L O wc c n1 t_o te tw.

(** The phases of [DiGraph::save], graph.impl.hpp:63-81. *)
Definition digraph_phases {W : Type} (L O : ity) (wc : option (codec W)) (g : csr W * csr W) (n1 n2 : Z) (t1 t2 t3 t4 t5 t6 : team) : list phase :=
  Seq (map Some digraph_magic) :: csr_phases L O wc (fst g) n1 t1 t2 t3 ++ csr_phases L O wc (snd g) n2 t4 t5 t6.

(** The phases of [Tensor::save], tensor.impl.hpp:221-247. *)
Definition tensor_start {W : Type} (L O : ity) (wc : option (codec W)) : list phase :=
  [Seq (map Some tensor_magic); Seq (cell_bytes (cint u8) (Some (size_byte L))); Seq (cell_bytes (cint u8) (Some (size_byte O)));
   Seq (match wc with None => [] | Some c => cell_bytes (cint u8) (Some (Z.of_nat (cd_size c))) end)].
Definition tensor_fields {W : Type} (O : ity) (t : tensor W) : list phase :=
  [Seq (cell_bytes (cint O) (Some (te_order t))); Seq (cell_bytes (cint O) (Some (te_m t)))].
Definition tensor_arrays {W : Type} (L : ity) (wc : option (codec W)) (t : tensor W) (tc tw : team) : list phase :=
  let m_ := Z.to_nat (te_m t) in
  Par (raw (cint L) (te_c t)) (isize L * Z.to_nat (te_order t) * m_) tc :: weight_phases wc (te_w t) m_ tw.
Definition tensor_phases {W : Type} (L O : ity) (wc : option (codec W)) (t : tensor W) (tc tw : team) : list phase :=
  tensor_start L O wc ++ tensor_fields O t ++ tensor_arrays L wc t tc tw.

(** The stores of the phases that begin at file position [fp], in their order. *)
Definition psize (p : phase) : nat := match p with Seq bs => length bs | Par _ v _ => v end.
Definition stores (fp : nat) (p : phase) : list (nat * option byte) :=
  match p with
  | Seq bs => combine (seq fp (length bs)) bs
  | Par src v tm => map (fun k => (fp + k, nth k src None)) (map snd (trace (snd tm) (shares v (fst tm))))
  end.
Fixpoint all_stores (fp : nat) (ps : list phase) : list (nat * option byte) :=
  match ps with
  | [] => []
  | p :: ps' => stores fp p ++ all_stores (fp + psize p) ps'
  end.

(** The file of size [n] after the first [k] stores. *)
Definition fput (a : nat * option byte) (f : list fcell) : res (list fcell) := fstore (fst a) (snd a) f.
Definition interrupted (n : nat) (ps : list phase) (k : nat) : res wfile :=
  w <- open_write n ;;
  f <- exec_all fput (firstn k (all_stores (wf_fp w) ps)) (wf_data w) ;;
  Ok (mkWfile f (wf_fp w)).
