(** * RaceIO: the tensor reader, [find_offsets] and the parallel copies, with logs

    The functions of [Tensor], [FindOff] and [Bin] again; the last barrier
    interval also returns the log of its accesses to shared memory. *)

From Verif Require Import Base Reader Sched SpecRace Race Coo Ascii Csr Codec Bin Load Tensor FindOff.

(** Cells of the coordinates and of the weights of a tensor. *)
Inductive tloc := CoordCell (i : nat) | WeightCell (i : nat).

(** The accesses of a store, tensor.impl.hpp:86 and coo.impl.hpp:158-200;
    pigo.impl.hpp:618. *)
Definition tacc {W : Type} (_ : nat) (i : tinstr W) (_ : tst W) : list (access tloc) :=
  match i with SetC i _ => [(CoordCell i, Write)] | SetTW i _ => [(WeightCell i, Write)] end.

(** What [Tensor::read_el_] does before the threads store,
    tensor.impl.hpp:103-188: order, number of entries, the fresh arrays and the
    stores of every thread. *)
Definition tensor_progs {W : Type} (L O : ity) (wr : option (wrd W)) (m : mem) (d0 e : nat) (T : nat)
  : res (Z * Z * tst W * list (list (tinstr W))) :=
  order <- tensor_order O (is_some wr) m d0 e ;;
  let k := Z.to_nat order in
  chunks <- mapM (el_chunk m d0 e T) (seq 0 T) ;;
  counts <- mapM (fun c => tcount_loop L wr k m (snd c) (S (snd c - fst c)) (fst c) 0) chunks ;;
  let m_ := wrap O (Z.of_nat (sum_nat counts)) in
  '(c0, w0) <- tensor_alloc (W:=W) O (is_some wr) order m_ ;;
  ps <- mapM (fun cs => tset_loop L wr k m (snd (fst cs)) (S (snd (fst cs) - fst (fst cs))) (fst (fst cs)) (snd cs))
         (combine chunks (prefix_sums 0 counts)) ;;
  Ok (order, m_, mkTst c0 w0, ps).

(** [Tensor::read_el_], tensor.impl.hpp:103-198, with the log of the interval of
    the stores (189-197). *)
Definition tensor_read_el_fine {W : Type} (L O : ity) (wr : option (wrd W)) (m : mem) (d0 e : nat) (T : nat) (sched : list nat)
  : res (tensor W * log tloc) :=
  '(order, m_, s, ps) <- tensor_progs L O wr m d0 e T ;;
  '(st, l) <- interval (fun _ => texec) tacc sched ps s ;;
  Ok (mkTensor (tc st) (tw st) order m_, l).

(** The same for [find_offsets], pigo.impl.hpp:515-625 (stores at 618). *)
Definition find_progs (L O : ity) (m : mem) (c : byte) (d0 e T : nat) : res (Z * tst unit * list (list (tinstr unit))) :=
  chunks <- mapM (fo_chunk m c d0 e T) (seq 0 T) ;;
  counts <- mapM (fun ch => fo_count m c (snd ch) (S (snd ch - fst ch)) (fst ch) 0) chunks ;;
  let m_ := wrap O (Z.of_nat (sum_nat counts)) in
  '(c0, w0) <- tensor_alloc (W := unit) O false 1 m_ ;;
  ps <- mapM (fun cs => fo_set L m c d0 (snd (fst cs)) (S (snd (fst cs) - fst (fst cs))) (fst (fst cs)) (snd cs))
         (combine chunks (prefix_sums 0 counts)) ;;
  Ok (m_, mkTst c0 w0, ps).
Definition find_offsets_fine (L O : ity) (m : mem) (c : byte) (d0 e T : nat) (sched : list nat) : res (tensor unit * log tloc) :=
  '(m_, s, ps) <- find_progs L O m c d0 e T ;;
  '(st, l) <- interval (fun _ => texec) tacc sched ps s ;;
  Ok (mkTensor (tc st) (tw st) 1 m_, l).

(** ** [parallel_write] and [parallel_read]

    Bytes of the array and of the mapped file. *)
Inductive ioloc := ArrayByte (i : nat) | FileByte (i : nat).

(** One byte of the [memcpy] of [parallel_write], pigo.impl.hpp:628-654. *)
Definition wcopy_acc (fp : nat) (_ k : nat) (_ : list fcell) : list (access ioloc) :=
  [(ArrayByte k, Read); (FileByte (fp + k), Write)].
Definition par_write_fine (src : list (option byte)) (v_size : nat) (tm : team) (w : wfile) : res (wfile * log ioloc) :=
  '(f, l) <- interval (fun _ => wcopy src (wf_fp w)) (wcopy_acc (wf_fp w)) (snd tm) (shares v_size (fst tm)) (wf_data w) ;;
  Ok (mkWfile f (wf_fp w + v_size), l).

(** One byte of the [memcpy] of [parallel_read], pigo.impl.hpp:656-682. *)
Definition rcopy_acc (fp : nat) (_ k : nat) (_ : list (option byte)) : list (access ioloc) :=
  [(FileByte (fp + k), Read); (ArrayByte k, Write)].
Definition par_read_fine (cap v_size : nat) (tm : team) (f : rfile) : res (list (option byte) * rfile * log ioloc) :=
  '(a, l) <- interval (fun _ => rcopy (rf_mem f) (rf_fp f)) (rcopy_acc (rf_fp f)) (snd tm) (shares v_size (fst tm)) (fresh cap) ;;
  Ok (a, mkRfile (rf_mem f) (rf_fp f + v_size) (rf_name f), l).
