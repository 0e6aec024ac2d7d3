(** * Tensor: reading and writing tensors

    Model of include/pigo/impl/tensor.impl.hpp:16-198 and 286-419.  The binary
    [save]/[read_bin_] are in [Bin]. *)

From Verif Require Import Base Reader Sched Coo Ascii Csr Codec Bin Load.

(** ** Stores of the setting pass

    [set_value_(c_, coord_pos*order_+idx, v)], tensor.impl.hpp:86, and the store
    of a weight, coo.impl.hpp:158-200. *)
Record tst (W : Type) := mkTst { tc : list (option Z); tw : list (option W) }.
Arguments mkTst {W}.
Arguments tc {W}.
Arguments tw {W}.
Inductive tinstr (W : Type) := SetC (i : nat) (v : Z) | SetTW (i : nat) (v : W).
Arguments SetC {W}.
Arguments SetTW {W}.
Definition texec {W : Type} (i : tinstr W) (s : tst W) : res (tst W) :=
  match i with
  | SetC i v => c' <- aset i v (tc s) ;; Ok (mkTst c' (tw s))
  | SetTW i v => w' <- aset i v (tw s) ;; Ok (mkTst (tc s) w')
  end.

Section Entry.
  Context {W : Type}.
  Variable L : ity.
  Variable wr : option (wrd W).     (* [None]: not weighted *)
  Variable order : nat.
  Variable m : mem.
  Variable e : nat.                 (* the (thread-local) end of the reader *)

  (** The loop of the counting pass over the labels, tensor.impl.hpp:65-72: the
      position, and whether the reader was always good. *)
  Fixpoint tcount_labels (k : nat) (d : nat) : res (nat * bool) :=
    match k with
    | O => Ok (d, true)
    | S k' =>
        d1 <- (if is_some wr then move_to_next_int m e d else '(_, d') <- read_int m L e d ;; Ok d') ;;
        if e <=? d1 then Ok (d1, false) else tcount_labels k' d1
    end.

  (** Counting an entry, tensor.impl.hpp:64-76. *)
  Definition tentry_count (d : nat) : res (nat * nat) :=
    '(d1, good) <- tcount_labels order d ;;
    if (good : bool) then d2 <- next_line m e d1 ;; Ok (d2, 1) else Ok (d1, 0).

  (** The loop of the setting pass over the labels, tensor.impl.hpp:83-87; [i] is
      the index of the next store. *)
  Fixpoint tset_labels (k : nat) (d i : nat) : res (nat * list (tinstr W) * bool) :=
    match k with
    | O => Ok (d, [], true)
    | S k' =>
        '(v, d1) <- read_int m L e d ;;
        if e <=? d1 then Ok (d1, [], false)
        else
          '(d2, code, good) <- tset_labels k' d1 (S i) ;;
          Ok (d2, SetC i v :: code, good)
    end.

  (** Setting an entry, tensor.impl.hpp:82-93: the position, the new
      [coord_pos], the stores. *)
  Definition tentry_set (d pos : nat) : res (nat * nat * list (tinstr W)) :=
    '(d1, code, good) <- tset_labels order d (pos * order) ;;
    if (good : bool) then
      '(d2, wcode) <- match wr with
                      | None => Ok (d1, [])
                      | Some w => '(v, d') <- w_read w m e d1 ;; Ok (d', [SetTW pos v])
                      end ;;
      d3 <- next_line m e d2 ;;
      Ok (d3, pos + 1, code ++ wcode)
    else Ok (d1, pos, code).

  (** Pass 1 of a thread, tensor.impl.hpp:163-167. *)
  Fixpoint tcount_loop (fuel : nat) (d ct : nat) : res nat :=
    match fuel with
    | O => Stuck
    | S fuel' =>
        if d <? e then '(d', c) <- tentry_count d ;; tcount_loop fuel' d' (ct + c) else Ok ct
    end.

  (** Pass 2 of a thread, tensor.impl.hpp:189-196: its stores, in order. *)
  Fixpoint tset_loop (fuel : nat) (d pos : nat) : res (list (tinstr W)) :=
    match fuel with
    | O => Stuck
    | S fuel' =>
        if d <? e then
          '(d', pos', code) <- tentry_set d pos ;;
          rest <- tset_loop fuel' d' pos' ;;
          Ok (code ++ rest)
        else Ok []
    end.
End Entry.

(** The order, tensor.impl.hpp:118-123, kept in the ordinal type. *)
Definition tensor_order (O : ity) (weighted : bool) (m : mem) (d0 e : nat) : res Z :=
  d1 <- move_to_first_int m e d0 ;;
  '(ct, _) <- count_spaces_to_eol m e d1 ;;
  let o := wrap O (Z.of_nat ct) in
  if weighted then Ok o else arith O (o + 1)%Z.

(** [Tensor::read_el_], tensor.impl.hpp:103-198.  The file is divided as for an
    edge list ([el_chunk], coo.impl.hpp:416-435 is the same code as
    tensor.impl.hpp:140-159).  A loop [for (O idx = 0; idx < order_; ++idx)] runs
    [order_] times if that is positive. *)
Definition tensor_read_el {W : Type} (L O : ity) (wr : option (wrd W))
    (m : mem) (d0 e : nat) (T : nat) (sched : list nat) : res (tensor W) :=
  order <- tensor_order O (is_some wr) m d0 e ;;
  let k := Z.to_nat order in
  chunks <- mapM (el_chunk m d0 e T) (seq 0 T) ;;
  counts <- mapM (fun c => tcount_loop L wr k m (snd c) (S (snd c - fst c)) (fst c) 0) chunks ;;
  let m_ := wrap O (Z.of_nat (sum_nat counts)) in
  '(c0, w0) <- tensor_alloc (W:=W) O (is_some wr) order m_ ;;
  ps <- mapM (fun cs => tset_loop L wr k m (snd (fst cs)) (S (snd (fst cs) - fst (fst cs))) (fst (fst cs)) (snd cs))
         (combine chunks (prefix_sums 0 counts)) ;;
  st <- run texec sched ps (mkTst c0 w0) ;;
  Ok (mkTensor (tc st) (tw st) order m_).

(** [Tensor::read_], tensor.impl.hpp:32-48. *)
Definition tensor_read {W : Type} (L O : ity) (wm : option (wmode W)) (f : rfile) (ft : ftype) (ch : lchoice)
  : res (tensor W * rfile) :=
  ftu <- used f ft ;;
  match ftu with
  | EDGE_LIST => with_reader (fun m d e => tensor_read_el L O (wtext wm) m d e (lc_T ch) (lc_el ch)) f
  | PIGO_TENSOR_BIN => tensor_read_bin L O (wbin wm) f (lc_b1 ch) (lc_b2 ch)
  | _ => Throw ENotYetImplemented
  end.
(** The constructor from a file name, tensor.impl.hpp:16-25. *)
Definition tensor_open {W : Type} (L O : ity) (wm : option (wmode W)) (pg : nat) (fn : list byte) (d : disk)
    (ft : ftype) (ch : lchoice) : res (tensor W) :=
  f <- open_read pg fn 0 d ;; '(c, _) <- tensor_read L O wm f ft ch ;; Ok c.
