(** * Graph: the adjacency ([GRAPH], METIS-like) reader

    Model of [CSR::read_graph_], include/pigo/impl/csr.impl.hpp:255-424. *)

From Verif Require Import Base Reader Sched Coo Csr.

(** Thread [t] of [T]: where it starts and its thread-local end,
    csr.impl.hpp:297-313. *)
Definition gr_chunk (m : mem) (d0 e : nat) (T t : nat) : res (nat * nat) :=
  let size := e - d0 in
  let ps := advance e d0 ((t * size) / T) in
  let pe := advance e d0 (((t + 1) * size) / T) in
  re <- move_to_next_int m e pe ;;
  rs <- (if t =? 0 then move_to_first_int m e ps else move_to_next_int m e ps) ;;
  Ok (rs, smaller_end e re).

(** Pass 1 of a thread, csr.impl.hpp:315-330: newlines, integers, and whether
    one of the integers is the single digit 0. *)
Fixpoint gr_count (m : mem) (e : nat) (fuel : nat) (d nls ints : nat) (hz : bool) : res (nat * nat * bool) :=
  match fuel with
  | O => Stuck
  | S fuel' =>
      if d <? e then
        nl <- at_nl_or_eol m e d ;;
        z <- at_zero m e d ;;
        d' <- move_to_next_int_or_nl m e d ;;
        gr_count m e fuel' d' (if nl : bool then S nls else nls) (if nl : bool then ints else S ints) (hz || z)
      else Ok (nls, ints, hz)
  end.

(** ** [std::vector<bool> have_zeros]

    [have_zeros[tid] = true], csr.impl.hpp:331-333, executed concurrently by
    every thread that has seen a zero.  The elements are bits packed in 64-bit
    words and setting one is a read of the word followed by a write: different
    threads' updates of a word may be lost.  A word is the list of its set
    bits. *)
Record hzst := mkHz { hz_words : list (list nat); hz_regs : list (list nat) }.
Inductive hzinstr := HzLoad (t : nat) | HzStore (t : nat).
Definition hzexec (i : hzinstr) (s : hzst) : res hzst :=
  match i with
  | HzLoad t => Ok (mkHz (hz_words s) (upd t (nth (t / 64) (hz_words s) []) (hz_regs s)))
  | HzStore t => Ok (mkHz (upd (t / 64) (t :: nth t (hz_regs s) []) (hz_words s)) (hz_regs s))
  end.
Definition hz_prog (tz : nat * bool) : list hzinstr :=
  if snd tz then [HzLoad (fst tz); HzStore (fst tz)] else [].
Definition hz_bit (s : hzst) (t : nat) : bool := existsb (Nat.eqb t) (nth (t / 64) (hz_words s) []).

(** The flags and their combination, csr.impl.hpp:331-348. *)
Definition found_zero (hzs : list bool) (sched : list nat) : res bool :=
  let T := length hzs in
  s <- run hzexec sched (map hz_prog (combine (seq 0 T) hzs)) (mkHz (repeat [] (S (T / 64))) (repeat [] T)) ;;
  Ok (existsb (hz_bit s) (seq 0 T)).

(** ** Pass 2 *)
Record gst := mkGst { g_off : list (option Z); g_end : list (option Z) }.
Inductive ginstr := SetOff (i v : Z) | SetEnd (i v : Z).

(** A store at an index of an integer type, converted to [size_t]; the value is
    converted to the element type [OS] of the offsets' storage, which need not
    be the ordinal type. *)
Definition zset (i v : Z) (l : list (option Z)) : res (list (option Z)) :=
  if (i <? 0)%Z then UB else aset (Z.to_nat i) v l.
Definition gexec (OS : ity) (i : ginstr) (s : gst) : res gst :=
  match i with
  | SetOff k v => o <- zset k (wrap OS v) (g_off s) ;; Ok (mkGst o (g_end s))
  | SetEnd k v => a <- zset k v (g_end s) ;; Ok (mkGst (g_off s) a)
  end.

(** The loop of a thread, csr.impl.hpp:391-409: its stores in order and its
    largest label. *)
Fixpoint gr_set (L O : ity) (n : Z) (m : mem) (e : nat) (fuel : nat) (d : nat) (opos epos mx : Z)
  : res (list ginstr * Z) :=
  match fuel with
  | O => Stuck
  | S fuel' =>
      if d <? e then
        if (n <=? opos)%Z then Ok ([], mx)
        else
          nl <- at_nl_or_eol m e d ;;
          if (nl : bool) then
            opos' <- arith L (opos + 1)%Z ;;
            d' <- move_to_next_int_or_nl m e d ;;
            '(c, mx') <- gr_set L O n m e fuel' d' opos' epos mx ;;
            Ok (SetOff opos' epos :: c, mx')
          else
            '(v, d1) <- read_int m L e d ;;
            epos' <- arith O (epos + 1)%Z ;;
            nl2 <- at_nl_or_eol m e d1 ;;
            d' <- (if (nl2 : bool) then Ok d1 else move_to_next_int_or_nl m e d1) ;;
            '(c, mx') <- gr_set L O n m e fuel' d' opos epos' (if (mx <? v)%Z then v else mx) ;;
            Ok (SetEnd epos v :: c, mx')
      else Ok ([], mx)
  end.

(** Scheduling choices: the interleaving of the updates of [have_zeros] and of
    the stores of pass 2. *)
Record gchoice := mkGchoice { gc_T : nat; gc_hz : list nat; gc_set : list nat }.

(** [2*read_m], computed in the promoted ordinal type, csr.impl.hpp:413. *)
Definition twice (O : ity) (z : Z) : res Z :=
  if (ibits O <? 32)%Z then Ok (2 * z)%Z else arith O (2 * z)%Z.

(** [read_graph_], csr.impl.hpp:255-424, on a reader at [d0] with end [e].  The
    reader is only available without weights (csr.impl.hpp:61-64).  [OS] is the
    element type of the storage of the offsets. *)
Definition read_graph {W : Type} (L O OS : ity) (m : mem) (d0 e : nat) (ch : gchoice) : res (csr W) :=
  let T := gc_T ch in
  d1 <- move_to_first_int m e d0 ;;
  '(read_n, d2) <- read_int m L e d1 ;;
  d3 <- move_to_next_int m e d2 ;;
  '(read_m, d4) <- read_int m O e d3 ;;
  d5 <- move_to_eol m e d4 ;;
  d6 <- move_to_next_int m e d5 ;;
  chunks <- mapM (gr_chunk m d6 e T) (seq 0 T) ;;
  p1 <- mapM (fun c => gr_count m (snd c) (S (snd c - fst c)) (fst c) 0 0 false) chunks ;;
  hz <- found_zero (map snd p1) (gc_hz ch) ;;
  let base := if (hz : bool) then 0 else 1 in
  let nls := map (fun r => fst (fst r)) p1 in
  let ints := map (fun r => snd (fst r)) p1 in
  let m_ := wrap O (Z.of_nat (sum_nat ints)) in
  let n_ := wrap L (Z.of_nat (base + sum_nat nls)) in
  '(en, w, off) <- csr_alloc (W:=W) L false n_ m_ ;;
  off <- zset 0 0 off ;;
  off <- (if hz : bool then Ok off else zset 1 0 off) ;;
  off <- zset n_ (wrap OS m_) off ;;
  p2 <- mapM (fun q => let '(c, (o, i)) := q in
                gr_set L O n_ m (snd c) (S (snd c - fst c)) (fst c) (wrap L (Z.of_nat o)) (wrap O (Z.of_nat i)) 0)
          (combine chunks (combine (prefix_sums base nls) (prefix_sums 0 ints))) ;;
  s <- run (gexec OS) (gc_set ch) (map fst p2) (mkGst off en) ;;
  m2 <- twice O read_m ;;
  if negb (m_ =? m2)%Z && negb (m_ =? read_m)%Z then Throw EError else
  if (n_ <? read_n)%Z then Throw EError else
  ncols <- arith L (fold_left Z.max (map snd p2) 0 + 1)%Z ;;
  Ok (mkCsr (g_off s) (g_end s) w read_n m_ (Some n_) (Some ncols)).
