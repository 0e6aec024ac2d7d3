(** * GraphFine: the adjacency reader with its memory accesses

    The two barrier intervals of csr.impl.hpp:289-411 in which threads store to
    shared arrays: the updates of [have_zeros] (331-333) and pass 2 (391-409).
    In between the threads write [nl_offsets[tid]] and [int_offsets[tid]]
    (350-353) and a single thread does the rest. *)

From Verif Require Import Base Reader Sched Coo Csr Graph SpecRace Race CsrFine.

(** [have_zeros[t] = true]: the bit is in word [t / 64]. *)
Definition hz_acc (_ : nat) (i : hzinstr) (_ : hzst) : list (access nat) :=
  match i with HzLoad t => [((t / 64), Read)] | HzStore t => [((t / 64), Write)] end.
Definition hz_interval (hzs : list bool) (sched : list nat) : res (hzst * log nat) :=
  let T := length hzs in
  interval (fun _ => hzexec) hz_acc sched (map hz_prog (combine (seq 0 T) hzs)) (mkHz (repeat [] (S (T / 64))) (repeat [] T)).

Definition gacc (_ : nat) (i : ginstr) (_ : gst) : list (access floc) :=
  match i with SetOff k _ => [wr Offsets (Z.to_nat k)] | SetEnd k _ => [wr Endpoints (Z.to_nat k)] end.

(** [read_graph] (Graph.v) with the logs of the two intervals. *)
Definition read_graph_fine {W : Type} (L O OS : ity) (m : mem) (d0 e : nat) (ch : gchoice) : res (csr W * log nat * log floc) :=
  let T := gc_T ch in
  d1 <- move_to_first_int m e d0 ;;
  '(read_n, d2) <- read_int m L e d1 ;;
  d3 <- move_to_next_int m e d2 ;;
  '(read_m, d4) <- read_int m O e d3 ;;
  d5 <- move_to_eol m e d4 ;;
  d6 <- move_to_next_int m e d5 ;;
  chunks <- mapM (gr_chunk m d6 e T) (seq 0 T) ;;
  p1 <- mapM (fun c => gr_count m (snd c) (S (snd c - fst c)) (fst c) 0 0 false) chunks ;;
  '(hs, l1) <- hz_interval (map snd p1) (gc_hz ch) ;;
  let hz := existsb (hz_bit hs) (seq 0 (length (map snd p1))) in
  let base := if (hz : bool) then 0 else 1 in
  let nls := map (fun r => fst (fst r)) p1 in
  let ints := map (fun r => snd (fst r)) p1 in
  let m_ := wrap O (Z.of_nat (sum_nat ints)) in
  let n_ := wrap L (Z.of_nat (base + sum_nat nls)) in
  '(en, w, off) <- csr_alloc (W:=W) L false n_ m_ ;;
  off <- zset 0 0 off ;;
  off <- (if hz : bool then Ok off else zset 1 0 off) ;;
  off <- zset n_ (wrap OS m_) off ;;
  p2 <- mapM (fun q => let '(c, (o, i)) := q in
                gr_set L O n_ m (snd c) (S (snd c - fst c)) (fst c) (wrap L (Z.of_nat o)) (wrap O (Z.of_nat i)) 0)
          (combine chunks (combine (prefix_sums base nls) (prefix_sums 0 ints))) ;;
  '(s, l2) <- interval (fun _ => gexec OS) gacc (gc_set ch) (map fst p2) (mkGst off en) ;;
  m2 <- twice O read_m ;;
  if negb (m_ =? m2)%Z && negb (m_ =? read_m)%Z then Throw EError else
  if (n_ <? read_n)%Z then Throw EError else
  ncols <- arith L (fold_left Z.max (map snd p2) 0 + 1)%Z ;;
  Ok (mkCsr (g_off s) (g_end s) w read_n m_ (Some n_) (Some ncols), l1, l2).
