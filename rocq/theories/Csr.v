(** * Csr: compressed sparse rows

    Model of [CSR] (include/pigo/csr.hpp, include/pigo/impl/csr.impl.hpp): the
    conversion from a COO, sorting, removing duplicates; of the conversion of
    a CSR to a COO (include/pigo/impl/coo.impl.hpp:60-129); of [BaseGraph],
    [DiGraph] (include/pigo/graph.hpp) and [Matrix] (include/pigo/matrix.hpp)
    built from a COO.

    Simplifications: the label and ordinal types of source and target are the
    same; [size_t] arithmetic does not overflow. *)

From Verif Require Import Base Sched Coo Ascii.

(** The observable contents of a CSR, include/pigo/csr.hpp:57-85. *)
Record csr (W : Type) := mkCsr {
  cs_off : list (option Z);
  cs_end : list (option Z);
  cs_w : list (option W);
  cs_n : Z;
  cs_m : Z;
  cs_nrows : option Z;      (* [None]: indeterminate *)
  cs_ncols : option Z
}.
Arguments mkCsr {W}.
Arguments cs_off {W}.
Arguments cs_end {W}.
Arguments cs_w {W}.
Arguments cs_n {W}.
Arguments cs_m {W}.
Arguments cs_nrows {W}.
Arguments cs_ncols {W}.

(** [n_+1] for a label [n_]: types narrower than [int] are promoted. *)
Definition plus1 (L : ity) (n : Z) : res Z :=
  if (ibits L <? 32)%Z then Ok (n + 1)%Z else arith L (n + 1)%Z.

(** [malloc] of [k] cells; a negative number converts to a huge [size_t]. *)
Definition alloc {V : Type} (k : Z) : res (list (option V)) :=
  if (k <? 0)%Z then Throw EError else Ok (fresh (Z.to_nat k)).

(** [allocate_()], csr.impl.hpp:69-74: endpoints, weights, offsets. *)
Definition csr_alloc {W : Type} (L : ity) (weighted : bool) (n m : Z)
  : res (list (option Z) * list (option W) * list (option Z)) :=
  e <- alloc m ;;
  w <- (if weighted then alloc m else Ok []) ;;
  n1 <- plus1 L n ;;
  o <- alloc n1 ;;
  Ok (e, w, o).

(** ** Stores into one array *)
Definition sexec {V : Type} (i : nat * V) (l : list (option V)) : res (list (option V)) :=
  aset (fst i) (snd i) l.

(** ** Counting degrees, csr.impl.hpp:171-176

    [#pragma omp atomic ++all_degs[d];] is one action. *)
Definition inc_exec (O : ity) (d : Z) (l : list Z) : res (list Z) :=
  if ((0 <=? d) && (d <? Z.of_nat (length l)))%Z then
    v <- arith O (nth (Z.to_nat d) l 0 + 1)%Z ;;
    Ok (upd (Z.to_nat d) v l)
  else UB.

(** The vertices of thread [t] of [T], csr.impl.hpp:159-160. *)
Definition vrange (n T t : nat) : list nat :=
  seq ((t * n) / T) (((t + 1) * n) / T - (t * n) / T).

(** Sums in type [O], csr.impl.hpp:182-190. *)
Fixpoint osum (O : ity) (acc : Z) (l : list Z) : res Z :=
  match l with
  | [] => Ok acc
  | d :: l' => a <- arith O (acc + d)%Z ;; osum O a l'
  end.

(** [single]: inclusive prefix sums of the threads' sums; thread [t] starts at
    the entry before its own, csr.impl.hpp:195-209.  The result is where each
    thread starts. *)
Fixpoint ostarts (O : ity) (acc : Z) (l : list Z) : res (list Z) :=
  match l with
  | [] => Ok []
  | d :: l' => a <- arith O (acc + d)%Z ;; r <- ostarts O a l' ;; Ok (acc :: r)
  end.

(** [offsets_[c] = cur_offset; cur_offset += label_degs[c];],
    csr.impl.hpp:212-215. *)
Fixpoint off_prog (O : ity) (degs : list (option Z)) (cs : list nat) (cur : Z) : res (list (nat * Z)) :=
  match cs with
  | [] => Ok []
  | c :: cs' =>
      d <- cell_of c degs ;;
      cur' <- arith O (cur + d)%Z ;;
      r <- off_prog O degs cs' cur' ;;
      Ok ((c, cur) :: r)
  end.

(** [#pragma omp single], which has no barrier at its start: the thread that
    executes it ([k]) performs the store after its own. *)
Fixpoint add_to {A : Type} (k : nat) (i : A) (ps : list (list A)) : list (list A) :=
  match ps, k with
  | [], _ => []
  | p :: ps', O => (p ++ [i]) :: ps'
  | p :: ps', S k' => p :: add_to k' i ps'
  end.

(** The offsets of all rows from their degrees, csr.impl.hpp:182-223 (and the
    same code at 646-683 for [new_csr_without_dups]).  Thread [t]'s reads of
    [all_degs] are separated by barriers from the writes. *)
Definition offsets_of (O : ity) (n T k : nat) (m : Z) (all_degs : list Z) (sched : list nat)
    (off0 : list (option Z)) : res (list (option Z)) :=
  let degs := map Some all_degs in
  sums <- mapM (fun t => ds <- mapM (fun c => cell_of c degs) (vrange n T t) ;; osum O 0 ds) (seq 0 T) ;;
  starts <- ostarts O 0 sums ;;
  ps <- mapM (fun q => off_prog O degs (vrange n T (fst q)) (snd q)) (combine (seq 0 T) starts) ;;
  run sexec sched (add_to k (n, m) ps) off0.

(** ** Scattering the endpoints, csr.impl.hpp:231-245

    Per iteration: the atomic capture-and-decrement of the remaining degree of
    the source into a local variable, then the store of the endpoint, then the
    store of the weight. *)
Record scst (W : Type) := mkSc {
  sc_rem : list (option Z);     (* label_degs *)
  sc_reg : list (option Z);     (* this_offset_pos of each iteration *)
  sc_end : list (option Z);
  sc_w : list (option W)
}.
Arguments mkSc {W}.
Arguments sc_rem {W}.
Arguments sc_reg {W}.
Arguments sc_end {W}.
Arguments sc_w {W}.

Inductive sinstr := Capture (e : nat) | StoreEnd (e : nat) | StoreW (e : nat).

Section Scatter.
  Context {W : Type}.
  Variable O : ity.
  Variable c : coo W.
  Variable off : list (option Z).

  (** A label used as an index. *)
  Definition idx (v : Z) : res nat := if (v <? 0)%Z then UB else Ok (Z.to_nat v).

  (** [this_offset = offsets_[src+1] - this_offset_pos], csr.impl.hpp:242. *)
  Definition slot (s : scst W) (e : nat) : res nat :=
    x <- cell_of e (co_x c) ;; i <- idx x ;;
    r <- cell_of e (sc_reg s) ;;
    o <- cell_of (S i) off ;;
    p <- arith O (o - r)%Z ;;
    idx p.

  Definition scexec (i : sinstr) (s : scst W) : res (scst W) :=
    match i with
    | Capture e =>
        x <- cell_of e (co_x c) ;; i <- idx x ;;
        r <- cell_of i (sc_rem s) ;;
        r' <- arith O (r - 1)%Z ;;
        rem' <- aset i r' (sc_rem s) ;;
        reg' <- aset e r (sc_reg s) ;;
        Ok (mkSc rem' reg' (sc_end s) (sc_w s))
    | StoreEnd e =>
        y <- cell_of e (co_y c) ;; p <- slot s e ;;
        e' <- aset p y (sc_end s) ;;
        Ok (mkSc (sc_rem s) (sc_reg s) e' (sc_w s))
    | StoreW e =>
        v <- cell_of e (co_w c) ;; p <- slot s e ;;
        w' <- aset p v (sc_w s) ;;
        Ok (mkSc (sc_rem s) (sc_reg s) (sc_end s) w')
    end.

  Definition scatter_prog (weighted : bool) (es : list nat) : list sinstr :=
    flat_map (fun e => [Capture e; StoreEnd e] ++ if weighted then [StoreW e] else []) es.
End Scatter.

(** The choices of the run time system in [convert_coo_]: the team size, which
    thread runs the [single] block, the distribution of the iterations of the
    two loops over the entries, and the interleavings of the three parallel
    phases. *)
Record cchoice := mkChoice {
  ch_T : nat;
  ch_single : nat;
  ch_parts1 : list (list nat);
  ch_parts2 : list (list nat);
  ch_s1 : list nat;
  ch_s2 : list nat;
  ch_s3 : list nat
}.

(** [convert_coo_], csr.impl.hpp:106-254. *)
Definition convert_coo {W : Type} (L O : ity) (weighted : bool) (c : coo W) (ch : cchoice) : res (csr W) :=
  match co_n c with
  | None => UB
  | Some n =>
      let m := co_m c in
      '(ends, ws, offs) <- csr_alloc L weighted n m ;;
      if (n <? 0)%Z then Throw EError      (* new O[n_] *)
      else
        let n' := Z.to_nat n in
        incs <- mapM (fun p => mapM (fun e => cell_of e (co_x c)) p) (ch_parts1 ch) ;;
        all_degs <- run (inc_exec O) (ch_s1 ch) incs (repeat 0%Z n') ;;
        off <- offsets_of O n' (ch_T ch) (ch_single ch) m all_degs (ch_s2 ch) offs ;;
        st <- run (scexec O c off) (ch_s3 ch) (map (scatter_prog weighted) (ch_parts2 ch))
                (mkSc (map Some all_degs) (fresh (Z.to_nat m)) ends ws) ;;
        Ok (mkCsr off (sc_end st) (sc_w st) n m (co_nrows c) (co_ncols c))
  end.

(** ** CSR to COO, coo.impl.hpp:66-129 *)

(** The stores for one endpoint [y] of row [v] with weight [w] at [coo_cur],
    coo.impl.hpp:105-127; [dup] is [sym && !ut]. *)
Definition csr_entry {W : Type} (fl : flags) (w : option W) (v y : Z) (pos : nat) : list (cinstr W) :=
  let sw (p : nat) := match w with None => [] | Some a => [SetW p a] end in
  if f_sym fl && negb (f_ut fl) then
    [SetX pos y; SetY pos v] ++ sw pos ++ [SetX (pos + 1) v; SetY (pos + 1) y] ++ sw (pos + 1)
  else if f_sym fl && f_ut fl && (y <? v)%Z then
    [SetX pos y; SetY pos v] ++ sw pos
  else [SetX pos v; SetY pos y] ++ sw pos.

(** The loop over the endpoints [k .. k + len - 1] of row [v],
    coo.impl.hpp:105-127. *)
Fixpoint csr_row_loop {W : Type} (fl : flags) (weighted : bool) (c : csr W) (v : Z) (len k pos : nat)
  : res (list (cinstr W)) :=
  match len with
  | O => Ok []
  | S len' =>
      y <- cell_of k (cs_end c) ;;
      w <- (if weighted then a <- cell_of k (cs_w c) ;; Ok (Some a) else Ok None) ;;
      r <- csr_row_loop fl weighted c v len' (S k) (pos + if f_sym fl && negb (f_ut fl) then 2 else 1) ;;
      Ok (csr_entry fl w v y pos ++ r)
  end.

(** One iteration of the parallel loop, coo.impl.hpp:92-128.  The pointers
    [endpoints + offsets[v]] and [endpoints + offsets[v+1]] are indices here. *)
Definition csr_row {W : Type} (fl : flags) (weighted : bool) (c : csr W) (v : nat) : res (list (cinstr W)) :=
  s <- cell_of v (cs_off c) ;;
  e <- cell_of (S v) (cs_off c) ;;
  k <- idx s ;;
  csr_row_loop fl weighted c (Z.of_nat v) (Z.to_nat (e - s)) k
    (if f_sym fl && negb (f_ut fl) then 2 * k else k).

(** The stores of the threads: thread [t] runs the rows [nth t parts]. *)
Definition csr_progs {W : Type} (fl : flags) (weighted : bool) (c : csr W) (parts : list (list nat))
  : res (list (list (cinstr W))) :=
  mapM (fun p => codes <- mapM (csr_row fl weighted c) p ;; Ok (concat codes)) parts.

(** [convert_csr_], coo.impl.hpp:66-129.  [parts] distributes the rows among the
    threads ([schedule(dynamic, 10240)]).  [nrows_] and [ncols_] are not
    assigned. *)
Definition convert_csr {W : Type} (O : ity) (fl : flags) (weighted : bool) (c : csr W)
    (parts : list (list nat)) (sched : list nat) : res (coo W) :=
  m' <- (if f_sym fl && negb (f_ut fl) then arith O (cs_m c * 2)%Z
         else if negb (f_sym fl) && f_ut fl then Throw ENotYetImplemented
         else Ok (cs_m c)) ;;
  if f_sl fl then Throw ENotYetImplemented
  else
    st0 <- coo_alloc weighted m' ;;
    ps <- csr_progs fl weighted c parts ;;
    st <- run cexec sched ps st0 ;;
    Ok (mkCoo (cx st) (cy st) (cw st) (Some (cs_n c)) None None m').

(** ** Sorting, csr.impl.hpp:530-569

    [std::sort] is a parameter: [srt] for the pairs of a weighted CSR, [srt1]
    for the labels of an unweighted one.  Simplification: the sort of one row is
    one action (it accesses no cell outside the row). *)
Section Sort.
  Context {W : Type}.
  Variable srt : list (Z * W) -> list (Z * W).
  Variable srt1 : list Z -> list Z.
  Variable weighted : bool.

  (** The cells [s .. s + len - 1]. *)
  Definition get_range {V : Type} (s len : nat) (l : list (option V)) : res (list V) :=
    mapM (fun k => cell_of k l) (seq s len).

  (** Storing a list from [s] on. *)
  Fixpoint set_range {V : Type} (s : nat) (vs : list V) (l : list (option V)) : res (list (option V)) :=
    match vs with
    | [] => Ok l
    | v :: vs' => l' <- aset s v l ;; set_range (S s) vs' l'
    end.

  (** The range of row [v]: its first index and length. *)
  Definition row_range (off : list (option Z)) (v : nat) : res (nat * nat) :=
    s <- cell_of v off ;;
    e <- cell_of (S v) off ;;
    k <- idx s ;;
    Ok (k, Z.to_nat (e - s)).

  Definition sort_exec (off : list (option Z)) (v : nat) (st : list (option Z) * list (option W))
    : res (list (option Z) * list (option W)) :=
    '(k, len) <- row_range off v ;;
    ys <- get_range k len (fst st) ;;
    if weighted then
      ws <- get_range k len (snd st) ;;
      let vec := srt (combine ys ws) in
      es' <- set_range k (map fst vec) (fst st) ;;
      ws' <- set_range k (map snd vec) (snd st) ;;
      Ok (es', ws')
    else
      es' <- set_range k (srt1 ys) (fst st) ;;
      Ok (es', snd st).

  Definition csr_sort (c : csr W) (parts : list (list nat)) (sched : list nat) : res (csr W) :=
    st <- run (sort_exec (cs_off c)) sched parts (cs_end c, cs_w c) ;;
    Ok (mkCsr (cs_off c) (fst st) (snd st) (cs_n c) (cs_m c) (cs_nrows c) (cs_ncols c)).

  (** ** Removing duplicates, csr.impl.hpp:571-718 *)

  (** The degree without duplicates of a row, csr.impl.hpp:586-605, counted in
      type [L]. *)
  Fixpoint count_runs (L : ity) (prev deg : Z) (ys : list Z) : res Z :=
    match ys with
    | [] => Ok deg
    | y :: ys' =>
        if (y =? prev)%Z then count_runs L prev deg ys'
        else d <- arith L (deg + 1)%Z ;; count_runs L y d ys'
    end.

  Definition row_deg (L : ity) (c : csr W) (v : nat) : res Z :=
    s <- cell_of v (cs_off c) ;;
    e <- cell_of (S v) (cs_off c) ;;
    if (e - s =? 0)%Z then Ok 0%Z
    else if (e <? s)%Z then UB      (* [while (start != end)] leaves the array *)
    else
      k <- idx s ;;
      ys <- get_range k (Z.to_nat (e - s)) (cs_end c) ;;
      match ys with
      | [] => UB
      | y :: ys' => count_runs L y 1 ys'
      end.

  (** The stores into the new arrays. *)
  Inductive rinstr := REnd (i : nat) (v : Z) | RWgt (i : nat) (v : W).
  Definition rexec (i : rinstr) (s : list (option Z) * list (option W)) : res (list (option Z) * list (option W)) :=
    match i with
    | REnd i v => e' <- aset i v (fst s) ;; Ok (e', snd s)
    | RWgt i v => w' <- aset i v (snd s) ;; Ok (fst s, w')
    end.

  (** Copying the entries of a row that start a run, csr.impl.hpp:691-714.
      [p = None]: no previous value yet. *)
  Fixpoint copy_runs (c : csr W) (p : option Z) (len k cur : nat) : res (list rinstr) :=
    match len with
    | O => Ok []
    | S len' =>
        y <- cell_of k (cs_end c) ;;
        if (match p with None => false | Some q => (q =? y)%Z end) then copy_runs c p len' (S k) cur
        else
          code <- (if weighted then a <- cell_of k (cs_w c) ;; Ok [REnd cur y; RWgt cur a]
                   else Ok [REnd cur y]) ;;
          r <- copy_runs c (Some y) len' (S k) (S cur) ;;
          Ok (code ++ r)
    end.

  Definition copy_row (c : csr W) (newoff : list (option Z)) (v : nat) : res (list rinstr) :=
    s <- cell_of v (cs_off c) ;;
    e <- cell_of (S v) (cs_off c) ;;
    if (e - s =? 0)%Z then Ok []
    else if (e <? s)%Z then UB
    else
      k <- idx s ;;
      o <- cell_of v newoff ;;
      cur <- idx o ;;
      copy_runs c None (Z.to_nat (e - s)) k cur.

  (** The choices of the run time system: for [sort], for the prefix sums, for
      the copies.  (The counting loop stores to [degs[v]] only.) *)
  Record dchoice := mkDChoice {
    dc_sort : list (list nat); dc_ssort : list nat;
    dc_T : nat; dc_single : nat; dc_soff : list nat;
    dc_copy : list (list nat); dc_scopy : list nat
  }.

  (** [new_csr_without_dups]: the sorted original and the new CSR.
      Simplification: [reduction(+ : new_m)] adds the degrees in row order (the
      order is irrelevant unless the sum overflows); the target types are those
      of the source. *)
  Definition without_dups (L O : ity) (c0 : csr W) (ch : dchoice) : res (csr W * csr W) :=
    c <- csr_sort c0 (dc_sort ch) (dc_ssort ch) ;;
    if (cs_n c <? 0)%Z then Throw EError
    else
      let n := Z.to_nat (cs_n c) in
      degs <- mapM (row_deg L c) (seq 0 n) ;;
      new_m <- osum O 0 degs ;;
      '(ends, ws, offs) <- csr_alloc L weighted (cs_n c) new_m ;;
      off <- offsets_of O n (dc_T ch) (dc_single ch) new_m (map (wrap O) degs) (dc_soff ch) offs ;;
      ps <- mapM (fun p => codes <- mapM (copy_row c off) p ;; Ok (concat codes)) (dc_copy ch) ;;
      st <- run rexec (dc_scopy ch) ps (ends, ws) ;;
      Ok (c, mkCsr off (fst st) (snd st) (cs_n c) new_m (cs_nrows c) (cs_ncols c)).
End Sort.

(** ** Graph queries, include/pigo/graph.hpp:113-141 and graph.impl.hpp:83-94 *)
Definition neighbor_start {W : Type} (c : csr W) (v : nat) : res Z := cell_of v (cs_off c).
Definition neighbor_end {W : Type} (c : csr W) (v : nat) : res Z := cell_of (S v) (cs_off c).
Definition degree {W : Type} (O : ity) (c : csr W) (v : nat) : res Z :=
  e <- neighbor_end c v ;; s <- neighbor_start c v ;; arith O (e - s)%Z.

(** [for (auto& u : g.neighbors(v))]: positions from [neighbor_start(v)] until
    [pos != neighbor_end(v)] fails, include/pigo/graph.hpp:21-71. *)
Fixpoint edge_iter {W : Type} (fuel : nat) (c : csr W) (pos last : Z) : res (list Z) :=
  match fuel with
  | O => Stuck
  | S fuel' =>
      if (pos =? last)%Z then Ok []
      else
        k <- idx pos ;;
        y <- cell_of k (cs_end c) ;;
        r <- edge_iter fuel' c (pos + 1)%Z last ;;
        Ok (y :: r)
  end.
Definition neighbors {W : Type} (c : csr W) (v : nat) : res (list Z) :=
  s <- neighbor_start c v ;;
  e <- neighbor_end c v ;;
  edge_iter (S (length (cs_end c))) c s e.

(** ** Transposing, include/pigo/coo.hpp:337-340 *)
Definition coo_transpose {W : Type} (c : coo W) : coo W :=
  mkCoo (co_y c) (co_x c) (co_w c) (co_n c) (co_nrows c) (co_ncols c) (co_m c).

(** ** [DiGraph] and [Matrix] from a COO

    include/pigo/graph.hpp:208-237 ([in_], [out_]) and
    include/pigo/matrix.hpp:127-156 ([csc_], [csr_]): the same code with other
    names.  The copy of the COO is deep (see [Own.v]). *)
Definition digraph_of_coo {W : Type} (L O : ity) (weighted : bool) (c : coo W) (ch1 ch2 : cchoice)
  : res (csr W * csr W) :=
  i <- convert_coo L O weighted (coo_transpose c) ch1 ;;
  o <- convert_coo L O weighted c ch2 ;;
  Ok (i, o).
