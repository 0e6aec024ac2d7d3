(** * Coo: reading a COO from text

    Model of the edge-list reader, include/pigo/impl/coo.impl.hpp:138-481,
    and of the Matrix Market reader, coo.impl.hpp:326-381. *)

From Verif Require Import Base Reader Sched.

(** The template flags of [COO] (include/pigo/coo.hpp:63-73):
    [symmetric], [keep_upper_triangle_only], [remove_self_loops]. *)
Record flags := mkFlags { f_sym : bool; f_ut : bool; f_sl : bool }.
Definition no_flags := mkFlags false false false.

(** ** Weights

    [read_wgt_i_], coo.impl.hpp:138-224: for a weighted COO, how the counting
    pass moves over a weight and how the setting pass reads one.  The value is
    stored with [set_value_(ws, coord_pos, val)] by the caller below. *)
Record wrd (W : Type) := mkWrd {
  w_count : mem -> nat -> nat -> res nat;
  w_read : mem -> nat -> nat -> res (W * nat)
}.
Arguments w_count {W}.
Arguments w_read {W}.

(** Unsigned integral weights, coo.impl.hpp:150-156 and 170-179. *)
Definition wr_unsigned (t : ity) : wrd Z :=
  mkWrd Z move_to_next_int
    (fun m e d => d1 <- move_to_next_int m e d ;; read_int m t e d1).

(** Signed integral weights, coo.impl.hpp:142-148 and 158-168. *)
Definition wr_signed (t : ity) : wrd Z :=
  mkWrd Z move_to_next_signed_int
    (fun m e d =>
       d1 <- move_to_next_signed_int m e d ;;
       sign <- read_sign m d1 ;;
       '(v, d2) <- read_int m t e d1 ;;
       val <- arith t (v * sign)%Z ;;
       Ok (val, d2)).

(** Floating-point arithmetic is a parameter: the operations [read_fp] applies,
    pigo.impl.hpp:326-367.  Simplification: what each of them computes (IEEE
    rounding, [std::pow]) is left to the instance. *)
Record fpops := mkFp {
  fpT : Type;
  fp_zero : fpT;                       (* 0.0,                         :329, 349 *)
  fp_dig : fpT -> Z -> fpT;            (* r*10. + (T)digit,            :344, 353 *)
  fp_frac : fpT -> fpT -> nat -> fpT;  (* r + fraction / pow(10., ct), :357 *)
  fp_exp : fpT -> fpT -> fpT;          (* r * pow(10., exp),           :362 *)
  fp_opp : fpT -> fpT                  (* r * -1,                      :365 *)
}.

(** [while (d < end && digit) { r = r*10. + digit; ++d; ++count; }],
    pigo.impl.hpp:343-346 and 352-356. *)
Fixpoint fp_digits_ (F : fpops) (m : mem) (n d : nat) (acc : fpT F) (ct : nat)
  : res (fpT F * nat * nat) :=
  match n with
  | O => Ok (acc, ct, d)
  | S n' =>
      c <- load m d ;;
      if is_digit c then fp_digits_ F m n' (S d) (fp_dig F acc (c - ch_0)%Z) (S ct)
      else Ok (acc, ct, d)
  end.

(** [FileReader::read_fp<T>], pigo.impl.hpp:326-367.  The loads at 334, 337, 347
    and 359 are not guarded by [d < end]. *)
Fixpoint read_fp_ (F : fpops) (m : mem) (e : nat) (fuel : nat) (d : nat)
  : res (fpT F * nat) :=
  match fuel with
  | O => Stuck
  | S fuel' =>
      d1 <- scan m (fun c => negb (is_fp c)) e d ;;
      c1 <- load m d1 ;;
      let neg := (c1 =? ch_minus)%Z in
      let d2 := if (neg || (c1 =? ch_plus)%Z) then S d1 else d1 in
      '(r1, _, d3) <- fp_digits_ F m (e - d2) d2 (fp_zero F) 0 ;;
      c3 <- load m d3 ;;
      '(r2, d4) <-
        (if (c3 =? ch_dot)%Z then
           '(fr, ct, d') <- fp_digits_ F m (e - S d3) (S d3) (fp_zero F) 0 ;;
           Ok (fp_frac F r1 fr ct, d')
         else Ok (r1, d3)) ;;
      c4 <- load m d4 ;;
      '(r3, d5) <-
        (if ((c4 =? ch_e) || (c4 =? ch_E))%Z then
           '(ex, d') <- read_fp_ F m e fuel' (S d4) ;;
           Ok (fp_exp F r2 ex, d')
         else Ok (r2, d4)) ;;
      Ok (if neg then fp_opp F r3 else r3, d5)
  end.
Definition read_fp (F : fpops) (m : mem) (e d : nat) : res (fpT F * nat) :=
  read_fp_ F m e (S (S (e - d))) d.

(** Floating-point weights, coo.impl.hpp:181-200. *)
Definition wr_float (F : fpops) : wrd (fpT F) :=
  mkWrd (fpT F)
    (fun m e d => d1 <- move_to_fp m e d ;; move_to_non_fp m e d1)
    (fun m e d =>
       d1 <- move_to_fp m e d ;;
       '(v, d2) <- read_fp F m e d1 ;;
       d3 <- move_to_non_fp m e d2 ;;
       Ok (v, d3)).

(** ** The shared arrays and the stores of the setting pass *)
Record cst (W : Type) := mkCst {
  cx : list (option Z);
  cy : list (option Z);
  cw : list (option W)
}.
Arguments mkCst {W}.
Arguments cx {W}.
Arguments cy {W}.
Arguments cw {W}.

Inductive cinstr (W : Type) :=
| SetX (i : nat) (v : Z)
| SetY (i : nat) (v : Z)
| SetW (i : nat) (v : W)
| CopyW (src dst : nat).   (* w = get_value_(w_, src); set_value_(w_, dst, w) *)
Arguments SetX {W}.
Arguments SetY {W}.
Arguments SetW {W}.
Arguments CopyW {W}.

Definition cexec {W : Type} (i : cinstr W) (s : cst W) : res (cst W) :=
  match i with
  | SetX i v => x' <- aset i v (cx s) ;; Ok (mkCst x' (cy s) (cw s))
  | SetY i v => y' <- aset i v (cy s) ;; Ok (mkCst (cx s) y' (cw s))
  | SetW i v => w' <- aset i v (cw s) ;; Ok (mkCst (cx s) (cy s) w')
  | CopyW a b =>
      c <- aget a (cw s) ;;
      if b <? length (cw s) then Ok (mkCst (cx s) (cy s) (upd b c (cw s))) else UB
  end.

(** ** One entry *)
Section Entry.
  Context {W : Type}.
  Variable L : ity.                 (* Label *)
  Variable wr : option (wrd W).     (* [None]: not weighted *)
  Variable fl : flags.
  Variable m : mem.
  Variable e : nat.                 (* the (thread-local) end of the reader *)

  (** [r.move_to_eol(); r.move_to_next_int();], coo.impl.hpp:238-239. *)
  Definition next_line (d : nat) : res nat :=
    d1 <- move_to_eol m e d ;; move_to_next_int m e d1.

  (** Reading the two labels, coo.impl.hpp:233-235, 255-257, 303-305. *)
  Definition read_xy (d : nat) : res (Z * Z * nat) :=
    '(x, d1) <- read_int m L e d ;;
    d2 <- move_to_next_int m e d1 ;;
    '(y, d3) <- read_int m L e d2 ;;
    Ok (x, y, d3).

  (** Is the entry dropped by the flags, coo.impl.hpp:240-245, 262-267. *)
  Definition dropped (x y : Z) : bool :=
    (f_sl fl && (x =? y)%Z) || (negb (f_sym fl) && f_ut fl && (y <? x)%Z).

  Definition doubled (x y : Z) : bool :=
    f_sym fl && negb (f_ut fl) && negb (x =? y)%Z.

  (** Counting an entry with some flag set, coo.impl.hpp:229-249.  Returns the
      reader position and the amount added to [coord_pos].  A dropped entry
      recurses to the next one. *)
  Fixpoint entry_count_flags (fuel : nat) (d : nat) : res (nat * nat) :=
    match fuel with
    | O => Stuck
    | S fuel' =>
        '(x, y, d1) <- read_xy d ;;
        d2 <- match wr with None => Ok d1 | Some w => w_count w m e d1 end ;;
        if e <=? d2 then Ok (d2, 0)
        else
          d3 <- next_line d2 ;;
          if dropped x y then entry_count_flags fuel' d3
          else Ok (d3, if doubled x y then 2 else 1)
    end.

  (** Counting an entry without flags, coo.impl.hpp:286-297. *)
  Definition entry_count_plain (d : nat) : res (nat * nat) :=
    d1 <- move_to_next_int m e d ;;
    if e <=? d1 then Ok (d1, 0)
    else d2 <- next_line d1 ;; Ok (d2, 1).

  Definition has_flags : bool := f_sym fl || f_ut fl || f_sl fl.

  Definition entry_count (d : nat) : res (nat * nat) :=
    if has_flags then entry_count_flags (S (e - d)) d else entry_count_plain d.

  (** The result of setting an entry: reader position, new [coord_pos], stores
      performed, and the running maxima [max_row], [max_col]. *)
  Record eset := mkEset {
    es_d : nat; es_pos : nat; es_code : list (cinstr W); es_mr : Z; es_mc : Z
  }.

  (** [read_wgt_<wgt, W, WS, false>(coord_pos, w_, r)], coo.impl.hpp:258, 306:
      moves the reader and stores the weight at [coord_pos]. *)
  Definition set_weight (pos d : nat) : res (nat * list (cinstr W)) :=
    match wr with
    | None => Ok (d, [])
    | Some w => '(v, d') <- w_read w m e d ;; Ok (d', [SetW pos v])
    end.

  (** Setting an entry with some flag set, coo.impl.hpp:251-284. *)
  Fixpoint entry_set_flags (fuel : nat) (d pos : nat) (mr mc : Z) : res eset :=
    match fuel with
    | O => Stuck
    | S fuel' =>
        '(x0, y0, d1) <- read_xy d ;;
        '(d2, wcode) <- set_weight pos d1 ;;
        if e <=? d2 then Ok (mkEset d2 pos wcode mr mc)
        else
          d3 <- next_line d2 ;;
          if dropped x0 y0 then
            r <- entry_set_flags fuel' d3 pos mr mc ;;
            Ok (mkEset (es_d r) (es_pos r) (wcode ++ es_code r) (es_mr r) (es_mc r))
          else
            let swap := f_sym fl && f_ut fl && (y0 <? x0)%Z in
            let x := if swap then y0 else x0 in
            let y := if swap then x0 else y0 in
            let base := wcode ++ [SetX pos x; SetY pos y] in
            let dbl := doubled x y in
            let code :=
              if dbl
              then base ++ (match wr with None => [] | Some _ => [CopyW pos (pos + 1)] end)
                        ++ [SetY (pos + 1) x; SetX (pos + 1) y]
              else base in
            Ok (mkEset d3 (pos + if dbl then 2 else 1) code (Z.max mr x) (Z.max mc y))
    end.

  (** Setting an entry without flags, coo.impl.hpp:299-316. *)
  Definition entry_set_plain (d pos : nat) (mr mc : Z) : res eset :=
    '(x, y, d1) <- read_xy d ;;
    '(d2, wcode) <- set_weight pos d1 ;;
    if e <=? d2 then Ok (mkEset d2 pos wcode mr mc)
    else
      d3 <- next_line d2 ;;
      Ok (mkEset d3 (pos + 1) (wcode ++ [SetX pos x; SetY pos y]) (Z.max mr x) (Z.max mc y)).

  Definition entry_set (d pos : nat) (mr mc : Z) : res eset :=
    if has_flags then entry_set_flags (S (e - d)) d pos mr mc
    else entry_set_plain d pos mr mc.

  (** Pass 1 of a thread, coo.impl.hpp:439-444. *)
  Fixpoint count_loop (fuel : nat) (d ct : nat) : res nat :=
    match fuel with
    | O => Stuck
    | S fuel' =>
        if d <? e then
          '(d', c) <- entry_count d ;; count_loop fuel' d' (ct + c)
        else Ok ct
    end.

  (** Pass 2 of a thread, coo.impl.hpp:464-473: the stores it performs, in
      order, and its private maxima. *)
  Fixpoint set_loop (fuel : nat) (d pos : nat) (mr mc : Z)
    : res (list (cinstr W) * Z * Z) :=
    match fuel with
    | O => Stuck
    | S fuel' =>
        if d <? e then
          r <- entry_set d pos mr mc ;;
          '(code, mr', mc') <- set_loop fuel' (es_d r) (es_pos r) (es_mr r) (es_mc r) ;;
          Ok (es_code r ++ code, mr', mc')
        else Ok ([], mr, mc)
    end.
End Entry.

(** ** Splitting the file between threads, coo.impl.hpp:416-435 *)

(** [re.move_to_eol(); re.move_to_next_int();] *)
Definition line_boundary (m : mem) (e p : nat) : res nat := next_line m e p.

(** Thread [t] of [T]: where it starts and its thread-local end.  Behind the end
    (after reading the first CSR of a file that was cut in it, for instance),
    [size()] wraps, and with two threads or more [d + s] in [operator+],
    pigo.hpp:169-175, leaves the address space or the mapping: undefined.  With
    one thread, [d + s] is [end] again. *)
Definition el_chunk (m : mem) (d0 e : nat) (T t : nat) : res (nat * nat) :=
  let size := e - d0 in
  if (e <? d0) && (1 <? T) then UB else
  let ps := advance e d0 ((t * size) / T) in
  let pe := advance e d0 (((t + 1) * size) / T) in
  re <- line_boundary m e pe ;;
  rs <- (if t =? 0 then move_to_first_int m e ps else line_boundary m e ps) ;;
  Ok (rs, smaller_end e re).

(** Exclusive prefix sums: where each thread's output starts. *)
Fixpoint prefix_sums (acc : nat) (l : list nat) : list nat :=
  match l with
  | [] => []
  | c :: l' => acc :: prefix_sums (acc + c) l'
  end.

Definition sum_nat (l : list nat) : nat := fold_right Nat.add 0 l.

(** The observable contents of a COO object, include/pigo/coo.hpp:74-95. *)
Record coo (W : Type) := mkCoo {
  co_x : list (option Z);
  co_y : list (option Z);
  co_w : list (option W);
  co_n : option Z;      (* [None]: never assigned *)
  co_nrows : option Z;
  co_ncols : option Z;
  co_m : Z
}.
Arguments mkCoo {W}.
Arguments co_x {W}.
Arguments co_y {W}.
Arguments co_w {W}.
Arguments co_n {W}.
Arguments co_nrows {W}.
Arguments co_ncols {W}.
Arguments co_m {W}.

(** [allocate_()], coo.impl.hpp:131-136; a negative count converts to a huge
    [size_t] and [malloc] fails (include/pigo.hpp:499-506). *)
Definition coo_alloc {W : Type} (weighted : bool) (m_ : Z) : res (cst W) :=
  if (m_ <? 0)%Z then Throw EError
  else
    let k := Z.to_nat m_ in
    Ok (mkCst (fresh k) (fresh k) (if weighted then fresh k else [])).

Definition is_some {A : Type} (o : option A) : bool :=
  match o with Some _ => true | None => false end.

(** Pass 1 of [read_el_], coo.impl.hpp:408-445: each thread's range and the
    number of entries it counts there. *)
Definition el_pass1 {W : Type} (L : ity) (wr : option (wrd W)) (fl : flags)
    (m : mem) (d0 e : nat) (T : nat) : res (list (nat * nat) * list nat) :=
  chunks <- mapM (el_chunk m d0 e T) (seq 0 T) ;;
  counts <- mapM (fun c => count_loop L wr fl m (snd c) (S (snd c - fst c)) (fst c) 0) chunks ;;
  Ok (chunks, counts).

(** Pass 2 of [read_el_], coo.impl.hpp:457-473: each thread's stores, in program
    order, and its private maxima.  Thread [t] starts writing at the sum of the
    counts of the threads before it. *)
Definition el_pass2 {W : Type} (L : ity) (wr : option (wrd W)) (fl : flags)
    (m : mem) (chunks : list (nat * nat)) (counts : list nat)
    : res (list (list (cinstr W) * Z * Z)) :=
  mapM (fun cs => set_loop L wr fl m (snd (fst cs)) (S (snd (fst cs) - fst (fst cs)))
                    (fst (fst cs)) (snd cs) (imin L) (imin L))
       (combine chunks (prefix_sums 0 counts)).

(** [read_el_], coo.impl.hpp:383-481, on a reader at [d0] with end [e], with a
    team of [T] threads; [sched] interleaves the stores of pass 2.
    The private copies of [max_row]/[max_col] start at the least value of the
    label type (OpenMP's identity for [reduction(max)]) and are combined with
    the original 0. *)
Definition read_el {W : Type} (L O : ity) (wr : option (wrd W)) (fl : flags)
    (m : mem) (d0 e : nat) (T : nat) (sched : list nat) : res (coo W) :=
  '(chunks, counts) <- el_pass1 L wr fl m d0 e T ;;
  let m_ := wrap O (Z.of_nat (sum_nat counts)) in
  st0 <- coo_alloc (is_some wr) m_ ;;
  p2 <- el_pass2 L wr fl m chunks counts ;;
  st <- run cexec sched (map (fun r => fst (fst r)) p2) st0 ;;
  let max_row := fold_left Z.max (map (fun r => snd (fst r)) p2) 0%Z in
  let max_col := fold_left Z.max (map (fun r => snd r) p2) 0%Z in
  nrows <- arith L (max_row + 1)%Z ;;
  ncols <- arith L (max_col + 1)%Z ;;
  Ok (mkCoo (cx st) (cy st) (cw st)
        (Some (if (ncols <? nrows)%Z then nrows else ncols))
        (Some nrows) (Some ncols) m_).

(** The string "%%MatrixMarket matrix coordinate", coo.impl.hpp:332. *)
Definition mm_header : list byte :=
  [37;37;77;97;116;114;105;120;77;97;114;107;101;116;32;109;97;116;114;105;120;32;
   99;111;111;114;100;105;110;97;116;101]%Z.

(** [2*m_] in the promoted ordinal type, coo.impl.hpp:363. *)
Definition twice (O : ity) (z : Z) : res Z :=
  if (ibits O <? 32)%Z then Ok (2 * z)%Z else arith O (2 * z)%Z.

(** [read_mm_], coo.impl.hpp:326-381.  On a contradiction the storage is freed
    and [Error] is thrown. *)
Definition read_mm {W : Type} (L O : ity) (wr : option (wrd W)) (fl : flags)
    (m : mem) (d0 e : nat) (T : nat) (sched : list nat) : res (coo W) :=
  hdr <- at_str m e d0 mm_header ;;
  if negb hdr then Throw ENotYetImplemented
  else
    d1 <- move_to_next_int m e d0 ;;
    '(nr, d2) <- read_int m L e d1 ;;
    nrows <- arith L (nr + 1)%Z ;;
    d3 <- move_to_next_int m e d2 ;;
    '(nc, d4) <- read_int m L e d3 ;;
    ncols <- arith L (nc + 1)%Z ;;
    d5 <- move_to_next_int m e d4 ;;
    '(nnz, d6) <- read_int m O e d5 ;;
    d7 <- next_line m e d6 ;;
    c <- read_el L O wr fl m d7 e T sched ;;
    match co_nrows c, co_ncols c with
    | Some nrows_, Some ncols_ =>
        if (nrows <? nrows_)%Z then Throw EError
        else if (ncols <? ncols_)%Z then Throw EError
        else
          bad <- (if f_sym fl then m2 <- twice O (co_m c) ;; Ok (m2 <? nnz)%Z
                  else if f_sl fl then Ok (co_m c <? nnz)%Z
                  else Ok (negb (nnz =? co_m c)%Z)) ;;
          if (bad : bool) then Throw EError
          else Ok (mkCoo (co_x c) (co_y c) (co_w c)
                     (Some (if (ncols <? nrows)%Z then nrows else ncols))
                     (Some nrows) (Some ncols) (co_m c))
    | _, _ => UB
    end.
