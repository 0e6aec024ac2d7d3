(** * Ascii: writing text files

    Model of the formatting functions, include/pigo/impl/pigo.impl.hpp:189-304,
    of [stbsp_to_chars], include/pigo/impl/stb.impl.hpp:76-310, and of
    [COO::write], include/pigo/impl/coo.impl.hpp:570-657. *)

From Verif Require Import Base Sched Coo.

(** ** Stores into the mapped output file

    [Put a b] is a one-byte store at offset [a] from the start of the mapping.
    Simplification: a store outside the file is undefined behaviour here, also
    where the last page of the mapping would still be writable (such a store is
    lost, never part of the file). *)
Inductive put := Put (a : Z) (b : byte).

Definition pexec (i : put) (f : list byte) : res (list byte) :=
  match i with
  | Put a b =>
      if ((0 <=? a) && (a <? Z.of_nat (length f)))%Z then Ok (upd (Z.to_nat a) b f) else UB
  end.

(** [File(fn, WRITE, max_size)], pigo.impl.hpp:21-77: size zero throws
    (line 31); otherwise the file is created with one byte of value 1 at its
    end (lines 38-42), the bytes before it read as zero. *)
Definition new_file (n : nat) : res (list byte) :=
  match n with
  | O => Throw EError
  | S k => Ok (repeat 0%Z k ++ [1%Z])
  end.

(** ** Integers *)

(** Enough iterations for the digit loops (a decimal numeral is no longer than
    the binary one). *)
Definition dfuel (z : Z) : nat := S (Z.to_nat (Z.log2 (Z.abs z))).

(** [detail::neg_size], pigo.impl.hpp:189-201. *)
Definition neg_size (t : ity) (z : Z) : nat :=
  if isigned t && (z <? 0)%Z then 1 else 0.

(** [do { obj /= 10; ++res; } while (obj != 0);], pigo.impl.hpp:247-250. *)
Fixpoint wsize_loop (fuel : nat) (z : Z) (r : nat) : res nat :=
  match fuel with
  | O => Stuck
  | S fuel' =>
      let z' := Z.quot z 10 in
      if (z' =? 0)%Z then Ok (S r) else wsize_loop fuel' z' (S r)
  end.

(** [write_size] for integral types, pigo.impl.hpp:239-252. *)
Definition write_size (t : ity) (z : Z) : res nat := wsize_loop (dfuel z) z (neg_size t z).

(** [detail::get_positive], pigo.impl.hpp:216-226. *)
Definition get_positive (t : ity) (z : Z) : res Z :=
  if isigned t && (z <? 0)%Z then arith t (- z)%Z else Ok z.

(** [do { *((char* )fp+pos--) = (obj%10)+'0'; obj /= 10; } while (obj != 0);],
    pigo.impl.hpp:288-291.  [p] is the address [fp+pos]. *)
Fixpoint wdigits (fuel : nat) (p z : Z) : res (list put) :=
  match fuel with
  | O => Stuck
  | S fuel' =>
      let i := Put p (Z.rem z 10 + ch_0)%Z in
      let z' := Z.quot z 10 in
      if (z' =? 0)%Z then Ok [i] else r <- wdigits fuel' (p - 1) z' ;; Ok (i :: r)
  end.

(** [write_ascii] for integral types, pigo.impl.hpp:276-293: the stores
    performed and the new file position. *)
Definition write_ascii (t : ity) (fp z : Z) : res (list put * Z) :=
  let neg := isigned t && (z <? 0)%Z in
  let code := if neg then [Put fp ch_minus] else [] in
  let fp1 := if neg then (fp + 1)%Z else fp in
  o <- get_positive t z ;;
  n <- write_size t o ;;
  ds <- wdigits (dfuel o) (fp1 + Z.of_nat n - 1) o ;;
  Ok (code ++ ds, (fp1 + Z.of_nat n)%Z).

(** ** Floating point

    [stbsp_to_chars], stb.impl.hpp:76-310, with [pr = 6] and no other flags.
    What [stbsp__real_to_str] (stb.impl.hpp, after line 322) computes from the double is a
    parameter: sign, decimal digits [sn] and decimal position [dp] of a finite
    number, or the text of a special value ("NaN" or "Inf"). *)
Inductive realstr :=
| RSpecial (neg : bool) (txt : list byte)
| RFinite (neg : bool) (sn : list byte) (dp : Z).

(** The zero-filling loops of stb.impl.hpp:129-143, 171-192, 277-291:
    single stores up to a multiple of four, stores of four bytes, the rest.
    [a] is the address of the first byte; the result is the bytes appended. *)
Fixpoint zfill_align (n : nat) (a : Z) : list byte * nat :=
  match n with
  | O => ([], 0)
  | S n' =>
      if (a mod 4 =? 0)%Z then ([], n)
      else let '(l, r) := zfill_align n' (a + 1)%Z in (ch_0 :: l, r)
  end.
Fixpoint zfill_four (fuel n : nat) : list byte * nat :=
  match fuel with
  | O => ([], n)
  | S fuel' =>
      if 4 <=? n then let '(l, r) := zfill_four fuel' (n - 4) in (ch_0 :: ch_0 :: ch_0 :: ch_0 :: l, r)
      else ([], n)
  end.
Definition zfill (n : nat) (a : Z) : list byte :=
  let '(l1, r1) := zfill_align n a in
  let '(l2, r2) := zfill_four n r1 in
  l1 ++ l2 ++ repeat ch_0 r2.

(** The string built at [num+64] (address [nb]) and the number [tz] of trailing
    zeros, stb.impl.hpp:116-230.  The loops at 158-168 and 202-212 copy at least
    one digit (do-while form), here [max 1]. *)
Definition stb_body (nb : Z) (sn : list byte) (dp : Z) : list byte * nat :=
  let pr := 6 in
  let l := length sn in
  if (dp <=? 0)%Z then
    (* 0.000*000xxxx *)
    let n := Nat.min (Z.to_nat (- dp)) pr in
    let z := zfill n (nb + 2)%Z in
    let l' := if pr <? l + n then pr - n else l in
    ([ch_0; ch_dot] ++ z ++ firstn l' sn, pr - (n + l'))
  else if (Z.of_nat l <=? dp)%Z then
    (* xxxx000*000.0 *)
    let ds := firstn (Nat.max 1 l) sn in
    let z := zfill (Z.to_nat dp - length ds) (nb + Z.of_nat (length ds))%Z in
    (ds ++ z ++ [ch_dot], pr)
  else
    (* xxxxx.xxxx000*000 *)
    let d := Z.to_nat dp in
    let l' := if pr <? l - d then pr + d else l in
    (firstn (Nat.max 1 d) sn ++ [ch_dot] ++ firstn (l' - d) (skipn d sn), pr - (l' - d)).

(** The bytes [stbsp_to_chars] stores at [buf] (address [a]) before the
    terminating NUL, stb.impl.hpp:232-307.  The copy in groups of four bytes
    (260-269) copies exactly the bytes of the string. *)
Definition stb_chars (a nb : Z) (r : realstr) : list byte :=
  match r with
  | RSpecial neg txt => (if neg then [ch_minus] else []) ++ txt
  | RFinite neg sn dp =>
      let '(s, tz) := stb_body nb sn dp in
      let lead := if neg then [ch_minus] else [] in
      lead ++ s ++ zfill tz (a + Z.of_nat (length lead + length s))%Z
  end.

(** ** Formatters: the pair [write_size] / [write_ascii] of a type *)
Record fmt (V : Type) := mkFmt {
  f_size : V -> res nat;
  f_put : Z -> V -> res (list put * Z)
}.
Arguments f_size {V}.
Arguments f_put {V}.

Definition fmt_int (t : ity) : fmt Z := mkFmt Z (write_size t) (write_ascii t).

Fixpoint puts_at (a : Z) (l : list byte) : list put :=
  match l with
  | [] => []
  | b :: l' => Put a b :: puts_at (a + 1) l'
  end.

(** Floating-point values, pigo.impl.hpp:254-264 and 295-304: [stbsp_to_chars]
    into a local buffer (at [lb], its work space at [nb]) for the size, into the
    file for the output; a NUL follows the characters; the announced length and
    the advance are cut to 1023.  [base] is the address of the mapping.
    Simplification: groups of four bytes are stored one byte at a time, as the
    thread that stores them is the only one to access them. *)
Definition clip (n : nat) : nat := if 1024 <=? n then 1023 else n.
Definition fmt_fp {V : Type} (real_to_str : V -> realstr) (base lb nb : Z) : fmt V :=
  mkFmt V
    (fun v => let cs := stb_chars lb nb (real_to_str v) in
              if length cs <? 1024 then Ok (clip (length cs)) else UB)
    (fun fp v => let cs := stb_chars (base + fp) nb (real_to_str v) in
              Ok (puts_at fp (cs ++ [0%Z]), (fp + Z.of_nat (clip (length cs)))%Z)).

(** ** [COO::write] *)
Section Write.
  Context {W : Type}.
  Variable lf : fmt Z.              (* Label *)
  Variable wf : option (fmt W).     (* Weight, if weighted *)
  Variable c : coo W.

  (** [get_value_], include/pigo.hpp:738-755; an indeterminate value may not be
      used. *)
  Definition cell_of {V : Type} (i : nat) (l : list (option V)) : res V :=
    o <- aget i l ;; match o with Some v => Ok v | None => UB end.

  (** One entry of the sizing pass, coo.impl.hpp:602-621. *)
  Definition entry_size (e : nat) : res nat :=
    x <- cell_of e (co_x c) ;;
    sx <- f_size lf x ;;
    y <- cell_of e (co_y c) ;;
    sy <- f_size lf y ;;
    sw <- match wf with
          | None => Ok 0
          | Some w => v <- cell_of e (co_w c) ;; s <- f_size w v ;; Ok (1 + s)
          end ;;
    Ok (sx + 1 + sy + sw + 1).

  Fixpoint sizes (es : list nat) (acc : nat) : res nat :=
    match es with
    | [] => Ok acc
    | e :: es' => s <- entry_size e ;; sizes es' (acc + s)
    end.

  (** One entry of the writing pass, coo.impl.hpp:643-655. *)
  Definition entry_puts (fp : Z) (e : nat) : res (list put * Z) :=
    x <- cell_of e (co_x c) ;;
    '(px, f1) <- f_put lf fp x ;;
    y <- cell_of e (co_y c) ;;
    '(py, f2) <- f_put lf (f1 + 1) y ;;
    '(pw, f3) <- match wf with
          | None => Ok ([], f2)
          | Some w => v <- cell_of e (co_w c) ;;
                      '(p, f') <- f_put w (f2 + 1) v ;; Ok (Put f2 ch_sp :: p, f')
          end ;;
    Ok (px ++ [Put f1 ch_sp] ++ py ++ pw ++ [Put f3 ch_nl], (f3 + 1)%Z).

  Fixpoint thread_puts (fp : Z) (es : list nat) : res (list put) :=
    match es with
    | [] => Ok []
    | e :: es' => '(p, fp') <- entry_puts fp e ;; r <- thread_puts fp' es' ;; Ok (p ++ r)
    end.

  (** [COO::write], coo.impl.hpp:570-657, up to the stores: the new file and the
      stores of each thread, in program order.  [parts] lists the iterations
      each thread of the team executes; both [omp for] loops have the same
      bounds and the default (static) schedule, so they distribute them
      alike. *)
  Definition coo_write_plan (parts : list (list nat)) : res (list byte * list (list put)) :=
    ss <- mapM (fun es => sizes es 0) parts ;;
    f <- new_file (sum_nat ss) ;;
    ps <- mapM (fun q => thread_puts (Z.of_nat (fst q)) (snd q)) (combine (prefix_sums 0 ss) parts) ;;
    Ok (f, ps).

  (** [COO::write]: [sched] interleaves the stores. *)
  Definition coo_write (parts : list (list nat)) (sched : list nat) : res (list byte) :=
    '(f, ps) <- coo_write_plan parts ;; run pexec sched ps f.
End Write.

(** The distribution of [n] iterations over [T] threads made by the static
    schedule: the first [n mod T] threads get one more than the others. *)
Definition static_start (n T t : nat) : nat := t * (n / T) + Nat.min t (n mod T).
Definition static_parts (n T : nat) : list (list nat) :=
  map (fun t => seq (static_start n T t) (static_start n T (S t) - static_start n T t)) (seq 0 T).
