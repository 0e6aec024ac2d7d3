(** * Base: outcomes, machine integers, bytes and mapped memory

    The vocabulary shared by every part of the model of PIGO.  Nothing here is
    a proof; proofs about these definitions are in [BaseLemmas.v].

    All citations are to files under /repo. *)

From Coq Require Export List ZArith Lia Bool Arith.
Export ListNotations.

(** ** Outcomes

    A C++ call ends in one of these ways.
    - [Ok a]     : it returns.
    - [Throw e]  : it throws (include/pigo.hpp:24-35 defines the exceptions).
    - [UB]       : it has performed an access or an arithmetic operation that
                   C++ (or the MMU) gives no meaning: a load outside the mapped
                   file, a store outside an allocation, signed overflow, a use
                   of freed memory.
    - [Stuck]    : a loop of the model ran out of the fuel it was given.  For
                   the loops that terminate in C++ the fuel is proved
                   sufficient, so [Stuck] then never appears; it is how
                   non-termination is observed. *)
Inductive exn := EError | ENotYetImplemented.

Inductive res (A : Type) : Type :=
| Ok (a : A)
| Throw (e : exn)
| UB
| Stuck.
Arguments Ok {A} a.
Arguments Throw {A} e.
Arguments UB {A}.
Arguments Stuck {A}.

Definition bind {A B : Type} (x : res A) (k : A -> res B) : res B :=
  match x with
  | Ok a => k a
  | Throw e => Throw e
  | UB => UB
  | Stuck => Stuck
  end.

Declare Scope res_scope.
Delimit Scope res_scope with res.
Open Scope res_scope.
Notation "x <- e ;; k" := (bind e (fun x => k))
  (at level 61, e at next level, right associativity) : res_scope.
Notation "' p <- e ;; k" := (bind e (fun p => k))
  (at level 61, p pattern, e at next level, right associativity) : res_scope.

(** Run a computation for every element of a list, left to right. *)
Fixpoint mapM {A B : Type} (f : A -> res B) (l : list A) : res (list B) :=
  match l with
  | [] => Ok []
  | a :: l' => b <- f a ;; bs <- mapM f l' ;; Ok (b :: bs)
  end.

(** ** Machine integers

    The template parameters [Label], [Ordinal] and integral [Weight] range over
    the C++ integer types.  [ibits] is the width, [isigned] the signedness
    (two's complement). *)
Record ity := mkIty { ibits : Z; isigned : bool }.

Definition u8  := mkIty 8 false.
Definition u16 := mkIty 16 false.
Definition u32 := mkIty 32 false.
Definition u64 := mkIty 64 false.
Definition i8  := mkIty 8 true.
Definition i16 := mkIty 16 true.
Definition i32 := mkIty 32 true.
Definition i64 := mkIty 64 true.

(** The integer types of the supported platforms. *)
Definition is_ity (t : ity) : Prop := In t [u8; u16; u32; u64; i8; i16; i32; i64].

Definition imin (t : ity) : Z := if isigned t then (- 2 ^ (ibits t - 1))%Z else 0%Z.
Definition imax (t : ity) : Z :=
  if isigned t then (2 ^ (ibits t - 1) - 1)%Z else (2 ^ (ibits t) - 1)%Z.
Definition inrange (t : ity) (z : Z) : bool := ((imin t <=? z) && (z <=? imax t))%Z.

(** Conversion to type [t] (modular; implementation-defined but universal for
    narrowing to a signed type before C++20). *)
Definition wrap (t : ity) (z : Z) : Z :=
  if isigned t
  then ((z + 2 ^ (ibits t - 1)) mod 2 ^ (ibits t) - 2 ^ (ibits t - 1))%Z
  else (z mod 2 ^ (ibits t))%Z.

(** The result of an arithmetic expression whose mathematical value is [z],
    evaluated on operands of type [t] and stored back into a [t]:
    - types narrower than [int] are promoted, so only the final conversion
      wraps (the operands used below never overflow [int] itself);
    - unsigned types of at least 32 bits are modular;
    - signed types of at least 32 bits overflow with undefined behaviour. *)
Definition arith (t : ity) (z : Z) : res Z :=
  if (ibits t <? 32)%Z then Ok (wrap t z)
  else if isigned t then (if inrange t z then Ok z else UB)
  else Ok (wrap t z).

(** ** Bytes

    A byte is a [Z] (0..255 when it comes from a file).  C++ [char] is signed on
    the supported platforms; the code only ever compares a [char] with ASCII
    constants, for which the signed and unsigned readings of bytes above 127
    agree (both are "not a digit", "not a newline", ...). *)
Definition byte := Z.

Definition ch_nl : byte := 10%Z.     (* '\n' *)
Definition ch_cr : byte := 13%Z.     (* '\r' *)
Definition ch_sp : byte := 32%Z.     (* ' '  *)
Definition ch_hash : byte := 35%Z.   (* '#'  *)
Definition ch_pct : byte := 37%Z.    (* '%'  *)
Definition ch_plus : byte := 43%Z.   (* '+'  *)
Definition ch_minus : byte := 45%Z.  (* '-'  *)
Definition ch_dot : byte := 46%Z.    (* '.'  *)
Definition ch_0 : byte := 48%Z.      (* '0'  *)
Definition ch_9 : byte := 57%Z.      (* '9'  *)
Definition ch_E : byte := 69%Z.      (* 'E'  *)
Definition ch_e : byte := 101%Z.     (* 'e'  *)

(** [*d >= '0' && *d <= '9'], e.g. include/pigo/impl/pigo.impl.hpp:319. *)
Definition is_digit (c : byte) : bool := ((ch_0 <=? c) && (c <=? ch_9))%Z.
(** [*d == '%' || *d == '#'], e.g. include/pigo/impl/pigo.impl.hpp:308. *)
Definition is_cmt (c : byte) : bool := ((c =? ch_pct) || (c =? ch_hash))%Z.
(** [*d == '\n'] *)
Definition is_nl (c : byte) : bool := (c =? ch_nl)%Z.
(** The floating-point alphabet, include/pigo/impl/pigo.impl.hpp:330-331,387-388. *)
Definition is_fp (c : byte) : bool :=
  (is_digit c || (c =? ch_e) || (c =? ch_E) || (c =? ch_minus) ||
   (c =? ch_plus) || (c =? ch_dot))%Z.

(** ** A file mapped into memory

    [File::File] maps the whole file with [mmap]
    (include/pigo/impl/pigo.impl.hpp:67-69).  The kernel maps whole pages: the
    bytes after the end of the file up to the end of its last page read as zero
    and the next page is not part of the mapping.  [page] is the page size. *)
Record mem := mkMem { bytes : list byte; page : nat }.

Definition flen (m : mem) : nat := length (bytes m).

(** One past the last mapped byte. *)
Definition map_len (m : mem) : nat := ((flen m + (page m - 1)) / page m) * page m.

(** A load [*p] through a pointer into the mapping. *)
Definition load (m : mem) (p : nat) : res byte :=
  match nth_error (bytes m) p with
  | Some b => Ok b
  | None => if p <? map_len m then Ok 0%Z else UB
  end.
