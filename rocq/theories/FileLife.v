(** * FileLife: the life of a [File]: opening, moving, closing

    [Bin.v] models one open file.  Here the mapping is part of the state: a
    [File] holds the address of its mapping, several [File]s can hold the same
    address, and a mapping can go away under them.

    Simplifications: a mapping is identified by the address it starts at, and
    [munmap] of an address removes the mapping that starts there; where the
    kernel puts a mapping is a parameter, any address not in use.  A file that
    is opened is one that [open_read] (Bin.v) can open. *)

From Verif Require Import Base Reader Bin Own.

(** The mappings of the process. *)
Definition aspace := list (nat * list byte).

Fixpoint mapped (s : aspace) (k : nat) : option (list byte) :=
  match s with
  | [] => None
  | (k', bs) :: s' => if k =? k' then Some bs else mapped s' k
  end.

(** [munmap]: nothing happens if nothing is mapped there. *)
Fixpoint unmap (s : aspace) (k : nat) : aspace :=
  match s with
  | [] => []
  | (k', bs) :: s' => if k =? k' then unmap s' k else (k', bs) :: unmap s' k
  end.

(** The members [data_], [size_], [fp_] and [fn_]: pigo.hpp:288-296.  [fp_] is
    an address and an offset from it; [None]: never set, or computed from a
    null pointer. *)
Record fobj := mkFobj {
  f_data : option nat;
  f_size : nat;
  f_fp : option (nat * nat);
  f_name : list byte }.

(** The constructor: pigo.impl.hpp:21-77 (see [open_read]). *)
Definition f_open (pick : aspace -> nat) (s : aspace) (bs : list byte) (fn : list byte)
  : res (aspace * fobj) :=
  match bs with
  | [] => Throw EError
  | _ => Ok ((pick s, bs) :: s, mkFobj (Some (pick s)) (length bs) (Some (pick s, 0)) fn)
  end.

(** The destructor: pigo.impl.hpp:79-85. *)
Definition f_close (s : aspace) (f : fobj) : aspace :=
  match f_data f with None => s | Some k => unmap s k end.

(** The move constructor: pigo.hpp:317-320.  The new [File]; the old one is not
    changed. *)
Definition f_move_ctor (o : fobj) : fobj := mkFobj (f_data o) (f_size o) None [].

(** The move assignment of another [File]: pigo.impl.hpp:87-97.  The mappings,
    the target and the source afterwards. *)
Definition f_move_assign (s : aspace) (f o : fobj) : aspace * fobj * fobj :=
  (match f_data f with None => s | Some k => unmap s k end,
   mkFobj (f_data o) (f_size o) (f_fp f) (f_name f),
   mkFobj None (f_size o) (f_fp o) (f_name o)).

(** [seek]: pigo.impl.hpp:129-133. *)
Definition f_seek (pos : nat) (f : fobj) : res fobj :=
  if f_size f <=? pos then Throw EError
  else Ok (mkFobj (f_data f) (f_size f)
                  (match f_data f with Some k => Some (k, pos) | None => None end) (f_name f)).

(** Reading [n] bytes moves the position: pigo.impl.hpp:165-171. *)
Definition f_skip (n : nat) (f : fobj) : fobj :=
  mkFobj (f_data f) (f_size f)
         (match f_fp f with Some (k, p) => Some (k, p + n) | None => None end) (f_name f).

(** What the operations that read (pigo.impl.hpp:99-163) see: the bytes of the
    mapping, the position, the name.  Undefined if the mapping is gone, or if
    the position does not point into it. *)
Definition f_view (pg : nat) (s : aspace) (f : fobj) : res rfile :=
  match f_data f, f_fp f with
  | Some k, Some (k', p) =>
      if k =? k' then
        match mapped s k with
        | Some bs => if f_size f =? length bs then Ok (mkRfile (mkMem bs pg) p (f_name f)) else UB
        | None => UB
        end
      else UB
  | _, _ => UB
  end.

(** ** A client *)
Inductive fop :=
| FOpen (bs fn : list byte)       (* File a {fn, READ};  the file holds bs *)
| FSeek (a pos : nat)             (* a.seek(pos);                          *)
| FSkip (a n : nat)               (* n bytes are read                      *)
| FView (a : nat)                 (* a is read from: what is seen          *)
| FMove (a b : nat)               (* a = std::move(b);                     *)
| FClose (a : nat).               (* the scope of a ends                   *)

Definition fenv := list (option fobj).

Definition flook (E : fenv) (a : nat) : res fobj :=
  match nth_error E a with Some (Some f) => Ok f | _ => UB end.


Definition fstep (pick : aspace -> nat) (pg : nat) (s : aspace) (E : fenv) (x : fop)
  : res (aspace * fenv * list rfile) :=
  match x with
  | FOpen bs fn =>
      '(s1, f) <- f_open pick s bs fn ;;
      Ok (s1, E ++ [Some f], [])
  | FSeek a pos =>
      f <- flook E a ;;
      f1 <- f_seek pos f ;;
      Ok (s, lset E a (Some f1), [])
  | FSkip a n =>
      f <- flook E a ;;
      Ok (s, lset E a (Some (f_skip n f)), [])
  | FView a =>
      f <- flook E a ;;
      v <- f_view pg s f ;;
      Ok (s, E, [v])
  | FMove a b =>
      f <- flook E a ;;
      o <- flook E b ;;
      if a =? b then Ok (s, E, [])                      (* pigo.impl.hpp:89 *)
      else
        let '(s1, f1, o1) := f_move_assign s f o in
        Ok (s1, lset (lset E a (Some f1)) b (Some o1), [])
  | FClose a =>
      f <- flook E a ;;
      Ok (f_close s f, lset E a None, [])
  end.

Fixpoint frun (pick : aspace -> nat) (pg : nat) (s : aspace) (E : fenv) (xs : list fop)
  : res (aspace * fenv * list rfile) :=
  match xs with
  | [] => Ok (s, E, [])
  | x :: xs' =>
      '(s1, E1, out) <- fstep pick pg s E x ;;
      '(s2, E2, outs) <- frun pick pg s1 E1 xs' ;;
      Ok (s2, E2, out ++ outs)
  end.
