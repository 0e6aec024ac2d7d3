(** * SpecFile: what a client of [File] can rely on

    An open file is a byte string, a position and a name. *)

From Verif Require Import Base Reader Bin Own FileLife.

Inductive fval :=
| Opened (bs : list byte) (pos : option nat) (name : list byte)
| Moved (name : list byte).         (* its file was moved away *)

Definition fvars := list (option fval).
Definition fvar (A : fvars) (a : nat) (v : fval) : Prop := nth_error A a = Some (Some v).

Definition name_of (v : fval) : list byte :=
  match v with Opened _ _ n => n | Moved n => n end.

(** What a careful client does.  After [a = std::move(b)] the variable [a] holds
    the bytes of [b], has no position until the next [seek], and keeps its own
    name; [b] holds no file any more. *)
Inductive fdoes (pg : nat) : fvars -> fop -> fvars -> list rfile -> Prop :=
| fd_open A bs fn : bs <> [] ->
    fdoes pg A (FOpen bs fn) (A ++ [Some (Opened bs (Some 0) fn)]) []
| fd_seek A a bs p n pos : fvar A a (Opened bs p n) -> pos < length bs ->
    fdoes pg A (FSeek a pos) (lset A a (Some (Opened bs (Some pos) n))) []
| fd_skip A a bs p n k : fvar A a (Opened bs (Some p) n) ->
    fdoes pg A (FSkip a k) (lset A a (Some (Opened bs (Some (p + k)) n))) []
| fd_view A a bs p n : fvar A a (Opened bs (Some p) n) ->
    fdoes pg A (FView a) A [mkRfile (mkMem bs pg) p n]
| fd_move_self A a v : fvar A a v ->
    fdoes pg A (FMove a a) A []
| fd_move A a b v bs p n : a <> b -> fvar A a v -> fvar A b (Opened bs p n) ->
    fdoes pg A (FMove a b) (lset (lset A a (Some (Opened bs None (name_of v)))) b (Some (Moved n))) []
| fd_move_moved A a b v n : a <> b -> fvar A a v -> fvar A b (Moved n) ->
    fdoes pg A (FMove a b) (lset (lset A a (Some (Moved (name_of v)))) b (Some (Moved n))) []
| fd_close A a v : fvar A a v ->
    fdoes pg A (FClose a) (lset A a None) [].

Inductive fdoes_all (pg : nat) : fvars -> list fop -> fvars -> list rfile -> Prop :=
| fd_nil A : fdoes_all pg A [] A []
| fd_cons A x A1 out xs A2 outs :
    fdoes pg A x A1 out -> fdoes_all pg A1 xs A2 outs -> fdoes_all pg A (x :: xs) A2 (out ++ outs).

(** Some variable holds an open file. *)
Definition holds_file (A : fvars) : Prop := exists a bs p n, fvar A a (Opened bs p n).
