(** * Spec: what a text file means

    The grammar of PIGO's line oriented text formats and the mathematical value
    of the numerals in them.  This file depends on nothing but the byte
    constants of [Base]; it does not mention the model of the code. *)

From Verif Require Import Base.

(** ** Numerals *)

(** The value of a string of decimal digits, most significant first. *)
Definition dval (ds : list byte) : Z := fold_left (fun a c => a * 10 + (c - ch_0))%Z ds 0%Z.

Definition digits (ds : list byte) : Prop := ds <> [] /\ Forall (fun c => is_digit c = true) ds.

(** ** Text between data

    Characters that are neither digits nor comment starters may appear
    anywhere between data lines (so blank lines, tabs, carriage returns, and
    words), and a comment runs from ['#'] or ['%'] to the end of its line.  With
    [fin = true] the last comment may end at the end of the file instead. *)
Inductive gap (fin : bool) : list byte -> Prop :=
| gap_nil : gap fin []
| gap_junk c s : is_digit c = false -> is_cmt c = false -> gap fin s -> gap fin (c :: s)
| gap_cmt c body s : is_cmt c = true -> Forall (fun b => is_nl b = false) body ->
    gap fin s -> gap fin (c :: body ++ ch_nl :: s)
| gap_eof c body : fin = true -> is_cmt c = true -> Forall (fun b => is_nl b = false) body ->
    gap fin (c :: body).

(** A separator within a line: at least one character, none of them a digit,
    a newline or a comment starter. *)
Definition sep_char (c : byte) : Prop :=
  is_digit c = false /\ is_nl c = false /\ is_cmt c = false.
Definition separator (s : list byte) : Prop := s <> [] /\ Forall sep_char s.

(** The rest of a line: anything without a newline that does not prolong a
    numeral. *)
Definition rest (s : list byte) : Prop :=
  Forall (fun c => is_nl c = false) s /\
  match s with [] => True | c :: _ => is_digit c = false end.

(** ** Data lines of an edge list

    [x sep y post \n gap]: two numerals, then the rest of the line (which holds
    the weight, if any), the newline, and what separates this line from the
    next data line. *)
Record line := mkLine {
  l_x : list byte; l_sep : list byte; l_y : list byte;
  l_post : list byte; l_gap : list byte
}.

Definition line_text (l : line) : list byte :=
  l_x l ++ l_sep l ++ l_y l ++ l_post l ++ ch_nl :: l_gap l.

Definition wf_line (fin : bool) (l : line) : Prop :=
  digits (l_x l) /\ separator (l_sep l) /\ digits (l_y l) /\ rest (l_post l) /\
  gap fin (l_gap l).

Fixpoint wf_lines (ls : list line) : Prop :=
  match ls with
  | [] => True
  | [l] => wf_line true l
  | l :: ls' => wf_line false l /\ wf_lines ls'
  end.

(** The contents of a well-formed edge list file. *)
Record el_file := mkEl { el_head : list byte; el_lines : list line }.

Definition el_text (f : el_file) : list byte :=
  el_head f ++ concat (map line_text (el_lines f)).

Definition wf_el (f : el_file) : Prop :=
  gap (match el_lines f with [] => true | _ => false end) (el_head f) /\
  wf_lines (el_lines f).

(** The label pairs, in file order. *)
Definition l_pair (l : line) : Z * Z := (dval (l_x l), dval (l_y l)).
Definition el_pairs (f : el_file) : list (Z * Z) := map l_pair (el_lines f).

(** Every label fits the label type. *)
Definition labels_fit (hi : Z) (f : el_file) : Prop :=
  Forall (fun p => (fst p <= hi)%Z /\ (snd p <= hi)%Z) (el_pairs f).

(** ** Flags *)

(** What the flags do to one entry [(x, y, w)], in terms of the documentation
    of [COO] (include/pigo/coo.hpp:30-45): [sl] removes self loops; [ut] keeps
    the upper triangle only; [sym] stores both directions, or, with [ut], the
    upper-triangular representative. *)
Definition expand {A : Type} (sym ut sl : bool) (e : Z * Z * A) : list (Z * Z * A) :=
  let '(x, y, w) := e in
  if sl && (x =? y)%Z then []
  else if sym then
    if ut then (if (y <? x)%Z then [(y, x, w)] else [(x, y, w)])
    else (if (x =? y)%Z then [(x, y, w)] else [(x, y, w); (y, x, w)])
  else if ut && (y <? x)%Z then [] else [(x, y, w)].

(** The entries that determine the reported dimensions: the kept ones, in the
    orientation in which they are stored, without transposed copies. *)
Definition kept {A : Type} (sym ut sl : bool) (e : Z * Z * A) : list (Z * Z * A) :=
  firstn 1 (expand sym ut sl e).

Definition max_of (l : list Z) : Z := fold_right Z.max 0%Z l.

(** ** Weights in the rest of a line *)

(** An unsigned integer weight: separator, numeral, rest. *)
Inductive post_unsigned : list byte -> Z -> Prop :=
| post_unsigned_intro sp ds tl :
    separator sp -> digits ds -> rest tl -> post_unsigned (sp ++ ds ++ tl) (dval ds).

(** A signed integer weight; the separator contains no sign. *)
Definition sgn_sep (s : list byte) : Prop :=
  separator s /\ Forall (fun c => (c =? ch_plus)%Z = false /\ (c =? ch_minus)%Z = false) s.
Inductive post_signed : list byte -> Z -> Prop :=
| post_signed_pos sp ds tl :
    sgn_sep sp -> digits ds -> rest tl -> post_signed (sp ++ ds ++ tl) (dval ds)
| post_signed_plus sp ds tl :
    sgn_sep sp -> digits ds -> rest tl ->
    post_signed (sp ++ ch_plus :: ds ++ tl) (dval ds)
| post_signed_minus sp ds tl :
    sgn_sep sp -> digits ds -> rest tl ->
    post_signed (sp ++ ch_minus :: ds ++ tl) (- dval ds)%Z.
