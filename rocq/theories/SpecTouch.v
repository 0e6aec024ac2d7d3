(** * SpecTouch: adjacency bodies whose comments may touch a number

    Nothing here mentions the model of the code. *)

From Verif Require Import Base Spec SpecGraph.

(** A line: text, and a comment at its end or nothing. *)
Record tline := mkTline { tl_text : list byte; tl_note : list byte }.
Definition tl_bytes (l : tline) : list byte := tl_text l ++ tl_note l ++ [ch_nl].
Definition tl_body (ls : list tline) : list byte := concat (map tl_bytes ls).

(** A comment at the end of a line: a comment character, then anything but a
    newline. *)
Definition end_comment (c : list byte) : Prop :=
  exists x t, c = x :: t /\ is_cmt x = true /\ Forall (fun b => is_nl b = false) t.

(** The text has no newline and no comment; a line that has a comment does not
    begin with it. *)
Definition wf_tline (l : tline) : Prop :=
  Forall (fun c => is_nl c = false /\ is_cmt c = false) (tl_text l) /\
  (tl_note l = [] \/ (end_comment (tl_note l) /\ tl_text l <> [])).

(** The comment follows the last digit of a number immediately. *)
Fixpoint ends_digit (p : bool) (t : list byte) : bool := match t with [] => p | c :: t' => ends_digit (is_digit c) t' end.
Definition touches (l : tline) : bool := match tl_note l with [] => false | _ => ends_digit false (tl_text l) end.

(** The rows as written. *)
Definition tl_row (l : tline) : list Z := map dval (numerals (tl_text l)).
Definition tl_rows (ls : list tline) : list (list Z) := map tl_row ls.
(** The rows with one more, empty, row after each line whose comment touches a
    number. *)
Definition tl_extra (ls : list tline) : list (list Z) :=
  concat (map (fun l => tl_row l :: if touches l then [[]] else []) ls).
(** Some number is written [0]. *)
Definition tl_zero (ls : list tline) : Prop := exists l, In l ls /\ In [ch_0] (numerals (tl_text l)).
