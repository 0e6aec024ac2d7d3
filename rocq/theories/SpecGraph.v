(** * SpecGraph: what an adjacency file means

    The rows of a [GRAPH] file as functions of its bytes.  Nothing here mentions
    the model of the code. *)

From Verif Require Import Base Spec.

(** The lines of a text: the maximal pieces without a newline that are ended by
    a newline ([cur] is the current piece, in order). *)
Fixpoint lines_from (cur s : list byte) : list (list byte) :=
  match s with
  | [] => []
  | c :: s' => if is_nl c then cur :: lines_from [] s' else lines_from (cur ++ [c]) s'
  end.
Definition lines (s : list byte) : list (list byte) := lines_from [] s.

(** The numerals in a text: its maximal runs of digits. *)
Fixpoint numerals_from (cur s : list byte) : list (list byte) :=
  match s with
  | [] => match cur with [] => [] | _ => [cur] end
  | c :: s' =>
      if is_digit c then numerals_from (cur ++ [c]) s'
      else match cur with [] => numerals_from [] s' | _ => cur :: numerals_from [] s' end
  end.
Definition numerals (s : list byte) : list (list byte) := numerals_from [] s.

(** The rows of a body: the numbers on each line. *)
Definition adj_rows (body : list byte) : list (list Z) := map (fun l => map dval (numerals l)) (lines body).

(** One of the numbers is written [0]: the file is taken to number vertices
    from 0. *)
Definition has_zero (body : list byte) : Prop := In [ch_0] (numerals body).

(** A body: it has no comments, begins with a digit and ends with a newline. *)
Definition adj_body (body : list byte) : Prop :=
  Forall (fun c => is_cmt c = false) body /\
  (exists c b, body = c :: b /\ is_digit c = true) /\
  (exists b, body = b ++ [ch_nl]).

(** A file: anything before the header, the two numbers of the header, the rest
    of its line, anything up to the first number of the body, the body. *)
Record adj_file := mkAdj {
  a_head : list byte; a_n : list byte; a_sep : list byte; a_m : list byte;
  a_post : list byte; a_gap : list byte; a_body : list byte
}.
Definition adj_text (f : adj_file) : list byte :=
  a_head f ++ a_n f ++ a_sep f ++ a_m f ++ a_post f ++ ch_nl :: a_gap f ++ a_body f.
Definition wf_adj (f : adj_file) : Prop :=
  gap false (a_head f) /\ digits (a_n f) /\ a_sep f <> [] /\ gap false (a_sep f) /\
  digits (a_m f) /\ rest (a_post f) /\ gap false (a_gap f) /\ adj_body (a_body f).

(** As far as the header goes: the body begins with a digit, and is arbitrary
    otherwise. *)
Definition wf_head (f : adj_file) : Prop :=
  gap false (a_head f) /\ digits (a_n f) /\ a_sep f <> [] /\ gap false (a_sep f) /\
  digits (a_m f) /\ rest (a_post f) /\ gap false (a_gap f) /\ (exists c b, a_body f = c :: b /\ is_digit c = true).

(** ** Comments in the body *)

(** No digit up to the end of the line, and the line is ended. *)
Fixpoint quiet_line (s : list byte) : Prop :=
  match s with
  | [] => False
  | c :: s' => if is_nl c then True else is_digit c = false /\ quiet_line s'
  end.

(** Comments have no digits, end with a newline, and do not begin right after a
    digit ([prev]: there is a digit before [s]). *)
Fixpoint quiet (prev : bool) (s : list byte) : Prop :=
  match s with
  | [] => True
  | c :: s' => (is_cmt c = true -> prev = false /\ quiet_line s') /\ quiet (is_digit c) s'
  end.

(** A comment, together with the lines right after it that begin with a comment,
    stands for one newline. *)
Inductive where_ := InText | InComment | AfterComment.
Fixpoint strip_from (w : where_) (s : list byte) : list byte :=
  match s with
  | [] => match w with AfterComment => [ch_nl] | _ => [] end
  | c :: s' =>
      match w with
      | InText => if is_cmt c then strip_from InComment s' else c :: strip_from InText s'
      | InComment => if is_nl c then strip_from AfterComment s' else strip_from InComment s'
      | AfterComment => if is_cmt c then strip_from InComment s' else ch_nl :: c :: strip_from InText s'
      end
  end.
Definition strip (s : list byte) : list byte := strip_from InText s.

(** ** Bodies with comments, line by line *)

(** A comment: a comment character, then no digit and no newline. *)
Definition comment (c : list byte) : Prop :=
  exists x t, c = x :: t /\ is_cmt x = true /\ Forall (fun b => is_digit b = false /\ is_nl b = false) t.

(** A line of numbers, perhaps with a comment at its end, and the comment lines
    after it. *)
Record cline := mkCline { cl_text : list byte; cl_note : list byte; cl_more : list (list byte) }.
Definition cl_bytes (l : cline) : list byte :=
  cl_text l ++ cl_note l ++ ch_nl :: concat (map (fun c => c ++ [ch_nl]) (cl_more l)).
Definition cl_body (ls : list cline) : list byte := concat (map cl_bytes ls).

(** The comment at the end of a line does not touch a number. *)
Definition wf_cline (l : cline) : Prop :=
  Forall (fun c => is_nl c = false /\ is_cmt c = false) (cl_text l) /\
  (cl_note l <> [] -> comment (cl_note l) /\ exists a z, cl_text l = a ++ [z] /\ is_digit z = false) /\
  Forall comment (cl_more l).

Definition cl_row (l : cline) : list Z := map dval (numerals (cl_text l)).

(** Some number is written [0]. *)
Definition cl_zero (ls : list cline) : Prop := exists l, In l ls /\ In [ch_0] (numerals (cl_text l)).

(** The rows the adjacency reader makes out of the lines: comment lines after a
    line without a comment of its own are one more, empty, row. *)
Definition cl_rows (ls : list cline) : list (list Z) :=
  concat (map (fun l => cl_row l :: match cl_note l, cl_more l with [], _ :: _ => [[]] | _, _ => [] end) ls).
