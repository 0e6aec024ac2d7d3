(** * SpecTensor: what a tensor file means

    The grammar of tensor text files.  Independent of the model. *)

From Verif Require Import Base Spec.

(** ** Data lines

    [x1 sep x2 ... sep xk post \n gap]: the labels, then the rest of the line
    (which holds the weight, if any), the newline, and what separates this line
    from the next data line. *)
Record tline := mkTline {
  t_first : list byte; t_more : list (list byte * list byte);
  t_post : list byte; t_gap : list byte
}.
Definition labels_text (l : tline) : list byte :=
  t_first l ++ concat (map (fun p => fst p ++ snd p) (t_more l)).
Definition tline_text (l : tline) : list byte := labels_text l ++ t_post l ++ ch_nl :: t_gap l.

Definition t_labels (l : tline) : list Z := dval (t_first l) :: map (fun p => dval (snd p)) (t_more l).

(** The rest of a line that holds a weight has a digit in it, and up to there it
    is a separator: no comment and no newline. *)
Definition holds_number (post : list byte) : Prop :=
  exists a c b, post = a ++ c :: b /\ separator a /\ is_digit c = true.

Definition wf_tline (weighted : bool) (order : nat) (fin : bool) (l : tline) : Prop :=
  length (t_labels l) = order /\
  digits (t_first l) /\ Forall (fun p => separator (fst p) /\ digits (snd p)) (t_more l) /\
  rest (t_post l) /\ (weighted = true -> holds_number (t_post l)) /\ gap fin (t_gap l).

Fixpoint wf_tlines (weighted : bool) (order : nat) (ls : list tline) : Prop :=
  match ls with
  | [] => True
  | [l] => wf_tline weighted order true l
  | l :: ls' => wf_tline weighted order false l /\ wf_tlines weighted order ls'
  end.

(** ** Files *)
Record tns_file := mkTns { tn_head : list byte; tn_lines : list tline }.
Definition tns_text (f : tns_file) : list byte := tn_head f ++ concat (map tline_text (tn_lines f)).
Definition wf_tns (weighted : bool) (order : nat) (f : tns_file) : Prop :=
  tn_lines f <> [] /\ gap false (tn_head f) /\ wf_tlines weighted order (tn_lines f).

(** All labels, entry by entry. *)
Definition tns_labels (f : tns_file) : list Z := concat (map t_labels (tn_lines f)).

(** ** The line that determines the order

    Nothing but spaces or a comment at the end of the line. *)
Definition ch_space : byte := 32%Z.
Definition plain_tail (s : list byte) : Prop :=
  exists sp t, s = sp ++ t /\ Forall (fun c => c = ch_space) sp /\
    match t with [] => True | c :: _ => is_cmt c = true end.
(** A separator that does not look like the continuation of a number. *)
Definition spacing (s : list byte) : Prop :=
  separator s /\ match s with [] => True | c :: _ => c <> ch_dot end.
(** A weight without an exponent: its first digit and what follows are digits
    and points. *)
Definition plain_weight (post : list byte) : Prop :=
  exists a c run t, post = a ++ c :: run ++ t /\ spacing a /\ is_digit c = true /\
    Forall (fun b => is_digit b = true \/ b = ch_dot) run /\ plain_tail t.
Definition plain_line (weighted : bool) (l : tline) : Prop :=
  Forall (fun p => spacing (fst p)) (t_more l) /\
  (if weighted then plain_weight (t_post l) else plain_tail (t_post l)).
Definition plain_first (weighted : bool) (f : tns_file) : Prop :=
  match tn_lines f with [] => True | l :: _ => plain_line weighted l end.
