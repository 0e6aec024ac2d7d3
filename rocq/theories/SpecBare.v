(** * SpecBare: edge lists without weights

    Vocabulary of C60: files whose lines hold two labels and nothing else, and
    what a reader that expects a weight on every line makes of them. *)

From Verif Require Import Base Spec SpecFp WeightLemmas Coo ElSpec.

(** Space, tab, carriage return. *)
Definition blank (c : byte) : Prop := c = ch_sp \/ c = 9%Z \/ c = ch_cr.

(** A line [x y]: nothing but blanks follows the second label, and nothing but
    blanks and empty lines separates it from the next line. *)
Definition bare_line (l : line) : Prop :=
  digits (l_x l) /\ (l_sep l <> [] /\ Forall blank (l_sep l)) /\ digits (l_y l) /\
  Forall blank (l_post l) /\ Forall (fun c => blank c \/ c = ch_nl) (l_gap l).

(** The head may hold comments. *)
Definition bare_el (f : el_file) : Prop :=
  gap (match el_lines f with [] => true | _ => false end) (el_head f) /\
  Forall bare_line (el_lines f).

(** The value of a numeral as a weight of kind [k], the weight 0, and which
    numerals a weight can hold. *)
Definition wnum (k : wkind) : list byte -> wtype k :=
  match k with
  | WUnsigned _ | WSigned _ => fun ds => dval ds
  | WFloat F => fun ds => fp_value F (mkFplit SNone ds None None)
  end.
Definition wzero (k : wkind) : wtype k :=
  match k with
  | WUnsigned _ | WSigned _ => 0%Z
  | WFloat F => fp_zero F
  end.
Definition wholds (k : wkind) (ds : list byte) : Prop :=
  match k with
  | WUnsigned t | WSigned t => (dval ds <= imax t)%Z
  | WFloat _ => True
  end.

(** Every second line is swallowed: its first label becomes the weight of the
    line before it. *)
Fixpoint paired (ls : list line) : list (Z * Z * list byte) :=
  match ls with
  | l :: l' :: ls' => (dval (l_x l), dval (l_y l), l_x l') :: paired ls'
  | _ => []
  end.

(** [n] cells of which only the first are assigned. *)
Definition cells {A : Type} (n : nat) (l : list A) : list (option A) :=
  map Some l ++ repeat None (n - length l).

(** The cells of the three arrays that belong to the lines of one thread. *)
Definition bare_x (g : list line) : list (option Z) := cells (length g) (map (fun p => fst (fst p)) (paired g)).
Definition bare_y (g : list line) : list (option Z) := cells (length g) (map (fun p => snd (fst p)) (paired g)).
Definition bare_w (k : wkind) (g : list line) : list (option (wtype k)) :=
  cells (length g) (map (fun p => wnum k (snd p)) (paired g) ++ if Nat.odd (length g) then [wzero k] else []).
