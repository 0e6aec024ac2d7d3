(** * SpecTensorCut: tensor files whose last line has no newline

    Uses the grammar of [SpecTensor] only. *)
From Verif Require Import Base Spec SpecTensor.

(** The lines of [f], then the labels and the rest of [z] up to the end of the
    file. *)
Definition tcut_text (f : tns_file) (z : tline) : list byte := tns_text f ++ labels_text z ++ t_post z.
Definition wf_tcut (weighted : bool) (order : nat) (f : tns_file) (z : tline) : Prop :=
  tn_lines f <> [] /\ gap false (tn_head f) /\ Forall (wf_tline weighted order false) (tn_lines f) /\
  length (t_labels z) = order /\ digits (t_first z) /\
  Forall (fun p => separator (fst p) /\ digits (snd p)) (t_more z) /\ rest (t_post z).

(** A last line with fewer labels than the others: it ends with a newline, and
    no digit follows the labels that it has. *)
Definition nodigit (s : list byte) : Prop := Forall (fun c => is_digit c = false) s.
Definition short_line (order : nat) (z : tline) : Prop :=
  length (t_labels z) < order /\ digits (t_first z) /\ Forall (fun p => separator (fst p) /\ digits (snd p)) (t_more z) /\
  rest (t_post z) /\ gap true (t_gap z) /\ nodigit (t_post z) /\ nodigit (t_gap z).
Definition tshort_text (f : tns_file) (z : tline) : list byte := tns_text f ++ tline_text z.
Definition wf_tshort (order : nat) (f : tns_file) (z : tline) : Prop :=
  tn_lines f <> [] /\ gap false (tn_head f) /\ Forall (wf_tline false order false) (tn_lines f) /\ short_line order z.
