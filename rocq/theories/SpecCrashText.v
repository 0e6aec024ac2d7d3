(** * SpecCrashText: what is left of a text file that was not written to its end

    Vocabulary of C68. *)

From Verif Require Import Base.

(** A byte that no thread has stored yet: zero, or one at the end of the file.
    (A zero may also have been stored behind a floating-point number, to be
    overwritten by the newline.) *)
Definition blank (n i : nat) (b : byte) : Prop := b = 0%Z \/ (S i = n /\ b = 1%Z).

(** [s] has the length of the complete text [txt], and each byte is the one of
    [txt] or blank. *)
Definition partly_written (txt s : list byte) : Prop :=
  length s = length txt /\
  forall i b, nth_error s i = Some b -> nth_error txt i = Some b \/ blank (length txt) i b.

(** Thread by thread, the entries in [dones] are the first ones of [parts]. *)
Definition first_entries (dones parts : list (list nat)) : Prop :=
  Forall2 (fun d p => exists r, p = d ++ r) dones parts.
