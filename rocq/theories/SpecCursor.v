(** * SpecCursor: positions in a text (C64) *)
From Verif Require Import Base.

Section Text.
  Variable s : list byte.

  (** The byte at position [i]; 0 beyond the end. *)
  Definition byte_at (i : nat) : byte := nth i s 0%Z.

  (** [k] is the first position from [d] on, below [e], at which [P] holds, or
      [e] if there is none. *)
  Definition first_pos (P : nat -> Prop) (d e k : nat) : Prop :=
    d <= k <= e /\ (forall i, d <= i < k -> ~ P i) /\ (k < e -> P k).

  Definition char (p : byte -> bool) (i : nat) : Prop := p (byte_at i) = true.
  Definition not_char (p : byte -> bool) (i : nat) : Prop := p (byte_at i) = false.

  (** Position [i] belongs to a comment that starts at or after [d]: a [%] or [#]
      and everything up to the next newline, the newline included. *)
  Definition in_comment (d i : nat) : Prop :=
    exists j, d <= j <= i /\ is_cmt (byte_at j) = true /\ (forall k, j <= k < i -> is_nl (byte_at k) = false).

  (** The text from [d] on starts with [t], with at least one byte of the range
      [d .. e-1] left behind it. *)
  Definition text_at (t : list byte) (d e : nat) : Prop :=
    d + length t < e /\ forall i, i < length t -> nth_error t i = Some (byte_at (d + i)).
End Text.
