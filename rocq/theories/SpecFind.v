(** * SpecFind: the positions of a byte *)
From Verif Require Import Base.

(** The positions of [c] in [s], ascending, counted from [i]. *)
Fixpoint offsets_from (i : nat) (c : byte) (s : list byte) : list nat :=
  match s with
  | [] => []
  | b :: s' => if (b =? c)%Z then i :: offsets_from (S i) c s' else offsets_from (S i) c s'
  end.
Definition offsets_of (c : byte) (s : list byte) : list nat := offsets_from 0 c s.
