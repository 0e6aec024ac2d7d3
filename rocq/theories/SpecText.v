(** * SpecText: the text of written files

    Independent of the model of the code. *)

From Verif Require Import Base.

(** One line of a written COO: the labels, and the weight if there is one. *)
Definition coo_line {W : Type} (tx : Z -> list byte) (tw : option (W -> list byte)) (e : Z * Z * W) : list byte :=
  let '(x, y, w) := e in
  tx x ++ [ch_sp] ++ tx y ++
  match tw with None => [] | Some f => [ch_sp] ++ f w end ++ [ch_nl].

Definition coo_text {W : Type} (tx : Z -> list byte) (tw : option (W -> list byte)) (es : list (Z * Z * W)) : list byte :=
  concat (map (coo_line tx tw) es).

(** The elements of [l] at the indices [is]. *)
Definition pick {A : Type} (l : list A) (is : list nat) : list A :=
  flat_map (fun i => match nth_error l i with Some a => [a] | None => [] end) is.
