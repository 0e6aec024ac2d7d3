(** * SpecTensorOut: the entries of a tensor and their text

    Independent of the code that writes them. *)

From Verif Require Import Base Bin.

(** [t] has [order] modes and exactly the entries [es]: labels and weight. *)
Definition tensor_holds {W : Type} (t : tensor W) (order : nat) (es : list (list Z * W)) : Prop :=
  te_order t = Z.of_nat order /\ te_m t = Z.of_nat (length es) /\
  Forall (fun e => length (fst e) = order) es /\
  te_c t = map Some (concat (map fst es)).
Definition tensor_weights {W : Type} (t : tensor W) (es : list (list Z * W)) : Prop :=
  te_w t = map (fun e => Some (snd e)) es.

(** The words of [l], with a space between any two. *)
Fixpoint spaced (l : list (list byte)) : list byte :=
  match l with
  | [] => []
  | [w] => w
  | w :: l' => w ++ [ch_sp] ++ spaced l'
  end.
(** One line: the labels, the weight if there is one, a newline. *)
Definition tensor_line {W : Type} (tx : Z -> list byte) (tw : option (W -> list byte)) (e : list Z * W) : list byte :=
  spaced (map tx (fst e) ++ match tw with None => [] | Some f => [f (snd e)] end) ++ [ch_nl].
Definition tensor_text {W : Type} (tx : Z -> list byte) (tw : option (W -> list byte)) (es : list (list Z * W)) : list byte :=
  concat (map (tensor_line tx tw) es).
