(** * SpecCsr: what compressed rows mean

    Rows as lists, independent of the model of the code except for the record
    [csr] of the object's observable contents. *)

From Coq Require Import Permutation.
From Verif Require Import Base Coo Csr.

(** The entries [(y, w)] of row [v] of a list of entries [(x, y, w)], in list
    order. *)
Definition row {W : Type} (l : list (Z * Z * W)) (v : nat) : list (Z * W) :=
  map (fun e => (snd (fst e), snd e)) (filter (fun e => (fst (fst e) =? Z.of_nat v)%Z) l).

(** All rows [0 .. n-1]. *)
Definition rows_of {W : Type} (n : nat) (l : list (Z * Z * W)) : list (list (Z * W)) :=
  map (row l) (seq 0 n).

(** [c] stores exactly the rows [rows], in this order: [offsets[v]] is the
    number of entries in the rows before [v], for [v = 0 .. n], the endpoints
    (and weights) are those of the rows one after the other. *)
Definition represents {W : Type} (weighted : bool) (c : csr W) (rows : list (list (Z * W))) : Prop :=
  cs_n c = Z.of_nat (length rows) /\
  cs_m c = Z.of_nat (length (concat rows)) /\
  cs_off c = map (fun v => Some (Z.of_nat (length (concat (firstn v rows))))) (seq 0 (S (length rows))) /\
  cs_end c = map (fun p => Some (fst p)) (concat rows) /\
  (weighted = true -> cs_w c = map (fun p => Some (snd p)) (concat rows)).

(** A legal choice of the run time system for a COO with [m] entries: at least
    one thread, the [single] block is run by one of the team, and the
    iterations [0 .. m-1] of both loops are distributed somehow. *)
Definition legal (m : nat) (ch : cchoice) : Prop :=
  0 < ch_T ch /\ ch_single ch < ch_T ch /\
  Permutation (concat (ch_parts1 ch)) (seq 0 m) /\
  Permutation (concat (ch_parts2 ch)) (seq 0 m).

(** [n + 1] does not overflow in the label type. *)
Definition room (L : ity) (n : Z) : Prop := (n <= imax L)%Z /\ (ibits L < 32 \/ n < imax L)%Z.

(** The entries [(x, y, w)] of rows, row by row. *)
Fixpoint entries_from {W : Type} (v : nat) (rows : list (list (Z * W))) : list (Z * Z * W) :=
  match rows with
  | [] => []
  | r :: rs => map (fun p => (Z.of_nat v, fst p, snd p)) r ++ entries_from (S v) rs
  end.
Definition entries {W : Type} (rows : list (list (Z * W))) : list (Z * Z * W) := entries_from 0 rows.

(** What the flags do to an entry when a COO is built from a CSR. *)
Definition from_csr {W : Type} (sym ut : bool) (e : Z * Z * W) : list (Z * Z * W) :=
  let '(x, y, w) := e in
  if sym then
    if ut then [(Z.min x y, Z.max x y, w)] else [(y, x, w); (x, y, w)]
  else [(x, y, w)].

(** Rows in ascending order of the endpoints. *)
From Coq Require Import Sorted.
Definition ascending {W : Type} (r : list (Z * W)) : Prop := StronglySorted Z.le (map fst r).
Definition strictly_ascending {W : Type} (r : list (Z * W)) : Prop := StronglySorted Z.lt (map fst r).

(** [(y, w)] is the first pair with endpoint [y] in [r]. *)
Definition first_of {W : Type} (r : list (Z * W)) (p : Z * W) : Prop :=
  exists a b, r = a ++ p :: b /\ ~ In (fst p) (map fst a).

Definition asc1 (l : list Z) : Prop := StronglySorted Z.le l.

(** What [std::sort] guarantees. *)
Record sorts {W : Type} (srt : list (Z * W) -> list (Z * W)) (srt1 : list Z -> list Z) : Prop := {
  so_perm : forall l, Permutation (srt l) l;
  so_asc : forall l, ascending (srt l);
  so_perm1 : forall l, Permutation (srt1 l) l;
  so_asc1 : forall l, asc1 (srt1 l)
}.

(** Row [r'] is row [r] sorted: the endpoints ascend, and the pairs (for an
    unweighted CSR the endpoints) are the same with the same multiplicities. *)
Definition sorted_from {W : Type} (weighted : bool) (r r' : list (Z * W)) : Prop :=
  ascending r' /\ if weighted then Permutation r' r else Permutation (map fst r') (map fst r).

(** Row [d] is row [r] without duplicates: each endpoint of [r] exactly once, in
    ascending order, each with the weight it has first in [r]. *)
Definition deduped {W : Type} (r d : list (Z * W)) : Prop :=
  strictly_ascending d /\
  (forall y, In y (map fst d) <-> In y (map fst r)) /\
  (forall p, In p d -> first_of r p).

(** How often [v] occurs among the endpoints of a row, and [(u, v)] among
    entries. *)
Definition times {W : Type} (v : Z) (r : list (Z * W)) : nat := length (filter (fun p => (fst p =? v)%Z) r).
Definition multiplicity {W : Type} (u v : Z) (l : list (Z * Z * W)) : nat :=
  length (filter (fun e => (fst (fst e) =? u)%Z && (snd (fst e) =? v)%Z) l).
