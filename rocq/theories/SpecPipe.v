(** * SpecPipe: the graph written in a file

    A file lists pairs of labels; these are the arcs of a graph on the vertices
    [0 .. n-1].  Independent of the model of the code except for the record
    [csr] and its queries [neighbors] and [degree]. *)

From Coq Require Import Permutation.
From Verif Require Import Base Spec Csr.

(** The number of vertices needed for the pairs: one more than the largest
    label. *)
Definition vertices (ps : list (Z * Z)) : Z := (1 + max_of (map fst ps ++ map snd ps))%Z.

(** The heads of the arcs from [u], the tails of the arcs to [v], in file
    order. *)
Definition succs (ps : list (Z * Z)) (u : Z) : list Z := map snd (filter (fun p => (fst p =? u)%Z) ps).
Definition preds (ps : list (Z * Z)) (v : Z) : list Z := map fst (filter (fun p => (snd p =? v)%Z) ps).

(** The same with weights. *)
Definition wsuccs {W : Type} (es : list (Z * Z * W)) (u : Z) : list (Z * W) :=
  map (fun e => (snd (fst e), snd e)) (filter (fun e => (fst (fst e) =? u)%Z) es).
Definition wpreds {W : Type} (es : list (Z * Z * W)) (v : Z) : list (Z * W) :=
  map (fun e => (fst (fst e), snd e)) (filter (fun e => (snd (fst e) =? v)%Z) es).

(** The number of lines "u v". *)
Definition lines (ps : list (Z * Z)) (u v : Z) : nat :=
  length (filter (fun p => (fst p =? u)%Z && (snd p =? v)%Z) ps).

(** What the queries answer: [n] vertices, [m] arcs, and for each vertex [u] the
    neighbours are [adj u], in some order. *)
Definition is_graph {W : Type} (O : ity) (c : csr W) (n m : Z) (adj : Z -> list Z) : Prop :=
  cs_n c = n /\ cs_m c = m /\
  forall u, (0 <= u < n)%Z -> exists ns, neighbors c (Z.to_nat u) = Ok ns /\
    degree O c (Z.to_nat u) = Ok (Z.of_nat (length (adj u))) /\ Permutation ns (adj u).

(** The weights: those of row [u], together with the neighbours, are [wadj u] in
    some order. *)
Definition has_weights {W : Type} (c : csr W) (n : Z) (wadj : Z -> list (Z * W)) : Prop :=
  forall u, (0 <= u < n)%Z -> exists b k r,
    nth_error (cs_off c) (Z.to_nat u) = Some (Some (Z.of_nat b)) /\
    nth_error (cs_off c) (Z.to_nat u + 1) = Some (Some (Z.of_nat (b + k))) /\
    firstn k (skipn b (cs_end c)) = map (fun p => Some (fst p)) r /\
    firstn k (skipn b (cs_w c)) = map (fun p => Some (snd p)) r /\
    Permutation r (wadj u).

(** The pairs that are not loops, if loops are to be removed, and the arcs of
    the undirected graph: each edge in both directions, a loop once. *)
Definition proper (sl : bool) (ps : list (Z * Z)) : list (Z * Z) :=
  if sl then filter (fun p => negb (fst p =? snd p)%Z) ps else ps.
Definition both_ways (ps : list (Z * Z)) : list (Z * Z) :=
  flat_map (fun p => if (fst p =? snd p)%Z then [p] else [p; (snd p, fst p)]) ps.
