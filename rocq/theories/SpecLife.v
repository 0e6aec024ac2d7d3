(** * SpecLife: what a constructor leaves behind in memory (C63) *)
From Verif Require Import Base Own.

(** The elements of block [p], if it has not been given back. *)
Definition elements (h : heap) (p : nat) : option nat :=
  match nth_error h p with Some (Live _ cs) => Some (length cs) | _ => None end.

(** [a] is a handle to a block of [n] elements that has not been given back. *)
Definition points_to (h : heap) (a : handle) (n : nat) : Prop :=
  exists p, a = Some p /\ elements h p = Some n.

(** Nobody but the constructor's own arrays was touched. *)
Definition spares_old (h h' : heap) : Prop := forall p, p < length h -> nth_error h' p = nth_error h p.

(** Block [p] of [n] elements was allocated during the call, has not been given
    back, and none of the handles [az] leads to it. *)
Definition lost (h h' : heap) (az : list handle) (p n : nat) : Prop :=
  length h <= p /\ elements h' p = Some n /\ ~ In (Some p) az.

(** Nothing of any size is lost. *)
Definition no_leak (h h' : heap) (az : list handle) : Prop := forall p n, ~ lost h h' az p n.
(** What is lost has no elements ([malloc(0)]). *)
Definition no_real_leak (h h' : heap) (az : list handle) : Prop := forall p n, lost h h' az p n -> n = 0.

(** Exactly these arrays are lost, in order of allocation. *)
Definition leaks (h h' : heap) (az : list handle) (ns : list nat) : Prop :=
  exists ps, NoDup ps /\ Forall2 (lost h h' az) ps ns /\ (forall p n, lost h h' az p n -> In p ps).
