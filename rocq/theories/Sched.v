(** * Sched: threads and interleavings

    PIGO's parallel regions are OpenMP teams.  Between two barriers a thread
    executes a list of atomic actions on the shared state, and the actions of
    different threads interleave arbitrarily.  A schedule is a list of thread
    numbers: each element lets that thread perform its next action.  When the
    schedule is exhausted the threads that are not finished run to the end, one
    after the other, so every complete interleaving is [run sched] for some
    [sched] and every [sched] denotes a complete interleaving.

    Nothing here is specific to PIGO; the barriers (implicit at the end of
    [omp parallel], [omp for] and [omp single], explicit [omp barrier]) are
    modelled by sequencing calls of [run]. *)

From Verif Require Import Base.

Section Run.
  Context {S I : Type}.
  Variable exec : I -> S -> res S.

  Fixpoint exec_all (l : list I) (s : S) : res S :=
    match l with
    | [] => Ok s
    | i :: l' => s' <- exec i s ;; exec_all l' s'
    end.

  (** The next action of thread [t], and the programs after it. *)
  Fixpoint pop (t : nat) (ps : list (list I)) : option (I * list (list I)) :=
    match ps, t with
    | [], _ => None
    | p :: ps', O =>
        match p with
        | [] => None
        | i :: p' => Some (i, p' :: ps')
        end
    | p :: ps', Datatypes.S t' =>
        match pop t' ps' with
        | None => None
        | Some (i, ps'') => Some (i, p :: ps'')
        end
    end.

  Fixpoint run (sched : list nat) (ps : list (list I)) (s : S) : res S :=
    match sched with
    | [] => exec_all (concat ps) s
    | t :: sched' =>
        match pop t ps with
        | None => run sched' ps s
        | Some (i, ps') => s' <- exec i s ;; run sched' ps' s'
        end
    end.
End Run.

(** ** Arrays

    A freshly allocated array of [n] cells: [None] is an indeterminate
    value. *)
Definition fresh {V : Type} (n : nat) : list (option V) := repeat None n.

Fixpoint upd {V : Type} (i : nat) (v : V) (l : list V) : list V :=
  match l, i with
  | [], _ => []
  | _ :: l', O => v :: l'
  | a :: l', S i' => a :: upd i' v l'
  end.

(** A store [space[i] = v]: outside the allocation it is undefined behaviour
    (include/pigo.hpp:664-708). *)
Definition aset {V : Type} (i : nat) (v : V) (l : list (option V)) : res (list (option V)) :=
  if i <? length l then Ok (upd i (Some v) l) else UB.

(** A load [space[i]] (include/pigo.hpp:738-755): the cell, possibly
    indeterminate. *)
Definition aget {V : Type} (i : nat) (l : list (option V)) : res (option V) :=
  match nth_error l i with
  | Some c => Ok c
  | None => UB
  end.
