(** * SpecRace: data races

    A data race (C++ [intro.races], OpenMP 5.0 section 1.4.1): two threads
    access the same memory location, at least one of the accesses is a write,
    the two are not ordered by synchronisation and not both atomic.  Within one
    barrier interval (from one barrier of the team to the next) nothing orders
    the accesses of different threads, so a log of such an interval is free of
    data races when no two of its accesses conflict. *)

From Verif Require Import Base.

Inductive kind := Read | Write | Atomic.

(** An access to a location, and an access by a thread. *)
Definition access (Loc : Type) : Type := (Loc * kind)%type.
Definition log (Loc : Type) : Type := list (nat * access Loc).

Definition conflict {Loc : Type} (a b : access Loc) : Prop :=
  fst a = fst b /\ ~ (snd a = Read /\ snd b = Read) /\ ~ (snd a = Atomic /\ snd b = Atomic).

Definition no_race {Loc : Type} (l : log Loc) : Prop :=
  forall t u a b, In (t, a) l -> In (u, b) l -> t <> u -> ~ conflict a b.
