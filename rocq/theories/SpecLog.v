(** * SpecLog: when a log of memory accesses tells everything (C57)

    [exec env t i s] is an action [i] of thread [t] on the state [s] and on
    arrays [env] that are only read; [acc] is what it logs.  [view env s l] is
    the cell at the location [l] of shared memory ([None]: there is no such
    cell) and [priv t s] the private variables of thread [t]. *)

From Verif Require Import Base SpecRace.

Section Log.
  Context {Env S I Loc V P : Type}.
  Variable exec : Env -> nat -> I -> S -> res S.
  Variable acc : Env -> nat -> I -> S -> list (access Loc).
  Variable view : Env -> S -> Loc -> option V.
  Variable priv : nat -> S -> P.

  (** An action changes only cells it logs as written, and the private
      variables of its own thread. *)
  Definition writes_logged : Prop :=
    forall env t i s s', exec env t i s = Ok s' ->
      (forall l, (forall k, In (l, k) (acc env t i s) -> k = Read) -> view env s' l = view env s l) /\
      (forall u, u <> t -> priv u s' = priv u s).

  (** What it does depends only on the cells it logs as read and on the private
      variables of its thread: on any other memory with the same content there
      (and cells at the same locations) it logs the same and writes the same. *)
  Definition reads_logged : Prop :=
    forall env1 env2 t i s1 s2 s1', exec env1 t i s1 = Ok s1' ->
      priv t s1 = priv t s2 ->
      (forall l, view env1 s1 l = None <-> view env2 s2 l = None) ->
      (forall l k, In (l, k) (acc env1 t i s1) -> k <> Write -> view env1 s1 l = view env2 s2 l) ->
      exists s2', exec env2 t i s2 = Ok s2' /\ acc env2 t i s2 = acc env1 t i s1 /\
        priv t s1' = priv t s2' /\
        (forall l k, In (l, k) (acc env1 t i s1) -> k <> Read -> view env1 s1' l = view env2 s2' l).

  Definition log_complete : Prop := writes_logged /\ reads_logged.
End Log.
