(** * Race: executions that record their memory accesses

    Like [run] (Sched.v), for actions that know which thread performs them and
    with the accesses to shared memory that each action makes, in the state in
    which it is performed, recorded in a log. *)

From Verif Require Import Base Sched SpecRace.

Section Trace.
  Context {I : Type}.

  (** The remaining programs of the threads [t], [t+1], ..., one after the
      other. *)
  Fixpoint tag (t : nat) (ps : list (list I)) : list (nat * I) :=
    match ps with
    | [] => []
    | p :: ps' => map (pair t) p ++ tag (S t) ps'
    end.

  (** The interleaving that a schedule denotes, with the thread of each
      action. *)
  Fixpoint trace (sched : list nat) (ps : list (list I)) : list (nat * I) :=
    match sched with
    | [] => tag 0 ps
    | t :: sched' =>
        match pop t ps with
        | None => trace sched' ps
        | Some (i, ps') => (t, i) :: trace sched' ps'
        end
    end.
End Trace.

Section Log.
  Context {S I Loc : Type}.
  Variable exec : nat -> I -> S -> res S.
  Variable acc : nat -> I -> S -> list (access Loc).

  Fixpoint exec_log (l : list (nat * I)) (s : S) : res (S * log Loc) :=
    match l with
    | [] => Ok (s, [])
    | (t, i) :: l' =>
        s' <- exec t i s ;;
        '(s'', lg) <- exec_log l' s' ;;
        Ok (s'', map (pair t) (acc t i s) ++ lg)
    end.

  (** One barrier interval of a team. *)
  Definition interval (sched : list nat) (ps : list (list I)) (s : S) : res (S * log Loc) :=
    exec_log (trace sched ps) s.
End Log.
