(** * RaceLemmas: interleavings with logs *)

From Verif Require Import Base Sched SchedLemmas SchedMore SpecRace Race.

Section Trace.
  Context {I : Type}.

  Lemma tag_snd (ps : list (list I)) : forall t, map snd (tag t ps) = concat ps.
  Proof.
    induction ps as [|p ps IH]; intros t; [reflexivity|]. cbn [tag concat]. rewrite map_app, IH, map_map.
    cbn [snd]. rewrite map_id. reflexivity.
  Qed.

  Lemma run_trace {S} (exec : I -> S -> res S) sched : forall ps s,
    run exec sched ps s = exec_all exec (map snd (trace sched ps)) s.
  Proof.
    induction sched as [|t sched IH]; intros ps s; cbn [run trace].
    - rewrite tag_snd. reflexivity.
    - destruct (pop t ps) as [[i ps']|]; [|apply IH]. cbn [map snd exec_all]. apply bind_ext. intros a. apply IH.
  Qed.

  Lemma trace_merge sched : forall ps : list (list I), merge ps (map snd (trace sched ps)).
  Proof.
    induction sched as [|t sched IH]; intros ps; cbn [trace].
    - rewrite tag_snd. constructor.
    - destruct (pop t ps) as [[i ps']|] eqn:E; [|apply IH]. cbn [map snd]. econstructor; [exact E|apply IH].
  Qed.

  Lemma pop_nth t : forall (ps : list (list I)) i ps', pop t ps = Some (i, ps') ->
    exists p, nth_error ps t = Some (i :: p) /\ ps' = upd t p ps.
  Proof.
    induction t as [|t IH]; intros [|p ps] i ps' H; cbn [pop] in H; try discriminate.
    - destruct p as [|j p]; [discriminate|]. injection H as -> <-. exists p. split; reflexivity.
    - destruct (pop t ps) as [[k ps'']|] eqn:E; [|discriminate]. injection H as -> <-.
      destruct (IH _ _ _ E) as (q & Hq & ->). exists q. split; [exact Hq|reflexivity].
  Qed.

  (** Complete interleavings as sequences of steps. *)
  Inductive steps : list (list I) -> list (nat * I) -> Prop :=
  | steps_nil ps : (forall t p, nth_error ps t = Some p -> p = []) -> steps ps []
  | steps_pop t ps i p l : nth_error ps t = Some (i :: p) -> steps (upd t p ps) l -> steps ps ((t, i) :: l).

  Lemma steps_tag : forall ps (done : list (list I)), (forall t p, nth_error done t = Some p -> p = []) ->
    steps (done ++ ps) (tag (length done) ps).
  Proof.
    induction ps as [|p ps IH]; intros done Hd; cbn [tag].
    - constructor. rewrite app_nil_r. exact Hd.
    - induction p as [|i p IHp]; cbn [map app].
      + specialize (IH (done ++ [[]])). rewrite <- app_assoc in IH. cbn [app] in IH.
        rewrite app_length, Nat.add_1_r in IH. apply IH. intros t q H.
        destruct (Nat.lt_ge_cases t (length done)) as [Ht|Ht].
        * rewrite nth_error_app1 in H by exact Ht. eapply Hd; eassumption.
        * rewrite nth_error_app2 in H by exact Ht. destruct (t - length done) as [|k]; [injection H as <-; reflexivity|destruct k; discriminate].
      + apply (steps_pop _ _ _ p).
        * rewrite nth_error_app2, Nat.sub_diag by lia. reflexivity.
        * rewrite upd_mid. exact IHp.
  Qed.

  Lemma trace_steps sched : forall ps : list (list I), steps ps (trace sched ps).
  Proof.
    induction sched as [|t sched IH]; intros ps; cbn [trace].
    - apply (steps_tag ps []). intros t p H. destruct t; discriminate.
    - destruct (pop t ps) as [[i ps']|] eqn:E; [|apply IH].
      destruct (pop_nth _ _ _ _ E) as (p & Hp & ->). econstructor; [exact Hp|apply IH].
  Qed.

  (** Every action of the interleaving is in the program of its thread. *)
  Lemma steps_in ps l : steps ps l -> forall t i, In (t, i) l -> exists p, nth_error ps t = Some p /\ In i p.
  Proof.
    induction 1 as [ps Hn|t ps i p l Hp Hs IH]; intros u j Hj; [destruct Hj|].
    destruct Hj as [Hj|Hj].
    - injection Hj as <- <-. exists (i :: p). split; [exact Hp|left; reflexivity].
    - destruct (IH _ _ Hj) as (q & Hq & Hi). destruct (Nat.eq_dec t u) as [<-|Hne].
      + rewrite nth_error_upd_eq in Hq by (apply nth_error_Some; congruence). injection Hq as <-.
        exists (i :: p). split; [exact Hp|right; exact Hi].
      + rewrite nth_error_upd_ne in Hq by exact Hne. exists q. split; assumption.
  Qed.
End Trace.

(** The interleaving of programs that differ in their actions only. *)
Lemma tag_map {A B} (f : A -> B) ps : forall t,
  tag t (map (map f) ps) = map (fun x => (fst x, f (snd x))) (tag t ps).
Proof.
  induction ps as [|p ps IH]; intros t; [reflexivity|]. cbn [map tag]. rewrite map_app, IH, !map_map. reflexivity.
Qed.
Lemma pop_map {A B} (f : A -> B) t : forall ps,
  pop t (map (map f) ps) = match pop t ps with Some (i, ps') => Some (f i, map (map f) ps') | None => None end.
Proof.
  induction t as [|t IH]; intros [|p ps]; cbn [map pop]; try reflexivity.
  - destruct p as [|i p]; reflexivity.
  - rewrite IH. destruct (pop t ps) as [[i ps']|]; reflexivity.
Qed.
Lemma trace_map {A B} (f : A -> B) sched : forall ps,
  trace sched (map (map f) ps) = map (fun x => (fst x, f (snd x))) (trace sched ps).
Proof.
  induction sched as [|t sched IH]; intros ps; cbn [trace]; [apply tag_map|].
  rewrite pop_map. destruct (pop t ps) as [[i ps']|]; [|apply IH]. cbn [map fst snd]. rewrite IH. reflexivity.
Qed.

(** ** Thread-modular reasoning

    [G] holds of the state at all times, [L t p] when thread [t] still has to
    run [p], whatever the other threads do; thread [t] makes only the accesses
    [A t]. *)
Section Modular.
  Context {S I Loc : Type}.
  Variable exec : nat -> I -> S -> res S.
  Variable acc : nat -> I -> S -> list (access Loc).
  Variable G : S -> Prop.
  Variable L : nat -> list I -> S -> Prop.
  Variable A : nat -> access Loc -> Prop.
  Hypothesis step : forall t i p s, G s -> L t (i :: p) s ->
    exists s', exec t i s = Ok s' /\ G s' /\ L t p s' /\ Forall (A t) (acc t i s) /\
      (forall u q, u <> t -> L u q s -> L u q s').

  Lemma modular_steps ps l : steps ps l -> forall s, G s -> (forall t p, nth_error ps t = Some p -> L t p s) ->
    exists s' lg, exec_log exec acc l s = Ok (s', lg) /\ G s' /\ (forall t, t < length ps -> L t [] s') /\
      Forall (fun x => A (fst x) (snd x)) lg.
  Proof.
    induction 1 as [ps Hn|t ps i p l Hp Hs IH]; intros s HG HL; cbn [exec_log].
    - exists s, []. split; [reflexivity|]. split; [exact HG|]. split; [|constructor]. intros t Ht.
      destruct (nth_error ps t) as [p|] eqn:E; [|apply nth_error_None in E; lia].
      pose proof (Hn _ _ E) as ->. apply HL; exact E.
    - destruct (step t i p s HG (HL _ _ Hp)) as (s1 & E1 & HG1 & HL1 & HA & HO). rewrite E1. cbn [bind].
      destruct (IH s1 HG1) as (s' & lg & E & HG' & HL' & HA').
      { intros u q Hq. destruct (Nat.eq_dec t u) as [<-|Hne].
        - rewrite nth_error_upd_eq in Hq by (apply nth_error_Some; congruence). injection Hq as <-. exact HL1.
        - rewrite nth_error_upd_ne in Hq by exact Hne. apply HO; [congruence|]. apply HL; exact Hq. }
      rewrite E. cbn [bind]. exists s', (map (pair t) (acc t i s) ++ lg). split; [reflexivity|]. split; [exact HG'|].
      rewrite upd_length in HL'. split; [exact HL'|]. apply Forall_app. split; [|exact HA'].
      apply Forall_forall. intros x Hx. apply in_map_iff in Hx as (a & <- & Ha). rewrite Forall_forall in HA. apply HA; exact Ha.
  Qed.

  Theorem modular sched ps s : G s -> (forall t p, nth_error ps t = Some p -> L t p s) ->
    exists s' lg, interval exec acc sched ps s = Ok (s', lg) /\ G s' /\ (forall t, t < length ps -> L t [] s') /\
      Forall (fun x => A (fst x) (snd x)) lg.
  Proof. intros HG HL. exact (modular_steps _ _ (trace_steps sched ps) s HG HL). Qed.
End Modular.

(** Threads that may access disjoint locations only, or only read, or only
    atomically, do not race. *)
Lemma no_race_from {Loc} (A : nat -> access Loc -> Prop) (l : log Loc) :
  Forall (fun x => A (fst x) (snd x)) l ->
  (forall t u a b, A t a -> A u b -> t <> u -> ~ conflict a b) -> no_race l.
Proof. intros HF H t u a b Ha Hb. rewrite Forall_forall in HF. apply H; [exact (HF _ Ha)|exact (HF _ Hb)]. Qed.

(** ** Actions that do not depend on the thread *)
Section Static.
  Context {S I Loc : Type}.
  Variable exec : I -> S -> res S.
  Variable acc : nat -> I -> S -> list (access Loc).

  Lemma exec_log_run l : forall s s', exec_all exec (map snd l) s = Ok s' ->
    exists lg, exec_log (fun _ => exec) acc l s = Ok (s', lg) /\
      forall t a, In (t, a) lg -> exists i s0, In (t, i) l /\ In a (acc t i s0).
  Proof.
    induction l as [|[t i] l IH]; intros s s' E; cbn [map snd exec_all exec_log] in *.
    - injection E as <-. exists []. split; [reflexivity|]. intros t a [].
    - destruct (exec i s) as [s1| | |] eqn:E1; try discriminate. cbn [bind] in *. destruct (IH s1 s' E) as (lg & E2 & H). rewrite E2. cbn [bind].
      eexists. split; [reflexivity|]. intros u a Ha. apply in_app_or in Ha as [Ha|Ha].
      + apply in_map_iff in Ha as (x & Hx & Hi). injection Hx as <- <-. exists i, s. split; [left; reflexivity|exact Hi].
      + destruct (H u a Ha) as (j & s0 & Hj & Hj'). exists j, s0. split; [right; exact Hj|exact Hj'].
  Qed.

  (** What [run] returns, with a log; the log is free of races if the actions
      of different threads never conflict. *)
  Lemma interval_run sched ps s s' : run exec sched ps s = Ok s' ->
    (forall t u p q i j si sj a b, t <> u -> nth_error ps t = Some p -> nth_error ps u = Some q -> In i p -> In j q ->
       In a (acc t i si) -> In b (acc u j sj) -> ~ conflict a b) ->
    exists lg, interval (fun _ => exec) acc sched ps s = Ok (s', lg) /\ no_race lg.
  Proof.
    intros E HC. rewrite run_trace in E. destruct (exec_log_run _ _ _ E) as (lg & El & Hlg). exists lg. split; [exact El|].
    intros t u a b Ha Hb Hne. destruct (Hlg _ _ Ha) as (i & si & Hi & Hai). destruct (Hlg _ _ Hb) as (j & sj & Hj & Hbj).
    destruct (steps_in _ _ (trace_steps sched ps) _ _ Hi) as (p & Hp & Hip). destruct (steps_in _ _ (trace_steps sched ps) _ _ Hj) as (q & Hq & Hjq).
    exact (HC t u p q i j si sj a b Hne Hp Hq Hip Hjq Hai Hbj).
  Qed.
End Static.
