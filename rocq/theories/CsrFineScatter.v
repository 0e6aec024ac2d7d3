(** * CsrFineScatter: the last barrier interval of [convert_coo_] *)

From Coq Require Import Permutation.
From Verif Require Import Base Sched SchedLemmas SchedMore Coo Ascii Csr SpecCsr CsrLemmas CsrScatter SpecRace Race RaceLemmas CsrFine CsrFinePhases.

(** The two models have the same actions. *)
Definition fine_of (i : sinstr) : finstr :=
  match i with Capture e => FCap e | StoreEnd e => FEnd e | StoreW e => FW e end.

Lemma scatter_prog_fine w es : scatter_prog_f w es = map fine_of (scatter_prog w es).
Proof.
  induction es as [|e es IH]; [reflexivity|]. unfold scatter_prog_f, scatter_prog in *. cbn [flat_map]. rewrite map_app, <- IH.
  destruct w; reflexivity.
Qed.

Section FineScatter.
  Context {W : Type}.
  Variable O : ity.
  Hypothesis HO : is_ity O.
  Variable c : coo W.
  Variable off : list (option Z).
  Variable weighted : bool.
  Variable es : list (Z * Z * W).
  Variable d0 : Z * Z * W.
  Variable n : nat.
  Variable mz : Z.
  Notation m := (length es).
  Notation E e := (nth e es d0).
  Hypothesis Hx : forall e, e < m -> nth_error (co_x c) e = Some (Some (fst (fst (E e)))).
  Hypothesis Hy : forall e, e < m -> nth_error (co_y c) e = Some (Some (snd (fst (E e)))).
  Hypothesis Hw : weighted = true -> forall e, e < m -> nth_error (co_w c) e = Some (Some (snd (E e))).
  Hypothesis Hsrc : forall e, e < m -> (0 <= fst (fst (E e)) < Z.of_nat n)%Z.
  Hypothesis Hm : (Z.of_nat m <= imax O)%Z.
  Variable parts : list (list nat).
  Hypothesis Hparts : Permutation (concat parts) (seq 0 m).
  Variable l : list sinstr.
  Notation ord := (caps l).
  Hypothesis Hord : Permutation ord (seq 0 m).
  Hypothesis Hend : forall l1 e l2, l = l1 ++ StoreEnd e :: l2 -> e < m /\ In (Capture e) l1.
  Hypothesis Hwgt : forall l1 e l2, l = l1 ++ StoreW e :: l2 -> weighted = true /\ e < m /\ In (Capture e) l1.
  Hypothesis Hall : forall e, e < m -> In (StoreEnd e) l /\ (weighted = true -> In (StoreW e) l).
  Hypothesis Hoff : forall v, v <= n -> nth_error off v = Some (Some (Z.of_nat (length (concat (firstn v (irows es d0 n l)))))).
  Variable T : nat.
  Hypothesis HT : length parts = T.

  Notation src := (src es d0).
  Notation cnt := (cnt es d0).
  Notation posn := (posn es d0 n l).
  Notation Inv := (Inv weighted es d0 n l).

  (** The value captured for entry [e]. *)
  Definition cap (e : nat) : Z := (Z.of_nat (cnt (src e) ord) - Z.of_nat (cnt (src e) (before e ord)))%Z.

  Variables deg start this my tot cur : list (option Z).
  Notation st lab en w pos := (mkF deg lab start off en w this my tot cur pos).

  (** What thread [t] still has to do, and what it has captured. *)
  Definition cL (t : nat) (p : list sinstr) (pos : list (option Z)) : Prop :=
    exists part rest hd, nth_error parts t = Some part /\ incl rest part /\ p = hd ++ scatter_prog weighted rest /\
      (hd = [] \/ exists e, In e part /\ nth_error pos t = Some (Some (cap e)) /\
         (hd = StoreEnd e :: (if weighted then [StoreW e] else []) \/ (weighted = true /\ hd = [StoreW e]))).

  Definition cA (t : nat) (a : access floc) : Prop :=
    (exists i, a = rd CooX i) \/ (exists i, a = rd CooY i) \/ (exists i, a = rd CooW i) \/ (exists i, a = rd Offsets i) \/
    (exists i, a = at_ LabelDegs i) \/
    (exists part e, nth_error parts t = Some part /\ In e part /\ (a = wr Endpoints (posn e) \/ a = wr Weights (posn e))).

  Lemma parts_lt t part e : nth_error parts t = Some part -> In e part -> e < m.
  Proof.
    intros Ht He. assert (H : In e (concat parts)) by (apply in_concat; exists part; split; [eapply nth_error_In; exact Ht|exact He]).
    apply (Permutation_in _ Hparts), in_seq in H. lia.
  Qed.

  Lemma cL_len t p pos : cL t p pos -> t < T.
  Proof. intros (part & _ & _ & H & _). rewrite <- HT. apply nth_error_Some. congruence. Qed.

  Lemma scatter_steps ps tl : steps ps tl -> forall p0 sc pos,
    l = p0 ++ map snd tl -> Inv p0 sc -> length pos = T ->
    (forall t p, nth_error ps t = Some p -> cL t p pos) ->
    exists sc' pos' lg, exec_log (fexec O true c n mz) (facc O true c n) (map (fun q => (fst q, fine_of (snd q))) tl)
        (st (sc_rem sc) (sc_end sc) (sc_w sc) pos) = Ok (st (sc_rem sc') (sc_end sc') (sc_w sc') pos', lg) /\
      exec_all (scexec O c off) (map snd tl) sc = Ok sc' /\
      Forall (fun q => cA (fst q) (snd q)) lg.
  Proof.
    induction 1 as [ps Hn|t ps i p tl Hp Hs IH]; intros p0 sc pos El HI Hpos HL.
    - cbn [map exec_log exec_all]. exists sc, pos, []. split; [reflexivity|]. split; [reflexivity|constructor].
    - cbn [map snd fst exec_log exec_all] in *.
      destruct (inv_step O HO c off weighted es d0 n Hx Hy Hw Hsrc Hm l Hord Hend Hwgt Hoff p0 i (map snd tl) sc El HI) as (sc1 & E1 & HI1).
      rewrite E1. cbn [bind].
      (* what the thread does next *)
      assert (HF : exists pos1 ac, fexec O true c n mz t (fine_of i) (st (sc_rem sc) (sc_end sc) (sc_w sc) pos) =
          Ok (st (sc_rem sc1) (sc_end sc1) (sc_w sc1) pos1) /\
          facc O true c n t (fine_of i) (st (sc_rem sc) (sc_end sc) (sc_w sc) pos) = ac /\ Forall (cA t) ac /\
          length pos1 = T /\ cL t p pos1 /\ (forall u, u <> t -> nth_error pos1 u = nth_error pos u)).
      { pose proof (HL t _ Hp) as HLt. pose proof (cL_len _ _ _ HLt) as HtT.
        destruct HLt as (part & rest & hd & Hpart & Hincl & Ep & Hhd).
        assert (Hsl : forall e, In e part -> nth_error pos t = Some (Some (cap e)) -> In e (caps p0) ->
            slot O c off sc e = Ok (posn e) /\ f_slot O c t e (st (sc_rem sc) (sc_end sc) (sc_w sc) pos) = Ok (posn e)).
        { intros e He Hpe Hc. pose proof (parts_lt _ _ _ Hpart He) as Hem.
          assert (S1 : slot O c off sc e = Ok (posn e)) by (apply (slot_ok O HO c off weighted es d0 n Hx Hsrc Hm l Hord Hoff p0); assumption).
          split; [exact S1|]. rewrite <- S1. unfold f_slot, slot. cbn [f_pos f_off]. apply bind_ext. intros x. apply bind_ext. intros j.
          rewrite (cell_of_some _ _ _ Hpe). destruct (I_reg _ _ _ _ _ _ _ HI) as [_ HR]. rewrite (cell_of_some _ _ _ (HR e Hc)). reflexivity. }
        assert (Hac : forall e (k : nat -> list (access floc)), In e part -> at_src c e k = k (src e)).
        { intros e k He. pose proof (parts_lt _ _ _ Hpart He) as Hem. unfold at_src. rewrite (cell_of_some _ _ _ (Hx e Hem)). cbn [bind].
          rewrite (idx_src es d0 n Hsrc e Hem). reflexivity. }
        destruct Hhd as [->|(e & He & Hpe & Hhd)].
        - (* capture *)
          cbn [app] in Ep. destruct rest as [|e rest]; [discriminate|].
          change (scatter_prog weighted (e :: rest)) with (([Capture e; StoreEnd e] ++ (if weighted then [StoreW e] else [])) ++ scatter_prog weighted rest) in Ep.
          cbn [app] in Ep. injection Ep as -> ->.
          assert (He : In e part) by (apply Hincl; left; reflexivity). pose proof (parts_lt _ _ _ Hpart He) as Hem.
          cbn [fine_of fexec facc]. cbn [scexec] in E1. rewrite (cell_of_some _ _ _ (Hx e Hem)) in *. cbn [bind] in *.
          rewrite (idx_src es d0 n Hsrc e Hem) in *. cbn [bind] in *.
          destruct (cell_of (src e) (sc_rem sc)) as [r| | |] eqn:Er; try discriminate. cbn [bind] in *.
          destruct (arith O (r - 1)%Z) as [r'| | |]; try discriminate. cbn [bind] in *.
          destruct (aset (src e) r' (sc_rem sc)) as [rem'| | |]; try discriminate. cbn [bind] in *.
          destruct (aset e r (sc_reg sc)) as [reg'| | |] eqn:Eg; try discriminate. cbn [bind] in E1. injection E1 as <-.
          rewrite aset_lt by lia. cbn [bind sc_rem sc_end sc_w].
          exists (upd t (Some r) pos). eexists. split; [reflexivity|]. split; [reflexivity|]. split; [|split; [|split]].
          + rewrite Hac by exact He. constructor; [left; eexists; reflexivity|]. constructor; [|constructor].
            do 4 right; left. eexists; reflexivity.
          + rewrite upd_length; exact Hpos.
          + assert (Ecap : Some (Some r) = Some (Some (cap e))).
            { destruct (I_reg _ _ _ _ _ _ _ HI1) as [_ HR]. cbn [sc_reg] in HR. transitivity (nth_error reg' e); [|apply HR].
              - unfold aset in Eg. destruct (Nat.ltb_spec e (length (sc_reg sc))); [|discriminate]. injection Eg as <-.
                symmetry. apply nth_error_upd_eq; assumption.
              - rewrite caps_app. apply in_or_app; right; left; reflexivity. }
            exists part, rest, (StoreEnd e :: (if weighted then [StoreW e] else [])). split; [exact Hpart|].
            split; [intros x Hx'; apply Hincl; right; exact Hx'|]. split; [reflexivity|]. right. exists e. split; [exact He|].
            split; [rewrite nth_error_upd_eq by lia; exact Ecap|]. left; reflexivity.
          + intros u Hu. apply nth_error_upd_ne. congruence.
        - pose proof (parts_lt _ _ _ Hpart He) as Hem. destruct Hhd as [->|[Ew ->]].
          + (* store the endpoint *)
            cbn [app] in Ep. injection Ep as -> ->. destruct (Hend _ _ _ El) as [_ Hc]. apply caps_in in Hc.
            destruct (Hsl e He Hpe Hc) as [S1 S2].
            cbn [fine_of fexec facc]. cbn [scexec] in E1. rewrite (cell_of_some _ _ _ (Hy e Hem)) in *. cbn [bind] in *.
            unfold at_slot. rewrite S1 in E1. rewrite S2. cbn [bind] in *.
            destruct (aset (posn e) (snd (fst (E e))) (sc_end sc)) as [en'| | |]; try discriminate. cbn [bind] in *. injection E1 as <-.
            cbn [sc_rem sc_end sc_w]. exists pos. eexists. split; [reflexivity|]. split; [reflexivity|]. split; [|split; [exact Hpos|split]].
            * rewrite Hac by exact He. constructor; [left; eexists; reflexivity|]. constructor; [right; left; eexists; reflexivity|].
              constructor; [do 3 right; left; eexists; reflexivity|]. constructor; [|constructor]. do 5 right. exists part, e. auto.
            * exists part, rest, (if weighted then [StoreW e] else []). split; [exact Hpart|]. split; [exact Hincl|]. split; [reflexivity|].
              destruct weighted; [|left; reflexivity]. right. exists e. split; [exact He|]. split; [exact Hpe|]. right; split; reflexivity.
            * reflexivity.
          + (* store the weight *)
            cbn [app] in Ep. injection Ep as -> ->. destruct (Hwgt _ _ _ El) as (_ & _ & Hc). apply caps_in in Hc.
            destruct (Hsl e He Hpe Hc) as [S1 S2].
            cbn [fine_of fexec facc]. cbn [scexec] in E1. rewrite (cell_of_some _ _ _ (Hw Ew e Hem)) in *. cbn [bind] in *.
            unfold at_slot. rewrite S1 in E1. rewrite S2. cbn [bind] in *.
            destruct (aset (posn e) (snd (E e)) (sc_w sc)) as [w'| | |]; try discriminate. cbn [bind] in *. injection E1 as <-.
            cbn [sc_rem sc_end sc_w]. exists pos. eexists. split; [reflexivity|]. split; [reflexivity|]. split; [|split; [exact Hpos|split]].
            * rewrite Hac by exact He. constructor; [left; eexists; reflexivity|]. constructor; [do 2 right; left; eexists; reflexivity|].
              constructor; [do 3 right; left; eexists; reflexivity|]. constructor; [|constructor]. do 5 right. exists part, e. auto.
            * exists part, rest, []. split; [exact Hpart|]. split; [exact Hincl|]. split; [reflexivity|]. left; reflexivity.
            * reflexivity. }
      destruct HF as (pos1 & ac & EF & EA & HA & Hpos1 & HL1 & Hfr). rewrite EF. cbn [bind].
      destruct (IH (p0 ++ [i]) sc1 pos1) as (sc' & pos' & lg & E2 & E3 & HA2).
      + rewrite <- app_assoc. exact El.
      + exact HI1.
      + exact Hpos1.
      + intros u q Hq. destruct (Nat.eq_dec t u) as [<-|Hne].
        * rewrite nth_error_upd_eq in Hq by (apply nth_error_Some; congruence). injection Hq as <-. exact HL1.
        * rewrite nth_error_upd_ne in Hq by exact Hne. destruct (HL u q Hq) as (part & rest & hd & Q1 & Q2 & Q3 & Q4).
          exists part, rest, hd. split; [exact Q1|]. split; [exact Q2|]. split; [exact Q3|].
          destruct Q4 as [Q4|(e & Q4 & Q5 & Q6)]; [left; exact Q4|right]. exists e. rewrite Hfr by congruence. auto.
      + rewrite E2. cbn [bind]. rewrite EA. exists sc', pos', (map (pair t) ac ++ lg). split; [reflexivity|]. split; [exact E3|].
        apply Forall_app. split; [|exact HA2]. apply Forall_forall. intros x Hx'. apply in_map_iff in Hx' as (a & <- & Ha).
        rewrite Forall_forall in HA. apply HA; exact Ha.
  Qed.

  Lemma parts_disjoint t u p q e : nth_error parts t = Some p -> nth_error parts u = Some q -> In e p -> In e q -> t = u.
  Proof.
    intros H1 H2 H3 H4. destruct (Nat.eq_dec t u) as [->|Hne]; [reflexivity|]. exfalso.
    assert (HN : NoDup (concat parts)) by (eapply Permutation_NoDup; [apply Permutation_sym, Hparts|apply seq_NoDup]).
    clear - HN H1 H2 H3 H4 Hne. revert t u H1 H2 Hne HN. induction parts as [|r rs IH]; intros t u H1 H2 Hne HN; [destruct t; discriminate|].
    cbn [concat] in HN. apply NoDup_app_inv in HN as (_ & HNr & HD).
    destruct t as [|t], u as [|u]; cbn [nth_error] in *.
    - congruence.
    - injection H1 as ->. apply (HD e H3). apply in_concat. exists q. split; [eapply nth_error_In; exact H2|exact H4].
    - injection H2 as ->. apply (HD e H4). apply in_concat. exists p. split; [eapply nth_error_In; exact H1|exact H3].
    - apply (IH t u H1 H2); [congruence|exact HNr].
  Qed.

  Lemma posn_inj e e' : e < m -> e' < m -> posn e = posn e' -> e = e'.
  Proof.
    intros H H' Eq. pose proof (posn_spec es d0 n Hsrc l Hord e H) as P1. pose proof (posn_spec es d0 n Hsrc l Hord e' H') as P2.
    rewrite Eq in P1. congruence.
  Qed.

  Lemma scatter_no_race lg : Forall (fun q => cA (fst q) (snd q)) lg -> no_race lg.
  Proof.
    intros HA. refine (no_race_from cA lg HA _). intros t u a b Ha Hb Hne (C1 & C2 & C3).
    assert (Hw1 : forall t a, cA t a -> snd a = Read /\ (forall i, fst a <> (Endpoints, i) /\ fst a <> (Weights, i) /\ fst a <> (LabelDegs, i)) \/
        (snd a = Atomic /\ exists i, fst a = (LabelDegs, i)) \/
        exists part e, nth_error parts t = Some part /\ In e part /\ (a = wr Endpoints (posn e) \/ a = wr Weights (posn e))).
    { clear. intros t a [(i & ->)|[(i & ->)|[(i & ->)|[(i & ->)|[(i & ->)|H]]]]]; cbn [fst snd rd at_];
        try (left; split; [reflexivity|]; intros j; repeat split; discriminate).
      - right; left. split; [reflexivity|]. eexists; reflexivity.
      - right; right. exact H. }
    apply Hw1 in Ha. apply Hw1 in Hb.
    destruct Ha as [(A1 & A2)|[(A1 & i & A2)|(p & e & A1 & A2 & A3)]], Hb as [(B1 & B2)|[(B1 & i' & B2)|(q & e' & B1 & B2 & B3)]].
    - tauto.
    - rewrite C1 in A2. destruct (A2 i') as (_ & _ & H). congruence.
    - rewrite C1 in A2. destruct (A2 (posn e')) as (K1 & K2 & _). destruct B3 as [->| ->]; cbn [fst wr] in *; congruence.
    - rewrite <- C1 in B2. destruct (B2 i) as (_ & _ & H). congruence.
    - tauto.
    - destruct B3 as [->| ->]; cbn [fst wr] in *; congruence.
    - rewrite <- C1 in B2. destruct (B2 (posn e)) as (K1 & K2 & _). destruct A3 as [->| ->]; cbn [fst wr] in *; congruence.
    - destruct A3 as [->| ->]; cbn [fst wr] in *; congruence.
    - assert (e = e').
      { apply posn_inj; [exact (parts_lt _ _ _ A1 A2)|exact (parts_lt _ _ _ B1 B2)|].
        destruct A3 as [->| ->], B3 as [->| ->]; cbn [fst wr] in C1; congruence. }
      subst e'. apply Hne. exact (parts_disjoint _ _ _ _ _ A1 B1 A2 B2).
  Qed.

  Theorem scatter_fine_ok sched sc pos : l = map snd (trace sched (map (scatter_prog weighted) parts)) ->
    Inv [] sc -> length pos = T ->
    exists sc' pos' lg, interval (fexec O true c n mz) (facc O true c n) sched (map (scatter_prog_f weighted) parts)
        (st (sc_rem sc) (sc_end sc) (sc_w sc) pos) = Ok (st (sc_rem sc') (sc_end sc') (sc_w sc') pos', lg) /\
      run (scexec O c off) sched (map (scatter_prog weighted) parts) sc = Ok sc' /\ no_race lg.
  Proof.
    intros El HI Hp.
    destruct (scatter_steps _ _ (trace_steps sched (map (scatter_prog weighted) parts)) [] sc pos El HI Hp) as (sc' & pos' & lg & E1 & E2 & HA).
    - intros t p Ht. rewrite nth_error_map in Ht. destruct (nth_error parts t) as [part|] eqn:Et; [|discriminate]. injection Ht as <-.
      exists part, part, []. split; [exact Et|]. split; [apply incl_refl|]. split; [reflexivity|]. left; reflexivity.
    - exists sc', pos', lg. split; [|split].
      + unfold interval. rewrite (map_ext _ _ (scatter_prog_fine weighted)), <- (map_map (scatter_prog weighted) (map fine_of)), trace_map. exact E1.
      + rewrite run_trace. exact E2.
      + apply scatter_no_race; exact HA.
  Qed.
End FineScatter.
