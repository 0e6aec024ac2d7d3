(** * RacyAny: what every interleaving of a weighted read that drops entries
      leaves in the arrays (C02) *)

From Verif Require Import Base Reader Sched SchedLemmas Spec SpecFp ReaderLemmas Coo CooLemmas CooExec
  CooSplit WeightLemmas CooMain ElSpec ElFinal ElThms ElBad SpecBare Bare Racy.

(** ** Invariants of interleavings *)
Section Inv.
  Context {S I : Type}.
  Variable exec : I -> S -> res S.
  Variable Inv : list (list I) -> S -> Prop.
  Hypothesis step : forall A i q B s, Inv (A ++ (i :: q) :: B) s -> exists s', exec i s = Ok s' /\ Inv (A ++ q :: B) s'.

  Lemma thread_inv q : forall A B s, Inv (A ++ q :: B) s -> exists s', exec_all exec q s = Ok s' /\ Inv (A ++ [] :: B) s'.
  Proof.
    induction q as [|i q IH]; intros A B s H; [exists s; auto|].
    destruct (step _ _ _ _ _ H) as (s1 & E1 & H1). cbn [exec_all]. rewrite E1. cbn [bind]. auto.
  Qed.

  Lemma exec_inv B : forall A s, Inv (A ++ B) s -> exists s', exec_all exec (concat B) s = Ok s' /\ Inv (A ++ nils B) s'.
  Proof.
    induction B as [|q B IH]; intros A s H; [exists s; auto|].
    cbn [concat nils map]. rewrite exec_all_app. destruct (thread_inv _ _ _ _ H) as (s1 & E1 & H1). rewrite E1. cbn [bind].
    destruct (IH (A ++ [[]]) s1) as (s2 & E2 & H2); [rewrite <- app_assoc; exact H1|].
    exists s2. split; [exact E2|]. rewrite <- app_assoc in H2. exact H2.
  Qed.

  Lemma run_inv sched : forall ps s, Inv ps s -> exists ps' s', run exec sched ps s = Ok s' /\ Inv (nils ps') s'.
  Proof.
    induction sched as [|t sched IH]; intros ps s H; cbn [run].
    - destruct (exec_inv ps [] s H) as (s' & E & H'). eauto.
    - destruct (pop t ps) as [[i ps']|] eqn:E; [|auto].
      apply pop_split in E as (A & q & B & -> & ->).
      destruct (step _ _ _ _ _ H) as (s1 & E1 & H1). rewrite E1. cbn [bind]. auto.
  Qed.
End Inv.

(** ** Stores of permitted values *)
Section Any.
  Context {W : Type}.
  Variable N : nat.
  Variables (VX VY : nat -> Z -> Prop) (VW : nat -> W -> Prop).

  Definition allowed (c : cinstr W) : Prop :=
    match c with
    | SetX i v => i < N /\ VX i v
    | SetY i v => i < N /\ VY i v
    | SetW i v => i < N /\ VW i v
    | CopyW a b => a < N /\ b < N /\ forall v, VW a v -> VW b v
    end.

  Definition isset {V} (l : list (option V)) (i : nat) : Prop := exists v, nth_error l i = Some (Some v).

  (** Copies are made of weights the thread has stored before. *)
  Fixpoint guarded (known : nat -> Prop) (q : list (cinstr W)) : Prop :=
    match q with
    | [] => True
    | SetW a _ :: q' => guarded (fun i => i = a \/ known i) q'
    | CopyW a b :: q' => known a /\ guarded (fun i => i = b \/ known i) q'
    | _ :: q' => guarded known q'
    end.

  Lemma guarded_mono q : forall k1 k2 : nat -> Prop, (forall i, k1 i -> k2 i) -> guarded k1 q -> guarded k2 q.
  Proof.
    induction q as [|c q IH]; intros k1 k2 H G; [exact Logic.I|].
    destruct c; cbn [guarded] in *.
    1,2: eauto.
    - eapply IH; [|exact G]. intros i' [->|Hi]; [now left|right; auto].
    - destruct G as [Ga G]. split; [auto|]. eapply IH; [|exact G]. intros i' [->|Hi]; [now left|right; auto].
  Qed.

  Definition cells {V} (P : nat -> V -> Prop) (l : list (option V)) : Prop := forall i v, nth_error l i = Some (Some v) -> P i v.

  Definition fx (i : nat) (c : cinstr W) : Prop := match c with SetX j _ => j = i | _ => False end.
  Definition fy (i : nat) (c : cinstr W) : Prop := match c with SetY j _ => j = i | _ => False end.
  Definition fw (i : nat) (c : cinstr W) : Prop := match c with SetW j _ => j = i | CopyW _ j => j = i | _ => False end.
  Definition due {V} (f : nat -> cinstr W -> Prop) (l : list (option V)) (ps : list (list (cinstr W))) : Prop :=
    forall i, i < N -> isset l i \/ Exists (Exists (f i)) ps.

  Record inv (ps : list (list (cinstr W))) (s : cst W) : Prop := {
    iv_lx : length (cx s) = N; iv_ly : length (cy s) = N; iv_lw : length (cw s) = N;
    iv_x : cells VX (cx s); iv_y : cells VY (cy s); iv_w : cells VW (cw s);
    iv_a : Forall (Forall allowed) ps;
    iv_g : Forall (guarded (isset (cw s))) ps;
    iv_dx : due fx (cx s) ps; iv_dy : due fy (cy s) ps; iv_dw : due fw (cw s) ps
  }.

  Lemma isset_upd {V} (l : list (option V)) i j v : isset l i -> isset (upd j (Some v) l) i.
  Proof.
    intros [u Hu]. destruct (Nat.eq_dec j i) as [->|Hne].
    - exists v. apply nth_error_upd_eq. apply nth_error_Some. congruence.
    - exists u. rewrite nth_error_upd_ne by exact Hne. exact Hu.
  Qed.
  Lemma isset_upd_eq {V} (l : list (option V)) j v : j < length l -> isset (upd j (Some v) l) j.
  Proof. intros H. exists v. apply nth_error_upd_eq. exact H. Qed.
  Lemma cells_upd {V} (P : nat -> V -> Prop) l j v : cells P l -> P j v -> cells P (upd j (Some v) l).
  Proof.
    intros Hc Hv i u Hu. destruct (Nat.eq_dec j i) as [->|Hne].
    - assert (i < length l) by (rewrite <- (upd_length i (Some v) l); apply nth_error_Some; congruence).
      rewrite nth_error_upd_eq in Hu by assumption. injection Hu as ->. exact Hv.
    - rewrite nth_error_upd_ne in Hu by exact Hne. auto.
  Qed.
  Lemma due_step {V} f (l l' : list (option V)) A c q B : due f l (A ++ (c :: q) :: B) ->
    (forall i, isset l i -> isset l' i) -> (forall i, f i c -> isset l' i) -> due f l' (A ++ q :: B).
  Proof.
    intros H H1 H2 i Hi. destruct (H i Hi) as [Hs|He]; [left; auto|].
    rewrite Exists_app, Exists_cons in He. rewrite Exists_app, Exists_cons.
    destruct He as [He|[He|He]]; auto. apply Exists_cons in He as [He|He]; auto.
  Qed.
  Lemma forall_step {X} (P : list X -> Prop) A (c : X) q B : (P (c :: q) -> P q) ->
    Forall P (A ++ (c :: q) :: B) -> Forall P (A ++ q :: B).
  Proof.
    intros Hp H. apply Forall_app in H as [HA HB]. inversion HB; subst. apply Forall_app. split; [exact HA|]. constructor; auto.
  Qed.
  Lemma forall_mid {X} (P : list X -> Prop) A q B : Forall P (A ++ q :: B) -> P q.
  Proof. intros H. apply Forall_app in H as [_ HB]. inversion HB; assumption. Qed.

  Lemma inv_step A c q B s : inv (A ++ (c :: q) :: B) s -> exists s', cexec c s = Ok s' /\ inv (A ++ q :: B) s'.
  Proof.
    intros [L1 L2 L3 C1 C2 C3 Al Gu D1 D2 D3].
    pose proof (forall_mid _ _ _ _ Al) as Hc. inversion Hc as [|? ? Hc0 _]; subst. clear Hc.
    assert (Al' : Forall (Forall allowed) (A ++ q :: B)) by (eapply forall_step; [|exact Al]; intros H; inversion H; assumption).
    pose proof (forall_mid _ _ _ _ Gu) as Hg.
    destruct c as [i v|i v|i v|a b]; cbn [allowed cexec] in *.
    - destruct Hc0 as [Hi Hv]. unfold aset. rewrite L1. destruct (Nat.ltb_spec i N); [|lia]. cbn [bind].
      eexists. split; [reflexivity|]. constructor; cbn [cx cy cw]; rewrite ?upd_length; auto.
      + apply cells_upd; auto.
      + eapply forall_step; [|exact Gu]. cbn [guarded]. auto.
      + eapply due_step; [exact D1| |]; [intros j; apply isset_upd|]. intros j H'; cbn [fx] in H'; subst. apply isset_upd_eq. lia.
      + eapply due_step; [exact D2|auto|]. intros j [].
      + eapply due_step; [exact D3|auto|]. intros j [].
    - destruct Hc0 as [Hi Hv]. unfold aset. rewrite L2. destruct (Nat.ltb_spec i N); [|lia]. cbn [bind].
      eexists. split; [reflexivity|]. constructor; cbn [cx cy cw]; rewrite ?upd_length; auto.
      + apply cells_upd; auto.
      + eapply forall_step; [|exact Gu]. cbn [guarded]. auto.
      + eapply due_step; [exact D1|auto|]. intros j [].
      + eapply due_step; [exact D2| |]; [intros j; apply isset_upd|]. intros j H'; cbn [fy] in H'; subst. apply isset_upd_eq. lia.
      + eapply due_step; [exact D3|auto|]. intros j [].
    - destruct Hc0 as [Hi Hv]. unfold aset. rewrite L3. destruct (Nat.ltb_spec i N); [|lia]. cbn [bind].
      eexists. split; [reflexivity|]. constructor; cbn [cx cy cw]; rewrite ?upd_length; auto.
      + apply cells_upd; auto.
      + apply Forall_app in Gu as [GA GB]. inversion GB as [|? ? GB1 GB2]; subst. apply Forall_app. split; [|constructor].
        * eapply Forall_impl; [|exact GA]. intros p. apply guarded_mono. intros j. apply isset_upd.
        * cbn [guarded] in GB1. eapply guarded_mono; [|exact GB1]. intros j [->|Hj]; [apply isset_upd_eq; lia|apply isset_upd; exact Hj].
        * eapply Forall_impl; [|exact GB2]. intros p. apply guarded_mono. intros j. apply isset_upd.
      + eapply due_step; [exact D1|auto|]. intros j [].
      + eapply due_step; [exact D2|auto|]. intros j [].
      + eapply due_step; [exact D3| |]; [intros j; apply isset_upd|]. intros j H'; cbn [fw] in H'; subst. apply isset_upd_eq. lia.
    - destruct Hc0 as (Ha & Hb & Hv). cbn [guarded] in Hg. destruct Hg as [[u Hu] _]. unfold aget. rewrite Hu. cbn [bind].
      rewrite L3. destruct (Nat.ltb_spec b N); [|lia].
      eexists. split; [reflexivity|]. constructor; cbn [cx cy cw]; rewrite ?upd_length; auto.
      + apply cells_upd; auto.
      + apply Forall_app in Gu as [GA GB]. inversion GB as [|? ? GB1 GB2]; subst. apply Forall_app. split; [|constructor].
        * eapply Forall_impl; [|exact GA]. intros p. apply guarded_mono. intros j. apply isset_upd.
        * cbn [guarded] in GB1. destruct GB1 as [_ GB1]. eapply guarded_mono; [|exact GB1]. intros j [->|Hj]; [apply isset_upd_eq; lia|apply isset_upd; exact Hj].
        * eapply Forall_impl; [|exact GB2]. intros p. apply guarded_mono. intros j. apply isset_upd.
      + eapply due_step; [exact D1|auto|]. intros j [].
      + eapply due_step; [exact D2|auto|]. intros j [].
      + eapply due_step; [exact D3| |]; [intros j; apply isset_upd|]. intros j H'; cbn [fw] in H'; subst. apply isset_upd_eq. lia.
  Qed.

  Lemma isset_fresh {V} n i : ~ isset (@fresh V n) i.
  Proof. intros [v Hv]. apply nth_error_In in Hv. apply repeat_spec in Hv. discriminate. Qed.

  (** Every interleaving ends with every cell set to a permitted value. *)
  Lemma any_order sched ps : Forall (Forall allowed) ps -> Forall (guarded (fun _ => False)) ps ->
    (forall i, i < N -> Exists (Exists (fx i)) ps /\ Exists (Exists (fy i)) ps /\ Exists (Exists (fw i)) ps) ->
    exists s, run cexec sched ps (mkCst (fresh N) (fresh N) (fresh N)) = Ok s /\
      length (cx s) = N /\ length (cy s) = N /\ length (cw s) = N /\
      (forall i, i < N -> exists v, nth_error (cx s) i = Some (Some v) /\ VX i v) /\
      (forall i, i < N -> exists v, nth_error (cy s) i = Some (Some v) /\ VY i v) /\
      (forall i, i < N -> exists v, nth_error (cw s) i = Some (Some v) /\ VW i v).
  Proof.
    intros Ha Hg Hd.
    assert (H0 : inv ps (mkCst (fresh N) (fresh N) (fresh N))).
    { constructor; cbn [cx cy cw]; rewrite ?fresh_length; auto.
      1-3: intros i v Hv; exfalso; eapply isset_fresh; eexists; exact Hv.
      - eapply Forall_impl; [|exact Hg]. intros p. apply guarded_mono. intros i [].
      - intros i Hi. right. apply Hd. exact Hi.
      - intros i Hi. right. apply Hd. exact Hi.
      - intros i Hi. right. apply Hd. exact Hi. }
    destruct (run_inv cexec inv inv_step sched ps _ H0) as (ps' & s & E & [L1 L2 L3 C1 C2 C3 _ _ D1 D2 D3]).
    exists s. split; [exact E|]. do 3 (split; [assumption|]).
    assert (Hn : forall f, ~ Exists (Exists f) (nils ps' : list (list (cinstr W)))).
    { intros f. clear. induction ps' as [|p ps' IH]; cbn [nils map]; intros H; [inversion H|]. apply Exists_cons in H as [H|H]; [inversion H|auto]. }
    split; [|split]; intros i Hi.
    - destruct (D1 i Hi) as [[v Hv]|H]; [eauto|exfalso; eapply Hn; exact H].
    - destruct (D2 i Hi) as [[v Hv]|H]; [eauto|exfalso; eapply Hn; exact H].
    - destruct (D3 i Hi) as [[v Hv]|H]; [eauto|exfalso; eapply Hn; exact H].
  Qed.
End Any.

(** ** The stores of the threads *)
Lemma expand_doubled {W} fl (p : line * W) :
  let x0 := dval (l_x (fst p)) in
  let y0 := dval (l_y (fst p)) in
  let x := if f_sym fl && f_ut fl && (y0 <? x0)%Z then y0 else x0 in
  let y := if f_sym fl && f_ut fl && (y0 <? x0)%Z then x0 else y0 in
  doubled fl x0 y0 = true -> expand (f_sym fl) (f_ut fl) (f_sl fl) (ent p) = [(x, y, snd p); (y, x, snd p)].
Proof.
  intros x0 y0 x y H. unfold doubled in H. unfold expand, ent. fold x0 y0. unfold x, y.
  destruct fl as [[] [] sl']; cbn in H; try discriminate. cbn. destruct (x0 =? y0)%Z; [discriminate|]. rewrite andb_false_r. reflexivity.
Qed.

Section Codes.
  Context {W : Type}.
  Variable w : wrd W.
  Let wr := Some w.
  Variable fl : flags.
  Variable wz : W.
  Let ex (p : line * W) := expand (f_sym fl) (f_ut fl) (f_sl fl) (ent p).
  Variable all : list (line * W).
  Hypothesis Hlast : lastdrop fl all = false.
  Let outp (l : list (line * W)) := flat_map (expand (f_sym fl) (f_ut fl) (f_sl fl)) (map ent l).

  Lemma total_outp l : total fl l = length (outp l).
  Proof. reflexivity. Qed.
  Lemma outp_app a b : outp (a ++ b) = outp a ++ outp b.
  Proof. unfold outp. rewrite map_app. apply flat_map_app. Qed.
  Lemma outp_cons p l : outp (p :: l) = ex p ++ outp l.
  Proof. reflexivity. Qed.

  Lemma total_cut a p b : total fl (a ++ p :: b) = total fl a + (length (ex p) + total fl b).
  Proof. rewrite total_app, total_cons. reflexivity. Qed.

  (** Cell [i] belongs to an entry that follows a dropped one. *)
  Definition suspect (i : nat) : Prop :=
    exists pre p q post, all = pre ++ p :: q :: post /\ drop fl p = true /\ total fl pre <= i < total fl pre + length (ex q).
  Definition PX (i : nat) (v : Z) : Prop := exists e, nth_error (outp all) i = Some e /\ v = fst (fst e).
  Definition PY (i : nat) (v : Z) : Prop := exists e, nth_error (outp all) i = Some e /\ v = snd (fst e).
  Definition PW (i : nat) (v : W) : Prop := exists e, nth_error (outp all) i = Some e /\
    (v = snd e \/ suspect i /\ (v = wz \/ exists p, In p all /\ drop fl p = true /\ v = snd p)).
  Let ok := allowed (total fl all) PX PY PW.

  Lemma in_out i e : nth_error (outp all) i = Some e -> i < total fl all.
  Proof. intros H. rewrite total_outp. apply nth_error_Some. congruence. Qed.

  Lemma nth_here pre p post j e : all = pre ++ p :: post -> nth_error (ex p) j = Some e -> nth_error (outp all) (total fl pre + j) = Some e.
  Proof.
    intros -> He. rewrite outp_app, outp_cons. rewrite nth_error_app2; rewrite total_outp; [|lia].
    replace (length (outp pre) + j - length (outp pre)) with j by lia. rewrite nth_error_app1; [exact He|]. apply nth_error_Some. congruence.
  Qed.

  Lemma lastdrop_app (a : list (line * W)) p b : lastdrop fl (a ++ p :: b) = lastdrop fl (p :: b).
  Proof.
    induction a as [|q a IH]; [reflexivity|]. cbn [app]. destruct (a ++ p :: b) eqn:E; [destruct a; discriminate|]. exact IH.
  Qed.

  Lemma after_drop post : forall pre p, all = pre ++ p :: post -> drop fl p = true ->
    (exists e, nth_error (outp all) (total fl pre) = Some e) /\ suspect (total fl pre).
  Proof.
    induction post as [|q post IH]; intros pre p Ha Hd.
    - exfalso. rewrite Ha, lastdrop_app in Hlast. cbn [lastdrop] in Hlast. congruence.
    - assert (E : total fl (pre ++ [p]) = total fl pre).
      { unfold total. rewrite map_app, flat_map_app. cbn [map flat_map]. apply drop_expand in Hd. rewrite Hd. cbn [app]. rewrite app_nil_r. reflexivity. }
      destruct (drop fl q) eqn:Hq.
      + specialize (IH (pre ++ [p]) q). rewrite E, <- app_assoc in IH. exact (IH Ha Hq).
      + pose proof (doubled_expand fl q Hq) as Hl. fold (ex q) in Hl.
        assert (Hn : 0 < length (ex q)) by (destruct (doubled _ _ _) in Hl; lia).
        split.
        * destruct (ex q) as [|e r] eqn:Eq; [cbn in Hn; lia|]. exists e.
          pose proof (nth_here (pre ++ [p]) q post 0 e) as H. rewrite E, <- app_assoc, Eq, Nat.add_0_r in H. apply H; [exact Ha|reflexivity].
        * exists pre, p, q, post. split; [exact Ha|]. split; [exact Hd|]. lia.
  Qed.

  Lemma suspect_next pre p post : all = pre ++ p :: post -> drop fl p = false -> length (ex p) = 2 ->
    suspect (total fl pre) -> suspect (total fl pre + 1).
  Proof.
    intros Ha Hd H2 (pre' & p' & q' & post' & Ha' & Hd' & Hi).
    rewrite Ha in Ha'.
    destruct (Nat.lt_trichotomy (length pre) (S (length pre'))) as [Hlt|[He|Hgt]].
    - exfalso.
      assert (Hl : firstn (length pre') (pre ++ p :: post) = pre') by (rewrite Ha', firstn_app, Nat.sub_diag, firstn_all; apply app_nil_r).
      destruct (Nat.eq_dec (length pre) (length pre')) as [E|E].
      + assert (pre = pre' /\ p :: post = p' :: q' :: post') as [_ X] by (apply app_eq_app in Ha'; destruct Ha' as (l & [[-> X]|[-> X]]); rewrite app_length in E; (destruct l; [rewrite app_nil_r; auto|cbn in E; lia])).
        injection X as -> _. congruence.
      + rewrite firstn_app, firstn_all2 in Hl by lia. destruct (length pre' - length pre) as [|z] eqn:Ez; [lia|]. cbn [firstn] in Hl.
        assert (X : total fl pre' = total fl pre + (length (ex p) + total fl (firstn z post))) by (rewrite <- Hl; apply total_cut). lia.
    - assert (pre = pre' ++ [p'] /\ p :: post = q' :: post') as [-> X].
      { replace (pre' ++ p' :: q' :: post') with ((pre' ++ [p']) ++ q' :: post') in Ha' by (rewrite <- app_assoc; reflexivity).
        apply app_eq_app in Ha'; destruct Ha' as (l & [[X Y]|[X Y]]); pose proof (f_equal (@length _) X) as Z; rewrite !app_length in Z; cbn in Z; (destruct l; [rewrite app_nil_r in X; auto|cbn in Z; lia]). }
      injection X as -> ->. exists pre', p', q', post'. split; [rewrite Ha, <- app_assoc; reflexivity|]. split; [exact Hd'|].
      assert (E : total fl (pre' ++ [p']) = total fl pre').
      { unfold total. rewrite map_app, flat_map_app. cbn [map flat_map]. apply drop_expand in Hd'. rewrite Hd'. cbn [app]. rewrite app_nil_r. reflexivity. }
      lia.
    - exfalso.
      assert (Hl : exists z, pre = pre' ++ p' :: q' :: z).
      { assert (E : firstn (length pre) (pre' ++ p' :: q' :: post') = pre) by (rewrite <- Ha', firstn_app, Nat.sub_diag, firstn_all; apply app_nil_r).
        rewrite firstn_app, firstn_all2 in E by lia. destruct (length pre - length pre') as [|[|z]] eqn:Ez; [lia|lia|]. cbn [firstn] in E. eauto. }
      destruct Hl as (z & ->). rewrite (total_cut pre' p' (q' :: z)), total_cons in Hi. unfold ex in Hi. lia.
  Qed.

  Lemma line_ok pre p post : all = pre ++ p :: post -> Forall ok (line_code wr fl (total fl pre) p).
  Proof.
    intros Ha. unfold line_code. destruct (drop fl p) eqn:Hd.
    - destruct (after_drop post pre p Ha Hd) as [(e & He) Hs]. cbn [wcode wr]. constructor; [|constructor].
      split; [eapply in_out; exact He|]. exists e. split; [exact He|]. right. split; [exact Hs|]. right. exists p. rewrite Ha. split; [apply in_elt|auto].
    - pose proof (kept_keep fl p Hd) as Hk. cbn zeta in Hk. pose proof (doubled_expand fl p Hd) as Hl. fold (ex p) in Hl.
      rewrite doubled_swap. set (x0 := dval (l_x (fst p))) in *. set (y0 := dval (l_y (fst p))) in *.
      set (x := if f_sym fl && f_ut fl && (y0 <? x0)%Z then y0 else x0) in *.
      set (y := if f_sym fl && f_ut fl && (y0 <? x0)%Z then x0 else y0) in *.
      unfold kept in Hk. fold (ex p) in Hk.
      assert (H0 : nth_error (outp all) (total fl pre) = Some (x, y, snd p)).
      { rewrite <- (Nat.add_0_r (total fl pre)). apply (nth_here pre p post); [exact Ha|]. destruct (ex p); [discriminate|]. cbn [firstn] in Hk. injection Hk as ->. reflexivity. }
      assert (B : Forall ok (wcode wr (total fl pre) (snd p) ++ [SetX (total fl pre) x; SetY (total fl pre) y])).
      { cbn [wcode wr app]. pose proof (in_out _ _ H0). repeat constructor; try assumption; eexists; (split; [exact H0|]); auto. }
      destruct (doubled fl x0 y0) eqn:Edb; [|exact B].
      assert (Hex : ex p = [(x, y, snd p); (y, x, snd p)]).
      { apply expand_doubled. exact Edb. }
      assert (H1 : nth_error (outp all) (total fl pre + 1) = Some (y, x, snd p)) by (apply (nth_here pre p post); [exact Ha|rewrite Hex; reflexivity]).
      apply Forall_app. split; [exact B|]. cbn [wr app]. pose proof (in_out _ _ H0). pose proof (in_out _ _ H1).
      constructor; [|constructor; [|constructor; [|constructor]]].
      + split; [assumption|]. split; [assumption|]. intros v (e & He & Hv). rewrite H0 in He. assert (e = (x, y, snd p)) by congruence. subst e.
        exists (y, x, snd p). split; [exact H1|]. destruct Hv as [Hv|[Hs Hv]]; [left; exact Hv|]. right. split; [|exact Hv].
        apply (suspect_next pre p post Ha Hd); [rewrite Hex; reflexivity|exact Hs].
      + split; [assumption|]. exists (y, x, snd p). auto.
      + split; [assumption|]. exists (y, x, snd p). auto.
  Qed.

  Lemma codes_ok mid : forall pre post, all = pre ++ mid ++ post -> Forall ok (codes wr fl (total fl pre) mid).
  Proof.
    induction mid as [|p mid IH]; intros pre post Ha; cbn [codes]; [constructor|].
    apply Forall_app. split; [apply (line_ok pre p (mid ++ post) Ha)|].
    specialize (IH (pre ++ [p]) post). rewrite <- app_assoc in IH. specialize (IH Ha).
    replace (total fl (pre ++ [p])) with (total fl pre + length (expand (f_sym fl) (f_ut fl) (f_sl fl) (ent p))) in IH; [exact IH|].
    unfold total. rewrite map_app, flat_map_app, app_length. cbn [map flat_map]. rewrite app_nil_r. reflexivity.
  Qed.

  Lemma codesT_ok mm e d pre mid post : all = pre ++ mid ++ post -> w_read w mm e e = Ok (wz, d) ->
    Forall ok (codesT wr fl mm e (total fl pre) mid).
  Proof.
    intros Ha Hz. unfold codesT. apply Forall_app. split; [apply (codes_ok mid pre post Ha)|].
    destruct (lastdrop fl mid) eqn:Hd; [|constructor].
    destruct (exists_last (l := mid)) as (mid' & p & ->); [intros ->; discriminate|].
    rewrite lastdrop_app in Hd. cbn [lastdrop] in Hd.
    assert (Ha' : all = (pre ++ mid') ++ p :: post) by (rewrite Ha, <- !app_assoc; reflexivity).
    destruct (after_drop post (pre ++ mid') p Ha' Hd) as [(e0 & He) Hs].
    assert (E : total fl pre + total fl (mid' ++ [p]) = total fl (pre ++ mid')).
    { unfold total. rewrite !map_app, !flat_map_app, !app_length. cbn [map flat_map]. apply drop_expand in Hd. rewrite Hd. cbn [app length]. lia. }
    unfold etail. cbn [wr]. rewrite Hz, E. constructor; [|constructor].
    split; [eapply in_out; exact He|]. exists e0. split; [exact He|]. right. split; [exact Hs|]. left. reflexivity.
  Qed.

  Lemma guarded_app (q r : list (cinstr W)) : forall kn : nat -> Prop, guarded kn q -> guarded (fun _ => False) r -> guarded kn (q ++ r).
  Proof.
    induction q as [|c q IH]; intros kn Hq Hr; cbn [app].
    - eapply guarded_mono; [|exact Hr]. intros i [].
    - destruct c; cbn [guarded] in *; auto. destruct Hq; split; auto.
  Qed.

  Lemma line_guarded pos p : guarded (fun _ => False) (line_code wr fl pos p).
  Proof.
    unfold line_code. cbn [wcode wr]. destruct (drop fl p); cbn [guarded]; [auto|]. destruct (doubled _ _ _); cbn [app guarded]; auto.
  Qed.
  Lemma codes_guarded mid : forall pos, guarded (fun _ => False) (codes wr fl pos mid).
  Proof. induction mid as [|p mid IH]; intros pos; cbn [codes]; [exact Logic.I|]. apply guarded_app; [apply line_guarded|apply IH]. Qed.
  Lemma codesT_guarded mm e pos mid : guarded (fun _ => False) (codesT wr fl mm e pos mid).
  Proof.
    unfold codesT. apply guarded_app; [apply codes_guarded|]. destruct (lastdrop fl mid); [|exact Logic.I].
    unfold etail. cbn [wr]. destruct (w_read w mm e e) as [[v d]| | |]; exact Logic.I.
  Qed.

  Lemma line_stores pos p i : pos <= i < pos + length (ex p) ->
    Exists (fx i) (line_code wr fl pos p) /\ Exists (fy i) (line_code wr fl pos p) /\ Exists (fw i) (line_code wr fl pos p).
  Proof.
    intros Hi. unfold line_code. destruct (drop fl p) eqn:Hd.
    - apply drop_expand in Hd. unfold ex in Hi. rewrite Hd in Hi. cbn [length] in Hi. lia.
    - pose proof (doubled_expand fl p Hd) as Hl. fold (ex p) in Hl. rewrite doubled_swap.
      destruct (doubled fl _ _); cbn [wcode wr app]; rewrite !Exists_cons; cbn [fx fy fw]; rewrite Hl in Hi;
        (destruct (Nat.eq_dec pos i) as [->|Hne]; [tauto|]; assert (pos + 1 = i) by lia; first [tauto | lia]).
  Qed.
  Lemma codes_stores mid : forall pos i, pos <= i < pos + total fl mid ->
    Exists (fx i) (codes wr fl pos mid) /\ Exists (fy i) (codes wr fl pos mid) /\ Exists (fw i) (codes wr fl pos mid).
  Proof.
    induction mid as [|p mid IH]; intros pos i Hi; [unfold total in Hi; cbn in Hi; lia|].
    cbn [codes]. rewrite total_cons in Hi. rewrite !Exists_app.
    destruct (Nat.lt_ge_cases i (pos + length (ex p))) as [H|H].
    - destruct (line_stores pos p i) as (H1 & H2 & H3); [lia|]. auto.
    - destruct (IH (pos + length (ex p)) i) as (H1 & H2 & H3); [unfold ex in *; lia|]. auto.
  Qed.
End Codes.

Lemma cells_eq {E V} (g : E -> V) (es : list E) (l : list (option V)) : length l = length es ->
  (forall i, i < length es -> exists v, nth_error l i = Some (Some v) /\ exists e, nth_error es i = Some e /\ v = g e) ->
  l = map (fun e => Some (g e)) es.
Proof.
  revert l; induction es as [|e es IH]; intros [|c l] Hl H; cbn [length map] in *; try discriminate; [reflexivity|].
  f_equal.
  - destruct (H 0 ltac:(lia)) as (v & Hv & e' & He & ->). cbn [nth_error] in *. congruence.
  - apply IH; [lia|]. intros i Hi. apply (H (S i)). lia.
Qed.

(** Cell [i] belongs to an entry whose predecessor in the file is dropped. *)
Definition follows_dropped {W} (fl : flags) (l : list (Z * Z * W)) (i : nat) : Prop :=
  exists pre e1 e2 post, l = pre ++ e1 :: e2 :: post /\ ~ keeps fl e1 /\
    length (stored fl pre) <= i < length (stored fl (pre ++ [e1; e2])).

Section WholeAny.
  Variable k : wkind.
  Hypothesis Hk : wf_kind k.
  Let w := wreader k.
  Let wr := Some w.
  Variables L O : ity.
  Hypothesis HL : is_ity L.
  Hypothesis HO : is_ity O.
  Variable fl : flags.
  Variable f : el_file.
  Variable ws : list (wtype k).
  Variable pg : nat.
  Let ps := combine (el_lines f) ws.
  Let m := mkMem (el_text f) pg.
  Hypothesis Hwf : wf_el f.
  Hypothesis Hws : weights_are k f ws.
  Hypothesis Hfit : labels_fit (imax L - 1) f.
  Hypothesis Hcnt : (Z.of_nat (length (stored fl (triples f ws))) <= imax O)%Z.
  Hypothesis Hpg : off_page pg (el_text f).
  Hypothesis Hlast : lastdrop fl ps = false.

  Let Hlen : length ws = length (el_lines f) := weights_len _ _ _ Hws.
  Let Hh := el_has f ws pg Hlen.
  Let He := el_end f ws pg Hlen.
  Let Hwl := el_wfl f ws Hwf Hlen.
  Let Hsl : slack m := slack_off_page _ _ Hpg.
  Variable T : nat.
  Hypothesis HT : 1 <= T.
  Let Kt := K (el_head f) ps T.
  Let ch := chunk (el_head f) ps T.
  Let Pt := P fl (el_head f) ps T.
  Let pr := prog wr fl m 0 (el_head f) ps T.
  Let N := total fl ps.

  Lemma part_of i : i < N -> exists t, t < T /\ Pt t <= i < Pt t + total fl (ch t).
  Proof.
    intros Hi.
    assert (G : forall n, n <= T -> i < Pt n -> exists t, t < n /\ Pt t <= i < Pt t + total fl (ch t)).
    { induction n as [|n IH]; intros Hn H; [change (Pt 0) with 0 in H; lia|].
      destruct (Nat.lt_ge_cases i (Pt n)) as [Hl|Hge].
      - destruct (IH ltac:(lia) Hl) as (t & Ht & E). exists t. split; [lia|exact E].
      - exists n. split; [lia|]. pose proof (P_S fl m 0 (el_head f) ps He T HT n ltac:(lia)) as E. fold Pt ch in E. lia. }
    apply (G T (le_n _)). unfold Pt. rewrite (P_T fl m 0 (el_head f) ps He T HT). exact Hi.
  Qed.

  Lemma suspect_spec i : suspect fl ps i -> follows_dropped fl (triples f ws) i.
  Proof.
    intros (pre & p & q & post & Ha & Hd & Hi). exists (map ent pre), (ent p), (ent q), (map ent post).
    split; [rewrite <- (ps_ent f ws); fold ps; rewrite Ha, map_app; reflexivity|].
    apply drop_expand in Hd. split; [intros H; apply H; exact Hd|].
    unfold stored. rewrite flat_map_app, app_length. cbn [flat_map]. rewrite Hd. cbn [app]. rewrite app_nil_r. exact Hi.
  Qed.

  Lemma any_state sched : exists s, run cexec sched (map pr (seq 0 T)) (mkCst (fresh N) (fresh N) (fresh N)) = Ok s /\
      length (cx s) = N /\ length (cy s) = N /\ length (cw s) = N /\
      (forall i, i < N -> exists v, nth_error (cx s) i = Some (Some v) /\ PX fl ps i v) /\
      (forall i, i < N -> exists v, nth_error (cy s) i = Some (Some v) /\ PY fl ps i v) /\
      (forall i, i < N -> exists v, nth_error (cw s) i = Some (Some v) /\ PW fl (wzero k) ps i v).
  Proof.
    apply any_order.
    - apply Forall_map, Forall_forall. intros t Ht. apply in_seq in Ht.
      destruct (load_boundary m Hsl 0 (el_head f) ps Hh He Hwl T HT t ltac:(lia)) as (ce & Hce & Hce').
      apply (codesT_ok w fl (wzero k) ps Hlast m (offs 0 (el_head f) ps (Kt (S t))) (offs 0 (el_head f) ps (Kt (S t))) (firstn (Kt t) ps) (ch t) (skipn (Kt (S t)) ps)).
      + rewrite app_assoc. unfold ch, chunk. fold Kt. rewrite firstn_slice; [rewrite firstn_skipn; reflexivity|].
        apply (K_mono m 0 (el_head f) ps He T HT t). lia.
      + apply (end_weight k m _ ce Hk Hce Hce').
    - apply Forall_map, Forall_forall. intros t Ht. apply codesT_guarded.
    - intros i Hi. destruct (part_of i Hi) as (t & Ht & Hp).
      destruct (codes_stores w fl (ch t) (Pt t) i Hp) as (S1 & S2 & S3).
      assert (G : forall g, Exists g (codes (Some w) fl (Pt t) (ch t)) -> Exists (Exists g) (map pr (seq 0 T))).
      { intros g Hg. apply Exists_exists. exists (pr t). split; [apply in_map, in_seq; lia|].
        unfold pr, prog. unfold codesT. apply Exists_app. left. exact Hg. }
      auto.
  Qed.

  Lemma any_interleaving sched : exists wts : list (option (wtype k)),
    read_el L O wr fl m 0 (flen m) T sched =
      Ok (let r := el_result wr fl f ws in mkCoo (co_x r) (co_y r) wts (co_n r) (co_nrows r) (co_ncols r) (co_m r)) /\
    length wts = length (stored fl (triples f ws)) /\
    forall i e, nth_error (stored fl (triples f ws)) i = Some e -> exists v, nth_error wts i = Some (Some v) /\
      (v = snd e \/ follows_dropped fl (triples f ws) i /\
         (v = wzero k \/ exists d, In d (triples f ws) /\ ~ keeps fl d /\ v = snd d)).
  Proof.
    assert (Eo : flat_map (expand (f_sym fl) (f_ut fl) (f_sl fl)) (map ent ps) = stored fl (triples f ws)) by (unfold stored; rewrite <- (ps_ent f ws); reflexivity).
    destruct (any_state sched) as (s & E & L1 & L2 & L3 & C1 & C2 & C3).
    - exists (cw s). unfold wr, w. change (mkCst (fresh N) (fresh N) (fresh N)) with (wst0 k fl f ws) in E.
      split; [|split].
      + pose proof (read_weighted k Hk L O HL HO fl f ws pg Hwf Hws Hfit Hcnt Hpg T HT sched s E) as R.
        fold m in R. rewrite R. unfold fin, el_result. cbn [co_x co_y co_w co_n co_nrows co_ncols co_m]. rewrite <- Eo.
        f_equal. f_equal.
        * apply cells_eq; [exact L1|exact C1].
        * apply cells_eq; [exact L2|exact C2].
      + rewrite <- Eo. exact L3.
      + intros i e Hi. assert (Hlt : i < N) by (unfold N, total; rewrite Eo; apply nth_error_Some; congruence).
        destruct (C3 i Hlt) as (v & Hv & e' & He' & Hc). exists v. split; [exact Hv|].
        rewrite Eo in He'. assert (e' = e) by congruence. subst e'. destruct Hc as [Hc|[Hs Hc]]; [left; exact Hc|]. right.
        split; [apply suspect_spec; exact Hs|]. destruct Hc as [Hc|(p & Hin & Hd & Hc)]; [left; exact Hc|]. right.
        exists (ent p). split; [rewrite <- (ps_ent f ws); apply in_map; exact Hin|]. split; [|exact Hc].
        apply drop_expand in Hd. intros H. apply H. exact Hd.
  Qed.

  (** A thread whose only line is dropped and the thread that owns the cell
      store to the same cell. *)
  Lemma stores_meet j p : length (el_text f) <= T -> nth_error ps j = Some p -> drop fl p = true ->
    exists t u q r a b c, t <> u /\ nth_error (map pr (seq 0 T)) t = Some q /\ nth_error (map pr (seq 0 T)) u = Some r /\
      In a q /\ In b r /\ In (CW c) (writes a) /\ In (CW c) (writes b).
  Proof.
    intros HsT Hj Hd.
    destruct (own_thread k fl f ws pg Hwf Hws T HT j p HsT Hj) as (t & Ht & Ek & Ec). fold ps Kt ch in Ek, Ec.
    destruct (room k fl f ws pg Hws Hlast T HT t Ht) as [_ R]. fold ps ch Pt N in R. rewrite Ec in R. cbn [lastdrop] in R. specialize (R Hd).
    destruct (part_of (Pt t)) as (u & Hu & Hp); [unfold total in R; lia|].
    destruct (codes_stores w fl (ch u) (Pt u) (Pt t) Hp) as (_ & _ & S3). apply Exists_exists in S3 as (b & Hb & Hf).
    assert (Hn : forall x, x < T -> nth_error (map pr (seq 0 T)) x = Some (pr x)).
    { intros x Hx. rewrite nth_error_map. assert (E : nth_error (seq 0 T) x = Some x).
      { rewrite (nth_error_nth' _ 0) by (rewrite seq_length; exact Hx). rewrite seq_nth by exact Hx. reflexivity. }
      rewrite E. reflexivity. }
    exists t, u, (pr t), (pr u), (SetW (Pt t) (snd p)), b, (Pt t).
    split. { intros <-. rewrite Ec in Hp. unfold total in Hp. cbn [map flat_map] in Hp. apply drop_expand in Hd. rewrite Hd in Hp. cbn [app length] in Hp. lia. }
    split; [apply Hn; exact Ht|]. split; [apply Hn; exact Hu|].
    split. { unfold pr, prog, codesT. fold ch Pt. rewrite Ec. cbn [codes]. unfold line_code. rewrite Hd. cbn [wcode wr app]. left. reflexivity. }
    split. { unfold pr, prog, codesT. apply in_or_app. left. exact Hb. }
    split; [left; reflexivity|]. destruct b; cbn [fw] in Hf; try contradiction; subst; left; reflexivity.
  Qed.

  Lemma pass1_racy : el_pass1 L wr fl m 0 (flen m) T = Ok (map (fun t => (offs 0 (el_head f) ps (Kt t), offs 0 (el_head f) ps (Kt (S t)))) (seq 0 T), map (fun t => total fl (ch t)) (seq 0 T)).
  Proof.
    exact (pass1_ok L HL wr (wend_kind k Hk) fl m Hsl 0 (el_head f) ps Hh He (el_gap f ws Hwf Hlen) Hwl (fit_ps' L fl f ws Hlen Hfit) (wok_ps wr f ws (owok_some k f ws Hk Hws)) T HT).
  Qed.
  Lemma pass2_racy : el_pass2 L wr fl m (map (fun t => (offs 0 (el_head f) ps (Kt t), offs 0 (el_head f) ps (Kt (S t)))) (seq 0 T)) (map (fun t => total fl (ch t)) (seq 0 T)) =
    Ok (map (fun t => (pr t, mxr fl (imin L) (ch t), mxc fl (imin L) (ch t))) (seq 0 T)).
  Proof.
    exact (pass2_ok L HL wr (wend_kind k Hk) fl m Hsl 0 (el_head f) ps Hh He Hwl (fit_ps' L fl f ws Hlen Hfit) (wok_ps wr f ws (owok_some k f ws Hk Hws)) T HT).
  Qed.
End WholeAny.
