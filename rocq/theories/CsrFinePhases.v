(** * CsrFinePhases: the barrier intervals of [convert_coo_] before the scatter *)

From Coq Require Import Permutation.
From Verif Require Import Base Sched SchedLemmas SchedMore Coo Ascii Csr SpecCsr CsrLemmas SpecRace Race RaceLemmas CsrFine.

Lemma aset_lt {V} i (v : V) l : i < length l -> aset i v l = Ok (upd i (Some v) l).
Proof. intros H. unfold aset. destruct (Nat.ltb_spec i (length l)); [reflexivity|lia]. Qed.

Ltac not_conflict := intros (? & ? & ?); cbn [fst snd] in *; congruence || tauto.

Section Phases.
  Context {W : Type}.
  Variable O : ity.
  Hypothesis HO : is_ity O.
  Variable cp : bool.
  Variable c : coo W.
  Variable n : nat.
  Variable m : Z.
  Notation go := (interval (fexec O cp c n m) (facc O cp c n)).

  (** ** Zeroing the degrees *)
  Section Zero.
    Variable parts : list (list nat).
    Hypothesis HP : Permutation (concat parts) (seq 0 n).
    Variables lab start off en : list (option Z).
    Variable w : list (option W).
    Variables this my tot cur pos : list (option Z).
    Notation st deg := (mkF deg lab start off en w this my tot cur pos).

    Lemma part_lt t p v : nth_error parts t = Some p -> In v p -> v < n.
    Proof.
      intros Ht Hv. assert (H : In v (concat parts)) by (apply in_concat; exists p; split; [eapply nth_error_In; exact Ht|exact Hv]).
      apply (Permutation_in _ HP), in_seq in H. lia.
    Qed.

    Definition zL (t : nat) (p : list finstr) (s : fst_ W) : Prop :=
      exists part vs, nth_error parts t = Some part /\ p = map FZero vs /\ incl vs part /\
        forall v, In v part -> In v vs \/ nth_error (f_deg s) v = Some (Some 0%Z).

    Definition zA (t : nat) (a : access floc) : Prop :=
      exists part v, nth_error parts t = Some part /\ In v part /\ a = wr AllDegs v.

    Lemma zero_ok sched deg : length deg = n ->
      exists lg, go sched (zero_progs parts) (st deg) = Ok (st (repeat (Some 0%Z) n), lg) /\ no_race lg.
    Proof.
      intros Hd.
      destruct (modular (fexec O cp c n m) (facc O cp c n) (fun s => exists deg, length deg = n /\ s = st deg) zL zA) with
        (sched := sched) (ps := zero_progs parts) (s := st deg) as (s' & lg & E & (deg' & Hd' & ->) & HL & HA).
      - intros t i p s (dg & Hdg & ->) (part & vs & Hpart & Ep & Hincl & Hz). destruct vs as [|v vs]; [discriminate|].
        cbn [map] in Ep. injection Ep as -> ->. assert (Hv : v < n) by (eapply part_lt; [exact Hpart|apply Hincl; left; reflexivity]).
        cbn [fexec facc f_deg] in *. rewrite aset_lt by lia. cbn [bind]. eexists. split; [reflexivity|]. split; [|split; [|split]].
        + eexists. split; [rewrite upd_length; exact Hdg|reflexivity].
        + exists part, vs. split; [exact Hpart|]. split; [reflexivity|]. split; [intros x Hx; apply Hincl; right; exact Hx|].
          cbn [f_deg]. intros x Hx. destruct (Nat.eq_dec v x) as [<-|Hne]; [right; apply nth_error_upd_eq; lia|].
          destruct (Hz x Hx) as [[->|H]|H]; [congruence|left; exact H|right]. rewrite nth_error_upd_ne by exact Hne. exact H.
        + constructor; [|constructor]. exists part, v. split; [exact Hpart|]. split; [apply Hincl; left; reflexivity|reflexivity].
        + intros u q _ (part' & vs' & H1 & H2 & H3 & H4). exists part', vs'. split; [exact H1|]. split; [exact H2|]. split; [exact H3|].
          cbn [f_deg] in *. intros x Hx. destruct (H4 x Hx) as [H|H]; [left; exact H|right].
          destruct (Nat.eq_dec v x) as [<-|Hne]; [apply nth_error_upd_eq; lia|]. rewrite nth_error_upd_ne by exact Hne. exact H.
      - exists deg. split; [exact Hd|reflexivity].
      - intros t p Hp. unfold zero_progs in Hp. rewrite nth_error_map in Hp. destruct (nth_error parts t) as [part|] eqn:Et; [|discriminate].
        injection Hp as <-. exists part, part. split; [exact Et|]. split; [reflexivity|]. split; [apply incl_refl|]. intros v Hv. left; exact Hv.
      - exists lg. split.
        + rewrite E. do 3 f_equal. apply nth_error_ext_all; [rewrite repeat_length; exact Hd'|]. intros i Hi. rewrite Hd' in Hi.
          rewrite (nth_error_repeat _ Hi).
          assert (Hin : In i (concat parts)) by (apply (Permutation_in _ (Permutation_sym HP)), in_seq; lia).
          apply in_concat in Hin as (q & Hq & Hiq). apply In_nth_error in Hq as (t & Ht).
          destruct (HL t) as (part & vs & H1 & H2 & _ & H4).
          { unfold zero_progs. rewrite map_length. apply nth_error_Some. congruence. }
          destruct vs; [|discriminate]. rewrite Ht in H1. injection H1 as <-. destruct (H4 i Hiq) as [[]|H]. exact H.
        + refine (no_race_from zA lg HA _). intros t u a b (p & v & H1 & H2 & ->) (q & x & H3 & H4 & ->) Hne [HC _].
          cbn [fst wr] in HC. injection HC as <-.
          assert (HN : NoDup (concat parts)) by (eapply Permutation_NoDup; [apply Permutation_sym, HP|apply seq_NoDup]).
          clear - HN H1 H2 H3 H4 Hne. revert t u H1 H3 Hne HN. induction parts as [|r rs IH]; intros t u H1 H3 Hne HN; [destruct t; discriminate|].
          cbn [concat] in HN. assert (HD : forall y, In y r -> ~ In y (concat rs)).
          { clear - HN. induction r as [|z r IHr]; cbn [app] in HN; intros y Hy; [destruct Hy|]. inversion HN as [|? ? Hz HN']; subst.
            destruct Hy as [<-|Hy]; [|apply IHr; assumption]. intros Hc. apply Hz, in_or_app; right; exact Hc. }
          assert (HNr : NoDup (concat rs)) by (clear - HN; induction r as [|z r IHr]; cbn [app] in HN; [exact HN|inversion HN; auto]).
          destruct t as [|t], u as [|u]; cbn [nth_error] in *.
          * congruence.
          * injection H1 as ->. apply (HD v H2). apply in_concat. exists q. split; [eapply nth_error_In; exact H3|exact H4].
          * injection H3 as ->. apply (HD v H4). apply in_concat. exists p. split; [eapply nth_error_In; exact H1|exact H2].
          * apply (IH t u H1 H3); [congruence|exact HNr].
    Qed.
  End Zero.

  (** ** Counting the degrees *)
  Section Inc.
    Variables lab start off en : list (option Z).
    Variable w : list (option W).
    Variables this my tot cur pos : list (option Z).
    Notation st deg := (mkF deg lab start off en w this my tot cur pos).

    Definition iA (t : nat) (a : access floc) : Prop := (exists e, a = rd CooX e) \/ (exists j, a = at_ AllDegs j).

    Lemma inc_trace (tl : list (nat * nat)) (x : nat -> Z) : forall ds ds',
      (forall e, In e (map snd tl) -> cell_of e (co_x c) = Ok (x e)) ->
      exec_all (inc_exec O) (map x (map snd tl)) ds = Ok ds' ->
      exists lg, exec_log (fexec O cp c n m) (facc O cp c n) (map (fun q => (fst q, FInc (snd q))) tl) (st (map Some ds)) =
          Ok (st (map Some ds'), lg) /\ Forall (fun q => iA (fst q) (snd q)) lg.
    Proof.
      induction tl as [|[t e] tl IH]; intros ds ds' Hx E; cbn [map snd fst exec_all exec_log] in *.
      - injection E as <-. exists []. split; [reflexivity|constructor].
      - unfold inc_exec at 1 in E. destruct ((0 <=? x e) && (x e <? Z.of_nat (length ds)))%Z eqn:Eb; [|discriminate].
        apply andb_prop in Eb as [E1 E2]. apply Z.leb_le in E1. apply Z.ltb_lt in E2.
        destruct (arith O (nth (Z.to_nat (x e)) ds 0 + 1)%Z) as [v| | |] eqn:Ev; try discriminate. cbn [bind] in E.
        cbn [fexec]. rewrite (Hx e (or_introl eq_refl)). cbn [bind]. unfold idx. destruct (Z.ltb_spec (x e) 0); [lia|]. cbn [bind].
        rewrite (cell_of_some _ _ (nth (Z.to_nat (x e)) ds 0%Z))
          by (rewrite nth_error_map, (nth_error_nth' ds 0%Z) by lia; reflexivity).
        cbn [bind]. rewrite Ev. cbn [bind]. rewrite aset_lt by (rewrite map_length; lia). cbn [bind].
        assert (EU : upd (Z.to_nat (x e)) (Some v) (map Some ds) = map Some (upd (Z.to_nat (x e)) v ds)).
        { generalize (Z.to_nat (x e)) as i. clear. induction ds as [|a ds IH]; intros [|i]; cbn [upd map]; [reflexivity..|]. f_equal. apply IH. }
        rewrite EU. destruct (IH (upd (Z.to_nat (x e)) v ds) ds') as (lg & El & HA); [intros e' He'; apply Hx; right; exact He'|exact E|].
        rewrite El. cbn [bind]. eexists. split; [reflexivity|]. apply Forall_app. split; [|exact HA].
        cbn [facc]. unfold at_src. rewrite (Hx e (or_introl eq_refl)). cbn [bind]. unfold idx. destruct (Z.ltb_spec (x e) 0); [lia|].
        constructor; [left; eexists; reflexivity|]. constructor; [right; eexists; reflexivity|constructor].
    Qed.

    Lemma inc_no_race lg : Forall (fun q => iA (fst q) (snd q)) lg -> no_race lg.
    Proof.
      intros HA. refine (no_race_from iA lg HA _).
      intros t u a b [(e & ->)|(j & ->)] [(e' & ->)|(j' & ->)] _ (H1 & H2 & H3); cbn [fst snd rd at_] in *; try discriminate; tauto.
    Qed.

    Lemma inc_ok sched parts (x : nat -> Z) ds ds' :
      (forall e, In e (concat parts) -> cell_of e (co_x c) = Ok (x e)) ->
      run (inc_exec O) sched (map (map x) parts) ds = Ok ds' ->
      exists lg, go sched (inc_progs parts) (st (map Some ds)) = Ok (st (map Some ds'), lg) /\ no_race lg.
    Proof.
      intros Hx E. rewrite run_trace, trace_map, map_map in E. cbn [snd] in E. rewrite <- (map_map snd x) in E.
      unfold interval, inc_progs. rewrite trace_map.
      destruct (inc_trace (trace sched parts) x ds ds') as (lg & El & HA); [|exact E|].
      - intros e He. apply Hx. apply (Permutation_in _ (merge_perm _ _ (trace_merge sched parts))). exact He.
      - exists lg. split; [exact El|apply inc_no_race; exact HA].
    Qed.
  End Inc.

  (** ** Offsets *)
  Section Off.
    Variable ds : list Z.
    Hypothesis Hn : length ds = n.
    Hypothesis Hpos : Forall (fun d => 0 <= d)%Z ds.
    Hypothesis Hfit : (zsum ds <= imax O)%Z.
    Variable T : nat.
    Hypothesis HT : 0 < T.
    Notation D := (D ds).
    Notation b t := ((t * n) / T).

    Lemma b_mono t : b t <= b (S t).
    Proof. apply Nat.div_le_mono; nia. Qed.
    Lemma b_le t u : t <= u -> b t <= b u.
    Proof. intros H. apply Nat.div_le_mono; nia. Qed.
    Lemma b_max t : t < T -> b (S t) <= n.
    Proof. intros H. apply Nat.div_le_upper_bound; nia. Qed.
    Lemma b_0 : b 0 = 0.
    Proof. rewrite Nat.mul_0_l. apply Nat.div_0_l; lia. Qed.
    Lemma b_T : b T = n.
    Proof. rewrite Nat.mul_comm. apply Nat.div_mul; lia. Qed.
    Lemma vr t : vrange n T t = seq (b t) (b (S t) - b t).
    Proof. unfold vrange. rewrite Nat.add_1_r. reflexivity. Qed.
    Lemma D_nth v : v < n -> D (S v) = (D v + nth v ds 0)%Z.
    Proof. intros H. apply D_S. apply nth_error_nth'. lia. Qed.
    Lemma D_mono v u : v <= u -> (D v <= D u)%Z.
    Proof. intros H. apply D_le; [exact Hpos|exact H]. Qed.
    Lemma D_top v : (0 <= D v <= imax O)%Z.
    Proof.
      split; [apply D_nonneg; exact Hpos|]. apply (D_max O); assumption.
    Qed.
    (** Every vertex is in the range of one thread. *)
    Lemma b_cover v : v < n -> exists t, t < T /\ b t <= v < b (S t).
    Proof.
      intros Hv. assert (G : forall k, k <= T -> v < b k -> exists t, t < k /\ b t <= v < b (S t)).
      { induction k as [|k IH]; intros Hk H; [rewrite b_0 in H; lia|].
        destruct (Nat.lt_ge_cases v (b k)) as [H1|H1].
        - destruct (IH ltac:(lia) H1) as (t & Ht & Hb). exists t. split; [lia|exact Hb].
        - exists k. split; [lia|split; assumption]. }
      destruct (G T (le_n T)) as (t & Ht & Hb); [rewrite b_T; exact Hv|]. exists t. split; assumption.
    Qed.

    (** *** Copying the degrees *)
    Section Lab.
      Variables off en lab0 : list (option Z).
      Variable w : list (option W).
      Variables tot cur pos : list (option Z).
      Notation st lab start this my := (mkF (map Some ds) lab start off en w this my tot cur pos).

      Definition lG (s : fst_ W) : Prop := exists lab start this my,
        s = st lab start this my /\ (cp = false -> lab = lab0) /\ (cp = true -> length lab = n) /\ length start = T /\ length this = T /\ length my = T.

      Definition labdone (t a : nat) (s : fst_ W) : Prop :=
        cp = true -> forall v, b t <= v < a -> nth_error (f_lab s) v = Some (Some (nth v ds 0%Z)).
      Definition lbody (a k : nat) : list finstr := flat_map (fun v => [FLoad v; FLabel v]) (seq a k) ++ [FStart].

      Definition lL (t : nat) (p : list finstr) (s : fst_ W) : Prop :=
        t < T /\
        ((p = label_prog n T t) \/
         (exists a k, b t <= a /\ a + k = b (S t) /\ p = lbody a k /\
            nth_error (f_my s) t = Some (Some (D a - D (b t))%Z) /\ labdone t a s) \/
         (exists a k, b t <= a /\ a + S k = b (S t) /\ p = FLabel a :: lbody (S a) k /\
            nth_error (f_my s) t = Some (Some (D a - D (b t))%Z) /\ labdone t a s /\
            nth_error (f_this s) t = Some (Some (nth a ds 0%Z))) \/
         (p = [] /\ labdone t (b (S t)) s /\ nth_error (f_start s) t = Some (Some (D (b (S t)) - D (b t))%Z))).

      Definition lA (t : nat) (a : access floc) : Prop :=
        (exists v, a = rd AllDegs v) \/ (exists v, b t <= v < b (S t) /\ a = wr LabelDegs v) \/ a = wr StartOffsets t.

      (** Other threads do not disturb. *)
      Lemma lL_frame u q s s' : lL u q s ->
        nth_error (f_my s') u = nth_error (f_my s) u -> nth_error (f_this s') u = nth_error (f_this s) u ->
        nth_error (f_start s') u = nth_error (f_start s) u ->
        (forall v, b u <= v < b (S u) -> nth_error (f_lab s') v = nth_error (f_lab s) v) -> lL u q s'.
      Proof.
        intros (HuT & H) E1 E2 E3 E4. split; [exact HuT|].
        assert (HD : forall a, a <= b (S u) -> labdone u a s -> labdone u a s').
        { intros a Ha Hd Hcp v Hv. rewrite E4 by lia. apply (Hd Hcp); exact Hv. }
        destruct H as [H|[(a & k & H1 & H2 & H3 & H4 & H5)|[(a & k & H1 & H2 & H3 & H4 & H5 & H6)|(H1 & H2 & H3)]]].
        - left; exact H.
        - right; left. exists a, k. rewrite E1. split; [exact H1|]. split; [exact H2|]. split; [exact H3|]. split; [exact H4|]. apply HD; [lia|exact H5].
        - right; right; left. exists a, k. rewrite E1, E2. split; [exact H1|]. split; [exact H2|]. split; [exact H3|]. split; [exact H4|].
          split; [apply HD; [lia|exact H5]|exact H6].
        - right; right; right. rewrite E3. split; [exact H1|]. split; [apply HD; [lia|exact H2]|exact H3].
      Qed.

      Lemma lab_ok sched start this my : (cp = true -> length lab0 = n) -> length start = T -> length this = T -> length my = T ->
        exists this' my' lg, go sched (map (label_prog n T) (seq 0 T)) (st lab0 start this my) =
            Ok (st (if cp then map Some ds else lab0) (map (fun t => Some (D (b (S t)) - D (b t))%Z) (seq 0 T)) this' my', lg) /\ no_race lg.
      Proof.
        intros L1 L2 L3 L4.
        destruct (modular (fexec O cp c n m) (facc O cp c n) lG lL lA) with
          (sched := sched) (ps := map (label_prog n T) (seq 0 T)) (s := st lab0 start this my)
          as (s' & lg & E & (lab' & start' & this' & my' & -> & K0 & K1 & K2 & K3 & K4) & HL & HA).
        - clear start this my L1 L2 L3 L4.
          intros t i p s (lab & start & this & my & -> & L0 & L1 & L2 & L3 & L4) (HtT & H).
          pose proof (b_mono t) as Hbt. pose proof (b_max t HtT) as HbS.
          destruct H as [H|[(a & k & H1 & H2 & H3 & H4 & H5)|[(a & k & H1 & H2 & H3 & H4 & H5 & H6)|(H1 & H2 & H3)]]].
          + (* my_degs = 0 *)
            unfold label_prog in H. injection H as -> ->. cbn [fexec facc]. rewrite aset_lt by lia. cbn [bind].
            eexists. split; [reflexivity|]. split; [|split; [|split]].
            * do 4 eexists. split; [reflexivity|]. rewrite ?upd_length. repeat split; auto.
            * split; [exact HtT|]. right; left. exists (b t), (b (S t) - b t). split; [lia|]. split; [lia|]. split; [rewrite vr; reflexivity|].
              cbn [f_my]. rewrite nth_error_upd_eq by lia. split; [do 2 f_equal; lia|]. intros _ v Hv. lia.
            * constructor.
            * intros u q Hne Hu. eapply lL_frame; [exact Hu|..]; cbn [f_my f_this f_start f_lab]; try reflexivity.
              rewrite nth_error_upd_ne by congruence. reflexivity.
          + destruct k as [|k].
            * (* start_offsets[tid] = my_degs *)
              unfold lbody in H3. cbn [seq flat_map app] in H3. injection H3 as -> ->. cbn [fexec facc].
              cbn [f_my] in H4. rewrite (cell_of_some _ _ _ H4). cbn [bind]. rewrite aset_lt by lia. cbn [bind].
              assert (a = b (S t)) as -> by lia.
              eexists. split; [reflexivity|]. split; [|split; [|split]].
              -- do 4 eexists. split; [reflexivity|]. rewrite ?upd_length. repeat split; auto.
              -- split; [exact HtT|]. right; right; right. split; [reflexivity|]. split; [exact H5|]. cbn [f_start]. apply nth_error_upd_eq; lia.
              -- constructor; [|constructor]. right; right. reflexivity.
              -- intros u q Hne Hu. eapply lL_frame; [exact Hu|..]; cbn [f_my f_this f_start f_lab]; try reflexivity.
                 rewrite nth_error_upd_ne by congruence. reflexivity.
            * (* this_deg = all_degs[a] *)
              unfold lbody in H3. cbn [seq flat_map app] in H3. injection H3 as -> ->. cbn [fexec facc].
              rewrite (cell_of_some _ _ (nth a ds 0%Z)) by (rewrite nth_error_map, (nth_error_nth' ds 0%Z) by lia; reflexivity).
              cbn [bind]. rewrite aset_lt by lia. cbn [bind].
              eexists. split; [reflexivity|]. split; [|split; [|split]].
              -- do 4 eexists. split; [reflexivity|]. rewrite ?upd_length. repeat split; auto.
              -- split; [exact HtT|]. right; right; left. exists a, k. split; [lia|]. split; [lia|]. split; [reflexivity|]. split; [exact H4|].
                 split; [exact H5|]. cbn [f_this]. apply nth_error_upd_eq; lia.
              -- constructor; [|constructor]. left. eexists; reflexivity.
              -- intros u q Hne Hu. eapply lL_frame; [exact Hu|..]; cbn [f_my f_this f_start f_lab]; try reflexivity.
                 rewrite nth_error_upd_ne by congruence. reflexivity.
          + (* label_degs[a] = this_deg; my_degs += this_deg *)
            injection H3 as -> ->. cbn [fexec facc]. cbn [f_my f_this] in H4, H6.
            rewrite (cell_of_some _ _ _ H6). cbn [bind].
            assert (EL : exists lab', (if cp then aset a (nth a ds 0%Z) lab else Ok lab) = Ok lab' /\ (cp = false -> lab' = lab0) /\ (cp = true -> length lab' = n) /\
              (cp = true -> nth_error lab' a = Some (Some (nth a ds 0%Z))) /\ (forall v, v <> a -> nth_error lab' v = nth_error lab v)).
            { destruct cp.
              - specialize (L1 eq_refl). rewrite aset_lt by lia. eexists. split; [reflexivity|]. split; [discriminate|]. split; [intros _; rewrite upd_length; exact L1|].
                split; [intros _; apply nth_error_upd_eq; lia|]. intros v Hv. apply nth_error_upd_ne. congruence.
              - eexists. split; [reflexivity|]. split; [exact L0|]. split; [discriminate|]. split; [discriminate|]. reflexivity. }
            destruct EL as (lab' & -> & M0 & M1 & M2 & M3). cbn [bind].
            rewrite (cell_of_some _ _ _ H4). cbn [bind].
            assert (EA : (D a - D (b t) + nth a ds 0 = D (S a) - D (b t))%Z) by (rewrite D_nth by lia; lia). rewrite EA.
            rewrite arith_small; [|exact HO|pose proof (D_top (S a)); pose proof (D_top (b t)); pose proof (D_mono (b t) (S a) ltac:(lia)); lia].
            cbn [bind]. rewrite aset_lt by lia. cbn [bind].
            eexists. split; [reflexivity|]. split; [|split; [|split]].
            * do 4 eexists. split; [reflexivity|]. rewrite ?upd_length. repeat split; auto.
            * split; [exact HtT|]. right; left. exists (S a), k. split; [lia|]. split; [lia|]. split; [reflexivity|].
              cbn [f_my]. rewrite nth_error_upd_eq by lia. split; [reflexivity|]. intros Hcp v Hv. cbn [f_lab].
              destruct (Nat.eq_dec a v) as [<-|Hne]; [apply M2; exact Hcp|]. rewrite M3 by congruence. apply (H5 Hcp). lia.
            * destruct cp; [|constructor]. constructor; [|constructor]. right; left. exists a. split; [lia|reflexivity].
            * intros u q Hne Hu. eapply lL_frame; [exact Hu|..]; cbn [f_my f_this f_start f_lab]; try reflexivity.
              -- rewrite nth_error_upd_ne by congruence. reflexivity.
              -- intros v Hv. apply M3. destruct (Nat.lt_gt_cases u t) as [HH _]. specialize (HH Hne).
                 destruct HH as [HH|HH]; [pose proof (b_le (S u) t ltac:(lia)); lia|pose proof (b_le (S t) u ltac:(lia)); lia].
          + discriminate.
        - do 4 eexists. split; [reflexivity|]. repeat split; auto.
        - intros t p Hp. rewrite nth_error_map in Hp. destruct (nth_error (seq 0 T) t) as [u|] eqn:Eu; [|discriminate].
          assert (HtT : t < T) by (rewrite <- (seq_length T 0); apply nth_error_Some; congruence).
          rewrite nth_error_seq' in Eu by exact HtT. injection Eu as <-. injection Hp as <-. cbn [plus]. split; [exact HtT|]. left; reflexivity.
        - rewrite map_length, seq_length in HL.
          assert (HF : forall t, t < T -> labdone t (b (S t)) (st lab' start' this' my') /\
              nth_error start' t = Some (Some (D (b (S t)) - D (b t))%Z)).
          { intros t Ht. destruct (HL t Ht) as (_ & [H|[(a & k & _ & _ & H & _)|[(a & k & _ & _ & H & _)|(_ & H2 & H3)]]]).
            - discriminate.
            - exfalso. unfold lbody in H. destruct (flat_map _ _); discriminate.
            - discriminate.
            - split; assumption. }
          exists this', my', lg. split.
          + rewrite E. do 3 f_equal.
            * assert (Hcp : cp = true \/ cp = false) by (clear; destruct cp; auto).
              destruct Hcp as [Hcp|Hcp]; [|rewrite Hcp; apply K0; exact Hcp]. rewrite Hcp. specialize (K1 Hcp).
              apply nth_error_ext_all; [rewrite map_length; lia|]. intros v Hv. rewrite K1 in Hv.
              destruct (b_cover v Hv) as (t & Ht & Hb). destruct (HF t Ht) as [H _]. specialize (H Hcp v Hb). cbn [f_lab] in H. rewrite H.
              rewrite nth_error_map, (nth_error_nth' ds 0%Z) by lia. reflexivity.
            * apply nth_error_ext_all; [rewrite map_length, seq_length; lia|]. intros t Ht. rewrite K2 in Ht.
              destruct (HF t Ht) as [_ H]. rewrite H, nth_error_map, nth_error_seq' by exact Ht. reflexivity.
          + refine (no_race_from lA lg HA _).
            intros t u x y [(v & ->)|[(v & Hv & ->)| ->]] [(v' & ->)|[(v' & Hv' & ->)| ->]] Hne (C1 & C2 & C3);
              cbn [fst snd rd wr] in *; try discriminate; try tauto.
            * injection C1 as <-. destruct (Nat.lt_gt_cases t u) as [HH _]. specialize (HH Hne).
              destruct HH as [HH|HH]; [pose proof (b_le (S t) u ltac:(lia)); lia|pose proof (b_le (S u) t ltac:(lia)); lia].
            * injection C1 as <-. congruence.
      Qed.
    End Lab.

    (** *** Prefix sums of the threads' counts *)
    Section Sum.
      Variable k : nat.
      Hypothesis Hk : k < T.
      Variables deg lab off en : list (option Z).
      Variable w : list (option W).
      Variables this my cur pos : list (option Z).
      Notation st start tot := (mkF deg lab start off en w this my tot cur pos).

      Definition sG (s : fst_ W) : Prop := exists start tot, s = st start tot /\ length start = T /\ length tot = T.
      Definition sL (t : nat) (p : list finstr) (s : fst_ W) : Prop :=
        (t <> k -> p = []) /\
        (t = k ->
          (p = sum_prog T /\ forall i, i < T -> nth_error (f_start s) i = Some (Some (D (b (S i)) - D (b i))%Z)) \/
          (exists j q, j + q = T /\ p = map FSum (seq j q) /\ nth_error (f_tot s) k = Some (Some (D (b j))) /\
            (forall i, i < j -> nth_error (f_start s) i = Some (Some (D (b (S i))))) /\
            (forall i, j <= i < T -> nth_error (f_start s) i = Some (Some (D (b (S i)) - D (b i))%Z)))).
      Definition sA (t : nat) (a : access floc) : Prop := t = k.

      Lemma sum_ok sched tot : length tot = T ->
        exists tot' lg, go sched (map (fun t => if t =? k then sum_prog T else []) (seq 0 T))
            (st (map (fun t => Some (D (b (S t)) - D (b t))%Z) (seq 0 T)) tot) =
            Ok (st (map (fun t => Some (D (b (S t)))) (seq 0 T)) tot', lg) /\ no_race lg.
      Proof.
        intros L1.
        destruct (modular (fexec O cp c n m) (facc O cp c n) sG sL sA) with
          (sched := sched) (ps := map (fun t => if t =? k then sum_prog T else []) (seq 0 T))
          (s := st (map (fun t => Some (D (b (S t)) - D (b t))%Z) (seq 0 T)) tot)
          as (s' & lg & E & (start' & tot' & -> & K1 & K2) & HL & HA).
        - clear tot L1. intros t i p s (start & tot & -> & L1 & L2) (Hno & H).
          destruct (Nat.eq_dec t k) as [->|Hne]; [|specialize (Hno Hne); discriminate]. specialize (H eq_refl).
          assert (HO' : forall s' u q, u <> k -> sL u q (st start tot) -> sL u q s').
          { intros s' u q Hu (Hq & _). split; [exact Hq|congruence]. }
          destruct H as [(Ep & Hs)|(j & q & Ej & Ep & Ht & Hd & Hr)].
          + unfold sum_prog in Ep. injection Ep as -> ->. cbn [fexec facc]. rewrite aset_lt by lia. cbn [bind].
            eexists. split; [reflexivity|]. split; [|split; [|split]].
            * do 2 eexists. split; [reflexivity|]. rewrite ?upd_length. split; assumption.
            * split; [congruence|]. intros _. right. exists 0, T. split; [lia|]. split; [reflexivity|]. cbn [f_tot f_start].
              rewrite nth_error_upd_eq by lia. rewrite b_0, D_0. split; [reflexivity|]. split; [intros i Hi; lia|]. intros i Hi. apply Hs; lia.
            * constructor.
            * intros u q Hu Hl. apply HO'; assumption.
          + destruct q as [|q]; [discriminate|]. cbn [seq map] in Ep. injection Ep as -> ->. cbn [fexec facc].
            cbn [f_tot f_start] in *. rewrite (cell_of_some _ _ _ Ht). cbn [bind].
            rewrite (cell_of_some _ _ _ (Hr j ltac:(lia))). cbn [bind].
            replace (D (b j) + (D (b (S j)) - D (b j)))%Z with (D (b (S j))) by lia.
            rewrite arith_small; [|exact HO|apply D_top]. cbn [bind]. rewrite !aset_lt by lia. cbn [bind].
            eexists. split; [reflexivity|]. split; [|split; [|split]].
            * do 2 eexists. split; [reflexivity|]. rewrite ?upd_length. split; assumption.
            * split; [congruence|]. intros _. right. exists (S j), q. split; [lia|]. split; [reflexivity|]. cbn [f_tot f_start].
              rewrite nth_error_upd_eq by lia. split; [reflexivity|]. split.
              -- intros i Hi. destruct (Nat.eq_dec j i) as [<-|Hne]; [apply nth_error_upd_eq; lia|].
                 rewrite nth_error_upd_ne by exact Hne. apply Hd; lia.
              -- intros i Hi. rewrite nth_error_upd_ne by lia. apply Hr; lia.
            * constructor; [reflexivity|]. constructor; [reflexivity|constructor].
            * intros u p' Hu Hl. apply HO'; assumption.
        - do 2 eexists. split; [reflexivity|]. rewrite map_length, seq_length. split; [reflexivity|assumption].
        - intros t p Hp. rewrite nth_error_map in Hp. destruct (nth_error (seq 0 T) t) as [u|] eqn:Eu; [|discriminate].
          assert (HtT : t < T) by (rewrite <- (seq_length T 0); apply nth_error_Some; congruence).
          rewrite nth_error_seq' in Eu by exact HtT. cbn [plus] in Eu. injection Eu as <-. cbn [option_map] in Hp. injection Hp as <-. split.
          + intros Hne. apply Nat.eqb_neq in Hne. rewrite Hne. reflexivity.
          + intros ->. left. rewrite Nat.eqb_refl. split; [reflexivity|]. intros i Hi. cbn [f_start].
            rewrite nth_error_map, nth_error_seq' by exact Hi. reflexivity.
        - exists tot', lg. split.
          + rewrite E. do 3 f_equal. apply nth_error_ext_all; [rewrite map_length, seq_length; exact K1|]. intros i Hi. rewrite K1 in Hi.
            rewrite map_length, seq_length in HL. destruct (HL k Hk) as (_ & H). destruct (H eq_refl) as [(H' & _)|(j & q & Ej & Ep & _ & Hd & _)]; [discriminate|].
            destruct q; [|discriminate]. cbn [f_start] in Hd. rewrite (Hd i) by lia. rewrite nth_error_map, nth_error_seq' by exact Hi. reflexivity.
          + refine (no_race_from sA lg HA _). unfold sA. intros t u x y -> -> Hne. congruence.
      Qed.
    End Sum.

    (** *** Storing the offsets *)
    Section Store.
      Variable k : nat.
      Hypothesis Hk : k < T.
      Variables deg lab en : list (option Z).
      Hypothesis Hdegs : (if cp then lab else deg) = map Some ds.
      Variable w : list (option W).
      Variables this my tot pos : list (option Z).
      Notation st off cur := (mkF deg lab (map (fun t => Some (D (b (S t)))) (seq 0 T)) off en w this my tot cur pos).
      Notation tail t := (if t =? k then [FLast] else []).

      Definition oG (s : fst_ W) : Prop := exists off cur, s = st off cur /\ length off = S n /\ length cur = T.
      Definition offdone (t a : nat) (s : fst_ W) : Prop := forall v, b t <= v < a -> nth_error (f_off s) v = Some (Some (D v)).
      Definition obody (a q : nat) : list finstr := flat_map (fun v => [FOff v; FAdd v]) (seq a q).
      Definition oL (t : nat) (p : list finstr) (s : fst_ W) : Prop :=
        t < T /\
        ((p = off_prog_f n T t ++ tail t) \/
         (exists a q, b t <= a /\ a + q = b (S t) /\ p = obody a q ++ tail t /\
            nth_error (f_cur s) t = Some (Some (D a)) /\ offdone t a s) \/
         (exists a q, b t <= a /\ a + S q = b (S t) /\ p = FAdd a :: obody (S a) q ++ tail t /\
            nth_error (f_cur s) t = Some (Some (D a)) /\ offdone t (S a) s) \/
         (t = k /\ p = [] /\ offdone t (b (S t)) s /\ nth_error (f_off s) n = Some (Some m))).
      Definition oA (t : nat) (a : access floc) : Prop :=
        t < T /\
        ((exists i, a = rd StartOffsets i) \/ (exists i, a = rd (if cp then LabelDegs else AllDegs) i) \/
        (exists v, b t <= v < b (S t) /\ a = wr Offsets v) \/ (t = k /\ a = wr Offsets n)).

      Lemma oL_frame u q s s' : oL u q s -> nth_error (f_cur s') u = nth_error (f_cur s) u ->
        (forall v, b u <= v < b (S u) \/ (u = k /\ v = n) -> nth_error (f_off s') v = nth_error (f_off s) v) -> oL u q s'.
      Proof.
        intros (HuT & H) E1 E2. split; [exact HuT|].
        assert (HD : forall a, a <= b (S u) -> offdone u a s -> offdone u a s').
        { intros a Ha Hd v Hv. rewrite E2 by lia. apply Hd; exact Hv. }
        destruct H as [H|[(a & r & H1 & H2 & H3 & H4 & H5)|[(a & r & H1 & H2 & H3 & H4 & H5)|(H0 & H1 & H2 & H3)]]].
        - left; exact H.
        - right; left. exists a, r. rewrite E1. split; [exact H1|]. split; [exact H2|]. split; [exact H3|]. split; [exact H4|]. apply HD; [lia|exact H5].
        - right; right; left. exists a, r. rewrite E1. split; [exact H1|]. split; [exact H2|]. split; [exact H3|]. split; [exact H4|]. apply HD; [lia|exact H5].
        - right; right; right. split; [exact H0|]. split; [exact H1|]. split; [apply HD; [lia|exact H2]|]. rewrite E2 by tauto. exact H3.
      Qed.

      Lemma store_ok sched off cur : length off = S n -> length cur = T -> m = zsum ds ->
        exists cur' lg, go sched (map (fun t => off_prog_f n T t ++ tail t) (seq 0 T)) (st off cur) =
            Ok (st (map (fun v => Some (D v)) (seq 0 (S n))) cur', lg) /\ no_race lg.
      Proof.
        intros L1 L2 Em.
        destruct (modular (fexec O cp c n m) (facc O cp c n) oG oL oA) with
          (sched := sched) (ps := map (fun t => off_prog_f n T t ++ tail t) (seq 0 T)) (s := st off cur)
          as (s' & lg & E & (off' & cur' & -> & K1 & K2) & HL & HA).
        - clear off cur L1 L2. intros t i p s (off & cur & -> & L1 & L2) (HtT & H).
          pose proof (b_mono t) as Hbt. pose proof (b_max t HtT) as HbS.
          assert (HX : forall u, u <> t -> b u <= b (S u) /\ forall v, b t <= v < b (S t) -> b u <= v < b (S u) -> False).
          { intros u Hne. split; [apply b_mono|]. intros v Hv Hu. destruct (Nat.lt_gt_cases u t) as [HH _]. specialize (HH Hne).
            destruct HH as [HH|HH]; [pose proof (b_le (S u) t ltac:(lia)); lia|pose proof (b_le (S t) u ltac:(lia)); lia]. }
          destruct H as [H|[(a & q & H1 & H2 & H3 & H4 & H5)|[(a & q & H1 & H2 & H3 & H4 & H5)|(_ & H1 & _)]]].
          + unfold off_prog_f in H. cbn [app] in H. injection H as -> ->. cbn [fexec facc].
            assert (EC : match t with 0 => Ok 0%Z | S t' => cell_of t' (map (fun t => Some (D (b (S t)))) (seq 0 T)) end = Ok (D (b t))).
            { destruct t as [|t]; [rewrite b_0, D_0; reflexivity|]. apply cell_of_some. rewrite nth_error_map, nth_error_seq' by lia. reflexivity. }
            rewrite EC. cbn [bind]. rewrite aset_lt by lia. cbn [bind].
            eexists. split; [reflexivity|]. split; [|split; [|split]].
            * do 2 eexists. split; [reflexivity|]. rewrite ?upd_length. split; assumption.
            * split; [exact HtT|]. right; left. exists (b t), (b (S t) - b t). split; [lia|]. split; [lia|]. split; [rewrite vr; reflexivity|].
              cbn [f_cur]. rewrite nth_error_upd_eq by lia. split; [reflexivity|]. intros v Hv. lia.
            * destruct t; [constructor|]. constructor; [|constructor]. split; [exact HtT|]. left. eexists; reflexivity.
            * intros u q Hne Hu. eapply oL_frame; [exact Hu|..]; cbn [f_cur f_off]; try reflexivity.
              rewrite nth_error_upd_ne by congruence. reflexivity.
          + destruct q as [|q]; [unfold obody in H3; cbn [seq flat_map app] in H3|].
            * destruct (Nat.eqb_spec t k) as [->|Hne]; [|discriminate]. injection H3 as -> ->. cbn [fexec facc].
              rewrite aset_lt by lia. cbn [bind]. assert (a = b (S k)) as -> by lia.
              eexists. split; [reflexivity|]. split; [|split; [|split]].
              -- do 2 eexists. split; [reflexivity|]. rewrite ?upd_length. split; assumption.
              -- split; [exact HtT|]. right; right; right. split; [reflexivity|]. split; [reflexivity|]. cbn [f_off]. split.
                 ++ intros v Hv. cbn [f_off]. rewrite nth_error_upd_ne by lia. apply H5; exact Hv.
                 ++ apply nth_error_upd_eq; lia.
              -- constructor; [|constructor]. split; [exact HtT|]. right; right; right. split; reflexivity.
              -- intros u q Hne Hu. pose proof Hu as (HuT & _). pose proof (b_max u HuT). eapply oL_frame; [exact Hu|..]; cbn [f_cur f_off]; try reflexivity.
                 intros v [Hv|[Hv _]]; [|congruence]. apply nth_error_upd_ne. lia.
            * unfold obody in H3. cbn [seq flat_map app] in H3. injection H3 as -> ->. cbn [fexec facc]. cbn [f_cur] in H4.
              rewrite (cell_of_some _ _ _ H4). cbn [bind]. rewrite aset_lt by lia. cbn [bind].
              eexists. split; [reflexivity|]. split; [|split; [|split]].
              -- do 2 eexists. split; [reflexivity|]. rewrite ?upd_length. split; assumption.
              -- split; [exact HtT|]. right; right; left. exists a, q. split; [lia|]. split; [lia|]. split; [reflexivity|]. split; [exact H4|].
                 intros v Hv. cbn [f_off]. destruct (Nat.eq_dec a v) as [<-|Hne]; [apply nth_error_upd_eq; lia|].
                 rewrite nth_error_upd_ne by exact Hne. apply H5; lia.
              -- constructor; [|constructor]. split; [exact HtT|]. right; right; left. exists a. split; [lia|reflexivity].
              -- intros u q' Hne Hu. pose proof (HX u Hne) as [_ HX']. eapply oL_frame; [exact Hu|..]; cbn [f_cur f_off]; try reflexivity.
                 intros v [Hv|[_ ->]]; apply nth_error_upd_ne; [|lia]. intros <-. apply (HX' a); lia.
          + injection H3 as -> ->. cbn [fexec facc]. cbn [f_cur] in H4. rewrite (cell_of_some _ _ _ H4). cbn [bind].
            rewrite (cell_of_some _ _ (nth a ds 0%Z)) by (rewrite Hdegs, nth_error_map, (nth_error_nth' ds 0%Z) by lia; reflexivity). cbn [bind].
            rewrite <- D_nth by lia. rewrite arith_small; [|exact HO|apply D_top]. cbn [bind]. rewrite aset_lt by lia. cbn [bind].
            eexists. split; [reflexivity|]. split; [|split; [|split]].
            * do 2 eexists. split; [reflexivity|]. rewrite ?upd_length. split; assumption.
            * split; [exact HtT|]. right; left. exists (S a), q. split; [lia|]. split; [lia|]. split; [reflexivity|].
              cbn [f_cur]. rewrite nth_error_upd_eq by lia. split; [reflexivity|exact H5].
            * constructor; [|constructor]. split; [exact HtT|]. right; left. eexists; reflexivity.
            * intros u q' Hne Hu. eapply oL_frame; [exact Hu|..]; cbn [f_cur f_off]; try reflexivity.
              rewrite nth_error_upd_ne by congruence. reflexivity.
          + discriminate.
        - do 2 eexists. split; [reflexivity|]. split; assumption.
        - intros t p Hp. rewrite nth_error_map in Hp. destruct (nth_error (seq 0 T) t) as [u|] eqn:Eu; [|discriminate].
          assert (HtT : t < T) by (rewrite <- (seq_length T 0); apply nth_error_Some; congruence).
          rewrite nth_error_seq' in Eu by exact HtT. cbn [plus] in Eu. injection Eu as <-. cbn [option_map] in Hp. injection Hp as <-.
          split; [exact HtT|]. left; reflexivity.
        - rewrite map_length, seq_length in HL.
          assert (HF : forall t, t < T -> offdone t (b (S t)) (st off' cur') /\ (t = k -> nth_error off' n = Some (Some m))).
          { intros t Ht. destruct (HL t Ht) as (_ & [H|[(a & q & H1 & H2 & H3 & _ & H5)|[(a & q & _ & _ & H & _)|(-> & _ & H2 & H3)]]]).
            - discriminate.
            - destruct q as [|q]; [|discriminate]. unfold obody in H3. cbn [seq flat_map app] in H3.
              destruct (Nat.eqb_spec t k); [discriminate|]. split; [|congruence]. assert (a = b (S t)) as -> by lia. exact H5.
            - discriminate.
            - split; [exact H2|intros _; exact H3]. }
          exists cur', lg. split.
          + rewrite E. do 3 f_equal. apply nth_error_ext_all; [rewrite map_length, seq_length; exact K1|]. intros v Hv. rewrite K1 in Hv.
            rewrite nth_error_map, nth_error_seq' by exact Hv. cbn [option_map plus].
            destruct (Nat.eq_dec v n) as [->|Hne].
            * destruct (HF k Hk) as [_ H]. rewrite (H eq_refl). do 2 f_equal. rewrite Em, <- Hn. symmetry. apply D_n.
            * destruct (b_cover v ltac:(lia)) as (t & Ht & Hb). destruct (HF t Ht) as [H _]. exact (H v Hb).
          + refine (no_race_from oA lg HA _).
            intros t u x y (HtT & Hx) (HuT & Hy) Hne (C1 & C2 & C3). pose proof (b_max t HtT). pose proof (b_max u HuT).
              destruct Hx as [(i & ->)|[(i & ->)|[(v & Hv & ->)|(-> & ->)]]], Hy as [(i' & ->)|[(i' & ->)|[(v' & Hv' & ->)|(-> & ->)]]];
                cbn [fst snd rd wr] in *; try discriminate; try tauto; try (destruct cp; discriminate); injection C1 as C1; subst; try lia.
              destruct (Nat.lt_gt_cases t u) as [HH _]. specialize (HH Hne).
              destruct HH as [HH|HH]; [pose proof (b_le (S t) u ltac:(lia)); lia|pose proof (b_le (S u) t ltac:(lia)); lia].
      Qed.
    End Store.
  End Off.
End Phases.
