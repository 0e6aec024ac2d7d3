(** * OwnLemmas: the storage of the containers never goes wrong *)

From Coq Require Import Permutation.
From Verif Require Import Base Own SpecOwn.

(** ** Lists and blocks *)

Lemma lset_length {A} (l : list A) i a : length (lset l i a) = length l.
Proof. revert i; induction l; intros [|i]; cbn; auto. Qed.

Lemma lset_nth_error_eq {A} (l : list A) i a : i < length l -> nth_error (lset l i a) i = Some a.
Proof. revert i; induction l; intros [|i] H; cbn in *; try lia; auto. apply IHl; lia. Qed.

Lemma lset_nth_error_ne {A} (l : list A) i j a : i <> j -> nth_error (lset l i a) j = nth_error l j.
Proof. revert i j; induction l; intros [|i] [|j] H; cbn; auto; try congruence. Qed.

Lemma lset_self {A} (l : list A) i a : nth_error l i = Some a -> lset l i a = l.
Proof.
  revert i; induction l; intros [|i] H; cbn in *; auto; try discriminate.
  - congruence.
  - f_equal; auto.
Qed.

Lemma hblock_ne h p b q : p <> q -> hblock (lset h p b) q = hblock h q.
Proof.
  unfold hblock. revert p q; induction h; intros [|p] [|q] H; cbn; auto; try congruence.
Qed.

Lemma hblock_eq h p b : p < length h -> hblock (lset h p b) p = b.
Proof. unfold hblock. revert p; induction h; intros [|p] H; cbn in *; try lia; auto. apply IHh; lia. Qed.

Lemma hblock_lt h p rc cs : hblock h p = Live rc cs -> p < length h.
Proof.
  unfold hblock; intros H. destruct (Nat.lt_ge_cases p (length h)); auto.
  rewrite nth_overflow in H by auto. discriminate.
Qed.

Lemma hblock_app_lt h l q : q < length h -> hblock (h ++ l) q = hblock h q.
Proof. intros; unfold hblock; apply app_nth1; auto. Qed.

Lemma hblock_app_new h b : hblock (h ++ [b]) (length h) = b.
Proof. unfold hblock. rewrite app_nth2 by lia. rewrite Nat.sub_diag. reflexivity. Qed.

Lemma hblock_ge h q : length h <= q -> hblock h q = Freed.
Proof. intros; unfold hblock; apply nth_overflow; auto. Qed.

Lemma hblock_app_ge h b q : q <> length h -> hblock (h ++ [b]) q = hblock h q.
Proof.
  intros. destruct (Nat.lt_ge_cases q (length h)).
  - apply hblock_app_lt; auto.
  - rewrite !hblock_ge; auto. rewrite app_length; cbn [length]; lia.
Qed.

(** ** What an object owns *)

Definition own1 (m : nat) (k : kind) (a : handle) : list nat :=
  match a with
  | None => []
  | Some p => match k with Ptr => if m =? 0 then [] else [p] | _ => [p] end
  end.

Fixpoint owned (m : nat) (ks : list kind) (az : list handle) : list nat :=
  match ks, az with
  | k :: ks', a :: az' => own1 m k a ++ owned m ks' az'
  | _, _ => []
  end.

Definition ownedo (o : obj) : list nat := owned (om o) (kinds (ocls o)) (oarr o).

Definition live1 (h : heap) (p : nat) : Prop := exists cs, hblock h p = Live 1 cs.

Record R (h : heap) (o : obj) (v : value) : Prop := mkR {
  R_cls : ocls o = vcls v;
  R_hdr : ohdr o = vhdr v;
  R_m : om o = vm v;
  R_len : length (oarr o) = length (kinds (ocls o));
  R_size : map (@length _) (varr v) = sizes (vcls v) (vhdr v) (vm v);
  R_nodup : NoDup (ownedo o);
  R_live : forall p, In p (ownedo o) -> live1 h p;
  R_arr : 0 < om o -> Forall2 (fun a cs => exists p, a = Some p /\ hblock h p = Live 1 cs)
                              (oarr o) (varr v) }.

Definition slotR (h : heap) (x : option (option obj)) (y : option (option value)) : Prop :=
  match x, y with
  | Some (Some o), Some (Some v) => R h o v
  | Some None, Some None => True
  | None, None => True
  | _, _ => False
  end.

Record Inv (h : heap) (E : env) (A : vars) : Prop := mkInv {
  Inv_slot : forall a, slotR h (nth_error E a) (nth_error A a);
  Inv_disj : forall a b o o' p, a <> b -> nth_error E a = Some (Some o) ->
      nth_error E b = Some (Some o') -> In p (ownedo o) -> ~ In p (ownedo o') }.

Definition noleak (h : heap) (E : env) : Prop :=
  forall p rc cs, hblock h p = Live rc cs -> cs <> [] ->
    exists a o, nth_error E a = Some (Some o) /\ In p (ownedo o).

Lemma kinds_sizes c hdr m : length (sizes c hdr m) = length (kinds c).
Proof. destruct c as [s ws []|s ws []]; reflexivity. Qed.

Lemma sizes_zero c hdr n : In n (sizes c hdr 0) -> n = 0.
Proof. destruct c as [s ws []|s ws []]; cbn; rewrite ?Nat.mul_0_r; intuition. Qed.

Lemma owned_ids m ks az p : In p (owned m ks az) -> In (Some p) az.
Proof.
  revert az; induction ks as [|k ks IH]; intros [|a az]; cbn; try tauto.
  rewrite in_app_iff. intros [H|H]; [|right; auto].
  left. destruct a as [q|]; cbn in H; [|tauto].
  destruct k; [destruct (m =? 0)|..]; cbn in H; try tauto; destruct H; subst; auto; tauto.
Qed.

Lemma owned_0_sub m ks az p : In p (owned 0 ks az) -> In p (owned m ks az).
Proof.
  revert az; induction ks as [|k ks IH]; intros [|a az]; cbn; try tauto.
  rewrite !in_app_iff. intros [H|H]; [left|right; auto].
  destruct a; cbn in *; auto. destruct k; cbn in *; auto; tauto.
Qed.

Lemma owned_nodup_0 m ks az : NoDup (owned m ks az) -> NoDup (owned 0 ks az).
Proof.
  revert az; induction ks as [|k ks IH]; intros [|a az]; cbn; auto.
  assert (X : own1 0 k a = own1 m k a \/ own1 0 k a = []).
  { destruct a; cbn; auto. destruct k; cbn; auto. }
  intros H. destruct X as [-> | ->]; cbn.
  - revert H. destruct (own1 m k a) as [|q l] eqn:Eo; cbn; auto.
    assert (l = []) as -> by (destruct a; cbn in Eo; [destruct k; [destruct (m =? 0)|..]|]; congruence).
    cbn. intros H. inversion H; subst. constructor; auto.
    intros HI; apply H2. eapply owned_0_sub; eauto.
  - apply IH. clear IH. induction (own1 m k a); cbn in H; auto. inversion H; auto.
Qed.

Lemma owned_all m ks ps : 0 < m -> length ps = length ks -> owned m ks (map Some ps) = ps.
Proof.
  intros Hm. revert ps; induction ks as [|k ks IH]; intros [|p ps] H; cbn in *; try lia; auto.
  rewrite IH by lia. destruct k; auto. destruct (Nat.eqb_spec m 0); [lia|auto].
Qed.

Lemma owned_none m ks : owned m ks (map (fun _ => None) ks) = [].
Proof. induction ks; cbn; auto. Qed.

Lemma owned_sub_ps m ks ps p : In p (owned m ks (map Some ps)) -> In p ps.
Proof. intros H. apply owned_ids in H. apply in_map_iff in H. destruct H as [q [H ?]]; congruence. Qed.

Lemma owned_nodup_ps m ks ps : NoDup ps -> NoDup (owned m ks (map Some ps)).
Proof.
  revert ps; induction ks as [|k ks IH]; intros [|p ps] H; cbn; try constructor.
  inversion H; subst.
  assert (NoDup (p :: owned m ks (map Some ps))).
  { constructor; auto. intros X; apply H2. eapply owned_sub_ps; eauto. }
  destruct k; cbn; auto. destruct (m =? 0); cbn; auto.
Qed.

(** ** Invariants under changes of one variable *)

Lemma R_frame h h' o v : R h o v -> (forall p, In p (ownedo o) -> hblock h' p = hblock h p) -> R h' o v.
Proof.
  intros [] F. constructor; auto.
  - intros p Hp. destruct (R_live0 p Hp) as [cs H]. exists cs. rewrite F; auto.
  - intros Hm. specialize (R_arr0 Hm).
    assert (X : forall p, In (Some p) (oarr o) -> In p (ownedo o)).
    { unfold ownedo. clear -R_arr0 R_len0 Hm. revert R_len0 R_arr0.
      generalize (varr v). generalize (oarr o) as az. induction (kinds (ocls o)) as [|k ks IH];
        intros [|a az] vs Hl HF p Hp; cbn in *; try lia; try tauto.
      rewrite in_app_iff. destruct vs as [|cs vs]; inversion HF; subst.
      destruct Hp as [->|Hp]; [left|right; eapply IH; eauto].
      cbn. destruct k; cbn; auto. destruct (Nat.eqb_spec (om o) 0); [lia|cbn; auto]. }
    clear -R_arr0 X F. induction R_arr0 as [|a cs az vs [p [-> Hp]] _ IH]; constructor.
    + exists p. split; auto. rewrite F; auto. apply X; cbn; auto.
    + apply IH. intros q Hq. apply X; cbn; auto.
Qed.

Lemma Inv_upd h E A h' a o o' v' :
  Inv h E A -> nth_error E a = Some (Some o) -> R h' o' v' ->
  (forall b ob p, b <> a -> nth_error E b = Some (Some ob) -> In p (ownedo ob) -> hblock h' p = hblock h p) ->
  (forall p, In p (ownedo o') -> In p (ownedo o) \/ length h <= p) ->
  Inv h' (lset E a (Some o')) (lset A a (Some v')).
Proof.
  intros [IS ID] Ea HR HF HO.
  assert (La : a < length E) by (apply nth_error_Some; congruence).
  assert (LA : a < length A).
  { specialize (IS a). rewrite Ea in IS. apply nth_error_Some. destruct (nth_error A a); [congruence|].
    cbn in IS. tauto. }
  constructor.
  - intros b. destruct (Nat.eq_dec a b) as [<-|N].
    + rewrite !lset_nth_error_eq by auto. exact HR.
    + rewrite !lset_nth_error_ne by auto. specialize (IS b).
      destruct (nth_error E b) as [[ob|]|] eqn:Eb; cbn in *; auto.
      destruct (nth_error A b) as [[vb|]|]; auto.
      eapply R_frame; eauto.
  - assert (Y : forall b ob p, b <> a -> nth_error E b = Some (Some ob) -> In p (ownedo ob) ->
                ~ In p (ownedo o')).
    { intros b ob p N Eb Hp Hp'. destruct (HO p Hp') as [X|X].
      - eapply (ID a b o ob p); eauto.
      - specialize (IS b). rewrite Eb in IS. cbn in IS. destruct (nth_error A b) as [[vb|]|]; try tauto.
        destruct (R_live _ _ _ IS p Hp) as [cs Hc]. apply hblock_lt in Hc. lia. }
    intros b c ob oc p N Eb Ec Hp Hp'.
    destruct (Nat.eq_dec a b) as [<-|N1]; [|destruct (Nat.eq_dec a c) as [<-|N2]].
    + rewrite lset_nth_error_eq in Eb by auto. rewrite lset_nth_error_ne in Ec by auto.
      inversion Eb; subst. eapply (Y c); eauto.
    + rewrite lset_nth_error_eq in Ec by auto. rewrite lset_nth_error_ne in Eb by auto.
      inversion Ec; subst. eapply (Y b); eauto.
    + rewrite lset_nth_error_ne in Eb, Ec by auto. eapply (ID b c); eauto.
Qed.

Lemma nth_error_push {B} (l : list B) x a :
  nth_error (l ++ [x]) a = if a =? length l then Some x else nth_error l a.
Proof.
  destruct (Nat.eqb_spec a (length l)) as [->|N].
  - rewrite nth_error_app2 by lia. rewrite Nat.sub_diag. reflexivity.
  - destruct (Nat.lt_ge_cases a (length l)).
    + apply nth_error_app1; auto.
    + rewrite nth_error_app2 by lia.
      assert (X : nth_error l a = None) by (apply nth_error_None; lia). rewrite X.
      destruct (a - length l) eqn:Y; [lia|]. cbn. destruct n; reflexivity.
Qed.

Lemma Inv_len h E A : Inv h E A -> length E = length A.
Proof.
  intros [IS _].
  destruct (Nat.lt_trichotomy (length E) (length A)) as [X|[X|X]]; auto; exfalso.
  - specialize (IS (length E)). destruct (nth_error E (length E)) eqn:Y.
    + assert (length E < length E) by (apply nth_error_Some; congruence). lia.
    + destruct (nth_error A (length E)) as [|] eqn:Z; cbn in IS; auto.
      apply nth_error_None in Z. lia.
  - specialize (IS (length A)). destruct (nth_error A (length A)) eqn:Y.
    + assert (length A < length A) by (apply nth_error_Some; congruence). lia.
    + destruct (nth_error E (length A)) as [[|]|] eqn:Z; cbn in IS; auto.
      apply nth_error_None in Z. lia.
Qed.

Lemma Inv_push h E A h' o' v' :
  Inv h E A -> R h' o' v' ->
  (forall b ob p, nth_error E b = Some (Some ob) -> In p (ownedo ob) -> hblock h' p = hblock h p) ->
  (forall p, In p (ownedo o') -> length h <= p) ->
  Inv h' (E ++ [Some o']) (A ++ [Some v']).
Proof.
  intros HI HR HF HO. pose proof (Inv_len _ _ _ HI) as HL. destruct HI as [IS ID].
  constructor.
  - intros b. rewrite !nth_error_push, <- HL. destruct (b =? length E); auto.
    specialize (IS b). destruct (nth_error E b) as [[ob|]|] eqn:Eb; cbn in *; auto.
    destruct (nth_error A b) as [[vb|]|]; auto.
    eapply R_frame; eauto.
  - assert (Y : forall b ob p, nth_error E b = Some (Some ob) -> In p (ownedo ob) ->
                ~ In p (ownedo o')).
    { intros b ob p Eb Hp Hp'. specialize (HO p Hp').
      specialize (IS b). rewrite Eb in IS. cbn in IS. destruct (nth_error A b) as [[vb|]|]; try tauto.
      destruct (R_live _ _ _ IS p Hp) as [cs Hc]. apply hblock_lt in Hc. lia. }
    intros b c ob oc p N Eb Ec Hp Hp'. rewrite nth_error_push in Eb, Ec.
    destruct (Nat.eqb_spec b (length E)); destruct (Nat.eqb_spec c (length E)); subst; try congruence.
    + inversion Eb; subst. eapply (Y c); eauto.
    + inversion Ec; subst. eapply (Y b); eauto.
    + eapply (ID b c); eauto.
Qed.

Lemma Inv_drop h E A h' a o :
  Inv h E A -> nth_error E a = Some (Some o) ->
  (forall b ob p, b <> a -> nth_error E b = Some (Some ob) -> In p (ownedo ob) -> hblock h' p = hblock h p) ->
  Inv h' (lset E a None) (lset A a None).
Proof.
  intros HI Ea HF. pose proof (Inv_len _ _ _ HI) as HL. destruct HI as [IS ID].
  assert (La : a < length E) by (apply nth_error_Some; congruence).
  constructor.
  - intros b. destruct (Nat.eq_dec a b) as [<-|N].
    + rewrite !lset_nth_error_eq by lia. exact I.
    + rewrite !lset_nth_error_ne by auto. specialize (IS b).
      destruct (nth_error E b) as [[ob|]|] eqn:Eb; cbn in *; auto.
      destruct (nth_error A b) as [[vb|]|]; auto.
      eapply R_frame; eauto.
  - intros b c ob oc p N Eb Ec Hp Hp'.
    destruct (Nat.eq_dec a b) as [<-|N1]; [rewrite lset_nth_error_eq in Eb by auto; discriminate|].
    destruct (Nat.eq_dec a c) as [<-|N2]; [rewrite lset_nth_error_eq in Ec by auto; discriminate|].
    rewrite lset_nth_error_ne in Eb, Ec by auto. eapply (ID b c); eauto.
Qed.

(** ** Allocation *)

Lemma alloc_fresh ks : forall ns h, length ns = length ks ->
  alloc_all h ks ns (map (fun _ => None) ks) =
  Ok (h ++ map (fun kn => Live 1 (new_array (fst kn) (snd kn))) (combine ks ns),
      map Some (seq (length h) (length ks))).
Proof.
  induction ks as [|k ks IH]; intros [|n ns] h H; cbn in *; try lia.
  - rewrite app_nil_r. reflexivity.
  - assert (X : alloc_mem k h None n = Ok (h ++ [Live 1 (new_array k n)], Some (length h)))
      by (destruct k; reflexivity).
    rewrite X. cbn [bind]. rewrite IH by lia. cbn [bind].
    rewrite <- app_assoc, app_length. cbn [length app]. rewrite Nat.add_1_r. reflexivity.
Qed.

Lemma alloc_all_spec ks : forall ns az h,
  length ns = length ks -> length az = length ks ->
  NoDup (owned 0 ks az) -> (forall p, In p (owned 0 ks az) -> live1 h p) ->
  exists h' ps, alloc_all h ks ns az = Ok (h', map Some ps) /\ length ps = length ks /\
    NoDup ps /\ (forall p, In p ps -> length h <= p \/ In p (owned 0 ks az)) /\
    Forall2 (fun p n => exists cs, hblock h' p = Live 1 cs /\ length cs = n) ps ns /\
    length h <= length h' /\
    (forall q, ~ In q ps -> (In q (owned 0 ks az) /\ hblock h' q = Freed) \/
                            (~ In q (owned 0 ks az) /\ hblock h' q = hblock h q)).
Proof.
  induction ks as [|k ks IH]; intros [|n ns] [|a az] h Hn Ha HND HL; cbn in Hn, Ha; try lia.
  - exists h, []. cbn. repeat split; auto; constructor.
  - (* one array *)
    assert (S1 : exists h1 p, alloc_mem k h a n = Ok (h1, Some p) /\
              (p = length h \/ In p (own1 0 k a)) /\
              (exists cs, hblock h1 p = Live 1 cs /\ length cs = n) /\
              length h <= length h1 /\ p < length h1 /\
              (forall q, q <> p -> (In q (own1 0 k a) /\ hblock h1 q = Freed) \/
                                   (~ In q (own1 0 k a) /\ hblock h1 q = hblock h q))).
    { assert (HL1 : forall p, In p (own1 0 k a) -> live1 h p)
        by (intros; apply HL; cbn; rewrite in_app_iff; auto).
      assert (NEW : forall b, length (h ++ [b]) = S (length h))
        by (intros; rewrite app_length; cbn [length]; lia).
      destruct k; cbn [alloc_mem].
      - exists (h ++ [Live 1 (repeat None n)]), (length h).
        assert (own1 0 Ptr a = []) as -> by (destruct a; reflexivity).
        split; [reflexivity|]. split; [auto|]. split.
        { rewrite hblock_app_new. eexists; split; eauto. apply repeat_length. }
        rewrite NEW. repeat split; try lia.
        intros q Hq. right. split; [cbn; tauto|]. apply hblock_app_ge; auto.
      - destruct a as [p|].
        + destruct (HL1 p) as [cs Hp]; [cbn; auto|]. rewrite Hp.
          pose proof (hblock_lt _ _ _ _ Hp).
          eexists _, p. split; [reflexivity|]. split; [cbn; auto|]. split.
          { rewrite hblock_eq by auto. eexists; split; eauto.
            rewrite app_length, firstn_length, repeat_length. lia. }
          rewrite lset_length. repeat split; try lia.
          intros q Hq. right. split; [cbn; intuition|]. apply hblock_ne; auto.
        + exists (h ++ [Live 1 (repeat (Some 0%Z) n)]), (length h).
          split; [reflexivity|]. split; [auto|]. split.
          { rewrite hblock_app_new. eexists; split; eauto. apply repeat_length. }
          rewrite NEW. repeat split; try lia.
          intros q Hq. right. split; [cbn; tauto|]. apply hblock_app_ge; auto.
      - destruct a as [p|]; cbn [release].
        + destruct (HL1 p) as [cs Hp]; [cbn; auto|].
          pose proof (hblock_lt _ _ _ _ Hp).
          rewrite hblock_app_lt, Hp by auto. cbn [bind].
          eexists _, (length h). split; [reflexivity|]. split; [auto|]. split.
          { rewrite hblock_ne by lia. rewrite hblock_app_new. eexists; split; eauto. apply repeat_length. }
          rewrite lset_length, NEW. repeat split; try lia.
          intros q Hq. destruct (Nat.eq_dec p q) as [<-|N].
          * left. split; [cbn; auto|]. apply hblock_eq. rewrite NEW; lia.
          * right. split; [cbn; intuition|]. rewrite hblock_ne by auto. apply hblock_app_ge; auto.
        + cbn [bind]. exists (h ++ [Live 1 (repeat None n)]), (length h).
          split; [reflexivity|]. split; [auto|]. split.
          { rewrite hblock_app_new. eexists; split; eauto. apply repeat_length. }
          rewrite NEW. repeat split; try lia.
          intros q Hq. right. split; [cbn; tauto|]. apply hblock_app_ge; auto. }
    destruct S1 as (h1 & p & E1 & Hp & (cs & Hcs & Lcs) & L1 & Lp & F1).
    cbn [owned] in HND, HL |- *.
    (* the tail owns nothing the first array owns *)
    assert (D : forall q, In q (own1 0 k a) -> ~ In q (owned 0 ks az)).
    { intros q Hq Hq'. clear -HND Hq Hq'. induction (own1 0 k a); cbn in *; [tauto|].
      inversion HND; subst. destruct Hq as [->|Hq]; auto. apply H1. rewrite in_app_iff; auto. }
    assert (ND2 : NoDup (owned 0 ks az)).
    { clear -HND. induction (own1 0 k a); cbn in *; auto. inversion HND; auto. }
    assert (LV : forall q, In q (owned 0 ks az) -> q <> p /\ q < length h).
    { intros q Hq. destruct (HL q) as [c Hc]; [rewrite in_app_iff; auto|].
      apply hblock_lt in Hc. split; auto. intros ->. destruct Hp as [->|Hp]; [lia|].
      eapply D; eauto. }
    destruct (IH ns az h1) as (h' & ps & E2 & Lps & NDps & Fps & F2 & L2 & Fr); auto; try lia.
    { intros q Hq. destruct (LV q Hq) as [X Y].
      destruct (F1 q X) as [[Z _]|[_ Z]]; [exfalso; eapply D; eauto|].
      destruct (HL q) as [c Hc]; [rewrite in_app_iff; auto|].
      exists c. congruence. }
    assert (Np : ~ In p ps).
    { intros X. destruct (Fps p X) as [Y|Y]; [lia|]. destruct (LV p Y); congruence. }
    exists h', (p :: ps). cbn [alloc_all]. rewrite E1. cbn [bind]. rewrite E2. cbn [bind map].
    split; [reflexivity|]. split; [cbn [length]; lia|]. split; [constructor; auto|]. split.
    { intros q [<-|Hq].
      - destruct Hp as [->|Hp]; [left; lia|right; rewrite in_app_iff; auto].
      - destruct (Fps q Hq) as [Y|Y]; [left; lia|right; rewrite in_app_iff; auto]. }
    split.
    { constructor; auto. exists cs. split; auto.
      destruct (Fr p Np) as [[Y _]|[_ Y]]; [|congruence]. destruct (LV p Y); congruence. }
    split; [lia|].
    intros q Hq. cbn in Hq. assert (Q1 : q <> p) by (intros ->; tauto).
    assert (Q2 : ~ In q ps) by tauto.
    rewrite in_app_iff.
    destruct (Fr q Q2) as [[Y Z]|[Y Z]].
    + left; auto.
    + destruct (F1 q Q1) as [[U V]|[U V]]; [left|right]; split; auto; try congruence. tauto.
Qed.

(** ** Copying *)

Lemma copy_arr_spec ord : forall h d s cd rd cs rs,
  hblock h d = Live rd cd -> hblock h s = Live rs cs -> d <> s -> length cd = length cs ->
  Forall (fun x => x <> None) cs -> (forall i, In i ord -> i < length cs) ->
  exists h' cd', copy_arr h (Some d) (Some s) ord = Ok h' /\
    hblock h' d = Live rd cd' /\ length cd' = length cs /\
    (forall i, In i ord -> nth_error cd' i = nth_error cs i) /\
    (forall i, ~ In i ord -> nth_error cd' i = nth_error cd i) /\
    (forall q, q <> d -> hblock h' q = hblock h q) /\ length h' = length h.
Proof.
  induction ord as [|i ord IH]; intros h d s cd rd cs rs Hd Hs N HL HF HO.
  - exists h, cd. cbn. repeat split; auto. tauto.
  - assert (Hi : i < length cs) by (apply HO; cbn; auto).
    destruct (nth_error cs i) as [[v|]|] eqn:Ei.
    2:{ exfalso. apply nth_error_In in Ei. rewrite Forall_forall in HF. apply HF in Ei. congruence. }
    2:{ apply nth_error_None in Ei. lia. }
    cbn [copy_arr hget]. rewrite Hs, Ei. cbn [bind hset]. rewrite Hd.
    assert (X : (i <? length cd) = true) by (apply Nat.ltb_lt; lia). rewrite X. cbn [bind].
    pose proof (hblock_lt _ _ _ _ Hd) as Ld.
    destruct (IH (lset h d (Live rd (lset cd i (Some v)))) d s (lset cd i (Some v)) rd cs rs)
      as (h' & cd' & E & B & L & I1 & I2 & F & LH); auto.
    + apply hblock_eq; auto.
    + rewrite hblock_ne; auto.
    + rewrite lset_length; auto.
    + intros; apply HO; cbn; auto.
    + exists h', cd'. split; [exact E|]. split; [auto|]. split; [auto|]. split.
      { intros j [<-|Hj]; auto. destruct (in_dec Nat.eq_dec i ord) as [Y|Y]; auto.
        rewrite I2, lset_nth_error_eq by (auto; lia). auto. }
      split.
      { intros j Hj. cbn in Hj. rewrite I2 by tauto. apply lset_nth_error_ne. intros ->; tauto. }
      split.
      { intros q Hq. rewrite F by auto. apply hblock_ne; auto. }
      rewrite LH. apply lset_length.
Qed.

Lemma nth_error_ext {A} (l l' : list A) : (forall i, nth_error l i = nth_error l' i) -> l = l'.
Proof.
  revert l'; induction l as [|a l IH]; intros [|b l'] H; auto.
  - specialize (H 0); discriminate.
  - specialize (H 0); discriminate.
  - f_equal; [specialize (H 0); cbn in H; congruence|]. apply IH. intros i. exact (H (S i)).
Qed.

Lemma copy_all_spec css : forall ps ss ords h,
  NoDup ps ->
  Forall2 (fun s cs => exists q, s = Some q /\ ~ In q ps /\ exists rs, hblock h q = Live rs cs) ss css ->
  Forall2 (fun p n => exists cd, hblock h p = Live 1 cd /\ length cd = n) ps (map (@length _) css) ->
  Forall (Forall (fun x : option Z => x <> None)) css ->
  Forall2 (fun ord n => Permutation ord (seq 0 n)) ords (map (@length _) css) ->
  exists h', copy_all h (map Some ps) ss ords = Ok h' /\
    Forall2 (fun p cs => hblock h' p = Live 1 cs) ps css /\
    (forall q, ~ In q ps -> hblock h' q = hblock h q) /\ length h' = length h.
Proof.
  induction css as [|cs css IH]; intros ps ss ords h ND HS HD HA HO; cbn [map] in *.
  - inversion HD; inversion HS; inversion HO; subst. exists h. cbn. repeat split; auto.
  - inversion HD as [|p n ps' ns (cd & Hp & Lcd) HD']; subst.
    inversion HS as [|s c ss' css' (q & -> & Nq & rs & Hq) HS']; subst.
    inversion HO as [|ord n ords' ns' HP HO']; subst.
    inversion HA as [|? ? HA1 HA2]; subst. inversion ND as [|? ? NDp ND']; subst.
    assert (Npq : p <> q) by (intros ->; cbn in Nq; tauto).
    destruct (copy_arr_spec ord h p q cd 1 cs rs) as (h1 & cd' & E & B & L & I1 & I2 & F & LH); auto.
    { intros i Hi. eapply Permutation_in in Hi; eauto. apply in_seq in Hi. lia. }
    assert (cd' = cs) as ->.
    { apply nth_error_ext. intros i. destruct (Nat.lt_ge_cases i (length cs)) as [X|X].
      - apply I1. eapply Permutation_in; [symmetry; eauto|]. apply in_seq; lia.
      - assert (Y : nth_error cd' i = None) by (apply nth_error_None; lia).
        assert (Z : nth_error cs i = None) by (apply nth_error_None; lia). congruence. }
    destruct (IH ps' ss' ords' h1) as (h' & E' & B' & F' & LH'); auto.
    { clear -HS' F Nq. induction HS' as [|s c ss css (q' & -> & N & rs & Hq) _ IH]; constructor; auto.
      exists q'. split; auto. cbn in N. split; [tauto|]. exists rs. rewrite F; auto. }
    { clear -HD' F NDp. induction HD' as [|p' n ps ns (c & Hc & Lc) _ IH]; constructor.
      - exists c. rewrite F; auto. intros ->; apply NDp; cbn; auto.
      - apply IH. intros X; apply NDp; cbn; auto. }
    exists h'. cbn [copy_all map]. rewrite E. cbn [bind]. split; auto. split.
    { constructor; auto. rewrite F'; auto. }
    split; [|lia].
    intros r Hr. cbn in Hr. rewrite F' by tauto. apply F. intros ->; tauto.
Qed.

(** ** Freeing and dropping *)

Lemma owned_app_parts m k a ks az :
  NoDup (own1 m k a ++ owned m ks az) ->
  NoDup (owned m ks az) /\ (forall q, In q (own1 m k a) -> ~ In q (owned m ks az)).
Proof.
  induction (own1 m k a); cbn; [intros; split; auto|].
  intros H. inversion H; subst. destruct IHl as [X Y]; auto. split; auto.
  intros q [->|Hq]; auto. intros Z; apply H2; rewrite in_app_iff; auto.
Qed.

Lemma free_all_spec m ks : forall az h, 0 < m ->
  length az = length ks -> (forall a, In a az -> a <> None) ->
  NoDup (owned m ks az) -> (forall p, In p (owned m ks az) -> live1 h p) ->
  exists h', free_all h ks az = Ok h' /\ length h' = length h /\
    (forall q, In q (owned 0 ks az) -> hblock h' q = hblock h q) /\
    (forall q, ~ In q (owned m ks az) -> hblock h' q = hblock h q) /\
    (forall q, In q (owned m ks az) -> ~ In q (owned 0 ks az) -> hblock h' q = Freed).
Proof.
  induction ks as [|k ks IH]; intros [|a az] h Hm Hl Hs HND HL; cbn [length] in Hl; try lia.
  - exists h. cbn. repeat split; auto; tauto.
  - cbn [owned] in *. destruct (owned_app_parts _ _ _ _ _ HND) as [ND2 D].
    destruct a as [p|]; [|exfalso; eapply Hs; cbn; eauto].
    assert (HL1 : forall q, In q (own1 m k (Some p)) -> live1 h q)
      by (intros; apply HL; rewrite in_app_iff; auto).
    assert (O1 : own1 m k (Some p) = [p]).
    { destruct k; cbn; auto. destruct (Nat.eqb_spec m 0); [lia|auto]. }
    rewrite O1 in *.
    assert (S1 : exists h1, free_mem k h (Some p) = Ok h1 /\ length h1 = length h /\
               (forall q, q <> p -> hblock h1 q = hblock h q) /\
               (hblock h1 p = match k with Ptr => Freed | _ => hblock h p end)).
    { destruct (HL1 p) as [cs Hp]; [cbn; auto|]. pose proof (hblock_lt _ _ _ _ Hp).
      destruct k; cbn [free_mem hfree].
      - rewrite Hp. eexists; split; [reflexivity|]. rewrite lset_length. repeat split; auto.
        + intros; apply hblock_ne; auto.
        + apply hblock_eq; auto.
      - eexists; eauto.
      - eexists; eauto. }
    destruct S1 as (h1 & E1 & L1 & F1 & B1).
    assert (Dp : ~ In p (owned m ks az)) by (apply D; cbn; auto).
    destruct (IH az h1) as (h' & E2 & L2 & F2 & G2 & B2); auto; try lia.
    { intros; apply Hs; cbn; auto. }
    { intros q Hq. destruct (HL q) as [cs Hc]; [rewrite in_app_iff; auto|].
      exists cs. rewrite F1; auto. intros ->; auto. }
    exists h'. cbn [free_all]. rewrite E1. cbn [bind]. split; auto. split; [lia|]. split; [|split].
    + intros q. rewrite in_app_iff. intros [Hq|Hq].
      * assert (q = p /\ k <> Ptr) as [-> Hk].
        { destruct k; cbn in Hq; destruct Hq; subst; try tauto; split; auto; discriminate. }
        rewrite G2 by auto. rewrite B1. destruct k; congruence.
      * rewrite F2 by auto. apply F1. intros ->. apply Dp. apply owned_0_sub; auto.
    + intros q Hq. rewrite in_app_iff in Hq. cbn in Hq. rewrite G2 by tauto. apply F1. intros ->; tauto.
    + intros q Hq Hq0. rewrite in_app_iff in Hq, Hq0.
      destruct (Nat.eq_dec q p) as [->|N].
      * rewrite G2 by auto. rewrite B1. destruct k; auto; exfalso; apply Hq0; cbn; auto.
      * destruct Hq as [[->|[]]|Hq]; [congruence|]. apply B2; auto.
Qed.

Lemma drop_all_spec ks : forall az h,
  length az = length ks ->
  NoDup (owned 0 ks az) -> (forall p, In p (owned 0 ks az) -> live1 h p) ->
  exists h', drop_all h ks az = Ok h' /\ length h' = length h /\
    (forall q, ~ In q (owned 0 ks az) -> hblock h' q = hblock h q) /\
    (forall q, In q (owned 0 ks az) -> hblock h' q = Freed).
Proof.
  induction ks as [|k ks IH]; intros [|a az] h Hl HND HL; cbn [length] in Hl; try lia.
  - exists h. cbn. repeat split; auto; tauto.
  - cbn [owned] in *. destruct (owned_app_parts _ _ _ _ _ HND) as [ND2 D].
    assert (HL1 : forall q, In q (own1 0 k a) -> live1 h q)
      by (intros; apply HL; rewrite in_app_iff; auto).
    assert (S1 : exists h1, drop_mem k h a = Ok h1 /\ length h1 = length h /\
               (forall q, ~ In q (own1 0 k a) -> hblock h1 q = hblock h q) /\
               (forall q, In q (own1 0 k a) -> hblock h1 q = Freed)).
    { destruct a as [p|].
      2:{ exists h. destruct k; cbn; repeat split; auto; tauto. }
      destruct k; cbn [drop_mem release own1] in *.
      - exists h. cbn. repeat split; auto; tauto.
      - destruct (HL1 p) as [cs Hp]; [cbn; auto|]. pose proof (hblock_lt _ _ _ _ Hp).
        rewrite Hp. eexists; split; [reflexivity|]. rewrite lset_length. repeat split; auto.
        + intros q Hq. apply hblock_ne. cbn in Hq; tauto.
        + intros q [<-|[]]. apply hblock_eq; auto.
      - destruct (HL1 p) as [cs Hp]; [cbn; auto|]. pose proof (hblock_lt _ _ _ _ Hp).
        rewrite Hp. eexists; split; [reflexivity|]. rewrite lset_length. repeat split; auto.
        + intros q Hq. apply hblock_ne. cbn in Hq; tauto.
        + intros q [<-|[]]. apply hblock_eq; auto. }
    destruct S1 as (h1 & E1 & L1 & F1 & B1).
    destruct (IH az h1) as (h' & E2 & L2 & G2 & B2); auto; try lia.
    { intros q Hq. destruct (HL q) as [cs Hc]; [rewrite in_app_iff; auto|].
      exists cs. rewrite F1; auto. intros X. eapply D; eauto. }
    exists h'. cbn [drop_all]. rewrite E1. cbn [bind]. split; auto. split; [lia|]. split.
    + intros q Hq. rewrite in_app_iff in Hq. rewrite G2 by tauto. apply F1; tauto.
    + intros q Hq. rewrite in_app_iff in Hq.
      destruct (in_dec Nat.eq_dec q (owned 0 ks az)) as [X|X]; auto.
      rewrite G2 by auto. apply B1. tauto.
Qed.
