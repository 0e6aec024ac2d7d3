(** * P_File: C52, the life of a [File] *)

From Coq Require Import String.
From Verif Require Import Base Reader Bin Own OwnLemmas OwnMain FileLife SpecFile.
From Verif Require Import SpecBin.
Open Scope list_scope.
Notation length := List.length.

Lemma mapped_unmap s k q : mapped (unmap s k) q = if q =? k then None else mapped s q.
Proof.
  induction s as [|[k' bs] s IH]; cbn [unmap mapped].
  - destruct (q =? k); reflexivity.
  - destruct (Nat.eqb_spec k k') as [<-|N]; cbn [mapped].
    + rewrite IH. destruct (q =? k); reflexivity.
    + destruct (Nat.eqb_spec q k') as [->|N1]; [|apply IH].
      destruct (Nat.eqb_spec k' k); [congruence|auto].
Qed.

Definition fR (s : aspace) (f : fobj) (v : fval) : Prop :=
  match v with
  | Opened bs p n =>
      exists k, f_data f = Some k /\ mapped s k = Some bs /\ f_size f = length bs /\ f_name f = n /\
        (forall q, p = Some q -> f_fp f = Some (k, q))
  | Moved n => f_data f = None /\ f_name f = n
  end.

Definition fslot (s : aspace) (x : option (option fobj)) (y : option (option fval)) : Prop :=
  match x, y with
  | Some (Some f), Some (Some v) => fR s f v
  | Some None, Some None => True
  | None, None => True
  | _, _ => False
  end.

Record FInv (s : aspace) (E : fenv) (A : fvars) : Prop := mkFInv {
  FI_slot : forall a, fslot s (nth_error E a) (nth_error A a);
  FI_disj : forall a b f g k, a <> b -> nth_error E a = Some (Some f) -> nth_error E b = Some (Some g) ->
      f_data f = Some k -> f_data g <> Some k;
  FI_cover : forall k bs, mapped s k = Some bs ->
      exists a f, nth_error E a = Some (Some f) /\ f_data f = Some k }.

Lemma FInv_len s E A : FInv s E A -> length E = length A.
Proof.
  intros [IS _ _].
  destruct (Nat.lt_trichotomy (length E) (length A)) as [X|[X|X]]; auto; exfalso.
  - specialize (IS (length E)). destruct (nth_error E (length E)) eqn:Y.
    + assert (length E < length E) by (apply nth_error_Some; congruence). lia.
    + destruct (nth_error A (length E)) as [|] eqn:Z; cbn in IS; auto.
      apply nth_error_None in Z. lia.
  - specialize (IS (length A)). destruct (nth_error A (length A)) eqn:Y.
    + assert (length A < length A) by (apply nth_error_Some; congruence). lia.
    + destruct (nth_error E (length A)) as [[|]|] eqn:Z; cbn in IS; auto.
      apply nth_error_None in Z. lia.
Qed.

Lemma fvar_R s E A a v : FInv s E A -> fvar A a v ->
  exists f, nth_error E a = Some (Some f) /\ flook E a = Ok f /\ fR s f v /\ a < length E /\ a < length A.
Proof.
  intros HI Ha. pose proof (FInv_len _ _ _ HI) as HL. destruct HI as [IS _ _]. unfold fvar in Ha. specialize (IS a). rewrite Ha in IS. unfold flook.
  destruct (nth_error E a) as [[f|]|] eqn:Ea; cbn in IS; try tauto. exists f.
  assert (a < length E) by (apply nth_error_Some; congruence). repeat split; auto; lia.
Qed.

Lemma fR_frame s s' f v : fR s f v -> (forall k, f_data f = Some k -> mapped s' k = mapped s k) -> fR s' f v.
Proof.
  destruct v; cbn; auto. intros (k & D & M & S & N & P) F. exists k. rewrite F; auto.
Qed.

(** The same object with the same mapping: position and name may change. *)
Lemma FInv_set s E A a f f' v' : FInv s E A -> nth_error E a = Some (Some f) ->
  f_data f' = f_data f -> fR s f' v' -> FInv s (lset E a (Some f')) (lset A a (Some v')).
Proof.
  intros HI Ea D HR. pose proof (FInv_len _ _ _ HI) as HL. destruct HI as [IS ID IC].
  assert (La : a < length E) by (apply nth_error_Some; congruence).
  constructor.
  - intros b. destruct (Nat.eq_dec a b) as [<-|N].
    + rewrite !lset_nth_error_eq by lia. exact HR.
    + rewrite !lset_nth_error_ne by auto. apply IS.
  - intros b c g g' k N Eb Ec. 
    destruct (Nat.eq_dec a b) as [<-|N1]; [|destruct (Nat.eq_dec a c) as [<-|N2]].
    + rewrite lset_nth_error_eq in Eb by auto. rewrite lset_nth_error_ne in Ec by auto.
      inversion Eb; subst. rewrite D. eapply (ID a c); eauto.
    + rewrite lset_nth_error_eq in Ec by auto. rewrite lset_nth_error_ne in Eb by auto.
      inversion Ec; subst. rewrite D. eapply (ID b a); eauto.
    + rewrite lset_nth_error_ne in Eb, Ec by auto. eapply (ID b c); eauto.
  - intros k bs Hk. destruct (IC k bs Hk) as (b & g & Eb & Dg).
    destruct (Nat.eq_dec a b) as [<-|N].
    + exists a, f'. rewrite lset_nth_error_eq by auto. split; auto. congruence.
    + exists b, g. rewrite lset_nth_error_ne by auto. auto.
Qed.

Lemma fstep_ok pick pg s E A x A1 out :
  (forall t, mapped t (pick t) = None) ->
  FInv s E A -> fdoes pg A x A1 out ->
  exists s1 E1, fstep pick pg s E x = Ok (s1, E1, out) /\ FInv s1 E1 A1.
Proof.
  intros HP HI HD. destruct HD.
  - (* open *)
    pose proof (FInv_len _ _ _ HI) as HL. destruct HI as [IS ID IC].
    destruct bs as [|b0 bs0]; [congruence|]. set (bs := b0 :: bs0) in *.
    cbn [fstep f_open bind]. eexists _, _. split; [reflexivity|]. fold bs.
    assert (NK : forall a f, nth_error E a = Some (Some f) -> f_data f <> Some (pick s)).
    { intros a f Ea D. specialize (IS a). rewrite Ea in IS. cbn in IS.
      destruct (nth_error A a) as [[v|]|]; try tauto. destruct v; cbn in IS.
      - destruct IS as (k & D' & M & _). rewrite D in D'. inversion D'; subst.
        rewrite HP in M. discriminate.
      - destruct IS; congruence. }
    constructor.
    + intros a. rewrite !nth_error_push, <- HL. destruct (a =? length E).
      * cbn [fslot fR f_data f_size f_name f_fp]. exists (pick s). cbn [mapped]. rewrite Nat.eqb_refl.
        repeat split; auto. intros q Hq. congruence.
      * specialize (IS a). destruct (nth_error E a) as [[f|]|] eqn:Ea; cbn in *; auto.
        destruct (nth_error A a) as [[v|]|]; auto. eapply fR_frame; eauto.
        intros k Hk. cbn [mapped]. destruct (Nat.eqb_spec k (pick s)); auto. subst.
        exfalso; eapply NK; eauto.
    + intros a b f g k N Ea Eb. rewrite nth_error_push in Ea, Eb.
      destruct (Nat.eqb_spec a (length E)); destruct (Nat.eqb_spec b (length E)); subst; try congruence.
      * inversion Ea; subst. cbn. intros X. inversion X; subst. eapply NK; eauto.
      * inversion Eb; subst. cbn. intros X Y. inversion Y; subst. eapply NK; eauto.
      * eapply (ID a b); eauto.
    + intros k bs' Hk. cbn [mapped] in Hk. destruct (Nat.eqb_spec k (pick s)) as [->|N].
      * exists (length E). eexists. rewrite nth_error_push, Nat.eqb_refl. split; reflexivity.
      * destruct (IC k bs' Hk) as (a & f & Ea & D). exists a, f.
        rewrite nth_error_push. destruct (Nat.eqb_spec a (length E)) as [->|]; auto.
        assert (length E < length E) by (apply nth_error_Some; congruence). lia.
  - (* seek *)
    destruct (fvar_R _ _ _ _ _ HI H) as (f & Ea & La & HR & _). cbn [fstep]. rewrite La. cbn [bind].
    cbn [fR] in HR. destruct HR as (k & D & M & S & N & P).
    unfold f_seek. rewrite S. assert (B : (length bs <=? pos) = false) by (apply Nat.leb_gt; auto).
    rewrite B, D. cbn [bind]. eexists _, _. split; [reflexivity|].
    eapply FInv_set; eauto; cbn [f_data]; auto.
    exists k. repeat split; auto. cbn [f_fp]. intros q Hq. congruence.
  - (* skip *)
    destruct (fvar_R _ _ _ _ _ HI H) as (f & Ea & La & HR & _). cbn [fstep]. rewrite La. cbn [bind].
    cbn [fR] in HR. destruct HR as (k' & D & M & S & N & P). specialize (P p eq_refl).
    eexists _, _. split; [reflexivity|]. unfold f_skip. rewrite P.
    eapply FInv_set; eauto; cbn [f_data]; auto.
    exists k'. repeat split; auto. cbn [f_fp]. intros q Hq. congruence.
  - (* view *)
    destruct (fvar_R _ _ _ _ _ HI H) as (f & Ea & La & HR & _). cbn [fstep]. rewrite La. cbn [bind].
    cbn [fR] in HR. destruct HR as (k & D & M & S & N & P). specialize (P p eq_refl).
    unfold f_view. rewrite D, P, Nat.eqb_refl, M, S, Nat.eqb_refl, N. cbn [bind]. eauto.
  - (* move to itself *)
    destruct (fvar_R _ _ _ _ _ HI H) as (f & Ea & La & HR & _). cbn [fstep]. rewrite La. cbn [bind].
    rewrite Nat.eqb_refl. eauto.
  - (* move *)
    pose proof (FInv_len _ _ _ HI) as HL.
    destruct (fvar_R _ _ _ _ _ HI H0) as (f & Ea & La & HR & LA & _).
    destruct (fvar_R _ _ _ _ _ HI H1) as (o & Eb & Lb & HRb & LB & _).
    cbn [fstep]. rewrite La. cbn [bind]. rewrite Lb. cbn [bind].
    destruct (Nat.eqb_spec a b) as [|N]; [congruence|]. cbn [f_move_assign].
    eexists _, _. split; [reflexivity|].
    cbn [fR] in HRb. destruct HRb as (k & D & M & S & Nm & P).
    destruct HI as [IS ID IC].
    set (s1 := match f_data f with Some k0 => unmap s k0 | None => s end).
    assert (M1 : forall q, f_data f <> Some q -> mapped s1 q = mapped s q).
    { intros q Hq. unfold s1. destruct (f_data f); auto. rewrite mapped_unmap.
      destruct (Nat.eqb_spec q n0); congruence. }
    assert (Na : f_name f = name_of v).
    { destruct v; cbn in HR |- *; [destruct HR as (? & _ & _ & _ & X & _); auto|tauto]. }
    constructor.
    + intros c. destruct (Nat.eq_dec b c) as [<-|N1]; [|destruct (Nat.eq_dec a c) as [<-|N2]].
      * rewrite !lset_nth_error_eq by (rewrite lset_length; lia). cbn. auto.
      * rewrite !(lset_nth_error_ne _ b a) by auto. rewrite !lset_nth_error_eq by lia.
        cbn [fslot fR f_data f_size f_name f_fp]. exists k. rewrite M1.
        -- repeat split; auto. discriminate.
        -- intros X. eapply (ID a b f o k); eauto.
      * rewrite !(lset_nth_error_ne _ b c), !(lset_nth_error_ne _ a c) by auto.
        specialize (IS c). destruct (nth_error E c) as [[g|]|] eqn:Ec; cbn in *; auto.
        destruct (nth_error A c) as [[u|]|]; auto. eapply fR_frame; eauto.
    + intros c d g g' q Nc Ec Ed Dg Dg'.
      assert (X : forall c g, nth_error (lset (lset E a (Some (mkFobj (f_data o) (f_size o) (f_fp f) (f_name f))))
                     b (Some (mkFobj None (f_size o) (f_fp o) (f_name o)))) c = Some (Some g) ->
                   f_data g = Some q ->
                   (c = a /\ k = q) \/ (c <> a /\ c <> b /\ nth_error E c = Some (Some g))).
      { clear c d g g' Nc Ec Ed Dg Dg'. intros c g Ec Dg.
        destruct (Nat.eq_dec b c) as [<-|N1]; [|destruct (Nat.eq_dec a c) as [<-|N2]].
        - rewrite lset_nth_error_eq in Ec by (rewrite lset_length; lia). inversion Ec; subst. discriminate.
        - rewrite (lset_nth_error_ne _ b a) in Ec by auto. rewrite lset_nth_error_eq in Ec by lia.
          inversion Ec; subst. cbn in Dg. left. split; auto. congruence.
        - rewrite (lset_nth_error_ne _ b c), (lset_nth_error_ne _ a c) in Ec by auto. right; auto. }
      destruct (X c g Ec Dg) as [[-> <-]|(X1 & X2 & X3)]; destruct (X d g' Ed Dg') as [[-> Eq]|(Y1 & Y2 & Y3)].
      * congruence.
      * eapply (ID b d o g' k); eauto.
      * subst q. eapply (ID b c o g k); eauto.
      * eapply (ID c d); eauto.
    + intros q bq Hq. destruct (IC q bq) as (c & g & Ec & Dg).
      { unfold s1 in Hq. destruct (f_data f) as [kf|]; auto. rewrite mapped_unmap in Hq.
        destruct (q =? kf); [discriminate|auto]. }
      assert (Nc : c <> a).
      { intros ->. rewrite Ea in Ec. inversion Ec; subst g. unfold s1 in Hq. rewrite Dg in Hq.
        rewrite mapped_unmap, Nat.eqb_refl in Hq. discriminate. }
      destruct (Nat.eq_dec c b) as [->|N1].
      * exists a. eexists. rewrite (lset_nth_error_ne _ b a) by auto. rewrite lset_nth_error_eq by lia.
        split; [reflexivity|]. cbn. congruence.
      * exists c, g. rewrite (lset_nth_error_ne _ b c), (lset_nth_error_ne _ a c) by auto. auto.
  - (* move from a file moved away *)
    pose proof (FInv_len _ _ _ HI) as HL.
    destruct (fvar_R _ _ _ _ _ HI H0) as (f & Ea & La & HR & LA & _).
    destruct (fvar_R _ _ _ _ _ HI H1) as (o & Eb & Lb & HRb & LB & _).
    cbn [fstep]. rewrite La. cbn [bind]. rewrite Lb. cbn [bind].
    destruct (Nat.eqb_spec a b) as [|N]; [congruence|]. cbn [f_move_assign].
    eexists _, _. split; [reflexivity|].
    cbn [fR] in HRb. destruct HRb as (D & Nm). rewrite D.
    destruct HI as [IS ID IC].
    set (s1 := match f_data f with Some k0 => unmap s k0 | None => s end).
    assert (M1 : forall q, f_data f <> Some q -> mapped s1 q = mapped s q).
    { intros q Hq. unfold s1. destruct (f_data f); auto. rewrite mapped_unmap.
      destruct (Nat.eqb_spec q n0); congruence. }
    assert (Na : f_name f = name_of v).
    { destruct v; cbn in HR |- *; [destruct HR as (? & _ & _ & _ & X & _); auto|tauto]. }
    constructor.
    + intros c. destruct (Nat.eq_dec b c) as [<-|N1]; [|destruct (Nat.eq_dec a c) as [<-|N2]].
      * rewrite !lset_nth_error_eq by (rewrite lset_length; lia). cbn. auto.
      * rewrite !(lset_nth_error_ne _ b a) by auto. rewrite !lset_nth_error_eq by lia.
        cbn. auto.
      * rewrite !(lset_nth_error_ne _ b c), !(lset_nth_error_ne _ a c) by auto.
        specialize (IS c). destruct (nth_error E c) as [[g|]|] eqn:Ec; cbn in *; auto.
        destruct (nth_error A c) as [[u|]|]; auto. eapply fR_frame; eauto.
    + intros c d g g' q Nc Ec Ed Dg Dg'.
      assert (X : forall c g, nth_error (lset (lset E a (Some (mkFobj None (f_size o) (f_fp f) (f_name f))))
                     b (Some (mkFobj None (f_size o) (f_fp o) (f_name o)))) c = Some (Some g) ->
                   f_data g = Some q -> nth_error E c = Some (Some g)).
      { clear c d g g' Nc Ec Ed Dg Dg'. intros c g Ec Dg.
        destruct (Nat.eq_dec b c) as [<-|N1]; [|destruct (Nat.eq_dec a c) as [<-|N2]].
        - rewrite lset_nth_error_eq in Ec by (rewrite lset_length; lia). inversion Ec; subst. discriminate.
        - rewrite (lset_nth_error_ne _ b a) in Ec by auto. rewrite lset_nth_error_eq in Ec by lia.
          inversion Ec; subst. discriminate.
        - rewrite (lset_nth_error_ne _ b c), (lset_nth_error_ne _ a c) in Ec by auto. auto. }
      eapply (ID c d); eauto.
    + intros q bq Hq. destruct (IC q bq) as (c & g & Ec & Dg).
      { unfold s1 in Hq. destruct (f_data f) as [kf|]; auto. rewrite mapped_unmap in Hq.
        destruct (q =? kf); [discriminate|auto]. }
      assert (Nc : c <> a).
      { intros ->. rewrite Ea in Ec. inversion Ec; subst g. unfold s1 in Hq. rewrite Dg in Hq.
        rewrite mapped_unmap, Nat.eqb_refl in Hq. discriminate. }
      assert (Nb : c <> b) by (intros ->; congruence).
      exists c, g. rewrite (lset_nth_error_ne _ b c), (lset_nth_error_ne _ a c) by auto. auto.
  - (* close *)
    pose proof (FInv_len _ _ _ HI) as HL.
    destruct (fvar_R _ _ _ _ _ HI H) as (f & Ea & La & HR & LA & _). cbn [fstep]. rewrite La. cbn [bind].
    eexists _, _. split; [reflexivity|]. destruct HI as [IS ID IC]. unfold f_close.
    set (s1 := match f_data f with Some k0 => unmap s k0 | None => s end).
    assert (M1 : forall q, f_data f <> Some q -> mapped s1 q = mapped s q).
    { intros q Hq. unfold s1. destruct (f_data f); auto. rewrite mapped_unmap.
      destruct (Nat.eqb_spec q n); congruence. }
    constructor.
    + intros c. destruct (Nat.eq_dec a c) as [<-|N2].
      * rewrite !lset_nth_error_eq by lia. exact I.
      * rewrite !(lset_nth_error_ne _ a c) by auto.
        specialize (IS c). destruct (nth_error E c) as [[g|]|] eqn:Ec; cbn in *; auto.
        destruct (nth_error A c) as [[u|]|]; auto. eapply fR_frame; eauto.
    + intros c d g g' q Nc Ec Ed.
      destruct (Nat.eq_dec a c) as [<-|N1]; [rewrite lset_nth_error_eq in Ec by lia; discriminate|].
      destruct (Nat.eq_dec a d) as [<-|N2]; [rewrite lset_nth_error_eq in Ed by lia; discriminate|].
      rewrite lset_nth_error_ne in Ec, Ed by auto. eapply (ID c d); eauto.
    + intros q bq Hq. destruct (IC q bq) as (c & g & Ec & Dg).
      { unfold s1 in Hq. destruct (f_data f) as [kf|]; auto. rewrite mapped_unmap in Hq.
        destruct (q =? kf); [discriminate|auto]. }
      exists c, g. split; auto. rewrite lset_nth_error_ne; auto.
      intros <-. rewrite Ea in Ec. inversion Ec; subst g. unfold s1 in Hq. rewrite Dg in Hq.
      rewrite mapped_unmap, Nat.eqb_refl in Hq. discriminate.
Qed.

(** ** C52 *)

(** Opening, seeking, reading, move-assigning and closing files, in any order
    and wherever the kernel puts the mappings: every read sees the bytes of the
    file the variable holds at its position, and when no variable holds a file
    any more, nothing is left mapped. *)
Theorem C52_files : forall pick pg xs A outs,
  (forall t, mapped t (pick t) = None) ->
  fdoes_all pg [] xs A outs ->
  exists s E, frun pick pg [] [] xs = Ok (s, E, outs) /\
    (~ holds_file A -> forall k, mapped s k = None).
Proof.
  intros pick pg xs A outs HP HD.
  assert (G : forall s E A0, FInv s E A0 -> fdoes_all pg A0 xs A outs ->
            exists s1 E1, frun pick pg s E xs = Ok (s1, E1, outs) /\ FInv s1 E1 A).
  { clear HD. intros s E A0 HI HD. revert s E HI.
    induction HD as [|A0 x A1 out xs A2 outs HS _ IH]; intros s E HI.
    - exists s, E. auto.
    - destruct (fstep_ok _ _ _ _ _ _ _ _ HP HI HS) as (s1 & E1 & S1 & I1).
      destruct (IH s1 E1 I1) as (s2 & E2 & S2 & I2).
      exists s2, E2. split; auto. cbn [frun]. rewrite S1. cbn [bind]. rewrite S2. reflexivity. }
  destruct (G [] [] []) as (s & E & X & [IS _ IC]); auto.
  { constructor.
    - intros a. destruct a; exact I.
    - intros a b f g k _ Ha. destruct a; discriminate.
    - intros k bs Hk. discriminate. }
  exists s, E. split; auto. intros NH k. destruct (mapped s k) as [bs|] eqn:M; auto. exfalso.
  destruct (IC k bs M) as (a & f & Ea & D). specialize (IS a). rewrite Ea in IS. cbn in IS.
  destruct (nth_error A a) as [[v|]|] eqn:Aa; try tauto. destruct v as [b p n|n].
  - apply NH. exists a, b, p, n. exact Aa.
  - destruct IS; congruence.
Qed.
Print Assumptions C52_files.

(** A variable that was assigned by a move has no position before the next
    [seek]: it points into the mapping that was just removed. *)
Theorem C52_move_assign_needs_seek : forall pg s f o k k' p s1 f1 o1,
  f_data f = Some k -> f_fp f = Some (k, p) -> f_data o = Some k' -> k <> k' ->
  f_move_assign s f o = (s1, f1, o1) ->
  f_view pg s1 f1 = UB.
Proof.
  intros pg s f o k k' p s1 f1 o1 D P D' N M. unfold f_move_assign in M. rewrite D in M.
  inversion M; subst. unfold f_view. cbn [f_data f_fp]. rewrite D', P.
  destruct (Nat.eqb_spec k' k); [congruence|reflexivity].
Qed.
Print Assumptions C52_move_assign_needs_seek.

(** After a move assignment and a [seek], the bytes are those of the source but
    the name is still that of the old file: which type the file is taken for is
    decided by the name of a file that is not open any more. *)
Theorem C52_move_assign_keeps_name : forall pg s f o k bs pos s1 f1 o1,
  f_data o = Some k -> mapped s k = Some bs -> f_size o = length bs -> f_data f <> Some k ->
  pos < length bs ->
  f_move_assign s f o = (s1, f1, o1) ->
  exists f2, f_seek pos f1 = Ok f2 /\ f_view pg s1 f2 = Ok (mkRfile (mkMem bs pg) pos (f_name f)).
Proof.
  intros pg s f o k bs pos s1 f1 o1 D M S N Hp E. unfold f_move_assign in E. inversion E; subst.
  unfold f_seek. cbn [f_data f_size f_name]. rewrite S.
  assert (B : (length bs <=? pos) = false) by (apply Nat.leb_gt; auto). rewrite B, D.
  eexists. split; [reflexivity|]. unfold f_view. cbn [f_data f_fp f_size f_name].
  rewrite Nat.eqb_refl.
  assert (X : mapped (match f_data f with Some k0 => unmap s k0 | None => s end) k = Some bs).
  { destruct (f_data f); auto. rewrite mapped_unmap. destruct (Nat.eqb_spec k n); congruence. }
  rewrite X, Nat.eqb_refl. reflexivity.
Qed.
Print Assumptions C52_move_assign_keeps_name.

(** The move constructor leaves the old [File] in possession: when it is
    destroyed (and every object is, in the end) the new one has no file. *)
Theorem C52_move_ctor_loses_file : forall pg s o k pos g,
  f_data o = Some k -> f_seek pos (f_move_ctor o) = Ok g ->
  f_view pg (f_close s o) g = UB.
Proof.
  intros pg s o k pos g D E. unfold f_seek, f_move_ctor in E. cbn [f_data f_size f_name] in E.
  destruct (f_size o <=? pos); [discriminate|]. inversion E; subst. rewrite D.
  unfold f_view. cbn [f_data f_fp f_size]. rewrite Nat.eqb_refl.
  unfold f_close. rewrite D, mapped_unmap, Nat.eqb_refl. reflexivity.
Qed.
Print Assumptions C52_move_ctor_loses_file.

(** Worse: if another file is opened meanwhile and the kernel puts it at the
    same address, destroying the new [File] unmaps that other file. *)
Theorem C52_move_ctor_closes_other : forall pg pick s o k s2 x bs fn,
  f_data o = Some k ->
  pick (f_close s o) = k ->
  f_open pick (f_close s o) bs fn = Ok (s2, x) ->
  f_view pg s2 x = Ok (mkRfile (mkMem bs pg) 0 fn) /\
  f_view pg (f_close s2 (f_move_ctor o)) x = UB.
Proof.
  intros pg pick s o k s2 x bs fn D K E. unfold f_open in E. destruct bs as [|b bs]; [discriminate|].
  set (s' := f_close s o) in *. clearbody s'. inversion E; subst. clear E.
  unfold f_view. cbn [f_data f_fp f_size f_name]. rewrite !Nat.eqb_refl. split.
  - cbn [mapped]. rewrite !Nat.eqb_refl. reflexivity.
  - unfold f_close. cbn [f_data f_move_ctor]. rewrite D, mapped_unmap, Nat.eqb_refl. reflexivity.
Qed.
Print Assumptions C52_move_ctor_closes_other.

(** A file obtained by the move constructor has no name, so text files are
    always taken for edge lists. *)
Theorem C52_move_ctor_loses_name : forall pg s o pos g v t,
  f_seek pos (f_move_ctor o) = Ok g -> f_view pg s g = Ok v ->
  guess v = Ok t -> t <> MATRIX_MARKET /\ t <> GRAPH.
Proof.
  intros pg s o pos g v t E V G. unfold f_seek, f_move_ctor in E. cbn [f_data f_size f_name] in E.
  destruct (f_size o <=? pos); [discriminate|]. inversion E; subst. clear E.
  unfold f_view in V. cbn [f_data f_fp f_size f_name] in V.
  destruct (f_data o) as [k|]; [|discriminate]. rewrite Nat.eqb_refl in V.
  destruct (mapped s k) as [bs|]; [|discriminate].
  destruct (f_size o =? length bs); [|discriminate]. inversion V; subst. clear V.
  unfold guess in G. cbn [rf_name rf_fp rf_mem] in G.
  repeat match type of G with
         | (bind ?x _) = _ => destruct x as [[]| | |]; cbn [bind] in G; try discriminate
         end; cbn in G; inversion G; split; discriminate.
Qed.
Print Assumptions C52_move_ctor_loses_name.

(** ** Examples *)
Definition ex_pick (s : aspace) : nat := S (list_max (map fst s)).
Lemma ex_pick_free : forall s, mapped s (ex_pick s) = None.
Proof.
  intros s. unfold ex_pick.
  assert (G : forall k, list_max (map fst s) < k -> mapped s k = None).
  { induction s as [|[k' bs] s IH]; intros k Hk; [reflexivity|].
    change (Nat.max k' (list_max (map fst s)) < k) in Hk. cbn [mapped].
    destruct (Nat.eqb_spec k k'); [lia|]. apply IH. lia. }
  apply G. lia.
Qed.

Definition ex_files : list fop :=
  [ FOpen (chars "0 1") (chars "a.mtx"); FOpen (chars "2 3 4") (chars "b.el");
    FView 0; FSkip 1 2; FView 1; FMove 0 1; FSeek 0 4; FView 0; FClose 1; FView 0; FClose 0 ].

Example ex_files_does : exists outs, fdoes_all 4096 [] ex_files [None; None] outs /\
  outs = [ mkRfile (mkMem (chars "0 1") 4096) 0 (chars "a.mtx");
           mkRfile (mkMem (chars "2 3 4") 4096) 2 (chars "b.el");
           mkRfile (mkMem (chars "2 3 4") 4096) 4 (chars "a.mtx");
           mkRfile (mkMem (chars "2 3 4") 4096) 4 (chars "a.mtx") ].
Proof.
  eexists. split.
  - unfold ex_files.
    repeat (eapply fd_cons;
      [ first [ eapply fd_open; discriminate
              | eapply fd_seek; [reflexivity|cbn; lia]
              | eapply fd_skip; reflexivity
              | eapply fd_view; reflexivity
              | eapply fd_move; [discriminate|reflexivity|reflexivity]
              | eapply fd_close; reflexivity ]
      | cbn ]).
    apply fd_nil.
  - reflexivity.
Qed.

(** The edge list in [b.el], moved into the variable that had [a.mtx] open, is
    taken for a Matrix Market file. *)
Example ex_wrong_type :
  guess (mkRfile (mkMem (chars "2 3 4") 4096) 0 (chars "a.mtx")) = Ok MATRIX_MARKET /\
  guess (mkRfile (mkMem (chars "2 3 4") 4096) 0 (chars "b.el")) = Ok EDGE_LIST.
Proof. split; vm_compute; reflexivity. Qed.

(** The move constructor: reading works while both live, not after the source
    is gone. *)
Example ex_move_ctor : exists s f g,
  f_open ex_pick [] (chars "0 1") (chars "a.mtx") = Ok (s, f) /\
  f_seek 0 (f_move_ctor f) = Ok g /\
  f_view 4096 s g = Ok (mkRfile (mkMem (chars "0 1") 4096) 0 []) /\
  f_view 4096 (f_close s f) g = UB.
Proof. eexists _, _, _. repeat split; reflexivity. Qed.
