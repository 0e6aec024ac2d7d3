(** * OwnMain: the storage refines the values of [SpecOwn.v] *)

From Coq Require Import Permutation.
From Verif Require Import Base Own SpecOwn OwnLemmas.

Lemma arrays_model c hdr m : arrays c hdr m = combine (kinds c) (sizes c hdr m).
Proof. destruct c as [s ws []|s ws []], hdr; reflexivity. Qed.

Lemma arrays_sizes c hdr m : map snd (arrays c hdr m) = sizes c hdr m.
Proof. destruct c as [s ws []|s ws []], hdr; reflexivity. Qed.

Lemma arrays_kinds c hdr m : map fst (arrays c hdr m) = kinds c.
Proof. destruct c as [s ws []|s ws []], hdr; reflexivity. Qed.

Lemma no_entries_model c hdr : no_entries c hdr = mkValue c hdr 0 (map (fun _ => []) (kinds c)).
Proof. destruct c as [s ws []|s ws []], hdr; reflexivity. Qed.

Lemma hdr_after_free_model c hdr : hdr_after_free c hdr = freed_hdr c hdr.
Proof. destruct c; reflexivity. Qed.

Lemma default_hdr_model c : default_hdr c = empty_hdr c.
Proof. destruct c; reflexivity. Qed.

Lemma any_order_model v ords : any_order v ords ->
  Forall2 (fun ord n => Permutation ord (seq 0 n)) ords (sizes (vcls v) (vhdr v) (vm v)).
Proof.
  unfold any_order. rewrite <- arrays_sizes. generalize (arrays (vcls v) (vhdr v) (vm v)). clear.
  intros l H. induction H; cbn [map]; constructor; auto.
Qed.

Lemma sizes_0_map c hdr : sizes c hdr 0 = map (fun _ => 0) (kinds c).
Proof. destruct c as [s ws []|s ws []]; cbn; rewrite ?Nat.mul_0_r; reflexivity. Qed.

Lemma copy_all_nil ords : forall h d s, Forall (fun o => o = []) ords -> copy_all h d s ords = Ok h.
Proof.
  induction ords as [|o ords IH]; intros h [|a d] [|b s] H; cbn; auto.
  inversion H; subst. cbn. apply IH; auto.
Qed.

Lemma R_some h o v : R h o v -> 0 < om o -> forall a, In a (oarr o) -> a <> None.
Proof.
  intros HR Hm a Ha. pose proof (R_arr _ _ _ HR Hm) as F. revert Ha.
  induction F as [|x y l l' (p & -> & _) _ IH]; cbn; [tauto|]. intros [<-|H]; [discriminate|auto].
Qed.

Lemma R_ids h o v : R h o v -> 0 < om o ->
  exists ps, oarr o = map Some ps /\ ownedo o = ps /\
    Forall2 (fun p cs => hblock h p = Live 1 cs) ps (varr v).
Proof.
  intros HR Hm. pose proof (R_arr _ _ _ HR Hm) as F.
  assert (exists ps, oarr o = map Some ps /\ Forall2 (fun p cs => hblock h p = Live 1 cs) ps (varr v))
    as (ps & E & F').
  { clear HR. induction F as [|x y l l' (p & -> & Hp) _ (ps & -> & F')].
    - exists []. split; constructor.
    - exists (p :: ps). split; [reflexivity|constructor; auto]. }
  exists ps. split; auto. split; auto. unfold ownedo. rewrite E. apply owned_all; auto.
  rewrite <- (R_len _ _ _ HR), E, map_length. reflexivity.
Qed.

(** [free()] *)
Lemma obj_free_spec h o v : R h o v ->
  exists h1 o1, obj_free h o = Ok (h1, o1) /\
    R h1 o1 (if 0 <? vm v then no_entries (vcls v) (hdr_after_free (vcls v) (vhdr v)) else v) /\
    om o1 = 0 /\ ocls o1 = ocls o /\ oarr o1 = oarr o /\ length h1 = length h /\
    (forall q, ~ In q (ownedo o) -> hblock h1 q = hblock h q) /\
    (forall q, In q (ownedo o1) -> In q (ownedo o)) /\
    (forall q, In q (ownedo o) -> ~ In q (ownedo o1) -> hblock h1 q = Freed).
Proof.
  intros HR. unfold obj_free. rewrite <- (R_m _ _ _ HR).
  destruct (Nat.ltb_spec 0 (om o)) as [Hm|Hm].
  - destruct (free_all_spec (om o) (kinds (ocls o)) (oarr o) h Hm (R_len _ _ _ HR)
                (R_some _ _ _ HR Hm) (R_nodup _ _ _ HR) (R_live _ _ _ HR))
      as (h1 & E & L & F0 & F1 & B).
    rewrite E. cbn [bind]. eexists h1, _. split; [reflexivity|].
    assert (S0 : forall q, In q (owned 0 (kinds (ocls o)) (oarr o)) -> In q (ownedo o))
      by (intros; apply owned_0_sub; auto).
    split.
    { unfold no_entries, hdr_after_free.
      match goal with |- R _ _ ?w => assert (EW : w = mkValue (vcls v) (freed_hdr (vcls v) (vhdr v)) 0 (map (fun _ => []) (kinds (vcls v)))) end.
      { destruct (vcls v) as [s ws []|s ws []]; reflexivity. }
      rewrite EW. clear EW.
      constructor; cbn [ocls ohdr om oarr vcls vhdr vm varr]; unfold ownedo;
        cbn [ocls ohdr om oarr].
      - apply (R_cls _ _ _ HR).
      - rewrite (R_cls _ _ _ HR), (R_hdr _ _ _ HR). reflexivity.
      - reflexivity.
      - apply (R_len _ _ _ HR).
      - rewrite map_map. cbn [length]. symmetry. apply sizes_0_map.
      - eapply owned_nodup_0. exact (R_nodup _ _ _ HR).
      - intros p Hp. destruct (R_live _ _ _ HR p) as [cs Hc]; auto. exists cs. rewrite F0; auto.
      - lia. }
    cbn [om ocls oarr]. repeat split; auto.
  - exists h, o. split; [reflexivity|].
    split; [exact HR|]. repeat split; auto; try lia. tauto.
Qed.

(** [allocate_()] and [copy_()], into the handles [az] of an object without
    entries. *)
Lemma build_spec h o w ords az :
  R h o w -> all_set w -> any_order w ords ->
  length az = length (kinds (ocls o)) ->
  NoDup (owned 0 (kinds (ocls o)) az) ->
  (forall p, In p (owned 0 (kinds (ocls o)) az) -> live1 h p /\ ~ In p (ownedo o)) ->
  exists h1 h2 ps,
    alloc_all h (kinds (ocls o)) (sizes (ocls o) (ohdr o) (om o)) az = Ok (h1, map Some ps) /\
    copy_all h1 (map Some ps) (oarr o) ords = Ok h2 /\
    R h2 (mkObj (ocls o) (ohdr o) (om o) (map Some ps)) w /\
    (forall p, In p ps -> length h <= p \/ In p (owned 0 (kinds (ocls o)) az)) /\
    (forall q, ~ In q ps ->
       (In q (owned 0 (kinds (ocls o)) az) /\ hblock h2 q = Freed) \/
       (~ In q (owned 0 (kinds (ocls o)) az) /\ hblock h2 q = hblock h q)) /\
    (om o = 0 -> forall p, In p ps -> hblock h2 p = Live 1 []).
Proof.
  intros HR HA HO Hl HND HL. apply any_order_model in HO.
  destruct (alloc_all_spec (kinds (ocls o)) (sizes (ocls o) (ohdr o) (om o)) az h)
    as (h1 & ps & E & Lps & NDps & Fps & F2 & L1 & Fr); auto.
  { apply kinds_sizes. }
  { intros p Hp; apply HL; auto. }
  assert (SZ : map (@length _) (varr w) = sizes (ocls o) (ohdr o) (om o))
    by (rewrite (R_size _ _ _ HR), (R_cls _ _ _ HR), (R_hdr _ _ _ HR), (R_m _ _ _ HR); reflexivity).
  assert (C : exists h2, copy_all h1 (map Some ps) (oarr o) ords = Ok h2 /\
                (0 < om o -> Forall2 (fun p cs => hblock h2 p = Live 1 cs) ps (varr w)) /\
                (om o = 0 -> h2 = h1) /\
                (forall q, ~ In q ps -> hblock h2 q = hblock h1 q)).
  { destruct (Nat.eq_dec (om o) 0) as [Z|Z].
    - exists h1. rewrite copy_all_nil.
      { repeat split; auto. lia. }
      rewrite <- (R_cls _ _ _ HR), <- (R_hdr _ _ _ HR), <- (R_m _ _ _ HR), Z in HO.
      rewrite sizes_0_map in HO. clear -HO. revert HO. generalize (kinds (ocls o)).
      induction ords as [|x ords IH]; intros l H; constructor.
      + destruct l; inversion H; subst. cbn in H3. apply Permutation_nil. symmetry. auto.
      + destruct l; inversion H; subst. eapply IH; eauto.
    - destruct (R_ids _ _ _ HR) as (qs & Eq & Oq & Fq); [lia|].
      destruct (copy_all_spec (varr w) ps (oarr o) ords h1) as (h2 & E2 & B2 & Fr2 & _); auto.
      { rewrite Eq.
        assert (X : forall q, In q qs -> ~ In q ps /\ hblock h1 q = hblock h q).
        { intros q Hq. rewrite <- Oq in Hq.
          assert (N : ~ In q (owned 0 (kinds (ocls o)) az)) by (intros Y; apply HL in Y; tauto).
          assert (N2 : ~ In q ps).
          { intros Y. destruct (Fps q Y) as [Y1|Y1]; auto.
            destruct (R_live _ _ _ HR q Hq) as [cs Hc]. apply hblock_lt in Hc. lia. }
          split; auto. destruct (Fr q N2) as [[Y _]|[_ Y]]; tauto. }
        clear -Fq X. induction Fq as [|q cs qs css Hq _ IH]; cbn [map]; constructor.
        - exists q. destruct (X q) as [X1 X2]; [cbn; auto|]. split; auto. split; auto.
          exists 1. congruence.
        - apply IH. intros; apply X; cbn; auto. }
      { rewrite SZ; auto. }
      { rewrite (R_size _ _ _ HR). auto. }
      exists h2. repeat split; auto. lia. }
  destruct C as (h2 & E2 & B2 & Z2 & Fr2).
  assert (LV : forall p, In p ps -> live1 h2 p).
  { intros p Hp. destruct (Nat.eq_dec (om o) 0) as [Z|Z].
    - rewrite (Z2 Z). clear -F2 Hp. induction F2 as [|a b l l' (cs & H & _) _ IH]; cbn in Hp; [tauto|].
      destruct Hp as [<-|Hp]; auto. exists cs; auto.
    - assert (X : Forall2 (fun p cs => hblock h2 p = Live 1 cs) ps (varr w)) by (apply B2; lia).
      clear -X Hp. induction X; cbn in Hp; [tauto|]. destruct Hp as [<-|Hp]; auto. eexists; eauto. }
  exists h1, h2, ps. split; auto. split; auto. split; [|split; [auto|split]].
  - constructor; unfold ownedo; cbn [ocls ohdr om oarr].
    + apply (R_cls _ _ _ HR).
    + apply (R_hdr _ _ _ HR).
    + apply (R_m _ _ _ HR).
    + rewrite map_length. auto.
    + apply (R_size _ _ _ HR).
    + apply owned_nodup_ps; auto.
    + intros p Hp. apply LV. eapply owned_sub_ps; eauto.
    + intros Hm. specialize (B2 Hm). clear -B2. induction B2; cbn [map]; constructor; auto.
      exists x; auto.
  - intros q Hq. rewrite Fr2 by auto. apply Fr; auto.
  - intros Z p Hp. rewrite (Z2 Z). rewrite Z, sizes_0_map in F2. clear -F2 Hp Lps.
    revert Hp F2. generalize (kinds (ocls o)). clear Lps.
    induction ps as [|a ps IH]; cbn; [tauto|]. intros l Hp F2.
    destruct l; cbn [map] in F2; inversion F2 as [|? ? ? ? (cs & H & L) F2']; subst.
    destruct Hp as [<-|Hp]; [|eapply IH; eauto].
    destruct cs; [auto|cbn in L; lia].
Qed.

(** ** No storage is lost *)

Lemma noleak_upd h h' E a o o' :
  nth_error E a = Some (Some o) ->
  noleak h E ->
  (forall q rc cs, hblock h' q = Live rc cs -> cs <> [] ->
     In q (ownedo o') \/ (~ In q (ownedo o) /\ exists rc' cs', hblock h q = Live rc' cs' /\ cs' <> [])) ->
  noleak h' (lset E a (Some o')).
Proof.
  intros Ea NL H q rc cs Hq Hc.
  assert (La : a < length E) by (apply nth_error_Some; congruence).
  destruct (H q rc cs Hq Hc) as [X|(N & rc' & cs' & X & Y)].
  - exists a, o'. rewrite lset_nth_error_eq by auto. auto.
  - destruct (NL q rc' cs' X Y) as (b & ob & Eb & Hb). exists b, ob.
    rewrite lset_nth_error_ne; auto. intros <-. congruence.
Qed.

Lemma noleak_push h h' E o' :
  noleak h E ->
  (forall q rc cs, hblock h' q = Live rc cs -> cs <> [] ->
     In q (ownedo o') \/ hblock h q = Live rc cs) ->
  noleak h' (E ++ [Some o']).
Proof.
  intros NL H q rc cs Hq Hc. destruct (H q rc cs Hq Hc) as [X|X].
  - exists (length E), o'. rewrite nth_error_push, Nat.eqb_refl. auto.
  - destruct (NL q rc cs X Hc) as (b & ob & Eb & Hb). exists b, ob.
    rewrite nth_error_push. destruct (Nat.eqb_spec b (length E)) as [->|]; auto.
    assert (length E < length E) by (apply nth_error_Some; congruence). lia.
Qed.

(** ** One step *)

Lemma var_R h E A a v : Inv h E A -> var A a v ->
  exists o, nth_error E a = Some (Some o) /\ look E a = Ok o /\ R h o v.
Proof.
  intros [IS _] Ha. unfold var in Ha. specialize (IS a). rewrite Ha in IS. unfold look.
  destruct (nth_error E a) as [[o|]|]; cbn in IS; try tauto. eauto.
Qed.

Lemma others_unowned h E A a o : Inv h E A -> nth_error E a = Some (Some o) ->
  forall b ob p, b <> a -> nth_error E b = Some (Some ob) -> In p (ownedo ob) -> ~ In p (ownedo o).
Proof. intros [_ ID] Ea b ob p N Eb Hp. eapply (ID b a); eauto. Qed.

Lemma owned_live h E A b ob p : Inv h E A -> nth_error E b = Some (Some ob) -> In p (ownedo ob) ->
  p < length h.
Proof.
  intros [IS _] Eb Hp. specialize (IS b). rewrite Eb in IS.
  cbn in IS. destruct (nth_error A b) as [[vb|]|]; try tauto.
  destruct (R_live _ _ _ IS p Hp) as [cs Hc]. apply hblock_lt in Hc. auto.
Qed.

Lemma new_array_length k n : length (new_array k n) = n.
Proof. apply repeat_length. Qed.

Lemma fresh_blocks : forall (l : list block) h b,
  nth_error l b <> None -> nth_error l b = Some (hblock (h ++ l) (length h + b)).
Proof.
  intros l h b H. destruct (nth_error l b) eqn:E; [|congruence]. f_equal.
  unfold hblock. rewrite app_nth2_plus. symmetry. apply nth_error_nth; auto.
Qed.

Theorem step_ok h E A x A1 out : Inv h E A -> does A x A1 out ->
  exists h1 E1, step h E x = Ok (h1, E1, out) /\ Inv h1 E1 A1 /\
    (tidy_op A x -> noleak h E -> noleak h1 E1).
Proof.
  intros HI HD. destruct HD.
  - (* default constructor *)
    exists h, (E ++ [Some (obj_empty c)]). split; [reflexivity|].
    assert (O : ownedo (obj_empty c) = []) by apply owned_none. split.
    + eapply Inv_push; eauto.
      * rewrite no_entries_model, default_hdr_model.
        constructor; rewrite ?O; cbn [obj_empty ocls ohdr om oarr vcls vhdr vm varr]; auto.
        -- rewrite map_length; auto.
        -- rewrite map_map. cbn [length]. symmetry. apply sizes_0_map.
        -- constructor.
        -- cbn; tauto.
        -- lia.
      * rewrite O. cbn; tauto.
    + intros _ NL. eapply noleak_push; eauto.
  - (* sized constructor *)
    rewrite arrays_model. cbn [step]. unfold obj_new. rewrite alloc_fresh by apply kinds_sizes. cbn [bind].
    eexists _, _. split; [reflexivity|].
    set (l := map (fun kn => Live 1 (new_array (fst kn) (snd kn))) (combine (kinds c) (sizes c hdr m))).
    set (o' := mkObj c hdr m (map Some (seq (length h) (length (kinds c))))).
    assert (Ll : length l = length (kinds c)).
    { unfold l. rewrite map_length, combine_length, kinds_sizes. lia. }
    assert (HB : Forall2 (fun p cs => hblock (h ++ l) p = Live 1 cs)
                   (seq (length h) (length (kinds c)))
                   (map (fun kn => new_array (fst kn) (snd kn)) (combine (kinds c) (sizes c hdr m)))).
    { assert (G : forall (cs : list (list (option Z))) h,
                   Forall2 (fun p c => hblock (h ++ map (Live 1) cs) p = Live 1 c)
                     (seq (length h) (length cs)) cs).
      { clear. induction cs as [|c cs IH]; intros h; cbn [map length seq]; constructor.
        - unfold hblock. rewrite app_nth2 by lia. rewrite Nat.sub_diag. reflexivity.
        - specialize (IH (h ++ [Live 1 c])). rewrite app_length in IH. cbn [length] in IH.
          rewrite Nat.add_1_r, <- app_assoc in IH. exact IH. }
      specialize (G (map (fun kn => new_array (fst kn) (snd kn)) (combine (kinds c) (sizes c hdr m))) h).
      rewrite map_map in G. rewrite map_length, combine_length, kinds_sizes, Nat.min_id in G. exact G. }
    assert (HPS : forall p, In p (ownedo o') -> In p (seq (length h) (length (kinds c))))
      by (intros p; apply owned_sub_ps).
    assert (SZ : map (@length _) (map (fun kn => new_array (fst kn) (snd kn))
                    (combine (kinds c) (sizes c hdr m))) = sizes c hdr m).
    { rewrite map_map. pose proof (kinds_sizes c hdr m) as KS. revert KS.
      generalize (sizes c hdr m). generalize (kinds c). clear.
      induction l as [|k l IH]; intros [|n ns] H; cbn [combine map length fst snd] in *; try lia; auto.
      rewrite new_array_length. f_equal. apply IH; lia. }
    split.
    + eapply Inv_push; eauto.
      * constructor; cbn [o' ocls ohdr om oarr vcls vhdr vm varr]; auto.
        -- rewrite map_length, seq_length. auto.
        -- apply owned_nodup_ps. apply seq_NoDup.
        -- intros p Hp. apply HPS in Hp. clear -HB Hp.
           induction HB; cbn in Hp; [tauto|]. destruct Hp as [<-|Hp]; auto. eexists; eauto.
        -- intros _. clear -HB. induction HB; cbn [map]; constructor; auto. exists x; auto.
      * intros b ob p Eb Hp. apply hblock_app_lt. eapply owned_live; eauto.
      * intros p Hp. apply HPS in Hp. apply in_seq in Hp. lia.
    + intros _ NL. eapply noleak_push; eauto. intros q rc cs Hq Hc.
      destruct (Nat.lt_ge_cases q (length h)) as [X|X].
      * right. rewrite hblock_app_lt in Hq; auto.
      * left. pose proof (hblock_lt _ _ _ _ Hq) as Lq. rewrite app_length, Ll in Lq.
        unfold ownedo. cbn [o' om ocls oarr].
        destruct (Nat.eq_dec m 0) as [->|Hm].
        -- exfalso. apply Hc. clear -HB Hq X Lq SZ.
           rewrite sizes_0_map in SZ.
           assert (Hin : In q (seq (length h) (length (kinds c)))) by (apply in_seq; lia).
           assert (exists cs0, hblock (h ++ l) q = Live 1 cs0 /\
                      In cs0 (map (fun kn => new_array (fst kn) (snd kn)) (combine (kinds c) (sizes c hdr 0))))
             as (cs0 & H0 & I0).
           { clear -HB Hin. induction HB; cbn in Hin; [tauto|].
             destruct Hin as [<-|Hin]; [exists y; cbn; auto|].
             destruct IHHB as (z & ? & ?); auto. exists z; cbn; auto. }
           assert (cs0 = cs) by congruence. subst cs0.
           apply in_map_iff in I0. destruct I0 as ((k, n) & <- & I0). cbn [fst snd].
           apply in_combine_r in I0. apply sizes_zero in I0. subst n. reflexivity.
        -- rewrite owned_all by (rewrite ?seq_length; lia). apply in_seq; lia.
  - (* copy constructor *)
    destruct (var_R _ _ _ _ _ HI H) as (o & Eo & Lo & HR). cbn [step]. rewrite Lo. cbn [bind].
    unfold obj_copy.
    destruct (build_spec h o v ords (map (fun _ => None) (kinds (ocls o))))
      as (h1 & h2 & ps & E1 & E2 & HR2 & Fps & Fr & Z); auto.
    { rewrite map_length; auto. }
    { rewrite owned_none. constructor. }
    { rewrite owned_none. cbn; tauto. }
    rewrite E1. cbn [bind]. rewrite E2. cbn [bind]. eexists _, _. split; [reflexivity|].
    rewrite owned_none in Fps, Fr. cbn [In] in Fps, Fr. split.
    + eapply Inv_push; eauto.
      * intros b ob p Eb Hp. destruct (Fr p) as [[[] _]|[_ X]]; auto.
        intros Y. destruct (Fps p Y) as [Y1|[]]. pose proof (owned_live _ _ _ _ _ _ HI Eb Hp). lia.
      * intros p Hp. apply owned_sub_ps in Hp. destruct (Fps p Hp) as [|[]]; auto.
    + intros _ NL. eapply noleak_push; eauto. intros q rc cs Hq Hc.
      destruct (in_dec Nat.eq_dec q ps) as [Y|Y].
      * left. unfold ownedo. cbn [om ocls oarr]. destruct (Nat.eq_dec (om o) 0) as [Z0|Z0].
        -- rewrite (Z Z0 q Y) in Hq. congruence.
        -- rewrite owned_all; auto; try lia.
           pose proof (R_len _ _ _ HR2) as X. cbn [ocls oarr] in X. rewrite map_length in X. auto.
      * right. destruct (Fr q Y) as [[[] _]|[_ X]]; congruence.
  - (* assignment *)
    destruct (var_R _ _ _ _ _ HI H) as (o & Eo & Lo & HR).
    destruct (var_R _ _ _ _ _ HI H0) as (o' & Eo' & Lo' & HR').
    cbn [step]. rewrite Lo. cbn [bind]. rewrite Lo'. cbn [bind].
    destruct (Nat.eqb_spec a b) as [->|N].
    { exists h, E. split; [reflexivity|]. unfold var in *. rewrite lset_self by auto. auto. }
    destruct (H2 N) as [HA HO]. unfold obj_assign.
    destruct (obj_free_spec _ _ _ HR)
      as (h1 & o1 & E1 & HR1 & M1 & C1 & A1 & L1 & F1 & S1 & G1).
    rewrite E1. cbn [bind].
    pose proof (others_unowned _ _ _ _ _ HI Eo) as OU.
    assert (CC : ocls o1 = ocls o').
    { rewrite C1, (R_cls _ _ _ HR), (R_cls _ _ _ HR'). auto. }
    assert (OW : ownedo o1 = owned 0 (kinds (ocls o')) (oarr o1)).
    { unfold ownedo. rewrite M1, CC. reflexivity. }
    assert (HR1' : R h1 o' w).
    { apply (R_frame h); auto. intros p Hp. apply F1. apply (OU b o'); auto. }
    destruct (build_spec h1 o' w ords (oarr o1))
      as (h2 & h3 & ps & E2 & E3 & HR2 & Fps & Fr & Z); auto.
    { rewrite <- CC. apply (R_len _ _ _ HR1). }
    { rewrite <- OW. apply (R_nodup _ _ _ HR1). }
    { rewrite <- OW. intros p Hp. split; [apply (R_live _ _ _ HR1); auto|].
      intros Y. eapply (OU b o' p); eauto. }
    rewrite CC, E2. cbn [bind]. rewrite E3. cbn [bind]. eexists _, _. split; [reflexivity|].
    rewrite <- OW in Fps, Fr. split.
    + eapply Inv_upd; eauto.
      * intros c oc p Nc Ec Hp. pose proof (OU c oc p Nc Ec Hp) as Np.
        pose proof (owned_live _ _ _ _ _ _ HI Ec Hp) as Lp.
        destruct (Fr p) as [[X _]|[_ X]].
        -- intros Y. destruct (Fps p Y) as [Y1|Y1]; [lia|]. auto.
        -- exfalso; auto.
        -- rewrite X. apply F1; auto.
      * intros p Hp. apply owned_sub_ps in Hp. destruct (Fps p Hp) as [Y|Y]; [right; lia|left; auto].
    + intros _ NL. eapply noleak_upd; eauto. intros q rc cs Hq Hc.
      destruct (in_dec Nat.eq_dec q ps) as [Y|Y].
      * left. unfold ownedo. cbn [om ocls oarr]. destruct (Nat.eq_dec (om o') 0) as [Z0|Z0].
        -- rewrite (Z Z0 q Y) in Hq. congruence.
        -- rewrite owned_all; auto; try lia.
           pose proof (R_len _ _ _ HR2) as X. cbn [ocls oarr] in X. rewrite map_length in X. auto.
      * right. destruct (Fr q Y) as [[_ X]|[X1 X]]; [congruence|].
        assert (Nq : ~ In q (ownedo o)).
        { intros W. rewrite (G1 q W X1) in X. congruence. }
        split; auto. exists rc, cs. split; auto. rewrite <- F1, <- X; auto.
  - (* free *)
    destruct (var_R _ _ _ _ _ HI H) as (o & Eo & Lo & HR). cbn [step]. rewrite Lo. cbn [bind].
    destruct (obj_free_spec _ _ _ HR)
      as (h1 & o1 & E1 & HR1 & M1 & C1 & A1 & L1 & F1 & S1 & G1).
    rewrite E1. cbn [bind]. eexists _, _. split; [reflexivity|].
    assert (B : (0 <? vm v) = true) by (apply Nat.ltb_lt; auto). rewrite B in HR1. split.
    + eapply Inv_upd; eauto. intros c oc p Nc Ec Hp. apply F1. eapply (others_unowned _ _ _ _ _ HI Eo); eauto.
    + intros _ NL. eapply noleak_upd; eauto. intros q rc cs Hq Hc.
      destruct (in_dec Nat.eq_dec q (ownedo o1)) as [Y|Y]; auto.
      right. assert (Nq : ~ In q (ownedo o)) by (intros W; rewrite (G1 q W Y) in Hq; congruence).
      split; auto. exists rc, cs. split; auto. rewrite <- F1; auto.
  - (* free without entries *)
    destruct (var_R _ _ _ _ _ HI H) as (o & Eo & Lo & HR). cbn [step]. rewrite Lo. cbn [bind].
    unfold obj_free.
    assert (B : (0 <? om o) = false) by (apply Nat.ltb_ge; rewrite (R_m _ _ _ HR); lia).
    rewrite B. cbn [bind]. rewrite lset_self by auto. eauto.
  - (* transpose *)
    destruct (var_R _ _ _ _ _ HI H) as (o & Eo & Lo & HR). cbn [step]. rewrite Lo. cbn [bind].
    eexists _, _. split; [reflexivity|].
    destruct o as [c' hdr' m' az]. pose proof (R_cls _ _ _ HR) as Hc. cbn in Hc. subst c'.
    pose proof (R_len _ _ _ HR) as HL. cbn [oarr ocls kinds] in HL.
    destruct az as [|a1 [|a2 az]]; cbn [length] in HL; try lia.
    assert (P : Permutation (ownedo (obj_transpose (mkObj (CCoo s ws wgt) hdr' m' (a1 :: a2 :: az))))
                            (ownedo (mkObj (CCoo s ws wgt) hdr' m' (a1 :: a2 :: az)))).
    { unfold ownedo, obj_transpose. cbn [swap01 oarr ocls om kinds owned].
      rewrite !app_assoc. apply Permutation_app_tail. apply Permutation_app_comm. }
    split.
    + eapply Inv_upd; eauto.
      * destruct HR. constructor; unfold obj_transpose in *; cbn [swap01 ocls ohdr om oarr vcls vhdr vm varr] in *; auto.
        -- cbn [map] in *. inversion R_size. cbn [sizes] in *. congruence.
        -- eapply Permutation_NoDup; [symmetry; exact P|auto].
        -- intros p Hp. apply R_live. eapply Permutation_in; [exact P|auto].
        -- intros Hm. specialize (R_arr Hm). inversion R_arr as [|? ? ? ? X1 X2]; subst.
           inversion X2; subst. constructor; auto.
      * intros p Hp. left. eapply Permutation_in; [exact P|auto].
    + intros _ NL. eapply noleak_upd; eauto. intros q rc cs Hq Hcs.
      destruct (in_dec Nat.eq_dec q (ownedo (obj_transpose (mkObj (CCoo s ws wgt) hdr' m' (a1 :: a2 :: az))))) as [Y|Y]; auto.
      right. split; [|eauto]. intros X. apply Y. eapply Permutation_in; [symmetry; exact P|auto].
  - (* header *)
    destruct (var_R _ _ _ _ _ HI H) as (o & Eo & Lo & HR). cbn [step]. rewrite Lo. cbn [bind].
    eexists _, _. split; [reflexivity|]. split.
    + eapply Inv_upd; eauto. destruct HR. constructor; cbn [ocls ohdr om oarr vcls vhdr vm varr] in *; auto.
    + intros _ NL. eapply noleak_upd; eauto. intros q rc cs Hq Hcs.
      destruct (in_dec Nat.eq_dec q (ownedo o)) as [Y|Y]; auto. right. eauto.
  - (* store *)
    destruct (var_R _ _ _ _ _ HI H) as (o & Eo & Lo & HR). cbn [step]. rewrite Lo. cbn [bind].
    assert (Hm : 0 < om o).
    { destruct (Nat.eq_dec (om o) 0) as [Z|]; [|lia]. exfalso.
      assert (X : In (length arr) (map (@length _) (varr v)))
        by (apply in_map; eapply nth_error_In; eauto).
      rewrite (R_size _ _ _ HR), <- (R_m _ _ _ HR), Z in X. apply sizes_zero in X. lia. }
    destruct (R_ids _ _ _ HR Hm) as (ps & Ea & Oa & Fa).
    assert (exists p, nth_error ps k = Some p /\ hblock h p = Live 1 arr) as (p & Ek & Hp).
    { clear -Fa H0. revert k H0. induction Fa; intros [|k] H0; cbn in *; try discriminate.
      - exists x; split; congruence.
      - apply IHFa; auto. }
    assert (Hk : nth k (oarr o) None = Some p).
    { rewrite Ea. apply nth_error_nth. apply map_nth_error. auto. }
    rewrite Hk. cbn [hset]. rewrite Hp.
    assert (B : (i <? length arr) = true) by (apply Nat.ltb_lt; auto). rewrite B. cbn [bind].
    eexists _, _. split; [reflexivity|].
    pose proof (hblock_lt _ _ _ _ Hp) as Lp.
    assert (NDp : NoDup ps) by (rewrite <- Oa; apply (R_nodup _ _ _ HR)).
    assert (Ip : In p ps) by (eapply nth_error_In; eauto).
    set (h1 := lset h p (Live 1 (lset arr i (Some z)))).
    assert (X : Inv h1 (lset E a (Some o))
                  (lset A a (Some (mkValue (vcls v) (vhdr v) (vm v) (lset (varr v) k (lset arr i (Some z))))))).
    { eapply Inv_upd; eauto.
      - destruct HR. constructor; cbn [vcls vhdr vm varr]; auto.
        + rewrite <- R_size. clear -H0. revert k H0.
          induction (varr v) as [|c l IH]; intros [|k] H0; cbn in *; try discriminate.
          * inversion H0; subst. rewrite lset_length. auto.
          * f_equal; auto.
        + intros q Hq. unfold live1, h1. destruct (Nat.eq_dec p q) as [<-|N].
          * rewrite hblock_eq by auto. eauto.
          * rewrite hblock_ne by auto. apply R_live; auto.
        + intros _. rewrite Ea. clear -Fa Ek H0 NDp Lp Ip.
          revert k Ek H0. induction Fa as [|q c qs cs Hq Fa IH]; intros k Ek H0; destruct k; cbn in *; try discriminate.
          * inversion Ek; inversion H0; subst. constructor.
            -- exists p. split; auto. unfold h1. rewrite hblock_eq by auto. auto.
            -- inversion NDp; subst. clear -Fa H2. induction Fa; cbn [map]; constructor.
               ++ exists x. split; auto. unfold h1. rewrite hblock_ne; auto. intros ->; apply H2; cbn; auto.
               ++ apply IHFa. intros Y; apply H2; cbn; auto.
          * inversion NDp; subst. assert (Np : p <> q) by (intros ->; apply H2; eapply nth_error_In; eauto).
            constructor.
            -- exists q. split; auto. unfold h1. rewrite hblock_ne; auto.
            -- apply IH; auto. eapply nth_error_In; eauto.
      - intros b ob q Nb Eb Hq. apply hblock_ne. intros ->.
        eapply (others_unowned _ _ _ _ _ HI Eo); eauto. rewrite Oa. auto. }
    rewrite (lset_self E a (Some o)) in X by auto. split; auto.
    intros _ NL q rc cs Hq Hcs. unfold h1 in Hq. destruct (Nat.eq_dec p q) as [<-|N].
    + exists a, o. split; auto. rewrite Oa; auto.
    + rewrite hblock_ne in Hq by auto. eapply NL; eauto.
  - (* load *)
    destruct (var_R _ _ _ _ _ HI H) as (o & Eo & Lo & HR). cbn [step]. rewrite Lo. cbn [bind].
    assert (Hm : 0 < om o).
    { destruct (Nat.eq_dec (om o) 0) as [Z|]; [|lia]. exfalso.
      assert (X : In (length arr) (map (@length _) (varr v)))
        by (apply in_map; eapply nth_error_In; eauto).
      rewrite (R_size _ _ _ HR), <- (R_m _ _ _ HR), Z in X. apply sizes_zero in X.
      destruct arr; [destruct i; discriminate|discriminate]. }
    destruct (R_ids _ _ _ HR Hm) as (ps & Ea & Oa & Fa).
    assert (exists p, nth_error ps k = Some p /\ hblock h p = Live 1 arr) as (p & Ek & Hp).
    { clear -Fa H0. revert k H0. induction Fa; intros [|k] H0; cbn in *; try discriminate.
      - exists x; split; congruence.
      - apply IHFa; auto. }
    assert (Hk : nth k (oarr o) None = Some p).
    { rewrite Ea. apply nth_error_nth. apply map_nth_error. auto. }
    rewrite Hk. cbn [hget]. rewrite Hp, H1. cbn [bind]. eauto.
  - (* sizes *)
    destruct (var_R _ _ _ _ _ HI H) as (o & Eo & Lo & HR). cbn [step]. rewrite Lo. cbn [bind].
    rewrite (R_m _ _ _ HR), (R_hdr _ _ _ HR). eauto.
  - (* end of scope *)
    destruct (var_R _ _ _ _ _ HI H) as (o & Eo & Lo & HR). cbn [step]. rewrite Lo. cbn [bind].
    destruct (drop_all_spec (kinds (ocls o)) (oarr o) h (R_len _ _ _ HR))
      as (h1 & E1 & L1 & F1 & B1).
    { eapply owned_nodup_0. exact (R_nodup _ _ _ HR). }
    { intros p Hp. apply (R_live _ _ _ HR). apply owned_0_sub; auto. }
    rewrite E1. cbn [bind]. eexists _, _. split; [reflexivity|]. split.
    + eapply Inv_drop; eauto. intros b ob p Nb Eb Hp. apply F1. intros X.
      eapply (others_unowned _ _ _ _ _ HI Eo); eauto. apply owned_0_sub; auto.
    + intros T NL q rc cs Hq Hcs.
      destruct (in_dec Nat.eq_dec q (owned 0 (kinds (ocls o)) (oarr o))) as [Y|Y].
      { rewrite B1 in Hq by auto. discriminate. }
      rewrite F1 in Hq by auto. destruct (NL q rc cs Hq Hcs) as (b & ob & Eb & Hb).
      exists b, ob. split; auto. rewrite lset_nth_error_ne; auto. intros <-.
      assert (ob = o) by congruence. subst ob. apply Y.
      destruct (T v H) as [M|M].
      * unfold ownedo in Hb. rewrite (R_m _ _ _ HR), M in Hb. auto.
      * rewrite arrays_kinds in M. rewrite <- (R_cls _ _ _ HR) in M. unfold ownedo in Hb. revert Hb M. clear.
        generalize (oarr o). induction (kinds (ocls o)) as [|k ks IH]; intros [|x az]; cbn; auto.
        rewrite !in_app_iff. intros [X|X] M; [left|right; apply IH; tauto].
        destruct x; cbn in *; auto. destruct k; auto; tauto.
Qed.

Theorem run_ok h E A xs A1 outs : Inv h E A -> does_all A xs A1 outs ->
  exists h1 E1, run_ops h E xs = Ok (h1, E1, outs) /\ Inv h1 E1 A1.
Proof.
  intros HI HD. revert h E HI. induction HD as [A|A x A1 out xs A2 outs HS _ IH]; intros h E HI.
  - exists h, E. split; auto.
  - destruct (step_ok _ _ _ _ _ _ HI HS) as (h1 & E1 & S1 & I1 & _).
    destruct (IH _ _ I1) as (h2 & E2 & S2 & I2).
    exists h2, E2. split; auto. cbn [run_ops]. rewrite S1. cbn [bind]. rewrite S2. reflexivity.
Qed.
