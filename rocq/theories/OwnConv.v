(** * OwnConv: which storage the conversion from CSR to COO reads *)

From Coq Require Import Permutation.
From Verif Require Import Base Own SpecOwn OwnLemmas OwnMain.

Lemma hget_res h a i : (exists v, hget h a i = Ok v) \/ hget h a i = UB.
Proof.
  unfold hget. destruct a as [p|]; auto. destruct (hblock h p); auto.
  destruct (nth_error cells i) as [[v|]|]; eauto.
Qed.

Lemma hset_res h a i v :
  hset h a i v = UB \/ exists p rc cs, a = Some p /\ hblock h p = Live rc cs /\ i < length cs /\
    hset h a i v = Ok (lset h p (Live rc (lset cs i (Some v)))).
Proof.
  unfold hset. destruct a as [p|]; auto. destruct (hblock h p) eqn:E; auto.
  destruct (Nat.ltb_spec i (length cells)); auto. right. exists p, rc, cells. auto.
Qed.

Lemma hset_freed h a i v h' q : hset h a i v = Ok h' -> hblock h q = Freed -> hblock h' q = Freed.
Proof.
  intros H Hq. destruct (hset_res h a i v) as [X|(p & rc & cs & -> & Hp & _ & X)]; [congruence|].
  rewrite X in H. inversion H; subst. rewrite hblock_ne; auto. intros ->. congruence.
Qed.

(** An entry whose weight is read from a block given back. *)
Lemma conv_entry_freed h x y wd q eptr v j : hblock h q = Freed ->
  conv_entry h x y (Some (wd, Some q)) eptr v j = UB.
Proof.
  intros Hq. unfold conv_entry.
  destruct (hget_res h eptr j) as [[e ->]| ->]; [|reflexivity]. cbn [bind].
  destruct (hset h x j (Z.of_nat v)) eqn:E1; cbn [bind]; auto.
  2,3: destruct (hset_res h x j (Z.of_nat v)) as [X|(? & ? & ? & _ & _ & _ & X)]; congruence.
  pose proof (hset_freed _ _ _ _ _ _ E1 Hq) as Hq1.
  destruct (hset a y j e) eqn:E2; cbn [bind]; auto.
  2,3: destruct (hset_res a y j e) as [X|(? & ? & ? & _ & _ & _ & X)]; congruence.
  pose proof (hset_freed _ _ _ _ _ _ E2 Hq1) as Hq2.
  cbn [hget]. rewrite Hq2. reflexivity.
Qed.

Lemma conv_rows_freed x y wd q optr eptr rc offs : forall ord h,
  hblock h q = Freed -> hblock h optr = Live rc (map (fun o => Some (Z.of_nat o)) offs) ->
  (forall v, In v ord -> v + 1 < length offs) ->
  (exists v, In v ord /\ nth v offs 0 < nth (v + 1) offs 0) ->
  conv_rows h x y (Some (wd, Some q)) (Some optr) eptr ord = UB.
Proof.
  induction ord as [|v ord IH]; intros h Hq Ho Hv Hx; [destruct Hx as (v & [] & _)|].
  assert (G : forall i, i < length offs -> hget h (Some optr) i = Ok (Z.of_nat (nth i offs 0))).
  { intros i Hi. cbn [hget]. rewrite Ho.
    rewrite (map_nth_error (fun o => Some (Z.of_nat o)) i offs (d := nth i offs 0)).
    - reflexivity.
    - apply nth_error_nth'; auto. }
  assert (Lv : v + 1 < length offs) by (apply Hv; cbn; auto).
  cbn [conv_rows]. rewrite !G by lia. cbn [bind]. rewrite !Nat2Z.id.
  destruct (nth (v + 1) offs 0 - nth v offs 0) as [|k] eqn:K.
  - cbn [seq conv_row bind]. apply IH; auto.
    + intros; apply Hv; cbn; auto.
    + destruct Hx as (u & [->|Hu] & X); [lia|eauto].
  - cbn [seq conv_row]. rewrite conv_entry_freed by auto. reflexivity.
Qed.

(** ** The other cases *)

(** The entry is converted: what it changes. *)
Definition dsts (x y : nat) (w : option (nat * nat)) : list nat :=
  x :: y :: match w with Some (wd, _) => [wd] | None => [] end.

Definition wh (w : option (nat * nat)) : option (handle * handle) :=
  match w with Some (d, s) => Some (Some d, Some s) | None => None end.

(** The storage the loop works on: the arrays of the COO hold [xs], [ys], [ws];
    the source holds the offsets, the endpoints and the weights. *)
Record St (h : heap) (x y : nat) (w : option (nat * nat)) (eptr : nat)
    (es wts : list Z) (xs ys wz : list (option Z)) : Prop := mkSt {
  St_x : hblock h x = Live 1 xs;
  St_y : hblock h y = Live 1 ys;
  St_w : forall d s, w = Some (d, s) -> hblock h d = Live 1 wz /\
           (exists rc, hblock h s = Live rc (map Some wts)) /\ length wz = length es /\
           length wts = length es;
  St_e : exists rc, hblock h eptr = Live rc (map Some es);
  St_lx : length xs = length es;
  St_ly : length ys = length es;
  St_nd : NoDup (dsts x y w);
  St_src : ~ In eptr (dsts x y w) /\ (forall d s, w = Some (d, s) -> ~ In s (dsts x y w)) }.

Lemma conv_entry_ok h x y w eptr es wts xs ys wz v j :
  St h x y w eptr es wts xs ys wz -> j < length es ->
  exists h', conv_entry h (Some x) (Some y) (wh w) (Some eptr) v j = Ok h' /\
    St h' x y w eptr es wts (lset xs j (Some (Z.of_nat v))) (lset ys j (nth_error es j))
       (match w with Some _ => lset wz j (nth_error wts j) | None => wz end) /\
    (forall q, ~ In q (dsts x y w) -> hblock h' q = hblock h q) /\ length h' = length h.
Proof.
  intros [Hx Hy Hw [re He] Lx Ly ND [Ne Ns]] Hj.
  pose proof (hblock_lt _ _ _ _ Hx). pose proof (hblock_lt _ _ _ _ Hy).
  unfold conv_entry. cbn [hget]. rewrite He.
  destruct (nth_error es j) as [e|] eqn:Ee; [|apply nth_error_None in Ee; lia].
  rewrite (map_nth_error Some _ _ Ee). cbn [bind hset]. rewrite Hx.
  assert (B1 : (j <? length xs) = true) by (apply Nat.ltb_lt; lia). rewrite B1. cbn [bind].
  assert (Nxy : x <> y) by (intros ->; inversion ND; subst; cbn in *; tauto).
  rewrite hblock_ne, Hy by auto.
  assert (B2 : (j <? length ys) = true) by (apply Nat.ltb_lt; lia). rewrite B2. cbn [bind].
  set (h2 := lset (lset h x (Live 1 (lset xs j (Some (Z.of_nat v))))) y (Live 1 (lset ys j (Some e)))).
  assert (X2 : hblock h2 x = Live 1 (lset xs j (Some (Z.of_nat v)))).
  { unfold h2. rewrite hblock_ne by auto. apply hblock_eq; auto. }
  assert (Y2 : hblock h2 y = Live 1 (lset ys j (Some e))).
  { unfold h2. apply hblock_eq. rewrite lset_length; auto. }
  assert (F2 : forall q, q <> x -> q <> y -> hblock h2 q = hblock h q).
  { intros. unfold h2. rewrite !hblock_ne; auto. }
  assert (L2 : length h2 = length h) by (unfold h2; rewrite !lset_length; auto).
  destruct w as [[d s]|]; cbn [wh dsts] in *.
  - destruct (Hw d s eq_refl) as (Hd & [rs Hs] & Lw & Lws). specialize (Ns d s eq_refl).
    assert (Nd : d <> x /\ d <> y).
    { inversion ND as [|? ? A B]; subst. inversion B; subst. cbn in *. intuition. }
    assert (Nss : s <> x /\ s <> y /\ s <> d) by (cbn in Ns; intuition).
    cbn [hget]. rewrite F2, Hs by tauto.
    destruct (nth_error wts j) as [z|] eqn:Ez; [|apply nth_error_None in Ez; lia].
    rewrite (map_nth_error Some _ _ Ez). cbn [bind hset]. rewrite F2, Hd by tauto.
    assert (B3 : (j <? length wz) = true) by (apply Nat.ltb_lt; lia). rewrite B3.
    pose proof (hblock_lt _ _ _ _ Hd) as Ld.
    eexists. split; [reflexivity|]. split.
    + constructor; rewrite ?lset_length; auto.
      * rewrite hblock_ne by tauto. auto.
      * rewrite hblock_ne by tauto. auto.
      * intros d' s' Eq. inversion Eq; subst d' s'. split; [apply hblock_eq; lia|].
        split; [exists rs; rewrite hblock_ne, F2 by (intuition congruence); auto|].
        auto.
      * exists re. cbn in Ne. rewrite hblock_ne, F2 by (intuition congruence). auto.
      * split; auto. intros d' s' Eq. inversion Eq; subst. auto.
    + split; [|rewrite lset_length; auto].
      intros q Hq. cbn in Hq. rewrite hblock_ne, F2; intuition.
  - eexists. split; [reflexivity|]. split.
    + constructor; rewrite ?lset_length; auto.
      * discriminate.
      * exists re. cbn in Ne. rewrite F2 by (intuition congruence). auto.
    + split; auto. intros q Hq. cbn in Hq. apply F2; intuition.
Qed.

Lemma conv_row_ok x y w eptr es wts v : forall js h xs ys wz,
  St h x y w eptr es wts xs ys wz -> (forall j, In j js -> j < length es) ->
  exists h' xs' ys' wz', conv_row h (Some x) (Some y) (wh w) (Some eptr) v js = Ok h' /\
    St h' x y w eptr es wts xs' ys' wz' /\
    (forall q, ~ In q (dsts x y w) -> hblock h' q = hblock h q) /\ length h' = length h /\
    (forall j, In j js -> nth_error xs' j = Some (Some (Z.of_nat v)) /\
        nth_error ys' j = Some (nth_error es j) /\
        (w <> None -> nth_error wz' j = Some (nth_error wts j))) /\
    (forall j, ~ In j js -> nth_error xs' j = nth_error xs j /\
        nth_error ys' j = nth_error ys j /\ nth_error wz' j = nth_error wz j).
Proof.
  induction js as [|j js IH]; intros h xs ys wz HS HJ.
  - exists h, xs, ys, wz. split; [reflexivity|]. split; [exact HS|]. split; [auto|]. split; [auto|].
    split; [intros; contradiction|]. auto.
  - assert (Hj : j < length es) by (apply HJ; cbn; auto).
    destruct (conv_entry_ok _ _ _ _ _ _ _ _ _ _ v j HS Hj) as (h1 & E1 & S1 & F1 & L1).
    destruct (IH _ _ _ _ S1) as (h' & xs' & ys' & wz' & E2 & S2 & F2 & L2 & I2 & O2).
    { intros; apply HJ; cbn; auto. }
    exists h', xs', ys', wz'. cbn [conv_row]. rewrite E1. cbn [bind]. split; auto.
    split; auto. split; [intros; rewrite F2, F1; auto|]. split; [lia|].
    destruct HS. split.
    + intros i Hi. destruct (in_dec Nat.eq_dec i js) as [Y|Y]; [apply I2; auto|].
      destruct Hi as [<-|Hi]; [|tauto].
      destruct (O2 j Y) as (O21 & O22 & O23). rewrite O21, O22, O23.
      rewrite !lset_nth_error_eq by lia. split; auto. split; auto.
      intros W. destruct w as [[d s]|]; [|congruence].
      destruct (St_w0 d s eq_refl) as (_ & _ & Lw & _). apply lset_nth_error_eq; lia.
    + intros i Hi. cbn in Hi. destruct (O2 i) as (O21 & O22 & O23); [tauto|].
      assert (Nij : j <> i) by (intros ->; tauto).
      rewrite O21, O22, O23. split; [apply lset_nth_error_ne; auto|]. split; [apply lset_nth_error_ne; auto|].
      destruct w; auto. apply lset_nth_error_ne; auto.
Qed.

(** The rows of the offsets [offs] split the [m] entries. *)
Record rows_ok (offs : list nat) (n m : nat) : Prop := mkRowsOk {
  ro_len : length offs = n + 1;
  ro_first : nth 0 offs 0 = 0;
  ro_mono : forall v, v < n -> nth v offs 0 <= nth (v + 1) offs 0;
  ro_last : nth n offs 0 = m }.

Lemma rows_mono offs n m : rows_ok offs n m ->
  forall u v, u <= v -> v <= n -> nth u offs 0 <= nth v offs 0.
Proof.
  intros [] u v H. induction H; intros; auto.
  specialize (IHle ltac:(lia)). specialize (ro_mono0 m0 ltac:(lia)).
  rewrite Nat.add_1_r in ro_mono0. lia.
Qed.

Lemma conv_rows_ok x y w optr eptr ro offs es wts n : rows_ok offs n (length es) ->
  ~ In optr (dsts x y w) ->
  forall ord h xs ys wz,
  St h x y w eptr es wts xs ys wz ->
  hblock h optr = Live ro (map (fun o => Some (Z.of_nat o)) offs) ->
  NoDup ord -> (forall v, In v ord -> v < n) ->
  exists h' xs' ys' wz', conv_rows h (Some x) (Some y) (wh w) (Some optr) (Some eptr) ord = Ok h' /\
    St h' x y w eptr es wts xs' ys' wz' /\
    (forall q, ~ In q (dsts x y w) -> hblock h' q = hblock h q) /\ length h' = length h /\
    (forall v j, In v ord -> nth v offs 0 <= j < nth (v + 1) offs 0 ->
        nth_error xs' j = Some (Some (Z.of_nat v)) /\ nth_error ys' j = Some (nth_error es j) /\
        (w <> None -> nth_error wz' j = Some (nth_error wts j))) /\
    (forall j, (forall v, In v ord -> ~ nth v offs 0 <= j < nth (v + 1) offs 0) ->
        nth_error xs' j = nth_error xs j /\
        nth_error ys' j = nth_error ys j /\ nth_error wz' j = nth_error wz j).
Proof.
  intros RO No. pose proof (rows_mono _ _ _ RO) as MO.
  induction ord as [|v ord IH]; intros h xs ys wz HS HO ND HV.
  - exists h, xs, ys, wz. split; [reflexivity|]. split; [exact HS|]. split; [auto|]. split; [auto|].
    split; [intros; contradiction|]. auto.
  - inversion ND as [|? ? Nv ND']; subst.
    assert (Hv : v < n) by (apply HV; cbn; auto).
    assert (G : forall i, i <= n -> hget h (Some optr) i = Ok (Z.of_nat (nth i offs 0))).
    { intros i Hi. cbn [hget]. rewrite HO.
      rewrite (map_nth_error (fun o => Some (Z.of_nat o)) i offs (d := nth i offs 0)).
      - reflexivity.
      - apply nth_error_nth'. rewrite (ro_len _ _ _ RO). lia. }
    cbn [conv_rows]. rewrite !G by lia. cbn [bind]. rewrite !Nat2Z.id.
    set (js := seq (nth v offs 0) (nth (v + 1) offs 0 - nth v offs 0)).
    assert (Hjs : forall j, In j js <-> nth v offs 0 <= j < nth (v + 1) offs 0).
    { intros j. unfold js. rewrite in_seq. specialize (MO v (v + 1)). lia. }
    destruct (conv_row_ok x y w eptr es wts v js h xs ys wz HS)
      as (h1 & xs1 & ys1 & wz1 & E1 & S1 & F1 & L1 & I1 & O1).
    { intros j Hj. apply Hjs in Hj. specialize (MO (v + 1) n ltac:(lia) ltac:(lia)).
      rewrite (ro_last _ _ _ RO) in MO. lia. }
    rewrite E1. cbn [bind].
    destruct (IH h1 xs1 ys1 wz1 S1) as (h' & xs' & ys' & wz' & E2 & S2 & F2 & L2 & I2 & O2); auto.
    { rewrite F1; auto. }
    { intros; apply HV; cbn; auto. }
    exists h', xs', ys', wz'. split; auto. split; auto.
    split; [intros; rewrite F2, F1; auto|]. split; [lia|]. split.
    + intros u j [<-|Hu] Hj; [|eapply I2; eauto].
      destruct (O2 j) as (X1 & X2 & X3).
      { intros u Hu Hj'. assert (u <> v) by (intros ->; auto).
        assert (u < n) by (apply HV; cbn; auto).
        destruct (Nat.lt_ge_cases u v).
        - specialize (MO (u + 1) v). lia.
        - specialize (MO (v + 1) u). lia. }
      rewrite X1, X2, X3. apply I1. apply Hjs; auto.
    + intros j Hj. destruct (O2 j) as (X1 & X2 & X3).
      { intros u Hu. apply Hj; cbn; auto. }
      rewrite X1, X2, X3. apply O1. rewrite Hjs. apply Hj; cbn; auto.
Qed.

(** ** The whole conversion *)

(** A CSR in memory: its offsets, endpoints and weights, in different blocks. *)
Definition csr_in (h : heap) (c : csrobj) (offs : list nat) (es wts : list Z) : Prop :=
  exists po pe ro re, coff c = Some po /\ cend c = Some pe /\ po <> pe /\
    hblock h po = Live (S ro) (map (fun o => Some (Z.of_nat o)) offs) /\
    hblock h pe = Live (S re) (map Some es) /\
    match cwgt c with
    | None => True
    | Some a => exists pw rw, a = Some pw /\ pw <> po /\ pw <> pe /\
                  hblock h pw = Live (S rw) (map Some wts) /\ length wts = length es
    end.

(** The COO in memory holds the entries of the rows. *)
Definition coo_rows (h : heap) (o : obj) (n : nat) (offs : list nat) (es wts : list Z) (weighted : bool) : Prop :=
  length (oarr o) = (if weighted then 3 else 2) /\
  forall v j, v < n -> nth v offs 0 <= j < nth (v + 1) offs 0 ->
    hget h (nth 0 (oarr o) None) j = Ok (Z.of_nat v) /\
    hget h (nth 1 (oarr o) None) j = Ok (nth j es 0%Z) /\
    (weighted = true -> hget h (nth 2 (oarr o) None) j = Ok (nth j wts 0%Z)).

Lemma copy_mem_ok k h p rc cs : hblock h p = Live (S rc) cs ->
  copy_mem k h (Some p) = Ok (match k with
                              | Ptr => (h, Some p)
                              | Sptr => (lset h p (Live (S (S rc)) cs), Some p)
                              | Vec => (h ++ [Live 1 cs], Some (length h))
                              end).
Proof. intros H. destruct k; cbn [copy_mem]; rewrite ?H; reflexivity. Qed.

Lemma coo_rows_of x y w eptr es wts xs ys wz h offs n cls hdr m :
  St h x y w eptr es wts xs ys wz -> rows_ok offs n (length es) ->
  (forall v j, v < n -> nth v offs 0 <= j < nth (v + 1) offs 0 ->
        nth_error xs j = Some (Some (Z.of_nat v)) /\ nth_error ys j = Some (nth_error es j) /\
        (w <> None -> nth_error wz j = Some (nth_error wts j))) ->
  forall h', (forall q, In q (dsts x y w) -> hblock h' q = hblock h q) ->
  coo_rows h' (mkObj cls hdr m (map Some (dsts x y w))) n offs es wts
           (match w with Some _ => true | None => false end).
Proof.
  intros HS RO HR h' HF. pose proof (rows_mono _ _ _ RO) as MO. split.
  - cbn [oarr]. rewrite map_length. destruct w as [[d s]|]; reflexivity.
  - intros v j Hv Hj. destruct (HR v j Hv Hj) as (X & Y & W).
    assert (Lj : j < length es).
    { specialize (MO (v + 1) n ltac:(lia) ltac:(lia)). rewrite (ro_last _ _ _ RO) in MO. lia. }
    destruct HS. cbn [oarr dsts map nth hget].
    rewrite HF, St_x0, X by (cbn; auto). rewrite HF, St_y0, Y by (cbn; auto).
    rewrite (nth_error_nth' es 0%Z Lj). split; auto. split; auto.
    intros Hw. destruct w as [[d s]|]; [|discriminate]. cbn [map nth hget].
    destruct (St_w0 d s eq_refl) as (Hd & _ & _ & Lw).
    rewrite HF, Hd, W by (cbn; auto; discriminate).
    rewrite (nth_error_nth' wts 0%Z) by lia. auto.
Qed.

Theorem coo_from_csr_ok h s ws c hdr offs es wts n ord :
  csr_in h c offs es wts -> rows_ok offs n (length es) -> Permutation ord (seq 0 n) ->
  (ck c = Vec -> cwgt c = None) ->
  exists h' o, coo_from_csr h s ws c hdr (length es) ord = Ok (h', o) /\
    coo_rows h' o n offs es wts (match cwgt c with Some _ => true | None => false end) /\
    (forall p, p < length h -> hblock h' p = hblock h p).
Proof.
  intros (po & pe & ro & re & Eo & Ee & Noe & Ho & He & Hw) RO HP HV.
  assert (NDo : NoDup ord) by (eapply Permutation_NoDup; [symmetry; exact HP|apply seq_NoDup]).
  assert (Vo : forall v, In v ord -> v < n).
  { intros v Hv. eapply Permutation_in in Hv; [|exact HP]. apply in_seq in Hv. lia. }
  assert (Vo' : forall v, v < n -> In v ord).
  { intros v Hv. eapply Permutation_in; [symmetry; exact HP|]. apply in_seq; lia. }
  pose proof (hblock_lt _ _ _ _ Ho) as Lo. pose proof (hblock_lt _ _ _ _ He) as Le.
  unfold coo_from_csr.
  set (wgt := match cwgt c with Some _ => true | None => false end) in *.
  set (cl := CCoo s ws wgt).
  rewrite alloc_fresh by apply kinds_sizes. cbn [bind].
  set (L := length h) in *.
  set (h1 := h ++ map (fun kn => Live 1 (new_array (fst kn) (snd kn))) (combine (kinds cl) (sizes cl hdr (length es)))).
  set (ax := new_array s (length es)). set (aw := new_array ws (length es)).
  assert (H1 : h1 = h ++ Live 1 ax :: Live 1 ax :: (if wgt then [Live 1 aw] else [])).
  { unfold h1, cl. destruct wgt; reflexivity. }
  clearbody h1.
  assert (AZ : map Some (seq L (length (kinds cl))) = Some L :: Some (L + 1) :: (if wgt then [Some (L + 2)] else [])).
  { unfold cl. destruct wgt; cbn; repeat f_equal; lia. }
  rewrite AZ. clear AZ.
  assert (OLD : forall q, q < L -> hblock h1 q = hblock h q).
  { intros q Hq. subst h1. apply hblock_app_lt; auto. }
  assert (BX : hblock h1 L = Live 1 ax).
  { subst h1. unfold hblock. rewrite app_nth2 by (unfold L; lia). unfold L. rewrite Nat.sub_diag. reflexivity. }
  assert (BY : hblock h1 (L + 1) = Live 1 ax).
  { subst h1. unfold hblock. rewrite app_nth2 by (unfold L; lia).
    replace (L + 1 - length h) with 1 by (unfold L; lia). reflexivity. }
  assert (BW : wgt = true -> hblock h1 (L + 2) = Live 1 aw).
  { intros W. subst h1. rewrite W. unfold hblock. rewrite app_nth2 by (unfold L; lia).
    replace (L + 2 - length h) with 2 by (unfold L; lia). reflexivity. }
  assert (LEN1 : length h1 = L + if wgt then 3 else 2).
  { subst h1. rewrite app_length. fold L. destruct wgt; reflexivity. }
  assert (Lax : length ax = length es) by apply new_array_length.
  assert (Law : length aw = length es) by apply new_array_length.
  clearbody ax aw.
  assert (Ho1 : hblock h1 po = Live (S ro) (map (fun o => Some (Z.of_nat o)) offs)) by (rewrite OLD; auto).
  assert (He1 : hblock h1 pe = Live (S re) (map Some es)) by (rewrite OLD; auto).
  rewrite Eo, Ee. rewrite (copy_mem_ok _ _ _ _ _ Ho1). cbn [bind].
  destruct (ck c) eqn:K.
  - (* raw pointers *)
    rewrite (copy_mem_ok _ _ _ _ _ He1). cbn [bind].
    destruct (cwgt c) as [a|] eqn:CW; subst wgt; cbv iota in *.
    + destruct Hw as (pw & rw & -> & Nwo & Nwe & Hpw & Lw).
      pose proof (hblock_lt _ _ _ _ Hpw) as Lpw.
      assert (Hpw1 : hblock h1 pw = Live (S rw) (map Some wts)) by (rewrite OLD; auto).
      rewrite (copy_mem_ok _ _ _ _ _ Hpw1). cbn [bind drop_mem nth].
      destruct (conv_rows_ok L (L + 1) (Some (L + 2, pw)) po pe (S ro) offs es wts n RO)
        with (ord := ord) (h := h1) (xs := ax) (ys := ax) (wz := aw)
        as (h5 & xs & ys & wz & E5 & S5 & F5 & L5 & I5 & _); auto.
      { cbn. fold L in Lo. lia. }
      { constructor; auto.
        - intros d s0 Eq. inversion Eq; subst d s0. split; auto. split; eauto.
        - eauto.
        - cbn. repeat constructor; cbn; lia.
        - cbn. split; [lia|]. intros d s0 Eq. inversion Eq; subst. lia. }
      cbn [wh] in E5. unfold handle in *. rewrite E5. cbn [bind]. eexists _, _. split; [reflexivity|]. split.
      * eapply (coo_rows_of L (L + 1) (Some (L + 2, pw))); eauto.
      * intros p Hp. rewrite F5, OLD; auto. cbn. lia.
    + cbn [bind drop_mem nth].
      destruct (conv_rows_ok L (L + 1) None po pe (S ro) offs es wts n RO)
        with (ord := ord) (h := h1) (xs := ax) (ys := ax) (wz := aw)
        as (h5 & xs & ys & wz & E5 & S5 & F5 & L5 & I5 & _); auto.
      { cbn. lia. }
      { constructor; auto.
        - discriminate.
        - eauto.
        - cbn. repeat constructor; cbn; lia.
        - cbn. split; [lia|discriminate]. }
      cbn [wh] in E5. unfold handle in *. rewrite E5. cbn [bind]. eexists _, _. split; [reflexivity|]. split.
      * eapply (coo_rows_of L (L + 1) None); eauto.
      * intros p Hp. rewrite F5, OLD; auto. cbn. lia.
  - (* vectors, unweighted *)
    specialize (HV eq_refl). unfold wgt in *. clear wgt. rewrite HV in *. cbv iota in *.
    set (h2 := h1 ++ [Live 1 (map (fun o => Some (Z.of_nat o)) offs)]).
    assert (L2 : length h2 = L + 3) by (unfold h2; rewrite app_length; cbn [length]; lia).
    assert (He2 : hblock h2 pe = Live (S re) (map Some es)).
    { unfold h2. rewrite hblock_app_lt by lia. auto. }
    rewrite (copy_mem_ok _ _ _ _ _ He2). cbn [bind nth].
    set (h3 := h2 ++ [Live 1 (map Some es)]).
    assert (L3 : length h3 = L + 4) by (unfold h3; rewrite app_length; cbn [length]; lia).
    assert (B2 : hblock h3 (length h1) = Live 1 (map (fun o => Some (Z.of_nat o)) offs)).
    { unfold h3. rewrite hblock_app_lt by lia. apply hblock_app_new. }
    assert (B3 : hblock h3 (length h2) = Live 1 (map Some es)) by apply hblock_app_new.
    assert (F3 : forall q, q < L + 2 -> hblock h3 q = hblock h1 q).
    { intros q Hq. unfold h3. rewrite hblock_app_lt by lia. apply hblock_app_lt. lia. }
    destruct (conv_rows_ok L (L + 1) None (length h1) (length h2) 1 offs es wts n RO)
        with (ord := ord) (h := h3) (xs := ax) (ys := ax) (wz := aw)
        as (h5 & xs & ys & wz & E5 & S5 & F5 & L5 & I5 & _); auto.
    { cbn. lia. }
    { constructor; auto.
      - rewrite F3 by lia; auto.
      - rewrite F3 by lia; auto.
      - discriminate.
      - eauto.
      - cbn. repeat constructor; cbn; lia.
      - cbn. split; [lia|discriminate]. }
    cbn [wh] in E5. unfold handle in *. rewrite E5. cbn [bind drop_mem release].
    rewrite F5, B3 by (cbn; lia). cbn [bind].
    rewrite hblock_ne by lia. rewrite F5, B2 by (cbn; lia). cbn [bind].
    eexists _, _. split; [reflexivity|]. split.
    + eapply (coo_rows_of L (L + 1) None); eauto.
      intros q Hq. rewrite !hblock_ne; auto; cbn in Hq; lia.
    + intros p Hp. rewrite !hblock_ne by lia. rewrite F5, F3, OLD; auto; try lia. cbn. lia.
  - (* shared pointers *)
    set (h2 := lset h1 po (Live (S (S ro)) (map (fun o => Some (Z.of_nat o)) offs))).
    assert (L2 : length h2 = length h1) by (unfold h2; apply lset_length).
    assert (Lo1 : po < length h1) by lia.
    assert (He2 : hblock h2 pe = Live (S re) (map Some es)).
    { unfold h2. rewrite hblock_ne by auto. auto. }
    rewrite (copy_mem_ok _ _ _ _ _ He2). cbn [bind].
    set (h3 := lset h2 pe (Live (S (S re)) (map Some es))).
    assert (L3 : length h3 = length h1) by (unfold h3; rewrite lset_length; auto).
    assert (Bo3 : hblock h3 po = Live (S (S ro)) (map (fun o => Some (Z.of_nat o)) offs)).
    { unfold h3. rewrite hblock_ne by auto. unfold h2. apply hblock_eq; auto. }
    assert (Be3 : hblock h3 pe = Live (S (S re)) (map Some es)) by (unfold h3; apply hblock_eq; lia).
    assert (F3 : forall q, q <> po -> q <> pe -> hblock h3 q = hblock h1 q).
    { intros. unfold h3, h2. rewrite !hblock_ne; auto. }
    destruct (cwgt c) as [a|] eqn:CW; subst wgt; cbv iota in *.
    + destruct Hw as (pw & rw & -> & Nwo & Nwe & Hpw & Lw).
      pose proof (hblock_lt _ _ _ _ Hpw) as Lpw.
      assert (Hpw3 : hblock h3 pw = Live (S rw) (map Some wts)) by (rewrite F3, OLD; auto).
      rewrite (copy_mem_ok _ _ _ _ _ Hpw3). cbn [bind drop_mem release].
      rewrite hblock_eq by lia. cbn [bind nth].
      set (h4 := lset (lset h3 pw (Live (S (S rw)) (map Some wts))) pw (Live (S rw) (map Some wts))).
      assert (F4 : forall q, hblock h4 q = hblock h3 q).
      { intros q. unfold h4. destruct (Nat.eq_dec pw q) as [<-|N].
        - rewrite hblock_eq by (rewrite lset_length; lia). auto.
        - rewrite !hblock_ne; auto. }
      assert (L4 : length h4 = length h1) by (unfold h4; rewrite !lset_length; auto).
      destruct (conv_rows_ok L (L + 1) (Some (L + 2, pw)) po pe (S (S ro)) offs es wts n RO)
        with (ord := ord) (h := h4) (xs := ax) (ys := ax) (wz := aw)
        as (h5 & xs & ys & wz & E5 & S5 & F5 & L5 & I5 & _); auto.
      { cbn. lia. }
      { constructor; auto.
        - rewrite F4, F3 by lia; auto.
        - rewrite F4, F3 by lia; auto.
        - intros d s0 Eq. inversion Eq; subst d s0. split.
          + rewrite F4, F3 by lia; auto.
          + split; eauto. exists (S rw). rewrite F4; auto.
        - exists (S (S re)). rewrite F4; auto.
        - cbn. repeat constructor; cbn; lia.
        - cbn. split; [lia|]. intros d s0 Eq. inversion Eq; subst. lia. }
      { rewrite F4; auto. }
      cbn [wh] in E5. unfold handle in *. rewrite E5. cbn [bind]. rewrite F5, F4, Be3 by (cbn; lia). cbn [bind].
      rewrite hblock_ne by auto. rewrite F5, F4, Bo3 by (cbn; lia). cbn [bind].
      eexists _, _. split; [reflexivity|]. split.
      * eapply (coo_rows_of L (L + 1) (Some (L + 2, pw))); eauto.
        intros q Hq. rewrite !hblock_ne; auto; cbn in Hq; lia.
      * intros p Hp. destruct (Nat.eq_dec po p) as [<-|N1].
        { rewrite hblock_eq by (rewrite lset_length; lia). auto. }
        rewrite hblock_ne by auto. destruct (Nat.eq_dec pe p) as [<-|N2].
        { rewrite hblock_eq by lia. auto. }
        rewrite hblock_ne by auto. rewrite F5, F4, F3, OLD; auto. cbn; lia.
    + cbn [bind drop_mem release nth].
      destruct (conv_rows_ok L (L + 1) None po pe (S (S ro)) offs es wts n RO)
        with (ord := ord) (h := h3) (xs := ax) (ys := ax) (wz := aw)
        as (h5 & xs & ys & wz & E5 & S5 & F5 & L5 & I5 & _); auto.
      { cbn. lia. }
      { constructor; auto.
        - rewrite F3 by lia; auto.
        - rewrite F3 by lia; auto.
        - discriminate.
        - eauto.
        - cbn. repeat constructor; cbn; lia.
        - cbn. split; [lia|discriminate]. }
      cbn [wh] in E5. unfold handle in *. rewrite E5. cbn [bind]. rewrite F5, Be3 by (cbn; lia). cbn [bind].
      rewrite hblock_ne by auto. rewrite F5, Bo3 by (cbn; lia). cbn [bind].
      eexists _, _. split; [reflexivity|]. split.
      * eapply (coo_rows_of L (L + 1) None); eauto.
        intros q Hq. rewrite !hblock_ne; auto; cbn in Hq; lia.
      * intros p Hp. destruct (Nat.eq_dec po p) as [<-|N1].
        { rewrite hblock_eq by (rewrite lset_length; lia). auto. }
        rewrite hblock_ne by auto. destruct (Nat.eq_dec pe p) as [<-|N2].
        { rewrite hblock_eq by lia. auto. }
        rewrite hblock_ne by auto. rewrite F5, F3, OLD; auto. cbn; lia.
Qed.

Theorem coo_from_csr_vec h s ws c hdr offs es wts n ord :
  csr_in h c offs es wts -> rows_ok offs n (length es) -> Permutation ord (seq 0 n) ->
  ck c = Vec -> cwgt c <> None -> es <> [] ->
  coo_from_csr h s ws c hdr (length es) ord = UB.
Proof.
  intros (po & pe & ro & re & Eo & Ee & Noe & Ho & He & Hw) RO HP K CW NE.
  destruct (cwgt c) as [a|] eqn:EW; [|congruence].
  destruct Hw as (pw & rw & -> & Nwo & Nwe & Hpw & Lw).
  unfold coo_from_csr. rewrite EW, K, Eo, Ee.
  rewrite alloc_fresh by apply kinds_sizes. cbn [bind].
  set (h1 := h ++ _).
  assert (OLD : forall q rc cs, hblock h q = Live rc cs -> hblock h1 q = Live rc cs).
  { intros q rc cs Hq. unfold h1. rewrite hblock_app_lt; auto. eapply hblock_lt; eauto. }
  rewrite (copy_mem_ok _ _ _ _ _ (OLD _ _ _ Ho)). cbn [bind].
  assert (OLD2 : forall q rc cs b, hblock h q = Live rc cs -> hblock (h1 ++ [b]) q = Live rc cs).
  { intros q rc cs b Hq. apply OLD in Hq. rewrite hblock_app_lt; auto. eapply hblock_lt; eauto. }
  rewrite (copy_mem_ok _ _ _ _ _ (OLD2 _ _ _ _ He)). cbn [bind].
  set (h2 := h1 ++ [Live 1 (map (fun o => Some (Z.of_nat o)) offs)]).
  assert (OLD3 : forall q rc cs b, hblock h q = Live rc cs -> hblock (h2 ++ [b]) q = Live rc cs).
  { intros q rc cs b Hq. eapply OLD2 in Hq. fold h2 in Hq. rewrite hblock_app_lt; [exact Hq|].
    eapply hblock_lt; exact Hq. }
  rewrite (copy_mem_ok _ _ _ _ _ (OLD3 _ _ _ _ Hpw)). cbn [bind drop_mem release].
  set (h3 := h2 ++ [Live 1 (map Some es)]).
  rewrite hblock_app_new. cbn [bind].
  set (h4 := lset _ _ _).
  assert (L2 : length h2 = length h1 + 1) by (unfold h2; rewrite app_length; reflexivity).
  assert (L3 : length h3 = length h1 + 2) by (unfold h3; rewrite app_length; cbn [length]; lia).
  rewrite (conv_rows_freed _ _ _ (length h3) (length h1) _ 1 offs); auto.
  - unfold h4. apply hblock_eq. rewrite app_length. cbn [length]. lia.
  - unfold h4. rewrite hblock_ne by lia. rewrite hblock_app_lt by lia. unfold h3.
    rewrite hblock_app_lt by lia. apply hblock_app_new.
  - intros v Hv. eapply Permutation_in in Hv; [|exact HP]. apply in_seq in Hv.
    rewrite (ro_len _ _ _ RO). lia.
  - destruct RO as [Rl Rf Rm Rla].
    assert (X : nth 0 offs 0 < nth n offs 0).
    { rewrite Rf, Rla. destruct es; [congruence|cbn; lia]. }
    clear -X Rm HP.
    assert (Y : exists v, v < n /\ nth v offs 0 < nth (v + 1) offs 0).
    { clear HP. induction n as [|n IH]; [lia|].
      destruct (Nat.lt_ge_cases (nth n offs 0) (nth (S n) offs 0)) as [Z|Z].
      - exists n. rewrite Nat.add_1_r. split; auto.
      - destruct IH as (v & Hv & Z'); [intros; apply Rm; lia|lia|]. exists v. split; auto. }
    destruct Y as (v & Hv & Z). exists v. split; auto.
    eapply Permutation_in; [symmetry; exact HP|]. apply in_seq; lia.
Qed.
