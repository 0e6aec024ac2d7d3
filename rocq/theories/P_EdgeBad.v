(** * Properties C09-C11, C43: edge lists outside the grammar, integer parsing *)

From Coq Require Import String.
From Verif Require Import Base Reader Sched Spec SpecFp Coo WeightLemmas ElSpec ElFinal ElThms ElExamples Safe Arb ElBad.
Open Scope list_scope.
Open Scope string_scope.
Notation length := List.length.

(** C43: every byte string.  [k] is the number of entries; it must fit the
    ordinal type, in which the code computes the allocation. *)
Theorem C43_arbitrary_bytes : forall L O fl s pg T,
  is_ity L -> isigned L = false -> is_ity O -> off_page pg s -> 1 <= T ->
  exists k, k <= 2 * T * length s /\
    ((Z.of_nat k <= imax O)%Z -> forall sched, exists c : coo unit,
       read_el L O None fl (mkMem s pg) 0 (length s) T sched = Ok c /\ co_m c = Z.of_nat k /\
       length (co_x c) = k /\ length (co_y c) = k).
Proof.
  intros L O fl s pg T HL Hu HO Hpg HT.
  exact (read_el_total L O (or_introl Hu) HO fl (mkMem s pg) (slack_off_page _ _ Hpg) T HT 0 (Nat.le_0_l _)).
Qed.
Print Assumptions C43_arbitrary_bytes.

Example C43_applies : exists c : coo unit,
  read_el u8 u32 None (mkFlags true false true) (mkMem (bs "x 3%1 2 -7 999 4#") 4096) 0
    (length (bs "x 3%1 2 -7 999 4#")) 3 [1;2;0] = Ok c.
Proof.
  destruct (C43_arbitrary_bytes u8 u32 (mkFlags true false true) (bs "x 3%1 2 -7 999 4#") 4096 3) as (k & Hk & H);
    [cbn; auto|reflexivity|cbn; auto|split; [apply Nat.ltb_lt; reflexivity|vm_compute; discriminate]|lia|].
  destruct (H ltac:(vm_compute in Hk; change (imax u32) with 4294967295%Z; lia) [1;2;0]) as (c & E & _). eauto.
Qed.

(** C09: a size that is a multiple of the page size is read past the mapping,
    whatever the contents, the types, the flags and the team size; by C43 no
    other size is. *)
Theorem C09_page_multiple_overrun : forall (W : Type) L O (wr : option (wrd W)) fl s pg T sched,
  0 < pg -> length s mod pg = 0 -> 1 <= T ->
  read_el L O wr fl (mkMem s pg) 0 (length s) T sched = UB.
Proof. intros W L O wr fl s pg T sched. apply page_multiple_ub. Qed.
Print Assumptions C09_page_multiple_overrun.

(** Any other size, any contents: as long as the ordinal type can count the
    entries of a file of that size, the read is defined and returns. *)
Theorem C09_other_sizes : forall L O fl s pg T sched,
  is_ity L -> isigned L = false -> is_ity O -> 1 <= T ->
  0 < pg -> length s mod pg <> 0 -> (Z.of_nat (2 * T * length s) <= imax O)%Z ->
  exists c : coo unit, read_el L O None fl (mkMem s pg) 0 (length s) T sched = Ok c.
Proof.
  intros L O fl s pg T sched HL Hu HO HT Hpg Hmod Hk.
  destruct (C43_arbitrary_bytes L O fl s pg T HL Hu HO (conj Hpg Hmod) HT) as (k & Hle & H).
  destruct (H ltac:(lia) sched) as (c & E & _). eauto.
Qed.
Print Assumptions C09_other_sizes.

Example C09_applies :
  let f := mkEl [] [mkLine (bs "10") (bs " ") (bs "2000") [] []] in
  wf_el f /\ length (el_text f) mod 4 = 0 /\
  read_el u32 u32 (W := unit) None no_flags (mkMem (el_text f) 4) 0 (length (el_text f)) 2 [] = UB.
Proof.
  split.
  - split; [apply gap_nil|]. repeat split; try digits_t; try discriminate; repeat constructor.
  - split; [reflexivity|]. apply C09_page_multiple_overrun; [lia|reflexivity|lia].
Qed.

(** C10: a weighted read whose last entry is dropped by the flags stores a
    weight past the end of the weight array, for every team size and every
    interleaving. *)
Theorem C10_weighted_drop_overrun : forall k L O fl f ws x y w pg T sched,
  wf_kind k -> weights_are k f ws -> is_ity L -> is_ity O -> wf_el f -> labels_fit (imax L - 1) f ->
  (Z.of_nat (length (stored fl (triples f ws))) <= imax O)%Z -> off_page pg (el_text f) -> 1 <= T ->
  last (map Some (triples f ws)) None = Some (x, y, w) ->
  (f_sl fl = true /\ x = y) \/ (f_ut fl = true /\ f_sym fl = false /\ (y < x)%Z) ->
  read_el L O (Some (wreader k)) fl (mkMem (el_text f) pg) 0 (length (el_text f)) T sched = UB.
Proof.
  intros k L O fl f ws x y w pg T sched Hk Hws HL HO Hwf Hfit Hcnt Hpg HT Hl Hd.
  apply (drop_last_ub L O (wreader k) fl f ws pg HL HO Hwf (weights_len k f ws Hws) Hfit Hcnt Hpg
          (wend_kind k Hk) (owok_some k f ws Hk Hws) T HT).
  exists (x, y, w). split; [exact Hl|]. unfold expand. destruct Hd as [[-> ->]|(-> & -> & Hlt)].
  - rewrite Z.eqb_refl. reflexivity.
  - destruct (Z.ltb_spec y x); [|lia]. destruct (f_sl fl && (x =? y)%Z); reflexivity.
Qed.
Print Assumptions C10_weighted_drop_overrun.

Example C10_applies :
  read_el u32 u32 (Some (wr_signed i32)) (mkFlags false false true) (mkMem (el_text ex_elw) 4096) 0
    (length (el_text ex_elw)) 2 [1;0;1] = UB.
Proof.
  apply (C10_weighted_drop_overrun (WSigned i32) u32 u32 (mkFlags false false true) ex_elw [-12; 7; 4]%Z 2%Z 2%Z 4%Z);
    try exact ex_elw_weights; try exact ex_elw_wf; try exact ex_elw_fit; try exact ex_elw_off; try (cbn; auto 8; fail).
  - split; cbn; auto 9.
  - vm_compute; discriminate.
Qed.

(** C11: integer parsing.  [numeral_at m e d junk ds]: the text at [d], up to
    the end [e] of the reader, starts with non-digits [junk] and then the
    maximal digit run [ds]. *)
Theorem C11_read_int_modular : forall m t e d junk ds,
  is_ity t -> (isigned t = false \/ ibits t < 32)%Z -> numeral_at m e d junk ds ->
  exists v, read_int m t e d = Ok (v, d + length junk + length ds) /\
    (imin t <= v <= imax t)%Z /\ (v mod 2 ^ ibits t = dval ds mod 2 ^ ibits t)%Z.
Proof.
  intros m t e d junk ds Hi Ht Hn. rewrite (numeral_value _ _ _ _ _ _ Hi Hn). exists (wrap t (dval ds)).
  pose proof (ity_bits t Hi) as Hb. split; [|split].
  - destruct (isigned t) eqn:Es; [|reflexivity]. destruct Ht as [Ht|Ht]; [discriminate|].
    destruct (Z.leb_spec 32 (ibits t)); [lia|reflexivity].
  - unfold wrap, imin, imax. pose proof (Z.mod_pos_bound (dval ds) (2 ^ ibits t) ltac:(apply Z.pow_pos_nonneg; lia)) as B1.
    pose proof (Z.mod_pos_bound (dval ds + 2 ^ (ibits t - 1)) (2 ^ ibits t) ltac:(apply Z.pow_pos_nonneg; lia)) as B2.
    assert (E2 : (2 ^ ibits t = 2 * 2 ^ (ibits t - 1))%Z).
    { replace (ibits t) with (1 + (ibits t - 1))%Z at 1 by lia. rewrite Z.pow_add_r by lia. reflexivity. }
    destruct (isigned t); lia.
  - apply wrap_mod. lia.
Qed.
Print Assumptions C11_read_int_modular.

Theorem C11_read_int_signed : forall m t e d junk ds,
  is_ity t -> isigned t = true -> (32 <= ibits t)%Z -> numeral_at m e d junk ds ->
  ((dval ds <= imax t)%Z -> read_int m t e d = Ok (dval ds, d + length junk + length ds)) /\
  ((imax t < dval ds)%Z -> read_int m t e d = UB).
Proof.
  intros m t e d junk ds Hi Hs Hb Hn. rewrite (numeral_value _ _ _ _ _ _ Hi Hn), Hs.
  destruct (Z.leb_spec 32 (ibits t)); [|lia]. cbn [andb].
  destruct (Z.leb_spec (dval ds) (imax t)); split; intros; try reflexivity; lia.
Qed.
Print Assumptions C11_read_int_signed.

Example C11_applies : numeral_at (mkMem (bs "ab 00300 x") 16) 10 1 (bs "b ") (bs "00300") /\
  read_int (mkMem (bs "ab 00300 x") 16) u8 10 1 = Ok (44%Z, 8) /\
  read_int (mkMem (bs "ab 00300 x") 16) i32 10 1 = Ok (300%Z, 8).
Proof.
  split; [|split; reflexivity]. exists (bs "a"), (bs " x"), []. repeat split; try (repeat constructor; fail).
  right. split; [discriminate|]. eexists _, _. split; [reflexivity|reflexivity].
Qed.
