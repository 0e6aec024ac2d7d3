(** * StbLemmas: the text of a floating-point number *)

From Verif Require Import Base Sched Spec SpecDec SpecFp Coo Ascii AsciiLemmas.

Lemma dval_app_pow a b : dval (a ++ b) = (dval a * 10 ^ Z.of_nat (length b) + dval b)%Z.
Proof.
  rewrite dval_app. unfold dval.
  assert (H : forall b v, fold_left (fun a c => a * 10 + (c - ch_0))%Z b v =
     (v * 10 ^ Z.of_nat (length b) + fold_left (fun a c => a * 10 + (c - ch_0))%Z b 0)%Z).
  { clear. induction b as [|c b IH]; intros v; cbn [fold_left length]; [cbn; lia|].
    rewrite (IH (v * 10 + (c - ch_0))%Z), (IH (0 * 10 + (c - ch_0))%Z).
    rewrite Nat2Z.inj_succ, Z.pow_succ_r by lia. lia. }
  apply H.
Qed.

Lemma dval_zeros n : dval (repeat ch_0 n) = 0%Z.
Proof. unfold dval. induction n as [|n IH]; [reflexivity|]. cbn [repeat fold_left]. cbn [Z.sub]. exact IH. Qed.

Lemma dval_range b : all_digits b -> (0 <= dval b < 10 ^ Z.of_nat (length b))%Z.
Proof.
  intros Hd. pose proof (fold_dval_lower b 0 Hd ltac:(lia)) as H. unfold dval. lia.
Qed.

Lemma all_digits_firstn i b : all_digits b -> all_digits (firstn i b).
Proof. unfold all_digits. rewrite <- (firstn_skipn i b) at 1. intros H. apply Forall_app in H. apply H. Qed.
Lemma all_digits_skipn i b : all_digits b -> all_digits (skipn i b).
Proof. unfold all_digits. rewrite <- (firstn_skipn i b) at 1. intros H. apply Forall_app in H. apply H. Qed.
Lemma all_digits_zeros n : all_digits (repeat ch_0 n).
Proof. unfold all_digits. induction n; constructor; auto. Qed.

Lemma dval_firstn i sn : all_digits sn -> i <= length sn ->
  dval (firstn i sn) = (dval sn / 10 ^ Z.of_nat (length sn - i))%Z.
Proof.
  intros Hd Hi. pose proof (dval_range _ (all_digits_skipn i _ Hd)) as Hr. rewrite skipn_length in Hr.
  rewrite <- (firstn_skipn i sn) at 2. rewrite dval_app_pow, skipn_length.
  apply Z.div_unique with (r := dval (skipn i sn)); lia.
Qed.

(** The number with digits [sn] and decimal point at [dp], i.e. 0.sn * 10^dp, in
    units of the sixth decimal, truncated. *)
Definition sixth (sn : list byte) (dp : Z) : Z :=
  let k := (dp - Z.of_nat (length sn) + 6)%Z in
  if (0 <=? k)%Z then (dval sn * 10 ^ k)%Z else (dval sn / 10 ^ (- k))%Z.

Definition wf_real (r : realstr) : Prop :=
  match r with
  | RSpecial _ _ => False
  | RFinite _ sn dp => all_digits sn /\ (sn = [] -> (dp <= 0)%Z)
  end.

Lemma stb_layout a nb neg sn dp : all_digits sn -> (sn = [] -> (dp <= 0)%Z) ->
  exists ip fp, stb_chars a nb (RFinite neg sn dp) = (if neg then [ch_minus] else []) ++ ip ++ ch_dot :: fp /\
    digits ip /\ all_digits fp /\ length fp = 6 /\ dval (ip ++ fp) = sixth sn dp /\
    length ip <= Nat.max (Z.to_nat dp) 1.
Proof.
  intros Hd Hne. cbn [stb_chars]. unfold stb_body, sixth. cbv zeta. set (l := length sn).
  destruct (Z.leb_spec dp 0) as [H0|H0].
  - rewrite !zfill_spec. set (n := Nat.min (Z.to_nat (- dp)) 6).
    set (l' := if 6 <? l + n then 6 - n else l).
    assert (Hl' : l' <= l /\ n + l' <= 6 /\ n <= 6) by (unfold l', n, l; destruct (Nat.ltb_spec 6 (length sn + Nat.min (Z.to_nat (- dp)) 6)); lia).
    exists [ch_0], (repeat ch_0 n ++ firstn l' sn ++ repeat ch_0 (6 - (n + l'))). split; [|split; [|split; [|split; [|split]]]].
    + cbv beta iota; rewrite ?zfill_spec. rewrite <- !app_assoc. reflexivity.
    + split; [discriminate|]. constructor; [reflexivity|constructor].
    + apply Forall_app; split; [apply all_digits_zeros|]. apply Forall_app; split; [apply all_digits_firstn; exact Hd|apply all_digits_zeros].
    + rewrite !app_length, !repeat_length, firstn_length. fold l. lia.
    + rewrite dval_app_pow. change (dval [ch_0]) with 0%Z.
      rewrite dval_app_pow, dval_zeros, dval_app_pow, dval_zeros, repeat_length.
      rewrite dval_firstn by (fold l; auto; lia). fold l.
      destruct (Z.leb_spec 0 (dp - Z.of_nat l + 6)) as [Hk|Hk].
      * assert (l' = l) by (unfold l', n; destruct (Nat.ltb_spec 6 (l + Nat.min (Z.to_nat (- dp)) 6)); lia).
        assert (n = Z.to_nat (- dp)) by (unfold n; lia).
        rewrite H. replace (l - l) with 0 by lia. cbn [Z.of_nat]. rewrite Z.pow_0_r, Z.div_1_r.
        replace (dp - Z.of_nat l + 6)%Z with (Z.of_nat (6 - (n + l))) by lia. lia.
      * destruct (Z_le_gt_dec (- dp) 6) as [H6|H6].
        -- assert (n = Z.to_nat (- dp)) by (unfold n; lia).
           assert (l' = 6 - n) by (unfold l'; destruct (Nat.ltb_spec 6 (l + n)); lia).
           replace (6 - (n + l')) with 0 by lia. cbn [Z.of_nat]. rewrite Z.pow_0_r.
           replace (- (dp - Z.of_nat l + 6))%Z with (Z.of_nat (l - l')) by lia. lia.
        -- assert (n = 6) by (unfold n; lia). assert (l' = 0) by lia.
           rewrite H1, Nat.sub_0_r. pose proof (dval_range _ Hd) as Hr. fold l in Hr.
           rewrite Z.div_small by lia. rewrite Z.div_small; [lia|]. split; [lia|].
           eapply Z.lt_le_trans; [apply Hr|]. apply Z.pow_le_mono_r; lia.
    + cbn [length]. lia.
  - assert (Hl : 1 <= l) by (unfold l; destruct sn; [specialize (Hne eq_refl); lia|cbn; lia]).
    destruct (Z.leb_spec (Z.of_nat l) dp) as [H1|H1].
    + rewrite zfill_spec. replace (Nat.max 1 l) with l by lia. unfold l at 1. rewrite firstn_all. fold l.
      exists (sn ++ repeat ch_0 (Z.to_nat dp - l)), (repeat ch_0 6). split; [|split; [|split; [|split; [|split]]]].
      * cbv beta iota; rewrite ?zfill_spec, <- !app_assoc. replace (firstn l sn) with sn by (unfold l; now rewrite firstn_all); reflexivity.
      * split; [destruct sn; [cbn in l; lia|discriminate]|]. apply Forall_app; split; [exact Hd|apply all_digits_zeros].
      * apply all_digits_zeros.
      * reflexivity.
      * rewrite dval_app_pow, dval_app_pow, !dval_zeros, !repeat_length.
        destruct (Z.leb_spec 0 (dp - Z.of_nat l + 6)) as [Hk|Hk]; [|lia].
        replace (dp - Z.of_nat l + 6)%Z with (Z.of_nat (Z.to_nat dp - l) + 6)%Z by lia.
        rewrite Z.pow_add_r by lia. lia.
      * rewrite app_length, repeat_length. fold l. lia.
    + set (d := Z.to_nat dp). replace (Nat.max 1 d) with d by (unfold d; lia).
      set (l' := if 6 <? l - d then 6 + d else l).
      assert (Hl' : d <= l' /\ l' <= l /\ l' - d <= 6) by (unfold l'; destruct (Nat.ltb_spec 6 (l - d)); unfold d in *; lia).
      exists (firstn d sn), (firstn (l' - d) (skipn d sn) ++ repeat ch_0 (6 - (l' - d))).
      split; [|split; [|split; [|split; [|split]]]].
      * cbv beta iota; rewrite ?zfill_spec, <- !app_assoc. reflexivity.
      * split; [|apply all_digits_firstn; exact Hd]. intros E. apply (f_equal (@length _)) in E. rewrite firstn_length in E.
        fold l in E. cbn [length] in E. unfold d in E. lia.
      * apply Forall_app; split; [apply all_digits_firstn, all_digits_skipn; exact Hd|apply all_digits_zeros].
      * rewrite app_length, repeat_length, firstn_length, skipn_length. fold l. lia.
      * rewrite app_assoc. assert (E : firstn d sn ++ firstn (l' - d) (skipn d sn) = firstn l' sn).
        { rewrite firstn_skipn_comm. replace (d + (l' - d)) with l' by lia.
          rewrite <- (firstn_skipn d (firstn l' sn)) at 2. rewrite firstn_firstn, Nat.min_l by lia. reflexivity. }
        rewrite E, dval_app_pow, dval_zeros, repeat_length, dval_firstn by (fold l; auto; lia). fold l.
        destruct (Z.leb_spec 0 (dp - Z.of_nat l + 6)) as [Hk|Hk].
        -- assert (l' = l) by (unfold l'; destruct (Nat.ltb_spec 6 (l - d)); unfold d in *; lia).
           rewrite H. replace (l - l) with 0 by lia. cbn [Z.of_nat]. rewrite Z.pow_0_r, Z.div_1_r.
           replace (dp - Z.of_nat l + 6)%Z with (Z.of_nat (6 - (l - d))) by (unfold d; lia). lia.
        -- assert (l' = 6 + d) by (unfold l'; destruct (Nat.ltb_spec 6 (l - d)); unfold d in *; lia).
           replace (6 - (l' - d)) with 0 by lia. cbn [Z.of_nat]. rewrite Z.pow_0_r.
           replace (- (dp - Z.of_nat l + 6))%Z with (Z.of_nat (l - l')) by (unfold d in *; lia). lia.
      * rewrite firstn_length. unfold d. lia.
Qed.
