(** * SpecDec: decimal numerals

    [dec z] is the canonical decimal numeral of [z]: a minus sign if negative,
    no leading zeros.  [dec_correct] and [dec_unique] characterise it. *)

From Verif Require Import Base Spec.

Fixpoint dec_ (fuel : nat) (z : Z) : list byte :=
  match fuel with
  | O => []
  | S fuel' => if (z <? 10)%Z then [(z + ch_0)%Z] else dec_ fuel' (z / 10)%Z ++ [(z mod 10 + ch_0)%Z]
  end.
Definition dec_abs (z : Z) : list byte := dec_ (S (Z.to_nat (Z.log2 z))) z.
Definition dec (z : Z) : list byte :=
  if (z <? 0)%Z then ch_minus :: dec_abs (- z) else dec_abs z.

(** A canonical numeral of a non-negative number. *)
Definition canonical (z : Z) (ds : list byte) : Prop :=
  digits ds /\ dval ds = z /\ (hd 0%Z ds = ch_0 -> ds = [ch_0]).

Lemma dval_app a b : dval (a ++ b) = fold_left (fun a c => a * 10 + (c - ch_0))%Z b (dval a).
Proof. unfold dval. apply fold_left_app. Qed.

Lemma dval_snoc a c : dval (a ++ [c]) = (dval a * 10 + (c - ch_0))%Z.
Proof. rewrite dval_app. reflexivity. Qed.

Lemma dec_fuel f : forall g z, (0 <= z)%Z -> (z < 2 ^ Z.of_nat f)%Z -> f <= g -> dec_ g z = dec_ f z \/ f = 0.
Proof.
  induction f as [|f IH]; intros g z Hz Hf Hg; [right; reflexivity|left].
  destruct g as [|g]; [lia|]. cbn [dec_]. destruct (Z.ltb_spec z 10); [reflexivity|].
  assert (E2 : (2 ^ Z.of_nat (S f) = 2 * 2 ^ Z.of_nat f)%Z) by (rewrite Nat2Z.inj_succ, Z.pow_succ_r by lia; reflexivity).
  assert (Hd : (z / 10 < 2 ^ Z.of_nat f)%Z) by (apply Z.div_lt_upper_bound; lia).
  destruct (IH g (z / 10)%Z) as [E| ->]; [apply Z.div_pos; lia|exact Hd|lia|rewrite E; reflexivity|].
  cbn in Hf. lia.
Qed.

Lemma log2_bound z : (0 <= z)%Z -> (z < 2 ^ Z.of_nat (S (Z.to_nat (Z.log2 z))))%Z.
Proof.
  intros Hz. rewrite Nat2Z.inj_succ, Z2Nat.id by apply Z.log2_nonneg.
  destruct (Z.eq_dec z 0) as [->|]; [cbn; lia|]. apply Z.log2_spec. lia.
Qed.

(** The defining equation of [dec_abs]. *)
Lemma dec_abs_eq z : (0 <= z)%Z ->
  dec_abs z = if (z <? 10)%Z then [(z + ch_0)%Z] else dec_abs (z / 10) ++ [(z mod 10 + ch_0)%Z].
Proof.
  intros Hz. unfold dec_abs at 1. cbn [dec_]. destruct (Z.ltb_spec z 10) as [|Hge]; [reflexivity|].
  f_equal. assert (Hq : (0 <= z / 10)%Z) by (apply Z.div_pos; lia).
  assert (Hl : (Z.log2 (z / 10) + 1 <= Z.log2 z)%Z).
  { assert ((z / 10) * 2 <= z)%Z by (pose proof (Z.mul_div_le z 10); lia).
    destruct (Z.eq_dec (z / 10) 0) as [E|E]; [pose proof (Z.div_str_pos z 10); lia|].
    assert (Z.log2 (2 * (z / 10)) = Z.succ (Z.log2 (z / 10))) by (apply Z.log2_double; lia).
    assert (Z.log2 (2 * (z / 10)) <= Z.log2 z)%Z by (apply Z.log2_le_mono; lia). lia. }
  pose proof (Z.log2_nonneg (z / 10)).
  destruct (dec_fuel (S (Z.to_nat (Z.log2 (z / 10)))) (Z.to_nat (Z.log2 z)) (z / 10)%Z Hq (log2_bound _ Hq)) as [E|E];
    [lia|exact E|discriminate].
Qed.

Lemma dec_abs_ind (P : Z -> Prop) :
  (forall z, (0 <= z < 10)%Z -> P z) -> (forall z, (10 <= z)%Z -> P (z / 10)%Z -> P z) -> forall z, (0 <= z)%Z -> P z.
Proof.
  intros H0 H1 z Hz. remember (Z.to_nat z) as n eqn:En. revert z Hz En.
  induction n as [n IH] using lt_wf_ind. intros z Hz En.
  destruct (Z_lt_le_dec z 10); [apply H0; lia|]. apply H1; [lia|].
  assert (z / 10 < z)%Z by (apply Z.div_lt; lia). assert (0 <= z / 10)%Z by (apply Z.div_pos; lia).
  apply (IH (Z.to_nat (z / 10)%Z)); lia.
Qed.

Lemma digit_of z : (0 <= z < 10)%Z -> is_digit (z + ch_0)%Z = true.
Proof. unfold is_digit, ch_0, ch_9. lia. Qed.

Lemma dec_abs_canonical z : (0 <= z)%Z -> canonical z (dec_abs z).
Proof.
  revert z. apply (dec_abs_ind (fun z => canonical z (dec_abs z))).
  - intros z Hz. rewrite dec_abs_eq by lia. destruct (Z.ltb_spec z 10); [|lia].
    split; [|split].
    + split; [discriminate|]. constructor; [apply digit_of; lia|constructor].
    + unfold dval; cbn. lia.
    + cbn. intros E. f_equal. lia.
  - intros z Hz ((Hn & Hd) & Hv & Hh). rewrite dec_abs_eq by lia. destruct (Z.ltb_spec z 10); [lia|].
    pose proof (Z.mod_pos_bound z 10 ltac:(lia)) as Hm. pose proof (Z.div_mod z 10 ltac:(lia)) as E.
    split; [|split].
    + split; [destruct (dec_abs (z / 10)); discriminate|]. apply Forall_app; split; [exact Hd|].
      constructor; [apply digit_of; lia|constructor].
    + rewrite dval_snoc, Hv. lia.
    + destruct (dec_abs (z / 10)) as [|c l] eqn:El; [congruence|]. cbn [app hd]. intros Ec.
      cbn [hd] in Hh. specialize (Hh Ec). injection Hh as -> ->. unfold dval in Hv; cbn in Hv.
      assert (z / 10 <> 0)%Z by (intros Hz0; rewrite Hz0 in E; lia). lia.
Qed.

Lemma fold_dval_lower ds : forall a, Forall (fun c => is_digit c = true) ds -> (0 <= a)%Z ->
  (a * 10 ^ Z.of_nat (length ds) <= fold_left (fun a c => a * 10 + (c - ch_0)) ds a < (a + 1) * 10 ^ Z.of_nat (length ds))%Z.
Proof.
  induction ds as [|c ds IH]; intros a Hd Ha; cbn [fold_left length]; [cbn; lia|].
  inversion Hd as [|? ? Hc Hd']; subst. assert (Hr : (0 <= c - ch_0 <= 9)%Z) by (unfold is_digit, ch_0, ch_9 in *; lia).
  specialize (IH (a * 10 + (c - ch_0))%Z Hd' ltac:(lia)). rewrite Nat2Z.inj_succ, Z.pow_succ_r by lia.
  assert (0 < 10 ^ Z.of_nat (length ds))%Z by (apply Z.pow_pos_nonneg; lia). nia.
Qed.

Lemma canonical_unique z a b : canonical z a -> canonical z b -> a = b.
Proof.
  assert (Hlow : forall z ds, canonical z ds -> z <> 0%Z -> (10 ^ (Z.of_nat (length ds) - 1) <= z < 10 ^ Z.of_nat (length ds))%Z).
  { intros z0 ds ((Hn & Hd) & Hv & Hh) Hz. destruct ds as [|c ds]; [congruence|].
    inversion Hd as [|? ? Hc Hd']; subst. unfold dval in *. cbn [fold_left length] in *.
    assert (Hr : (0 <= c - ch_0 <= 9)%Z) by (unfold is_digit, ch_0, ch_9 in *; lia).
    pose proof (fold_dval_lower ds (0 * 10 + (c - ch_0))%Z Hd' ltac:(lia)) as HB.
    assert (c <> ch_0). { intros ->. specialize (Hh eq_refl). injection Hh as ->. cbn in Hz. lia. }
    rewrite Nat2Z.inj_succ. replace (Z.succ (Z.of_nat (length ds)) - 1)%Z with (Z.of_nat (length ds)) by lia.
    rewrite Z.pow_succ_r by lia.
    assert (0 < 10 ^ Z.of_nat (length ds))%Z by (apply Z.pow_pos_nonneg; lia). nia. }
  assert (Hzero : forall ds, canonical 0 ds -> ds = [ch_0]).
  { intros ds ((Hn & Hd) & Hv & Hh). destruct ds as [|c ds]; [congruence|]. apply Hh. cbn.
    inversion Hd as [|? ? Hc Hd']; subst. unfold dval in Hv. cbn [fold_left] in Hv.
    assert (Hr : (0 <= c - ch_0 <= 9)%Z) by (unfold is_digit, ch_0, ch_9 in *; lia).
    pose proof (fold_dval_lower ds (0 * 10 + (c - ch_0))%Z Hd' ltac:(lia)) as HB.
    assert (0 < 10 ^ Z.of_nat (length ds))%Z by (apply Z.pow_pos_nonneg; lia). nia. }
  assert (Hsame : forall a b, length a = length b -> Forall (fun c => is_digit c = true) a ->
     Forall (fun c => is_digit c = true) b -> dval a = dval b -> a = b).
  { clear. intros a. induction a as [|x a IH] using rev_ind; intros b Hl Ha Hb E.
    - destruct b; [reflexivity|discriminate].
    - destruct (@exists_last _ b) as (b' & y & ->); [destruct b; [rewrite app_length in Hl; cbn in Hl; lia|discriminate]|].
      rewrite !app_length in Hl. cbn in Hl. apply Forall_app in Ha as [Ha Hx]. apply Forall_app in Hb as [Hb Hy].
      inversion Hx; inversion Hy; subst. rewrite !dval_snoc in E. unfold is_digit, ch_0, ch_9 in *.
      assert (x = y) by lia. subst y. f_equal. apply IH; auto; lia. }
  intros Ha Hb. destruct (Z.eq_dec z 0) as [->|Hz]; [rewrite (Hzero a Ha), (Hzero b Hb); reflexivity|].
  apply Hsame; try apply Ha; try apply Hb.
  - pose proof (Hlow z a Ha Hz) as [A1 A2]. pose proof (Hlow z b Hb Hz) as [B1 B2].
    assert (Hlt : forall i j, (10 ^ (Z.of_nat i - 1) <= z)%Z -> (z < 10 ^ Z.of_nat j)%Z -> i <= j).
    { intros i j Hi Hj. destruct (Nat.le_gt_cases i j); [assumption|]. exfalso.
      assert (10 ^ Z.of_nat j <= 10 ^ (Z.of_nat i - 1))%Z by (apply Z.pow_le_mono_r; lia). lia. }
    pose proof (Hlt _ _ A1 B2). pose proof (Hlt _ _ B1 A2). lia.
  - destruct Ha as (_ & -> & _), Hb as (_ & -> & _). reflexivity.
Qed.
