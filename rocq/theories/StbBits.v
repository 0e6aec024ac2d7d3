(** * StbBits: the significant digits as an integer *)

From Coq Require Import ZArith QArith Qabs Qpower Reals Qreals Lqa Lia SpecFloat.
From Flocq Require Import Core.Core BinarySingleNaN.
From Verif Require Import Base SpecFp64 Fp64 Fp64Near Stb StbArith StbExact.
Open Scope Z_scope.

Local Existing Instances Fp64Near.Hprec Fp64Near.Hmax.

Lemma pow2_ge0 e : (0 <= pow2 e)%Q.
Proof. apply Qlt_le_weak, pow2_pos. Qed.
Lemma pow2_mono a b : a <= b -> (pow2 a <= pow2 b)%Q.
Proof.
  intros H. replace b with (a + (b - a)) by lia. rewrite pow2_add, (pow2_Z (b - a)) by lia.
  setoid_replace (pow2 a) with (1 * pow2 a)%Q at 1 by ring. rewrite (Qmult_comm (pow2 a) (inject_Z _)).
  apply Qmult_le_compat_r; [|apply pow2_ge0]. change 1%Q with (inject_Z 1). rewrite <- Zle_Qle.
  assert (0 < 2 ^ (b - a)) by (apply Z.pow_pos_nonneg; lia). lia.
Qed.

Lemma dbl_rounded N : Z.abs N <= 2 ^ 63 -> rounded (dbl N) (inject_Z N).
Proof.
  intros HN. unfold dbl. rewrite normalize_equiv.
  assert (E : F2R (Float radix2 N 0) = Q2R (inject_Z N)).
  { rewrite F2R_Q. apply Qeq_eqR. change (pow2 0) with 1%Q. ring. }
  pose proof (binary_normalize_correct 53 1024 _ _ mode_NE N 0 false) as H. cbv zeta in H. rewrite E in H. rewrite (no_ovf (inject_Z N)) in H.
  - destruct H as (H1 & H2 & _). apply B_rounded; [exact H2|exact H1].
  - change (Qabs (inject_Z N)) with (inject_Z (Z.abs N)). apply Qle_trans with (inject_Z (2 ^ 63)); [rewrite <- Zle_Qle; exact HN|].
    unfold maxd. vm_compute. discriminate.
Qed.

(** Truncation of a double. *)
Lemma dtrunc_dv z q : dv z q -> (Qabs q < inject_Z (2 ^ 62))%Q ->
  exists t, dtrunc z = Ok t /\ Z.abs t < 2 ^ 62 /\ (Qabs (inject_Z t - q) < 1)%Q.
Proof.
  intros (Hz & v & Ev & Eq) Hq. destruct z as [s|s| |s m e]; cbn [sf_value] in Ev; try discriminate; injection Ev as <-.
  - exists 0. split; [reflexivity|]. split; [reflexivity|]. rewrite <- Eq. reflexivity.
  - cbn [dtrunc]. set (a := if 0 <=? e then Zpos m * 2 ^ e else Zpos m / 2 ^ (- e)).
    assert (Ha : 0 <= a /\ (inject_Z a <= inject_Z (Zpos m) * pow2 e)%Q /\ (inject_Z (Zpos m) * pow2 e < inject_Z (a + 1))%Q).
    { unfold a. destruct (Z.leb_spec 0 e) as [He|He].
      - assert (0 < 2 ^ e) by (apply Z.pow_pos_nonneg; lia). split; [nia|]. rewrite (pow2_Z e He), <- inject_Z_mult.
        split; [apply Qle_refl|]. rewrite <- Zlt_Qlt. lia.
      - assert (Hp : 0 < 2 ^ (- e)) by (apply Z.pow_pos_nonneg; lia).
        assert (E1 : (inject_Z (Zpos m) == inject_Z (Zpos m) * pow2 e * inject_Z (2 ^ (- e)))%Q).
        { rewrite <- (pow2_Z (- e)) by lia. rewrite <- Qmult_assoc, <- pow2_add. replace (e + - e) with 0 by lia. change (pow2 0) with 1%Q. ring. }
        assert (Hp' : (0 < inject_Z (2 ^ (- e)))%Q) by (rewrite <- (Zlt_Qlt 0); exact Hp).
        split; [apply Z.div_pos; lia|]. split.
        + apply Qmult_lt_0_le_reg_r with (inject_Z (2 ^ (- e))); [exact Hp'|]. rewrite <- E1, <- inject_Z_mult, <- Zle_Qle.
          rewrite Z.mul_comm. apply Z.mul_div_le. exact Hp.
        + apply Qnot_le_lt. intros C. assert (C2 : (inject_Z (Zpos m / 2 ^ (- e) + 1) * inject_Z (2 ^ (- e)) <= inject_Z (Zpos m))%Q).
          { rewrite E1. apply Qmult_le_compat_r; [exact C|apply Qlt_le_weak; exact Hp']. }
          rewrite <- inject_Z_mult, <- Zle_Qle in C2. pose proof (Z.div_mod (Zpos m) (2 ^ (- e)) ltac:(lia)).
          pose proof (Z.mod_pos_bound (Zpos m) (2 ^ (- e)) Hp). lia. }
    destruct Ha as (A0 & A1 & A2).
    assert (Hb : a < 2 ^ 62).
    { rewrite Zlt_Qlt. eapply Qle_lt_trans; [exact A1|]. eapply Qle_lt_trans; [|exact Hq]. rewrite <- Eq.
      destruct s.
      - setoid_replace (- inject_Z (Zpos m) * pow2 e)%Q with (- (inject_Z (Zpos m) * pow2 e))%Q by ring. rewrite Qabs_opp. apply Qle_Qabs.
      - apply Qle_Qabs. }
    assert (Hz2 : Z.abs (if s then - a else a) < 2 ^ 62) by (destruct s; lia).
    exists (if s then - a else a). split.
    { assert (Hr : inrange i64 (if s then - a else a) = true).
      { unfold inrange. change (imin i64) with (- 2 ^ 63). change (imax i64) with (2 ^ 63 - 1). apply andb_true_intro. split; apply Z.leb_le; change (2 ^ 63) with (2 * 2 ^ 62); lia. }
      rewrite Hr. reflexivity. }
    split; [exact Hz2|]. rewrite <- Eq. rewrite inject_Z_plus in A2. change (inject_Z 1) with 1%Q in A2.
    apply Qabs_Qlt_condition. destruct s; [rewrite inject_Z_opp|]; split; lra.
Qed.

Lemma Qabs_lt_int a b : (Qabs (inject_Z a - inject_Z b) < 1)%Q -> a = b.
Proof.
  intros H. apply Qabs_Qlt_condition in H. destruct H as [H1 H2].
  assert (E : (inject_Z a - inject_Z b == inject_Z (a - b))%Q) by (unfold Zminus; rewrite inject_Z_plus, inject_Z_opp; ring).
  rewrite E in H1, H2. change (- (1))%Q with (inject_Z (-1)) in H1. change 1%Q with (inject_Z 1) in H2. rewrite <- Zlt_Qlt in H1, H2. lia.
Qed.

(** A double from [2^53] on is an integer. *)
Lemma big_double z h : dv z h -> (inject_Z (2 ^ 53) <= h)%Q ->
  exists n j, z = S754_finite false n j /\ 0 <= j /\ Zpos n < 2 ^ 53 /\ j <= 971 /\ (h == inject_Z (Zpos n) * pow2 j)%Q.
Proof.
  intros (Hz & v & Ev & Eq) Hh. destruct z as [s|s| |s m e]; cbn [sf_value] in Ev; try discriminate; injection Ev as <-.
  - exfalso. rewrite <- Eq in Hh. revert Hh. apply Qlt_not_le. reflexivity.
  - destruct (finite_bounds _ _ _ Hz) as (B1 & B2 & _).
    assert (Hm : (0 < inject_Z (Zpos m) * pow2 e)%Q) by (apply Qmult_lt_0_compat; [reflexivity|apply pow2_pos]).
    assert (H53 : (0 < inject_Z (2 ^ 53))%Q) by reflexivity.
    destruct s; [exfalso; rewrite <- Eq in Hh; setoid_replace (- inject_Z (Zpos m) * pow2 e)%Q with (- (inject_Z (Zpos m) * pow2 e))%Q in Hh by ring; lra|].
    exists m, e. split; [reflexivity|]. split; [|split; [exact B1|split; [lia|symmetry; exact Eq]]].
    apply Z.lt_succ_r. apply Znot_ge_lt. intros He. rewrite <- Eq in Hh. revert Hh. apply Qlt_not_le.
    apply Qle_lt_trans with (inject_Z (Zpos m) * pow2 0)%Q.
    + rewrite !(Qmult_comm (inject_Z (Zpos m))). apply Qmult_le_compat_r; [apply pow2_mono; lia|discriminate].
    + change (pow2 0) with 1%Q. rewrite Qmult_1_r, <- Zlt_Qlt. exact B1.
Qed.

Lemma ddtoS64_spec xh xl h l : dv xh h -> dv xl l -> (inject_Z (2 ^ 53) <= h)%Q -> (h < inject_Z (2 ^ 62))%Q -> (Qabs l < inject_Z (2 ^ 61))%Q ->
  exists bits, ddtoS64 xh xl = Ok bits /\ (Qabs (inject_Z bits - (h + l)) < 1)%Q.
Proof.
  intros Dh Dl H1 H2 Hl. destruct (big_double xh h Dh H1) as (n & j & Ex & Hj & Hn & Hj2 & Eh).
  set (N := Zpos n * 2 ^ j). assert (EN : (h == inject_Z N)%Q) by (unfold N; rewrite Eh, inject_Z_mult, (pow2_Z j Hj); reflexivity).
  assert (HN : 0 < N) by (unfold N; apply Z.mul_pos_pos; [lia|apply Z.pow_pos_nonneg; lia]).
  assert (HN2 : N < 2 ^ 62) by (rewrite Zlt_Qlt, <- EN; exact H2).
  assert (Et : dtrunc xh = Ok N).
  { destruct (dtrunc_dv xh h Dh) as (t & Et & _ & Ht).
    - rewrite Qabs_pos; [exact H2|]. rewrite EN. rewrite <- (Zle_Qle 0). lia.
    - rewrite Et. f_equal. apply Qabs_lt_int. rewrite <- EN. exact Ht. }
  unfold ddtoS64. rewrite Et. cbn [bind]. cbv zeta.
  assert (Hj3 : j <= 970). { apply Znot_gt_le. intros C. assert (2 ^ 62 <= 2 ^ j) by (apply Z.pow_le_mono_r; lia). unfold N in HN2. nia. }
  assert (F : forall a, Z.abs a <= 2 ^ 53 -> fits53 a j).
  { intros a Ha. apply (fits_intro _ _ 0); [exists a; split; [rewrite Z.mul_1_r; reflexivity|exact Ha]|lia|lia|lia]. }
  assert (Dx : dv xh (inject_Z (Zpos n) * pow2 j)) by (eapply dv_eq; [exact Eh|exact Dh]).
  assert (Dv : dv (dbl N) (inject_Z (Zpos n) * pow2 j)).
  { eapply dv_eq; [transitivity h; [symmetry; exact EN|exact Eh]|]. apply (rounded_repr _ _ (Zpos n) j); [apply dbl_rounded; change (2 ^ 63) with (2 * 2 ^ 62); lia|rewrite <- EN; exact Eh|lia|lia]. }
  assert (D1 := sub_exact _ _ _ _ _ Dx Dv (F (Zpos n - Zpos n) ltac:(lia))).
  assert (D2 := sub_exact _ _ _ _ _ D1 Dx (F (Zpos n - Zpos n - Zpos n) ltac:(lia))).
  assert (D3 := sub_exact _ _ _ _ _ D1 D2 (F (Zpos n - Zpos n - (Zpos n - Zpos n - Zpos n)) ltac:(lia))).
  assert (D4 := sub_exact _ _ _ _ _ Dx D3 (F (Zpos n - (Zpos n - Zpos n - (Zpos n - Zpos n - Zpos n))) ltac:(lia))).
  assert (D5 := add_exact _ _ _ _ _ Dv D2 (F (Zpos n + (Zpos n - Zpos n - Zpos n)) ltac:(lia))).
  assert (D6 := sub_exact _ _ _ _ _ D4 D5 (F (Zpos n - (Zpos n - Zpos n - (Zpos n - Zpos n - Zpos n)) - (Zpos n + (Zpos n - Zpos n - Zpos n))) ltac:(lia))).
  assert (D7 := add_exact _ _ _ _ _ D1 D6 (F (Zpos n - Zpos n + (Zpos n - (Zpos n - Zpos n - (Zpos n - Zpos n - Zpos n)) - (Zpos n + (Zpos n - Zpos n - Zpos n)))) ltac:(lia))).
  replace (Zpos n - Zpos n + (Zpos n - (Zpos n - Zpos n - (Zpos n - Zpos n - Zpos n)) - (Zpos n + (Zpos n - Zpos n - Zpos n)))) with 0 in D7 by lia.
  assert (D7' := dv_eq _ _ 0%Q (Qmult_0_l _) D7). clear D1 D2 D3 D4 D5 D6 D7.
  match type of D7' with dv ?z _ => set (zz := z) in * end.
  assert (D8 : dv (dadd zz xl) l).
  { destruct xl as [s|s| |s m e] eqn:Exl.
    - pose proof Dl as (_ & v & Ev & Eq). injection Ev as <-.
      eapply dv_eq; [exact Eq|]. destruct D7' as (Z1 & w & Ew & Eqw). destruct zz as [s'|s'| |s' m' e'] eqn:Ezz; cbn [sf_value] in Ew; try discriminate.
      + split; [destruct s, s'; reflexivity|]. exists 0%Q. split; [destruct s, s'; reflexivity|reflexivity].
      + exfalso. injection Ew as <-. assert (0 < inject_Z (Zpos m') * pow2 e')%Q by (apply Qmult_lt_0_compat; [reflexivity|apply pow2_pos]). destruct s'; [|lra].
        setoid_replace (- inject_Z (Zpos m') * pow2 e')%Q with (- (inject_Z (Zpos m') * pow2 e'))%Q in Eqw by ring. lra.
    - destruct Dl as (_ & v & Ev & _). discriminate.
    - destruct Dl as (_ & v & Ev & _). discriminate.
    - assert (Dl' := Dl). destruct Dl' as (Hd & v & Ev & Eq). injection Ev as <-. destruct (finite_bounds _ _ _ Hd) as (B1 & B2 & _).
      assert (El : (l == inject_Z (if s then Z.neg m else Zpos m) * pow2 e)%Q) by (rewrite <- Eq; destruct s; reflexivity).
      eapply dv_eq; [symmetry; exact El|]. pose proof (dv_eq _ _ _ El Dl) as Dl2.
      replace (if s then Z.neg m else Zpos m) with (0 + (if s then Z.neg m else Zpos m)) by lia.
      apply add_exact; [|exact Dl2|].
      + eapply dv_eq; [|exact D7']. change (inject_Z 0) with 0%Q. ring.
      + exists (if s then Z.neg m else Zpos m), 0. split; [lia|]. split; [lia|]. destruct s; (split; [lia|split; [lia|lia]]). }
  destruct (dtrunc_dv _ _ D8) as (t & Ett & Ht1 & Ht2).
  { eapply Qlt_trans; [exact Hl|]. rewrite <- Zlt_Qlt. reflexivity. }
  rewrite Ett. cbn [bind].
  assert (Hr : inrange i64 (N + t) = true).
  { unfold inrange. change (imin i64) with (- 2 ^ 63). change (imax i64) with (2 ^ 63 - 1). apply andb_true_intro. split; apply Z.leb_le; change (2 ^ 63) with (2 * 2 ^ 62); lia. }
  exists (N + t). split.
  - unfold arith. change (ibits i64 <? 32) with false. change (isigned i64) with true. cbn iota. rewrite Hr. reflexivity.
  - rewrite inject_Z_plus. setoid_replace (inject_Z N + inject_Z t - (h + l))%Q with (inject_Z t - l)%Q; [exact Ht2|]. rewrite EN. ring.
Qed.

(** ** Powers of ten from 0 to 22 *)
Lemma bot_entry k : 0 <= k <= 22 -> exists m e, tab bot k = Ok (S754_finite false m e) /\ is_double (S754_finite false m e) /\
  2 ^ 52 <= Zpos m /\ Zpos m mod 2 = 0 /\ -52 <= e <= 22 /\ Zpos m * 2 ^ (e + 52) = 10 ^ k * 2 ^ 52.
Proof.
  intros Hk. assert (K : In k (map Z.of_nat (seq 0 23))).
  { apply in_map_iff. exists (Z.to_nat k). split; [lia|]. apply in_seq. lia. }
  vm_compute in K.
  repeat (destruct K as [<-|K]; [eexists; eexists; split; [vm_compute; reflexivity|]; split; [reflexivity|]; split; [vm_compute; discriminate|]; split; [reflexivity|]; split; [split; vm_compute; discriminate|reflexivity]|]).
  destruct K.
Qed.

(** The estimate for exponents from -16 to 59. *)
Definition est_ok (E : Z) : bool :=
  let k := 18 - tens_est (E + 1023) in
  (0 <=? k) && (k <=? 22) && (10 ^ 17 * 2 ^ 16 <=? 2 ^ (E + 16) * 10 ^ k) && (2 ^ (E + 17) * 10 ^ k <=? 2 * 10 ^ 18 * 2 ^ 16).
Lemma est_range E : -16 <= E <= 59 -> let k := 18 - tens_est (E + 1023) in
  0 <= k <= 22 /\ 10 ^ 17 * 2 ^ 16 <= 2 ^ (E + 16) * 10 ^ k /\ 2 ^ (E + 17) * 10 ^ k <= 2 * 10 ^ 18 * 2 ^ 16.
Proof.
  intros HE k. assert (H : forallb est_ok (map (fun i => Z.of_nat i - 16) (seq 0 76)) = true) by (vm_compute; reflexivity).
  rewrite forallb_forall in H. assert (HI : In E (map (fun i => Z.of_nat i - 16) (seq 0 76))).
  { apply in_map_iff. exists (Z.to_nat (E + 16)). split; [lia|]. apply in_seq. lia. }
  specialize (H E HI). unfold est_ok in H. fold k in H. apply andb_prop in H as [H H4]. apply andb_prop in H as [H H3]. apply andb_prop in H as [H1 H2].
  apply Z.leb_le in H1, H2, H3, H4. split; [lia|]. split; assumption.
Qed.

(** The value [m * 2^e] times [10^k], truncated or not by less than one. *)
Lemma bits_exact m e : is_double (S754_finite false m e) -> 2 ^ 52 <= Zpos m -> -16 <= e + 52 <= 59 ->
  let k := 18 - tens_est (e + 1075) in let P := (inject_Z (Zpos m * 10 ^ k) * pow2 e)%Q in
  (inject_Z (10 ^ 17) <= P)%Q /\ (P < inject_Z (2 * 10 ^ 18))%Q /\
  exists ph pl bits, raise_to_power10 (S754_finite false m e) k = Ok (ph, pl) /\ ddtoS64 ph pl = Ok bits /\ (Qabs (inject_Z bits - P) < 1)%Q.
Proof.
  intros Hd Bm HE k P. destruct (finite_bounds _ _ _ Hd) as (Bm2 & Be & _).
  destruct (est_range (e + 52) HE) as (Hk & K1 & K2). replace (e + 52 + 1023) with (e + 1075) in Hk, K1, K2 by lia. fold k in Hk, K1, K2.
  assert (HP1 : (inject_Z (10 ^ 17) <= P)%Q).
  { unfold P. replace e with (-68 + (e + 68)) by lia. rewrite pow2_shift by lia.
    apply Qmult_lt_0_le_reg_r with (inject_Z (2 ^ 68)); [reflexivity|]. rewrite <- (Qmult_assoc (inject_Z (Zpos m * 10 ^ k * 2 ^ (e + 68)))).
    setoid_replace (pow2 (-68) * inject_Z (2 ^ 68))%Q with 1%Q by reflexivity. rewrite Qmult_1_r, <- inject_Z_mult, <- Zle_Qle.
    apply Z.le_trans with (2 ^ 52 * (2 ^ (e + 52 + 16) * 10 ^ k)); [change (10 ^ 17 * 2 ^ 68) with (2 ^ 52 * (10 ^ 17 * 2 ^ 16)); lia|].
    replace (e + 52 + 16) with (e + 68) by lia. assert (0 < 10 ^ k) by (apply Z.pow_pos_nonneg; lia). assert (0 < 2 ^ (e + 68)) by (apply Z.pow_pos_nonneg; lia). nia. }
  assert (HP2 : (P < inject_Z (2 * 10 ^ 18))%Q).
  { unfold P. replace e with (-68 + (e + 68)) by lia. rewrite pow2_shift by lia.
    apply Qnot_le_lt. intros C. assert (C2 : (inject_Z (2 * 10 ^ 18) * inject_Z (2 ^ 68) <= inject_Z (Zpos m * 10 ^ k * 2 ^ (e + 68)) * pow2 (-68) * inject_Z (2 ^ 68))%Q) by (apply Qmult_le_compat_r; [exact C|discriminate]).
    rewrite <- (Qmult_assoc (inject_Z (Zpos m * 10 ^ k * 2 ^ (e + 68)))) in C2.
    setoid_replace (pow2 (-68) * inject_Z (2 ^ 68))%Q with 1%Q in C2 by reflexivity. rewrite Qmult_1_r, <- inject_Z_mult, <- Zle_Qle in C2.
    assert (K3 : 2 ^ 52 * (2 ^ (e + 52 + 17) * 10 ^ k) <= 2 ^ 52 * (2 * 10 ^ 18 * 2 ^ 16)) by lia.
    replace (e + 52 + 17) with (e + 68 + 1) in K3 by lia. rewrite Z.pow_add_r in K3 by lia.
    assert (0 < 10 ^ k) by (apply Z.pow_pos_nonneg; lia). assert (0 < 2 ^ (e + 68)) by (apply Z.pow_pos_nonneg; lia).
    change (2 * 10 ^ 18 * 2 ^ 68) with (2 ^ 52 * (2 * 10 ^ 18 * 2 ^ 16)) in C2. change (2 ^ 1) with 2 in K3.
    assert (Zpos m * (10 ^ k * 2 ^ (e + 68)) < 2 ^ 53 * (10 ^ k * 2 ^ (e + 68))) by (apply Z.mul_lt_mono_pos_r; [apply Z.mul_pos_pos; lia|exact Bm2]).
    change (2 ^ 53) with (2 ^ 52 * 2) in *. lia. }
  split; [exact HP1|]. split; [exact HP2|].
  destruct (bot_entry k Hk) as (my & ey & Eb & Hy & By & Ey & Bey & Vy).
  destruct (ddmulthi_exact m e my ey Hd Hy Bm By Ey ltac:(lia)) as (n & s & Hs & Hn & Hd2 & Dh & Dl & Rh).
  set (u := e + ey) in *. destruct (ddmulthi (S754_finite false m e) (S754_finite false my ey)) as [h0 l0] eqn:Em. cbn [fst snd] in Dh, Dl, Rh.
  assert (EP : (P == inject_Z (Zpos m * Zpos my) * pow2 u)%Q).
  { unfold P, u. rewrite pow2_add, !inject_Z_mult. assert (V : (inject_Z (10 ^ k) == inject_Z (Zpos my) * pow2 ey)%Q).
    - apply Qmult_inj_r with (inject_Z (2 ^ 52)); [discriminate|]. rewrite <- Qmult_assoc. rewrite <- (pow2_Z 52) at 2 by lia. rewrite <- pow2_add, (pow2_Z (ey + 52)) by lia.
      rewrite <- !inject_Z_mult, Vy. reflexivity.
    - rewrite V. ring. }
  set (PP := Zpos m * Zpos my) in *.
  assert (Esum : (inject_Z (n * 2 ^ s) * pow2 u + inject_Z (PP - n * 2 ^ s) * pow2 u == P)%Q).
  { rewrite EP. unfold Zminus. rewrite inject_Z_plus, inject_Z_opp. ring. }
  assert (PPos : 2 ^ 104 <= PP) by (unfold PP; change (2 ^ 104) with (2 ^ 52 * 2 ^ 52); apply Z.mul_le_mono_nonneg; lia).
  assert (H1000 : (inject_Z (2 * 10 ^ 18) <= maxd)%Q) by (unfold maxd; vm_compute; discriminate).
  (* renormalisation changes nothing *)
  assert (Ds : dv (dadd h0 l0) (inject_Z (n * 2 ^ s) * pow2 u)).
  { eapply rounded_same; [exact Rh| |exact Dh]. apply (rounded_eq _ (inject_Z (n * 2 ^ s) * pow2 u + inject_Z (PP - n * 2 ^ s) * pow2 u)); [rewrite Esum, EP; reflexivity|]. apply add_rounded; [exact Dh|exact Dl|].
    rewrite Esum, Qabs_pos; [lra|]. apply Qle_trans with (inject_Z (10 ^ 17)); [discriminate|exact HP1]. }
  assert (Hfit : fits53 (n * 2 ^ s - n * 2 ^ s) u) by (apply (fits_intro _ _ 0); [exists 0; split; [lia|cbn; lia]|lia|unfold u; lia|unfold u; lia]).
  assert (Dz := sub_exact _ _ _ _ _ Ds Dh Hfit).
  assert (Dl2 : dv (dsub l0 (dsub (dadd h0 l0) h0)) (inject_Z (PP - n * 2 ^ s - (n * 2 ^ s - n * 2 ^ s)) * pow2 u)).
  { apply sub_exact; [exact Dl|exact Dz|]. apply (fits_intro _ _ 0); [exists (PP - n * 2 ^ s); split; [lia|]|lia|unfold u; lia|unfold u; lia].
    assert (2 ^ (s - 1) <= 2 ^ 53) by (destruct Hs; subst s; vm_compute; discriminate). lia. }
  replace (PP - n * 2 ^ s - (n * 2 ^ s - n * 2 ^ s)) with (PP - n * 2 ^ s) in Dl2 by lia.
  assert (Hl : (Qabs (inject_Z (PP - n * 2 ^ s) * pow2 u) <= (1 # 1000) * P)%Q).
  { rewrite EP, Qabs_Qmult, (Qabs_pos (pow2 u)) by apply pow2_ge0. change (Qabs (inject_Z (PP - n * 2 ^ s))) with (inject_Z (Z.abs (PP - n * 2 ^ s))).
    rewrite Qmult_assoc. apply Qmult_le_compat_r; [|apply pow2_ge0]. apply Qle_trans with (inject_Z (2 ^ 53)).
    - rewrite <- Zle_Qle. assert (2 ^ (s - 1) <= 2 ^ 53) by (destruct Hs; subst s; vm_compute; discriminate). lia.
    - apply Qle_trans with ((1 # 1000) * inject_Z (2 ^ 104))%Q; [vm_compute; discriminate|]. rewrite !(Qmult_comm (1 # 1000)). apply Qmult_le_compat_r; [rewrite <- Zle_Qle; exact PPos|discriminate]. }
  destruct (ddtoS64_spec _ _ _ _ Ds Dl2) as (bits & E1 & E2).
  - apply Qabs_Qle_condition in Hl. destruct Hl as [L1 L2]. apply Qle_trans with ((999 # 1000) * inject_Z (10 ^ 17))%Q; [vm_compute; discriminate|lra].
  - apply Qabs_Qle_condition in Hl. destruct Hl as [L1 L2]. apply Qlt_trans with ((1001 # 1000) * inject_Z (2 * 10 ^ 18))%Q; [lra|reflexivity].
  - eapply Qle_lt_trans; [exact Hl|]. apply Qlt_trans with ((1 # 1000) * inject_Z (2 * 10 ^ 18))%Q; [lra|reflexivity].
  - exists (dadd h0 l0), (dsub l0 (dsub (dadd h0 l0) h0)), bits. split; [|split; [exact E1|rewrite Esum in E2; exact E2]].
    unfold raise_to_power10. replace ((0 <=? k) && (k <=? 22)) with true by (symmetry; apply andb_true_intro; split; apply Z.leb_le; lia).
    rewrite Eb. cbn [bind]. rewrite Em. reflexivity.
Qed.
