(** * StbFar: the integer of 18 or 19 digits computed for any double *)

From Coq Require Import ZArith QArith Qabs Qpower Lqa Lia SpecFloat.
From Verif Require Import Base SpecFp64 Fp64 Fp64Near Stb StbArith StbExact StbBits StbCoarse StbRaise StbTables.
Open Scope Z_scope.
Open Scope Q_scope.

Definition d1 : Q := Eval compute in 3 # 2 ^ 70.
Ltac consts2 := unfold d1 in *; consts.

Lemma ten_mono a b : (a <= b)%Z -> ten a <= ten b.
Proof.
  intros H. replace b with (a + (b - a))%Z by lia. rewrite ten_add, (ten_Z (b - a)) by lia. pose proof (ten_pos a).
  setoid_replace (ten a) with (1 * ten a) at 1 by ring. rewrite (Qmult_comm (ten a)). apply Qmult_le_compat_r; [|lra].
  change 1 with (inject_Z 1). rewrite <- Zle_Qle. assert (0 < 10 ^ (b - a))%Z by (apply Z.pow_pos_nonneg; lia). lia.
Qed.
Lemma exact_dd x X D : dv x X -> 0 < X -> 0 <= D -> dd (x, S754_zero false) X cM D.
Proof.
  intros Dx HX HD. exists X, 0. cbn [fst snd]. split; [exact Dx|]. split; [split; [reflexivity|exists 0; split; reflexivity]|].
  assert (0 <= D * X) by (apply Qmult_le_0_compat; lra). consts. split; lra.
Qed.

Lemma raise_far x v E : dv x v -> pow2 E <= v -> v <= pow2 (E + 1) -> (-1074 <= E <= 1023)%Z ->
  let k := (18 - tens_est (E + 1023))%Z in ~ (0 <= k <= 22)%Z ->
  inject_Z (10 ^ 17 + 2) <= v * ten k /\ v * ten k <= inject_Z (2 ^ 62 - 10 ^ 6) /\ ((E < -1022)%Z -> inject_Z (10 ^ 17 + 10 ^ 6) <= v * ten k) /\
  exists p, raise_to_power10 x k = Ok p /\ dd p (v * ten k) cR (if (E <? -1022)%Z then dmax else d1).
Proof.
  intros Dx Hlo Hhi HE k Hk. pose proof (far_all E HE) as F. unfold far_ok in F. fold k in F. cbv zeta in F.
  set (e := Z.abs k) in *. set (et := if (13 <? Z.shiftr (e * 713) 14)%Z then 13%Z else Z.shiftr (e * 713) 14) in *. set (eb := (e - et * 23)%Z) in *.
  apply andb_prop in F as [_ F]. apply Bool.orb_prop in F as [F|F].
  { exfalso. apply Hk. apply andb_prop in F as [F _]. apply andb_prop in F as [F _]. apply andb_prop in F as [F1 F2]. apply Z.leb_le in F1, F2. split; assumption. }
  apply andb_prop in F as [F F3]. apply andb_prop in F as [F1 F2]. apply Qle_bool_imp_le in F1, F2.
  assert (Hv : 0 < v) by (apply Qlt_le_trans with (pow2 E); [apply pow2_pos|exact Hlo]).
  assert (LO : forall T, 0 < T -> pow2 E * T <= v * T) by (intros T HT; apply Qmult_le_compat_r; [exact Hlo|lra]).
  assert (HI : forall T, 0 < T -> v * T <= pow2 (E + 1) * T) by (intros T HT; apply Qmult_le_compat_r; [exact Hhi|lra]).
  pose proof (LO _ (ten_pos k)) as LOk. pose proof (HI _ (ten_pos k)) as HIk.
  assert (B1 : inject_Z (10 ^ 17 + 2) <= v * ten k).
  { eapply Qle_trans; [|eapply Qle_trans; [exact F1|exact LOk]]. rewrite <- Zle_Qle. destruct (E <? -1022)%Z; lia. }
  assert (B2 : v * ten k <= inject_Z (2 ^ 62 - 10 ^ 6)) by (eapply Qle_trans; [exact HIk|exact F2]).
  split; [exact B1|]. split; [exact B2|]. split.
  { intros C. eapply Qle_trans; [|eapply Qle_trans; [exact F1|exact LOk]]. destruct (Z.ltb_spec E (-1022)); [apply Qle_refl|lia]. }
  assert (B3 : 32 * (v * ten k) <= maxd).
  { apply Qle_trans with (32 * inject_Z (2 ^ 62 - 10 ^ 6)); [rewrite !(Qmult_comm 32); apply Qmult_le_compat_r; [exact B2|discriminate]|vm_compute; discriminate]. }
  assert (B4 : 2 <= v * ten k) by (eapply Qle_trans; [|exact B1]; vm_compute; discriminate).
  assert (B5 : 16 * (v * ten k) <= maxd) by lra.
  assert (HP : 0 < v * ten k) by lra.
  assert (N0 : 2 * pow2 (-1022) <= 2) by (vm_compute; discriminate).
  assert (N1 : pow2 (-1022) <= 2 * pow2 (-1022)) by (vm_compute; discriminate).
  unfold raise_to_power10. fold e et eb. cbv zeta.
  apply Bool.orb_prop in F3 as [F3|F3]; repeat (apply andb_prop in F3 as [F3 ?]).
  - (* large numbers *)
    apply Z.ltb_lt in F3. apply Z.leb_le in H3, H2, H1, H4. apply Qle_bool_imp_le in H0.
    destruct (Z.leb_spec 0 k) as [C|_]; [lia|]. cbn [andb]. destruct (Z.ltb_spec k 0) as [_|C]; [|lia].
    assert (HEn : (E <? -1022)%Z = false).
    { apply Z.ltb_ge. apply Z.nlt_ge. intros C. assert (k < 0)%Z by exact F3. unfold k, tens_est in H5. cbv zeta in H5. destruct (Z.ltb_spec (E + 1023 - 1023) 0); [|lia].
      assert (Z.quot ((E + 1023 - 1023) * 617) 2048 <= 0)%Z; [|lia]. rewrite <- (Z.opp_involutive ((E + 1023 - 1023) * 617)), Z.quot_opp_l by discriminate.
      assert (0 <= Z.quot (- ((E + 1023 - 1023) * 617)) 2048)%Z by (apply Z.quot_pos; lia). lia. }
    rewrite HEn.
    assert (Ek : (k = - eb + - (23 * et))%Z) by (unfold eb, e; lia).
    assert (EP : v * ten k == v * ten (- eb) * ten (- (23 * et))) by (rewrite Ek, ten_add; ring).
    pose proof (LO _ (ten_pos (- eb))) as LOb.
    assert (Hb2 : 2 <= v * ten (- eb)) by (eapply Qle_trans; [exact H0|exact LOb]).
    pose proof (HI _ (ten_pos (- eb))) as HIb. apply Qle_bool_imp_le in H.
    assert (Hb3 : 32 * (v * ten (- eb)) <= maxd) by lra. set (X1 := v * ten (- eb)) in *.
    assert (Hvn : pow2 (-1022) <= v) by (eapply Qle_trans; [|exact Hlo]; apply pow2_mono; apply Z.ltb_ge in HEn; exact HEn).
    (* first product *)
    assert (P1 : exists p1, (if (eb =? 0)%Z then Ok (x, S754_zero false)
       else b <- tab negbot (eb - 1) ;; be <- tab negboterr (eb - 1) ;; let '(ph, pl) := ddmulthi x b in Ok (ph, ddmultlos pl x be)) = Ok p1 /\
       dd p1 X1 cM step).
    { destruct (Z.eqb_spec eb 0) as [E0|E0].
      - exists (x, S754_zero false). split; [reflexivity|]. apply exact_dd; [|unfold X1; rewrite E0; change (ten (- 0)) with 1; lra|discriminate].
        apply (dv_eq _ v); [unfold X1; rewrite E0; change (ten (- 0)) with 1; ring|exact Dx].
      - destruct (negbot_table eb ltac:(lia)) as (t & te & my & ey & tev & Et & Ete & En). rewrite Et, Ete. cbn [bind].
        pose proof (first_dd x v t te (ten (- eb)) my ey tev Dx (ten_pos _) Hvn En Hb3 Hb2) as FD. destruct (ddmulthi x t) as [ph pl]. cbn [fst snd] in FD.
        eexists. split; [reflexivity|]. exact FD. }
    destruct P1 as ([ph1 pl1] & -> & P1). cbn [bind]. destruct (Z.eqb_spec et 0) as [E0|E0].
    + cbn [bind]. eexists. split; [reflexivity|]. apply (renorm_dd (ph1, pl1) X1 step) in P1; [|lra|lra|discriminate|discriminate].
      apply dd_eq with X1; [unfold X1; rewrite Ek, E0; rewrite (ten_add (- eb) (- (23 * 0))); change (ten (- (23 * 0))) with 1; ring|].
      apply dd_weaken with cR (step + e95); [lra|apply Qle_refl|discriminate|exact P1].
    + apply (renorm_dd (ph1, pl1) X1 step) in P1; [|lra|lra|discriminate|discriminate]. cbn [fst snd] in P1.
      destruct (ddrenorm ph1 pl1) as [ph2 pl2] eqn:E2.
      destruct (negtop_table et ltac:(lia)) as (t & te & my & ey & tev & Et & Ete & En). rewrite Et, Ete. cbn [bind].
      pose proof (table_dd (ph2, pl2) X1 (step + e95) t te (ten (- (23 * et))) my ey tev P1 ltac:(lra) (ten_pos _) ltac:(lra) ltac:(discriminate) ltac:(discriminate) En) as FD.
      assert (B3' := B3). assert (B4' := B4). rewrite EP in B3', B4'. specialize (FD B3' (or_introl B4')).
      cbn [fst snd] in FD. destruct (ddmulthi ph2 t) as [ph3 pl3]. cbn [fst snd] in FD. cbn [bind]. eexists. split; [reflexivity|].
      apply dd_eq with (X' := v * ten k) in FD; [|symmetry; exact EP].
      apply renorm_dd in FD; [|exact HP|exact B5|discriminate|discriminate]. cbn [fst snd] in FD.
      apply dd_weaken with cR (step + e95 + step + e95); [exact HP|apply Qle_refl|discriminate|exact FD].
  - (* small numbers *)
    apply Z.ltb_lt in F3. apply Z.leb_le in H5, H4, H3, H2. apply Qle_bool_imp_le in H, H0, H1.
    destruct (Z.leb_spec k 22) as [C|_]; [lia|]. rewrite Bool.andb_false_r. destruct (Z.ltb_spec k 0) as [C|_]; [lia|].
    set (D0 := if (E <? -1022)%Z then coarse else fine). set (eb' := Z.min eb 22) in *.
    assert (EP : v * ten k == v * ten eb * ten (23 * et)) by (replace k with (eb + 23 * et)%Z by (unfold eb, e; lia); rewrite ten_add; ring).
    pose proof (LO _ (ten_pos eb')) as LOb. pose proof (HI _ (ten_pos eb')) as HIb. pose proof (HI _ (ten_pos eb)) as HIb2.
    assert (M0 : 2 * pow2 (-1022) <= v * ten eb') by lra.
    assert (M1 : 32 * (v * ten eb') <= maxd) by lra. assert (M2 : 32 * (v * ten eb) <= maxd) by lra.
    assert (Hn0 : 0 < 2 * pow2 (-1022)) by reflexivity.
    assert (M3 : 2 * pow2 (-1022) <= v * ten eb).
    { eapply Qle_trans; [exact M0|]. rewrite !(Qmult_comm v). apply Qmult_le_compat_r; [|lra]. apply ten_mono. unfold eb'. lia. }
    assert (X10 : 0 < v * ten eb') by lra. assert (X20 : 0 < v * ten eb) by lra.
    assert (HD0 : D0 = coarse \/ D0 = fine /\ pow2 (-1022) <= v).
    { unfold D0. destruct (Z.ltb_spec E (-1022)) as [C|C]; [left; reflexivity|right; split; [reflexivity|]]. eapply Qle_trans; [|exact Hlo]. apply pow2_mono. exact C. }
    assert (HD1 : 0 <= D0 /\ D0 + e95 <= dmax /\ D0 + e95 + step + e95 <= dmax /\ D0 + e95 + step + e95 + step + e95 <= (if (E <? -1022)%Z then dmax else d1)).
    { unfold D0. destruct (E <? -1022)%Z; (split; [discriminate|split; [discriminate|split; discriminate]]). }
    clearbody D0. destruct HD1 as (HD1 & HD2 & HD3 & HD4).
    assert (S0 : 0 <= step) by discriminate. assert (S1 : 0 <= e95) by discriminate.
    (* first products *)
    assert (P1 : exists p1, (if (eb =? 0)%Z then Ok (x, S754_zero false)
       else let eb'0 := if (22 <? eb)%Z then 22%Z else eb in
            let e' := (eb - eb'0)%Z in
            b <- tab bot eb'0 ;;
            let '(ph, pl) := ddmulthi x b in
            if (e' =? 0)%Z then Ok (ph, pl)
            else let '(ph, pl) := ddrenorm ph pl in
                 b' <- tab bot e' ;;
                 let '(p2h, p2l) := ddmulthi ph b' in
                 Ok (p2h, ddmultlos p2l b' pl)) = Ok p1 /\ dd p1 (v * ten eb) cM (D0 + e95 + step)).
    { destruct (Z.eqb_spec eb 0) as [E0|E0].
      - exists (x, S754_zero false). split; [reflexivity|]. apply exact_dd; [|exact X20|lra].
        apply (dv_eq _ v); [rewrite E0; change (ten 0) with 1; ring|exact Dx].
      - cbv zeta. replace (if (22 <? eb)%Z then 22%Z else eb) with eb' by (unfold eb'; destruct (Z.ltb_spec 22 eb); lia).
        destruct (bot_table eb' ltac:(unfold eb'; lia)) as (t & my & ey & Et & En). rewrite Et. cbn [bind].
        pose proof (bot_dd x v t (ten eb') my ey D0 Dx Hv (ten_pos _) En M1 HD0) as FD.
        destruct (ddmulthi x t) as [ph pl]. destruct (Z.eqb_spec (eb - eb') 0) as [E1|E1].
        + eexists. split; [reflexivity|]. replace eb with eb' by lia. apply dd_weaken with cM D0; [exact X10|apply Qle_refl|lra|exact FD].
        + apply renorm_dd in FD; [|exact X10|lra|exact HD1|lra]. cbn [fst snd] in FD. destruct (ddrenorm ph pl) as [ph2 pl2].
          destruct (bot_table (eb - eb') ltac:(unfold eb' in *; lia)) as (t2 & my2 & ey2 & Et2 & En2). rewrite Et2. cbn [bind].
          assert (EQ : v * ten eb == v * ten eb' * ten (eb - eb')).
          { setoid_replace (v * ten eb' * ten (eb - eb')) with (v * (ten eb' * ten (eb - eb'))) by ring. rewrite <- ten_add. replace (eb' + (eb - eb'))%Z with eb by lia. reflexivity. }
          pose proof (bot2_dd (ph2, pl2) (v * ten eb') (D0 + e95) t2 (ten (eb - eb')) my2 ey2 FD X10 (ten_pos _) M0 ltac:(lra) HD2 En2) as FD2.
          assert (M2' := M2). rewrite EQ in M2'. specialize (FD2 M2'). cbn [fst snd] in FD2. destruct (ddmulthi ph2 t2) as [ph3 pl3]. cbn [fst snd] in FD2.
          eexists. split; [reflexivity|]. apply dd_eq with (v * ten eb' * ten (eb - eb')); [symmetry; exact EQ|exact FD2]. }
    destruct P1 as ([ph1 pl1] & EP1 & P1). cbv zeta in EP1. rewrite EP1. cbn [bind].
    destruct (Z.eqb_spec et 0) as [E0|E0]; [lia|].
    apply (renorm_dd (ph1, pl1)) in P1; [|exact X20|lra|lra|lra]. cbn [fst snd] in P1.
    destruct (ddrenorm ph1 pl1) as [ph2 pl2] eqn:E2.
    destruct (top_table et ltac:(lia)) as (t & te & my & ey & tev & Et & Ete & En & I1 & I2 & I3). rewrite Et, Ete. cbn [bind].
    pose proof (table_dd (ph2, pl2) (v * ten eb) (D0 + e95 + step + e95) t te (ten (23 * et)) my ey tev P1 X20 (ten_pos _) M3 ltac:(lra) HD3 En) as FD.
    assert (B3' := B3). assert (B4' := B4). rewrite EP in B3', B4'. specialize (FD B3' (or_introl B4')).
    cbn [fst snd] in FD. destruct (ddmulthi ph2 t) as [ph3 pl3]. cbn [fst snd] in FD. cbn [bind]. eexists. split; [reflexivity|].
    apply dd_eq with (X' := v * ten k) in FD; [|symmetry; exact EP].
    apply renorm_dd in FD; [|exact HP|exact B5|lra|]. cbn [fst snd] in FD.
    + apply dd_weaken with cR (D0 + e95 + step + e95 + step + e95); [exact HP|apply Qle_refl|exact HD4|exact FD].
    + eapply Qle_trans; [|eapply Qle_trans; [exact HD4|]]; [lra|]. destruct (E <? -1022)%Z; discriminate.
Qed.
