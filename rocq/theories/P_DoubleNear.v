(** * Property C56, continued: decimal weights of type [double]

    The theorems of this file use the axioms of the standard library's real
    numbers (through Flocq's proofs that the operations of [SpecFloat] round to
    nearest); see [Print Assumptions]. *)

From Coq Require Import QArith Qabs Qpower Lqa SpecFloat.
From Verif Require Import Base Reader Spec SpecFp SpecFp64 ReaderLemmas Coo CooLemmas WeightLemmas ElSpec ElFinal
  Fp64 Fp64Lemmas Fp64Near Fp64Err P_Float P_Double.
Close Scope Q_scope.
Open Scope Z_scope.

(** ** What is assumed of [std::pow(10., z)] *)

(** For a power of ten that is a double, that double. *)
Definition pow_exact (pw : spec_float -> spec_float) : Prop := forall x z,
  is_double x -> denotes x (inject_Z z) -> 0 <= z <= 22 -> is_double (pw x) /\ denotes (pw x) (pow10 z).

(** A relative error of at most 2^-52 (an error below one unit in the last
    place). *)
Definition pow_accurate (pw : spec_float -> spec_float) : Prop := forall x z,
  is_double x -> denotes x (inject_Z z) -> -280 <= z <= 280 ->
  is_double (pw x) /\ exists p, denotes (pw x) p /\ (Qabs (p - pow10 z) <= pow2 (-52) * pow10 z)%Q.

(** ** The parts of a literal *)
Lemma fold_double pw ds : all_digits ds -> dval ds <= 2 ^ 53 ->
  is_double (fp_fold (fp_double pw) ds) /\ denotes (fp_fold (fp_double pw) ds) (inject_Z (dval ds)).
Proof.
  intros Hd HB. apply (is_int_denotes 53 1024); [lia|lia|assert (0 <= dval ds) by (apply dval_nonneg; exact Hd); lia|].
  exact (fold_integers (fp_double pw) _ _ ds (double_integers pw) Hd HB).
Qed.
Lemma exp_double pw s ds : all_digits ds -> dval ds <= 2 ^ 53 ->
  is_double (fp_signed (fp_double pw) s (fp_fold (fp_double pw) ds)) /\
  denotes (fp_signed (fp_double pw) s (fp_fold (fp_double pw) ds)) (inject_Z (if neg_of s then - dval ds else dval ds)).
Proof.
  intros Hd HB. assert (0 <= dval ds) by (apply dval_nonneg; exact Hd).
  pose proof (fold_integers (fp_double pw) _ _ ds (double_integers pw) Hd HB) as Hi.
  apply (is_int_denotes 53 1024); [lia|lia|destruct (neg_of s); lia|].
  unfold fp_signed. destruct (neg_of s); [|exact Hi].
  destruct (double_integers pw) as (_ & _ & Ho). apply Ho; [exact Hi|lia].
Qed.
Lemma of_nat_double n : (n <= 1000)%nat -> is_double (dbl (Z.of_nat n)) /\ denotes (dbl (Z.of_nat n)) (inject_Z (Z.of_nat n)).
Proof. intros H. apply (is_int_denotes 53 1024); [lia|lia|lia|left; reflexivity]. Qed.

Lemma lit_read F f pre c post pg e :
  wf_fplit f -> is_fp c = false -> (length (pre ++ fplit_text f) <= e)%nat ->
  read_fp F (mkMem (pre ++ fplit_text f ++ c :: post) pg) e (length pre) = Ok (fp_value F f, length (pre ++ fplit_text f)).
Proof.
  intros Hf Hc He. rewrite app_length in He |- *.
  pose proof (has_all (mkMem (pre ++ fplit_text f ++ c :: post) pg)) as Hh. cbn [bytes] in Hh.
  apply has_app in Hh as [_ Hh]. cbn [plus] in Hh. pose proof Hh as Hh2. apply has_app in Hh as [Hh _]. apply has_app in Hh2 as [_ Hh2].
  apply read_fp_at with (c := c); auto. eapply load_has. exact Hh2.
Qed.

Lemma signed_rounded pw s x q : rounded x q -> (Qabs q <= pow2 999)%Q ->
  rounded (fp_signed (fp_double pw) s x) (if neg_of s then - q else q)%Q.
Proof. intros R Hq. unfold fp_signed. destruct (neg_of s); [|exact R]. apply (rounded_neg x q R Hq). Qed.

Lemma pow10_pos z : (0 < pow10 z)%Q.
Proof. apply Qpower_0_lt. reflexivity. Qed.
Lemma pow10_le a b : a <= b -> (pow10 a <= pow10 b)%Q.
Proof. intros H. apply Qpower_le_compat_l; [exact H|vm_compute; discriminate]. Qed.
Lemma pow2_le a b : a <= b -> (pow2 a <= pow2 b)%Q.
Proof. intros H. apply Qpower_le_compat_l; [exact H|vm_compute; discriminate]. Qed.
Lemma pow10_opp z : (pow10 (- z) == / pow10 z)%Q.
Proof. apply Qpower_opp. Qed.

(** A fraction without integer part (".5", "0.0125", "-0.3"), of at most 22
    decimals that form an integer of at most 2^53, is read as the double nearest
    to it. *)
Theorem C56_double_fraction_nearest : forall pw s ip ds pre c post pg e,
  pow_exact pw -> all_digits ip -> dval ip = 0 -> digits ds -> dval ds <= 2 ^ 53 -> (length ds <= 22)%nat -> is_fp c = false ->
  let f := mkFplit s ip (Some ds) None in
  (length (pre ++ fplit_text f) <= e)%nat ->
  exists v, read_fp (fp_double pw) (mkMem (pre ++ fplit_text f ++ c :: post) pg) e (length pre) = Ok (v, length (pre ++ fplit_text f)) /\
    nearest is_double v (fplit_value f).
Proof.
  intros pw s ip ds pre c post pg e Hpw Hip H0 Hds HB Hlen Hc f He.
  assert (Hf : wf_fplit f).
  { split; [exact Hip|]. split; [apply Hds|]. split; [right; exists ds; split; [reflexivity|apply Hds]|exact I]. }
  exists (fp_value (fp_double pw) f). split; [apply lit_read; assumption|]. apply rounded_nearest.
  destruct (of_nat_double (length ds)) as [Hn Dn]; [lia|]. destruct (Hpw _ _ Hn Dn) as [Hp Dp]; [lia|].
  destruct (fold_double pw ds (proj2 Hds) HB) as [Hb Db].
  assert (0 <= dval ds) by (apply dval_nonneg; apply Hds).
  pose proof (pow10_pos (Z.of_nat (length ds))) as P0.
  assert (Hq : (0 <= inject_Z (dval ds) / pow10 (Z.of_nat (length ds)) <= inject_Z (2 ^ 53))%Q).
  { assert (0 <= inject_Z (dval ds) <= inject_Z (2 ^ 53))%Q by (change 0%Q with (inject_Z 0); rewrite <- !Zle_Qle; split; lia).
    assert (P1 : (1 <= pow10 (Z.of_nat (length ds)))%Q) by (change 1%Q with (pow10 0); apply pow10_le; lia).
    split; [apply Qle_shift_div_l; lra|]. apply Qle_shift_div_r; [lra|].
    rewrite <- (Qmult_1_r (inject_Z (dval ds))). apply Qmult_le_compat_nonneg; split; [tauto|tauto|discriminate|exact P1]. }
  assert (Hbig : (inject_Z (2 ^ 53) <= pow2 999)%Q) by (vm_compute; discriminate).
  assert (R : rounded (ddiv (fp_fold (fp_double pw) ds) (pw (dbl (Z.of_nat (length ds))))) (inject_Z (dval ds) / pow10 (Z.of_nat (length ds)))).
  { apply ddiv_rounded; auto; [lra|]. rewrite Qabs_pos by lra. eapply Qle_trans; [apply Hq|]. eapply Qle_trans; [exact Hbig|]. apply pow2_le. lia. }
  assert (R2 : rounded (dadd (fp_fold (fp_double pw) ip) (ddiv (fp_fold (fp_double pw) ds) (pw (dbl (Z.of_nat (length ds))))))
                 (inject_Z (dval ds) / pow10 (Z.of_nat (length ds)))).
  { destruct (fold_integers (fp_double pw) _ _ ip (double_integers pw) Hip ltac:(lia)) as [E|[_ E]]; rewrite E; [rewrite H0; apply dadd_zero_l; exact R|].
    apply dadd_zero_l. exact R. }
  apply (signed_rounded pw s) in R2; [|rewrite Qabs_pos by lra; eapply Qle_trans; [apply Hq|exact Hbig]].
  unfold fp_value, fplit_value, f, fplit_frac, fplit_exp. cbn [fl_sign fl_int fl_frac fl_exp fp_frac fp_double].
  eapply rounded_eq; [|exact R2]. rewrite H0. change (pow10 0) with 1%Q. change (inject_Z 0) with 0%Q.
  destruct (neg_of s); rewrite pow10_opp; field; lra.
Qed.
Print Assumptions C56_double_fraction_nearest.

(** An integer of at most 2^53 with an exponent from 0 to 22 ("5e3", "-12E+4") is
    read as the double nearest to it. *)
Theorem C56_double_scaled_nearest : forall pw s ip ec es ed pre c post pg e,
  pow_exact pw -> digits ip -> dval ip <= 2 ^ 53 -> ec = ch_e \/ ec = ch_E -> neg_of es = false -> digits ed -> dval ed <= 22 -> is_fp c = false ->
  let f := mkFplit s ip None (Some (ec, es, ed)) in
  (length (pre ++ fplit_text f) <= e)%nat ->
  exists v, read_fp (fp_double pw) (mkMem (pre ++ fplit_text f ++ c :: post) pg) e (length pre) = Ok (v, length (pre ++ fplit_text f)) /\
    nearest is_double v (fplit_value f).
Proof.
  intros pw s ip ec es ed pre c post pg e Hpw Hip HB Hec Hes Hed HE Hc f He.
  assert (Hf : wf_fplit f).
  { split; [apply Hip|]. split; [exact I|]. split; [left; apply Hip|]. split; [exact Hec|exact Hed]. }
  exists (fp_value (fp_double pw) f). split; [apply lit_read; assumption|]. apply rounded_nearest.
  destruct (exp_double pw es ed (proj2 Hed)) as [Hn Dn]; [lia|]. rewrite Hes in Dn.
  assert (0 <= dval ed) by (apply dval_nonneg; apply Hed). assert (0 <= dval ip) by (apply dval_nonneg; apply Hip).
  destruct (Hpw _ _ Hn Dn) as [Hp Dp]; [lia|].
  destruct (fold_double pw ip (proj2 Hip) HB) as [Hb Db].
  assert (Hq : (0 <= inject_Z (dval ip) * pow10 (dval ed) <= inject_Z (2 ^ 53) * pow10 22)%Q).
  { assert (0 <= inject_Z (dval ip) <= inject_Z (2 ^ 53))%Q by (change 0%Q with (inject_Z 0); rewrite <- !Zle_Qle; split; lia). pose proof (pow10_pos (dval ed)).
    assert (pow10 (dval ed) <= pow10 22)%Q by (apply pow10_le; lia). split; [|apply Qmult_le_compat_nonneg; split; lra].
    rewrite <- (Qmult_0_l (pow10 (dval ed))). apply Qmult_le_compat_r; lra. }
  assert (Hbig : (inject_Z (2 ^ 53) * pow10 22 <= pow2 999)%Q) by (vm_compute; discriminate).
  assert (R : rounded (dmul (fp_fold (fp_double pw) ip) (pw (fp_signed (fp_double pw) es (fp_fold (fp_double pw) ed)))) (inject_Z (dval ip) * pow10 (dval ed))).
  { apply dmul_rounded; auto. rewrite Qabs_pos by apply Hq. eapply Qle_trans; [apply Hq|]. eapply Qle_trans; [exact Hbig|]. apply pow2_le. lia. }
  apply (signed_rounded pw s) in R; [|rewrite Qabs_pos by apply Hq; eapply Qle_trans; [apply Hq|exact Hbig]].
  unfold fp_value, fplit_value, f, fplit_frac, fplit_exp. cbn [fl_sign fl_int fl_frac fl_exp fp_frac fp_exp fp_double]. rewrite Hes.
  eapply rounded_eq; [|exact R]. change (inject_Z (dval [])) with 0%Q. destruct (neg_of s); ring.
Qed.
Print Assumptions C56_double_scaled_nearest.

(** ** The general case: a bound on the error *)

(** At most 2^53 before and (as an integer) after the point, at most 22 decimals,
    an exponent of magnitude at most 280. *)
Definition moderate (f : fplit) : Prop :=
  dval (fl_int f) <= 2 ^ 53 /\ dval (fplit_frac f) <= 2 ^ 53 /\ (length (fplit_frac f) <= 22)%nat /\ Z.abs (fplit_exp f) <= 280.

Lemma rounded_rel z q : rounded z q -> (0 <= q)%Q -> (q == 0)%Q \/ (pow2 (-1022) <= q)%Q ->
  is_double z /\ exists v, denotes z v /\ rel (pow2 (-53)) v q.
Proof.
  intros R Hq Hr. split; [apply R|]. destruct Hr as [E|Hr].
  - exists 0%Q. split; [apply (rounded_zero z q R E)|]. unfold rel. rewrite E. split; vm_compute; discriminate.
  - destruct (rounded_error z q R) as (v & Dv & Hv); [rewrite Qabs_pos by exact Hq; exact Hr|].
    exists v. split; [exact Dv|]. apply (rel_abs _ _ _ Hq). exact Hv.
Qed.

Lemma denotes_eq x a b : (a == b)%Q -> denotes x a -> denotes x b.
Proof. intros E (v & Ev & Hv). exists v. split; [exact Ev|rewrite Hv; exact E]. Qed.

Ltac qle := apply Qle_bool_iff; vm_compute; reflexivity.

Section Error.
  Variable pw : spec_float -> spec_float.
  Hypothesis Hpw : pow_accurate pw.
  Open Scope Q_scope.

  Let u : Q := pow2 (-53).

  Lemma pow_rel x z : is_double x -> denotes x (inject_Z z) -> (-280 <= z <= 280)%Z ->
    is_double (pw x) /\ exists p, denotes (pw x) p /\ rel ((2 # 1) * u) p (pow10 z).
  Proof.
    intros Hx Dx Hz. destruct (Hpw x z Hx Dx Hz) as (Hp & p & Dp & Ep). split; [exact Hp|]. exists p. split; [exact Dp|].
    pose proof (pow10_pos z). assert (E : pow2 (-52) == (2 # 1) * u) by reflexivity. rewrite E in Ep.
    apply rel_abs; [lra|]. rewrite (Qabs_pos (pow10 z)) by lra. exact Ep.
  Qed.

  (** Fraction: [B / pow(10., k)]. *)
  Lemma frac_rel x b k : is_double x -> denotes x (inject_Z b) -> (0 <= b <= 2 ^ 53)%Z -> (k <= 22)%nat ->
    is_double (ddiv x (pw (dbl (Z.of_nat k)))) /\
    exists v, denotes (ddiv x (pw (dbl (Z.of_nat k)))) v /\ rel ((32 # 10) * u) v (inject_Z b * pow10 (- Z.of_nat k)).
  Proof.
    intros Hx Dx Hb Hk. destruct (of_nat_double k) as [Hn Dn]; [lia|]. destruct (pow_rel _ _ Hn Dn) as (Hp & p & Dp & Ep); [lia|].
    set (y := pow10 (Z.of_nat k)) in *.
    assert (Y : 1 <= y <= pow10 22) by (split; [change 1 with (pow10 0)|]; apply pow10_le; lia). destruct Y as [Y1 Y2].
    destruct (rel_inv ((2 # 1) * u) ((21 # 10) * u) p y Ep) as [Hp0 Ei]; [lra|qle|qle|qle|].
    pose proof (rel_bounds _ _ _ Ep ltac:(lra) ltac:(split; qle)) as [B1 B2].
    assert (Hb0 : 0 <= inject_Z b <= inject_Z (2 ^ 53)) by (change 0 with (inject_Z 0); rewrite <- !Zle_Qle; split; lia). destruct Hb0 as [Hb0 Hb1].
    assert (Hy0 : 0 <= / y) by (apply Qinv_le_0_compat; lra).
    assert (Er : rel ((21 # 10) * u) (inject_Z b / p) (inject_Z b * / y)).
    { pose proof (rel_mul 0 ((21 # 10) * u) (inject_Z b) (inject_Z b) (/ p) (/ y) (rel_exact _) Ei Hb0 Hy0 ltac:(split; discriminate) ltac:(qle)) as H.
      assert (E : 0 + (21 # 10) * u + 0 * ((21 # 10) * u) == (21 # 10) * u) by ring. unfold rel in *. rewrite E in H. exact H. }
    assert (Hy1 : / pow10 22 <= / y <= 1).
    { split; [apply Qle_shift_inv_l|apply Qle_shift_inv_r]; [lra| |lra|lra]. 
      rewrite <- (Qmult_inv_r (pow10 22)) by (vm_compute; discriminate). rewrite Qmult_comm. apply Qmult_le_compat_r; [exact Y2|vm_compute; discriminate]. }
    destruct Hy1 as [Hy1 Hy2].
    assert (Hx1 : 0 <= inject_Z b * / y) by (rewrite <- (Qmult_0_l (/ y)); apply Qmult_le_compat_r; assumption).
    pose proof (rel_bounds _ _ _ Er Hx1 ltac:(split; qle)) as [C1 C2].
    assert (R : rounded (ddiv x (pw (dbl (Z.of_nat k)))) (inject_Z b / p)).
    { apply ddiv_rounded; auto; [lra|]. rewrite Qabs_pos by lra. eapply Qle_trans; [exact C2|].
      apply Qle_trans with ((2 # 1) * (inject_Z (2 ^ 53) * 1)); [|qle]. rewrite !(Qmult_comm (2 # 1)). apply Qmult_le_compat_r; [|discriminate].
      apply Qmult_le_compat_nonneg; split; lra. }
    destruct (rounded_rel _ _ R) as (Hd & v & Dv & Ev).
    - lra.
    - destruct (Z.eq_dec b 0) as [->|Hne]; [left; unfold Qdiv; change (inject_Z 0) with 0; ring|right].
      apply Qle_trans with ((1 # 2) * (1 * / pow10 22)); [qle|]. eapply Qle_trans; [|exact C1]. rewrite !(Qmult_comm (1 # 2)). apply Qmult_le_compat_r; [|discriminate].
      assert (1 <= inject_Z b) by (change 1 with (inject_Z 1); rewrite <- Zle_Qle; lia).
      apply Qmult_le_compat_nonneg; split; [discriminate|assumption|vm_compute; discriminate|assumption].
    - split; [exact Hd|]. exists v. split; [exact Dv|].
      assert (Eo : inject_Z b * pow10 (- Z.of_nat k) == inject_Z b * / y) by (rewrite pow10_opp; reflexivity). unfold rel. rewrite Eo. fold (rel ((32 # 10) * u) v (inject_Z b * / y)).
      eapply rel_weaken; [apply (rel_trans _ _ _ _ _ Er Ev Hx1); qle|exact Hx1|qle].
  Qed.

  (** The mantissa. *)
  Lemma mant_rel f : wf_fplit f -> moderate f ->
    let x := inject_Z (dval (fl_int f)) + inject_Z (dval (fplit_frac f)) * pow10 (- Z.of_nat (length (fplit_frac f))) in
    let F := fp_double pw in
    let r := match fl_frac f with None => fp_fold F (fl_int f) | Some ds => fp_frac F (fp_fold F (fl_int f)) (fp_fold F ds) (length ds) end in
    is_double r /\ (0 <= x <= pow2 55) /\ (x == 0 \/ pow10 (-22) <= x) /\ exists v, denotes r v /\ rel ((43 # 10) * u) v x.
  Proof.
    intros (Hi & Hfr & _ & _) (M1 & M2 & M3 & _) x F r.
    destruct (fold_double pw (fl_int f) Hi M1) as [Ha Da].
    assert (A0 : (0 <= dval (fl_int f))%Z) by (apply dval_nonneg; exact Hi).
    assert (A1 : 0 <= inject_Z (dval (fl_int f)) <= inject_Z (2 ^ 53)) by (change 0 with (inject_Z 0); rewrite <- !Zle_Qle; split; lia).
    destruct A1 as [A1 A2]. assert (Hbig : inject_Z (2 ^ 53) + inject_Z (2 ^ 53) <= pow2 55) by qle.
    unfold fplit_frac in *. destruct (fl_frac f) as [ds|].
    - destruct (fold_double pw ds Hfr M2) as [Hb Db]. assert (B0 : (0 <= dval ds)%Z) by (apply dval_nonneg; exact Hfr).
      destruct (frac_rel _ _ (length ds) Hb Db ltac:(lia) M3) as (Hd & v & Dv & Ev).
      set (y := inject_Z (dval ds) * pow10 (- Z.of_nat (length ds))) in *.
      assert (B1 : 0 <= inject_Z (dval ds) <= inject_Z (2 ^ 53)) by (change 0 with (inject_Z 0); rewrite <- !Zle_Qle; split; lia).
      destruct B1 as [B1 B2].
      assert (P1 : pow10 (-22) <= pow10 (- Z.of_nat (length ds)) <= 1) by (split; [|change 1 with (pow10 0)]; apply pow10_le; lia). destruct P1 as [P1 P2].
      assert (P0 : 0 < pow10 (-22)) by apply pow10_pos.
      assert (Y0 : 0 <= y <= inject_Z (2 ^ 53)).
      { unfold y. split; [rewrite <- (Qmult_0_l (pow10 (- Z.of_nat (length ds)))); apply Qmult_le_compat_r; lra|].
        rewrite <- (Qmult_1_r (inject_Z (2 ^ 53))). apply Qmult_le_compat_nonneg; split; lra. } destruct Y0 as [Y0 Y1].
      assert (Y2 : y == 0 \/ pow10 (-22) <= y).
      { destruct (Z.eq_dec (dval ds) 0) as [E|E]; [left; unfold y; rewrite E; change (inject_Z 0) with 0; ring|right].
        assert (1 <= inject_Z (dval ds)) by (change 1 with (inject_Z 1); rewrite <- Zle_Qle; lia).
        rewrite <- (Qmult_1_l (pow10 (-22))). unfold y. apply Qmult_le_compat_nonneg; split; try lra. }
      assert (X2 : x == 0 \/ pow10 (-22) <= x).
      { unfold x. destruct (Z.eq_dec (dval (fl_int f)) 0) as [E|E].
        - rewrite E. change (inject_Z 0) with 0. destruct Y2 as [Y2|Y2]; [left; lra|right; lra].
        - right. assert (1 <= inject_Z (dval (fl_int f))) by (change 1 with (inject_Z 1); rewrite <- Zle_Qle; lia).
          assert (pow10 (-22) <= 1) by qle. lra. }
      assert (Es : rel ((32 # 10) * u) (inject_Z (dval (fl_int f)) + v) x).
      { apply rel_add; [|exact Ev]. eapply rel_weaken; [apply rel_exact|exact A1|qle]. }
      assert (X0 : 0 <= x) by (unfold x; lra).
      pose proof (rel_bounds _ _ _ Es X0 ltac:(split; qle)) as [C1 C2].
      assert (R : rounded (dadd (fp_fold F (fl_int f)) (ddiv (fp_fold F ds) (pw (dbl (Z.of_nat (length ds)))))) (inject_Z (dval (fl_int f)) + v)).
      { apply dadd_rounded; auto. rewrite Qabs_pos by lra. eapply Qle_trans; [exact C2|]. apply Qle_trans with ((2 # 1) * pow2 55); [unfold x; lra|qle]. }
      destruct (rounded_rel _ _ R) as (Hr & w & Dw & Ew); [lra| |].
      { destruct X2 as [X2|X2]; [left; lra|right]. assert (pow2 (-1022) <= (1 # 2) * pow10 (-22)) by qle. lra. }
      split; [exact Hr|]. split; [split; [exact X0|unfold x; lra]|]. split; [exact X2|]. exists w. split; [exact Dw|].
      eapply rel_weaken; [apply (rel_trans _ _ _ _ _ Es Ew X0); qle|exact X0|qle].
    - assert (Ex : x == inject_Z (dval (fl_int f))) by (unfold x; change (inject_Z (dval [])) with 0; ring).
      split; [exact Ha|]. split; [lra|]. split.
      + destruct (Z.eq_dec (dval (fl_int f)) 0) as [E|E]; [left; rewrite Ex, E; reflexivity|right].
        assert (1 <= inject_Z (dval (fl_int f))) by (change 1 with (inject_Z 1); rewrite <- Zle_Qle; lia).
        assert (pow10 (-22) <= 1) by qle. lra.
      + exists (inject_Z (dval (fl_int f))). split; [exact Da|]. unfold rel. rewrite Ex. fold (rel ((43 # 10) * u) (inject_Z (dval (fl_int f))) (inject_Z (dval (fl_int f)))).
        eapply rel_weaken; [apply rel_exact|exact A1|qle].
  Qed.

  Lemma value_rel f : wf_fplit f -> moderate f ->
    let F := fp_double pw in
    let r := match fl_frac f with None => fp_fold F (fl_int f) | Some ds => fp_frac F (fp_fold F (fl_int f)) (fp_fold F ds) (length ds) end in
    let r3 := match fl_exp f with None => r | Some (_, s, ds) => fp_exp F r (fp_signed F s (fp_fold F ds)) end in
    let x := (inject_Z (dval (fl_int f)) + inject_Z (dval (fplit_frac f)) * pow10 (- Z.of_nat (length (fplit_frac f)))) * pow10 (fplit_exp f) in
    is_double r3 /\ 0 <= x <= pow2 990 /\ exists v, denotes r3 v /\ rel (pow2 (-50)) v x.
  Proof.
    intros Hf Hm F r r3 x. pose proof (mant_rel f Hf Hm) as H. cbv zeta in H. fold F in H. fold r in H.
    destruct H as (Hr & (M0 & M1) & M2 & v & Dv & Ev).
    set (xm := inject_Z (dval (fl_int f)) + inject_Z (dval (fplit_frac f)) * pow10 (- Z.of_nat (length (fplit_frac f)))) in *.
    destruct Hf as (_ & _ & _ & Hx). destruct Hm as (_ & _ & _ & Hz). unfold r3, x, fplit_exp in *. destruct (fl_exp f) as [[[c s] ds]|].
    - destruct Hx as (_ & Hds). assert (D0 : (0 <= dval ds)%Z) by (apply dval_nonneg; apply Hds).
      destruct (exp_double pw s ds (proj2 Hds)) as [Hn Dn]; [destruct (neg_of s); lia|]. set (z := if neg_of s then (- dval ds)%Z else dval ds) in *.
      destruct (pow_rel _ _ Hn Dn) as (Hp & p & Dp & Ep); [lia|].
      assert (P1 : pow10 (-280) <= pow10 z <= pow10 280) by (split; apply pow10_le; lia). destruct P1 as [P1 P2].
      assert (P0 : 0 < pow10 (-280)) by apply pow10_pos.
      pose proof (rel_mul ((43 # 10) * u) ((2 # 1) * u) v xm p (pow10 z) Ev Ep M0 ltac:(lra) ltac:(split; qle) ltac:(qle)) as Em.
      assert (X0 : 0 <= xm * pow10 z) by (rewrite <- (Qmult_0_l (pow10 z)); apply Qmult_le_compat_r; lra).
      assert (X1 : xm * pow10 z <= pow2 55 * pow10 280) by (apply Qmult_le_compat_nonneg; split; lra).
      pose proof (rel_bounds _ _ _ Em X0 ltac:(split; qle)) as [C1 C2].
      assert (R : rounded (dmul r (pw (fp_signed F s (fp_fold F ds)))) (v * p)).
      { apply dmul_rounded; auto. rewrite Qabs_pos by lra. eapply Qle_trans; [exact C2|]. apply Qle_trans with ((2 # 1) * (pow2 55 * pow10 280)); [lra|qle]. }
      destruct (rounded_rel _ _ R) as (Hd & w & Dw & Ew); [lra| |].
      { destruct M2 as [M2|M2].
        - left. assert (xm * pow10 z == 0) by (rewrite M2; ring). lra.
        - right. assert (pow10 (-22) * pow10 (-280) <= xm * pow10 z) by (apply Qmult_le_compat_nonneg; split; try lra; apply Qlt_le_weak, pow10_pos).
          assert (pow2 (-1022) <= (1 # 2) * (pow10 (-22) * pow10 (-280))) by qle. lra. }
      split; [exact Hd|]. split; [split; [exact X0|eapply Qle_trans; [exact X1|qle]]|]. exists w. split; [exact Dw|].
      eapply rel_weaken; [apply (rel_trans _ _ _ _ _ Em Ew X0); qle|exact X0|qle].
    - assert (Ex : xm * pow10 0 == xm) by (change (pow10 0) with 1; ring).
      assert (pow2 55 <= pow2 990) by (apply pow2_le; lia).
      split; [exact Hr|]. split; [lra|]. exists v. split; [exact Dv|]. unfold rel. rewrite Ex. fold (rel (pow2 (-50)) v xm).
      eapply rel_weaken; [exact Ev|exact M0|qle].
  Qed.
End Error.

(** Every such literal is read with a relative error of at most 2^-50 (four units
    in the last place). *)
Theorem C56_double_error : forall pw f pre c post pg e,
  pow_accurate pw -> wf_fplit f -> moderate f -> is_fp c = false ->
  (length (pre ++ fplit_text f) <= e)%nat ->
  exists x v, read_fp (fp_double pw) (mkMem (pre ++ fplit_text f ++ c :: post) pg) e (length pre) = Ok (x, length (pre ++ fplit_text f)) /\
    is_double x /\ denotes x v /\ (Qabs (v - fplit_value f) <= pow2 (-50) * Qabs (fplit_value f))%Q.
Proof.
  intros pw f pre c post pg e Hpw Hf Hm Hc He. pose proof (value_rel pw Hpw f Hf Hm) as H. cbv zeta in H.
  destruct H as (Hd & (X0 & X1) & v & Dv & Ev). pose proof (rel_bounds _ _ _ Ev X0 ltac:(split; qle)) as [C1 C2].
  assert (pow2 990 * (2 # 1) <= pow2 1000)%Q by qle.
  exists (fp_value (fp_double pw) f), (if neg_of (fl_sign f) then - v else v)%Q. split; [apply lit_read; assumption|].
  unfold fp_value, fplit_value, fp_signed at 1 3. apply (rel_abs _ _ _ X0) in Ev.
  destruct (neg_of (fl_sign f)) eqn:Es.
  - destruct (dneg_value _ v Hd Dv) as [H1 H2]; [rewrite Qabs_pos by lra; lra|]. split; [exact H1|]. split; [exact H2|].
    rewrite Qabs_opp. match type of Ev with (Qabs (v - ?x) <= _)%Q => setoid_replace (- v - - x)%Q with (- (v - x))%Q by ring end.
    rewrite Qabs_opp. exact Ev.
  - split; [exact Hd|]. split; [exact Dv|exact Ev].
Qed.
Print Assumptions C56_double_error.

(** ** The hypotheses are satisfiable: a correctly rounded power of ten *)
Definition sf_int (x : spec_float) : option Z :=
  match x with
  | S754_zero _ => Some 0
  | S754_finite s m e =>
      let k := if 0 <=? e then Some (Zpos m * 2 ^ e) else if Zpos m mod 2 ^ (- e) =? 0 then Some (Zpos m / 2 ^ (- e)) else None in
      match k with Some k => Some (if s then - k else k) | None => None end
  | _ => None
  end.
Definition pow_of (z : Z) : spec_float :=
  if 0 <=? z then dbl (10 ^ z)
  else let '(m, e, l) := SFdiv_core_binary 53 1024 1 0 (10 ^ (- z)) 0 in binary_round_aux 53 1024 false m e l.
Definition pow_ref (x : spec_float) : spec_float :=
  match sf_int x with Some z => pow_of z | None => S754_nan end.

Lemma sf_int_ok x z : denotes x (inject_Z z) -> sf_int x = Some z.
Proof.
  intros (v & Ev & Hv). destruct x as [s|s| |s m e]; cbn [sf_value] in Ev; try discriminate; injection Ev as <-; cbn [sf_int].
  - f_equal. apply inject_Z_injective. rewrite <- Hv. reflexivity.
  - assert (Ha : (inject_Z (if s then - Zpos m else Zpos m) * pow2 e == inject_Z z)%Q) by (rewrite <- Hv; destruct s; reflexivity).
    clear Hv. set (sm := if s then - Zpos m else Zpos m) in *. destruct (0 <=? e) eqn:Ee.
    + apply Z.leb_le in Ee. assert (E : sm * 2 ^ e = z).
      { apply inject_Z_injective. rewrite inject_Z_mult, Zpower_Qpower by exact Ee. exact Ha. }
      f_equal. rewrite <- E. unfold sm. destruct s; lia.
    + apply Z.leb_gt in Ee. assert (E : sm = z * 2 ^ (- e)).
      { apply inject_Z_injective. rewrite inject_Z_mult, Zpower_Qpower by lia. change (inject_Z 2) with (2 # 1)%Q. fold (pow2 (- e)). rewrite <- Ha.
        rewrite <- Qmult_assoc. unfold pow2. rewrite <- Qpower_plus by discriminate. replace (e + - e) with 0 by lia. change ((2 # 1) ^ 0)%Q with 1%Q. ring. }
      assert (P : 0 < 2 ^ (- e)) by (apply Z.pow_pos_nonneg; lia).
      assert (Em : Zpos m = (if s then - z else z) * 2 ^ (- e)) by (unfold sm in E; destruct s; lia).
      rewrite Em, Z.mod_mul, Z.div_mul by lia. cbn [Z.eqb]. f_equal. destruct s; lia.
Qed.

Definition pow_check (z : Z) : bool :=
  let x := pow_of z in
  valid_binary 53 1024 x &&
  match sf_value x with
  | Some v => Qle_bool (Qabs (v - pow10 z)) (pow2 (-52) * pow10 z) && (if (0 <=? z) && (z <=? 22) then Qeq_bool v (pow10 z) else true)
  | None => false
  end.
Lemma pow_checked z : -280 <= z <= 280 -> pow_check z = true.
Proof.
  intros Hz. assert (H : forallb (fun k => pow_check (Z.of_nat k - 280)) (seq 0 561) = true) by (vm_compute; reflexivity).
  rewrite forallb_forall in H. replace z with (Z.of_nat (Z.to_nat (z + 280)) - 280) by lia. apply H. apply in_seq. lia.
Qed.
Lemma pow_ref_exact : pow_exact pow_ref.
Proof.
  intros x z _ Dx Hz. unfold pow_ref. rewrite (sf_int_ok x z Dx). pose proof (pow_checked z ltac:(lia)) as H. unfold pow_check in H.
  apply andb_true_iff in H as [H1 H2]. split; [exact H1|]. destruct (sf_value (pow_of z)) as [v|] eqn:Ev; [|discriminate].
  apply andb_true_iff in H2 as [_ H2]. replace ((0 <=? z) && (z <=? 22)) with true in H2 by (symmetry; apply andb_true_iff; split; apply Z.leb_le; lia).
  exists v. split; [exact Ev|]. apply Qeq_bool_iff. exact H2.
Qed.
Lemma pow_ref_accurate : pow_accurate pow_ref.
Proof.
  intros x z _ Dx Hz. unfold pow_ref. rewrite (sf_int_ok x z Dx). pose proof (pow_checked z ltac:(lia)) as H. unfold pow_check in H.
  apply andb_true_iff in H as [H1 H2]. split; [exact H1|]. destruct (sf_value (pow_of z)) as [v|] eqn:Ev; [|discriminate].
  apply andb_true_iff in H2 as [H2 _]. exists v. split; [exists v; split; [exact Ev|reflexivity]|]. apply Qle_bool_iff. exact H2.
Qed.

(** "-0.1", "12e3" and "-6.02214e+23" in a file. *)
Example C56_fraction_applies : exists v,
  read_fp (fp_double pow_ref) (mkMem ([ch_sp] ++ [45; 48; 46; 49] ++ [ch_nl]) 64) 6 1 = Ok (v, 5%nat) /\ nearest is_double v (- (1 # 10)).
Proof.
  destruct (C56_double_fraction_nearest pow_ref SMinus [48] [49] [ch_sp] ch_nl [] 64 6) as (v & E & Hn).
  - exact pow_ref_exact.
  - repeat constructor.
  - reflexivity.
  - split; [discriminate|repeat constructor].
  - vm_compute. discriminate.
  - cbn. lia.
  - reflexivity.
  - cbn. lia.
  - exists v. split; [exact E|]. destruct Hn as (Hd & w & Ew & Hn). split; [exact Hd|]. exists w. split; [exact Ew|].
    intros y k Hy Ek. specialize (Hn y k Hy Ek). setoid_replace (- (1 # 10))%Q with (fplit_value (mkFplit SMinus [48] (Some [49]) None)) by reflexivity. exact Hn.
Qed.
Example C56_error_applies :
  let f := mkFplit SMinus [54] (Some [48; 50; 50; 49; 52]) (Some (ch_e, SPlus, [50; 51])) in
  wf_fplit f /\ moderate f /\ (fplit_value f == inject_Z (-602214 * 10 ^ 18))%Q /\
  exists x, read_fp (fp_double pow_ref) (mkMem ([ch_sp] ++ fplit_text f ++ [ch_nl]) 64) 14 1 = Ok (x, 13%nat) /\
    x = S754_finite true 8973687887191772 26.
Proof.
  split; [|split; [|split]].
  - split; [repeat constructor|]. split; [repeat constructor|]. split; [left; discriminate|]. split; [left; reflexivity|]. split; [discriminate|repeat constructor].
  - split; [vm_compute; discriminate|]. split; [vm_compute; discriminate|]. split; [cbn; lia|vm_compute; discriminate].
  - reflexivity.
  - eexists. split; [vm_compute; reflexivity|]. reflexivity.
Qed.
