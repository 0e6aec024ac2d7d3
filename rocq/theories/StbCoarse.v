(** * StbCoarse: error of the product by any power of ten *)

From Coq Require Import ZArith QArith Qabs Qpower Reals Qreals Lqa Lia SpecFloat.
From Flocq Require Import Core.Core Relative BinarySingleNaN.
From Verif Require Import Base SpecFp64 Fp64 Fp64Near Stb StbArith StbExact StbBits.
Open Scope Z_scope.

Local Existing Instances Fp64Near.Hprec Fp64Near.Hmax.

Definition eps : Q := 1 # 9007199254740992.
Definition tiny : Q := Eval compute in 1 # (2 ^ 200).
Lemma eps_pow : (pow2 (-53) == eps)%Q. Proof. reflexivity. Qed.

Open Scope Q_scope.

Lemma abs_le q B : - B <= q <= B -> Qabs q <= B.
Proof. intros H. apply Qabs_Qle_condition. exact H. Qed.

Lemma rel_B v q B : - B <= q <= B -> Qabs (v - q) <= pow2 (-53) * Qabs q -> - (eps * B) <= v - q <= eps * B.
Proof.
  intros HB H. apply Qabs_Qle_condition. eapply Qle_trans; [exact H|]. rewrite eps_pow, !(Qmult_comm eps).
  apply Qmult_le_compat_r; [apply abs_le; exact HB|discriminate].
Qed.

Lemma add_B x y a b B : dv x a -> dv y b -> - B <= a + b <= B -> B <= maxd ->
  exists v, dv (dadd x y) v /\ - (eps * B) <= v - (a + b) <= eps * B.
Proof.
  intros Hx Hy HB Hm. destruct (add_rel x y a b Hx Hy) as (v & Dv & Ev); [eapply Qle_trans; [apply abs_le; exact HB|exact Hm]|].
  exists v. split; [exact Dv|]. apply rel_B; assumption.
Qed.
Lemma sub_B x y a b B : dv x a -> dv y b -> - B <= a - b <= B -> B <= maxd ->
  exists v, dv (dsub x y) v /\ - (eps * B) <= v - (a - b) <= eps * B.
Proof.
  intros Hx Hy HB Hm. destruct (sub_rel x y a b Hx Hy) as (v & Dv & Ev); [eapply Qle_trans; [apply abs_le; exact HB|exact Hm]|].
  exists v. split; [exact Dv|]. apply rel_B; assumption.
Qed.

(** Without a lower bound the error is relative or at most [2^-1074]. *)
Lemma rounded_abs z q : rounded z q -> exists v, dv z v /\ Qabs (v - q) <= pow2 (-53) * Qabs q + pow2 (-1074).
Proof.
  intros R. destruct (Qlt_le_dec (Qabs q) (pow2 (-1022))) as [Hs|Hl].
  - destruct R as (Hz & v & Ev & Er). exists v. split; [split; [exact Hz|]; exists v; split; [exact Ev|reflexivity]|].
    apply Qle_trans with (pow2 (-1074)).
    + apply Rle_Qle. rewrite Q2R_abs, Q2R_minus, Er, Q2R_pow2.
      pose proof (error_le_half_ulp radix2 fexp64 (fun x => negb (Z.even x)) (Q2R q)) as H.
      eapply Rle_trans; [exact H|]. apply Qlt_Rlt in Hs. rewrite Q2R_abs, Q2R_pow2 in Hs.
      assert (U : (ulp radix2 fexp64 (Q2R q) <= bpow radix2 (-1074))%R).
      { change fexp64 with (FLT_exp (-1074) 53). rewrite ulp_FLT_small; [apply Rle_refl|reflexivity|].
        eapply Rlt_trans; [exact Hs|]. apply bpow_lt. lia. }
      assert (0 <= ulp radix2 fexp64 (Q2R q))%R by apply ulp_ge_0. Lra.lra.
    + assert (0 <= pow2 (-53) * Qabs q) by (apply Qmult_le_0_compat; [apply pow2_ge0|apply Qabs_nonneg]). lra.
  - destruct (rounded_error z q R Hl) as (v & Dv & Ev). exists v. split; [split; [apply R|exact Dv]|].
    pose proof (pow2_ge0 (-1074)). lra.
Qed.

Lemma mul_B x y a b B X : dv x a -> dv y b -> - B <= a * b <= B -> B <= maxd -> 0 <= X -> grid (a * b) \/ 1 <= X ->
  exists v, dv (dmul x y) v /\ - (eps * B + tiny * X) <= v - a * b <= eps * B + tiny * X.
Proof.
  intros Hx Hy HB Hm HX HG. assert (R : rounded (dmul x y) (a * b)).
  { apply mul_rounded; [exact Hx|exact Hy|]. eapply Qle_trans; [apply abs_le; exact HB|exact Hm]. }
  assert (T0 : 0 <= tiny * X) by (apply Qmult_le_0_compat; [discriminate|exact HX]).
  destruct HG as [HG|HG].
  - destruct (rounded_rel _ _ R HG) as (v & Dv & Ev). exists v. split; [exact Dv|]. pose proof (rel_B v (a * b) B HB Ev). lra.
  - destruct (rounded_abs _ _ R) as (v & Dv & Ev). exists v. split; [exact Dv|]. apply Qabs_Qle_condition. eapply Qle_trans; [exact Ev|].
    apply Qplus_le_compat.
    + rewrite eps_pow, !(Qmult_comm eps). apply Qmult_le_compat_r; [apply abs_le; exact HB|discriminate].
    + apply Qle_trans with (tiny * 1); [vm_compute; discriminate|]. rewrite !(Qmult_comm tiny). apply Qmult_le_compat_r; [exact HG|discriminate].
Qed.

(** A positive double. *)
Lemma pos_double z a : dv z a -> 0 < a -> exists m e, z = S754_finite false m e /\ a == inject_Z (Zpos m) * pow2 e /\
  (pow2 (-1022) <= a -> (2 ^ 52 <= Zpos m)%Z).
Proof.
  intros (Hz & v & Ev & Eq) Ha. destruct z as [s|s| |s m e]; cbn [sf_value] in Ev; try discriminate; injection Ev as <-.
  - exfalso. lra.
  - assert (Hm : 0 < inject_Z (Zpos m) * pow2 e) by (apply Qmult_lt_0_compat; [reflexivity|apply pow2_pos]).
    destruct s; [exfalso; rewrite <- Eq in Ha; setoid_replace (- inject_Z (Zpos m) * pow2 e) with (- (inject_Z (Zpos m) * pow2 e)) in Ha by ring; lra|].
    exists m, e. split; [reflexivity|]. split; [symmetry; exact Eq|]. intros Hn.
    destruct (finite_bounds _ _ _ Hz) as (_ & _ & [B|B]); [exact B|]. subst e. rewrite <- Eq in Hn.
    change (-1022)%Z with (52 + -1074)%Z in Hn. rewrite pow2_add in Hn. apply Qmult_lt_0_le_reg_r in Hn; [|apply pow2_pos].
    rewrite (pow2_Z 52) in Hn by lia. rewrite <- Zle_Qle in Hn. exact Hn.
Qed.

(** Both halves of the factor are integers. *)
Definition intsplit (my : positive) (ey : Z) : Prop :=
  (exists nh, inject_Z (Zpos my - Zpos my mod 2 ^ 27) * pow2 ey == inject_Z nh) /\
  (exists nl, inject_Z (Zpos my mod 2 ^ 27) * pow2 ey == inject_Z nl).

Lemma grid_int a n : grid a -> grid (a * inject_Z n).
Proof. intros [m E]. exists (m * n)%Z. rewrite E, inject_Z_mult. ring. Qed.
Lemma grid_eq a b : a == b -> grid a -> grid b.
Proof. intros E [m Em]. exists m. rewrite <- E. exact Em. Qed.

(** The error allowed for one product: fine if the first factor is a normal
    number, coarse always. *)
Definition fine : Q := Eval compute in 1 # (2 ^ 72).
Definition coarse : Q := Eval compute in 1 # (2 ^ 47).

Lemma exp_lower m1 m2 e X : (Zpos m1 < 2 ^ 53)%Z -> (Zpos m2 < 2 ^ 53)%Z -> X == inject_Z (Zpos m1 * Zpos m2) * pow2 e -> 1 <= X -> (-1128 <= e)%Z.
Proof.
  intros H1 H2 E HX. apply Z.lt_le_incl, Znot_ge_lt. intros C. revert HX. apply Qlt_not_le. rewrite E.
  apply Qle_lt_trans with (inject_Z (2 ^ 106) * pow2 (-107)); [|reflexivity].
  apply Qle_trans with (inject_Z (2 ^ 106) * pow2 e).
  - apply Qmult_le_compat_r; [|apply pow2_ge0]. rewrite <- Zle_Qle. change (2 ^ 106)%Z with (2 ^ 53 * 2 ^ 53)%Z. apply Z.mul_le_mono_nonneg; lia.
  - rewrite !(Qmult_comm (inject_Z (2 ^ 106))). apply Qmult_le_compat_r; [apply pow2_mono; lia|discriminate].
Qed.

Lemma mulhi_spec x a my ey X : let y := S754_finite false my ey in
  dv x a -> 0 < a -> is_double y -> (2 ^ 52 <= Zpos my)%Z -> X == a * (inject_Z (Zpos my) * pow2 ey) -> 16 * X <= maxd ->
  (1 <= X \/ (intsplit my ey /\ (-52 <= ey)%Z)) ->
  exists h l, dv (fst (ddmulthi x y)) h /\ dv (snd (ddmulthi x y)) l /\
    - (eps * X + tiny * X) <= h - X <= eps * X + tiny * X /\ - (coarse * X) <= h + l - X <= coarse * X /\
    (pow2 (-1022) <= a -> - (fine * X) <= h + l - X <= fine * X).
Proof.
  intros y Dx Ha Hy By EX HM HG.
  destruct (pos_double x a Dx Ha) as (mx & ex & -> & Ea & Hnorm). pose proof Dx as [Hx _].
  destruct (finite_bounds _ _ _ Hx) as (Bx' & Bex & _). destruct (finite_bounds _ _ _ Hy) as (By' & Bey & _).
  destruct (mask27_dv mx ex Hx) as (DA & DAl). destruct (mask27_dv my ey Hy) as (DB & DBl).
  cbn [ddmulthi fst snd]. fold y in DB, DBl |- *. set (x := S754_finite false mx ex) in *.
  set (al := (Zpos mx mod 2 ^ 27)%Z) in *. set (bl := (Zpos my mod 2 ^ 27)%Z) in *.
  assert (Hal : (0 <= al < 2 ^ 27)%Z) by (apply Z.mod_pos_bound; reflexivity).
  assert (Hbl : (0 <= bl < 2 ^ 27)%Z) by (apply Z.mod_pos_bound; reflexivity).
  assert (EA : exists A, (Zpos mx - al = A * 2 ^ 27 /\ 0 <= A < 2 ^ 26)%Z).
  { exists (Zpos mx / 2 ^ 27)%Z. split; [unfold al; pose proof (Z.div_mod (Zpos mx) (2 ^ 27) ltac:(discriminate)); lia|].
    split; [apply Z.div_pos; [lia|reflexivity]|]. apply Z.div_lt_upper_bound; [reflexivity|exact Bx']. }
  assert (EB : exists B, (Zpos my - bl = B * 2 ^ 27 /\ 0 <= B < 2 ^ 26)%Z).
  { exists (Zpos my / 2 ^ 27)%Z. split; [unfold bl; pose proof (Z.div_mod (Zpos my) (2 ^ 27) ltac:(discriminate)); lia|].
    split; [apply Z.div_pos; [lia|reflexivity]|]. apply Z.div_lt_upper_bound; [reflexivity|exact By']. }
  destruct EA as (A & EA & HA). destruct EB as (B & EB & HB).
  set (u := (ex + ey)%Z).
  assert (EXu : X == inject_Z (Zpos mx * Zpos my) * pow2 u) by (rewrite EX, Ea, inject_Z_mult; unfold u; rewrite pow2_add; ring).
  assert (Hu : (-1128 <= u)%Z).
  { destruct HG as [HG|[_ HG]]; [eapply exp_lower; [exact Bx'|exact By'|exact EXu|exact HG]|unfold u; lia]. }
  assert (Hpu := pow2_pos u).
  (* exact products *)
  set (ahi := inject_Z (Zpos mx - al) * pow2 ex) in *. set (alo := inject_Z al * pow2 ex) in *.
  set (bhi := inject_Z (Zpos my - bl) * pow2 ey) in *. set (blo := inject_Z bl * pow2 ey) in *.
  assert (E1 : ahi * bhi == inject_Z ((Zpos mx - al) * (Zpos my - bl)) * pow2 u) by (unfold ahi, bhi, u; rewrite inject_Z_mult, pow2_add; ring).
  assert (E2 : ahi * blo == inject_Z ((Zpos mx - al) * bl) * pow2 u) by (unfold ahi, blo, u; rewrite inject_Z_mult, pow2_add; ring).
  assert (E3 : alo * bhi == inject_Z (al * (Zpos my - bl)) * pow2 u) by (unfold alo, bhi, u; rewrite inject_Z_mult, pow2_add; ring).
  assert (E4 : alo * blo == inject_Z (al * bl) * pow2 u) by (unfold alo, blo, u; rewrite inject_Z_mult, pow2_add; ring).
  assert (HX0 : 0 < X) by (rewrite EXu; apply Qmult_lt_0_compat; [reflexivity|exact Hpu]).
  assert (N1 : (0 <= (Zpos mx - al) * (Zpos my - bl))%Z) by (apply Z.mul_nonneg_nonneg; lia).
  assert (N2 : (0 <= (Zpos mx - al) * bl)%Z) by (apply Z.mul_nonneg_nonneg; lia).
  assert (N3 : (0 <= al * (Zpos my - bl))%Z) by (apply Z.mul_nonneg_nonneg; lia).
  assert (N4 : (0 <= al * bl)%Z) by (apply Z.mul_nonneg_nonneg; lia).
  assert (NN : forall n, (0 <= n)%Z -> 0 <= inject_Z n * pow2 u) by (intros n Hn; apply Qmult_le_0_compat; [rewrite <- (Zle_Qle 0); exact Hn|apply pow2_ge0]).
  pose proof (NN _ N1) as P1. pose proof (NN _ N2) as P2. pose proof (NN _ N3) as P3. pose proof (NN _ N4) as P4.
  rewrite <- E1 in P1. rewrite <- E2 in P2. rewrite <- E3 in P3. rewrite <- E4 in P4.
  assert (ES : X == ahi * bhi + ahi * blo + alo * bhi + alo * blo).
  { rewrite EXu, E1, E2, E3, E4, <- !Qmult_plus_distr_l, <- !inject_Z_plus. apply Qmult_comp; [|reflexivity].
    replace (Zpos mx * Zpos my)%Z with ((Zpos mx - al) * (Zpos my - bl) + (Zpos mx - al) * bl + al * (Zpos my - bl) + al * bl)%Z by ring. reflexivity. }
  set (q1 := ahi * bhi) in *. set (q2 := ahi * blo) in *. set (q3 := alo * bhi) in *. set (q4 := alo * blo) in *.
  (* the first product is exact *)
  assert (Hm0 : 0 <= maxd) by (vm_compute; discriminate).
  assert (HAB : (0 <= A * B < 2 ^ 53)%Z). { split; [apply Z.mul_nonneg_nonneg; lia|]. apply Z.le_lt_trans with (2 ^ 26 * 2 ^ 26)%Z; [apply Z.mul_le_mono_nonneg; lia|reflexivity]. }
  assert (D1 : dv (dmul (mask27 x) (mask27 y)) q1).
  { apply rounded_repr with (n := (A * B)%Z) (e := (u + 54)%Z); [apply mul_rounded; [exact DA|exact DB|fold q1; apply abs_le; lra]| |lia|lia].
    rewrite E1, EA, EB, pow2_shift by lia. replace (A * B * 2 ^ 54)%Z with (A * 2 ^ 27 * (B * 2 ^ 27))%Z by ring. reflexivity. }
  (* no underflow *)
  assert (Gx : forall z c, dv z c -> grid (c * bhi) \/ 1 <= X).
  { intros z c Dc. destruct HG as [HG|[[(nh & Eh) _] _]]; [right; exact HG|left]. apply grid_eq with (c * inject_Z nh); [apply Qmult_comp; [reflexivity|symmetry; exact Eh]|apply grid_int; eapply dv_grid; exact Dc]. }
  assert (Gl : forall z c, dv z c -> grid (c * blo) \/ 1 <= X).
  { intros z c Dc. destruct HG as [HG|[[_ (nl & El)] _]]; [right; exact HG|left]. apply grid_eq with (c * inject_Z nl); [apply Qmult_comp; [reflexivity|symmetry; exact El]|apply grid_int; eapply dv_grid; exact Dc]. }
  assert (Gy : grid (a * (inject_Z (Zpos my) * pow2 ey)) \/ 1 <= X).
  { destruct HG as [HG|[[(nh & Eh) (nl & El)] _]]; [right; exact HG|left]. apply grid_eq with (a * inject_Z (nh + nl)%Z); [|apply grid_int; eapply dv_grid; exact Dx].
    rewrite inject_Z_plus, <- Eh, <- El, <- Qmult_plus_distr_l, <- inject_Z_plus. replace (Zpos my - Zpos my mod 2 ^ 27 + Zpos my mod 2 ^ 27)%Z with (Zpos my) by ring. reflexivity. }
  destruct (mul_B x y a (inject_Z (Zpos my) * pow2 ey) X X Dx (finite_dv my ey Hy)) as (h & Dh & Eh); [rewrite <- EX; lra|lra|lra|exact Gy|].
  rewrite <- EX in Eh. unfold eps, tiny in Eh. clear HG.
  assert (K : forall Y, Y <= X -> (1 # 4503599627370496) * X <= Y -> q2 <= Y -> q3 <= Y -> q4 <= Y ->
    exists l, dv (dadd (dadd (dadd (dsub (dmul (mask27 x) (mask27 y)) (dmul x y)) (dmul (mask27 x) (dsub y (mask27 y)))) (dmul (dsub x (mask27 x)) (mask27 y))) (dmul (dsub x (mask27 x)) (dsub y (mask27 y)))) l /\
      - (64 * eps * Y) <= h + l - X <= 64 * eps * Y).
  { intros Y HY HYX Y2 Y3 Y4. unfold eps.
    destruct (sub_B _ _ q1 h (4 * Y) D1 Dh) as (t1 & Dt1 & Et1); [lra|lra|].
    destruct (mul_B _ _ ahi blo Y X DA DBl) as (p2 & Dp2 & Ep2); [fold q2; lra|lra|lra|eapply Gl; exact DA|].
    destruct (mul_B _ _ alo bhi Y X DAl DB) as (p3 & Dp3 & Ep3); [fold q3; lra|lra|lra|eapply Gx; exact DAl|].
    destruct (mul_B _ _ alo blo Y X DAl DBl) as (p4 & Dp4 & Ep4); [fold q4; lra|lra|lra|eapply Gl; exact DAl|].
    fold q2 in Ep2. fold q3 in Ep3. fold q4 in Ep4. unfold eps, tiny in Et1, Ep2, Ep3, Ep4.
    destruct (add_B _ _ t1 p2 (6 * Y) Dt1 Dp2) as (t2 & Dt2 & Et2); [lra|lra|]. unfold eps in Et2.
    destruct (add_B _ _ t2 p3 (8 * Y) Dt2 Dp3) as (t3 & Dt3 & Et3); [lra|lra|]. unfold eps in Et3.
    destruct (add_B _ _ t3 p4 (10 * Y) Dt3 Dp4) as (l & Dl & El); [lra|lra|]. unfold eps in El.
    exists l. split; [exact Dl|]. lra. }
  destruct (Z_le_gt_dec (2 ^ 52) (Zpos mx)) as [Nx|Nx].
  - assert (LE : forall n, (n * 2 ^ 25 <= Zpos mx * Zpos my)%Z -> inject_Z n * pow2 u <= (1 # 33554432) * X).
    { intros n Hn. rewrite EXu. apply Qmult_lt_0_le_reg_r with (inject_Z (2 ^ 25)); [reflexivity|].
      setoid_replace (inject_Z n * pow2 u * inject_Z (2 ^ 25)) with (inject_Z (n * 2 ^ 25) * pow2 u) by (rewrite inject_Z_mult; ring).
      setoid_replace ((1 # 33554432) * (inject_Z (Zpos mx * Zpos my) * pow2 u) * inject_Z (2 ^ 25)) with (inject_Z (Zpos mx * Zpos my) * pow2 u) by (transitivity ((1 # 33554432) * inject_Z (2 ^ 25) * (inject_Z (Zpos mx * Zpos my) * pow2 u)); [ring|setoid_replace ((1 # 33554432) * inject_Z (2 ^ 25)) with 1 by reflexivity; ring]).
      apply Qmult_le_compat_r; [rewrite <- Zle_Qle; exact Hn|apply pow2_ge0]. }
    destruct (K ((1 # 33554432) * X)) as (l & Dl & El); [lra|lra| | | |].
    + rewrite E2. apply LE. rewrite <- Z.mul_assoc. apply Z.mul_le_mono_nonneg; try lia; change (2 ^ 52)%Z with (2 ^ 27 * 2 ^ 25)%Z in By; lia.
    + rewrite E3. apply LE. replace (al * (Zpos my - bl) * 2 ^ 25)%Z with ((al * 2 ^ 25) * (Zpos my - bl))%Z by ring. apply Z.mul_le_mono_nonneg; try lia; change (2 ^ 52)%Z with (2 ^ 27 * 2 ^ 25)%Z in Nx; lia.
    + rewrite E4. apply LE. replace (al * bl * 2 ^ 25)%Z with ((al * 2 ^ 25) * bl)%Z by ring. assert (bl <= Zpos my)%Z by (unfold bl; apply Z.mod_le; lia). apply Z.mul_le_mono_nonneg; try lia; change (2 ^ 52)%Z with (2 ^ 27 * 2 ^ 25)%Z in Nx; lia.
    + exists h, l. unfold eps, tiny, coarse, fine in *. split; [exact Dh|]. split; [exact Dl|]. split; [lra|]. split; [lra|]. intros _. lra.
  - destruct (K X) as (l & Dl & El); [lra|lra|lra|lra|lra|].
    exists h, l. unfold eps, tiny, coarse, fine in *. split; [exact Dh|]. split; [exact Dl|]. split; [lra|]. split; [lra|]. intros C. apply Hnorm in C. lia.
Qed.
