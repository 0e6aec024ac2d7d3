(** * StbRaise: a double times any power of ten, in two parts *)

From Coq Require Import ZArith QArith Qabs Qpower Lqa Lia SpecFloat.
From Verif Require Import Base SpecFp64 Fp64 Fp64Near Stb StbArith StbExact StbBits StbCoarse.
Open Scope Z_scope.
Open Scope Q_scope.

Lemma prod_abs a b x y : Qabs a <= x -> Qabs b <= y -> Qabs (a * b) <= x * y.
Proof.
  intros Ha Hb. rewrite Qabs_Qmult. pose proof (Qabs_nonneg a). pose proof (Qabs_nonneg b).
  apply Qle_trans with (x * Qabs b); [apply Qmult_le_compat_r; assumption|]. rewrite !(Qmult_comm x). apply Qmult_le_compat_r; [assumption|lra].
Qed.
Lemma prod_bnd a b x y : - x <= a <= x -> - y <= b <= y -> - (x * y) <= a * b <= x * y.
Proof. intros Ha Hb. apply Qabs_Qle_condition. apply prod_abs; apply Qabs_Qle_condition; assumption. Qed.

(** The relative errors of two factors. *)
Lemma prod_err a b A B d e : - (d * A) <= a - A <= d * A -> - (e * B) <= b - B <= e * B -> 0 < A -> 0 < B -> 0 <= d -> 0 <= e ->
  - ((d + e + d * e) * (A * B)) <= a * b - A * B <= (d + e + d * e) * (A * B).
Proof.
  intros Ha Hb HA HB Hd He.
  pose proof (prod_bnd _ _ _ _ Ha Hb) as P1.
  assert (P2 : - (d * A * B) <= (a - A) * B <= d * A * B) by (apply prod_bnd with (y := B); [exact Ha|lra]).
  assert (P3 : - (A * (e * B)) <= A * (b - B) <= A * (e * B)) by (apply prod_bnd; [lra|exact Hb]).
  setoid_replace (a * b - A * B) with ((a - A) * (b - B) + (a - A) * B + A * (b - B)) by ring.
  setoid_replace ((d + e + d * e) * (A * B)) with (d * A * (e * B) + d * A * B + A * (e * B)) by ring. lra.
Qed.

(** The pair [p] approximates [X]: its first part roughly, the sum with
    relative error [D]. *)
Definition cR : Q := Eval compute in 1 # 2 ^ 45.
Definition cM : Q := Eval compute in 1 # 2 ^ 44.
Definition dmax : Q := Eval compute in 3 # 2 ^ 48.
Definition step : Q := Eval compute in 1 # 2 ^ 70.
Definition e95 : Q := Eval compute in 1 # 2 ^ 92.
Definition e100 : Q := Eval compute in 1 # 2 ^ 100.
Definition e50 : Q := Eval compute in 1 # 2 ^ 50.
Definition e44 : Q := Eval compute in 1 # 2 ^ 44.

Definition dd (p : spec_float * spec_float) (X A D : Q) : Prop :=
  exists h l, dv (fst p) h /\ dv (snd p) l /\ - (A * X) <= h - X <= A * X /\ - (D * X) <= h + l - X <= D * X.

Ltac consts := unfold cR, cM, dmax, step, e95, e100, e50, e44, eps, tiny, fine, coarse in *.

Lemma DX D E X : 0 <= X -> D <= E -> D * X <= E * X.
Proof. intros HX HD. apply Qmult_le_compat_r; assumption. Qed.

Lemma renorm_dd p X D : 0 < X -> 16 * X <= maxd -> 0 <= D -> D <= dmax -> dd p X cM D -> dd (ddrenorm (fst p) (snd p)) X cR (D + e95).
Proof.
  intros HX HM HD HD2 (h & l & Dh & Dl & Eh & El). pose proof (DX D dmax X (Qlt_le_weak _ _ HX) HD2) as HDX.
  unfold ddrenorm. cbv zeta. unfold dd. cbn [fst snd]. consts.
  destruct (add_B _ _ h l (2 * X) Dh Dl) as (s & Ds & Es); [lra|lra|]. consts.
  destruct (sub_B _ _ s h ((1 # 8796093022208) * X) Ds Dh) as (z & Dz & Ez); [split; lra|lra|]. consts.
  destruct (sub_B _ _ l z ((1 # 4398046511104) * X) Dl Dz) as (w & Dw & Ew); [split; lra|lra|]. consts.
  exists s, w. split; [exact Ds|]. split; [exact Dw|]. rewrite Qmult_plus_distr_l. split; [lra|]. lra.
Qed.

Lemma mul_dd x my ey c h l X D tev T cv : let y := S754_finite false my ey in let tv := inject_Z (Zpos my) * pow2 ey in
  dv x h -> pow2 (-1022) <= h -> 0 < X -> 0 < T -> - (cR * X) <= h - X <= cR * X -> - (D * X) <= h + l - X <= D * X -> 0 <= D -> D <= dmax ->
  is_double y -> (2 ^ 52 <= Zpos my)%Z -> - (e100 * T) <= tv + tev - T <= e100 * T -> - (e50 * T) <= tev <= e50 * T ->
  32 * (X * T) <= maxd -> (2 <= X * T \/ (intsplit my ey /\ (-52 <= ey)%Z)) ->
  dv c cv -> - (e95 * (X * T)) <= cv - (h * tev + l * tv) <= e95 * (X * T) ->
  dd (fst (ddmulthi x y), dadd (snd (ddmulthi x y)) c) (X * T) cM (D + step).
Proof.
  intros y tv Dx Hn HX HT Eh El HD HD2 Hy By Et Ete HM HG Dc Ec.
  pose proof (DX D dmax X (Qlt_le_weak _ _ HX) HD2) as HDX.
  assert (HXT : 0 < X * T) by (apply Qmult_lt_0_compat; assumption).
  pose proof (DX D dmax (X * T) (Qlt_le_weak _ _ HXT) HD2) as HDXT.
  assert (Hh : 0 < h) by (apply Qlt_le_trans with (pow2 (-1022)); [apply pow2_pos|exact Hn]).
  (* the products *)
  assert (Etv : - ((1 # 1000000000000000) * T) <= tv - T <= (1 # 1000000000000000) * T) by (consts; lra).
  assert (PY : - ((1 # 20000000000000) * (X * T)) <= h * tv - X * T <= (1 # 20000000000000) * (X * T)).
  { assert (Eh' : - ((1 # 30000000000000) * X) <= h - X <= (1 # 30000000000000) * X) by (consts; lra).
    pose proof (prod_err h tv X T _ _ Eh' Etv HX HT ltac:(discriminate) ltac:(discriminate)) as P. lra. }
  assert (PS : - (D * (X * T) + e95 * (X * T)) <= (h + l) * (tv + tev) - X * T <= D * (X * T) + e95 * (X * T)).
  { pose proof (prod_err (h + l) (tv + tev) X T D e100 El Et HX HT HD ltac:(discriminate)) as P.
    setoid_replace ((D + e100 + D * e100) * (X * T)) with (D * (X * T) + e100 * (X * T) + e100 * (D * (X * T))) in P by ring. consts. lra. }
  assert (PL : - ((1 # 20000000000000) * e50 * (X * T)) <= l * tev <= (1 # 20000000000000) * e50 * (X * T)).
  { setoid_replace ((1 # 20000000000000) * e50 * (X * T)) with ((1 # 20000000000000) * X * (e50 * T)) by ring. apply prod_bnd; [consts; lra|exact Ete]. }
  assert (PC : - ((1 # 20000000000000) * (1 + (1 # 1000000000000000)) * (X * T)) <= l * tv <= (1 # 20000000000000) * (1 + (1 # 1000000000000000)) * (X * T)).
  { setoid_replace ((1 # 20000000000000) * (1 + (1 # 1000000000000000)) * (X * T)) with ((1 # 20000000000000) * X * ((1 + (1 # 1000000000000000)) * T)) by ring. apply prod_bnd; consts; lra. }
  assert (PH : - ((1 + (1 # 1000000000000)) * e50 * (X * T)) <= h * tev <= (1 + (1 # 1000000000000)) * e50 * (X * T)).
  { setoid_replace ((1 + (1 # 1000000000000)) * e50 * (X * T)) with ((1 + (1 # 1000000000000)) * X * (e50 * T)) by ring. apply prod_bnd; [consts; lra|exact Ete]. }
  assert (EQ : (h + l) * (tv + tev) == h * tv + (h * tev + l * tv) + l * tev) by ring.
  set (XT := X * T) in *. set (Y := h * tv) in *. set (C := h * tev + l * tv) in *. set (le := l * tev) in *.
  assert (EC : C == h * tev + l * tv) by reflexivity. clearbody C.
  destruct (mulhi_spec x h my ey Y Dx Hh Hy By) as (h2 & l2 & Dh2 & Dl2 & Eh2 & _ & El2).
  { unfold Y, tv. reflexivity. }
  { lra. }
  { destruct HG as [HG|HG]; [left; lra|right; exact HG]. }
  specialize (El2 Hn). fold y in Dh2, Dl2.
  clear Dx HD HD2 Et Etv Eh El HDX. consts.
  assert (F1 : - ((1 # 100000000000000) * XT) <= l2 <= (1 # 100000000000000) * XT) by lra.
  assert (F2 : - ((1 # 15000000000000) * XT) <= C <= (1 # 15000000000000) * XT) by lra.
  assert (F3 : - ((1 # 12000000000000) * XT) <= cv <= (1 # 12000000000000) * XT) by lra.
  destruct (add_B _ _ l2 cv ((1 # 8796093022208) * XT) Dl2 Dc) as (w & Dw & Ew); [lra|lra|].
  exists h2, w. cbn [fst snd]. split; [exact Dh2|]. split; [exact Dw|]. rewrite Qmult_plus_distr_l. consts.
  split; [lra|]. rewrite EQ in PS. clear EQ EC PC PH Ete F1 F2 F3. lra.
Qed.

Lemma dd_weaken p X A D A' D' : 0 < X -> A <= A' -> D <= D' -> dd p X A D -> dd p X A' D'.
Proof.
  intros HX HA HD (h & l & Dh & Dl & Eh & El). exists h, l. split; [exact Dh|]. split; [exact Dl|].
  pose proof (DX A A' X (Qlt_le_weak _ _ HX) HA). pose proof (DX D D' X (Qlt_le_weak _ _ HX) HD). split; lra.
Qed.
Lemma dd_eq p X X' A D : X == X' -> dd p X A D -> dd p X' A D.
Proof. intros E (h & l & Dh & Dl & Eh & El). exists h, l. rewrite E in Eh, El. auto. Qed.

(** The integers among the doubles. *)
Definition is_int (q : Q) : Prop := exists n, q == inject_Z n.

(** An entry of the tables: [t + te] is [T], nearly. *)
Definition entry (t te : spec_float) (T : Q) (my : positive) (ey : Z) (tev : Q) : Prop :=
  t = S754_finite false my ey /\ is_double t /\ (2 ^ 52 <= Zpos my)%Z /\ dv te tev /\
  - (e100 * T) <= inject_Z (Zpos my) * pow2 ey + tev - T <= e100 * T /\ - (e50 * T) <= tev <= e50 * T.

Lemma split_int my ey : intsplit my ey -> is_int (inject_Z (Zpos my) * pow2 ey).
Proof.
  intros [(nh & Eh) (nl & El)]. exists (nh + nl)%Z. rewrite inject_Z_plus, <- Eh, <- El, <- Qmult_plus_distr_l, <- inject_Z_plus.
  replace (Zpos my - Zpos my mod 2 ^ 27 + Zpos my mod 2 ^ 27)%Z with (Zpos my) by ring. reflexivity.
Qed.

(** A product by an entry and the lower order terms, stb.impl.hpp:485-496. *)
Lemma table_dd p X D t te T my ey tev : dd p X cR D -> 0 < X -> 0 < T -> 2 * pow2 (-1022) <= X -> 0 <= D -> D <= dmax -> entry t te T my ey tev ->
  32 * (X * T) <= maxd -> (2 <= X * T \/ (intsplit my ey /\ (-52 <= ey)%Z /\ is_int tev)) ->
  dd (fst (ddmulthi (fst p) t), ddmultlo (snd (ddmulthi (fst p) t)) (fst p) (snd p) t te) (X * T) cM (D + step).
Proof.
  intros (h & l & Dh & Dl & Eh & El) HX HT Hn HD HD2 (-> & Ht & Bm & Dte & Et & Ete) HM HG. unfold ddmultlo.
  pose proof (DX D dmax X (Qlt_le_weak _ _ HX) HD2) as HDX.
  assert (HXT : 0 < X * T) by (apply Qmult_lt_0_compat; assumption).
  set (tv := inject_Z (Zpos my) * pow2 ey) in *.
  assert (PC : - ((1 # 20000000000000) * (1 + (1 # 1000000000000000)) * (X * T)) <= l * tv <= (1 # 20000000000000) * (1 + (1 # 1000000000000000)) * (X * T)).
  { setoid_replace ((1 # 20000000000000) * (1 + (1 # 1000000000000000)) * (X * T)) with ((1 # 20000000000000) * X * ((1 + (1 # 1000000000000000)) * T)) by ring. apply prod_bnd; consts; lra. }
  assert (PH : - ((1 + (1 # 1000000000000)) * e50 * (X * T)) <= h * tev <= (1 + (1 # 1000000000000)) * e50 * (X * T)).
  { setoid_replace ((1 + (1 # 1000000000000)) * e50 * (X * T)) with ((1 + (1 # 1000000000000)) * X * (e50 * T)) by ring. apply prod_bnd; [consts; lra|exact Ete]. }
  assert (Hm0 : 0 <= maxd) by (vm_compute; discriminate).
  destruct (mul_B _ _ h tev ((1 # 1000000000000000) * (X * T)) (X * T) Dh Dte) as (p1 & Dp1 & Ep1); [consts; lra|lra|lra| |].
  { destruct HG as [HG|(_ & _ & n & En)]; [right; lra|left]. apply grid_eq with (h * inject_Z n); [rewrite En; reflexivity|]. apply grid_int. eapply dv_grid; exact Dh. }
  destruct (mul_B _ _ l tv ((1 # 19000000000000) * (X * T)) (X * T) Dl (finite_dv my ey Ht)) as (p2 & Dp2 & Ep2); [fold tv; lra|lra|lra| |].
  { destruct HG as [HG|(HI & _ & _)]; [right; lra|left]. destruct (split_int _ _ HI) as (n & En). apply grid_eq with (l * inject_Z n); [fold tv in En; rewrite En; reflexivity|]. apply grid_int. eapply dv_grid; exact Dl. }
  fold tv in Ep2.
  destruct (add_B _ _ p1 p2 ((1 # 15000000000000) * (X * T)) Dp1 Dp2) as (cv & Dc & Ec); [consts; lra|lra|].
  apply mul_dd with (h := h) (l := l) (tev := tev) (cv := cv); try assumption.
  - consts. lra.
  - destruct HG as [HG|(HI & HE & _)]; [left; exact HG|right; split; assumption].
  - fold tv. consts. lra.
Qed.

(** The first product, by a power of ten that is not exact, stb.impl.hpp:453-458. *)
Lemma first_dd x X t te T my ey tev : dv x X -> 0 < T -> pow2 (-1022) <= X -> entry t te T my ey tev -> 32 * (X * T) <= maxd -> 2 <= X * T ->
  dd (fst (ddmulthi x t), ddmultlos (snd (ddmulthi x t)) x te) (X * T) cM step.
Proof.
  intros Dx HT Hn (-> & Ht & Bm & Dte & Et & Ete) HM HG. unfold ddmultlos.
  assert (HX : 0 < X) by (apply Qlt_le_trans with (pow2 (-1022)); [apply pow2_pos|exact Hn]).
  assert (HXT : 0 < X * T) by (apply Qmult_lt_0_compat; assumption).
  assert (PH : - (X * (e50 * T)) <= X * tev <= X * (e50 * T)) by (apply prod_bnd; [lra|exact Ete]).
  assert (Hm0 : 0 <= maxd) by (vm_compute; discriminate).
  setoid_replace (X * (e50 * T)) with (e50 * (X * T)) in PH by ring.
  destruct (mul_B _ _ X tev (e50 * (X * T)) (X * T) Dx Dte) as (cv & Dc & Ec); [exact PH|consts; lra|lra|right; lra|].
  apply dd_weaken with cM (0 + step); [exact HXT|apply Qle_refl|consts; vm_compute; discriminate|].
  apply mul_dd with (h := X) (l := 0) (tev := tev) (cv := cv); try assumption; try (consts; lra).
Qed.

(** A power of ten that is a double. *)
Definition exact10 (t : spec_float) (T : Q) (my : positive) (ey : Z) : Prop :=
  t = S754_finite false my ey /\ is_double t /\ (2 ^ 52 <= Zpos my)%Z /\ inject_Z (Zpos my) * pow2 ey == T /\ intsplit my ey /\ (-52 <= ey)%Z.

Lemma bot_dd x X t T my ey D : dv x X -> 0 < X -> 0 < T -> exact10 t T my ey -> 32 * (X * T) <= maxd -> D = coarse \/ (D = fine /\ pow2 (-1022) <= X) ->
  dd (ddmulthi x t) (X * T) cM D.
Proof.
  intros Dx HX HT (-> & Ht & Bm & Et & HI & HE) HM HD.
  assert (HXT : 0 < X * T) by (apply Qmult_lt_0_compat; assumption).
  destruct (mulhi_spec x X my ey (X * T) Dx HX Ht Bm) as (h & l & Dh & Dl & Eh & El & Ef).
  { rewrite Et. reflexivity. }
  { assert (0 <= maxd) by (vm_compute; discriminate). lra. }
  { right. split; assumption. }
  exists h, l. split; [exact Dh|]. split; [exact Dl|]. split; [consts; lra|].
  destruct HD as [->|[-> HN]]; [exact El|apply Ef; exact HN].
Qed.

(** The second product by an exact power, stb.impl.hpp:476-482. *)
Lemma bot2_dd p X D t T my ey : dd p X cR D -> 0 < X -> 0 < T -> 2 * pow2 (-1022) <= X -> 0 <= D -> D <= dmax -> exact10 t T my ey ->
  32 * (X * T) <= maxd ->
  dd (fst (ddmulthi (fst p) t), ddmultlos (snd (ddmulthi (fst p) t)) t (snd p)) (X * T) cM (D + step).
Proof.
  intros (h & l & Dh & Dl & Eh & El) HX HT Hn HD HD2 (-> & Ht & Bm & Et & HI & HE) HM. unfold ddmultlos.
  pose proof (DX D dmax X (Qlt_le_weak _ _ HX) HD2) as HDX.
  assert (HXT : 0 < X * T) by (apply Qmult_lt_0_compat; assumption).
  set (tv := inject_Z (Zpos my) * pow2 ey) in *.
  assert (PC : - (T * ((1 # 20000000000000) * X)) <= tv * l <= T * ((1 # 20000000000000) * X)) by (rewrite Et; apply prod_bnd; consts; lra).
  setoid_replace (T * ((1 # 20000000000000) * X)) with ((1 # 20000000000000) * (X * T)) in PC by ring.
  assert (Hm0 : 0 <= maxd) by (vm_compute; discriminate).
  destruct (mul_B _ _ tv l ((1 # 20000000000000) * (X * T)) (X * T) (finite_dv my ey Ht) Dl) as (cv & Dc & Ec); [exact PC|lra|lra| |].
  { left. destruct (split_int _ _ HI) as (n & En). apply grid_eq with (l * inject_Z n); [fold tv in En; rewrite En; ring|]. apply grid_int. eapply dv_grid; exact Dl. }
  apply mul_dd with (h := h) (l := l) (tev := 0) (cv := cv); try assumption; try fold tv.
  - consts. lra.
  - rewrite Et. consts. lra.
  - consts. lra.
  - right. split; assumption.
  - setoid_replace (h * 0 + l * tv) with (tv * l) by ring. consts. lra.
Qed.
