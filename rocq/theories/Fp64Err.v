(** * Fp64Err: relative errors over the rationals *)

From Coq Require Import ZArith QArith Qabs Qpower Lia Lqa.
From Verif Require Import Base SpecFp SpecFp64.
Open Scope Q_scope.

(** [v] approximates [x >= 0] with relative error [e]. *)
Definition rel (e v x : Q) : Prop := - (e * x) <= v - x <= e * x.

Lemma rel_exact x : rel 0 x x.
Proof. unfold rel. split; lra. Qed.
Lemma rel_weaken e e' v x : rel e v x -> 0 <= x -> e <= e' -> rel e' v x.
Proof. unfold rel. intros [H1 H2] Hx He. assert (e * x <= e' * x) by (apply Qmult_le_compat_r; assumption). lra. Qed.
Lemma rel_add e a x b y : rel e a x -> rel e b y -> rel e (a + b) (x + y).
Proof. unfold rel. intros [H1 H2] [H3 H4]. lra. Qed.
Lemma rel_bounds e v x : rel e v x -> 0 <= x -> 0 <= e <= 1 # 2 -> (1 # 2) * x <= v <= (2 # 1) * x.
Proof. unfold rel. intros [H1 H2] Hx [He0 He]. assert (e * x <= (1 # 2) * x) by (apply Qmult_le_compat_r; assumption). lra. Qed.
Lemma rel_trans e1 e2 w v x : rel e1 v x -> rel e2 w v -> 0 <= x -> 0 <= e1 -> 0 <= e2 -> rel (e1 + e2 + e1 * e2) w x.
Proof.
  unfold rel. intros [H1 H2] [H3 H4] Hx He1 He2.
  assert (H : e2 * v <= e2 * (x + e1 * x)) by (rewrite !(Qmult_comm e2); apply Qmult_le_compat_r; lra).
  assert (E : (e1 + e2 + e1 * e2) * x == e1 * x + e2 * (x + e1 * x)) by ring. rewrite E. lra.
Qed.
Lemma rel_mul e1 e2 a x b y : rel e1 a x -> rel e2 b y -> 0 <= x -> 0 <= y -> 0 <= e1 <= 1 # 2 -> 0 <= e2 -> rel (e1 + e2 + e1 * e2) (a * b) (x * y).
Proof.
  intros Ha Hb Hx Hy He1 He2. pose proof (rel_bounds e1 a x Ha Hx He1) as [B1 B2].
  apply (rel_trans e1 e2 (a * b) (a * y) (x * y)); try lra.
  - unfold rel in *. destruct Ha as [H1 H2]. assert (E : a * y - x * y == (a - x) * y) by ring. rewrite E.
    assert (E1 : e1 * (x * y) == (e1 * x) * y) by ring. rewrite E1. split.
    + assert (E2 : - (e1 * x * y) == (- (e1 * x)) * y) by ring. rewrite E2. apply Qmult_le_compat_r; lra.
    + apply Qmult_le_compat_r; lra.
  - unfold rel in *. destruct Hb as [H1 H2]. assert (E : a * b - a * y == (b - y) * a) by ring. rewrite E.
    assert (E1 : e2 * (a * y) == (e2 * y) * a) by ring. rewrite E1. split.
    + assert (E2 : - (e2 * y * a) == (- (e2 * y)) * a) by ring. rewrite E2. apply Qmult_le_compat_r; lra.
    + apply Qmult_le_compat_r; lra.
  - rewrite <- (Qmult_0_l y). apply Qmult_le_compat_r; lra.
Qed.
(** Division by an approximation. *)
Lemma rel_inv e e' p y : rel e p y -> 0 < y -> 0 <= e -> e <= 1 # 2 -> e * (1 + e') <= e' -> 0 < p /\ rel e' (/ p) (/ y).
Proof.
  intros Hp Hy He He2 HE. pose proof (rel_bounds e p y Hp ltac:(lra) (conj He He2)) as [B1 B2].
  assert (Hp0 : 0 < p) by lra. split; [exact Hp0|]. destruct Hp as [H1 H2].
  assert (He' : 0 <= e').
  { assert (e * (1 + e') == e + e * e') by ring. destruct (Qlt_le_dec e' 0) as [Hn|]; [|assumption]. exfalso.
    assert (e * e' >= (1 # 2) * e'). { setoid_replace (e * e') with (- (e * (- e'))) by ring. setoid_replace ((1 # 2) * e') with (- ((1 # 2) * (- e'))) by ring. apply Qopp_le_compat. apply Qmult_le_compat_r; lra. }
    lra. }
  assert (K : forall a b : Q, a * (p * y) <= b * (p * y) -> a <= b).
  { intros a b Hab. apply (Qmult_le_r a b (p * y)); [|exact Hab]. rewrite <- (Qmult_0_l y). apply Qmult_lt_r; assumption. }
  assert (Ne : ~ p == 0) by lra. assert (Ne2 : ~ y == 0) by lra.
  split; apply K.
  - setoid_replace (- (e' * / y) * (p * y)) with (- (e' * p)) by (field; assumption).
    setoid_replace ((/ p - / y) * (p * y)) with (y - p) by (field; split; assumption).
    assert (e' * y - e' * (e * y) <= e' * p). { setoid_replace (e' * y - e' * (e * y)) with ((y - e * y) * e') by ring. rewrite (Qmult_comm e' p). apply Qmult_le_compat_r; lra. }
    assert (e * y * (1 + e') <= e' * y). { setoid_replace (e * y * (1 + e')) with (e * (1 + e') * y) by ring. apply Qmult_le_compat_r; lra. }
    assert (e * y * (1 + e') == e * y + e' * (e * y)) by ring. lra.
  - setoid_replace (e' * / y * (p * y)) with (e' * p) by (field; assumption).
    setoid_replace ((/ p - / y) * (p * y)) with (y - p) by (field; split; assumption).
    assert (e' * y - e' * (e * y) <= e' * p). { setoid_replace (e' * y - e' * (e * y)) with ((y - e * y) * e') by ring. rewrite (Qmult_comm e' p). apply Qmult_le_compat_r; lra. }
    assert (e * y * (1 + e') <= e' * y). { setoid_replace (e * y * (1 + e')) with (e * (1 + e') * y) by ring. apply Qmult_le_compat_r; lra. }
    assert (e * y * (1 + e') == e * y + e' * (e * y)) by ring. lra.
Qed.

Lemma rel_abs e v x : 0 <= x -> (rel e v x <-> Qabs (v - x) <= e * Qabs x).
Proof.
  intros Hx. rewrite (Qabs_pos x Hx). unfold rel. split.
  - intros H. apply Qabs_Qle_condition. exact H.
  - intros H. apply Qabs_Qle_condition in H. exact H.
Qed.
